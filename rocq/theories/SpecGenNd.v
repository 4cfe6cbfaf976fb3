(** Region reads and writes over any store: voxels. *)
From Verif Require Import GenNd Spec SpecMeta SpecHier SpecStore.
Local Open Scope Z_scope.

(** As [voxel], Spec.v. *)
Definition g_voxel {S} (st : store S) (C : codec) (h : host) (x : S) (t : rty) (path : bytes)
    (m : array_meta) (fill : Z) (v : list Z) : res Z :=
  o ← g_read_chunk st C h x t path m (zip_with Z.div v (am_chunk_shape m));
  match o with
  | None => Ok fill
  | Some ck =>
      of_option InvalidData
        (ck_data ck !! Z.to_nat (layout_rank (am_order m) (am_chunk_shape m)
                                   (zip_with Z.modulo v (am_chunk_shape m))))
  end.
(** Every stored chunk of the array can be read. *)
Definition all_readable {S} (st : store S) (C : codec) (h : host) (x : S) (t : rty) (path : bytes)
    (m : array_meta) : Prop :=
  forall pos, pos_ok pos -> in_bounds (h_prof h) m pos = Ok true ->
  exists o, g_read_chunk st C h x t path m pos = Ok o.
