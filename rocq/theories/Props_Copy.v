(** Property theorems: reading a region and writing it somewhere (C81). *)
From Verif Require Import Json MetaJson BBox CoordIter Nd Hier Spec SpecHier SpecPlace SpecVox BaseFacts FSFacts NdFacts NdSafe StoreFacts CopyFacts
  Props_Chunk Props_Store Props_Nd Props_Vox.
Local Open Scope Z_scope.

(** C81.  Everything a region read returns is a value of the element type, so it
    can be written. *)
Theorem C81_elements :
  forall flit C h H s t path m bb a,
  bounded_ok (am_shape m) (am_chunk_shape m) (bb_off bb) (bb_shape bb) -> chunk_shape_ok m -> am_shape m <> [] ->
  (forall fill, effective_fill flit t m = Ok fill -> elt_ok t fill) ->
  read_ndarray flit C h H s t path m bb = Ok a ->
  forall i, index_of (bb_shape bb) i -> elt_ok t (nd_at a i).
Proof. exact read_elts. Qed.
Print Assumptions C81_elements.

(** Writing a region back where it was read changes no voxel of the array. *)
Theorem C81_write_back :
  forall flit C h H t, plain (hy_base H) ->
  forall path m, plain path -> good_sep (am_sep m) -> lossless C (am_comp m) -> chunk_shape_ok m -> am_shape m <> [] ->
  (forall fill, effective_fill flit t m = Ok fill -> elt_ok t fill) ->
  forall s bb a s', wf_fs s -> bounded_ok (am_shape m) (am_chunk_shape m) (bb_off bb) (bb_shape bb) -> fits_memory (bb_shape bb) ->
  read_ndarray flit C h H s t path m bb = Ok a ->
  write_ndarray flit C h H s t path m (bb_off bb) a = (s', Ok tt) ->
  forall bb' b b', bounded_ok (am_shape m) (am_chunk_shape m) (bb_off bb') (bb_shape bb') ->
  read_ndarray flit C h H s t path m bb' = Ok b -> read_ndarray flit C h H s' t path m bb' = Ok b' ->
  forall i, index_of (bb_shape bb') i -> index_of (am_shape m) (zip_with Z.add (bb_off bb') i) -> nd_at b' i = nd_at b i.
Proof. exact write_back. Qed.
Print Assumptions C81_write_back.

(** Copying a region to another place (of the same or of another array, of any
    chunk shape, layout, byte order and compression): reading the copy gives
    what was copied, and another array it was copied from is as before. *)
Theorem C81_copy :
  forall flit C h H t, plain (hy_base H) ->
  forall path m path' m', plain path -> plain path' -> good_sep (am_sep m) -> good_sep (am_sep m') -> lossless C (am_comp m') ->
  chunk_shape_ok m -> am_shape m <> [] -> chunk_shape_ok m' -> am_shape m' <> [] ->
  (forall fill, effective_fill flit t m = Ok fill -> elt_ok t fill) ->
  (forall fill, effective_fill flit t m' = Ok fill -> elt_ok t fill) ->
  forall s bb a off s', wf_fs s -> bounded_ok (am_shape m) (am_chunk_shape m) (bb_off bb) (bb_shape bb) ->
  bounded_ok (am_shape m') (am_chunk_shape m') off (bb_shape bb) -> fits_memory (bb_shape bb) ->
  (forall x, in_box off (bb_shape bb) x -> index_of (am_shape m') x) ->
  read_ndarray flit C h H s t path m bb = Ok a ->
  write_ndarray flit C h H s t path' m' off a = (s', Ok tt) ->
  (forall b, read_ndarray flit C h H s' t path' m' (BBox off (bb_shape bb)) = Ok b ->
     nd_shape b = bb_shape bb /\ forall i, index_of (bb_shape bb) i -> nd_at b i = nd_at a i)
  /\ (pieces path' <> pieces path -> forall bb' b b', bounded_ok (am_shape m) (am_chunk_shape m) (bb_off bb') (bb_shape bb') ->
      read_ndarray flit C h H s t path m bb' = Ok b -> read_ndarray flit C h H s' t path m bb' = Ok b' ->
      forall i, index_of (bb_shape bb') i -> index_of (am_shape m) (zip_with Z.add (bb_off bb') i) -> nd_at b' i = nd_at b i).
Proof. exact copied. Qed.
Print Assumptions C81_copy.

(** From the 5 x 7 array in chunks of 2 x 3 (column-major, big endian) to the one
    in chunks of 3 x 5 (row-major, little endian). *)
Definition ex_read : res nd := read_ndarray ex_flit ex_codec ex_host ex_hier ex_vox_1 RI16 ex_path ex_meta (BBox [1; 2] [3; 3]).
Definition ex_copy (path : bytes) (m : array_meta) (off : list Z) : fs * res unit :=
  match ex_read with Ok a => write_ndarray ex_flit ex_codec ex_host ex_hier ex_vox_1 RI16 path m off a | _ => (ex_vox_1, Panic) end.
Example C81_example :
  nd_list ex_read = Ok ([3; 3], [0; 0; 0; 0; 1; 2; 10; 11; 12])
  /\ bounded_ok (am_shape ex_meta) (am_chunk_shape ex_meta) [1; 2] [3; 3] /\ bounded_ok (am_shape ex_other) (am_chunk_shape ex_other) [0; 3] [3; 3]
  /\ fits_memory [3; 3] /\ pieces (B "o") <> pieces ex_path
  /\ (forall x, in_box [0; 3] [3; 3] x -> index_of (am_shape ex_other) x)
  /\ snd (ex_copy (B "o") ex_other [0; 3]) = Ok tt
  /\ nd_list (read_ndarray ex_flit ex_codec ex_host ex_hier (fst (ex_copy (B "o") ex_other [0; 3])) RI16 (B "o") ex_other (BBox [0; 3] [3; 3]))
     = Ok ([3; 3], [0; 0; 0; 0; 1; 2; 10; 11; 12])
  /\ snd (ex_copy ex_path ex_meta [1; 2]) = Ok tt
  /\ nd_list (read_ndarray ex_flit ex_codec ex_host ex_hier (fst (ex_copy ex_path ex_meta [1; 2])) RI16 ex_path ex_meta (BBox [2; 2] [3; 3]))
     = Ok ([3; 3], [0; 1; 2; 10; 11; 12; 20; 21; 22]).
Proof.
  split; [vm_compute; reflexivity|]. split; [repeat constructor; done|]. split; [repeat constructor; done|].
  split; [reflexivity|]. split; [by apply (bool_decide_eq_false_1 _)|]. split.
  { intros x (L1 & L2 & IN). destruct x as [|u [|v []]]; try done.
    pose proof (IN 0%nat u 0 3 eq_refl eq_refl eq_refl). pose proof (IN 1%nat v 3 3 eq_refl eq_refl eq_refl).
    split; [done|]. split; [done|]. intros [|[|k]] a b c; cbn; intros [= <-] [= <-] [= <-]; lia. }
  repeat split; vm_compute; reflexivity.
Qed.
