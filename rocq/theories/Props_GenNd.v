(** Property theorems: regions over any store (C73). *)
From Verif Require Import GenNd Spec SpecMeta SpecHier SpecStore SpecGenNd GenFacts GenSim GenList GenNdFacts NdFacts
  Props_Chunk Props_Store Props_Nd Props_Hier Props_GenStore.
Local Open Scope Z_scope.

(** The region operations of the other properties are those of this file for
    the file-system store. *)
Theorem C73_filesystem :
  forall H flit C h, let st := fs_store (hy_base H) in
  g_read_ndarray_into_with_buffer st C h = read_ndarray_into_with_buffer C h H
  /\ g_read_ndarray_into st C h = read_ndarray_into C h H
  /\ g_read_ndarray st flit C h = read_ndarray flit C h H
  /\ (forall s t path m off arr,
        g_write_ndarray st flit C h s t path m off arr = write_ndarray flit C h H s t path m off arr)
  /\ g_voxel st C h = voxel C h H.
Proof. exact nd_filesystem. Qed.
Print Assumptions C73_filesystem.

(** C73.  Missing: as in C21 and C22, rank-zero arrays and boxes whose
    coordinates overflow 64 bits.  A read that returns an array returns the
    voxels, over every store whatever it does. *)
Theorem C73_region_read_partial :
  forall (S : Type) (st : store S) flit C h x t path m bb a,
  bounded_ok (am_shape m) (am_chunk_shape m) (bb_off bb) (bb_shape bb) ->
  chunk_shape_ok m -> am_shape m <> [] ->
  g_read_ndarray st flit C h x t path m bb = Ok a ->
  exists fill, effective_fill flit t m = Ok fill
  /\ nd_shape a = bb_shape bb
  /\ forall i, index_of (bb_shape bb) i ->
     let v := zip_with Z.add (bb_off bb) i in
     (grid_voxel m v -> g_voxel st C h x t path m fill v = Ok (nd_at a i))
     /\ (nd_at a i = fill \/ g_voxel st C h x t path m fill v = Ok (nd_at a i)).
Proof. exact @g_read_region. Qed.
Print Assumptions C73_region_read_partial.

(** Over every map-like store a successful write changes the voxels of the box,
    and only those, and no key that is not a chunk of the array.  Any path and
    any separator with distinct chunk keys (C11). *)
Theorem C73_region_write_partial :
  forall (S : Type) (st : store S) erased (kv : S -> gmap bytes bytes), map_like st erased kv ->
  forall flit C h x t path m off arr x' fill,
  bounded_ok (am_shape m) (am_chunk_shape m) off (nd_shape arr) ->
  am_shape m <> [] -> fits_memory (nd_shape arr) ->
  "c"%char ∉ am_sep m -> match am_sep m with b :: _ => is_digit b = false | [] => False end ->
  type_ok C t m -> effective_fill flit t m = Ok fill -> elt_ok t fill ->
  (forall i, index_of (nd_shape arr) i -> elt_ok t (nd_at arr i)) ->
  g_write_ndarray st flit C h x t path m off arr = (x', Ok tt) ->
  (forall k, (forall pos, pos_ok pos -> k <> get_chunk_key path m pos) -> kv x' !! k = kv x !! k)
  /\ (forall v, grid_voxel m v ->
      (in_box off (nd_shape arr) v ->
         g_voxel st C h x' t path m fill v = Ok (nd_at arr (zip_with Z.sub v off)))
      /\ (~ in_box off (nd_shape arr) v ->
         g_voxel st C h x' t path m fill v = g_voxel st C h x t path m fill v)).
Proof. exact @g_write_region. Qed.
Print Assumptions C73_region_write_partial.

(** Reads and writes go through when the box overlaps the array and the chunks
    that are stored can be read, and leave chunks that can be read. *)
Theorem C73_read_succeeds_partial :
  forall (S : Type) (st : store S) flit C h x t path m bb fill,
  bounded_ok (am_shape m) (am_chunk_shape m) (bb_off bb) (bb_shape bb) ->
  overlaps m bb -> fits_memory (bb_shape bb) -> chunk_shape_ok m ->
  effective_fill flit t m = Ok fill -> all_readable st C h x t path m ->
  exists a, g_read_ndarray st flit C h x t path m bb = Ok a.
Proof. exact @g_read_succeeds. Qed.
Print Assumptions C73_read_succeeds_partial.
Theorem C73_write_succeeds_partial :
  forall (S : Type) (st : store S) erased (kv : S -> gmap bytes bytes), map_like st erased kv ->
  forall flit C h x t path m off arr fill,
  bounded_ok (am_shape m) (am_chunk_shape m) off (nd_shape arr) ->
  overlaps m (BBox off (nd_shape arr)) -> fits_memory (nd_shape arr) ->
  "c"%char ∉ am_sep m -> match am_sep m with b :: _ => is_digit b = false | [] => False end ->
  type_ok C t m -> effective_fill flit t m = Ok fill -> elt_ok t fill ->
  (forall i, index_of (nd_shape arr) i -> elt_ok t (nd_at arr i)) ->
  all_readable st C h x t path m ->
  exists x', g_write_ndarray st flit C h x t path m off arr = (x', Ok tt)
  /\ all_readable st C h x' t path m.
Proof. exact @g_write_succeeds. Qed.
Print Assumptions C73_write_succeeds_partial.

(** What was written into the array is read back. *)
Theorem C73_read_back_partial :
  forall (S : Type) (st : store S) erased (kv : S -> gmap bytes bytes) flit C h x t path m off arr fill,
  map_like st erased kv ->
  bounded_ok (am_shape m) (am_chunk_shape m) off (nd_shape arr) ->
  overlaps m (BBox off (nd_shape arr)) -> fits_memory (nd_shape arr) -> am_shape m <> [] ->
  "c"%char ∉ am_sep m -> match am_sep m with b :: _ => is_digit b = false | [] => False end ->
  type_ok C t m -> effective_fill flit t m = Ok fill -> elt_ok t fill ->
  (forall i, index_of (nd_shape arr) i -> elt_ok t (nd_at arr i)) ->
  (forall v, in_box off (nd_shape arr) v -> index_of (am_shape m) v) ->
  all_readable st C h x t path m ->
  exists x' a, g_write_ndarray st flit C h x t path m off arr = (x', Ok tt)
  /\ g_read_ndarray st flit C h x' t path m (BBox off (nd_shape arr)) = Ok a
  /\ nd_shape a = nd_shape arr /\ forall i, index_of (nd_shape arr) i -> nd_at a i = nd_at arr i.
Proof. exact @g_read_back. Qed.
Print Assumptions C73_read_back_partial.

(** The array, the chunk and the region of C22 in a store that is a map. *)
Definition ex_map : gmap bytes bytes :=
  fst (g_write_chunk ex_store ex_codec ex_host ∅ RI16 ex_path ex_meta (Chunk [1; 1] ex_data)).
Definition ex_gread (x : gmap bytes bytes) (b : bbox) : res (list Z * list Z) :=
  nd_list (g_read_ndarray ex_store ex_flit ex_codec ex_host x RI16 ex_path ex_meta b).
Definition ex_gwrite : gmap bytes bytes * res unit :=
  g_write_ndarray ex_store ex_flit ex_codec ex_host ex_map RI16 ex_path ex_meta [2; 2] ex_payload.
Example C73_example :
  map_like ex_store below id
  /\ overlaps ex_meta (BBox [2; 2] (nd_shape ex_payload))
  /\ type_ok ex_codec RI16 ex_meta
  /\ all_readable ex_store ex_codec ex_host ex_map RI16 ex_path ex_meta
  /\ snd ex_gwrite = Ok tt /\ size (fst ex_gwrite) = 4%nat
  /\ ex_gread ex_map (BBox [1; 1] [4; 6])
     = Ok ([4; 6], [0; 0; 0; 0; 0; 0;  0; 0; -1; 300; 32767; 0;  0; 0; 2; -32768; 0; 0;  0; 0; 0; 0; 0; 0])
  /\ ex_gread (fst ex_gwrite) (BBox [1; 1] [4; 6])
     = Ok ([4; 6], [0; 0; 0; 0; 0; 0;  0; 0; 1; 2; 32767; 0;  0; 10; 11; 12; 0; 0;  0; 20; 21; 22; 0; 0]).
Proof.
  split; [apply map_map_like|]. split.
  { exists [3; 3]. split; (split; [done|]; split; [done|]; intros [|[|i]] x o sh; cbn; intros [= <-] [= <-] [= <-]; lia). }
  split; [exact ex_type_ok|]. split.
  { intros pos _ IB. unfold g_read_chunk. rewrite IB. cbn [mbind res_bind assert_ ex_store map_store ss_get].
    set (c := fst (encode_chunk ex_codec ex_host RI16 ex_meta (Chunk [1; 1] ex_data))).
    assert (ex_map = <[get_chunk_key ex_path ex_meta [1; 1] := c]> ∅) as -> by (vm_compute; reflexivity).
    destruct (decide (get_chunk_key ex_path ex_meta pos = get_chunk_key ex_path ex_meta [1; 1])) as [->|N].
    - rewrite lookup_insert. unfold c. eexists. vm_compute. reflexivity.
    - rewrite lookup_insert_ne, lookup_empty by done. by eexists. }
  split; [vm_compute; reflexivity|]. split; [vm_compute; reflexivity|]. split; vm_compute; reflexivity.
Qed.
