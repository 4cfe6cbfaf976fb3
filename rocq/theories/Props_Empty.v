(** Property theorems: writes of regions without voxels (C84). *)
From Verif Require Import Json MetaJson BBox CoordIter Nd Hier Spec BaseFacts FSFacts EmptyFacts Props_Chunk Props_Store Props_Nd Props_Fail.
Local Open Scope Z_scope.

(** C84.  A write of a region that is empty along some axis changes no voxel,
    however it ends. *)
Theorem C84_voxels_kept :
  forall flit C h H s t path m off arr s' r fill d,
  bounded_ok (am_shape m) (am_chunk_shape m) off (nd_shape arr) -> chunk_shape_ok m -> am_shape m <> [] -> fits_memory (nd_shape arr) ->
  wf_fs s -> plain (hy_base H) -> plain path -> good_sep (am_sep m) ->
  lossless C (am_comp m) -> total_codec C (am_comp m) -> effective m d -> same_kind_width d t -> effective_fill flit t m = Ok fill -> elt_ok t fill ->
  0 ∈ nd_shape arr ->
  write_ndarray flit C h H s t path m off arr = (s', r) ->
  forall x, grid_voxel m x -> voxel C h H s' t path m fill x = voxel C h H s t path m fill x.
Proof. exact empty_write. Qed.
Print Assumptions C84_voxels_kept.

(** When the offset along that axis is the first index of a chunk, no file is
    touched. *)
Theorem C84_store_kept_partial :
  forall flit C h H s t path m off arr s' r k o c,
  bounded_ok (am_shape m) (am_chunk_shape m) off (nd_shape arr) ->
  off !! k = Some o -> am_chunk_shape m !! k = Some c -> nd_shape arr !! k = Some 0 -> (c | o) ->
  write_ndarray flit C h H s t path m off arr = (s', r) -> s' = s.
Proof. exact aligned_write. Qed.
Print Assumptions C84_store_kept_partial.

(** At other offsets the claim is false.  Writing 0 x 2 values at (1, 1) stores
    chunk (0, 0), which was absent; and writing 0 x 1 values at (3, 4) fails
    because chunk (1, 1), of which it needs nothing, is damaged. *)
Definition ex_none (s : fs) (off shape : list Z) : fs * res unit :=
  write_ndarray ex_flit ex_codec ex_host ex_hier s RI16 ex_path ex_meta off (Nd shape (fun _ => 1)).
Theorem C84_store_kept_refuted :
  snd (ex_none ex_fs [1; 1] [0; 2]) = Ok tt
  /\ read_chunk ex_codec ex_host ex_hier ex_fs RI16 ex_path ex_meta [0; 0] = Ok None
  /\ read_chunk ex_codec ex_host ex_hier (fst (ex_none ex_fs [1; 1] [0; 2])) RI16 ex_path ex_meta [0; 0]
     = Ok (Some (Chunk [0; 0] [0; 0; 0; 0; 0; 0]))
  /\ snd (ex_none ex_cut [3; 4] [0; 1]) = Err UnexpectedEof.
Proof. repeat split; vm_compute; reflexivity. Qed.
Print Assumptions C84_store_kept_refuted.

(** The premises that C83_example does not show. *)
Example C84_example :
  bounded_ok (am_shape ex_meta) (am_chunk_shape ex_meta) [1; 1] [0; 2] /\ fits_memory [0; 2] /\ 0 ∈ [0; 2]
  /\ bounded_ok (am_shape ex_meta) (am_chunk_shape ex_meta) [2; 1] [0; 2] /\ [2; 1] !! 0%nat = Some 2
  /\ am_chunk_shape ex_meta !! 0%nat = Some 2 /\ [0; 2] !! 0%nat = Some 0 /\ (2 | 2)
  /\ snd (ex_none ex_fs1 [2; 1] [0; 2]) = Ok tt
  /\ snd (ex_none ex_fs1 [3; 4] [0; 1]) = Ok tt
  /\ map (ex_vx ex_fs1) [[2; 3]; [3; 4]; [2; 5]] = [Ok (-1); Ok (-32768); Ok 32767]
  /\ map (ex_vx (fst (ex_none ex_fs1 [3; 4] [0; 1]))) [[2; 3]; [3; 4]; [2; 5]] = [Ok (-1); Ok (-32768); Ok 32767].
Proof.
  split; [repeat constructor; done|]. split; [reflexivity|]. split; [left|]. split; [repeat constructor; done|].
  do 3 (split; [reflexivity|]). split; [by exists 1|]. repeat split; vm_compute; reflexivity.
Qed.
