(** Property theorems: the voxels of arrays are the numbers in the files (C79). *)
From Verif Require Import Json MetaJson BBox CoordIter Nd Hier Spec SpecPlace SpecFiles BaseFacts FSFacts NdFacts NdSafe StoreFacts PlaceFacts FilesFacts
  Props_Chunk Props_Store Props_Nd.
Local Open Scope Z_scope.

(** C79.  By the rules of the format a voxel has at most one value. *)
Theorem C79_one_value :
  forall C H s path m e t fill x v v', Forall (fun s => 0 < s) (am_chunk_shape m) ->
  voxel_in_files C H s path m e t fill x v -> voxel_in_files C H s path m e t fill x v' -> v = v'.
Proof. exact files_unique. Qed.
Print Assumptions C79_one_value.

(** A region read returns these values, whoever wrote the files. *)
Theorem C79_region_read :
  forall C h H t path m d e, plain (hy_base H) -> plain path -> plain (am_sep m) ->
  effective m d -> same_kind_width d t -> names_byte_order d e -> chunk_shape_ok m ->
  forall flit s bb a, wf_fs s -> bounded_ok (am_shape m) (am_chunk_shape m) (bb_off bb) (bb_shape bb) -> am_shape m <> [] ->
  read_ndarray flit C h H s t path m bb = Ok a ->
  exists fill, effective_fill flit t m = Ok fill /\ nd_shape a = bb_shape bb
  /\ forall i, index_of (bb_shape bb) i -> grid_voxel m (zip_with Z.add (bb_off bb) i) ->
     voxel_in_files C H s path m e t fill (zip_with Z.add (bb_off bb) i) (nd_at a i).
Proof. exact region_in_files. Qed.
Print Assumptions C79_region_read.

(** It succeeds if the region overlaps the array and no file is too short. *)
Theorem C79_read_succeeds :
  forall C h H t path m d, plain (hy_base H) -> plain path -> plain (am_sep m) ->
  effective m d -> same_kind_width d t -> chunk_shape_ok m ->
  forall flit s bb fill, wf_fs s -> bounded_ok (am_shape m) (am_chunk_shape m) (bb_off bb) (bb_shape bb) -> overlaps m bb ->
  fits_memory (bb_shape bb) -> effective_fill flit t m = Ok fill ->
  (forall pos, pos_ok pos -> whole_file C H s path m t pos) ->
  exists a, read_ndarray flit C h H s t path m bb = Ok a.
Proof. exact files_read_succeeds. Qed.
Print Assumptions C79_read_succeeds.

(** After a region write the voxels of the region have, in the files, the
    written values; the other voxels have those they had; and no other file is
    changed. *)
Theorem C79_region_written :
  forall C h H t path m d e, plain (hy_base H) -> plain path -> plain (am_sep m) ->
  effective m d -> same_kind_width d t -> names_byte_order d e -> chunk_shape_ok m ->
  forall flit s off arr s' fill, wf_fs s -> bounded_ok (am_shape m) (am_chunk_shape m) off (nd_shape arr) -> am_shape m <> [] ->
  fits_memory (nd_shape arr) -> good_sep (am_sep m) -> lossless C (am_comp m) -> effective_fill flit t m = Ok fill -> elt_ok t fill ->
  (forall i, index_of (nd_shape arr) i -> elt_ok t (nd_at arr i)) ->
  write_ndarray flit C h H s t path m off arr = (s', Ok tt) ->
  (forall q, (forall pos w, pos_ok pos -> position_text (am_sep m) pos w -> q <> chunk_file H path w) -> file_at s' q = file_at s q)
  /\ forall x, grid_voxel m x ->
     (in_box off (nd_shape arr) x -> voxel_in_files C H s' path m e t fill x (nd_at arr (zip_with Z.sub x off)))
     /\ (~ in_box off (nd_shape arr) x ->
         (forall pos, in_chunk (am_chunk_shape m) pos x -> whole_file C H s path m t pos) ->
         forall v, voxel_in_files C H s path m e t fill x v -> voxel_in_files C H s' path m e t fill x v).
Proof. exact files_written. Qed.
Print Assumptions C79_region_written.

(** Chunk (1, 0) of the array of the examples (16-bit big endian numbers, 2 x 3
    chunks in column-major order), as another program may have written it, with
    bytes after the end.  The hypotheses on regions are met as in C21_example
    and C22_example. *)
Definition ex_foreign : fs :=
  <[chunk_file ex_hier ex_path (B "1/0") := File (map byte_of_Z [0;7; 0;8; 255;254; 0;10; 1;0; 0;12; 99; 99; 99])]>
  (<[[B "srv"; B "h"; B "data"; B "root"; B "a"; B "b"; B "c1"] := Dir]> ex_fs1).
Example C79_example :
  wf_fs ex_foreign /\ effective ex_meta (DInt IB2 Big) /\ same_kind_width (DInt IB2 Big) RI16
  /\ names_byte_order (DInt IB2 Big) Big /\ chunk_shape_ok ex_meta
  /\ ex_read ex_foreign (BBox [2; 0] [2; 6]) = Ok ([2; 6], [7; -2; 256; -1; 300; 32767; 8; 10; 12; 2; -32768; 0])
  /\ voxel_in_files ex_codec ex_hier ex_foreign ex_path ex_meta Big RI16 0 [2; 1] (-2)
  /\ (forall v, voxel_in_files ex_codec ex_hier ex_foreign ex_path ex_meta Big RI16 0 [2; 1] v -> v = -2).
Proof.
  assert (CK : chunk_shape_ok ex_meta) by (split; [repeat constructor|reflexivity]).
  assert (V : voxel_in_files ex_codec ex_hier ex_foreign ex_path ex_meta Big RI16 0 [2; 1] (-2)).
  { exists [1; 0], (B "1/0"). split; [|split].
    - split; [done|]. split; [done|]. intros [|[|i]] ci si xi; cbn; intros [= <-] [= <-] [= <-]; lia.
    - apply (next_position (am_sep ex_meta) 1 (B "1") 0 [] (B "0")); [apply (show_decimal 1); lia|].
      constructor. apply (show_decimal 0). lia.
    - vm_compute. eexists. split; [done|]. repeat split; congruence. }
  split; [apply wf_check_ok; vm_compute; reflexivity|]. split; [by left|]. split; [done|]. split; [done|]. split; [done|].
  split; [vm_compute; reflexivity|]. split; [done|].
  intros v X. eapply C79_one_value; [apply CK|exact X|exact V].
Qed.
