(** Property theorems: the caller's view after a region read (C71). *)
From Verif Require Import Nd NdView Spec NdWrite NdFacts NdSafe NdViewFacts Props_Chunk Props_Store Props_Nd.
Local Open Scope Z_scope.

(** C71.  [read_into_view] gives the view afterwards whatever the outcome; the
    outcome is that of the call of C21 to C25. *)
Theorem C71_outcome :
  forall C h H s t path m bb arr buf,
  read_ndarray_into_with_buffer C h H s t path m bb arr buf
  = (let '(arr', r) := read_into_view C h H s t path m bb arr buf in b ← r; Ok (arr', b)).
Proof. exact read_view_outcome. Qed.
Print Assumptions C71_outcome.

(** A read that fails has read the chunks before the one it failed at (in
    lexicographic order of their positions) and no other: a voxel of those holds
    what is stored, or its previous value if its chunk is absent; every other voxel
    holds its previous value.  (A voxel beyond the chunks of the array, which only
    a box beyond the array has, holds the one or the other.) *)
Theorem C71_failed_read :
  forall C h H s t path m bb arr buf arr' r,
  bounded_ok (am_shape m) (am_chunk_shape m) (bb_off bb) (bb_shape bb) ->
  chunk_shape_ok m -> fits_memory (nd_shape arr) ->
  read_into_view C h H s t path m bb arr buf = (arr', r) -> (forall b, r <> Ok b) ->
  arr' = arr
  \/ exists pos, (forall e, r = Err e -> read_chunk C h H s t path m pos = Err e)
     /\ (r = Panic -> read_chunk C h H s t path m pos = Panic)
     /\ nd_shape arr' = nd_shape arr
     /\ forall i, index_of (bb_shape bb) i ->
        let x := zip_with Z.add (bb_off bb) i in
        let c := zip_with Z.div x (am_chunk_shape m) in
        (grid_voxel m x -> lex_lt c pos -> voxel C h H s t path m (nd_at arr i) x = Ok (nd_at arr' i))
        /\ (grid_voxel m x -> ~ lex_lt c pos -> nd_at arr' i = nd_at arr i)
        /\ (nd_at arr' i = nd_at arr i \/ voxel C h H s t path m (nd_at arr i) x = Ok (nd_at arr' i)).
Proof. exact failed_view. Qed.
Print Assumptions C71_failed_read.

(** A read that succeeds has read all of them. *)
Theorem C71_successful_read :
  forall C h H s t path m bb arr buf arr' buf',
  bounded_ok (am_shape m) (am_chunk_shape m) (bb_off bb) (bb_shape bb) ->
  chunk_shape_ok m -> am_shape m <> [] -> fits_memory (nd_shape arr) ->
  read_into_view C h H s t path m bb arr buf = (arr', Ok buf') ->
  nd_shape arr' = nd_shape arr
  /\ forall i, index_of (bb_shape bb) i ->
     let x := zip_with Z.add (bb_off bb) i in
     (grid_voxel m x -> voxel C h H s t path m (nd_at arr i) x = Ok (nd_at arr' i))
     /\ (nd_at arr' i = nd_at arr i \/ voxel C h H s t path m (nd_at arr i) x = Ok (nd_at arr' i)).
Proof. exact read_view_done. Qed.
Print Assumptions C71_successful_read.

(** The array of C21_example with a second chunk, at [2,0], that a rejected write
    has emptied (C06): the read stops there. *)
Definition ex_emptied : fs :=
  fst (write_chunk ex_codec ex_host ex_hier ex_fs1 RI16 ex_path ex_meta (Chunk [2; 0] [7])).
Definition ex_after : nd * res (option chunk) :=
  read_into_view ex_codec ex_host ex_hier ex_emptied RI16 ex_path ex_meta ex_box ex_stale None.
Example C71_example :
  bounded_ok (am_shape ex_meta) (am_chunk_shape ex_meta) (bb_off ex_box) (bb_shape ex_box)
  /\ chunk_shape_ok ex_meta /\ fits_memory (nd_shape ex_stale)
  /\ snd ex_after = Err UnexpectedEof
  /\ read_chunk ex_codec ex_host ex_hier ex_emptied RI16 ex_path ex_meta [2; 0] = Err UnexpectedEof
  /\ nd_iter (fst ex_after) = [99; -1; 300; 99; 2; -32768; 99; 99; 99].
Proof.
  split; [repeat constructor; done|]. split; [split; [repeat constructor|reflexivity]|].
  split; [vm_compute; reflexivity|]. split; [vm_compute; reflexivity|].
  split; vm_compute; reflexivity.
Qed.
