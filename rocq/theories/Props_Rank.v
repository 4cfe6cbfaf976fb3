(** Property theorems: regions of the wrong rank or shape (C82). *)
From Verif Require Import Json MetaJson BBox CoordIter Nd NdView Hier Spec BaseFacts RankFacts Props_Chunk Props_Store Props_Nd.
Local Open Scope Z_scope.

(** C82.  Writing values of another rank than the array is refused, and nothing
    in the store changes. *)
Theorem C82_payload_rank :
  forall flit C h H s t path m off arr,
  length (nd_shape arr) <> length (am_shape m) ->
  write_ndarray flit C h H s t path m off arr = (s, Err InvalidData).
Proof. exact payload_rank. Qed.
Print Assumptions C82_payload_rank.

(** Reading into a view is refused, and the view is as it was, when the region or
    the view has another rank than the array or their shapes differ. *)
Theorem C82_view_shape :
  forall C h H s t path m bb arr buf,
  length (bb_off bb) <> length (am_shape m) \/ length (nd_shape arr) <> length (am_shape m) \/ bb_shape bb <> nd_shape arr ->
  read_into_view C h H s t path m bb arr buf = (arr, Err InvalidData).
Proof. exact view_shape. Qed.
Print Assumptions C82_view_shape.

Theorem C82_into_shape :
  forall C h H s t path m bb arr buf,
  length (bb_off bb) <> length (am_shape m) \/ length (nd_shape arr) <> length (am_shape m) \/ bb_shape bb <> nd_shape arr ->
  read_ndarray_into_with_buffer C h H s t path m bb arr buf = Err InvalidData.
Proof. exact into_shape. Qed.
Print Assumptions C82_into_shape.

(** Reading a region of another rank than the array is refused. *)
Theorem C82_read_rank :
  forall flit C h H s t path m bb fill,
  length (bb_off bb) <> length (am_shape m) \/ length (bb_shape bb) <> length (am_shape m) ->
  effective_fill flit t m = Ok fill -> fits_memory (bb_shape bb) ->
  read_ndarray flit C h H s t path m bb = Err InvalidData.
Proof. exact read_rank. Qed.
Print Assumptions C82_read_rank.

(** A read that succeeds was of a region of the array's rank, whatever its fill
    value and however large the region. *)
Theorem C82_read_ok :
  forall flit C h H s t path m bb a,
  read_ndarray flit C h H s t path m bb = Ok a ->
  length (bb_off bb) = length (am_shape m) /\ length (bb_shape bb) = length (am_shape m).
Proof. exact read_rank_ok. Qed.
Print Assumptions C82_read_ok.

(** The claim is false of writes whose offset has the wrong rank: they are not
    refused with an error, they always panic.  The store is unchanged. *)
Theorem C82_offset_rank_refuted :
  forall flit C h H s t path m off arr fill,
  length off <> length (am_shape m) -> length (nd_shape arr) = length (am_shape m) -> effective_fill flit t m = Ok fill ->
  write_ndarray flit C h H s t path m off arr = (s, Panic).
Proof. exact offset_rank. Qed.
Print Assumptions C82_offset_rank_refuted.

(** A 5 x 7 array: a row of three values; a view of 3 x 2 for a region of 3 x 3; a
    region and a write at an offset of one dimension; and a read that succeeds. *)
Definition ex_row : nd := Nd [3] (fun _ => 1).
Example C82_example :
  length (nd_shape ex_row) <> length (am_shape ex_meta)
  /\ snd (write_ndarray ex_flit ex_codec ex_host ex_hier ex_fs RI16 ex_path ex_meta [0; 0] ex_row) = Err InvalidData
  /\ bb_shape (BBox [0; 0] [3; 3]) <> nd_shape (Nd [3; 2] (fun _ => 1))
  /\ snd (read_into_view ex_codec ex_host ex_hier ex_fs RI16 ex_path ex_meta (BBox [0; 0] [3; 3]) (Nd [3; 2] (fun _ => 1)) None) = Err InvalidData
  /\ (exists fill, effective_fill ex_flit RI16 ex_meta = Ok fill) /\ fits_memory [3] /\ length [0] <> length (am_shape ex_meta)
  /\ nd_list (read_ndarray ex_flit ex_codec ex_host ex_hier ex_fs RI16 ex_path ex_meta (BBox [0] [3])) = Err InvalidData
  /\ nd_list (read_ndarray ex_flit ex_codec ex_host ex_hier ex_fs RI16 ex_path ex_meta (BBox [0; 0] [1; 2])) = Ok ([1; 2], [0; 0])
  /\ length (nd_shape ex_payload) = length (am_shape ex_meta)
  /\ snd (write_ndarray ex_flit ex_codec ex_host ex_hier ex_fs RI16 ex_path ex_meta [0] ex_payload) = Panic.
Proof.
  split; [done|]. split; [vm_compute; reflexivity|]. split; [done|]. split; [vm_compute; reflexivity|].
  split; [eexists; vm_compute; reflexivity|]. split; [reflexivity|]. split; [done|].
  repeat split; vm_compute; reflexivity.
Qed.
