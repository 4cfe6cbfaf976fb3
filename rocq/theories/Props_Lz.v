(** Property theorems: the pure-Rust LZ4 backend (C40).
    [lz_pure_codec F C]: the library built with feature `lz_pure`, on frame
    library [F]. *)
From Verif Require Import Lz Hier Spec SpecLz LzFacts Props_Chunk Props_Store.
Local Open Scope Z_scope.

(** C40: chunks that are handed over in one piece (up to 256 elements; one for
    f16; any number for u8) round trip.  Missing: larger chunks. *)
Theorem C40_roundtrip_partial :
  forall F C h t m size data bs pos pos',
  reads_one_frame F -> am_comp m = CLz4 size -> chunk_shape_ok m -> full_chunk m data ->
  lenZ data <= per_write t -> Forall (elt_ok t) data ->
  encode_chunk (lz_pure_codec F C) h t m (Chunk pos data) = (bs, Ok tt) ->
  decode_chunk (lz_pure_codec F C) h t m bs pos' = Ok (Chunk pos' data).
Proof. exact lz_small. Qed.
Print Assumptions C40_roundtrip_partial.
Theorem C40_stored_roundtrip_partial :
  forall F C h H s t path m size data pos s',
  reads_one_frame F -> am_comp m = CLz4 size -> chunk_shape_ok m -> full_chunk m data ->
  in_bounds (h_prof h) m pos = Ok true -> lenZ data <= per_write t -> Forall (elt_ok t) data ->
  write_chunk (lz_pure_codec F C) h H s t path m (Chunk pos data) = (s', Ok tt) ->
  read_chunk (lz_pure_codec F C) h H s' t path m pos = Ok (Some (Chunk pos data)).
Proof. exact lz_store_small. Qed.
Print Assumptions C40_stored_roundtrip_partial.

(** Every larger chunk is written successfully and cannot be read. *)
Theorem C40_roundtrip_refuted :
  forall F C h t m size data bs pos pos',
  reads_one_frame F -> am_comp m = CLz4 size -> chunk_shape_ok m -> full_chunk m data ->
  per_write t < lenZ data ->
  encode_chunk (lz_pure_codec F C) h t m (Chunk pos data) = (bs, Ok tt) ->
  decode_chunk (lz_pure_codec F C) h t m bs pos' = Err UnexpectedEof.
Proof. exact lz_large. Qed.
Print Assumptions C40_roundtrip_refuted.
Theorem C40_stored_roundtrip_refuted :
  forall F C h H s t path m size data pos s',
  reads_one_frame F -> am_comp m = CLz4 size -> chunk_shape_ok m -> full_chunk m data ->
  in_bounds (h_prof h) m pos = Ok true -> per_write t < lenZ data ->
  write_chunk (lz_pure_codec F C) h H s t path m (Chunk pos data) = (s', Ok tt) ->
  read_chunk (lz_pure_codec F C) h H s' t path m pos = Err UnexpectedEof.
Proof. exact lz_store_large. Qed.
Print Assumptions C40_stored_roundtrip_refuted.

(** A chunk without elements is stored as an empty file, and reading an empty
    file panics. *)
Theorem C40_empty_refuted :
  forall F C h t m d size pos pos' e,
  fl_open F [] = Err e -> am_comp m = CLz4 size -> effective m d -> same_kind_width d t ->
  chunk_num_elements (h_prof h) m = Ok 0 ->
  encode_chunk (lz_pure_codec F C) h t m (Chunk pos []) = ([], Ok tt)
  /\ decode_chunk (lz_pure_codec F C) h t m [] pos' = Panic.
Proof. exact lz_empty. Qed.
Print Assumptions C40_empty_refuted.

Definition ex_lz (shape : list Z) : array_meta :=
  ArrayMeta [100; 100] (Core (DInt IB2 Big)) (B "regular") shape (B "/") ColumnMajor None [] [] (CLz4 65536).
Definition ex_lz_codec : codec := lz_pure_codec toy_lib ex_codec.
Example C40_example :
  reads_one_frame toy_lib /\ fl_open toy_lib [] = Err InvalidData
  /\ chunk_shape_ok (ex_lz [2; 3]) /\ chunk_shape_ok (ex_lz [20; 20])
  /\ lenZ ex_data <= per_write RI16 /\ full_chunk (ex_lz [2; 3]) ex_data
  /\ per_write RI16 < lenZ (replicate 400 7) /\ full_chunk (ex_lz [20; 20]) (replicate 400 7)
  /\ snd (write_chunk ex_lz_codec ex_host ex_hier ex_fs RI16 ex_path (ex_lz [2; 3]) (Chunk [1; 1] ex_data)) = Ok tt
  /\ snd (write_chunk ex_lz_codec ex_host ex_hier ex_fs RI16 ex_path (ex_lz [20; 20]) (Chunk [1; 1] (replicate 400 7))) = Ok tt
  /\ chunk_num_elements Debug (ex_lz [0; 3]) = Ok 0.
Proof.
  split; [exact toy_one_frame|]. split; [done|].
  split; [split; [repeat constructor|]; vm_compute; done|]. split; [split; [repeat constructor|]; vm_compute; done|].
  split; [vm_compute; done|]. split; [vm_compute; done|]. split; [vm_compute; done|]. split; [vm_compute; done|].
  split; [vm_compute; done|]. split; [vm_compute; done|]. vm_compute. done.
Qed.
