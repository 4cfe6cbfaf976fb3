(** Property theorems: chunk encoding and decoding (C01-C05, C51). *)
From Verif Require Import Chunk Spec ChunkFacts.

(** Concrete metadata and host used by the examples. *)
Definition ex_host : host := Host Debug Little.
Definition ex_codec : codec :=
  Codec (fun _ ws => (concat ws, Ok tt)) (fun _ b => Ok (Stream b None)).
Definition ex_meta : array_meta :=
  ArrayMeta [5; 7] (Core (DInt IB2 Big)) (B "regular") [2; 3] (B "/") ColumnMajor
            None [] [] CRaw.
Definition ex_data : list Z := [-1; 2; 300; -32768; 32767; 0].
Definition ex_bytes : bytes :=
  map byte_of_Z [255;255; 0;2; 1;44; 128;0; 127;255; 0;0].
Definition ex_gzip : array_meta :=
  ArrayMeta [5; 7] (Extended (B "https://ext") (B "datetime") (Some (DFloat FB8 Big)))
            (B "regular") [2; 3] (B "/") RowMajor None [] [] (CGzip 4).

(** C01 *)
Theorem C01_chunk_roundtrip :
  forall C h t m data bs pos pos' old,
  lossless C (am_comp m) ->
  Forall (elt_ok t) data -> lenZ data < two64 -> full_chunk m data ->
  encode_chunk C h t m (Chunk pos data) = (bs, Ok tt) ->
  decode_chunk C h t m bs pos' = Ok (Chunk pos' data)
  /\ decode_chunk_into C h t m bs pos' old = Ok (Chunk pos' data).
Proof. exact chunk_roundtrip_both. Qed.
Print Assumptions C01_chunk_roundtrip.

(** The premise on codecs is met by the built-in raw compressor. *)
Theorem C01_raw_lossless : forall C, lossless C CRaw.
Proof. exact raw_lossless. Qed.
Print Assumptions C01_raw_lossless.

Example C01_example :
  Forall (elt_ok RI16) ex_data /\ full_chunk ex_meta ex_data
  /\ encode_chunk ex_codec ex_host RI16 ex_meta (Chunk [1; 1] ex_data) = (ex_bytes, Ok tt)
  /\ decode_chunk ex_codec ex_host RI16 ex_meta ex_bytes [4; 2] = Ok (Chunk [4; 2] ex_data).
Proof.
  split; [|split; [|split]]; [|vm_compute; reflexivity..].
  repeat constructor; vm_compute; try done; split; done.
Qed.

(** C02 *)
Theorem C02_raw_layout :
  forall C h t m d e data pos,
  effective m d -> same_kind_width d t -> am_comp m = CRaw ->
  names_byte_order d e -> chunk_shape_ok m -> full_chunk m data ->
  exists groups, encode_chunk C h t m (Chunk pos data) = (concat groups, Ok tt)
    /\ Forall2 (encodes e (rty_size t)) data groups
    /\ lenZ (concat groups) = lenZ data * dtype_size d.
Proof. exact raw_layout. Qed.
Print Assumptions C02_raw_layout.

(** The encoding relation determines the bytes. *)
Theorem C02_encoding_unique :
  forall e n z a b, encodes e n z a -> encodes e n z b -> a = b.
Proof. exact encodes_inj. Qed.
Print Assumptions C02_encoding_unique.

Example C02_example :
  effective ex_meta (DInt IB2 Big) /\ same_kind_width (DInt IB2 Big) RI16
  /\ names_byte_order (DInt IB2 Big) Big /\ chunk_shape_ok ex_meta
  /\ full_chunk ex_meta ex_data
  /\ encodes Big 2 (-32768) (map byte_of_Z [128; 0])
  /\ encodes Little 2 300 (map byte_of_Z [44; 1]).
Proof.
  split; [by left|]. split; [done|]. split; [done|].
  split; [split; [repeat constructor|]; vm_compute; done|].
  split; [vm_compute; done|]. split; split; vm_compute; reflexivity.
Qed.

(** C03 *)
Theorem C03_short_rejected :
  forall C h t m d content pos,
  effective m d -> same_kind_width d t -> am_comp m = CRaw -> chunk_shape_ok m ->
  lenZ content < prodZ (am_chunk_shape m) * dtype_size d ->
  decode_chunk C h t m content pos = Err UnexpectedEof.
Proof. exact decode_raw_short. Qed.
Print Assumptions C03_short_rejected.

Theorem C03_long_enough_accepted :
  forall C h t m d content,
  effective m d -> same_kind_width d t -> am_comp m = CRaw -> chunk_shape_ok m ->
  prodZ (am_chunk_shape m) * dtype_size d <= lenZ content ->
  exists data, full_chunk m data /\
    forall content' pos',
      take (Z.to_nat (prodZ (am_chunk_shape m) * dtype_size d)) content'
      = take (Z.to_nat (prodZ (am_chunk_shape m) * dtype_size d)) content ->
      decode_chunk C h t m content' pos' = Ok (Chunk pos' data).
Proof. exact decode_raw_long. Qed.
Print Assumptions C03_long_enough_accepted.

Example C03_example :
  decode_chunk ex_codec ex_host RI16 ex_meta (take 11 ex_bytes) [0; 0] = Err UnexpectedEof
  /\ decode_chunk ex_codec ex_host RI16 ex_meta (ex_bytes ++ B "trailing") [0; 0]
     = Ok (Chunk [0; 0] ex_data).
Proof. split; vm_compute; reflexivity. Qed.

(** C04 *)
Theorem C04_wrong_type_rejected :
  forall C h t m d content pos old ck,
  effective m d -> ~ same_kind_width d t ->
  decode_chunk C h t m content pos = Err InvalidInput
  /\ decode_chunk_into C h t m content pos old = Err InvalidInput
  /\ encode_chunk C h t m ck = ([], Err InvalidInput).
Proof. exact wrong_type_rejected. Qed.
Print Assumptions C04_wrong_type_rejected.

Theorem C04_right_type_accepted :
  forall C h t m d content pos old ck,
  effective m d -> same_kind_width d t -> codec_quiet C (am_comp m) InvalidInput ->
  decode_chunk C h t m content pos <> Err InvalidInput
  /\ decode_chunk_into C h t m content pos old <> Err InvalidInput
  /\ snd (encode_chunk C h t m ck) <> Err InvalidInput.
Proof. exact right_type_accepted. Qed.
Print Assumptions C04_right_type_accepted.

Example C04_example :
  effective ex_gzip (DFloat FB8 Big) /\ ~ same_kind_width (DFloat FB8 Big) RI64
  /\ ~ same_kind_width (DFloat FB8 Big) RF32
  /\ same_kind_width (DFloat FB8 Big) RF64
  /\ codec_quiet ex_codec (am_comp ex_gzip) InvalidInput
  /\ codec_quiet ex_codec CRaw InvalidInput.
Proof.
  split; [right; by eexists _, _|]. split; [by intros [? _]|]. split; [by intros [_ ?]|].
  split; [done|]. split; [|by apply raw_quiet].
  split; [done|]. intros b. split; [done|]. by intros s [= <-].
Qed.

(** C05: holds for buffers of fewer than 2^32 elements ... *)
Theorem C05_wrong_length_rejected_partial :
  forall C h t m d data pos,
  effective m d -> same_kind_width d t -> chunk_shape_ok m ->
  lenZ data < two32 -> ~ full_chunk m data ->
  encode_chunk C h t m (Chunk pos data) = ([], Err InvalidData).
Proof. exact wrong_length_rejected. Qed.
Print Assumptions C05_wrong_length_rejected_partial.

Theorem C05_right_length_accepted :
  forall C h t m d data pos,
  effective m d -> same_kind_width d t -> chunk_shape_ok m -> full_chunk m data ->
  am_comp m = CRaw ->
  snd (encode_chunk C h t m (Chunk pos data)) = Ok tt.
Proof. exact right_length_accepted. Qed.
Print Assumptions C05_right_length_accepted.

(** ... and fails beyond: the element count is compared after `as u32`. *)
Theorem C05_wrong_length_rejected_refuted :
  exists C h t m d data pos,
  effective m d /\ same_kind_width d t /\ chunk_shape_ok m /\ am_comp m = CRaw
  /\ Forall (elt_ok t) data /\ ~ full_chunk m data
  /\ snd (encode_chunk C h t m (Chunk pos data)) = Ok tt.
Proof. exact overlong_witness. Qed.
Print Assumptions C05_wrong_length_rejected_refuted.

Example C05_example :
  ~ full_chunk ex_meta (-5 :: ex_data)
  /\ encode_chunk ex_codec ex_host RI16 ex_meta (Chunk [0; 0] (-5 :: ex_data))
     = ([], Err InvalidData).
Proof. split; vm_compute; [intros [=]|reflexivity]. Qed.

(** C51: stored chunks do not depend on the host that writes or reads them. *)
Theorem C51_host_independent :
  forall C p e e' t m,
  (forall ck, encode_chunk C (Host p e) t m ck = encode_chunk C (Host p e') t m ck)
  /\ (forall b pos, decode_chunk C (Host p e) t m b pos = decode_chunk C (Host p e') t m b pos).
Proof. exact host_independent. Qed.
Print Assumptions C51_host_independent.
Example C51_example :
  encode_chunk ex_codec (Host Debug Big) RI16 ex_meta (Chunk [0; 0] ex_data)
  = (ex_bytes, Ok tt)
  /\ zarr_type (Host Debug Big) RI16 <> zarr_type (Host Debug Little) RI16.
Proof. split; [vm_compute; reflexivity|done]. Qed.
