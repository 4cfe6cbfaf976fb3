(** Property theorems: data types and compressor settings (C27, C28, C39, C47). *)
From Verif Require Import Meta Spec DataTypeFacts ChunkFacts MetaFacts.

(** C27: holds for every data type except raw ones ... *)
Theorem C27_dtype_roundtrip_partial :
  forall d, (forall n, d <> DRaw n) ->
  exists d', dtype_of_string (dtype_to_string d) = Ok d'
    /\ dkind d' = dkind d /\ dbits d' = dbits d
    /\ (dbits d <> 8 -> d' = d).
Proof. exact dtype_roundtrip_spec. Qed.
Print Assumptions C27_dtype_roundtrip_partial.

(** ... whose string never parses: the whole 32-byte buffer is written. *)
Theorem C27_raw_roundtrip_refuted :
  forall n, is_u64 n -> dtype_of_string (dtype_to_string (DRaw n)) = Err InvalidData.
Proof. exact raw_string_rejected. Qed.
Print Assumptions C27_raw_roundtrip_refuted.

Example C27_example :
  dtype_to_string (DFloat FB4 Big) = B ">f4"
  /\ dtype_of_string (B ">f4") = Ok (DFloat FB4 Big)
  /\ dtype_of_string (dtype_to_string (DInt IB1 Big)) = Ok (DInt IB1 Little)
  /\ is_u64 16 /\ dtype_of_string (B "r16") = Ok (DRaw 16)
  /\ length (dtype_to_string (DRaw 16)) = 32%nat.
Proof. repeat split; vm_compute; congruence. Qed.

(** C28: false; exactly these strings panic. *)
Theorem C28_parse_panics_exactly_refuted :
  forall v, dtype_of_string v = Panic <->
  exists c0 c1 c2, v = [c0; c1; c2] /\ c0 <> "r"%char /\
    ((c0 <> ">"%char /\ c0 <> "<"%char)
     \/ ((c1 = "i"%char \/ c1 = "u"%char) /\ c2 ∉ ["1"; "2"; "4"; "8"]%char)
     \/ (c1 = "f"%char /\ c2 ∉ ["2"; "4"; "8"]%char)).
Proof. exact dtype_of_string_panic. Qed.
Print Assumptions C28_parse_panics_exactly_refuted.

Theorem C28_parse_no_panic_partial :
  forall v, (length v <> 3)%nat -> dtype_of_string v <> Panic.
Proof. exact dtype_of_string_no_panic. Qed.
Print Assumptions C28_parse_no_panic_partial.

Example C28_example :
  dtype_of_string (B "=i4") = Panic /\ dtype_of_string (B "<i3") = Panic
  /\ dtype_of_string (B "<x3") = Err InvalidData
  /\ dtype_of_string (B "<i44") = Err InvalidData.
Proof. repeat split; vm_compute; reflexivity. Qed.

(** C47 *)
Theorem C47_size :
  forall d t, same_kind_width d t ->
  8 * dtype_size d = rbits t /\ forall e z, lenZ (Chunk.elt_bytes e t z) = dtype_size d.
Proof. exact dtype_size_spec. Qed.
Print Assumptions C47_size.
(** For every type, raw ones included. *)
Theorem C47_size_all :
  forall d, dbits d mod 8 = 0 -> 8 * dtype_size d = dbits d.
Proof. exact dtype_size_bits. Qed.
Print Assumptions C47_size_all.
Theorem C47_equivalence :
  (forall d, eq_modulo_endian d d = true)
  /\ (forall a b, eq_modulo_endian a b = true -> eq_modulo_endian b a = true)
  /\ (forall a b c, eq_modulo_endian a b = true -> eq_modulo_endian b c = true ->
      eq_modulo_endian a c = true)
  /\ (forall a b, eq_modulo_endian a b = true <-> dkind a = dkind b /\ dbits a = dbits b)
  /\ (forall a b, eq_modulo_endian a b = true -> dtype_size a = dtype_size b).
Proof. exact eq_modulo_endian_spec. Qed.
Print Assumptions C47_equivalence.
(** Every element type has its own data type. *)
Theorem C47_types_distinct :
  forall h t u, eq_modulo_endian (zarr_type h t) (zarr_type h u) = true -> t = u.
Proof. exact zarr_type_inj. Qed.
Print Assumptions C47_types_distinct.
Example C47_example :
  same_kind_width (DUInt IB4 Big) RU32 /\ dtype_size (DUInt IB4 Big) = 4
  /\ eq_modulo_endian (DUInt IB4 Big) (DUInt IB4 Little) = true
  /\ eq_modulo_endian (DUInt IB4 Big) (DFloat FB4 Big) = false
  /\ dbits (DRaw 24) mod 8 = 0 /\ dtype_size (DRaw 24) = 3.
Proof. repeat split; vm_compute; reflexivity. Qed.

(** C39 *)
Theorem C39_gzip_level :
  forall l, (0 <= l <= 9 -> gzip_effective_level l = Some l)
  /\ (~ 0 <= l <= 9 -> gzip_effective_level l = None).
Proof. exact gzip_level_spec. Qed.
Print Assumptions C39_gzip_level.
Theorem C39_lz4_block_size :
  forall bs, lz4_effective_block_size bs ∈ lz4_sizes
  /\ (forall s, s ∈ lz4_sizes -> bs <= s -> bs <= lz4_effective_block_size bs <= s)
  /\ ((forall s, s ∈ lz4_sizes -> s < bs) ->
      forall s, s ∈ lz4_sizes -> s <= lz4_effective_block_size bs).
Proof. exact lz4_block_size_spec. Qed.
Print Assumptions C39_lz4_block_size.
Theorem C39_parse_display :
  forall c s, map lower_byte s = map lower_byte (compression_display c) ->
  compression_from_str true s = Ok (codec_defaults c).
Proof. exact from_str_display. Qed.
Print Assumptions C39_parse_display.
Theorem C39_parse_only_names :
  forall lz s c, compression_from_str lz s = Ok c ->
  c = codec_defaults c /\ map lower_byte s = map lower_byte (compression_display c).
Proof. exact from_str_inv. Qed.
Print Assumptions C39_parse_only_names.
(** Without feature `lz` (but with `lz_pure`) the name "Lz4" does not parse. *)
Theorem C39_lz_pure_parse_refuted :
  exists c, compression_from_str false (compression_display c) = Err InvalidInput.
Proof. exact (ex_intro _ (CLz4 65536) eq_refl). Qed.
Print Assumptions C39_lz_pure_parse_refuted.
Example C39_example :
  compression_from_str true (B "gZiP") = Ok (CGzip (-1))
  /\ lz4_effective_block_size 65537 = 262144 /\ gzip_effective_level 12 = None
  /\ lz4_effective_block_size (-3) = 65536 /\ lz4_effective_block_size 2147483647 = 4194304.
Proof. repeat split; vm_compute; reflexivity. Qed.
