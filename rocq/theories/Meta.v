(** Array metadata and grid arithmetic: model of src/lib.rs:345-528, and the
    compressor settings of src/compression. *)
From Verif Require Export Base DataType Json.

(** src/compression/mod.rs:40-51 with the configuration structs of
    raw.rs:14, bzip.rs:18-21 (u8), gzip.rs:17-20 (i32), lz.rs:47-50 (i32),
    xz.rs:17-20 (i32).  All default features enabled. *)
Inductive compression :=
  | CRaw
  | CBzip2 (block_size : Z)
  | CGzip (level : Z)
  | CLz4 (block_size : Z)
  | CXz (preset : Z).
Global Instance compression_eq_dec : EqDecision compression.
Proof. solve_decision. Defined.

(** src/compression/mod.rs:66-70 *)
Definition compression_default : compression := CRaw.
(** src/compression/mod.rs:61-63 *)
Definition compression_is_default (c : compression) : bool :=
  bool_decide (c = compression_default).

(** src/lib.rs:157-162 *)
Record ext_meta := ExtMeta {
  em_extension : bytes;
  em_must_understand : bool;
  em_configuration : option jmap
}.

(** src/lib.rs:374-379 *)
Inductive order := RowMajor | ColumnMajor.
Global Instance order_eq_dec : EqDecision order.
Proof. solve_decision. Defined.

(** src/lib.rs:361-369 (grid_type, chunk_shape, separator) inlined into
    src/lib.rs:383-402. *)
Record array_meta := ArrayMeta {
  am_shape : list Z;
  am_dtype : ext_data_type;
  am_grid_type : bytes;
  am_chunk_shape : list Z;
  am_sep : bytes;
  am_order : order;
  am_fill : option json;
  am_exts : list ext_meta;
  am_attrs : jmap;
  am_comp : compression
}.

(** src/lib.rs:405-430 *)
Definition array_meta_new (shape chunk_shape : list Z) (d : ext_data_type)
    (c : compression) : res array_meta :=
  _ ← assert_ (bool_decide (length shape = length chunk_shape));
  Ok (ArrayMeta shape d (B "regular") chunk_shape (B "/") ColumnMajor None [] [] c).

(** The integer types of the fields: u64 shape, u32 chunk shape. *)
Definition meta_typed (m : array_meta) : Prop :=
  Forall is_u64 (am_shape m) /\ Forall is_u32 (am_chunk_shape m).

(** src/lib.rs:340-342 *)
Definition u64_ceil_div (p : profile) (a b : Z) : res Z :=
  a1 ← add64 p a 1;
  q ← div64 a1 b;
  r ← rem64 a b;
  add64 p q (if r =? 0 then 0 else 1).

(** src/lib.rs:464-466 *)
Definition ndim (m : array_meta) : nat := length (am_shape m).
(** src/lib.rs:469-471 *)
Definition num_elements (p : profile) (m : array_meta) : res Z :=
  product64 p (am_shape m).
(** src/lib.rs:474-480 *)
Definition chunk_num_elements (p : profile) (m : array_meta) : res Z :=
  product64 p (am_chunk_shape m).
(** src/lib.rs:483-489 *)
Definition grid_extent (p : profile) (m : array_meta) : res (list Z) :=
  mapM_res (fun '(d, b) => u64_ceil_div p d b) (zip (am_shape m) (am_chunk_shape m)).
(** src/lib.rs:503-505 *)
Definition num_chunks (p : profile) (m : array_meta) : res Z :=
  e ← grid_extent p m; product64 p e.
(** src/lib.rs:520-527 *)
Definition in_bounds (p : profile) (m : array_meta) (pos : list Z) : res bool :=
  if bool_decide (length (am_shape m) = length pos)
  then e ← grid_extent p m;
       Ok (forallb (fun '(bound, coord) => coord <? bound) (zip e pos))
  else Ok false.

(** src/compression/gzip.rs:28-35; [None] is flate2's default level. *)
Definition gzip_effective_level (level : Z) : option Z :=
  if (level <? 0) || (9 <? level) then None else Some level.

(** src/compression/lz.rs:55-65.  lz4::BlockSize::get_size gives 64 KiB,
    256 KiB, 1 MiB, 4 MiB; `as usize` of a positive i32 is the identity. *)
Definition lz4_effective_block_size (bs : Z) : Z :=
  if bs <=? 65536 then 65536
  else if bs <=? 262144 then 262144
  else if bs <=? 1048576 then 1048576
  else 4194304.

(** src/compression/mod.rs:110-132 *)
Definition compression_display (c : compression) : bytes :=
  match c with
  | CRaw => B "Raw" | CBzip2 _ => B "Bzip2" | CGzip _ => B "Gzip"
  | CXz _ => B "Xz" | CLz4 _ => B "Lz4"
  end.

(** u8::to_ascii_lowercase *)
Definition lower_byte (b : byte) : byte :=
  let z := Z_of_byte b in
  if (65 <=? z) && (z <=? 90) then byte_of_Z (z + 32) else b.

(** src/compression/mod.rs:134-156 with the defaults of bzip.rs:23-33,
    gzip.rs:37-47, lz.rs:68-78, xz.rs:22-32.  [lz] is the Cargo feature that
    guards the "lz4" arm (line 150) whereas the variant exists under either
    of `lz`, `lz_pure` (line 47). *)
Definition compression_from_str (lz : bool) (s : bytes) : res compression :=
  let s := map lower_byte s in
  if beq s (B "raw") then Ok CRaw
  else if beq s (B "bzip2") then Ok (CBzip2 9)
  else if beq s (B "gzip") then Ok (CGzip (-1))
  else if beq s (B "xz") then Ok (CXz 6)
  else if lz && beq s (B "lz4") then Ok (CLz4 65536)
  else Err InvalidInput.
