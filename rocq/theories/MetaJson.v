(** The serde-derived conversions between the metadata structs and JSON
    (src/lib.rs:157-182, 345-402, src/data_type.rs:125-293,
    src/compression/*.rs), and the fill value (src/lib.rs:448-454).

    Decoding works on the syntax tree of the whole text (simplification: the
    library decodes while parsing, so which of two faults of a document is
    reported first is not modelled; every serde error is an io::Error of kind
    InvalidData, except that an unexpected end of the text is UnexpectedEof,
    also mapped to InvalidData here). *)
From Verif Require Export Meta.

(** ** Helpers for derived Deserialize *)

(** The value of a field: absent, present once, or an error (duplicate). *)
Definition field (k : bytes) (m : jmap) : res (option json) :=
  match filter (fun kv => beq k kv.1 = true) m with
  | [] => Ok None
  | [(_, v)] => Ok (Some v)
  | _ => Err InvalidData
  end.
Definition required (k : bytes) (m : jmap) : res json :=
  o ← field k m; of_option InvalidData o.
Definition as_obj (j : json) : res jmap :=
  match j with JObj m => Ok m | _ => Err InvalidData end.
(** A derived struct: an object or, through the visitor's visit_seq, an array
    of the values of the fields in order.  Only fields with a default (the last
    ones here) can be missing at the end of such an array: [req] is the number
    of the others. *)
Definition as_struct (names : list bytes) (req : nat) (j : json) : res jmap :=
  match j with
  | JObj m => Ok m
  | JArr l =>
      if (req <=? length l)%nat && (length l <=? length names)%nat
      then Ok (zip names l) else Err InvalidData
  | _ => Err InvalidData
  end.
Definition as_arr (j : json) : res (list json) :=
  match j with JArr l => Ok l | _ => Err InvalidData end.
Definition as_str (j : json) : res bytes :=
  match j with JStr s => Ok s | _ => Err InvalidData end.
Definition as_bool (j : json) : res bool :=
  match j with JBool b => Ok b | _ => Err InvalidData end.
(** An integer type with the given range (exclusive upper bound). *)
Definition as_int (lo hi : Z) (j : json) : res Z :=
  match j with
  | JInt z => if (lo <=? z) && (z <? hi) then Ok z else Err InvalidData
  | _ => Err InvalidData
  end.
(** JsonObject = serde_json::Map *)
Definition as_map (j : json) : res jmap :=
  match norm j with JObj m => Ok m | _ => Err InvalidData end.
(** Option<T>: absent or null is None. *)
Definition as_option {A} (f : json -> res A) (o : option json) : res (option A) :=
  match o with
  | None | Some JNull => Ok None
  | Some v => a ← f v; Ok (Some a)
  end.

(** ** Data types *)

(** src/data_type.rs:283-293 (untagged): try Core (a string), then Extended. *)
Definition enc_dtype (x : ext_data_type) : json :=
  match x with
  | Core d => JStr (dtype_to_string d)
  | Extended e t fb =>
      JObj ([(B "extension", JStr e); (B "type", JStr t)] ++
            match fb with
            | Some d => [(B "fallback", JStr (dtype_to_string d))]
            | None => []
            end)
  end.
Definition dec_core (j : json) : res data_type := s ← as_str j; dtype_of_string s.
Definition dec_extended (j : json) : res ext_data_type :=
  m ← as_obj j;
  e ← required (B "extension") m; e ← as_str e;
  t ← required (B "type") m; t ← as_str t;
  fb ← field (B "fallback") m; fb ← as_option dec_core fb;
  Ok (Extended e t fb).
Definition dec_dtype (j : json) : res ext_data_type :=
  match dec_core j with
  | Ok d => Ok (Core d)
  | Panic => Panic
  | Err _ => dec_extended j
  end.

(** ** Compressor: src/compression/mod.rs:37-51 (adjacently tagged)

    The visitor for an adjacently tagged enum also has a visit_seq: an array of
    the tag and the content.  (serde can take an empty object for the content
    of the unit struct RawCompression when it comes before the tag; that is an
    error here.) *)

Definition GZIP_ID : bytes := B "https://purl.org/zarr/spec/codec/gzip/1.0".
Definition enc_comp (c : compression) : json :=
  let mk id cfg := JObj [(B "codec", JStr (B id)); (B "configuration", cfg)] in
  match c with
  | CRaw => mk "raw" JNull
  | CBzip2 b => mk "bzip2" (JObj [(B "blockSize", JInt b)])
  | CGzip l => mk "https://purl.org/zarr/spec/codec/gzip/1.0" (JObj [(B "level", JInt l)])
  | CLz4 b => mk "lz4" (JObj [(B "blockSize", JInt b)])
  | CXz p => mk "xz" (JObj [(B "preset", JInt p)])
  end.
(** A one-field struct with a default. *)
Definition dec_cfg (k : bytes) (lo hi dflt : Z) (j : json) : res Z :=
  m ← as_struct [k] 0 j;
  o ← field k m;
  match o with None => Ok dflt | Some v => as_int lo hi v end.
Definition i32_lo : Z := - 2 ^ 31.
Definition i32_hi : Z := 2 ^ 31.
Definition dec_comp (j : json) : res compression :=
  m ← as_struct [B "codec"; B "configuration"] 2 j;
  tag ← required (B "codec") m; tag ← as_str tag;
  cfg ← required (B "configuration") m;
  if beq tag (B "raw") then
    match cfg with JNull => Ok CRaw | _ => Err InvalidData end
  else if beq tag (B "bzip2") then
    b ← dec_cfg (B "blockSize") 0 256 9 cfg; Ok (CBzip2 b)
  else if beq tag GZIP_ID then
    l ← dec_cfg (B "level") i32_lo i32_hi (-1) cfg; Ok (CGzip l)
  else if beq tag (B "lz4") then
    b ← dec_cfg (B "blockSize") i32_lo i32_hi 65536 cfg; Ok (CLz4 b)
  else if beq tag (B "xz") then
    p ← dec_cfg (B "preset") i32_lo i32_hi 6 cfg; Ok (CXz p)
  else Err InvalidData.

(** ** Extensions: src/lib.rs:156-162 *)

Definition enc_ext (e : ext_meta) : json :=
  JObj ([(B "extension", JStr (em_extension e));
         (B "must_understand", JBool (em_must_understand e))] ++
        match em_configuration e with
        | Some m => [(B "configuration", JObj m)]
        | None => []
        end).
Definition ext_fields : list bytes := [B "extension"; B "must_understand"; B "configuration"].
Definition dec_ext (j : json) : res ext_meta :=
  m ← as_struct ext_fields 3 j;
  e ← required (B "extension") m; e ← as_str e;
  u ← required (B "must_understand") m; u ← as_bool u;
  c ← field (B "configuration") m; c ← as_option as_map c;
  Ok (ExtMeta e u c).

(** ** Array metadata: src/lib.rs:360-402 *)

Definition enc_order (o : order) : json :=
  JStr (match o with RowMajor => B "C" | ColumnMajor => B "F" end).
(** A unit variant: its name, or an object with its name and null. *)
Definition as_variant (j : json) : res bytes :=
  match j with
  | JStr s | JObj [(s, JNull)] => Ok s
  | _ => Err InvalidData
  end.
Definition dec_order (j : json) : res order :=
  s ← as_variant j;
  if beq s (B "C") then Ok RowMajor
  else if beq s (B "F") then Ok ColumnMajor
  else Err InvalidData.

Definition enc_meta (m : array_meta) : json :=
  JObj ([(B "shape", JArr (map JInt (am_shape m)));
         (B "data_type", enc_dtype (am_dtype m));
         (B "chunk_grid",
           JObj [(B "type", JStr (am_grid_type m));
                 (B "chunk_shape", JArr (map JInt (am_chunk_shape m)));
                 (B "separator", JStr (am_sep m))]);
         (B "chunk_memory_layout", enc_order (am_order m));
         (B "fill_value", match am_fill m with None => JNull | Some v => v end);
         (B "extensions", JArr (map enc_ext (am_exts m)));
         (B "attributes", JObj (am_attrs m))] ++
        (if compression_is_default (am_comp m) then []
         else [(B "compressor", enc_comp (am_comp m))])).

Definition dec_value (j : json) : res json := Ok (norm j).

Definition meta_fields : list bytes :=
  [B "shape"; B "data_type"; B "chunk_grid"; B "chunk_memory_layout"; B "fill_value";
   B "extensions"; B "attributes"; B "compressor"].
Definition grid_fields : list bytes := [B "type"; B "chunk_shape"; B "separator"].
Definition dec_meta (j : json) : res array_meta :=
  m ← as_struct meta_fields 7 j;
  sh ← required (B "shape") m; sh ← as_arr sh; sh ← mapM_res (as_int 0 two64) sh;
  dt ← required (B "data_type") m; dt ← dec_dtype dt;
  g ← required (B "chunk_grid") m; g ← as_struct grid_fields 3 g;
  gt ← required (B "type") g; gt ← as_str gt;
  cs ← required (B "chunk_shape") g; cs ← as_arr cs; cs ← mapM_res (as_int 0 two32) cs;
  sp ← required (B "separator") g; sp ← as_str sp;
  ol ← required (B "chunk_memory_layout") m; ol ← dec_order ol;
  fv ← field (B "fill_value") m; fv ← as_option dec_value fv;
  ex ← required (B "extensions") m; ex ← as_arr ex; ex ← mapM_res dec_ext ex;
  at_ ← required (B "attributes") m; at_ ← as_map at_;
  cp ← field (B "compressor") m;
  cp ← match cp with None => Ok compression_default | Some v => dec_comp v end;
  Ok (ArrayMeta sh dt gt cs sp ol fv ex at_ cp).

(** ** Groups and the entry point *)

(** GroupMetadata::default, src/lib.rs:351-358 *)
Definition group_default_json : json :=
  JObj [(B "extensions", JArr []); (B "attributes", JObj [])].

(** src/lib.rs:164-182 *)
Record entry_point := EntryPoint {
  ep_format : bytes; ep_encoding : bytes; ep_suffix : bytes;
  ep_exts : list ext_meta
}.
Definition ep_default : entry_point :=
  EntryPoint (B "https://purl.org/zarr/spec/protocol/core/3.0")
             (B "https://purl.org/zarr/spec/protocol/core/3.0") (B ".json") [].
Definition enc_ep (e : entry_point) : json :=
  JObj [(B "zarr_format", JStr (ep_format e));
        (B "metadata_encoding", JStr (ep_encoding e));
        (B "metadata_key_suffix", JStr (ep_suffix e));
        (B "extensions", JArr (map enc_ext (ep_exts e)))].
Definition ep_fields : list bytes :=
  [B "zarr_format"; B "metadata_encoding"; B "metadata_key_suffix"; B "extensions"].
Definition dec_ep (j : json) : res entry_point :=
  m ← as_struct ep_fields 4 j;
  f ← required (B "zarr_format") m; f ← as_str f;
  e ← required (B "metadata_encoding") m; e ← as_str e;
  s ← required (B "metadata_key_suffix") m; s ← as_str s;
  ex ← required (B "extensions") m; ex ← as_arr ex; ex ← mapM_res dec_ext ex;
  Ok (EntryPoint f e s ex).

(** serde_json::from_reader *)
Definition from_text {A} (dec : json -> res A) (text : bytes) : res A :=
  j ← of_option InvalidData (parse text); dec j.

(** ** Fill value: src/lib.rs:448-454 *)

(** `as f32` / `as f64` of an integer: round to nearest, ties to even, as a
    bit pattern ([mb] mantissa bits, exponent bias [bias]). *)
Definition round_half_even (a k : Z) : Z :=
  let q := a / 2 ^ k in
  let r := a mod 2 ^ k in
  let half := 2 ^ (k - 1) in
  if (r <? half) || ((r =? half) && (q mod 2 =? 0)) then q else q + 1.
Definition int_to_float_bits (mb bias signbit z : Z) : Z :=
  let a := Z.abs z in
  if a =? 0 then 0
  else
    let e := Z.log2 a in
    let mant := if e <=? mb then a * 2 ^ (mb - e) else round_half_even a (e - mb) in
    (if z <? 0 then 2 ^ signbit else 0) + ((e + bias) * 2 ^ mb + (mant - 2 ^ mb)).

(** serde's Deserialize of the element types from a Value.  half's f16
    derives it as a newtype of u16.  [flit] is the (unmodelled) conversion of
    a non-integer literal to f32/f64 bits. *)
Definition elt_of_json (flit : rty -> bytes -> Z) (t : rty) (j : json) : res Z :=
  match t with
  | RBool => b ← as_bool j; Ok (if b : bool then 1 else 0)
  | RU8 => as_int 0 (2 ^ 8) j
  | RU16 => as_int 0 (2 ^ 16) j
  | RU32 => as_int 0 (2 ^ 32) j
  | RU64 => as_int 0 (2 ^ 64) j
  | RI8 => as_int (- 2 ^ 7) (2 ^ 7) j
  | RI16 => as_int (- 2 ^ 15) (2 ^ 15) j
  | RI32 => as_int (- 2 ^ 31) (2 ^ 31) j
  | RI64 => as_int (- 2 ^ 63) (2 ^ 63) j
  | RF16 => as_int 0 (2 ^ 16) j
  | RF32 => match j with
            | JInt z => Ok (int_to_float_bits 23 127 31 z)
            | JFloat l => Ok (flit RF32 l)
            | _ => Err InvalidData
            end
  | RF64 => match j with
            | JInt z => Ok (int_to_float_bits 52 1023 63 z)
            | JFloat l => Ok (flit RF64 l)
            | _ => Err InvalidData
            end
  end.

(** get_effective_fill_value; T::default() is 0 / false / 0.0 for every
    element type. *)
Definition effective_fill (flit : rty -> bytes -> Z) (t : rty) (m : array_meta)
  : res Z :=
  match am_fill m with
  | None => Ok 0
  | Some v => elt_of_json flit t v
  end.
