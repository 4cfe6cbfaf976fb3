(** Specification vocabulary: what a JSON document says about an array or a
    hierarchy, whoever wrote it. *)
From Verif Require Import Hier Spec SpecJson.
Local Open Scope Z_scope.

(** ** Members *)

(** [j] is an object with exactly one member [k], and its value is [v]. *)
Definition has (k : string) (v j : json) : Prop :=
  exists l1 l2, j = JObj (l1 ++ (B k, v) :: l2) /\ B k ∉ l1.*1 /\ B k ∉ l2.*1.
(** [j] is an object without member [k]. *)
Definition lacks (k : string) (j : json) : Prop := exists m, j = JObj m /\ B k ∉ m.*1.
Definition none (k : string) (j : json) : Prop := lacks k j \/ has k JNull j.

(** What is said by members with the given names can be written as an object,
    or as the array of their values in this order; the first [req] of them must
    be in such an array.  (This is what serde derives for a struct.) *)
Definition as_members (names : list string) (req : nat) (j o : json) : Prop :=
  (exists m, j = JObj m) /\ o = j
  \/ exists l, j = JArr l /\ (req <= length l <= length names)%nat /\ o = JObj (zip (map B names) l).
Definition written (names : list string) (req : nat) {A} (says : json -> A -> Prop) (j : json) (a : A) : Prop :=
  exists o, as_members names req j o /\ says o a.
(** A word: a string, or an object with it as the only member and no value. *)
Definition word (j : json) (w : bytes) : Prop := j = JStr w \/ j = JObj [(w, JNull)].

(** A free-form value, as it is kept: the members of an object are sorted, and
    the last of several members with the same key counts. *)
Inductive kept : json -> json -> Prop :=
  | kept_null : kept JNull JNull
  | kept_bool b : kept (JBool b) (JBool b)
  | kept_int z : kept (JInt z) (JInt z)
  | kept_float t : kept (JFloat t) (JFloat t)
  | kept_str s : kept (JStr s) (JStr s)
  | kept_arr l l' : Forall2 kept l l' -> kept (JArr l) (JArr l')
  | kept_obj m m' : keys_sorted m' = true ->
      (forall k, k ∉ m.*1 -> k ∉ m'.*1) ->
      (forall l1 k v l2, m = l1 ++ (k, v) :: l2 -> k ∉ l2.*1 -> exists v', (k, v') ∈ m' /\ kept v v') ->
      kept (JObj m) (JObj m').

(** ** Data types *)

Definition order_char (c : ascii) (e : endian) : Prop :=
  c = "<"%char /\ e = Little \/ c = ">"%char /\ e = Big.
Definition int_char (c : ascii) (w : int_size) : Prop :=
  (c, w) ∈ [("1"%char, IB1); ("2"%char, IB2); ("4"%char, IB4); ("8"%char, IB8)].
Definition float_char (c : ascii) (w : float_size) : Prop :=
  (c, w) ∈ [("2"%char, FB2); ("4"%char, FB4); ("8"%char, FB8)].
(** The name of a data type; the digits of a raw one may follow a plus sign. *)
Inductive type_name : bytes -> data_type -> Prop :=
  | name_bool : type_name (B "bool") DBool
  | name_i1 : type_name (B "i1") (DInt IB1 Little)
  | name_u1 : type_name (B "u1") (DUInt IB1 Little)
  | name_int c w o e : order_char c e -> int_char w o -> type_name [c; "i"%char; w] (DInt o e)
  | name_uint c w o e : order_char c e -> int_char w o -> type_name [c; "u"%char; w] (DUInt o e)
  | name_float c w o e : order_char c e -> float_char w o -> type_name [c; "f"%char; w] (DFloat o e)
  | name_raw plus ds : (plus = [] \/ plus = ["+"%char]) -> ds <> [] ->
      Forall (fun c => 48 <= Z_of_byte c <= 57) ds -> dec_val ds < 2 ^ 64 -> dec_val ds mod 8 = 0 ->
      type_name ("r"%char :: plus ++ ds) (DRaw (dec_val ds)).
Definition type_says (j : json) (x : ext_data_type) : Prop :=
  match x with
  | Core d => exists n, j = JStr n /\ type_name n d
  | Extended e t fb =>
      has "extension" (JStr e) j /\ has "type" (JStr t) j /\
      match fb with
      | Some d => exists n, has "fallback" (JStr n) j /\ type_name n d
      | None => none "fallback" j
      end
  end.

(** ** Compressors *)

(** A setting: an integer of the given range, or the default if it is missing. *)
Definition setting (k : string) (lo hi dflt : Z) : json -> Z -> Prop :=
  written [k] 0 (fun cfg z => has k (JInt z) cfg /\ lo <= z < hi \/ lacks k cfg /\ z = dflt).
Definition compressor_says : json -> compression -> Prop :=
  written ["codec"; "configuration"] 2 (fun j c =>
  exists cfg, has "configuration" cfg j /\
  match c with
  | CRaw => has "codec" (JStr (B "raw")) j /\ cfg = JNull
  | CBzip2 b => has "codec" (JStr (B "bzip2")) j /\ setting "blockSize" 0 256 9 cfg b
  | CGzip l => has "codec" (JStr (B "https://purl.org/zarr/spec/codec/gzip/1.0")) j
               /\ setting "level" (- 2 ^ 31) (2 ^ 31) (-1) cfg l
  | CLz4 b => has "codec" (JStr (B "lz4")) j /\ setting "blockSize" (- 2 ^ 31) (2 ^ 31) 65536 cfg b
  | CXz p => has "codec" (JStr (B "xz")) j /\ setting "preset" (- 2 ^ 31) (2 ^ 31) 6 cfg p
  end).

(** ** Extensions *)

Definition ext_says : json -> ext_meta -> Prop :=
  written ["extension"; "must_understand"; "configuration"] 3 (fun j e =>
  has "extension" (JStr (em_extension e)) j /\ has "must_understand" (JBool (em_must_understand e)) j /\
  match em_configuration e with
  | Some c => exists v, has "configuration" v j /\ kept v (JObj c)
  | None => none "configuration" j
  end).
Definition exts_say (j : json) (l : list ext_meta) : Prop :=
  exists es, has "extensions" (JArr es) j /\ Forall2 ext_says es l.

(** ** Arrays *)

Definition grid_says : json -> bytes * list Z * bytes -> Prop :=
  written ["type"; "chunk_shape"; "separator"] 3 (fun g '(ty, shape, sep) =>
  has "type" (JStr ty) g /\ has "chunk_shape" (JArr (map JInt shape)) g
  /\ Forall (fun z => 0 <= z < 2 ^ 32) shape /\ has "separator" (JStr sep) g).
Definition array_says : json -> array_meta -> Prop :=
  written ["shape"; "data_type"; "chunk_grid"; "chunk_memory_layout"; "fill_value"; "extensions"; "attributes";
           "compressor"] 7 (fun j m =>
  has "shape" (JArr (map JInt (am_shape m))) j /\ Forall (fun z => 0 <= z < 2 ^ 64) (am_shape m)
  /\ (exists t, has "data_type" t j /\ type_says t (am_dtype m))
  /\ (exists g, has "chunk_grid" g j /\ grid_says g (am_grid_type m, am_chunk_shape m, am_sep m))
  /\ (exists o, has "chunk_memory_layout" o j /\ word o (match am_order m with RowMajor => B "C" | ColumnMajor => B "F" end))
  /\ match am_fill m with
     | Some f => exists v, has "fill_value" v j /\ v <> JNull /\ kept v f
     | None => none "fill_value" j
     end
  /\ exts_say j (am_exts m)
  /\ (exists v, has "attributes" v j /\ kept v (JObj (am_attrs m)))
  /\ ((exists c, has "compressor" c j /\ compressor_says c (am_comp m))
      \/ lacks "compressor" j /\ am_comp m = CRaw)).

(** ** Hierarchies *)

Definition entry_says : json -> entry_point -> Prop :=
  written ["zarr_format"; "metadata_encoding"; "metadata_key_suffix"; "extensions"] 4 (fun j e =>
  has "zarr_format" (JStr (ep_format e)) j /\ has "metadata_encoding" (JStr (ep_encoding e)) j
  /\ has "metadata_key_suffix" (JStr (ep_suffix e)) j /\ exts_say j (ep_exts e)).
(** The version is what follows the last slash of the format. *)
Definition version_of (format version : bytes) : Prop :=
  slash ∉ version /\ (format = version \/ exists pre, format = pre ++ slash :: version).

(** ** Attributes *)

(** What the document of an array or a group says about its attributes: none
    if they are missing. *)
Definition attributes_say (j : json) (a : jmap) : Prop :=
  exists j', kept j j'
  /\ (has "attributes" (JObj a) j'
      \/ a = [] /\ (lacks "attributes" j' \/ forall m, j' <> JObj m)).

(** ** Texts *)

(** The text is one value of JSON, nested no deeper than the parser goes
    (serde_json's limit), and says [a]. *)
Definition reads_as {A} (says : json -> A -> Prop) (text : bytes) (a : A) : Prop :=
  exists j, json_says text j /\ (jdepth j <= 127)%nat /\ says j a.

(** The names of data types the library panics on (C28). *)
Definition bad_type_name (n : bytes) : Prop :=
  exists c0 c1 c2, n = [c0; c1; c2] /\ c0 <> "r"%char /\
    ((c0 <> ">"%char /\ c0 <> "<"%char)
     \/ ((c1 = "i"%char \/ c1 = "u"%char) /\ c2 ∉ ["1"; "2"; "4"; "8"]%char)
     \/ (c1 = "f"%char /\ c2 ∉ ["2"; "4"; "8"]%char)).
(** The document has such a name for its data type, or for the fallback of it. *)
Definition names_bad_type (text : bytes) : Prop :=
  exists j t n, json_says text j
  /\ (has "data_type" t j \/ exists shape rest, j = JArr (shape :: t :: rest)) /\ (t = JStr n \/ has "fallback" (JStr n) t)
  /\ bad_type_name n.

(** ** Files *)

(** The file of the document of [kind] "array" or "group" of the node [path]:
    meta/root/<path>.<kind><suffix> under the base directory, with a dot before
    the suffix; for the root meta/root.<kind><suffix>. *)
Definition document (H : hier) (kind : string) (path : bytes) : fpath :=
  let ending := B "." ++ B kind ++ match ep_suffix (hy_ep H) with
                                   | "."%char :: t => B "." ++ t
                                   | t => B "." ++ t
                                   end in
  pieces (hy_base H) ++ B "meta" :: match rev (pieces path) with
                                    | [] => [B "root" ++ ending]
                                    | n :: l => B "root" :: rev l ++ [n ++ ending]
                                    end.
