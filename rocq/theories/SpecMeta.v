(** Specification vocabulary for metadata documents and nodes. *)
From Verif Require Import Hier Spec.
Local Open Scope Z_scope.

(** A value of type serde_json::Value: object keys sorted and distinct,
    integers in the range of u64 and i64, other numbers float tokens, strings
    UTF-8 (what [utf8_ok] accepts: C67_utf8). *)
Definition value_ok (j : json) : Prop := is_value j = true /\ json_ok j = true.

(** The codec settings' integer types: u8 for bzip2, i32 for the others. *)
Definition comp_typed (c : compression) : Prop :=
  match c with
  | CRaw => True
  | CBzip2 b => 0 <= b < 256
  | CGzip z | CLz4 z | CXz z => - 2 ^ 31 <= z < 2 ^ 31
  end.

(** What the Rust types of the fields guarantee. *)
Definition exts_typed (l : list ext_meta) : Prop :=
  Forall (fun e => utf8_ok (em_extension e) = true
                   /\ forall c, em_configuration e = Some c -> value_ok (JObj c)) l.
Definition dtype_typed (x : ext_data_type) : Prop :=
  match x with
  | Core _ => True
  | Extended e t _ => utf8_ok e = true /\ utf8_ok t = true
  end.
Definition meta_value (m : array_meta) : Prop :=
  meta_typed m
  /\ (forall v, am_fill m = Some v -> value_ok v)
  /\ value_ok (JObj (am_attrs m))
  /\ exts_typed (am_exts m)
  /\ comp_typed (am_comp m)
  /\ dtype_typed (am_dtype m) /\ utf8_ok (am_grid_type m) = true /\ utf8_ok (am_sep m) = true.
Definition ep_typed (e : entry_point) : Prop :=
  utf8_ok (ep_format e) = true /\ utf8_ok (ep_encoding e) = true /\ utf8_ok (ep_suffix e) = true
  /\ exts_typed (ep_exts e).

(** serde_json reads at most 127 levels of nesting; the rest of the document
    takes one level for the fill value and the attributes, three for the
    configuration of an extension. *)
Definition exts_nesting_ok (l : list ext_meta) : Prop :=
  Forall (fun e => forall c, em_configuration e = Some c -> (jdepth (JObj c) <= 124)%nat) l.
Definition nesting_ok (m : array_meta) : Prop :=
  (forall v, am_fill m = Some v -> (jdepth v <= 126)%nat)
  /\ (jdepth (JObj (am_attrs m)) <= 126)%nat
  /\ exts_nesting_ok (am_exts m).

(** No raw data type (their names cannot be read back, C27). *)
Definition no_raw (x : ext_data_type) : Prop :=
  match x with
  | Core d | Extended _ _ (Some d) => forall n, d <> DRaw n
  | Extended _ _ None => True
  end.

(** Equal up to the byte order of single-byte types. *)
Definition dtype_same (d d' : data_type) : Prop :=
  dkind d' = dkind d /\ dbits d' = dbits d /\ (dbits d <> 8 -> d' = d).
Definition ext_dtype_same (x x' : ext_data_type) : Prop :=
  match x, x' with
  | Core d, Core d' => dtype_same d d'
  | Extended e t (Some d), Extended e' t' (Some d') => e' = e /\ t' = t /\ dtype_same d d'
  | Extended e t None, Extended e' t' None => e' = e /\ t' = t
  | _, _ => False
  end.
(** Equal metadata; a fill value that is null is no fill value. *)
Definition same_meta (m m' : array_meta) : Prop :=
  am_shape m' = am_shape m
  /\ ext_dtype_same (am_dtype m) (am_dtype m')
  /\ am_grid_type m' = am_grid_type m
  /\ am_chunk_shape m' = am_chunk_shape m
  /\ am_sep m' = am_sep m
  /\ am_order m' = am_order m
  /\ am_fill m' = match am_fill m with Some JNull => None | f => f end
  /\ am_exts m' = am_exts m
  /\ am_attrs m' = am_attrs m
  /\ am_comp m' = am_comp m.

(** The same metadata with other attributes. *)
Definition with_attrs (m : array_meta) (a : jmap) : array_meta :=
  ArrayMeta (am_shape m) (am_dtype m) (am_grid_type m) (am_chunk_shape m) (am_sep m)
    (am_order m) (am_fill m) (am_exts m) a (am_comp m).

(** [new] is [old] overridden, key by key, by [upd]; all three are maps with
    sorted, distinct keys, so this determines [new]. *)
Definition overridden (old upd new : jmap) : Prop :=
  keys_sorted new = true
  /\ forall k, mget k new = match mget k upd with Some v => Some v | None => mget k old end.

(** An extension that must be understood. *)
Definition requires_extension (l : list ext_meta) : Prop :=
  exists e, e ∈ l /\ em_must_understand e = true.

(** The metadata document of a node, as a map: the text of the file that holds
    it (that of the array if both exist), parsed. *)
Definition node_document (H : hier) (s : fs) (path : bytes) : res jmap :=
  k ← node_key H s path;
  o ← st_get (hy_base H) s k;
  text ← of_option NotFound o;
  from_text as_map text.

(** Exactly one file differs: it existed and has a new content. *)
Definition one_file_changed (s s' : fs) (p : fpath) : Prop :=
  (exists c c', node_at s p = Some (File c) /\ node_at s' p = Some (File c'))
  /\ forall q, q <> p -> node_at s' q = node_at s q.

(** Several attribute updates, one after the other. *)
Fixpoint set_many (H : hier) (s : fs) (path : bytes) (us : list jmap) : fs * list (res unit) :=
  match us with
  | [] => (s, [])
  | u :: us' => let '(s1, r) := set_attributes H s path u in
                let '(s2, rs) := set_many H s1 path us' in (s2, r :: rs)
  end.
(** The value of [k] after the updates [us]. *)
Definition latest (k : bytes) (old : jmap) (us : list jmap) : option json :=
  foldl (fun acc u => match mget k u with Some v => Some v | None => acc end) (mget k old) us.

(** Metadata on which grid computations make sense. *)
Definition usable (m : array_meta) : Prop :=
  length (am_chunk_shape m) = length (am_shape m) /\ Forall (fun c => 0 < c) (am_chunk_shape m).
