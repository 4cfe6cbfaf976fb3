(** The hierarchy operations over an arbitrary store: the blanket
    implementations of src/storage.rs:144-481 are generic in the store, and the
    traits are public.  Hier.v has the same operations over the file-system store;
    C69 shows that they are the instance of these. *)
From Verif Require Export Hier.

(** The traits ReadableStore, ListableStore and WriteableStore,
    storage.rs:33-83, as a record of functions over the states [S] of a store.
    [ss_set] takes what the closure writes and returns (as [st_set] does). *)
Record store (S : Type) := Store {
  ss_exists : S -> bytes -> res bool;
  ss_get : S -> bytes -> res (option bytes);
  ss_uri : S -> bytes -> res bytes;
  ss_list_dir : S -> bytes -> res (list bytes * list bytes);
  ss_set : S -> bytes -> bytes * res unit -> S * res unit;
  ss_erase : S -> bytes -> S * res bool;
  ss_erase_prefix : S -> bytes -> S * res bool
}.
Arguments ss_exists {S} _ _ _.
Arguments ss_get {S} _ _ _.
Arguments ss_uri {S} _ _ _.
Arguments ss_list_dir {S} _ _ _.
Arguments ss_set {S} _ _ _ _.
Arguments ss_erase {S} _ _ _.
Arguments ss_erase_prefix {S} _ _ _.

(** FilesystemHierarchy as a store, filesystem.rs:192-296 *)
Definition fs_store (base : bytes) : store fs :=
  Store fs (st_exists base) (st_get base) (fun _ => st_uri base) (st_list_dir base)
    (st_set base) (st_erase base) (st_erase_prefix base).

(** Continue with the value of a read-only call, or stop with its failure. *)
Definition gon {S A B : Type} (x : S) (r : res A) (k : A -> S * res B) : S * res B :=
  match r with Ok a => k a | Err e => (x, Err e) | Panic => (x, Panic) end.
(** Sequence two state-changing calls (the `?` operator). *)
Definition gthen {S A B : Type} (r : S * res A) (k : S -> A -> S * res B) : S * res B :=
  match r with
  | (x, Ok a) => k x a
  | (x, Err e) => (x, Err e)
  | (x, Panic) => (x, Panic)
  end.

Section Gen.
  Context {S : Type} (st : store S) (sfx : bytes).
  Notation ak path := (array_metadata_key sfx path).
  Notation gk path := (group_metadata_key sfx path).

  (** storage.rs:165-178 *)
  Definition g_get_array_metadata (x : S) (path : bytes) : res array_meta :=
    o ← ss_get st x (ak path);
    text ← of_option NotFound o;
    m ← from_text dec_meta text;
    _ ← check_exts (am_exts m);
    Ok m.
  (** storage.rs:180-194 *)
  Definition g_exists (x : S) (path : bytes) : res bool :=
    a ← ss_exists st x (ak path);
    if a : bool then Ok true else
    g ← ss_exists st x (gk path);
    if g : bool then Ok true else
    ss_exists st x (set_extension (set_extension (gk path) []) []).
  (** src/lib.rs:229-231 *)
  Definition g_array_exists (x : S) (path : bytes) : res bool :=
    e ← g_exists x path;
    if e : bool then
      match g_get_array_metadata x path with
      | Ok _ => Ok true | Err _ => Ok false | Panic => Panic
      end
    else Ok false.
  (** storage.rs:196-204 *)
  Definition g_get_chunk_uri (x : S) (path : bytes) (m : array_meta) (pos : list Z) : res bytes :=
    ss_uri st x (get_chunk_key path m pos).
  (** storage.rs:206-235 *)
  Definition g_read_chunk (C : codec) (h : host) (x : S) (t : rty) (path : bytes) (m : array_meta)
      (pos : list Z) : res (option chunk) :=
    b ← in_bounds (h_prof h) m pos;
    _ ← assert_ b;
    o ← ss_get st x (get_chunk_key path m pos);
    match o with
    | None => Ok None
    | Some content => c ← decode_chunk C h t m content pos; Ok (Some c)
    end.
  (** storage.rs:237-267 *)
  Definition g_read_chunk_into (C : codec) (h : host) (x : S) (t : rty) (path : bytes) (m : array_meta)
      (pos : list Z) (old : chunk) : res (option chunk) :=
    b ← in_bounds (h_prof h) m pos;
    _ ← assert_ b;
    o ← ss_get st x (get_chunk_key path m pos);
    match o with
    | None => Ok None
    | Some content => c ← decode_chunk_into C h t m content pos old; Ok (Some c)
    end.
  (** storage.rs:280-290, 367-377 *)
  Definition g_node_key (x : S) (path : bytes) : res bytes :=
    a ← ss_exists st x (ak path);
    if a : bool then Ok (ak path) else
    g ← ss_exists st x (gk path);
    if g : bool then Ok (gk path) else Err NotFound.
  (** storage.rs:278-306 *)
  Definition g_list_attributes (x : S) (path : bytes) : res jmap :=
    k ← g_node_key x path;
    o ← ss_get st x k;
    text ← of_option NotFound o;
    v ← from_text dec_value text;
    match v with
    | JObj m => match mget ATTRIBUTES_NAME m with
                | Some (JObj a) => Ok a
                | Some _ => Err InvalidData
                | None => Ok []
                end
    | _ => Ok []
    end.
  (** storage.rs:361-398 *)
  Definition g_set_attributes (x : S) (path : bytes) (attrs : jmap) : S * res unit :=
    gon x (g_node_key x path) (fun k =>
    gon x (ss_get st x k) (fun o =>
    gon x (of_option NotFound o) (fun text =>
    gon x (from_text as_map text) (fun existing =>
    let merged := merge_doc existing attrs in
    if json_eqb (JObj merged) (JObj existing) then (x, Ok tt)
    else ss_set st x k (print (JObj merged), Ok tt))))).
  (** storage.rs:400-420 *)
  Definition g_create_group (x : S) (path : bytes) : S * res unit :=
    gon x (ss_exists st x (ak path)) (fun a =>
    if a : bool then (x, Err AlreadyExists)
    else gon x (ss_exists st x (gk path)) (fun g =>
         if g : bool then (x, Ok tt)
         else ss_set st x (gk path) (print group_default_json, Ok tt))).
  (** storage.rs:422-442 *)
  Definition g_create_array (x : S) (path : bytes) (m : array_meta) : S * res unit :=
    gon x (ss_exists st x (gk path)) (fun g =>
    if g : bool then (x, Err AlreadyExists)
    else gon x (ss_exists st x (ak path)) (fun a =>
         if a : bool then (x, Err AlreadyExists)
         else ss_set st x (ak path) (print (enc_meta m), Ok tt))).
  (** storage.rs:444-454 *)
  Definition g_remove (x : S) (path : bytes) : S * res unit :=
    gthen (ss_erase st x (gk path)) (fun x1 _ =>
    gthen (ss_erase st x1 (ak path)) (fun x2 _ =>
    gthen (ss_erase_prefix st x2 (data_path_key path)) (fun x3 _ =>
    (x3, Ok tt)))).
  (** storage.rs:456-470 *)
  Definition g_write_chunk (C : codec) (h : host) (x : S) (t : rty) (path : bytes) (m : array_meta)
      (ck : chunk) : S * res unit :=
    ss_set st x (get_chunk_key path m (ck_pos ck)) (encode_chunk C h t m ck).
  (** storage.rs:472-480 *)
  Definition g_delete_chunk (x : S) (path : bytes) (m : array_meta) (pos : list Z) : S * res bool :=
    ss_erase st x (get_chunk_key path m pos).

  (** storage.rs:47-63, the default methods `list` and `list_prefix` *)
  Definition g_list_prefix (x : S) (fuel : nat) (prefix : bytes) : option (res (list bytes)) :=
    list_prefix_loop (ss_list_dir st x) fuel [prefix] [].
  Definition g_list (x : S) (fuel : nat) : option (res (list bytes)) := g_list_prefix x fuel (B "/").

  (** storage.rs:310-357 *)
  Definition g_list_nodes (p : profile) (x : S) (path : bytes) : res (list bytes) :=
    let key_prefix := META_ROOT_PATH ++ slash :: canonicalize_path path in
    '(keys, prefixes) ← ss_list_dir st x key_prefix;
    let keys := filter (fun k => ends_with sfx k = true) keys in
    keys ← mapM_res (truncate_by p (lenZ sfx)) keys;
    let keys := filter (fun k => ends_with ARRAY_METADATA_KEY_EXT k
                                 || ends_with GROUP_METADATA_KEY_EXT k = true) keys in
    let suffix_len := lenZ sfx + lenZ ARRAY_METADATA_KEY_EXT + 1 in
    keys ← mapM_res (truncate_by p suffix_len) keys;
    let keys := keys ++ map trim_end_slash prefixes in
    let keys := dedup (sort_strs keys) in
    mapM_res (drain_to (length key_prefix)) keys.
End Gen.
