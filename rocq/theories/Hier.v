(** The hierarchy operations: src/storage.rs, the default methods of
    src/lib.rs:217-338, and opening (src/store/filesystem.rs:37-117). *)
From Verif Require Export Path FS MetaJson Chunk.

(** FilesystemHierarchy, filesystem.rs:37-41 *)
Record hier := Hier { hy_base : bytes; hy_ep : entry_point }.

(** Continue with the value of a read-only call, or stop with its failure. *)
Definition on {A B : Type} (s : fs) (r : res A) (k : A -> fs * res B) : fs * res B :=
  match r with Ok a => k a | Err e => (s, Err e) | Panic => (s, Panic) end.
(** Sequence two state-changing calls (the `?` operator). *)
Definition andthen {A B : Type} (r : fs * res A) (k : fs -> A -> fs * res B) : fs * res B :=
  match r with
  | (s, Ok a) => k s a
  | (s, Err e) => (s, Err e)
  | (s, Panic) => (s, Panic)
  end.

Definition akey (H : hier) (path : bytes) : bytes :=
  array_metadata_key (ep_suffix (hy_ep H)) path.
Definition gkey (H : hier) (path : bytes) : bytes :=
  group_metadata_key (ep_suffix (hy_ep H)) path.

(** ** Reading *)

(** The first extension that must be understood, if any, is an error of kind
    Other (src/lib.rs:98-108): storage.rs:172-176, filesystem.rs:54-58. *)
Definition check_exts (l : list ext_meta) : res unit :=
  if existsb em_must_understand l then Err Other else Ok tt.

(** storage.rs:165-178 *)
Definition get_array_metadata (H : hier) (s : fs) (path : bytes) : res array_meta :=
  o ← st_get (hy_base H) s (akey H path);
  text ← of_option NotFound o;
  m ← from_text dec_meta text;
  _ ← check_exts (am_exts m);
  Ok m.

(** storage.rs:180-194 (`||` does not evaluate its right operand after true) *)
Definition node_exists (H : hier) (s : fs) (path : bytes) : res bool :=
  a ← st_exists (hy_base H) s (akey H path);
  if a : bool then Ok true else
  g ← st_exists (hy_base H) s (gkey H path);
  if g : bool then Ok true else
  st_exists (hy_base H) s (set_extension (set_extension (gkey H path) []) []).

(** src/lib.rs:229-231 *)
Definition array_exists (H : hier) (s : fs) (path : bytes) : res bool :=
  e ← node_exists H s path;
  if e : bool then
    match get_array_metadata H s path with
    | Ok _ => Ok true | Err _ => Ok false | Panic => Panic
    end
  else Ok false.

(** storage.rs:196-204 *)
Definition get_chunk_uri (H : hier) (path : bytes) (m : array_meta)
    (pos : list Z) : res bytes :=
  st_uri (hy_base H) (get_chunk_key path m pos).

(** storage.rs:206-235 *)
Definition read_chunk (C : codec) (h : host) (H : hier) (s : fs) (t : rty)
    (path : bytes) (m : array_meta) (pos : list Z) : res (option chunk) :=
  b ← in_bounds (h_prof h) m pos;
  _ ← assert_ b;
  o ← st_get (hy_base H) s (get_chunk_key path m pos);
  match o with
  | None => Ok None
  | Some content => c ← decode_chunk C h t m content pos; Ok (Some c)
  end.

(** storage.rs:237-267; the caller's buffer [old] becomes the result. *)
Definition read_chunk_into (C : codec) (h : host) (H : hier) (s : fs) (t : rty)
    (path : bytes) (m : array_meta) (pos : list Z) (old : chunk)
  : res (option chunk) :=
  b ← in_bounds (h_prof h) m pos;
  _ ← assert_ b;
  o ← st_get (hy_base H) s (get_chunk_key path m pos);
  match o with
  | None => Ok None
  | Some content => c ← decode_chunk_into C h t m content pos old; Ok (Some c)
  end.

(** storage.rs:280-290, 367-377: which metadata document a node has. *)
Definition node_key (H : hier) (s : fs) (path : bytes) : res bytes :=
  a ← st_exists (hy_base H) s (akey H path);
  if a : bool then Ok (akey H path) else
  g ← st_exists (hy_base H) s (gkey H path);
  if g : bool then Ok (gkey H path) else Err NotFound.

Definition ATTRIBUTES_NAME : bytes := B "attributes".

(** storage.rs:278-306 *)
Definition list_attributes (H : hier) (s : fs) (path : bytes) : res jmap :=
  k ← node_key H s path;
  o ← st_get (hy_base H) s k;
  text ← of_option NotFound o;
  v ← from_text dec_value text;
  match v with
  | JObj m => match mget ATTRIBUTES_NAME m with
              | Some (JObj a) => Ok a
              | Some _ => Err InvalidData
              | None => Ok []
              end
  | _ => Ok []
  end.

(** ** Writing *)

(** storage.rs:131-142 *)
Definition merge_top_level (a : json) (b : jmap) : json :=
  match a with JObj m => JObj (mmerge m b) | _ => JObj b end.

(** storage.rs:385-391: the new document. *)
Definition merge_doc (existing attrs : jmap) : jmap :=
  match mget ATTRIBUTES_NAME existing with
  | Some old => minsert ATTRIBUTES_NAME (merge_top_level old attrs) existing
  | None => minsert ATTRIBUTES_NAME (JObj attrs) existing
  end.

(** storage.rs:361-398; [attrs] is a serde_json::Map. *)
Definition set_attributes (H : hier) (s : fs) (path : bytes) (attrs : jmap)
  : fs * res unit :=
  on s (node_key H s path) (fun k =>
  on s (st_get (hy_base H) s k) (fun o =>
  on s (of_option NotFound o) (fun text =>
  on s (from_text as_map text) (fun existing =>
  let merged := merge_doc existing attrs in
  if json_eqb (JObj merged) (JObj existing) then (s, Ok tt)
  else st_set (hy_base H) s k (print (JObj merged), Ok tt))))).

(** src/lib.rs:286-298; [attribute] after serde_json::to_value *)
Definition set_attribute (H : hier) (s : fs) (path key : bytes) (attribute : json)
  : fs * res unit :=
  set_attributes H s path [(key, attribute)].

(** storage.rs:400-420 *)
Definition create_group (H : hier) (s : fs) (path : bytes) : fs * res unit :=
  on s (st_exists (hy_base H) s (akey H path)) (fun a =>
  if a : bool then (s, Err AlreadyExists)
  else on s (st_exists (hy_base H) s (gkey H path)) (fun g =>
       if g : bool then (s, Ok tt)
       else st_set (hy_base H) s (gkey H path) (print group_default_json, Ok tt))).

(** storage.rs:422-442 *)
Definition create_array (H : hier) (s : fs) (path : bytes) (m : array_meta)
  : fs * res unit :=
  on s (st_exists (hy_base H) s (gkey H path)) (fun g =>
  if g : bool then (s, Err AlreadyExists)
  else on s (st_exists (hy_base H) s (akey H path)) (fun a =>
       if a : bool then (s, Err AlreadyExists)
       else st_set (hy_base H) s (akey H path) (print (enc_meta m), Ok tt))).

(** storage.rs:444-454 (lines 450-451 modify a local that is not used again) *)
Definition remove (H : hier) (s : fs) (path : bytes) : fs * res unit :=
  andthen (st_erase (hy_base H) s (gkey H path)) (fun s1 _ =>
  andthen (st_erase (hy_base H) s1 (akey H path)) (fun s2 _ =>
  andthen (st_erase_prefix (hy_base H) s2 (data_path_key path)) (fun s3 _ =>
  (s3, Ok tt)))).

(** src/lib.rs:312-314 *)
Definition remove_all (H : hier) (s : fs) : fs * res unit := remove H s [].

(** storage.rs:456-470 *)
Definition write_chunk (C : codec) (h : host) (H : hier) (s : fs) (t : rty)
    (path : bytes) (m : array_meta) (ck : chunk) : fs * res unit :=
  st_set (hy_base H) s (get_chunk_key path m (ck_pos ck)) (encode_chunk C h t m ck).

(** storage.rs:472-480 *)
Definition delete_chunk (H : hier) (s : fs) (path : bytes) (m : array_meta)
    (pos : list Z) : fs * res bool :=
  st_erase (hy_base H) s (get_chunk_key path m pos).

(** ** Listing *)

(** storage.rs:52-63; [fuel] bounds the number of loop iterations (the loop
    itself is unbounded); [None] means the bound was reached. *)
Fixpoint list_prefix_loop (list_dir : bytes -> res (list bytes * list bytes))
    (fuel : nat) (to_visit result : list bytes) : option (res (list bytes)) :=
  match rev to_visit with
  | [] => Some (Ok result)
  | next :: rest =>
      match fuel with
      | O => None
      | S f =>
          match list_dir next with
          | Ok (ks, ps) =>
              list_prefix_loop list_dir f (rev rest ++ ps) (result ++ ks)
          | Err e => Some (Err e)
          | Panic => Some Panic
          end
      end
  end.
Definition list_prefix (base : bytes) (s : fs) (fuel : nat) (prefix : bytes) :=
  list_prefix_loop (st_list_dir base s) fuel [prefix] [].
(** storage.rs:47-49 *)
Definition list_keys (base : bytes) (s : fs) (fuel : nat) :=
  list_prefix base s fuel (B "/").

(** Vec::sort on strings (insertion sort: same result), Vec::dedup. *)
Fixpoint insert_sorted (x : bytes) (l : list bytes) : list bytes :=
  match l with
  | [] => [x]
  | y :: l' => match bcmp x y with Gt => y :: insert_sorted x l' | _ => x :: l end
  end.
Definition sort_strs (l : list bytes) : list bytes := foldr insert_sorted [] l.
Fixpoint dedup (l : list bytes) : list bytes :=
  match l with
  | [] => []
  | x :: l' => match dedup l' with
               | y :: r => if beq x y then y :: r else x :: y :: r
               | [] => [x]
               end
  end.
(** String::truncate(k.len() - n); the subtraction is checked, a length not
    below the string's leaves it unchanged.  (Char boundaries: not modelled.) *)
Definition truncate_by (p : profile) (n : Z) (k : bytes) : res bytes :=
  l ← sub64 p (lenZ k) n; Ok (if lenZ k <=? l then k else take (Z.to_nat l) k).
(** String::drain(..n) *)
Definition drain_to (n : nat) (k : bytes) : res bytes :=
  if (n <=? length k)%nat then Ok (drop n k) else Panic.

(** storage.rs:310-357 *)
Definition list_nodes (p : profile) (H : hier) (s : fs) (path : bytes)
  : res (list bytes) :=
  let suffix := ep_suffix (hy_ep H) in
  let key_prefix := META_ROOT_PATH ++ slash :: canonicalize_path path in
  '(keys, prefixes) ← st_list_dir (hy_base H) s key_prefix;
  let keys := filter (fun k => ends_with suffix k = true) keys in
  keys ← mapM_res (truncate_by p (lenZ suffix)) keys;
  let keys := filter (fun k => ends_with ARRAY_METADATA_KEY_EXT k
                               || ends_with GROUP_METADATA_KEY_EXT k = true) keys in
  let suffix_len := lenZ suffix + lenZ ARRAY_METADATA_KEY_EXT + 1 in
  keys ← mapM_res (truncate_by p suffix_len) keys;
  let keys := keys ++ map trim_end_slash prefixes in
  let keys := dedup (sort_strs keys) in
  mapM_res (drain_to (length key_prefix)) keys.

(** ** Opening *)

(** storage.rs:145-163: the text after the last '/'. *)
Definition version_str (e : entry_point) : bytes :=
  match list.last (split_slash (ep_format e)) with Some v => v | None => [] end.

(** [V] stands for the semver crate: VersionReq::parse and, if it succeeds,
    whether the requirement matches 3.0.0 (src/lib.rs:58-65). *)
Definition check_version (V : bytes -> option bool) (e : entry_point) : res unit :=
  match V (version_str e) with
  | None => Err InvalidData
  | Some true => Ok tt
  | Some false => Err Other
  end.

(** filesystem.rs:50-61 *)
Definition read_entry_point (base : bytes) (s : fs) : res entry_point :=
  text ← open_read s (comps (path_join base ENTRY_POINT_KEY));
  e ← from_text dec_ep text;
  _ ← check_exts (ep_exts e);
  Ok e.

(** filesystem.rs:63-82 *)
Definition open_hier (V : bytes -> option bool) (base : bytes) (s : fs) : res hier :=
  e ← read_entry_point base s;
  _ ← check_version V e;
  Ok (Hier base e).

(** Open for writing without truncation and write [text] from the start:
    filesystem.rs:93-101.  What a longer old file has beyond [text] stays (a
    file can be there although the path did not exist before the base
    directory was created: "missing/../existing"). *)
Definition create_file (s : fs) (cs : list comp) (text : bytes) : fs * res unit :=
  match open_truncate s cs with
  | (s1, Ok p) =>
      (<[p := File (text ++ drop (length text) (default [] (file_at s p)))]> s1, Ok tt)
  | (s1, Err e) => (s1, Err e)
  | (s1, Panic) => (s1, Panic)
  end.

(** filesystem.rs:84-117 *)
Definition open_or_create (V : bytes -> option bool) (base : bytes) (s : fs)
  : fs * res hier :=
  let cs := comps (path_join base ENTRY_POINT_KEY) in
  let finish (s1 : fs) (e : entry_point) :=
    (s1, _ ← check_version V e; Ok (Hier base e)) in
  if path_exists s cs
  then on s (read_entry_point base s) (finish s)
  else andthen (create_dir_all s (comps base)) (fun s1 _ =>
       andthen (create_file s1 cs (print (enc_ep ep_default))) (fun s2 _ =>
       finish s2 ep_default)).
