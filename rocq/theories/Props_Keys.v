(** Property theorems: storage keys and path strings (C11-C14). *)
From Verif Require Import Hier Spec StoreFacts Props_Chunk Props_Store.
Local Open Scope Z_scope.

(** C11: same file only for equal canonical components and equal positions
    (also for two arrays with different separators) ... *)
Theorem C11_chunk_files_distinct :
  forall base path path' m m' pos pos',
  pos_ok pos -> pos_ok pos' -> good_sep (am_sep m) -> good_sep (am_sep m') ->
  loc base (get_chunk_key path m pos) = loc base (get_chunk_key path' m' pos') ->
  pieces path = pieces path' /\ pos = pos'.
Proof. exact loc_chunk_inj. Qed.
Print Assumptions C11_chunk_files_distinct.

(** ... and same key string only for equal canonical paths and positions. *)
Theorem C11_chunk_keys_distinct :
  forall path path' m pos pos',
  pos_ok pos -> pos_ok pos' -> "c"%char ∉ am_sep m ->
  match am_sep m with b :: _ => is_digit b = false | [] => False end ->
  get_chunk_key path m pos = get_chunk_key path' m pos' ->
  canonicalize_path path = canonicalize_path path' /\ pos = pos'.
Proof. exact chunk_key_string_inj. Qed.
Print Assumptions C11_chunk_keys_distinct.

(** The premises on the separator are needed: without them keys collide. *)
Theorem C11_separator_premise_needed :
  (exists pos pos', pos <> pos' /\ pos_ok pos /\ pos_ok pos'
     /\ get_chunk_key (B "a") (sep_meta []) pos = get_chunk_key (B "a") (sep_meta []) pos')
  /\ (exists pos pos', pos <> pos' /\ pos_ok pos /\ pos_ok pos'
     /\ get_chunk_key (B "a") (sep_meta (B "0")) pos = get_chunk_key (B "a") (sep_meta (B "0")) pos')
  /\ (exists path path' pos pos', canonicalize_path path <> canonicalize_path path' /\ pos_ok pos /\ pos_ok pos'
     /\ get_chunk_key path (sep_meta (B "/c")) pos = get_chunk_key path' (sep_meta (B "/c")) pos').
Proof. exact separator_needed. Qed.
Print Assumptions C11_separator_premise_needed.

Example C11_example :
  good_sep (B "/") /\ good_sep (B ".") /\ good_sep (B "-_/")
  /\ get_chunk_key (B "/foo//") (sep_meta (B ".")) [1; 20] = B "/data/root/foo/c1.20"
  /\ get_chunk_key (B "/") (sep_meta (B "/")) [1; 20] = B "/data/root/c1/20".
Proof. exact separator_examples. Qed.

(** C12 *)
Theorem C12_metadata_keys_distinct :
  forall base ext ext' sfx path path',
  is_node_ext ext -> is_node_ext ext' -> slash ∉ strip_dot sfx -> plain path -> plain path' ->
  loc base (metadata_key ext sfx path) = loc base (metadata_key ext' sfx path') ->
  pieces path = pieces path' /\ ext = ext'.
Proof. exact loc_node_inj. Qed.
Print Assumptions C12_metadata_keys_distinct.

Theorem C12_metadata_vs_chunk_keys :
  forall base ext sfx path path' m pos,
  is_node_ext ext -> slash ∉ strip_dot sfx ->
  loc base (metadata_key ext sfx path) <> loc base (get_chunk_key path' m pos).
Proof. exact loc_node_chunk. Qed.
Print Assumptions C12_metadata_vs_chunk_keys.

Theorem C12_entry_point_key_distinct :
  forall base ext sfx path path' m pos,
  is_node_ext ext -> slash ∉ strip_dot sfx ->
  loc base ENTRY_POINT_KEY <> loc base (metadata_key ext sfx path)
  /\ loc base ENTRY_POINT_KEY <> loc base (get_chunk_key path' m pos).
Proof. exact entry_key_distinct. Qed.
Print Assumptions C12_entry_point_key_distinct.

Example C12_example :
  array_metadata_key (B ".json") (B "a/.b.c.") = B "/meta/root/a/.b.c..array.json"
  /\ group_metadata_key (B "json") (B "//a/.b.c./") = B "/meta/root/a/.b.c..group.json"
  /\ array_metadata_key (B ".json") (B "/") = B "/meta/root.array.json"
  /\ plain (B "a/.b.c.") /\ slash ∉ strip_dot (B ".json").
Proof. exact metadata_key_examples. Qed.

(** C13 *)
Theorem C13_equivalent_paths_chunks :
  forall H path path', pieces path = pieces path' ->
  forall C h s t m,
  (forall pos, read_chunk C h H s t path m pos = read_chunk C h H s t path' m pos)
  /\ (forall pos old, read_chunk_into C h H s t path m pos old = read_chunk_into C h H s t path' m pos old)
  /\ (forall ck, write_chunk C h H s t path m ck = write_chunk C h H s t path' m ck)
  /\ (forall pos, delete_chunk H s path m pos = delete_chunk H s path' m pos).
Proof. exact equiv_chunk_ops. Qed.
Print Assumptions C13_equivalent_paths_chunks.

Theorem C13_equivalent_paths_nodes :
  forall H path path', slash ∉ strip_dot (ep_suffix (hy_ep H)) -> pieces path = pieces path' ->
  forall s,
  get_array_metadata H s path = get_array_metadata H s path'
  /\ node_exists H s path = node_exists H s path'
  /\ array_exists H s path = array_exists H s path'
  /\ list_attributes H s path = list_attributes H s path'
  /\ (forall attrs, set_attributes H s path attrs = set_attributes H s path' attrs)
  /\ (forall k v, set_attribute H s path k v = set_attribute H s path' k v)
  /\ create_group H s path = create_group H s path'
  /\ (forall m, create_array H s path m = create_array H s path' m)
  /\ Hier.remove H s path = Hier.remove H s path'.
Proof. exact equiv_node_ops. Qed.
Print Assumptions C13_equivalent_paths_nodes.

Example C13_example :
  pieces (B "a/b") = pieces (B "//a/./b//") /\ pieces (B "") = pieces (B "/./")
  /\ pieces (B "../a") = pieces (B ".././/a/").
Proof. split; [|split]; vm_compute; reflexivity. Qed.

(** C14: true for paths that, followed from "<base>/meta/root" (or
    "<base>/data/root"), never climb above the base. *)
Theorem C14_writes_contained_partial :
  forall H path, plain (hy_base H) -> good_suffix (ep_suffix (hy_ep H)) ->
  never_above 2 (pieces path) ->
  forall s, base_ok (pieces (hy_base H)) s ->
  let b := pieces (hy_base H) in
  (forall attrs, outside_same b s (fst (set_attributes H s path attrs)))
  /\ outside_same b s (fst (create_group H s path))
  /\ (forall m, outside_same b s (fst (create_array H s path m)))
  /\ outside_same b s (fst (Hier.remove H s path))
  /\ (forall C h t m ck, plain (am_sep m) -> pos_ok (ck_pos ck) ->
        outside_same b s (fst (write_chunk C h H s t path m ck)))
  /\ (forall m pos, plain (am_sep m) -> pos_ok pos ->
        outside_same b s (fst (delete_chunk H s path m pos))).
Proof. exact contained_writes. Qed.
Print Assumptions C14_writes_contained_partial.

(** Their answers depend on nothing outside the base. *)
Theorem C14_reads_contained_partial :
  forall H path, plain (hy_base H) -> good_suffix (ep_suffix (hy_ep H)) ->
  never_above 2 (pieces path) ->
  forall s1 s2, base_ok (pieces (hy_base H)) s1 -> base_ok (pieces (hy_base H)) s2 ->
  inside_same (pieces (hy_base H)) s1 s2 ->
  get_array_metadata H s1 path = get_array_metadata H s2 path
  /\ node_exists H s1 path = node_exists H s2 path
  /\ list_attributes H s1 path = list_attributes H s2 path
  /\ (forall C h t m pos, plain (am_sep m) -> pos_ok pos ->
        read_chunk C h H s1 t path m pos = read_chunk C h H s2 t path m pos)
  /\ (forall C h t m pos old, plain (am_sep m) -> pos_ok pos ->
        read_chunk_into C h H s1 t path m pos old = read_chunk_into C h H s2 t path m pos old).
Proof. exact contained_reads. Qed.
Print Assumptions C14_reads_contained_partial.

(** A path that climbs above the base in total is rejected ... *)
Theorem C14_net_escape_rejected :
  forall base s key v, nest (comps key) < 0 ->
  st_get base s key = Err NotFound /\ st_exists base s key = Err NotFound
  /\ st_set base s key v = (s, Err NotFound) /\ st_erase base s key = (s, Err NotFound)
  /\ st_erase_prefix base s key = (s, Err NotFound).
Proof. exact net_escape. Qed.
Print Assumptions C14_net_escape_rejected.

(** ... but one that climbs above it and then names enough components is not:
    a chunk delete removes a file outside the base, a chunk write creates one. *)
Theorem C14_contained_refuted :
  exists H path m s, base_ok (pieces (hy_base H)) s /\ wf_fs s /\ plain (hy_base H)
  /\ good_suffix (ep_suffix (hy_ep H)) /\ good_sep (am_sep m)
  /\ (exists q pos s', delete_chunk H s path m pos = (s', Ok true)
        /\ ~ (pieces (hy_base H) `prefix_of` q)
        /\ file_at s q = Some (B "secret") /\ file_at s' q = None)
  /\ (exists q C h t ck s', write_chunk C h H s t path m ck = (s', Ok tt)
        /\ ~ (pieces (hy_base H) `prefix_of` q)
        /\ file_at s q = None /\ file_at s' q <> None).
Proof. exact escape_witness. Qed.
Print Assumptions C14_contained_refuted.

Example C14_example :
  never_above 2 (pieces (B "../../a/../b")) /\ ~ never_above 2 (pieces (B "../../../h/a"))
  /\ base_ok (pieces (hy_base ex_hier)) ex_fs.
Proof.
  split; [vm_compute; done|]. split; [vm_compute; tauto|].
  apply base_ok_check. vm_compute. reflexivity.
Qed.
