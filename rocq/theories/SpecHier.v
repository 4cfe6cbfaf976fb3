(** An abstract hierarchy: what a user of the library has in mind.  Nodes and
    chunks are two finite maps; no files, keys or documents. *)
From Verif Require Import CoordIter Hier Nd Spec SpecMeta.
Local Open Scope Z_scope.

Notation attr_map := (gmap bytes json).
(** A node: an array with its metadata and attributes (those in the metadata
    record are ignored), or a group with its attributes. *)
Inductive anode :=
  | NArr (m : array_meta) (g : attr_map)
  | NGrp (g : attr_map).
(** Paths are lists of names. *)
Record astate := AState {
  a_nodes : gmap (list bytes) anode;
  a_chunks : gmap (list bytes * list Z) (list Z)
}.
Definition a_empty : astate := AState ∅ ∅.

(** ** Operations and answers *)

Inductive hop :=
  | OCreateArray (path : bytes) (m : array_meta)
  | OCreateGroup (path : bytes)
  | OSetAttributes (path : bytes) (attrs : jmap)
  | ORemove (path : bytes)
  | OExists (path : bytes)
  | OMetadata (path : bytes)
  | OAttributes (path : bytes)
  | OWrite (t : rty) (path : bytes) (pos data : list Z)
  | ODelete (path : bytes) (pos : list Z)
  | ORead (t : rty) (path : bytes) (pos : list Z).
Inductive hans :=
  | HUnit (r : res unit)
  | HBool (r : res bool)
  | HMeta (r : res array_meta)
  | HAttrs (r : res jmap)
  | HChunk (r : res (option chunk)).

(** The library, chunk operations with the metadata it returns itself. *)
Definition hop_step (C : codec) (h : host) (H : hier) (s : fs) (o : hop) : fs * hans :=
  let unit_of (x : fs * res unit) := (fst x, HUnit (snd x)) in
  match o with
  | OCreateArray path m => unit_of (create_array H s path m)
  | OCreateGroup path => unit_of (create_group H s path)
  | OSetAttributes path attrs => unit_of (set_attributes H s path attrs)
  | ORemove path => unit_of (Hier.remove H s path)
  | OExists path => (s, HBool (node_exists H s path))
  | OMetadata path => (s, HMeta (get_array_metadata H s path))
  | OAttributes path => (s, HAttrs (list_attributes H s path))
  | OWrite t path pos data =>
      unit_of (on s (get_array_metadata H s path) (fun m =>
               write_chunk C h H s t path m (Chunk pos data)))
  | ODelete path pos =>
      let x := on s (get_array_metadata H s path) (fun m => delete_chunk H s path m pos) in
      (fst x, HBool (snd x))
  | ORead t path pos =>
      (s, HChunk (m ← get_array_metadata H s path; read_chunk C h H s t path m pos))
  end.
Fixpoint hop_run (C : codec) (h : host) (H : hier) (s : fs) (os : list hop) : fs * list hans :=
  match os with
  | [] => (s, [])
  | o :: os' => let '(s1, a) := hop_step C h H s o in
                let '(s2, l) := hop_run C h H s1 os' in (s2, a :: l)
  end.

(** ** The abstract hierarchy *)

Inductive abans :=
  | BUnit (r : res unit)
  | BBool (r : res bool)
  | BMeta (r : res (array_meta * attr_map))
  | BAttrs (r : res attr_map)
  | BChunk (r : res (option chunk)).
Definition to_attrs (l : jmap) : attr_map := list_to_map l.
Definition node_attrs (n : anode) : attr_map := match n with NArr _ g | NGrp g => g end.
Definition set_node_attrs (n : anode) (g : attr_map) : anode :=
  match n with NArr m _ => NArr m g | NGrp _ => NGrp g end.

Definition ab_step (a : astate) (o : hop) : astate * abans :=
  let nodes := a_nodes a in
  let chunks := a_chunks a in
  match o with
  | OCreateArray path m =>
      match nodes !! pieces path with
      | None => (AState (<[pieces path := NArr m (to_attrs (am_attrs m))]> nodes) chunks, BUnit (Ok tt))
      | Some _ => (a, BUnit (Err AlreadyExists))
      end
  | OCreateGroup path =>
      match nodes !! pieces path with
      | None => (AState (<[pieces path := NGrp ∅]> nodes) chunks, BUnit (Ok tt))
      | Some (NGrp _) => (a, BUnit (Ok tt))
      | Some (NArr _ _) => (a, BUnit (Err AlreadyExists))
      end
  | OSetAttributes path attrs =>
      match nodes !! pieces path with
      | Some n => (AState (<[pieces path := set_node_attrs n (to_attrs attrs ∪ node_attrs n)]> nodes) chunks,
                   BUnit (Ok tt))
      | None => (a, BUnit (Err NotFound))
      end
  | ORemove path =>
      (** the node itself, and the chunks of every array at or below it *)
      (AState (delete (pieces path) nodes)
              (filter (fun kv => ~ pieces path `prefix_of` fst (fst kv)) chunks), BUnit (Ok tt))
  | OExists path => (a, BBool (Ok (bool_decide (is_Some (nodes !! pieces path)))))
  | OMetadata path =>
      (a, BMeta (match nodes !! pieces path with
                 | Some (NArr m g) => Ok (m, g) | _ => Err NotFound end))
  | OAttributes path =>
      (a, BAttrs (match nodes !! pieces path with
                  | Some n => Ok (node_attrs n) | None => Err NotFound end))
  | OWrite t path pos data =>
      match nodes !! pieces path with
      | Some (NArr _ _) => (AState nodes (<[(pieces path, pos) := data]> chunks), BUnit (Ok tt))
      | _ => (a, BUnit (Err NotFound))
      end
  | ODelete path pos =>
      match nodes !! pieces path with
      | Some (NArr _ _) => (AState nodes (delete (pieces path, pos) chunks), BBool (Ok true))
      | _ => (a, BBool (Err NotFound))
      end
  | ORead t path pos =>
      (a, BChunk (match nodes !! pieces path with
                  | Some (NArr _ _) =>
                      Ok (match chunks !! (pieces path, pos) with
                          | Some d => Some (Chunk pos d) | None => None end)
                  | _ => Err NotFound
                  end))
  end.
Fixpoint ab_run (a : astate) (os : list hop) : astate * list abans :=
  match os with
  | [] => (a, [])
  | o :: os' => let '(a1, x) := ab_step a o in
                let '(a2, l) := ab_run a1 os' in (a2, x :: l)
  end.

(** ** Agreement of answers *)

Definition attrs_agree (l : jmap) (g : attr_map) : Prop := keys_sorted l = true /\ to_attrs l = g.
(** The metadata of [m] with attributes [g] (data type up to the byte order of
    single-byte types, null fill value as none: C29). *)
Definition meta_agree (m' m : array_meta) (g : attr_map) : Prop :=
  same_meta (with_attrs m (am_attrs m')) m' /\ attrs_agree (am_attrs m') g.
Definition ans_agree (x : hans) (y : abans) : Prop :=
  match x, y with
  | HUnit r, BUnit r' => r = r'
  | HBool r, BBool r' => r = r'
  | HChunk r, BChunk r' => r = r'
  | HMeta (Ok m'), BMeta (Ok (m, g)) => meta_agree m' m g
  | HMeta (Err e), BMeta (Err e') => e = e'
  | HAttrs (Ok l), BAttrs (Ok g) => attrs_agree l g
  | HAttrs (Err e), BAttrs (Err e') => e = e'
  | _, _ => False
  end.

(** ** Admissible operations *)

(** Names that cannot be mistaken for a chunk file ("c", or "c" and a digit)
    or for a metadata file of the hierarchy. *)
Definition ordinary_name (sfx n : bytes) : Prop :=
  n <> B "c"
  /\ (forall b r, n = "c"%char :: b :: r -> is_digit b = false)
  /\ (forall k, n <> k ++ B ".array." ++ strip_dot sfx)
  /\ (forall k, n <> k ++ B ".group." ++ strip_dot sfx).
Definition ordinary_path (sfx path : bytes) : Prop :=
  plain path /\ Forall (ordinary_name sfx) (pieces path).

(** Metadata that persists (C29) and whose separator keeps chunks apart (C11). *)
Definition array_ok (m : array_meta) : Prop :=
  meta_value m /\ nesting_ok m /\ no_raw (am_dtype m) /\ ~ requires_extension (am_exts m)
  /\ good_sep (am_sep m).
(** Element type and codec with which chunks round trip (C01). *)
Definition type_ok (C : codec) (t : rty) (m : array_meta) : Prop :=
  (exists d, effective m d /\ same_kind_width d t) /\ chunk_shape_ok m
  /\ lossless C (am_comp m) /\ total_codec C (am_comp m).
Definition on_array (a : astate) (path : bytes) (P : array_meta -> Prop) : Prop :=
  forall m g, a_nodes a !! pieces path = Some (NArr m g) -> P m.
Definition hop_ok (C : codec) (p : profile) (sfx : bytes) (a : astate) (o : hop) : Prop :=
  match o with
  | OCreateArray path m => ordinary_path sfx path /\ array_ok m
  | OSetAttributes path attrs =>
      ordinary_path sfx path /\ value_ok (JObj attrs) /\ (jdepth (JObj attrs) <= 126)%nat
  | OCreateGroup path | ORemove path | OExists path | OMetadata path | OAttributes path =>
      ordinary_path sfx path
  | OWrite t path pos data =>
      ordinary_path sfx path /\ on_array a path (fun m =>
        type_ok C t m /\ length pos = length (am_shape m) /\ pos_ok pos
        /\ full_chunk m data /\ Forall (elt_ok t) data)
  | ODelete path pos =>
      ordinary_path sfx path /\ on_array a path (fun m =>
        length pos = length (am_shape m) /\ pos_ok pos)
  | ORead t path pos =>
      ordinary_path sfx path /\ on_array a path (fun m =>
        type_ok C t m /\ in_bounds p m pos = Ok true /\ pos_ok pos)
  end.
Fixpoint history_ok (C : codec) (p : profile) (sfx : bytes) (a : astate) (os : list hop) : Prop :=
  match os with
  | [] => True
  | o :: os' => hop_ok C p sfx a o /\ history_ok C p sfx (fst (ab_step a o)) os'
  end.

(** Nothing of the hierarchy exists yet apart from its entry point: the base
    directory is not a file (nor anything above it), and it has no entries
    "meta" and "data". *)
Definition fresh_hierarchy (s : fs) (base : bytes) : Prop :=
  wf_fs s
  /\ (forall k, file_at s (take k (pieces base)) = None)
  /\ node_at s (pieces base ++ [B "meta"]) = None
  /\ node_at s (pieces base ++ [B "data"]) = None.

(** ** Explicit nodes, for any state *)

(** A path is an explicit array or group when its metadata document exists. *)
Definition explicit_array (H : hier) (s : fs) (path : bytes) : Prop :=
  st_exists (hy_base H) s (array_metadata_key (ep_suffix (hy_ep H)) path) = Ok true.
Definition explicit_group (H : hier) (s : fs) (path : bytes) : Prop :=
  st_exists (hy_base H) s (group_metadata_key (ep_suffix (hy_ep H)) path) = Ok true.

(** Operations as the API has them: chunk and region operations take whatever
    metadata the caller passes. *)
Inductive api_op :=
  | ACreateArray (path : bytes) (m : array_meta)
  | ACreateGroup (path : bytes)
  | ASetAttributes (path : bytes) (attrs : jmap)
  | ARemove (path : bytes)
  | AWriteChunk (t : rty) (path : bytes) (m : array_meta) (ck : chunk)
  | ADeleteChunk (path : bytes) (m : array_meta) (pos : list Z)
  | AWriteRegion (t : rty) (path : bytes) (m : array_meta) (off : list Z) (arr : nd).
Definition api_step (flit : rty -> bytes -> Z) (C : codec) (h : host) (H : hier) (s : fs) (o : api_op) : fs :=
  match o with
  | ACreateArray path m => fst (create_array H s path m)
  | ACreateGroup path => fst (create_group H s path)
  | ASetAttributes path attrs => fst (set_attributes H s path attrs)
  | ARemove path => fst (Hier.remove H s path)
  | AWriteChunk t path m ck => fst (write_chunk C h H s t path m ck)
  | ADeleteChunk path m pos => fst (delete_chunk H s path m pos)
  | AWriteRegion t path m off arr => fst (write_ndarray flit C h H s t path m off arr)
  end.
(** No ".." in paths or separators, indices natural numbers, a region within u64. *)
Definition api_plain (o : api_op) : Prop :=
  match o with
  | ACreateArray path _ | ACreateGroup path | ASetAttributes path _ | ARemove path => plain path
  | AWriteChunk _ path m ck => plain path /\ plain (am_sep m) /\ pos_ok (ck_pos ck)
  | ADeleteChunk path m pos => plain path /\ plain (am_sep m) /\ pos_ok pos
  | AWriteRegion _ path m off arr => plain path /\ plain (am_sep m) /\ bounded_ok (am_shape m) (am_chunk_shape m) off (nd_shape arr)
  end.

(** Among the creations and removals of this very path, the last was a
    creation. *)
Definition toggles (P : list bytes) (o : hop) : option bool :=
  match o with
  | OCreateArray path _ | OCreateGroup path => if decide (pieces path = P) then Some true else None
  | ORemove path => if decide (pieces path = P) then Some false else None
  | _ => None
  end.
Definition created_last (P : list bytes) (os : list hop) : bool :=
  default false (list.last (omap (toggles P) os)).
