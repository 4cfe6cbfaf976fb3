(** Property theorems: hierarchies over any store (C69, C70). *)
From Verif Require Import GenHier Nd Spec SpecMeta SpecHier SpecStore FSFacts StoreFacts GenFacts GenSim GenList
  Props_Chunk Props_Store Props_Nd Props_Hier.
Local Open Scope Z_scope.

(** The operations of all other properties are those of this file for the
    file-system store. *)
Theorem C69_filesystem :
  forall H C h p, let st := fs_store (hy_base H) in let sfx := ep_suffix (hy_ep H) in
  g_get_array_metadata st sfx = get_array_metadata H
  /\ g_exists st sfx = node_exists H
  /\ g_array_exists st sfx = array_exists H
  /\ (forall s, g_get_chunk_uri st s = get_chunk_uri H)
  /\ g_read_chunk st C h = read_chunk C h H
  /\ g_read_chunk_into st C h = read_chunk_into C h H
  /\ g_list_attributes st sfx = list_attributes H
  /\ g_set_attributes st sfx = set_attributes H
  /\ g_create_group st sfx = create_group H
  /\ g_create_array st sfx = create_array H
  /\ g_remove st sfx = Hier.remove H
  /\ g_write_chunk st C h = write_chunk C h H
  /\ g_delete_chunk st = delete_chunk H
  /\ g_list_prefix st = list_prefix (hy_base H)
  /\ g_list st = list_keys (hy_base H)
  /\ g_list_nodes st sfx p = list_nodes p H
  /\ g_step st sfx C h = hop_step C h H.
Proof. exact filesystem_instance. Qed.
Print Assumptions C69_filesystem.

(** C69: over every map-like store that reads the prefix given to erase_prefix
    as a directory, every answer in every history on tidy paths is the one of
    the abstract hierarchy of SpecHier.v.  Missing: other readings of the
    prefix, and paths with empty components (refuted below). *)
Theorem C69_any_store_partial :
  forall (S : Type) (st : store S) (kv : S -> gmap bytes bytes), map_like st below kv ->
  forall sfx, good_suffix sfx -> forall C h x os,
  fresh_store (kv x) -> history_ok C (h_prof h) sfx a_empty os -> Forall hop_tidy os ->
  Forall2 ans_agree (snd (g_run st sfx C h x os)) (snd (ab_run a_empty os)).
Proof. exact @any_store. Qed.
Print Assumptions C69_any_store_partial.

(** Where the prefix is read as a string, removing a node deletes the chunks of
    every array whose path continues the same string ("a" and "ab"). *)
Theorem C69_string_prefix_refuted :
  forall (S : Type) (st : store S) (kv : S -> gmap bytes bytes) sfx C h x t path path' m pos,
  map_like st string_prefix kv -> canonicalize_path path `prefix_of` canonicalize_path path' ->
  in_bounds (h_prof h) m pos = Ok true ->
  exists x', g_remove st sfx x path = (x', Ok tt) /\ g_read_chunk st C h x' t path' m pos = Ok None.
Proof. exact @string_prefix_loss. Qed.
Print Assumptions C69_string_prefix_refuted.

(** Over every map-like store "a//b" and "a/b" are different nodes (they are
    one in the file system: C10). *)
Theorem C69_untidy_refuted :
  forall (S : Type) (st : store S) erased (kv : S -> gmap bytes bytes) x,
  map_like st erased kv -> fresh_store (kv x) ->
  exists x', g_create_group st (B ".json") x (B "a//b") = (x', Ok tt)
    /\ g_exists st (B ".json") x' (B "a//b") = Ok true /\ g_exists st (B ".json") x' (B "a/b") = Ok false.
Proof. exact @untidy_apart. Qed.
Print Assumptions C69_untidy_refuted.

(** A store: a map in memory.  The premises hold for it, and for the history of
    C33 with one path tidied; some answers. *)
Definition ex_tidy : list hop :=
  map (fun o => match o with ORead t _ pos => ORead t (B "g/t//") pos | _ => o end) ex_history.
Definition ex_store := map_store below.
Example C69_example :
  map_like ex_store below id /\ map_like (map_store string_prefix) string_prefix id
  /\ fresh_store (∅ : gmap bytes bytes)
  /\ history_ok ex_codec (h_prof ex_host) (B ".json") a_empty ex_tidy /\ Forall hop_tidy ex_tidy
  /\ (let l := snd (g_run ex_store (B ".json") ex_codec ex_host ∅ ex_tidy) in
      l !! 2%nat = Some (HUnit (Err AlreadyExists))
      /\ l !! 4%nat = Some (HChunk (Ok (Some (Chunk [1; 1] ex_data))))
      /\ l !! 6%nat = Some (HAttrs (Ok [(B "k", JBool true)]))
      /\ l !! 11%nat = Some (HBool (Ok true))
      /\ l !! 12%nat = Some (HChunk (Ok None))
      /\ l !! 16%nat = Some (HMeta (Err NotFound)))
  /\ canonicalize_path (B "/a") `prefix_of` canonicalize_path (B "/ab/").
Proof.
  split; [apply map_map_like|]. split; [apply map_map_like|].
  split; [intros k _; apply lookup_empty|]. split.
  { assert (OP : forall p, bool_decide (dotdot ∉ pieces p) = true ->
      bool_decide (Forall (fun n => n ∈ [B "g"; B "t"]) (pieces p)) = true -> ordinary_path (ep_suffix (hy_ep ex_hier)) p).
    { intros p X%bool_decide_eq_true_1 Y%bool_decide_eq_true_1. by apply ex_opath. }
    unfold ex_tidy, ex_history. cbn [map history_ok hop_ok].
    repeat match goal with
    | |- _ /\ _ => split
    | |- ordinary_path _ _ => apply OP; vm_compute; reflexivity
    | |- array_ok _ => apply ex_array_ok
    | |- True => done
    end.
    all: try (intros m g X; vm_compute in X; (discriminate X || injection X as <- <-)).
    all: try done.
    all: repeat match goal with
    | |- _ /\ _ => split
    | |- type_ok _ _ _ => exact ex_type_ok
    | |- pos_ok _ => repeat constructor; done
    | |- Forall _ _ => apply C01_example
    | |- full_chunk _ _ => vm_compute; reflexivity
    | |- value_ok _ => split; vm_compute; reflexivity
    | |- (_ <= _)%nat => vm_compute; lia
    | |- _ => vm_compute; reflexivity
    end. }
  split.
  { assert (TP : forall p i j, beq p (replicate i slash ++ join_slash (pieces p) ++ replicate j slash) = true -> tidy_path p).
    { intros p i j E. exists i, j. by apply beq_true. }
    unfold ex_tidy, ex_history. cbn [map].
    repeat (constructor; [split; [first [apply (TP _ 0%nat 0%nat); vm_compute; reflexivity
      |apply (TP _ 1%nat 0%nat); vm_compute; reflexivity|apply (TP _ 0%nat 2%nat); vm_compute; reflexivity]|try done; by left]|]).
    constructor. }
  split; [cbv zeta; do 5 (split; [vm_compute; reflexivity|]); vm_compute; reflexivity|].
  apply (bool_decide_eq_true_1 _). vm_compute. reflexivity.
Qed.

(** C70: over every store whose list_dir does what the trait asks for,
    list_prefix stops and returns exactly the keys with the prefix, each once
    (the file-system store is not one: C36). *)
Theorem C70_list_prefix :
  forall (S : Type) (st : store S) (kv : S -> gmap bytes bytes) x p, lists_dir st kv ->
  exists n, forall fuel, (n <= fuel)%nat -> exists l, g_list_prefix st x fuel p = Some (Ok l)
    /\ NoDup l /\ forall k, k ∈ l <-> is_Some (kv x !! k) /\ p `prefix_of` k.
Proof. exact @any_list_prefix. Qed.
Print Assumptions C70_list_prefix.
(** list returns every key that starts with a slash, as all keys of a hierarchy
    do. *)
Theorem C70_list :
  forall (S : Type) (st : store S) (kv : S -> gmap bytes bytes) x, lists_dir st kv ->
  exists n, forall fuel, (n <= fuel)%nat -> exists l, g_list st x fuel = Some (Ok l)
    /\ NoDup l /\ forall k, k ∈ l <-> is_Some (kv x !! k) /\ exists r, k = slash :: r.
Proof. exact @any_list. Qed.
Print Assumptions C70_list.

(** But list_nodes panics over every such store: for every node other than the
    root, *)
Theorem C70_list_nodes_refuted :
  forall (S : Type) (st : store S) (kv : S -> gmap bytes bytes) sfx t p x path,
  lists_dir st kv -> good_suffix sfx -> sfx = dot :: t -> lenZ sfx <= 11 ->
  tidy_path path -> plain path -> pieces path <> [] -> lenZ path < two32 ->
  is_Some (kv x !! array_metadata_key sfx path) \/ is_Some (kv x !! group_metadata_key sfx path) ->
  g_list_nodes st sfx p x path = Panic.
Proof. exact @any_list_nodes. Qed.
Print Assumptions C70_list_nodes_refuted.
(** and for the root if it has a child whose name is shorter than the suffix. *)
Theorem C70_list_root_refuted :
  forall (S : Type) (st : store S) (kv : S -> gmap bytes bytes) sfx t p x n,
  lists_dir st kv -> good_suffix sfx -> sfx = dot :: t -> lenZ sfx <= 11 ->
  pieces n = [n] -> n <> dotdot -> lenZ n < lenZ sfx ->
  is_Some (kv x !! array_metadata_key sfx n) \/ is_Some (kv x !! group_metadata_key sfx n) ->
  g_list_nodes st sfx p x [] = Panic.
Proof. exact @any_list_root. Qed.
Print Assumptions C70_list_root_refuted.

(** The map in memory lists its directories; its keys after the first nine
    operations of the history. *)
Definition ex_keys : gmap bytes bytes := fst (g_run ex_store (B ".json") ex_codec ex_host ∅ (take 9 ex_tidy)).
Example C70_example :
  lists_dir ex_store id
  /\ g_list_prefix ex_store ex_keys 4 (B "/meta/root/g") = Some (Ok [B "/meta/root/g.group.json"; B "/meta/root/g/t.array.json"])
  /\ g_list ex_store ex_keys 20 = Some (Ok [B "/data/root/g/t/c1/1"; B "/meta/root/g.group.json"; B "/meta/root/g/t.array.json"])
  /\ (is_Some (ex_keys !! array_metadata_key (B ".json") (B "g/t")) \/ is_Some (ex_keys !! group_metadata_key (B ".json") (B "g/t")))
  /\ g_list_nodes ex_store (B ".json") Release ex_keys (B "g") = Panic
  /\ g_list_nodes ex_store (B ".json") Release ex_keys [] = Panic.
Proof.
  split; [apply map_lists_dir|]. split; [vm_compute; reflexivity|]. split; [vm_compute; reflexivity|].
  split; [left; vm_compute; by eexists|]. split; vm_compute; reflexivity.
Qed.
