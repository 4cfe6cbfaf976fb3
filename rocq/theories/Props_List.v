(** Property theorems: listings (C35, C36). *)
From Verif Require Import Hier Nd Spec SpecMeta SpecHier SpecList FSFacts StoreFacts ListFacts ListEquiv
  Props_Chunk Props_Store Props_Nd Props_Hier.
From Coq Require Import Sorting.Sorted.
Local Open Scope Z_scope.

(** Decision procedures for the examples. *)
Definition real_name_b (x : bytes) : bool :=
  negb (beq x []) && bool_decide (slash ∉ x) && (lenZ x <? two32).
Lemma real_names_check s :
  forallb (fun kv => match list.last kv.1 with Some x => real_name_b x | None => true end) (map_to_list s) = true ->
  real_names s.
Proof.
  intros F p x n E. rewrite forallb_forall in F.
  assert (I : In (p ++ [x], n) (map_to_list s)) by by apply elem_of_list_In, elem_of_map_to_list.
  specialize (F _ I). cbn [fst] in F. rewrite last_snoc in F. unfold real_name_b in F.
  apply andb_true_iff in F as [F F3]. apply andb_true_iff in F as [F1 F2].
  apply bool_decide_eq_true_1 in F2. split; [|split; [done|lia]]. by intros ->.
Qed.

(** C35: the listing of a group directory whose explicit children have names
    not shorter than the metadata suffix: sorted, without duplicates, the
    directories below with their names, and explicit nodes with as many
    characters of the name cut off as the suffix has.  So the claim holds for
    groups without explicit children; it is refuted below otherwise.  Missing:
    suffixes that do not start with a dot. *)
Theorem C35_listing_partial :
  forall p H s path t,
  plain (hy_base H) -> good_suffix (ep_suffix (hy_ep H)) -> ep_suffix (hy_ep H) = dot :: t ->
  wf_fs s -> real_names s -> documents_only H s -> plain path -> lenZ path < two32 ->
  node_at s (meta_dir H path) = Some Dir ->
  (forall n, explicit_child H s path n -> lenZ (ep_suffix (hy_ep H)) <= lenZ n) ->
  exists l, list_nodes p H s path = Ok l /\ StronglySorted string_lt l
  /\ forall x, x ∈ l <-> child_dir H s path x
       \/ exists n, explicit_child H s path n
            /\ x = take (length n - length (ep_suffix (hy_ep H)))%nat n.
Proof. exact list_nodes_ok. Qed.
Print Assumptions C35_listing_partial.

(** The premise [documents_only] holds after every history. *)
Theorem C35_documents_only :
  forall H, plain (hy_base H) -> good_suffix (ep_suffix (hy_ep H)) ->
  forall flit C h os s, wf_fs s -> documents_only H s -> Forall api_plain os ->
  wf_fs (fold_left (api_step flit C h H) os s) /\ documents_only H (fold_left (api_step flit C h H) os s).
Proof. exact docs_history. Qed.
Print Assumptions C35_documents_only.
Theorem C35_documents_fresh :
  forall H s, fresh_hierarchy s (hy_base H) -> documents_only H s.
Proof. exact docs_fresh. Qed.
Print Assumptions C35_documents_fresh.

(** An explicit child with a name shorter than the suffix (".json": fewer
    than five characters) makes the listing panic. *)
Theorem C35_short_name_refuted :
  forall p H s path t,
  plain (hy_base H) -> good_suffix (ep_suffix (hy_ep H)) -> ep_suffix (hy_ep H) = dot :: t ->
  wf_fs s -> real_names s -> documents_only H s -> plain path -> lenZ path < two32 ->
  forall n, node_at s (meta_dir H path) = Some Dir -> lenZ (ep_suffix (hy_ep H)) <= 11 ->
  explicit_child H s path n -> lenZ n < lenZ (ep_suffix (hy_ep H)) ->
  list_nodes p H s path = Panic.
Proof. exact list_nodes_panics. Qed.
Print Assumptions C35_short_name_refuted.

(** A group with nothing in it (no directory) cannot be listed. *)
Theorem C35_empty_group_refuted :
  forall p H s path l n, plain (hy_base H) -> good_suffix (ep_suffix (hy_ep H)) -> wf_fs s -> plain path ->
  pieces path = l ++ [n] -> explicit_group H s path -> node_at s (meta_dir H path) = None ->
  list_nodes p H s path = Err NotFound.
Proof. exact list_nodes_missing. Qed.
Print Assumptions C35_empty_group_refuted.

Definition ex_tree : fs :=
  fold_left (api_step ex_flit ex_codec ex_host ex_hier)
    [ACreateGroup (B "top/temperature"); ACreateArray (B "top/pressure") ex_meta;
     ACreateArray (B "top/raw/x") ex_meta; ACreateGroup (B "top")] ex_fs0.
Example C35_example :
  wf_fs ex_tree /\ real_names ex_tree /\ documents_only ex_hier ex_tree
  /\ ep_suffix (hy_ep ex_hier) = dot :: B "json"
  /\ node_at ex_tree (meta_dir ex_hier (B "top")) = Some Dir
  /\ (forall n, explicit_child ex_hier ex_tree (B "top") n -> lenZ (ep_suffix (hy_ep ex_hier)) <= lenZ n)
  (* "raw" is right, the other two are cut *)
  /\ list_nodes Debug ex_hier ex_tree (B "top") = Ok [B "pre"; B "raw"; B "temper"]
  (* "x" has fewer than five characters *)
  /\ list_nodes Debug ex_hier ex_tree (B "top/raw") = Panic
  (* an explicit group without children *)
  /\ list_nodes Debug ex_hier ex_tree (B "top/temperature") = Err NotFound.
Proof.
  assert (W : wf_fs ex_tree) by (apply wf_check_ok; vm_compute; reflexivity).
  split; [done|]. split; [apply real_names_check; vm_compute; reflexivity|].
  assert (G := ex_state_ok). destruct G as (_ & _ & PB & _ & _ & _ & GS & _).
  split.
  { unfold ex_tree. apply C35_documents_only; [done|done|apply wf_check_ok; vm_compute; reflexivity| |].
    - apply C35_documents_fresh. apply C33_example.
    - repeat (apply Forall_cons_2; [apply plain_check; vm_compute; reflexivity|]). constructor. }
  split; [reflexivity|]. split; [vm_compute; reflexivity|].
  split.
  { apply (long_names_check ex_hier ex_tree (B "top") (B "json")); [done|done|reflexivity|done|].
    vm_compute. reflexivity. }
  do 2 (split; [vm_compute; reflexivity|]). vm_compute; reflexivity.
Qed.

(** Attribute updates, chunk writes and deletions and region writes, however
    many and whether they succeed or not, leave the listing of every path as it
    is (also its failures). *)
Theorem C35_listing_kept :
  forall p H t, plain (hy_base H) -> good_suffix (ep_suffix (hy_ep H)) -> ep_suffix (hy_ep H) = dot :: t ->
  lenZ (ep_suffix (hy_ep H)) <= 11 ->
  forall flit C h os s path path', wf_fs s -> node_at s (pieces (hy_base H)) = Some Dir -> real_names s -> documents_only H s ->
  Forall api_plain os -> Forall keeps_nodes os ->
  plain path -> pieces path' = pieces path -> lenZ path < two32 -> lenZ path' < two32 ->
  list_nodes p H (fold_left (api_step flit C h H) os s) path' = list_nodes p H s path.
Proof. exact listing_kept. Qed.
Print Assumptions C35_listing_kept.

Definition ex_tree_ops : list api_op :=
  [AWriteChunk RI16 (B "top/pressure") ex_meta (Chunk [1; 1] ex_data); ASetAttributes (B "top/raw/x") [(B "k", JInt 1)];
   AWriteRegion RI16 (B "elsewhere/new") ex_meta [0; 0] ex_payload;
   ADeleteChunk (B "top/pressure") ex_meta [1; 1]; ASetAttributes (B "top") [(B "k", JNull)]].
Definition ex_tree2 : fs := fold_left (api_step ex_flit ex_codec ex_host ex_hier) ex_tree_ops ex_tree.
Example C35_kept_example :
  lenZ (ep_suffix (hy_ep ex_hier)) <= 11 /\ node_at ex_tree (pieces (hy_base ex_hier)) = Some Dir
  /\ Forall api_plain ex_tree_ops /\ Forall keeps_nodes ex_tree_ops
  /\ (map_to_list ex_tree2).*1 <> (map_to_list ex_tree).*1
  /\ list_attributes ex_hier ex_tree2 (B "top/raw/x") <> list_attributes ex_hier ex_tree (B "top/raw/x")
  /\ list_nodes Debug ex_hier ex_tree2 (B "//top/.") = Ok [B "pre"; B "raw"; B "temper"].
Proof.
  split; [vm_compute; discriminate|]. split; [vm_compute; reflexivity|]. split.
  { unfold ex_tree_ops. repeat (apply list.Forall_cons; split); [..|done]; cbn [api_plain].
    - split; [apply plain_check; vm_compute; reflexivity|]. split; [apply plain_check; vm_compute; reflexivity|]. repeat constructor; done.
    - apply plain_check; vm_compute; reflexivity.
    - split; [apply plain_check; vm_compute; reflexivity|]. split; [apply plain_check; vm_compute; reflexivity|]. repeat constructor; done.
    - split; [apply plain_check; vm_compute; reflexivity|]. split; [apply plain_check; vm_compute; reflexivity|]. repeat constructor; done.
    - apply plain_check; vm_compute; reflexivity. }
  split; [by repeat constructor|]. split; [vm_compute; discriminate|]. split; [vm_compute; discriminate|]. vm_compute; reflexivity.
Qed.

(** C13 for listings: slash-equivalent spellings of a path list the same. *)
Theorem C13_equivalent_paths_list :
  forall p H t, plain (hy_base H) -> good_suffix (ep_suffix (hy_ep H)) -> ep_suffix (hy_ep H) = dot :: t ->
  lenZ (ep_suffix (hy_ep H)) <= 11 ->
  forall s path path', wf_fs s -> real_names s -> documents_only H s ->
  plain path -> pieces path' = pieces path -> lenZ path < two32 -> lenZ path' < two32 ->
  list_nodes p H s path' = list_nodes p H s path.
Proof. exact listing_spelling. Qed.
Print Assumptions C13_equivalent_paths_list.
Example C13_list_example :
  pieces (B "//top/./") = pieces (B "top") /\ list_nodes Debug ex_hier ex_tree (B "//top/./") = Ok [B "pre"; B "raw"; B "temper"]
  /\ list_nodes Release ex_hier ex_tree (B "top/./raw") = list_nodes Release ex_hier ex_tree (B "top/raw").
Proof. split; [|split]; vm_compute; reflexivity. Qed.

(** C36: a directory without subdirectories is listed completely, each key
    once.  (The prefix must be the directory's key with its slash: otherwise
    what is listed are not keys of the store.)  Missing: subdirectories
    (refuted below). *)
Theorem C36_flat_prefix_partial :
  forall base s fuel P, wf_fs s -> plain base -> plain P ->
  node_at s (loc base P) = Some Dir -> (forall n, node_at s (loc base P ++ [n]) <> Some Dir) ->
  exists l, list_prefix base s (S fuel) P = Some (Ok l) /\ NoDup l
  /\ forall k, k ∈ l <-> exists n c, k = P ++ n /\ file_at s (loc base P ++ [n]) = Some c.
Proof. exact list_flat. Qed.
Print Assumptions C36_flat_prefix_partial.

(** Once there is a node other than the root, listing all keys never succeeds. *)
Theorem C36_list_fails_refuted :
  forall base s fuel l, wf_fs s -> plain base ->
  node_at s (pieces base ++ [B "meta"; B "root"]) = Some Dir ->
  node_at s (pieces base ++ [B "metaroot"]) = None ->
  list_keys base s fuel <> Some (Ok l).
Proof. exact list_keys_fails. Qed.
Print Assumptions C36_list_fails_refuted.

(** Where it succeeds, no key of more than one level is in the list. *)
Theorem C36_nested_keys_refuted :
  forall base s fuel l k k', real_names s ->
  list_keys base s fuel = Some (Ok l) -> (2 <= length (pieces k))%nat -> pieces k' = pieces k -> k' ∉ l.
Proof. exact list_keys_flat. Qed.
Print Assumptions C36_nested_keys_refuted.

Definition ex_root : fs := fst (create_group ex_hier ex_fs0 []).
Example C36_example :
  (* the array's metadata directory *)
  list_prefix (hy_base ex_hier) ex_fs1 1 (B "/meta/root/a/") = Some (Ok [B "/meta/root/a/b.array.json"])
  /\ node_at ex_fs1 (loc (hy_base ex_hier) (B "/meta/root/a/")) = Some Dir
  (* without the slash the answer is not a key *)
  /\ list_prefix (hy_base ex_hier) ex_fs1 1 (B "/meta/root/a") = Some (Ok [B "/meta/root/ab.array.json"])
  (* everything: an error *)
  /\ node_at ex_fs1 (pieces (hy_base ex_hier) ++ [B "meta"; B "root"]) = Some Dir
  /\ node_at ex_fs1 (pieces (hy_base ex_hier) ++ [B "metaroot"]) = None
  /\ list_keys (hy_base ex_hier) ex_fs1 10 = Some (Err NotFound)
  (* with a root group only: the wrong keys *)
  /\ real_names ex_root
  /\ list_keys (hy_base ex_hier) ex_root 10 = Some (Ok [B "/zarr.json"; B "/metaroot.group.json"])
  /\ st_exists (hy_base ex_hier) ex_root (B "/metaroot.group.json") = Ok false
  /\ st_exists (hy_base ex_hier) ex_root (B "/meta/root.group.json") = Ok true.
Proof.
  do 6 (split; [vm_compute; reflexivity|]).
  split; [apply real_names_check; vm_compute; reflexivity|].
  do 2 (split; [vm_compute; reflexivity|]). vm_compute; reflexivity.
Qed.
