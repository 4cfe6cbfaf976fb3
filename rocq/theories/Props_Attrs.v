(** Property theorems: FilesystemHierarchy::get_attributes (C63). *)
From Verif Require Import Hier Attrs Spec SpecMeta SpecHier SpecList SpecAttrs FSFacts StoreFacts AttrsFacts
  Props_Chunk Props_Store Props_Nd Props_Hier.
Local Open Scope Z_scope.

(** C63, what is returned for a key under which something is stored: the value
    its text denotes. *)
Theorem C63_stored :
  forall H s key, plain (hy_base H) -> wf_fs s -> plain key ->
  forall c, file_at s (loc (hy_base H) key) = Some c ->
  get_attributes H s key = from_text dec_value c.
Proof. exact attrs_stored. Qed.
Print Assumptions C63_stored.

(** For the key of a node's metadata that is the whole document. *)
Theorem C63_document :
  forall H s path k d, plain (hy_base H) -> good_suffix (ep_suffix (hy_ep H)) -> wf_fs s -> plain path ->
  node_key H s path = Ok k -> node_document H s path = Ok d -> get_attributes H s k = Ok (JObj d).
Proof. exact attrs_document. Qed.
Print Assumptions C63_document.

(** For any other key: an empty object if dropping two extensions from its
    last name gives a file, and "not found" otherwise. *)
Theorem C63_other_keys :
  forall H s key, plain (hy_base H) -> wf_fs s -> plain key ->
  forall l n n', file_at s (loc (hy_base H) key) = None -> pieces key = l ++ [n] -> without_two_exts n n' ->
  get_attributes H s key = match file_at s (pieces (hy_base H) ++ l ++ [n']) with
                           | Some _ => Ok (JObj []) | None => Err NotFound end.
Proof. exact attrs_elsewhere. Qed.
Print Assumptions C63_other_keys.

(** The claim about implicit groups is false of each of them. *)
Theorem C63_implicit_group_refuted :
  forall H s path, plain (hy_base H) -> good_suffix (ep_suffix (hy_ep H)) -> wf_fs s -> plain path ->
  node_at s (meta_dir H path) = Some Dir -> ~ explicit_group H s path ->
  get_attributes H s (group_metadata_key (ep_suffix (hy_ep H)) path) = Err NotFound.
Proof. exact attrs_implicit. Qed.
Print Assumptions C63_implicit_group_refuted.

(** The answer for the empty key depends on a file outside of the hierarchy. *)
Theorem C63_outside_refuted :
  exists H s s', wf_fs s /\ wf_fs s' /\ plain (hy_base H)
  /\ base_ok (pieces (hy_base H)) s /\ base_ok (pieces (hy_base H)) s'
  /\ inside_same (pieces (hy_base H)) s s'
  /\ get_attributes H s [] = Err NotFound /\ get_attributes H s' [] = Ok (JObj []).
Proof.
  set (s := <[[B "h.zarr"] := Dir]> ∅ : fs).
  exists (Hier (B "/h.zarr") ep_default), s, (<[[B "h"] := File (B "x")]> s).
  split; [apply wf_check_ok; vm_compute; reflexivity|]. split; [apply wf_check_ok; vm_compute; reflexivity|].
  split; [apply plain_check; vm_compute; reflexivity|].
  split; [intros [|[|k]]; vm_compute; reflexivity|]. split; [intros [|[|k]]; vm_compute; reflexivity|].
  split.
  { intros q [r ->]. cbn [hy_base]. change (pieces (B "/h.zarr")) with [B "h.zarr"].
    unfold node_at. cbn [app]. rewrite lookup_insert_ne; [reflexivity|]. intros E. vm_compute in E. congruence. }
  split; vm_compute; reflexivity.
Qed.
Print Assumptions C63_outside_refuted.

Definition ex_attrs : fs :=
  fst (set_attribute ex_hier (fst (create_group ex_hier ex_fs1 (B "a"))) (B "a") (B "unit") (JStr (B "mm"))).
Example C63_example :
  wf_fs ex_attrs /\ wf_fs ex_fs1 /\ plain (hy_base ex_hier) /\ good_suffix (ep_suffix (hy_ep ex_hier))
  /\ plain (B "a") /\ gkey ex_hier (B "a") = B "/meta/root/a.group.json"
  (* the group's attributes, and what get_attributes has under their name *)
  /\ node_key ex_hier ex_attrs (B "a") = Ok (B "/meta/root/a.group.json")
  /\ list_attributes ex_hier ex_attrs (B "a") = Ok [(B "unit", JStr (B "mm"))]
  /\ get_attributes ex_hier ex_attrs (B "/meta/root/a.group.json")
     = Ok (JObj [(B "attributes", JObj [(B "unit", JStr (B "mm"))]); (B "extensions", JArr [])])
  (* before the group was created, "a" was an implicit group *)
  /\ node_exists ex_hier ex_fs1 (B "a") = Ok false
  /\ list_nodes Debug ex_hier ex_fs1 [] = Ok [B "a"]
  /\ node_at ex_fs1 (meta_dir ex_hier (B "a")) = Some Dir
  /\ get_attributes ex_hier ex_fs1 (B "/meta/root/a.group.json") = Err NotFound
  (* names that a file has before two extensions *)
  /\ pieces (B "/zarr.json.bak.1") = [] ++ [B "zarr.json.bak.1"]
  /\ without_two_exts (B "zarr.json.bak.1") (B "zarr.json")
  /\ get_attributes ex_hier ex_fs1 (B "/zarr.json.bak.1") = Ok (JObj []).
Proof.
  split; [apply wf_check_ok; vm_compute; reflexivity|].
  assert (G := ex_state_ok). destruct G as (_ & W1 & PB & _ & _ & _ & GS & _).
  do 3 (split; [assumption|]).
  split; [apply plain_check; vm_compute; reflexivity|].
  do 9 (split; [vm_compute; reflexivity|]).
  split; [|vm_compute; reflexivity].
  exists (B "zarr.json.bak"). split; [|split; [|split; apply (bool_decide_eq_true_1 _); reflexivity]].
  - left. exists (B "1"). split; [reflexivity|]. split; [apply (bool_decide_eq_true_1 _); reflexivity|done].
  - left. exists (B "bak"). split; [reflexivity|]. split; [apply (bool_decide_eq_true_1 _); reflexivity|done].
Qed.
