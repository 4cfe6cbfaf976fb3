(** Property theorems: existence of arrays (C33) and documents of new groups (C78). *)
From Verif Require Import Json MetaJson Hier Spec SpecHier SpecJson SpecDoc SpecPlace BaseFacts FSFacts StoreFacts PlaceFacts ExistFacts Props_Chunk Props_Store.
Local Open Scope Z_scope.

(** C33.  An array is reported to exist exactly when its metadata can be read, and
    not to exist exactly when that fails. *)
Theorem C33_array_exists :
  forall H s path, plain (hy_base H) -> good_suffix (ep_suffix (hy_ep H)) -> wf_fs s -> plain path ->
  (array_exists H s path = Ok true <-> exists m, get_array_metadata H s path = Ok m)
  /\ (array_exists H s path = Ok false <-> exists e, get_array_metadata H s path = Err e).
Proof. exact array_existence. Qed.
Print Assumptions C33_array_exists.

(** So groups (explicit or implied by what is below them) are no arrays. *)
Theorem C33_group_is_no_array :
  forall H s path, plain (hy_base H) -> good_suffix (ep_suffix (hy_ep H)) -> wf_fs s -> plain path ->
  ~ explicit_array H s path -> array_exists H s path = Ok false.
Proof. exact group_is_no_array. Qed.
Print Assumptions C33_group_is_no_array.

Definition ex_grouped : fs * res unit := create_group ex_hier ex_fs (B "g").
Example C33_array_example :
  array_exists ex_hier ex_fs ex_path = Ok true
  /\ snd ex_grouped = Ok tt /\ wf_fs (fst ex_grouped) /\ plain (B "g") /\ ~ explicit_array ex_hier (fst ex_grouped) (B "g")
  /\ node_exists ex_hier (fst ex_grouped) (B "g") = Ok true /\ array_exists ex_hier (fst ex_grouped) (B "g") = Ok false.
Proof.
  split; [vm_compute; reflexivity|]. split; [vm_compute; reflexivity|]. split; [apply wf_check_ok; vm_compute; reflexivity|].
  split; [apply plain_check; vm_compute; reflexivity|]. split; [|split; vm_compute; reflexivity].
  assert (X : st_exists (hy_base ex_hier) (fst ex_grouped) (array_metadata_key (ep_suffix (hy_ep ex_hier)) (B "g")) = Ok false) by (vm_compute; reflexivity).
  unfold explicit_array. rewrite X. done.
Qed.

(** C78.  The document of a new group is an object, as the format has it. *)
Theorem C78_group_object :
  forall H s path, wf_fs s -> plain (hy_base H) -> plain path -> slash ∉ strip_dot (ep_suffix (hy_ep H)) ->
  forall s', file_at s (document H "group" path) = None -> create_group H s path = (s', Ok tt) ->
  exists text members, file_at s' (document H "group" path) = Some text /\ json_says text (JObj members).
Proof. exact group_object. Qed.
Print Assumptions C78_group_object.

Example C78_object_example :
  file_at ex_fs (document ex_hier "group" (B "g")) = None /\ slash ∉ strip_dot (ep_suffix (hy_ep ex_hier))
  /\ file_at (fst ex_grouped) (document ex_hier "group" (B "g")) <> None.
Proof. split; [vm_compute; reflexivity|]. split; [by apply (bool_decide_eq_true_1 _)|]. vm_compute. discriminate. Qed.
