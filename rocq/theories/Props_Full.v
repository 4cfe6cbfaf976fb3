(** Property theorems: metadata documents and the entry point on a full disk
    (C66).  [o_room o = Some n]: the file system accepts [n] more bytes;
    [unlimited o]: the same machine with unlimited space. *)
From Verif Require Import Hier Sys Spec SpecMeta SpecHier SpecFull BaseFacts FSFacts StoreFacts SysFacts SysWit
  CrashMeta FullMeta Props_Chunk Props_Store Props_Hier Props_Crash.
Local Open Scope Z_scope.

(** C66.  create_array, create_group and set_attributes.  If what the call would
    write with unlimited space fits, the result and the files are those. *)
Theorem C66_fits :
  forall H, plain (hy_base H) -> good_suffix (ep_suffix (hy_ep H)) ->
  forall sl, (forall b, concat (sl b) = b) ->
  forall rs op o o2 r, idle o -> wf_fs (view o) -> mo_ok op ->
  run (unlimited o) (p_meta_op H sl rs op) = Some (o2, r) ->
  (forall p c n, file_at (view o2) p = Some c -> file_at (view o) p <> Some c -> o_room o = Some n ->
     (length c <= n)%nat) ->
  exists o', run o (p_meta_op H sl rs op) = Some (o', r) /\ view o' = view o2 /\ idle o'.
Proof. exact full_disk_fits. Qed.
Print Assumptions C66_fits.

(** However little room there is, whatever the result: afterwards the metadata
    and the attributes of every node are what they were, or (of the node
    concerned) what the call leaves with unlimited space, or an error.  Missing:
    that success excludes the error, which is false (next theorem). *)
Theorem C66_reported_partial :
  forall H, plain (hy_base H) -> good_suffix (ep_suffix (hy_ep H)) ->
  forall sl, (forall b, concat (sl b) = b) ->
  forall rs rs' op o o' r path', idle o -> wf_fs (view o) -> mo_ok op -> plain path' ->
  run o (p_meta_op H sl rs op) = Some (o', r) ->
  (exists a, answers o' (p_get_array_metadata H path' rs') a /\
     (answers o (p_get_array_metadata H path' rs') a \/
      pieces path' = pieces (mo_path op) /\
      ((exists o2, leaves (unlimited o) (p_meta_op H sl rs op) o2 /\ answers o2 (p_get_array_metadata H path' rs') a)
       \/ exists e, a = Err e))) /\
  (exists a, answers o' (p_list_attributes H path' rs') a /\
     (answers o (p_list_attributes H path' rs') a \/
      pieces path' = pieces (mo_path op) /\
      ((exists o2, leaves (unlimited o) (p_meta_op H sl rs op) o2 /\ answers o2 (p_list_attributes H path' rs') a)
       \/ exists e, a = Err e))).
Proof. exact full_disk_any. Qed.
Print Assumptions C66_reported_partial.

(** Every call that would write a document of less than 8192 bytes reports
    success although the document does not fit, and leaves a node that cannot be
    read and whose attributes cannot be set, even if there is space again. *)
Theorem C66_reported_refuted :
  forall H, plain (hy_base H) -> good_suffix (ep_suffix (hy_ep H)) ->
  forall sl, (forall b, concat (sl b) = b) ->
  forall rs op o o2 p c n, idle o -> wf_fs (view o) -> mo_ok op ->
  run (unlimited o) (p_meta_op H sl rs op) = Some (o2, Ok tt) ->
  file_at (view o2) p = Some c -> file_at (view o) p <> Some c -> lenZ c < 8192 ->
  o_room o = Some n -> (n < length c)%nat ->
  exists o', run o (p_meta_op H sl rs op) = Some (o', Ok tt) /\ forall rs' attrs,
    answers o' (p_list_attributes H (mo_path op) rs') (Err InvalidData) /\
    answers (unlimited o') (p_set_attributes H sl (mo_path op) attrs rs') (Err InvalidData).
Proof. exact full_disk_unreadable. Qed.
Print Assumptions C66_reported_refuted.

(** open_or_create of a new hierarchy reports success however little room there
    is; the hierarchy can be opened again if and only if its entry point fits. *)
Theorem C66_create_hierarchy_refuted :
  forall V base, plain base -> forall sl, (forall b, concat (sl b) = b) ->
  forall rs o room, V (B "3.0") = Some true -> idle o -> wf_fs (view o) ->
  (forall i, file_at (view o) (take i (pieces base)) = None) ->
  node_at (view o) (pieces base ++ [B "zarr.json"]) = None ->
  o_room o = Some room ->
  exists o', run o (p_open_or_create V sl base rs) = Some (o', Ok (Hier base ep_default)) /\
    forall rs', answers (unlimited o') (p_open_or_create V sl base rs')
      (if bool_decide (length (print (enc_ep ep_default)) <= room)%nat
       then Ok (Hier base ep_default) else Err InvalidData).
Proof. exact create_full_disk. Qed.
Print Assumptions C66_create_hierarchy_refuted.

(** An existing array on a full disk loses its metadata when an attribute is set. *)
Definition ex_full_os : os := set_room ex_os (Some 20%nat).
Definition ex_full_loc : fpath := loc (hy_base ex_hier) (akey ex_hier ex_path).
Definition ex_full_text : bytes :=
  default [] (file_at (view (after ex_os (p_meta_op ex_hier cuts [] ex_attr_op))) ex_full_loc).
Example C66_example :
  plain (hy_base ex_hier) /\ good_suffix (ep_suffix (hy_ep ex_hier)) /\ (forall b, concat (cuts b) = b)
  /\ idle ex_full_os /\ wf_fs (view ex_full_os) /\ mo_ok ex_attr_op
  /\ answers ex_full_os (p_list_attributes ex_hier ex_path []) (Ok [])
  /\ (exists o2, run (unlimited ex_full_os) (p_meta_op ex_hier cuts [] ex_attr_op) = Some (o2, Ok tt)
      /\ file_at (view o2) ex_full_loc = Some ex_full_text)
  /\ file_at (view ex_full_os) ex_full_loc <> Some ex_full_text
  /\ lenZ ex_full_text < 8192 /\ o_room ex_full_os = Some 20%nat /\ (20 < length ex_full_text)%nat
  /\ ex_versions (B "3.0") = Some true /\ idle (set_room boot (Some 20%nat))
  /\ wf_fs (view (set_room boot (Some 20%nat)))
  /\ (forall i, file_at (view (set_room boot (Some 20%nat))) (take i (pieces (B "/srv/h"))) = None)
  /\ node_at (view (set_room boot (Some 20%nat))) (pieces (B "/srv/h") ++ [B "zarr.json"]) = None.
Proof.
  split; [apply plain_check; by vm_compute|]. split; [apply ex_state_ok|]. split; [exact cuts_concat|].
  split; [apply set_room_idle, ex_os_calm|]. split; [unfold ex_full_os; rewrite view_set_room; apply ex_os_wf|].
  split; [exact (proj1 C49_example)|].
  split; [apply answers_check; vm_compute; reflexivity|]. split.
  { exists (after (unlimited ex_full_os) (p_meta_op ex_hier cuts [] ex_attr_op)).
    split; [apply after_run, answers_check; vm_compute; reflexivity|vm_compute; reflexivity]. }
  split; [intros E; apply (f_equal (fun x => bool_decide (x = Some ex_full_text))) in E;
    vm_compute in E; discriminate E|].
  split; [apply Z.ltb_lt; vm_compute; reflexivity|].
  split; [reflexivity|]. split; [apply Nat.ltb_lt; vm_compute; reflexivity|].
  split; [by vm_compute|]. split; [apply set_room_idle, boot_calm|]. split; [apply wf_check_ok; by vm_compute|].
  split; [|by vm_compute]. intros i. by destruct i as [|[|[|i]]].
Qed.
