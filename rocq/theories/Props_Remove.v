(** Property theorems: removing and listing as sequences of system calls
    (C54, C60).  [ord] is the order in which the operating system returns the
    entries of a directory; [fuel] bounds the depth of the tree (PATH_MAX). *)
From Verif Require Import Hier Sys Spec SpecMeta SpecHier SpecSys SpecRemove BaseFacts FSFacts StoreFacts SysFacts SysOps
  CrashFacts CrashMeta SysRemove SysList CrashRemove SysWit Props_Chunk Props_Store Props_Crash.
Local Open Scope Z_scope.

(** C54: alone, removing and listing do what the sequential model says. *)
Theorem C54_remove :
  forall ord, any_order ord ->
  forall fuel H path o, calm o -> wf_fs (view o) -> plain (hy_base H) -> plain path ->
  good_suffix (ep_suffix (hy_ep H)) -> not_deeper fuel (view o) ->
  does o (p_remove H ord fuel path) (Hier.remove H (view o) path).
Proof. exact does_remove. Qed.
Print Assumptions C54_remove.

Theorem C54_list_nodes :
  forall ord, any_order ord ->
  forall H p path o, calm o -> wf_fs (view o) -> plain (hy_base H) -> plain path ->
  does o (p_list_nodes H ord p path) (view o, list_nodes p H (view o) path).
Proof. exact does_list_nodes. Qed.
Print Assumptions C54_list_nodes.

(** C60: a remove that is killed after any of its system calls.
    Other nodes' metadata and attributes are as before; the node's own metadata
    is as before or gone; every chunk is as before or gone, and only chunks of
    the node and of nodes below it can be gone; as long as the node is there
    no chunk is gone. *)
Theorem C60_crash_during_remove :
  forall H, plain (hy_base H) -> good_suffix (ep_suffix (hy_ep H)) ->
  forall path, plain path -> forall ord fuel C h o o',
  idle o -> wf_fs (view o) -> stops o (p_remove H ord fuel path) o' ->
  (idle (released o') /\ wf_fs (view (released o')))
  /\ (forall path' rs, plain path' -> pieces path' <> pieces path ->
       (exists a, answers o (p_get_array_metadata H path' rs) a
               /\ answers (released o') (p_get_array_metadata H path' rs) a)
       /\ (exists a, answers o (p_list_attributes H path' rs) a
               /\ answers (released o') (p_list_attributes H path' rs) a))
  /\ (forall rs, exists a, answers (released o') (p_get_array_metadata H path rs) a
       /\ (a = Err NotFound \/ answers o (p_get_array_metadata H path rs) a))
  /\ (forall t path' m pos rs, plain path' -> good_sep (am_sep m) -> pos_ok pos ->
       exists a, answers (released o') (p_read_chunk H C h t path' m pos rs) a
        /\ (answers o (p_read_chunk H C h t path' m pos rs) a
            \/ (a = Ok None /\
                (Forall (ordinary_name (ep_suffix (hy_ep H))) (pieces path) -> pieces path `prefix_of` pieces path'))))
  /\ (forall rs, ~ answers (released o') (p_list_attributes H path rs) (Err NotFound) ->
       forall t path' m pos rs', plain path' -> good_sep (am_sep m) -> pos_ok pos ->
       exists a, answers o (p_read_chunk H C h t path' m pos rs') a
        /\ answers (released o') (p_read_chunk H C h t path' m pos rs') a).
Proof. exact remove_crash. Qed.
Print Assumptions C60_crash_during_remove.

(** Calling remove again finishes the work: the files are those after a remove
    that was not killed. *)
Theorem C60_remove_again :
  forall H, plain (hy_base H) -> good_suffix (ep_suffix (hy_ep H)) ->
  forall path, plain path -> forall ord fuel ord' o o',
  calm o -> wf_fs (view o) -> any_order ord' -> not_deeper fuel (view o) ->
  stops o (p_remove H ord fuel path) o' -> snd (Hier.remove H (view o) path) = Ok tt ->
  does (released o') (p_remove H ord' fuel path) (Hier.remove H (view o) path).
Proof. exact remove_again. Qed.
Print Assumptions C60_remove_again.

Definition ex_rev (cs : list comp) (es : list (bytes * bool)) : list (bytes * bool) := rev es.
Lemma ex_rev_any : any_order ex_rev.
Proof. intros cs es. symmetry. apply Permutation_rev. Qed.
Definition depth_check (n : nat) (s : fs) : bool :=
  forallb (fun kv : fpath * node => bool_decide (length kv.1 < n)%nat) (map_to_list s).
Lemma depth_check_ok n s : depth_check n s = true -> not_deeper n s.
Proof.
  intros E q [x Hx]. unfold depth_check in E. rewrite forallb_forall in E.
  specialize (E (q, x)). cbn in E. apply bool_decide_eq_true in E; [done|].
  by apply elem_of_list_In, elem_of_map_to_list.
Qed.

(** Removing an array with a chunk, killed halfway: the array is gone, the
    chunk is not.  Creating the array again brings the old chunk back; calling
    remove again does not leave it. *)
Definition ex_half : os := released (cut_after 8 ex_os (p_remove ex_hier ex_rev 20 ex_path)).
Example C60_example :
  calm ex_os /\ wf_fs (view ex_os) /\ any_order ex_rev /\ not_deeper 20 (view ex_os)
  /\ plain (hy_base ex_hier) /\ good_suffix (ep_suffix (hy_ep ex_hier)) /\ plain ex_path
  /\ Forall (ordinary_name (ep_suffix (hy_ep ex_hier))) (pieces ex_path)
  /\ stops ex_os (p_remove ex_hier ex_rev 20 ex_path) (cut_after 8 ex_os (p_remove ex_hier ex_rev 20 ex_path))
  /\ snd (Hier.remove ex_hier (view ex_os) ex_path) = Ok tt
  /\ answers ex_half (p_get_array_metadata ex_hier ex_path []) (Err NotFound)
  /\ answers ex_half (p_read_chunk ex_hier ex_codec ex_host RI16 ex_path ex_meta [1; 1] []) (Ok (Some (Chunk [1; 1] ex_data)))
  /\ answers (after ex_half (p_create_array ex_hier cuts ex_path ex_meta))
       (p_read_chunk ex_hier ex_codec ex_host RI16 ex_path ex_meta [1; 1] []) (Ok (Some (Chunk [1; 1] ex_data)))
  /\ answers (after ex_half (p_remove ex_hier ex_rev 20 ex_path))
       (p_read_chunk ex_hier ex_codec ex_host RI16 ex_path ex_meta [1; 1] []) (Ok None)
  /\ answers ex_os (p_list_nodes ex_hier ex_rev Debug (B "")) (Ok [B "a"]).
Proof.
  split; [apply ex_os_calm|]. split; [apply ex_os_wf|]. split; [apply ex_rev_any|].
  split; [apply depth_check_ok; vm_compute; reflexivity|].
  split; [apply plain_check; vm_compute; reflexivity|]. split; [apply ex_state_ok|].
  split; [apply plain_check; vm_compute; reflexivity|].
  split.
  { assert (pieces ex_path = [B "a"; B "b"]) as -> by (vm_compute; reflexivity).
    assert (forall n, length n = 1%nat -> n <> B "c" -> ordinary_name (ep_suffix (hy_ep ex_hier)) n) as O.
    { intros n L N. split; [done|]. split; [by intros b r ->|].
      split; intros k E; rewrite E in L; rewrite app_length in L; cbn in L; lia. }
    repeat constructor; by apply O. }
  split; [apply cut_after_stops|]. split; [vm_compute; reflexivity|].
  split; [apply answers_check; vm_compute; reflexivity|].
  split; [apply answers_check; vm_compute; reflexivity|].
  split; [apply answers_check; vm_compute; reflexivity|].
  split; apply answers_check; vm_compute; reflexivity.
Qed.
