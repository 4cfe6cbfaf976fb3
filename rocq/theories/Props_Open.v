(** Property theorems: several processes open or create a hierarchy at the same
    time (C65), open alone does what the sequential model says (C54), and nobody
    waits for ever (C55), even if processes die (C74).
    [ocall]: a call that opens the hierarchy, that opens or creates it, or a
    call on its nodes. *)
From Verif Require Import Hier Sys Spec SpecMeta SpecHier SpecConc SpecOpen SpecKill BaseFacts FSFacts StoreFacts SysFacts
  SysWit ConcOpen OpenLive Props_Chunk Props_Store Props_Hier Props_Crash Props_Conc ShareWit.
Local Open Scope Z_scope.

(** C54 *)
Theorem C54_open :
  forall V base rs o, calm o -> does o (p_open V base rs) (view o, open_hier V base (view o)).
Proof. exact does_open. Qed.
Print Assumptions C54_open.

(** C65.  The hierarchy exists.  Whatever other calls do to its nodes meanwhile,
    and however many processes open or try to create it, each is told what a
    process alone would have been told before, and so is a later one. *)
Theorem C65_opening_existing :
  forall V C h H sl, (forall b, concat (sl b) = b) ->
  plain (hy_base H) -> good_suffix (ep_suffix (hy_ep H)) ->
  forall o calls, calm o -> wf_fs (view o) -> (forall c, c ∈ calls -> ocall_ok c) ->
  forall o' ps text r,
  file_at (view o) (pieces (hy_base H) ++ [B "zarr.json"]) = Some text ->
  answers o (p_open V (hy_base H) []) r ->
  oexecutes V C h H sl o calls o' ps ->
  (forall i c a, calls !! i = Some c -> opens c -> returned ps i a -> a = ZOpened r)
  /\ file_at (view o') (pieces (hy_base H) ++ [B "zarr.json"]) = Some text
  /\ (all_returned ps -> calm o' /\ forall rs,
        answers o' (p_open V (hy_base H) rs) r /\ answers o' (p_open_or_create V sl (hy_base H) rs) r).
Proof. exact openers_of_existing. Qed.
Print Assumptions C65_opening_existing.

(** The hierarchy does not exist.  A process that opens or creates it gets the
    new, empty hierarchy or the error that the document is invalid (one that only
    opens it may also be told that there is none); from the moment one of them
    has succeeded the document is complete; and when all have returned the
    hierarchy is there.  Missing: that each process that opens or creates it
    succeeds, which is false (next theorem). *)
Theorem C65_creating_partial :
  forall V C h H sl, (forall b, concat (sl b) = b) ->
  plain (hy_base H) -> good_suffix (ep_suffix (hy_ep H)) ->
  forall o calls, calm o -> wf_fs (view o) -> (forall c, c ∈ calls -> ocall_ok c) ->
  forall o' ps, V (B "3.0") = Some true ->
  (forall i, file_at (view o) (take i (pieces (hy_base H))) = None) ->
  node_at (view o) (pieces (hy_base H) ++ [B "zarr.json"]) = None ->
  oexecutes V C h H sl o calls o' ps ->
  (forall i c a, calls !! i = Some c -> opens c -> returned ps i a ->
     a = ZOpened (Ok (Hier (hy_base H) ep_default)) \/ a = ZOpened (Err InvalidData)
     \/ a = ZOpened (Err NotFound) /\ ~ creates c)
  /\ (node_at (view o') (pieces (hy_base H) ++ [B "zarr.json"]) = None \/
      exists text, file_at (view o') (pieces (hy_base H) ++ [B "zarr.json"]) = Some text
        /\ text `prefix_of` print (enc_ep ep_default))
  /\ ((exists i c H', calls !! i = Some c /\ opens c /\ returned ps i (ZOpened (Ok H'))) ->
      file_at (view o') (pieces (hy_base H) ++ [B "zarr.json"]) = Some (print (enc_ep ep_default)))
  /\ (all_returned ps -> calm o' /\ ((exists c, c ∈ calls /\ creates c) -> forall rs,
        answers o' (p_open V (hy_base H) rs) (Ok (Hier (hy_base H) ep_default))
        /\ answers o' (p_open_or_create V sl (hy_base H) rs) (Ok (Hier (hy_base H) ep_default)))).
Proof. exact openers_of_fresh. Qed.
Print Assumptions C65_creating_partial.

(** On an empty machine two processes call open_or_create; the second finds the
    file that the first has just made and not yet filled. *)
Definition ex_creators : list ocall := [OOpenOrCreate []; OOpenOrCreate [2%nat]].
Theorem C65_creating_refuted :
  exists o' ps, oexecutes ex_versions ex_codec ex_host ex_hier cuts boot ex_creators o' ps /\ all_returned ps
  /\ returned ps 0 (ZOpened (Ok ex_hier)) /\ returned ps 1 (ZOpened (Err InvalidData)).
Proof.
  destruct (orun_check ex_versions ex_codec ex_host ex_hier cuts boot ex_creators
    (repeat 0%nat 5 ++ repeat 1%nat 4 ++ repeat 0%nat 3)
    [Some (ZOpened (Ok ex_hier)); Some (ZOpened (Err InvalidData))]) as (o' & ps & E & R & A);
    [done|vm_compute; reflexivity|].
  exists o', ps. split; [done|]. split; [apply A; by repeat constructor|]. split; by apply R.
Qed.
Print Assumptions C65_creating_refuted.

(** Both theorems apply: on the empty machine, with the creators above, one that
    opens and one that creates a group (the hierarchy's base directory is
    made meanwhile); and where the hierarchy exists. *)
Definition ex_openers : list ocall :=
  [OOpenOrCreate []; OOpenOrCreate [2%nat]; OOpen [1%nat]; ONode (KCreateGroup (B "/g"))].
Definition ex_turns (o : os) : list nat :=
  turns 500 (fun i => S i) o (map (p_ocall ex_versions ex_codec ex_host ex_hier cuts) ex_openers) 0 1.
Example C65_example :
  plain (hy_base ex_hier) /\ good_suffix (ep_suffix (hy_ep ex_hier)) /\ (forall b, concat (cuts b) = b)
  /\ (forall c, c ∈ ex_openers -> ocall_ok c)
  /\ calm boot /\ wf_fs (view boot) /\ ex_versions (B "3.0") = Some true
  /\ (forall i, file_at (view boot) (take i (pieces (hy_base ex_hier))) = None)
  /\ node_at (view boot) (pieces (hy_base ex_hier) ++ [B "zarr.json"]) = None
  /\ (exists o' ps, oexecutes ex_versions ex_codec ex_host ex_hier cuts boot ex_openers o' ps /\ all_returned ps
      /\ returned ps 0 (ZOpened (Ok ex_hier)) /\ returned ps 1 (ZOpened (Ok ex_hier))
      /\ returned ps 2 (ZOpened (Err NotFound)) /\ returned ps 3 (ZNode (YUnit (Ok tt))))
  /\ calm ex_os /\ wf_fs (view ex_os)
  /\ file_at (view ex_os) (pieces (hy_base ex_hier) ++ [B "zarr.json"]) = Some (print (enc_ep ep_default))
  /\ answers ex_os (p_open ex_versions (hy_base ex_hier) []) (Ok ex_hier)
  /\ (exists o' ps, oexecutes ex_versions ex_codec ex_host ex_hier cuts ex_os ex_openers o' ps /\ all_returned ps
      /\ returned ps 1 (ZOpened (Ok ex_hier))).
Proof.
  split; [apply plain_check; by vm_compute|]. destruct ex_state_ok as (_ & _ & _ & _ & _ & _ & X7 & _). split; [exact X7|]. split; [exact cuts_concat|].
  split. { intros c IN. repeat (apply elem_of_cons in IN as [->|IN]); [done|done|done|apply plain_check; by vm_compute|].
           by apply elem_of_nil in IN. }
  split; [apply boot_calm|]. split; [apply wf_check_ok; by vm_compute|]. split; [by vm_compute|].
  split. { intros i. by destruct i as [|[|[|i]]]. }
  split; [by vm_compute|]. split.
  { destruct (orun_check ex_versions ex_codec ex_host ex_hier cuts boot ex_openers
      (ex_turns boot)
      [Some (ZOpened (Ok ex_hier)); Some (ZOpened (Ok ex_hier)); Some (ZOpened (Err NotFound));
       Some (ZNode (YUnit (Ok tt)))]) as (o' & ps & E & R & A);
      [done|vm_compute; reflexivity|].
    exists o', ps. split; [done|]. split; [apply A; by repeat constructor|]. split_and!; by apply R. }
  split; [apply ex_os_calm|]. split; [apply ex_os_wf|]. split; [by vm_compute|].
  split; [apply answers_check; vm_compute; reflexivity|].
  destruct (orun_check ex_versions ex_codec ex_host ex_hier cuts ex_os ex_openers
      (ex_turns ex_os)
      [Some (ZOpened (Ok ex_hier)); Some (ZOpened (Ok ex_hier)); Some (ZOpened (Ok ex_hier));
       Some (ZNode (YUnit (Ok tt)))]) as (o' & ps & E & R & A);
      [done|vm_compute; reflexivity|].
  exists o', ps. split; [done|]. split; [apply A; by repeat constructor|]. by apply R.
Qed.

(** C55: while hierarchies are opened and created no call waits for ever. *)
Theorem C55_open_no_deadlock :
  forall V C h H sl o calls o' ps, idle o -> oexecutes V C h H sl o calls o' ps ->
  all_returned ps \/ can_step o' ps.
Proof. exact opens_no_deadlock. Qed.
Print Assumptions C55_open_no_deadlock.

(** Every execution can be continued to one in which all calls have returned. *)
Theorem C55_open_completes :
  forall V C h H sl o calls o' ps, idle o -> oexecutes V C h H sl o calls o' ps ->
  exists o2 ps2, csteps (o', ps) (o2, ps2) /\ all_returned ps2.
Proof. exact opens_complete. Qed.
Print Assumptions C55_open_completes.

(** Two processes create the hierarchy: both have opened the new file, and one
    of them waits for the lock of the other. *)
Definition ex_racers : list ocall := [OOpenOrCreate []; OOpenOrCreate []].
Definition ex_race := crun boot (map (p_ocall ex_versions ex_codec ex_host ex_hier cuts) ex_racers)
  [0; 1; 0; 0; 0; 0; 0; 1; 1; 1]%nat.
Example C55_open_example :
  idle boot /\ oexecutes ex_versions ex_codec ex_host ex_hier cuts boot ex_racers (end_os ex_race) (end_ps ex_race)
  /\ (exists q, end_ps ex_race !! 1%nat = Some q /\ answer q = None /\ pstep (end_os ex_race) q = None)
  /\ can_step (end_os ex_race) (end_ps ex_race).
Proof.
  assert (EX : oexecutes ex_versions ex_codec ex_host ex_hier cuts boot ex_racers (end_os ex_race) (end_ps ex_race)).
  { apply crun_check. vm_compute. reflexivity. }
  assert (BL : match end_ps ex_race !! 1%nat with
    | Some q => match answer q, pstep (end_os ex_race) q with None, None => true | _, _ => false end
    | None => false end = true) by (vm_compute; reflexivity).
  assert (WT : exists q, end_ps ex_race !! 1%nat = Some q /\ answer q = None /\ pstep (end_os ex_race) q = None).
  { revert BL. clear EX. generalize (end_ps ex_race) (end_os ex_race). intros ps o BL.
    destruct (ps !! 1%nat) as [q|]; [|done]. exists q. destruct (answer q), (pstep o q); done. }
  split; [apply boot_calm|]. split; [exact EX|]. split; [exact WT|].
  destruct (opens_no_deadlock _ _ _ _ _ _ _ _ _ (proj1 boot_calm) EX) as [AR|CS]; [|exact CS].
  destruct WT as (q & E1 & E2 & _). destruct (AR _ _ E1) as [a ->]. discriminate E2.
Qed.

(** C74: the same if any of the processes are killed at any point: the others
    are never stuck, and all of them return. *)
Theorem C74_open_no_deadlock :
  forall V C h H sl o (calls : list (ocall * option nat)) o' ps, idle o ->
  csteps (o, map (fun cf => mortal (snd cf) (p_ocall V C h H sl (fst cf))) calls) (o', ps) ->
  all_returned ps \/ can_step o' ps.
Proof. exact mortal_opens_no_deadlock. Qed.
Print Assumptions C74_open_no_deadlock.
Theorem C74_open_completes :
  forall V C h H sl o (calls : list (ocall * option nat)) o' ps, idle o ->
  csteps (o, map (fun cf => mortal (snd cf) (p_ocall V C h H sl (fst cf))) calls) (o', ps) ->
  exists o2 ps2, csteps (o', ps) (o2, ps2) /\ all_returned ps2.
Proof. exact mortal_opens_complete. Qed.
Print Assumptions C74_open_completes.

(** The process that holds the lock dies with the file half made; the one that
    waited for the lock goes on and completes the hierarchy. *)
Definition ex_mortal_racers : list (ocall * option nat) := [(OOpenOrCreate [], Some 6%nat); (OOpenOrCreate [], None)].
Definition ex_mortal_race := crun boot
  (map (fun cf => mortal (snd cf) (p_ocall ex_versions ex_codec ex_host ex_hier cuts (fst cf))) ex_mortal_racers)
  [0; 1; 0; 0; 0; 0; 0; 1; 1; 1; 0; 1; 1; 1]%nat.
Example C74_open_example :
  idle boot
  /\ csteps (boot, map (fun cf => mortal (snd cf) (p_ocall ex_versions ex_codec ex_host ex_hier cuts (fst cf))) ex_mortal_racers)
       (end_os ex_mortal_race, end_ps ex_mortal_race)
  /\ map answer (end_ps ex_mortal_race) = [Some None; Some (Some (ZOpened (Ok ex_hier)))].
Proof.
  split; [apply boot_calm|]. split; [apply crun_check; vm_compute; reflexivity|vm_compute; reflexivity].
Qed.
