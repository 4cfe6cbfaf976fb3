(** Concrete executions for the examples beside the concurrency theorems. *)
From Verif Require Import BaseFacts FSFacts StoreFacts Spec Sys SpecConc SysFacts SysWit ConcLive.
Local Open Scope Z_scope.

Lemma crun_steps {A} sched : forall o (ps : list (proc A)) c,
  crun o ps sched = Some c -> csteps (o, ps) c.
Proof.
  induction sched as [|i r IH]; intros o ps c E; cbn in E; [injection E as <-; constructor|].
  destruct (ps !! i) as [p|] eqn:E1; [|done]. destruct (pstep o p) as [[o1 p1]|] eqn:E2; [|done].
  eapply csteps_step; [done|done|]. by apply IH.
Qed.

(** The replies so far. *)
Definition reply_of (p : proc reply) : option reply := match p with Ret a => Some a | Call _ _ => None end.
Definition outcome (c : option (os * list (proc reply))) : list (option reply) :=
  match c with Some (_, ps) => map reply_of ps | None => [] end.
Definition end_view (c : option (os * list (proc reply))) : fs :=
  match c with Some (o, _) => view o | None => ∅ end.

Lemma schedule_check C h H sl o calls sched rs :
  rs <> [] -> outcome (crun o (map (p_call C h H sl) calls) sched) = rs ->
  exists o' ps, executes C h H sl o calls o' ps
    /\ view o' = end_view (crun o (map (p_call C h H sl) calls) sched)
    /\ (forall i a, rs !! i = Some (Some a) -> returned ps i a)
    /\ (Forall (fun r => r <> None) rs -> all_returned ps).
Proof.
  unfold executes. destruct (crun o _ sched) as [[o' ps]|] eqn:E; cbn [outcome end_view]; intros N R; [|by destruct N].
  exists o', ps. split_and!; [by eapply crun_steps|done|..].
  - intros i a X. rewrite <- R in X. rewrite list_lookup_fmap in X. unfold returned.
    destruct (ps !! i) as [q|]; [|done]. injection X as X. by destruct q; [injection X as ->|].
  - intros F i q X. rewrite list.Forall_forall in F. destruct q as [a|]; [by exists a|].
    exfalso. apply (F None); [|done]. rewrite <- R. apply elem_of_list_fmap. eexists. split; [|by eapply elem_of_list_lookup_2]. done.
Qed.

(** Does process [i] wait for another at the end of this schedule? *)
Definition blocked (c : option (os * list (proc reply))) (i : nat) : bool :=
  match c with
  | Some (o, ps) =>
      match ps !! i with
      | Some q => match pstep o q, reply_of q with None, None => true | _, _ => false end
      | None => false
      end
  | None => false
  end.
Lemma blocked_check C h H sl o calls sched i :
  blocked (crun o (map (p_call C h H sl) calls) sched) i = true ->
  exists o' ps q, executes C h H sl o calls o' ps /\ ps !! i = Some q /\ pstep o' q = None /\ reply_of q = None.
Proof.
  destruct (crun _ _ _) as [[o' ps]|] eqn:E; [|done]. cbn [blocked].
  destruct (ps !! i) as [q|] eqn:E1; [|done]. destruct (pstep o' q) eqn:E2; [done|].
  destruct (reply_of q) eqn:E3; [done|]. intros _. exists o', ps, q.
  split; [exact (crun_steps _ _ _ _ E)|]. done.
Qed.
