(** Concrete states for the examples beside the property theorems. *)
From Verif Require Import BaseFacts FSFacts StoreFacts Spec Sys SpecSys SysFacts SysOps CrashFacts CrashOpen.
Local Open Scope Z_scope.

Lemma boot_calm : calm boot.
Proof.
  split; [|done]. split; [|done]. split; cbn.
  - intros p i. by rewrite lookup_empty.
  - intros p q i. by rewrite lookup_empty.
  - intros i [c X]. by rewrite lookup_empty in X.
  - intros fd i. by rewrite lookup_empty.
  - intros fd b. by rewrite lookup_empty.
Qed.
Lemma run_calm {A} (p : proc A) o o' a : calm o -> run o p = Some (o', a) ->
  map_to_list (o_fds o') = [] -> map_to_list (o_locks o') = [] -> calm o'.
Proof.
  intros [(K & _) R] E F L. split; [split_and!|].
  - by eapply stops_ok, stops_run.
  - by apply map_to_list_empty_iff.
  - by apply map_to_list_empty_iff.
  - revert o K R E. induction p as [b|T c k IH]; intros o K R E; cbn in E.
    + by injection E as <- _.
    + destruct (sys_step c o) as [[o1 x]|] eqn:E1; [|done].
      eapply IH; [|by eapply sys_step_room|exact E]. by eapply sys_step_ok.
Qed.
(** The state after a process has run, [boot] if it does not end. *)
Definition after {A} (o : os) (p : proc A) : os :=
  match run o p with Some (o', _) => o' | None => boot end.
Lemma after_calm {A} (p : proc A) o : calm o ->
  map_to_list (o_fds (after o p)) = [] -> map_to_list (o_locks (after o p)) = [] -> calm (after o p).
Proof.
  unfold after. intros C F L. destruct (run o p) as [[o' a]|] eqn:E; [|apply boot_calm].
  by eapply run_calm.
Qed.
Definition set_room (o : os) (r : option nat) : os :=
  OS (o_tree o) (o_data o) (o_fds o) (o_locks o) (o_next o) (o_short o) r.
Lemma set_room_idle o r : idle o -> idle (set_room o r).
Proof. intros ([] & F & L). split; [by split|done]. Qed.
(** Cuts a document into pieces of 5 bytes (what serde_json does is not
    modelled beyond this: any cutting is allowed). *)
Fixpoint cut5 (n : nat) (b : bytes) : list bytes :=
  match n, b with
  | O, _ => [b]
  | _, [] => []
  | S n', _ => take 5 b :: cut5 n' (drop 5 b)
  end.
Definition cuts (b : bytes) : list bytes := cut5 (length b) b.
Lemma cuts_concat b : concat (cuts b) = b.
Proof.
  unfold cuts. generalize (length b) as n. intros n. revert b.
  induction n as [|n IH]; intros b; cbn [cut5 concat]; [by rewrite app_nil_r|].
  destruct b; [done|]. cbn [concat]. rewrite IH. apply take_drop.
Qed.
Lemma answers_check {A} o (p : proc A) a :
  match run o p with Some (_, b) => Some b | None => None end = Some a -> answers o p a.
Proof. unfold answers. destruct (run o p) as [[o' b]|]; [|done]. intros [= ->]. by exists o'. Qed.
Lemma view_set_room o r : view (set_room o r) = view o.
Proof. done. Qed.
(** The state after [n] system calls of a process. *)
Fixpoint cut_after {A} (n : nat) (o : os) (p : proc A) : os :=
  match n with
  | O => o
  | S n' => match pstep o p with Some (o', p') => cut_after n' o' p' | None => o end
  end.
Lemma cut_after_stops {A} n : forall o (p : proc A), stops o p (cut_after n o p).
Proof.
  induction n as [|n IH]; intros o p; cbn; [constructor|].
  destruct (pstep o p) as [[o' p']|] eqn:E; [|constructor]. by eapply stops_later.
Qed.
Lemma after_run {A} o (p : proc A) a : answers o p a -> run o p = Some (after o p, a).
Proof. unfold answers, after. intros [o' E]. by rewrite E. Qed.
