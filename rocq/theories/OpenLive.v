(** No deadlock for hierarchies that are opened and created meanwhile (C55, C74). *)
From Verif Require Import BaseFacts FSFacts Spec Sys SysOpen SpecConc SpecOpen SpecKill SysFacts ConcFacts ConcLive ShareLive KillFacts.
Local Open Scope Z_scope.

Lemma d_read_entry base rs : dfol dfree DFree (p_read_entry_point base rs).
Proof.
  unfold p_read_entry_point, ptry. cbn [pbind follows dpre dnxt]. split; [done|]. intros r st X.
  destruct r as [fd|e|]; [|done|done]. subst st.
  eapply follows_bind; [by apply d_read_all|].
  intros st c ->. cbn. split; [done|]. by intros _ st ->.
Qed.
Lemma d_open_or_create V sl base rs : dfol dfree DFree (p_open_or_create V sl base rs).
Proof.
  unfold p_open_or_create. cbv zeta. cbn [follows dpre dnxt]. split; [done|]. intros b st ->. destruct b.
  - apply d_try; [apply d_read_entry|done].
  - apply d_try; [eapply follows_weaken; [apply d_mkdir_all|]; by intros st a ->|]. intros _.
    unfold ptry at 1. cbn [pbind follows dpre dnxt]. split; [done|]. intros x st X.
    destruct x as [fd|e|]; [|done|done]. subst st. cbn [follows dpre dnxt]. split; [done|]. intros _ st ->.
    eapply follows_try; [by apply d_buffered| |done|done]. by intros st a ->.
Qed.
Lemma d_ocall V C h H sl c : dfol dfree DFree (p_ocall V C h H sl c).
Proof.
  destruct c; cbn [p_ocall]; apply d_then.
  - apply d_try; [apply d_read_entry|done].
  - apply d_open_or_create.
  - apply d_call.
Qed.
Lemma ocalls_follow V C h H sl calls q : q ∈ map (p_ocall V C h H sl) calls -> dfol dfree DFree q.
Proof. intros E. apply elem_of_list_fmap in E as (c & -> & _). apply d_ocall. Qed.
Lemma opens_no_deadlock V C h H sl o calls o' ps : idle o -> oexecutes V C h H sl o calls o' ps ->
  all_returned ps \/ can_step o' ps.
Proof. intros I. apply live_progress; [done|apply ocalls_follow]. Qed.
Lemma opens_complete V C h H sl o calls o' ps : idle o -> oexecutes V C h H sl o calls o' ps ->
  exists o2 ps2, csteps (o', ps) (o2, ps2) /\ all_returned ps2.
Proof. intros I. apply live_completes; [done|apply ocalls_follow]. Qed.

(** Some of the processes die (C74). *)
Lemma mortal_opens_no_deadlock V C h H sl o (calls : list (ocall * option nat)) o' ps : idle o ->
  csteps (o, map (fun cf => mortal (snd cf) (p_ocall V C h H sl (fst cf))) calls) (o', ps) ->
  all_returned ps \/ can_step o' ps.
Proof. intros I. apply live_progress; [done|]. intros q. apply (mortals_follow (p_ocall V C h H sl)). intros c. apply d_ocall. Qed.
Lemma mortal_opens_complete V C h H sl o (calls : list (ocall * option nat)) o' ps : idle o ->
  csteps (o, map (fun cf => mortal (snd cf) (p_ocall V C h H sl (fst cf))) calls) (o', ps) ->
  exists o2 ps2, csteps (o', ps) (o2, ps2) /\ all_returned ps2.
Proof. intros I. apply live_completes; [done|]. intros q. apply (mortals_follow (p_ocall V C h H sl)). intros c. apply d_ocall. Qed.
