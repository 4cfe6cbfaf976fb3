(** No deadlock for region reads and writes (C55). *)
From Verif Require Import BaseFacts FSFacts Spec Sys SysNd SpecConc SpecShare SysFacts ConcFacts ConcLive.
Local Open Scope Z_scope.

Section D.
  Context (H : hier) (C : codec) (h : host) (rsf : list Z -> list nat) (sl : bytes -> list bytes).
  Lemma d_read_chunk t path m pos rs : dfol dfree DFree (p_read_chunk H C h t path m pos rs).
  Proof. apply d_pres. intros _. apply d_try; [apply d_get|done]. Qed.
  Lemma d_read_chunk_into t path m pos old : dfol dfree DFree (p_read_chunk_into H C h rsf t path m pos old).
  Proof. apply d_pres. intros _. apply d_try; [apply d_get|done]. Qed.
  Lemma d_read_loop t path m bb coords : forall st, dfol dfree DFree (p_read_loop H C h rsf t path m bb coords st).
  Proof.
    induction coords as [|c r IH]; intros st; cbn [p_read_loop]; [done|].
    apply d_try; [|apply IH]. apply d_try; [|done].
    destruct (snd st); [apply d_read_chunk_into|apply d_read_chunk].
  Qed.
  Lemma d_read_into t path m bb arr : dfol dfree DFree (p_read_ndarray_into H C h rsf t path m bb arr).
  Proof.
    apply d_try; [|done]. unfold p_read_ndarray_into_with_buffer.
    destruct (_ || _); [done|]. destruct (negb _); [done|]. apply d_pres. intros coords. apply d_read_loop.
  Qed.
  Lemma d_write_step t path m arr bb fill buf c :
    dfol dfree DFree (p_write_step H C h rsf sl t path m arr bb fill buf c).
  Proof.
    unfold p_write_step. cbv zeta. do 4 (apply d_pres; intros ?). case_bool_decide.
    - apply d_try; [apply d_set|done].
    - apply d_try; [apply d_read_chunk_into|]. intros o. apply d_pres. intros [[cb a'] mem].
      do 2 (apply d_pres; intros ?). apply d_try; [apply d_set|done].
  Qed.
  Lemma d_write_loop t path m arr bb fill coords : forall buf,
    dfol dfree DFree (p_write_loop H C h rsf sl t path m arr bb fill coords buf).
  Proof.
    induction coords as [|c r IH]; intros buf; cbn [p_write_loop]; [done|].
    apply d_try; [apply d_write_step|apply IH].
  Qed.
End D.

Lemma d_then {A D : Type} (q : proc A) (f : A -> D) :
  dfol dfree DFree q -> dfol dfree DFree (pbind q (fun a => Ret (f a))).
Proof. intros F. eapply follows_bind; [exact F|]. by intros st a ->. Qed.
Lemma d_rcall flit C h H sl c : dfol dfree DFree (p_rcall flit C h H sl c).
Proof.
  destruct c; cbn [p_rcall]; apply d_then.
  - apply d_call.
  - apply d_pres. intros fill. apply d_pres. intros arr. apply d_read_into.
  - apply d_read_into.
  - unfold p_write_ndarray. destruct (negb _); [done|]. cbv zeta. apply d_pres. intros fill. apply d_pres. intros coords.
    apply d_write_loop.
Qed.
Lemma rcalls_follow flit C h H sl calls q : q ∈ map (p_rcall flit C h H sl) calls -> dfol dfree DFree q.
Proof. intros E. apply elem_of_list_fmap in E as (c & -> & _). apply d_rcall. Qed.
Lemma regions_no_deadlock flit C h H sl o calls o' ps : idle o ->
  csteps (o, map (p_rcall flit C h H sl) calls) (o', ps) -> all_returned ps \/ can_step o' ps.
Proof. intros I. apply live_progress; [done|apply rcalls_follow]. Qed.
Lemma regions_complete flit C h H sl o calls o' ps : idle o ->
  csteps (o, map (p_rcall flit C h H sl) calls) (o', ps) ->
  exists o2 ps2, csteps (o', ps) (o2, ps2) /\ all_returned ps2.
Proof. intros I. apply live_completes; [done|apply rcalls_follow]. Qed.
