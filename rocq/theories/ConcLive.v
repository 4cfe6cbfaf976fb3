(** Processes do not block each other for ever (C55). *)
From Verif Require Import BaseFacts.
From Verif Require Import Sys SpecConc SysFacts ConcFacts.
Local Open Scope Z_scope.

(** At most one file open, at most one lock, and nothing locked while waiting
    for a lock. *)
Inductive dsess := DFree | DOpen (fd : nat) | DLocked (fd : nat).
Definition dfd (st : dsess) : option nat :=
  match st with DFree => None | DOpen fd | DLocked fd => Some fd end.

Definition dpre (T : Type) (st : dsess) (c : sys T) : Prop :=
  match c with
  | SIsFile _ | SIsDir _ | SExists _ | SMkdir _ | SUnlink _ | SStat _ | SReadDir _ | SRmdir _ => True
  | SOpenW _ | SOpenR _ _ => st = DFree
  | SLock fd _ => st = DOpen fd
  | STrunc fd | SWrite fd _ _ | SRead fd _ _ | SClose fd => dfd st = Some fd
  end.
Definition dnxt (T : Type) (st : dsess) (c : sys T) : T -> dsess -> Prop :=
  match c in sys T return T -> dsess -> Prop with
  | SIsFile _ | SIsDir _ | SExists _ => fun _ st' => st' = st
  | SMkdir _ | SUnlink _ => fun _ st' => st' = st
  | SStat _ | SReadDir _ | SRmdir _ => fun _ st' => st' = st
  | SOpenW _ | SOpenR _ _ => fun x st' =>
      match x with Ok fd => st' = DOpen fd | _ => st' = DFree end
  | SLock fd _ => fun _ st' => st' = DLocked fd
  | STrunc _ => fun _ st' => st' = st
  | SWrite _ _ _ => fun _ st' => st' = st
  | SRead _ _ _ => fun _ st' => st' = st
  | SClose _ => fun _ st' => st' = DFree
  end.
Notation dfol := (follows dpre dnxt).
Definition dfree {A} : dsess -> A -> Prop := fun st _ => st = DFree.

(** ** The calls keep to this *)

Lemma d_mkdir_all cs n st : dfol (fun st' _ => st' = st) st (p_mkdir_all cs n).
Proof.
  induction n as [|n IH]; [done|]. cbn [p_mkdir_all follows dpre dnxt]. split; [done|]. intros r st' ->.
  assert (forall e : res unit, dfol (fun st' _ => st' = st) st
            (Call (SIsDir (take (S n) cs)) (fun d => Ret (if d : bool then Ok tt else e)))) as OR.
  { intros e. cbn. split; [done|]. by intros ? ? ->. }
  destruct r as [[]|e|]; [done| |apply OR]. destruct e; try apply OR.
  eapply follows_try; [exact IH| |done|done]. intros st2 [] ->. cbn [follows dpre dnxt]. split; [done|].
  intros r st3 ->. destruct r; [done|apply OR|apply OR].
Qed.
Lemma d_write_all fuel fd st : dfd st = Some fd -> forall b off,
  dfol (fun st' _ => st' = st) st (p_write_all fuel fd off b).
Proof.
  intros F. induction fuel as [|f IH]; intros b off; [by destruct b|]. destruct b; [done|].
  cbn [p_write_all follows dpre dnxt]. split; [done|]. intros r st' ->. by destruct r as [[|n]| |].
Qed.
Lemma d_drop fd off buf r st : dfd st = Some fd -> dfol dfree st (p_drop fd off buf r).
Proof.
  intros F. eapply follows_bind; [by apply d_write_all|]. intros st' x ->. cbn. split; [done|]. by intros _ st' ->.
Qed.
Lemma d_buffered fd r st : dfd st = Some fd -> forall ws off buf, dfol dfree st (p_buffered fd off buf ws r).
Proof.
  intros F ws. induction ws as [|w ws IH]; intros off buf; cbn [p_buffered]; [by apply d_drop|].
  assert (forall off buf, dfol dfree st
        (if lenZ w >=? BUF_CAP
        then pbind (p_write_all (length w) fd off w) (fun x =>
               let '(off', _, rw) := x in
               match rw with
               | Ok _ => p_buffered fd off' buf ws r
               | e => p_drop fd off' buf e
               end)
        else p_buffered fd off (buf ++ w) ws r)) as PUT.
  { clear off buf. intros off buf. destruct (lenZ w >=? BUF_CAP); [|apply IH].
    eapply follows_bind; [by apply d_write_all|]. intros st' [[off' rest] rw] ->.
    destruct rw; [apply IH|by apply d_drop|by apply d_drop]. }
  destruct (lenZ w >? BUF_CAP - lenZ buf); [|apply PUT].
  eapply follows_bind; [by apply d_write_all|]. intros st' [[off' rest] rw] ->.
  destruct rw; [apply PUT|by apply d_drop|by apply d_drop].
Qed.
Lemma d_read_all fd st : dfd st = Some fd -> forall rs off acc, dfol (fun st' _ => st' = st) st (p_read_all fd off rs acc).
Proof.
  intros F rs. induction rs as [|n rs IH]; intros off acc; cbn [p_read_all follows dpre dnxt].
  - split; [done|]. by intros x st' ->.
  - split; [done|]. intros x st' ->. case_bool_decide; [done|apply IH].
Qed.
Lemma d_try {A D} (q : proc (res A)) (f : A -> proc (res D)) :
  dfol dfree DFree q -> (forall a, dfol dfree DFree (f a)) -> dfol dfree DFree (ptry q f).
Proof. intros F N. eapply follows_try; [exact F| |done|done]. intros st a ->. apply N. Qed.
Lemma d_pres {A D} (r : res A) (f : A -> proc (res D)) :
  (forall a, dfol dfree DFree (f a)) -> dfol dfree DFree (pres r f).
Proof. intros N. by destruct r; cbn; [apply N|..]. Qed.
Lemma d_exists base key : dfol dfree DFree (p_exists base key).
Proof. apply d_pres. intros cs. cbn. split; [done|]. by intros ? ? ->. Qed.
Lemma d_get base key rs : dfol dfree DFree (p_get base key rs).
Proof.
  apply d_pres. intros cs. cbn [follows dpre dnxt]. split; [done|]. intros b st ->. destruct b; [|done].
  unfold ptry. cbn [pbind follows dpre dnxt]. split; [done|]. intros r st X. destruct r as [fd|e|]; [|done|done]. subst st.
  cbn [follows dpre dnxt]. split; [done|]. intros _ st ->. eapply follows_bind; [by apply d_read_all|].
  intros st c ->. cbn. split; [done|]. by intros _ st ->.
Qed.
Lemma d_set base key ws r : dfol dfree DFree (p_set base key ws r).
Proof.
  apply d_pres. intros cs. apply d_try.
  { destruct cs; [done|]. cbn [follows dpre dnxt]. split; [done|]. intros b st ->. destruct b; [done|].
    eapply follows_weaken; [apply d_mkdir_all|]. by intros st a ->. }
  intros _. unfold ptry. cbn [pbind follows dpre dnxt]. split; [done|]. intros x st X.
  destruct x as [fd|e|]; [|done|done]. subst st. cbn [follows dpre dnxt]. split; [done|]. intros _ st ->.
  split; [done|]. intros _ st ->. by apply d_buffered.
Qed.
Lemma d_erase base key : dfol dfree DFree (p_erase base key).
Proof.
  apply d_pres. intros cs. cbn [follows dpre dnxt]. split; [done|]. intros b st ->.
  assert (dfol dfree DFree (Call (SExists cs) (fun b => Ret (Ok (negb b))))) as FI.
  { cbn. split; [done|]. by intros ? ? ->. }
  destruct b; [|exact FI]. unfold ptry. cbn [pbind follows dpre dnxt]. split; [done|].
  intros x st X. destruct x as [fd|e|]; [|done|done]. subst st. cbn [follows dpre dnxt]. split; [done|].
  intros _ st ->. split; [done|]. intros r st ->. split; [done|]. intros _ st ->. apply d_pres. intros _. exact FI.
Qed.
Lemma d_reply {A} (f : A -> reply) q : dfol dfree DFree q -> dfol dfree DFree (map_reply f q).
Proof. intros F. eapply follows_bind; [exact F|]. by intros st a ->. Qed.
Lemma d_node_key H path : dfol dfree DFree (p_node_key H path).
Proof.
  apply d_try; [apply d_exists|]. intros [|]; [done|]. apply d_try; [apply d_exists|]. by intros [|].
Qed.
Lemma d_each {A} (f : A -> proc (res unit)) es : (forall e, dfol dfree DFree (f e)) -> dfol dfree DFree (p_each f es).
Proof. intros F. induction es as [|e es IH]; [done|]. by apply d_try. Qed.
Lemma d_rm_tree ord fuel : forall cs dir, dfol dfree DFree (p_rm_tree ord fuel cs dir).
Proof.
  induction fuel as [|fuel IH]; intros cs dir; [done|]. cbn [p_rm_tree]. destruct dir.
  - apply d_try; [cbn; split; [done|]; by intros x st' ->|]. intros es. apply d_try; [by apply d_each|].
    intros _. cbn. split; [done|]. by intros x st' ->.
  - unfold ptry. cbn [pbind follows dpre dnxt]. split; [done|]. intros x st X. destruct x as [fd|e|]; [|done|done].
    subst st. cbn [follows dpre dnxt]. split; [done|]. intros _ st ->. split; [done|]. intros r st ->. split; [done|].
    by intros _ st ->.
Qed.
Lemma d_erase_prefix ord fuel base key : dfol dfree DFree (p_erase_prefix ord fuel base key).
Proof.
  apply d_pres. intros cs. cbn [follows dpre dnxt]. split; [done|]. intros b st ->.
  assert (dfol dfree DFree (Call (SExists cs) (fun b => Ret (Ok (negb b))))) as FI.
  { cbn. split; [done|]. by intros ? ? ->. }
  destruct b; [|exact FI]. cbn [follows dpre dnxt]. split; [done|]. intros d st ->. destruct d; [|done].
  apply d_try; [apply d_rm_tree|done].
Qed.
Lemma d_stats cs es : dfol dfree DFree (p_stats cs es).
Proof.
  induction es as [|e es IH]; [done|]. cbn [p_stats follows dpre dnxt]. split; [done|]. intros d st ->.
  eapply follows_bind; [exact IH|]. by intros st l ->.
Qed.
Lemma d_list_dir ord base prefix : dfol dfree DFree (p_list_dir ord base prefix).
Proof.
  apply d_pres. intros cs. apply d_try; [cbn; split; [done|]; by intros x st ->|]. intros es.
  eapply follows_bind; [apply d_stats|]. by intros st l ->.
Qed.
Lemma d_call C h H sl c : dfol dfree DFree (p_call C h H sl c).
Proof.
  destruct c; cbn [p_call]; apply d_reply.
  - apply d_try; [apply d_get|done].
  - apply d_try; [apply d_node_key|]. intros k. apply d_try; [apply d_get|done].
  - apply d_try; [apply d_node_key|]. intros k. apply d_try; [apply d_get|]. intros x.
    apply d_pres. intros text. apply d_pres. intros ex. cbv zeta. destruct (json_eqb (JObj (merge_doc ex attrs)) (JObj ex)); [done|apply d_set].
  - apply d_try; [apply d_exists|]. intros [|]; [done|]. apply d_try; [apply d_exists|]. intros [|]; [done|apply d_set].
  - apply d_try; [apply d_exists|]. intros [|]; [done|]. apply d_try; [apply d_exists|]. intros [|]; [done|apply d_set].
  - apply d_pres. intros _. apply d_try; [apply d_get|done].
  - apply d_set.
  - apply d_erase.
  - apply d_try; [apply d_erase|]. intros _. apply d_try; [apply d_erase|]. intros _.
    apply d_try; [apply d_erase_prefix|done].
  - apply d_try; [apply d_list_dir|done].
Qed.

(** ** No deadlock *)

Record dinv (o : os) (sts : nat -> dsess) : Prop := {
  d_fd : forall k fd, dfd (sts k) = Some fd -> is_Some (o_fds o !! fd);
  d_lock : forall fd ex, o_locks o !! fd = Some ex -> exists k, sts k = DLocked fd;
  d_one : forall k k' fd, dfd (sts k) = Some fd -> dfd (sts k') = Some fd -> k = k';
  d_next : forall fd, is_Some (o_fds o !! fd) -> (fd < o_next o)%nat;
  d_held : forall fd ex, o_locks o !! fd = Some ex -> is_Some (o_fds o !! fd)
}.
Definition dupd (sts : nat -> dsess) (k : nat) (st : dsess) : nat -> dsess :=
  fun k' => if decide (k' = k) then st else sts k'.
Lemma dupd_same sts k st : dupd sts k st k = st.
Proof. unfold dupd. by rewrite decide_True. Qed.
Lemma dupd_ne sts k st k' : k' <> k -> dupd sts k st k' = sts k'.
Proof. intros N. unfold dupd. by rewrite decide_False. Qed.
Lemma dinv_ext o o' sts sts' : (forall k, sts' k = sts k) -> o_fds o' = o_fds o -> o_locks o' = o_locks o ->
  (o_next o <= o_next o')%nat -> dinv o sts -> dinv o' sts'.
Proof.
  intros X F L N []. split; rewrite ?F, ?L.
  - intros k fd. rewrite X. apply d_fd0.
  - intros fd ex E. destruct (d_lock0 _ _ E) as [k E']. exists k. by rewrite X.
  - intros k k' fd. rewrite !X. apply d_one0.
  - intros fd E. apply d_next0 in E. lia.
  - apply d_held0.
Qed.
Lemma dinv_same o o' sts k : o_fds o' = o_fds o -> o_locks o' = o_locks o ->
  (o_next o <= o_next o')%nat -> dinv o sts -> dinv o' (dupd sts k (sts k)).
Proof. intros F L N. apply dinv_ext; try done. intros k'. unfold dupd. case_decide; [by subst|done]. Qed.
Lemma dinv_open o o' sts k fd j : dinv o sts -> sts k = DFree -> o_fds o' = <[fd := j]> (o_fds o) ->
  o_locks o' = o_locks o -> (o_next o <= fd < o_next o')%nat -> dinv o' (dupd sts k (DOpen fd)).
Proof.
  intros [] S F L N. assert (o_fds o !! fd = None) as NF.
  { destruct (o_fds o !! fd) eqn:E; [|done]. assert (fd < o_next o)%nat; [|lia]. apply d_next0. by rewrite E. }
  split; rewrite ?F, ?L.
  - intros k' fd' E. destruct (decide (k' = k)) as [->|D].
    + rewrite dupd_same in E. cbn in E. injection E as <-. by rewrite lookup_insert.
    + rewrite dupd_ne in E by done. apply d_fd0 in E. destruct (decide (fd' = fd)) as [->|D']; [by rewrite lookup_insert|].
      by rewrite lookup_insert_ne.
  - intros fd' ex E. destruct (d_lock0 _ _ E) as [k' E']. exists k'. rewrite dupd_ne; [done|]. intros ->. congruence.
  - assert (forall k', dfd (sts k') <> Some fd) as NS. { intros k' X. apply d_fd0 in X. rewrite NF in X. by destruct X. }
    intros k1 k2 fd' E1 E2. unfold dupd in *. destruct (decide (k1 = k)), (decide (k2 = k)); subst; try done.
    + cbn in E1. injection E1 as <-. by apply NS in E2.
    + cbn in E2. injection E2 as <-. by apply NS in E1.
    + by eapply d_one0.
  - intros fd' E. destruct (decide (fd' = fd)) as [->|D]; [lia|]. rewrite lookup_insert_ne in E by done.
    apply d_next0 in E. lia.
  - intros fd' ex E. apply d_held0 in E. destruct (decide (fd' = fd)) as [->|D]; [by rewrite lookup_insert|].
    by rewrite lookup_insert_ne.
Qed.
Lemma dinv_step {T} (c : sys T) o o' x sts k : dinv o sts -> dpre T (sts k) c -> sys_step c o = Some (o', x) ->
  exists st', dnxt T (sts k) c x st' /\ dinv o' (dupd sts k st').
Proof.
  intros I P E. destruct c; cbn [sys_step] in E; cbn [dpre] in P; cbn [dnxt].
  - injection E as <- <-. exists (sts k). split; [done|]. by apply (dinv_same o).
  - injection E as <- <-. exists (sts k). split; [done|]. by apply (dinv_same o).
  - injection E as <- <-. exists (sts k). split; [done|]. by apply (dinv_same o).
  - exists (sts k). split; [done|]. injection E as E.
    destruct (walk _ _ _) as [q|e|]; [|injection E as <- <-; by apply (dinv_same o)..].
    destruct (node_at _ _); [injection E as <- <-; by apply (dinv_same o)|].
    destruct (is_dir_at _ _); injection E as <- <-; by apply (dinv_same o).
  - injection E as E.
    assert (dinv o (dupd sts k DFree)) as ID. { rewrite <- P. by apply (dinv_same o). }
    destruct (walk _ _ _) as [q|e|]; [|injection E as <- <-; by exists DFree..].
    destruct q as [|a q]; [injection E as <- <-; by exists DFree|].
    destruct (o_tree o !! (a :: q)) as [[|i]|].
    + injection E as <- <-. by exists DFree.
    + injection E as <- <-. eexists. split; [reflexivity|]. eapply dinv_open; [done|done|done|done|cbn; lia].
    + destruct (is_dir_at _ _); injection E as <- <-; [|by exists DFree].
      eexists. split; [reflexivity|]. eapply (dinv_open o); [done|done|done|done|cbn; lia].
  - injection E as E.
    assert (dinv o (dupd sts k DFree)) as ID. { rewrite <- P. by apply (dinv_same o). }
    destruct (walk _ _ _) as [q|e|]; [|injection E as <- <-; by exists DFree..].
    destruct (node_at _ q) as [[|b]|].
    + destruct dir_ok; injection E as <- <-; [|by exists DFree].
      eexists. split; [reflexivity|]. eapply (dinv_open o); [done|done|done|done|cbn; lia].
    + destruct (o_tree o !! q) as [[|i]|]; injection E as <- <-; [by exists DFree| |by exists DFree].
      eexists. split; [reflexivity|]. eapply (dinv_open o); [done|done|done|done|cbn; lia].
    + injection E as <- <-. by exists DFree.
  - destruct (o_fds o !! fd) as [j|] eqn:F; [|done]. destruct (lock_conflict _ _ _); [done|]. injection E as <- <-.
    eexists. split; [reflexivity|]. destruct I. split; cbn.
    + intros k' fd' E. destruct (decide (k' = k)) as [->|D].
      * rewrite dupd_same in E. cbn in E. injection E as <-. by rewrite F.
      * rewrite dupd_ne in E by done. by eapply d_fd0.
    + intros fd' ex' E. destruct (decide (fd' = fd)) as [->|D]; [exists k; by rewrite dupd_same|].
      rewrite lookup_insert_ne in E by done. destruct (d_lock0 _ _ E) as [k' E']. exists k'.
      rewrite dupd_ne; [done|]. intros ->. congruence.
    + intros k1 k2 fd' E1 E2. apply (d_one0 k1 k2 fd'); unfold dupd in *; [destruct (decide (k1 = k))|destruct (decide (k2 = k))]; subst; rewrite ?P; done.
    + done.
    + intros fd' ex' E. destruct (decide (fd' = fd)) as [->|D]; [by rewrite F|].
      rewrite lookup_insert_ne in E by done. by eapply d_held0.
  - destruct (o_fds o !! fd) as [j|] eqn:F; [|done]. injection E as <- <-. exists (sts k). split; [done|].
    by apply (dinv_same o).
  - destruct (o_fds o !! fd) as [j|] eqn:F; [|done]. injection E as E. exists (sts k). split; [done|].
    destruct (_ && _); injection E as <- <-; by apply (dinv_same o).
  - destruct (o_fds o !! fd) as [j|] eqn:F; [|done]. injection E as <- <-. exists (sts k). split; [done|].
    by apply (dinv_same o).
  - injection E as <- <-. exists DFree. split; [done|]. destruct I.
    assert (forall k' fd', k' <> k -> dfd (sts k') = Some fd' -> fd' <> fd) as NF.
    { intros k' fd' N E ->. apply N. by eapply d_one0. }
    split; cbn.
    + intros k' fd' E. destruct (decide (k' = k)) as [->|D]; [by rewrite dupd_same in E|].
      rewrite dupd_ne in E by done. rewrite lookup_delete_ne by (intros <-; by eapply NF). by eapply d_fd0.
    + intros fd' ex' E. apply lookup_delete_Some in E as [N E]. destruct (d_lock0 _ _ E) as [k' E']. exists k'.
      rewrite dupd_ne; [done|]. intros ->. rewrite E' in P. cbn in P. congruence.
    + intros k1 k2 fd' E1 E2. unfold dupd in *. destruct (decide (k1 = k)), (decide (k2 = k)); subst; try done.
      by eapply d_one0.
    + intros fd' [j E]. apply lookup_delete_Some in E as [N E]. apply d_next0. by rewrite E.
    + intros fd' ex' E. apply lookup_delete_Some in E as [N E]. rewrite lookup_delete_ne by done. by eapply d_held0.
  - exists (sts k). split; [done|]. injection E as E.
    destruct (walk _ _ _) as [q|e|]; [|injection E as <- <-; by apply (dinv_same o)..].
    destruct (node_at _ _) as [[|]|]; injection E as <- <-; by apply (dinv_same o).
  - injection E as <- <-. exists (sts k). split; [done|]. by apply (dinv_same o).
  - injection E as <- <-. exists (sts k). split; [done|]. by apply (dinv_same o).
  - exists (sts k). split; [done|]. injection E as E.
    destruct (walk _ _ _) as [q|e|]; [|injection E as <- <-; by apply (dinv_same o)..].
    destruct (node_at _ _) as [[|]|]; [|injection E as <- <-; by apply (dinv_same o)..].
    destruct (_ || _); injection E as <- <-; by apply (dinv_same o).
Qed.

Definition keeps {A} (c : os * list (proc A)) (sts : nat -> dsess) : Prop :=
  dinv (fst c) sts /\ (forall i, snd c !! i = None -> sts i = DFree) /\
  (forall i q, snd c !! i = Some q -> dfol dfree (sts i) q).
Lemma csteps_keeps {A} (c c' : os * list (proc A)) : csteps c c' -> forall sts, keeps c sts -> exists sts', keeps c' sts'.
Proof.
  induction 1 as [c|o ps i q o1 q1 c E P S IH]; intros sts K; [by exists sts|].
  destruct K as (I & N & F). cbn [fst snd] in *. pose proof (F i q E) as Fi. destruct q as [a|T call k]; cbn in P; [done|].
  destruct (sys_step call o) as [[o2 x]|] eqn:X; [|done]. injection P as <- <-. destruct Fi as [P1 P2].
  destruct (dinv_step call o o2 x sts i I P1 X) as (st' & N1 & I').
  eapply IH. split_and!; [exact I'|cbn..].
  - intros i' E'. assert (i' <> i) as D.
    { intros ->. rewrite list_lookup_insert in E' by by eapply lookup_lt_Some. done. }
    rewrite list_lookup_insert_ne in E' by done. rewrite dupd_ne by done. by apply N.
  - intros i' q' E'. destruct (decide (i' = i)) as [->|D].
    + rewrite list_lookup_insert in E' by by eapply lookup_lt_Some. injection E' as <-.
      rewrite dupd_same. by apply P2.
    + rewrite list_lookup_insert_ne in E' by done. rewrite dupd_ne by done. by apply F.
Qed.

Lemma pstep_dec {A} (o : os) (ps : list (proc A)) :
  can_step o ps \/ forall i q, ps !! i = Some q -> pstep o q = None.
Proof.
  induction ps as [|q ps IH]; [right; done|]. destruct (pstep o q) as [[o1 q1]|] eqn:E.
  - left. by exists 0%nat, q, o1, q1.
  - destruct IH as [(i & r & o1 & q1 & E1 & E2)|IH]; [left; by exists (S i), r, o1, q1|].
    right. intros [|i] r X; [by injection X as <-|]. by apply (IH i).
Qed.
Lemma pstep_none {A T} o (c : sys T) (k : T -> proc A) : pstep o (Call c k) = None -> sys_step c o = None.
Proof. cbn. by destruct (sys_step c o) as [[]|]. Qed.
Lemma keeps_progress {A} (o : os) (ps : list (proc A)) sts : keeps (o, ps) sts ->
  (forall i q, ps !! i = Some q -> exists a, q = Ret a) \/ can_step o ps.
Proof.
  intros (I & N & F). cbn [fst snd] in *. destruct (pstep_dec o ps) as [?|ST]; [by right|left].
  (* nobody can step: nobody holds a lock *)
  assert (forall k fd, sts k <> DLocked fd) as NL.
  { intros k fd E. destruct (ps !! k) as [q|] eqn:EK; [|by rewrite N in E].
    pose proof (F k q EK) as Fk. rewrite E in Fk. apply ST in EK. destruct q as [a|T c kk]; cbn in Fk; [done|].
    destruct Fk as [P _]. destruct (d_fd _ _ I k fd) as [j FD]; [by rewrite E|].
    apply pstep_none in EK. destruct c; cbn [sys_step] in EK; cbn in P; try done.
    - injection P as ->. by rewrite FD in EK.
    - injection P as ->. by rewrite FD in EK.
    - injection P as ->. by rewrite FD in EK. }
  assert (forall fd, o_locks o !! fd = None) as LE.
  { intros fd. destruct (o_locks o !! fd) eqn:E; [|done]. apply (d_lock _ _ I) in E as [k E]. by apply NL in E. }
  intros i q E. pose proof (F i q E) as Fi. apply ST in E. destruct q as [a|T c kk]; [by exists a|].
  exfalso. cbn in Fi. destruct Fi as [P _].
  assert (forall fd, dfd (sts i) = Some fd -> is_Some (o_fds o !! fd)) as FD by by apply I.
  apply pstep_none in E. destruct c; cbn [sys_step] in E; cbn in P; try done.
  - destruct (FD fd) as [j Fj]; [by rewrite P|]. rewrite Fj in E.
    rewrite no_conflict in E; [done|]. apply map_empty. exact LE.
  - destruct (FD fd P) as [j Fj]. by rewrite Fj in E.
  - destruct (FD fd P) as [j Fj]. by rewrite Fj in E.
  - destruct (FD fd P) as [j Fj]. by rewrite Fj in E.
Qed.

(** ** Executions end *)

Definition qstep {A} (q' q : proc A) : Prop := exists o o', pstep o q = Some (o', q').
Definition lstep {A} (l' l : list (proc A)) : Prop :=
  exists i q q', l !! i = Some q /\ qstep q' q /\ l' = <[i := q']> l.
Lemma qstep_acc {A} (q : proc A) : Acc qstep q.
Proof.
  induction q as [a|T c k IH]; split; intros q' (o & o' & E); cbn in E; [done|].
  destruct (sys_step c o) as [[o1 x]|]; [|done]. injection E as _ <-. apply IH.
Qed.
Lemma lstep_acc {A} (l : list (proc A)) : Acc lstep l.
Proof.
  induction l as [|q l IH]; [split; by intros l' (i & q & q' & E & _)|].
  pose proof (qstep_acc q) as Aq. revert l IH. induction Aq as [q _ IHq]. intros l Al.
  pose proof Al as Al0. induction Al as [l _ IHl]. split. intros l' (i & r & r' & E & S & ->).
  destruct i as [|i]; cbn in E.
  - injection E as ->. cbn. by apply IHq.
  - cbn. apply IHl; [by exists i, r, r'|]. apply Al0. by exists i, r, r'.
Qed.
Lemma cstep_acc {A} (c : os * list (proc A)) : Acc cstep c.
Proof.
  destruct c as [o l]. pose proof (lstep_acc l) as Al. revert o. induction Al as [l _ IH]. intros o.
  split. intros c' (i & q & o1 & q1 & E & S & ->). cbn in *. apply IH. exists i, q, q1. split_and!; [done| |done].
  by exists o, o1.
Qed.
Lemma cstep_csteps {A} (c c' c'' : os * list (proc A)) : cstep c' c -> csteps c' c'' -> csteps c c''.
Proof. intros (i & q & o1 & q1 & E & S & ->) R. destruct c as [o ps]. by eapply csteps_step. Qed.
Lemma csteps_trans {A} (c c' c'' : os * list (proc A)) : csteps c c' -> csteps c' c'' -> csteps c c''.
Proof. induction 1; [done|]. intros. eapply csteps_step; [done|done|]. auto. Qed.

Lemma procs_keep {A} o (ps : list (proc A)) : idle o -> (forall q, q ∈ ps -> dfol dfree DFree q) ->
  keeps (o, ps) (fun _ => DFree).
Proof.
  intros (K & F & L) D. split_and!; cbn.
  - split.
    + done.
    + intros fd ex E. by rewrite L, lookup_empty in E.
    + done.
    + intros fd [j E]. by rewrite F, lookup_empty in E.
    + intros fd ex E. by rewrite L, lookup_empty in E.
  - done.
  - intros i q E. apply D. by eapply elem_of_list_lookup_2.
Qed.
Lemma live_progress {A} o (ps : list (proc A)) o' ps' : idle o -> (forall q, q ∈ ps -> dfol dfree DFree q) ->
  csteps (o, ps) (o', ps') -> all_returned ps' \/ can_step o' ps'.
Proof.
  intros I D E. destruct (csteps_keeps _ _ E _ (procs_keep o ps I D)) as [sts K]. by eapply keeps_progress.
Qed.
Lemma live_completes {A} o (ps : list (proc A)) o' ps' : idle o -> (forall q, q ∈ ps -> dfol dfree DFree q) ->
  csteps (o, ps) (o', ps') -> exists o2 ps2, csteps (o', ps') (o2, ps2) /\ all_returned ps2.
Proof.
  intros I D E. destruct (csteps_keeps _ _ E _ (procs_keep o ps I D)) as [sts K]. clear E. clear ps D I o. rename ps' into ps.
  pose proof (cstep_acc (o', ps)) as Ac. remember (o', ps) as c eqn:EC. revert o' ps EC sts K.
  induction Ac as [c _ IH]. intros o' ps -> sts K.
  destruct (keeps_progress _ _ _ K) as [R|(i & q & o1 & q1 & E & S)].
  - exists o', ps. split; [constructor|done].
  - assert (cstep (o1, <[i := q1]> ps) (o', ps)) as ST by by exists i, q, o1, q1.
    assert (csteps (o', ps) (o1, <[i := q1]> ps)) as ST' by (eapply cstep_csteps; [done|constructor]).
    destruct (csteps_keeps _ _ ST' _ K) as [sts' K'].
    destruct (IH _ ST _ _ eq_refl _ K') as (o2 & ps2 & C2 & R). exists o2, ps2. split; [|done]. by eapply csteps_trans.
Qed.

Lemma calls_follow C h H sl calls q : q ∈ map (p_call C h H sl) calls -> dfol dfree DFree q.
Proof. intros E. apply elem_of_list_fmap in E as (c & -> & _). apply d_call. Qed.
Lemma no_deadlock C h H sl o calls o' ps : idle o -> executes C h H sl o calls o' ps ->
  all_returned ps \/ can_step o' ps.
Proof. intros I. apply live_progress; [done|apply calls_follow]. Qed.
Lemma completes C h H sl o calls o' ps : idle o -> executes C h H sl o calls o' ps ->
  exists o2 ps2, csteps (o', ps) (o2, ps2) /\ all_returned ps2.
Proof. intros I. apply live_completes; [done|apply calls_follow]. Qed.
