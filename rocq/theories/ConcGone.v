(** Files that no process writes do not appear, and do not come back once they
    are removed (C61). *)
From Verif Require Import BaseFacts PathFacts KeyFacts FSFacts ListFacts Spec SpecMeta SpecHier HierFacts OpsFacts.
From Verif Require Import Sys SpecConc SysFacts SysOps CrashFacts ConcFacts ConcOps ConcChunk ConcMeta ConcKeep.
Local Open Scope Z_scope.

(** ** What a system call does to the tree *)

Definition tree_after {T : Type} (c : sys T) (o : os) (tr : gmap fpath dentry) : T -> Prop :=
  match c in sys T return T -> Prop with
  | SMkdir cs => fun x => tr = o_tree o \/
      exists q, walk (view o) [] cs = Ok q /\ q <> [] /\ o_tree o !! q = None
        /\ is_dir_at (view o) (parent q) = true /\ tr = <[q := DDir]> (o_tree o)
  | SOpenW cs => fun x => tr = o_tree o \/
      exists q i, walk (view o) [] cs = Ok q /\ q <> [] /\ o_tree o !! q = None
        /\ is_dir_at (view o) (parent q) = true /\ tr = <[q := DFile i]> (o_tree o)
  | SUnlink cs => fun x => (tr = o_tree o /\ forall u, x <> Ok u) \/
      exists q c, walk (view o) [] cs = Ok q /\ node_at (view o) q = Some (File c) /\ tr = delete q (o_tree o)
  | SRmdir cs => fun x => (tr = o_tree o /\ forall u, x <> Ok u) \/
      exists q, walk (view o) [] cs = Ok q /\ q <> [] /\ node_at (view o) q = Some Dir
        /\ entries_of (view o) q = [] /\ tr = delete q (o_tree o)
  | _ => fun _ => tr = o_tree o
  end.

Lemma step_tree {T} (c : sys T) o o' x : sys_step c o = Some (o', x) -> tree_after c o (o_tree o') x.
Proof.
  intros E. destruct c; cbn [sys_step] in E; cbn [tree_after].
  - by injection E as <- <-.
  - by injection E as <- <-.
  - by injection E as <- <-.
  - injection E as E. destruct (walk _ _ _) as [q|e|] eqn:W; [|injection E as <- <-; by left..].
    destruct (node_at (view o) q) eqn:N; [injection E as <- <-; by left|].
    destruct (is_dir_at _ _) eqn:D; injection E as <- <-; [|by left]. right. exists q.
    split_and!; [done|by intros ->|by apply tree_none|done|done].
  - injection E as E. destruct (walk (view o) [] cs) as [q|e|] eqn:W; [|injection E as <- <-; by left..].
    destruct q as [|a q]; [injection E as <- <-; by left|].
    destruct (o_tree o !! (a :: q)) as [[|j]|] eqn:ET; [injection E as <- <-; by left..|].
    destruct (is_dir_at _ _) eqn:D; injection E as <- <-; [|by left]. right. by exists (a :: q), (o_next o).
  - injection E as E.
    destruct (walk _ _ _) as [q|e|]; [|by injection E as <- <-..].
    destruct (node_at _ _) as [[|c]|].
    + destruct dir_ok; by injection E as <- <-.
    + destruct (o_tree o !! q) as [[|j]|]; by injection E as <- <-.
    + by injection E as <- <-.
  - destruct (o_fds o !! fd); [|done]. destruct (lock_conflict _ _ _); [done|]. by injection E as <- <-.
  - destruct (o_fds o !! fd); [|done]. by injection E as <- <-.
  - destruct (o_fds o !! fd); [|done]. injection E as E. destruct (bool_decide _ && _); by injection E as <- <-.
  - destruct (o_fds o !! fd); [|done]. by injection E as <- <-.
  - by injection E as <- <-.
  - injection E as E. destruct (walk (view o) [] cs) as [q|e|] eqn:W; [|injection E as <- <-; by left..].
    destruct (node_at (view o) q) as [[|c]|] eqn:N; injection E as <- <-; [by left| |by left].
    right. by exists q, c.
  - by injection E as <- <-.
  - by injection E as <- <-.
  - injection E as E. destruct (walk (view o) [] cs) as [q|e|] eqn:W; [|injection E as <- <-; by left..].
    destruct (node_at (view o) q) as [[|c]|] eqn:N; [|injection E as <- <-; by left..].
    destruct (_ || _) eqn:EE; injection E as <- <-; [by left|].
    apply orb_false_iff in EE as [E1%bool_decide_eq_false E2%negb_false_iff%bool_decide_eq_true].
    right. by exists q.
Qed.

(** The kinds of the nodes are determined by the tree. *)
Lemma kinds_tree (s : fs) o : (forall q, same_kind (node_of ∅ <$> o_tree o !! q) (s !! q)) -> wf_fs s -> wf_fs (view o).
Proof.
  intros X W. eapply same_kind_wf; [|exact W]. intros q. specialize (X q). rewrite view_lookup.
  by destruct (o_tree o !! q) as [[|]|], (s !! q) as [[|]|].
Qed.
Lemma kinds_view o q : same_kind (node_of ∅ <$> o_tree o !! q) (view o !! q).
Proof. rewrite view_lookup. by destruct (o_tree o !! q) as [[|]|]. Qed.
Lemma step_wf {T} (c : sys T) o o' x : wf_fs (view o) -> sys_step c o = Some (o', x) -> wf_fs (view o').
Proof.
  intros W E%step_tree.
  assert (o_tree o' = o_tree o -> wf_fs (view o')) as SAME.
  { intros X. apply (kinds_tree (view o)); [|done]. intros q. rewrite X. apply kinds_view. }
  assert (forall q d, q <> [] -> is_dir_at (view o) (parent q) = true -> o_tree o !! q = None ->
    o_tree o' = <[q := d]> (o_tree o) -> wf_fs (view o')) as INS.
  { intros q d QN PD QF X. apply (kinds_tree (<[q := node_of ∅ d]> (view o))).
    - intros r. rewrite X. destruct (decide (r = q)) as [->|D].
      + rewrite !lookup_insert. by destruct d.
      + rewrite !lookup_insert_ne by done. apply kinds_view.
    - destruct (snoc_parent q QN) as [y Y]. rewrite Y. apply wf_insert; [done|by apply is_dir_at_true|].
      left. rewrite <- Y, node_at_ne, view_lookup, QF by done. done. }
  assert (forall q, wf_fs (delete q (view o)) -> o_tree o' = delete q (o_tree o) -> wf_fs (view o')) as DEL.
  { intros q WD X. apply (kinds_tree (delete q (view o))); [|done]. intros r. rewrite X.
    destruct (decide (r = q)) as [->|D]; [by rewrite !lookup_delete|]. rewrite !lookup_delete_ne by done. apply kinds_view. }
  destruct c; cbn [tree_after] in E; try by apply SAME.
  - destruct E as [E|(q & _ & QN & QF & PD & E)]; [by apply SAME|by eapply INS].
  - destruct E as [E|(q & i & _ & QN & QF & PD & E)]; [by apply SAME|by eapply INS].
  - destruct E as [[E _]|(q & c & _ & N & E)]; [by apply SAME|]. eapply DEL; [|exact E]. by eapply wf_delete.
  - destruct E as [[E _]|(q & _ & QN & N & EE & E)]; [by apply SAME|]. eapply DEL; [|exact E]. by apply wf_rmdir.
Qed.

(** ** Executions of processes that follow a protocol *)

Definition put {St : Type} (sts : nat -> St) (k : nat) (st : St) : nat -> St :=
  fun j => if decide (j = k) then st else sts j.
Lemma csteps_protocol {St A} (pre : forall T, St -> sys T -> Prop) (nxt : forall T, St -> sys T -> T -> St -> Prop)
    (I : os -> (nat -> St) -> Prop) (fin : nat -> St -> A -> Prop) :
  (forall T (c : sys T) o o' x sts k, I o sts -> pre T (sts k) c -> sys_step c o = Some (o', x) ->
     exists st', nxt T (sts k) c x st' /\ I o' (put sts k st')) ->
  forall c c', csteps c c' -> forall sts, I (fst c) sts ->
  (forall i q, snd c !! i = Some q -> follows pre nxt (fin i) (sts i) q) ->
  exists sts', I (fst c') sts' /\ forall i q, snd c' !! i = Some q -> follows pre nxt (fin i) (sts' i) q.
Proof.
  intros STEP c c'. induction 1 as [c|o ps i q o1 q1 c E P S IH]; intros sts IN F; [by exists sts|]. cbn [fst snd] in *.
  pose proof (F i q E) as Fi. destruct q as [a|T call k]; cbn in P; [done|].
  destruct (sys_step call o) as [[o2 x]|] eqn:X; [|done]. injection P as <- <-. destruct Fi as [P1 P2].
  destruct (STEP T call o o2 x sts i IN P1 X) as (st' & N1 & N2).
  apply (IH (put sts i st')); [done|]. intros j q' E'. unfold put. destruct (decide (j = i)) as [->|D].
  - rewrite list_lookup_insert in E' by by eapply lookup_lt_Some. injection E' as <-. by apply P2.
  - rewrite list_lookup_insert_ne in E' by done. by apply F.
Qed.

Lemma csteps_wf {A} (c c' : os * list (proc A)) : csteps c c' -> wf_fs (view (fst c)) -> wf_fs (view (fst c')).
Proof.
  induction 1 as [c|o ps i q o1 q1 c E P S IH]; intros W; [done|]. apply IH. cbn [fst] in *.
  destruct q as [a|T call k]; cbn in P; [done|]. destruct (sys_step call o) as [[o2 x]|] eqn:X; [|done].
  injection P as <- <-. by eapply step_wf.
Qed.
Lemma execute_wf C h H sl o calls o' ps : executes C h H sl o calls o' ps -> wf_fs (view o) -> wf_fs (view o').
Proof. intros X W. exact (csteps_wf _ _ X W). Qed.

(** ** One file that nobody writes *)

Section Gone.
  (** With [lax], processes that have seen the file may write it. *)
  Context (p : fpath) (NE : p <> []) (lax : bool).

  (** The session state: the process has seen the file; it knows that there
      was a moment without it. *)
  Local Notation seen := (@fst bool bool).
  Local Notation lost := (@snd bool bool).
  Definition up (cs : list comp) : bool := bool_decide (cs `prefix_of` map Normal p).
  Definition is_ok {A : Type} (x : res A) : bool := match x with Ok _ => true | _ => false end.
  Definition gpre (T : Type) (st : bool * bool) (c : sys T) : Prop :=
    match c with
    | SOpenW cs => exists q, cs = map Normal q /\ (q = p -> lax = true /\ seen st = true)
    | _ => True
    end.
  Definition gnxt (T : Type) (st : bool * bool) (c : sys T) : T -> bool * bool -> Prop :=
    match c in sys T return T -> bool * bool -> Prop with
    | SIsFile cs => fun x st' => st' = (seen st || (x && bool_decide (cs = map Normal p)), lost st)
    | SExists cs => fun x st' => st' = (seen st, lost st || (negb x && up cs))
    | SUnlink cs => fun x st' => st' = (seen st, lost st || (is_ok x && up cs))
    | SRmdir cs => fun x st' => st' = (seen st, lost st || (is_ok x && up cs))
    | SOpenW _ => fun _ st' => st' = st
    | SIsDir _ => fun _ st' => st' = st
    | SMkdir _ => fun _ st' => st' = st
    | SOpenR _ _ => fun _ st' => st' = st
    | SLock _ _ | STrunc _ | SClose _ => fun _ st' => st' = st
    | SWrite _ _ _ => fun _ st' => st' = st
    | SRead _ _ _ => fun _ st' => st' = st
    | SStat _ | SReadDir _ => fun _ st' => st' = st
    end.
  Local Notation fol := (follows gpre gnxt).

  Definition lacks (o : os) : Prop := forall j, o_tree o !! p <> Some (DFile j).
  Lemma lacks_view o : lacks o <-> file_at (view o) p = None.
  Proof.
    unfold lacks, file_at. rewrite node_at_ne, view_lookup by done.
    destruct (o_tree o !! p) as [[|j]|]; cbn; [done| |done]. split; [intros X; by destruct (X j)|done].
  Qed.
  Lemma lacks_none o : node_at (view o) p = None -> lacks o.
  Proof. intros X. apply lacks_view. unfold file_at. by rewrite X. Qed.
  Lemma up_inv cs : up cs = true -> exists q, cs = map Normal q /\ q `prefix_of` p.
  Proof.
    intros [k E]%bool_decide_eq_true. exists (take (length cs) p). split.
    - change (map Normal (take (length cs) p)) with (Normal <$> take (length cs) p). rewrite fmap_take.
      change (Normal <$> p) with (map Normal p). by rewrite E, take_app.
    - exists (drop (length cs) p). by rewrite take_drop.
  Qed.
  Lemma up_intro q : q `prefix_of` p -> up (map Normal q) = true.
  Proof. intros [k E]. unfold up. apply bool_decide_eq_true. rewrite E, map_app. by exists (map Normal k). Qed.

  Definition ginv (o : os) (sts : nat -> bool * bool) : Prop :=
    wf_fs (view o) /\
    if lax then lacks o /\ forall i, seen (sts i) = false else forall i, lost (sts i) = true -> lacks o.

  Lemma lacks_step {T} (c : sys T) o o' x st : wf_fs (view o) -> gpre T st c -> sys_step c o = Some (o', x) ->
    (lax = true -> seen st = false) -> lacks o -> lacks o'.
  Proof.
    intros W P E%step_tree SN L.
    assert (o_tree o' = o_tree o -> lacks o') as SAME by (intros X; unfold lacks; by rewrite X).
    assert (forall q, o_tree o' = delete q (o_tree o) -> lacks o') as DEL.
    { intros q X j. rewrite X, lookup_delete_Some. intros [_ Y]. by apply L in Y. }
    destruct c; cbn [tree_after] in E; cbn [gpre] in P; try by apply SAME.
    - destruct E as [E|(q & _ & QN & QF & PD & E)]; [by apply SAME|]. intros j. rewrite E, lookup_insert_Some.
      intros [[_ ?]|[_ Y]]; [done|by apply L in Y].
    - destruct E as [E|(q & i & WK & QN & QF & PD & E)]; [by apply SAME|]. destruct P as (r & -> & P).
      apply walk_normal_target in WK as ->. cbn [app] in *. intros j. rewrite E, lookup_insert_Some.
      intros [[-> _]|[_ Y]]; [|by apply L in Y]. destruct P as [P1 P2]; [done|]. rewrite SN in P2; done.
    - destruct E as [[E _]|(q & c & _ & N & E)]; [by apply SAME|by eapply DEL].
    - destruct E as [[E _]|(q & _ & QN & N & EE & E)]; [by apply SAME|by eapply DEL].
  Qed.
  (** Nothing is below something that is not there, not a directory, or empty. *)
  Lemma none_below s q : wf_fs s -> q `prefix_of` p -> node_at s q = None -> node_at s p = None.
  Proof.
    intros W Q N. destruct (node_at s p) eqn:E; [|done]. destruct (decide (q = p)) as [->|D]; [congruence|].
    by rewrite (wf_strict s q p _ W E Q D) in N.
  Qed.

  Lemma gone_step {T} (c : sys T) o o' x sts k : ginv o sts -> gpre T (sts k) c -> sys_step c o = Some (o', x) ->
    exists st', gnxt T (sts k) c x st' /\ ginv o' (put sts k st').
  Proof.
    intros [W I] P E. assert (wf_fs (view o')) as W' by by eapply step_wf.
    assert ((lax = true -> seen (sts k) = false) -> lacks o -> lacks o') as MONO by by eapply lacks_step.
    (* a state that only adds knowledge *)
    assert (forall st', (lax = true -> seen st' = false) -> (lax = false -> lost st' = true -> lost (sts k) = true \/ lacks o') ->
      ginv o' (put sts k st')) as FIN.
    { intros st' S1 S2. split; [done|]. unfold put. destruct lax.
      - destruct I as [I1 I2]. split; [by apply MONO|]. intros i. destruct (decide (i = k)); [by apply S1|done].
      - intros i. destruct (decide (i = k)) as [->|D]; intros L.
        + destruct (S2 eq_refl L) as [X|X]; [|done]. apply MONO; [done|by apply (I k)].
        + apply MONO; [done|by apply (I i)]. }
    assert (lax = true -> seen (sts k) = false) as SK by (intros ->; apply I).
    assert (ginv o' (put sts k (sts k))) as SAME by (apply FIN; auto).
    destruct c; cbn [gnxt]; try (eexists; split; [reflexivity|exact SAME]).
    - eexists. split; [reflexivity|]. apply FIN; cbn [fst snd]; [|auto]. intros LX. rewrite (SK LX). cbn.
      cbn [sys_step] in E. injection E as <- <-. destruct (bool_decide (cs = map Normal p)) eqn:D; [|by rewrite andb_false_r].
      apply bool_decide_eq_true in D as ->. rewrite path_is_file_plain by done. rewrite LX in I.
      by rewrite (proj1 (lacks_view o)) by apply I.
    - eexists. split; [reflexivity|]. apply FIN; cbn [fst snd]; [done|]. intros _ [L|[L1 L2]%andb_true_iff]%orb_true_iff; [by left|].
      right. apply up_inv in L2 as (q & -> & Q). cbn [sys_step] in E. injection E as <- <-.
      rewrite path_exists_plain in L1 by done. apply lacks_none, (none_below _ q); [done|done|]. by destruct (node_at (view o) q).
    - eexists. split; [reflexivity|]. apply FIN; cbn [fst snd]; [done|]. intros _ [L|[L1 L2]%andb_true_iff]%orb_true_iff; [by left|].
      right. apply up_inv in L2 as (q & -> & Q). apply step_tree in E. cbn [tree_after] in E.
      destruct E as [[_ E]|(r & c & WK & N & E)]; [destruct x as [u| |]; [by destruct (E u)|done..]|].
      apply walk_normal_target in WK as ->. cbn [app] in *. intros j. rewrite E, lookup_delete_Some. intros [D Y].
      assert (node_at (view o) p = Some (File (default [] (o_data o !! j)))) as Z by by apply view_of_tree.
      by rewrite (wf_strict _ q p _ W Z Q) in N.
    - eexists. split; [reflexivity|]. apply FIN; cbn [fst snd]; [done|]. intros _ [L|[L1 L2]%andb_true_iff]%orb_true_iff; [by left|].
      right. apply up_inv in L2 as (q & -> & Q). apply step_tree in E. cbn [tree_after] in E.
      destruct E as [[_ E]|(r & WK & QN & N & EE & E)]; [destruct x as [u| |]; [by destruct (E u)|done..]|].
      apply walk_normal_target in WK as ->. cbn [app] in *. apply lacks_none, (none_below _ q); [done|done|].
      rewrite node_at_ne, view_lookup, E, lookup_delete by done. done.
  Qed.

  (** ** The calls *)

  Definition gany {A} : bool * bool -> A -> Prop := fun _ _ => True.
  Definition gkeeps {A} (st : bool * bool) : bool * bool -> A -> Prop := fun st' _ => st' = st.
  Lemma g_try {A D} (Q : bool * bool -> res D -> Prop) (q : proc (res A)) (f : A -> proc (res D)) st :
    fol gany st q -> (forall st a, fol Q st (f a)) -> (forall st e, Q st (Err e)) -> (forall st, Q st Panic) ->
    fol Q st (ptry q f).
  Proof. intros F N N1 N2. eapply follows_try; [exact F| |done|done]. intros st' a _. apply N. Qed.
  Lemma g_mkdir_all cs n : forall st, fol (gkeeps st) st (p_mkdir_all cs n).
  Proof.
    induction n as [|n IH]; intros st; [done|]. cbn [p_mkdir_all follows gpre gnxt]. split; [done|].
    intros r st' ->.
    assert (forall here e, fol (gkeeps st) st (Call (SIsDir here) (fun d => Ret (if d : bool then Ok tt else e)))) as OR by done.
    destruct r as [[]|e|]; [done| |done]. destruct e; try apply OR. eapply follows_try; [apply IH| |done|done].
    intros st2 [] ->. cbn [follows gpre gnxt]. split; [done|]. intros r st3 ->. by destruct r.
  Qed.
  Lemma g_write_all fuel fd : forall st off b, fol (gkeeps st) st (p_write_all fuel fd off b).
  Proof.
    induction fuel as [|f IH]; intros st off b; [by destruct b|]. destruct b as [|a b]; [done|].
    cbn [p_write_all follows gpre gnxt]. split; [done|]. intros x st' ->. by destruct x as [[|n]|e|].
  Qed.
  Lemma g_drop fd off buf r st : fol (gkeeps st) st (p_drop fd off buf r).
  Proof.
    unfold p_drop. eapply follows_bind; [apply g_write_all|]. intros st' x ->. cbn. split; [done|]. by intros _ st' ->.
  Qed.
  Lemma g_buffered fd r ws : forall st off buf, fol (gkeeps st) st (p_buffered fd off buf ws r).
  Proof.
    induction ws as [|w ws IH]; intros st off buf; cbn [p_buffered]; [apply g_drop|].
    assert (forall off buf, fol (gkeeps st) st
        (if lenZ w >=? BUF_CAP
        then pbind (p_write_all (length w) fd off w) (fun x =>
               let '(off', _, rw) := x in
               match rw with
               | Ok _ => p_buffered fd off' buf ws r
               | e => p_drop fd off' buf e
               end)
        else p_buffered fd off (buf ++ w) ws r)) as PUT.
    { intros off' buf'. destruct (lenZ w >=? BUF_CAP); [|apply IH]. eapply follows_bind; [apply g_write_all|].
      intros st' [[off2 rest] rw] ->. destruct rw; [apply IH|apply g_drop..]. }
    cbv zeta. destruct (lenZ w >? BUF_CAP - lenZ buf); [|apply PUT].
    eapply follows_bind; [apply g_write_all|]. intros st' [[off2 rest] rf] ->. destruct rf; [apply PUT|apply g_drop..].
  Qed.
  Lemma g_read_all fd rs : forall st off acc, fol (gkeeps st) st (p_read_all fd off rs acc).
  Proof.
    induction rs as [|n rs IH]; intros st off acc; cbn [p_read_all follows gpre gnxt]; (split; [done|]); intros x st' ->; [done|].
    case_bool_decide; [done|]. apply IH.
  Qed.

  Context (base : bytes) (PB : plain base).
  Lemma g_exists key st : plain key ->
    fol (fun st' r => r = Ok true -> loc base key = p -> seen st' = true) st (p_exists base key).
  Proof.
    intros PK. unfold p_exists. rewrite key_comps_plain by done. cbn [pres follows gpre gnxt]. split; [done|].
    intros b st' ->. intros [= ->] <-. cbn. by rewrite bool_decide_true, orb_true_r.
  Qed.
  Lemma g_get key rs st : plain key ->
    fol (fun st' _ => seen st = true -> seen st' = true) st (p_get base key rs).
  Proof.
    intros PK. unfold p_get. rewrite key_comps_plain by done. cbn [pres follows gpre gnxt]. split; [done|].
    intros b st' ->.
    assert (seen st = true -> (seen st || b && bool_decide (map Normal (loc base key) = map Normal p)) = true) as S1.
    { by intros ->. }
    destruct b; [|exact S1]. unfold ptry. cbn [pbind follows gpre gnxt]. split; [done|].
    intros r st2 ->. destruct r as [fd|e|]; [|exact S1..]. cbn [follows gpre gnxt]. split; [done|]. intros _ st3 ->.
    eapply follows_bind; [apply g_read_all|]. intros st4 c ->. cbn [follows gpre gnxt]. split; [done|]. intros _ st5 ->. exact S1.
  Qed.
  Lemma g_any_exists key st : plain key -> fol gany st (p_exists base key).
  Proof. intros PK. eapply follows_weaken; [by apply g_exists|done]. Qed.
  Lemma g_any_get key rs st : plain key -> fol gany st (p_get base key rs).
  Proof. intros PK. eapply follows_weaken; [by apply g_get|done]. Qed.
  Lemma g_set key ws r st : plain key -> (loc base key = p -> lax = true /\ seen st = true) ->
    fol gany st (p_set base key ws r).
  Proof.
    intros PK S. unfold p_set. rewrite key_comps_plain by done. cbn [pres].
    eapply (follows_try _ _ (fun st' _ => seen st' = seen st)); [| |done|done].
    { destruct (map Normal (loc base key)); [done|]. cbn [follows gpre gnxt]. split; [done|]. intros b st' ->.
      destruct b; [done|]. eapply follows_weaken; [apply g_mkdir_all|]. by intros st' a ->. }
    intros st1 _ S1. unfold ptry. cbn [pbind follows gpre gnxt]. split; [exists (loc base key); split; [done|by rewrite S1]|].
    intros x st2 ->.
    destruct x as [fd|e|]; [|done|done]. cbn [follows gpre gnxt]. split; [done|]. intros _ st3 ->. split; [done|].
    intros _ st3 ->. eapply follows_weaken; [apply g_buffered|done].
  Qed.
  Lemma g_erase key st : plain key ->
    fol (fun st' r => (lost st = true -> lost st' = true) /\ (is_ok r = true -> loc base key = p -> lost st' = true)) st (p_erase base key).
  Proof.
    intros PK. unfold p_erase. rewrite key_comps_plain by done. cbn [pres follows gpre gnxt]. split; [done|].
    intros b st' ->.
    assert (forall st' : bool * bool, (lost st = true -> lost st' = true) -> (loc base key = p -> lost st' = true) ->
      fol (fun st' r => (lost st = true -> lost st' = true) /\ (is_ok r = true -> loc base key = p -> lost st' = true)) st'
       (Call (SExists (map Normal (loc base key))) (fun b => Ret (Ok (negb b))))) as FI.
    { intros st1 A1 A2. cbn [follows gpre gnxt]. split; [done|]. intros x st2 ->. cbn [fst snd]. split.
      - intros Y. by rewrite A1.
      - intros _ Y. by rewrite A2. }
    destruct b; cbn [negb andb].
    - rewrite orb_false_r. unfold ptry. cbn [pbind follows gpre gnxt]. split; [done|].
      intros x st2 ->. destruct x as [fd|e|]; [|by cbn..]. cbn [follows gpre gnxt]. split; [done|].
      intros _ st3 ->. split; [done|]. intros r st3 ->. split; [done|]. intros _ st4 ->. cbn [fst snd].
      destruct r; cbn [pres is_ok andb].
      + apply FI; cbn [fst snd]; [by intros ->|]. intros Y. rewrite up_intro, orb_true_r; [done|]. by rewrite Y.
      + cbn. split; [by intros ->|done].
      + cbn. split; [by intros ->|done].
    - apply FI; cbn [fst snd]; [by intros ->|]. intros Y. rewrite up_intro, orb_true_r; [done|]. by rewrite Y.
  Qed.
  Lemma g_each {A} (f : A -> proc (res unit)) es :
    (forall e st, fol (fun st' _ => lost st = true -> lost st' = true) st (f e)) ->
    forall st, fol (fun st' _ => lost st = true -> lost st' = true) st (p_each f es).
  Proof.
    intros F. induction es as [|e es IH]; intros st; [by cbn; auto|]. cbn [p_each]. eapply follows_try; [apply F| |done|done].
    intros st1 a L. eapply follows_weaken; [apply IH|]. cbn in *. auto.
  Qed.
  Lemma g_rm_tree ord : forall fuel q dir st,
    fol (fun st' r => (lost st = true -> lost st' = true) /\ (is_ok r = true -> q `prefix_of` p -> lost st' = true)) st
      (p_rm_tree ord fuel (map Normal q) dir).
  Proof.
    intros fuel. induction fuel as [|fuel IH]; intros q dir st; [done|]. cbn [p_rm_tree]. destruct dir.
    - eapply (follows_try _ _ (gkeeps st)); [done| |by intros st' e ->|by intros st' ->]. intros st1 es ->.
      eapply (follows_try _ _ (fun st' _ => lost st = true -> lost st' = true)); [| |done|done].
      + apply g_each. intros e st2. change [Normal e.1] with (map Normal [e.1]). rewrite <- map_app.
        eapply follows_weaken; [apply IH|]. cbn. by intros st3 a [? _].
      + intros st2 _ L. cbn [follows gpre gnxt]. split; [done|]. intros x st3 ->. cbn [fst snd]. split.
        * intros Y. by rewrite L.
        * intros -> Q. by rewrite up_intro, orb_true_r.
    - eapply (follows_try _ _ (gkeeps st)); [done| |by intros st' e ->|by intros st' ->]. intros st1 fd ->.
      cbn [follows gpre gnxt]. split; [done|]. intros _ st2 ->.
      split; [done|]. intros x st2 ->. split; [done|]. intros _ st3 ->. cbn [fst snd]. split.
      + by intros ->.
      + intros -> Q. by rewrite up_intro, orb_true_r.
  Qed.
  Lemma g_erase_prefix ord fuel key st : plain key ->
    fol (fun st' r => (lost st = true -> lost st' = true) /\ (is_ok r = true -> loc base key `prefix_of` p -> lost st' = true)) st
      (p_erase_prefix ord fuel base key).
  Proof.
    intros PK. unfold p_erase_prefix. rewrite key_comps_plain by done. cbn [pres follows gpre gnxt]. split; [done|].
    intros b st' ->.
    assert (forall st' : bool * bool, (lost st = true -> lost st' = true) -> (loc base key `prefix_of` p -> lost st' = true) ->
      fol (fun st' r => (lost st = true -> lost st' = true) /\ (is_ok r = true -> loc base key `prefix_of` p -> lost st' = true)) st'
       (Call (SExists (map Normal (loc base key))) (fun b => Ret (Ok (negb b))))) as FI.
    { intros st1 A1 A2. cbn [follows gpre gnxt]. split; [done|]. intros x st2 ->. cbn [fst snd]. split.
      - intros Y. by rewrite A1.
      - intros _ Y. by rewrite A2. }
    destruct b; cbn [negb andb].
    - rewrite orb_false_r. cbn [follows gpre gnxt]. split; [done|]. intros [dir|] st1 ->; [|done].
      eapply follows_try; [apply g_rm_tree| | |].
      + cbn beta. intros st2 [] [A1 A2]. apply FI; auto.
      + cbn beta. intros st2 e [A1 A2]. auto.
      + cbn beta. intros st2 [A1 A2]. auto.
    - apply FI; cbn [fst snd]; [by intros ->|]. intros Y. by rewrite up_intro, orb_true_r.
  Qed.
  Lemma g_stats cs es : forall st, fol gany st (p_stats cs es).
  Proof.
    induction es as [|e es IH]; intros st; [done|]. cbn [p_stats follows gpre gnxt]. split; [done|]. intros d st' ->.
    eapply follows_bind; [apply IH|]. done.
  Qed.
End Gone.

Section Calls.
  Context (p : fpath) (NE : p <> []) (lax : bool) (C : codec) (h : host) (H : hier) (sl : bytes -> list bytes).
  Context (PB : plain (hy_base H)) (GS : good_suffix (ep_suffix (hy_ep H))).
  Local Notation base := (hy_base H).
  Local Notation fol := (follows (gpre p lax) (gnxt p)).

  (** The call does not write the file. *)
  Definition spares (c : call) : Prop :=
    match c with
    | KCreateArray path _ => loc base (akey H path) <> p
    | KCreateGroup path => loc base (gkey H path) <> p
    | KWriteChunk _ path m ck _ => loc base (get_chunk_key path m (ck_pos ck)) <> p
    | KSetAttributes path _ _ => lax = true \/ (loc base (akey H path) <> p /\ loc base (gkey H path) <> p)
    | _ => True
    end.
  (** It removes the file. *)
  Definition clears (c : call) (a : reply) : Prop :=
    match c with
    | KRemove path _ _ => a = YUnit (Ok tt) /\
        (loc base (gkey H path) = p \/ loc base (akey H path) = p
         \/ (pieces base ++ B "data" :: B "root" :: pieces path) `prefix_of` p)
    | KDeleteChunk path m pos => (exists b, a = YBool (Ok b)) /\ loc base (get_chunk_key path m pos) = p
    | _ => False
    end.
  Definition gfin (c : call) (st : bool * bool) (a : reply) : Prop := clears c a -> snd st = true.
  Lemma g_reply {A} c (f : A -> reply) q st : (forall a, ~ clears c (f a)) -> fol gany st q -> fol (gfin c) st (map_reply f q).
  Proof. intros N F. eapply follows_bind; [exact F|]. intros st' a _ X. by apply N in X. Qed.
  Lemma g_node_key path st : plain path ->
    fol (fun st' r => forall k, r = Ok k -> (k = akey H path \/ k = gkey H path) /\ (loc base k = p -> fst st' = true))
      st (p_node_key H path).
  Proof.
    intros P. unfold p_node_key. eapply follows_try; [apply g_exists; first [done|apply h_key; [done|by left|done]]| |done|done].
    intros st1 a X. destruct a; [cbn; intros k [= <-]; auto|].
    eapply follows_try; [apply g_exists; first [done|apply h_key; [done|by right|done]]| |done|done].
    intros st2 a Y. destruct a; [cbn; intros k [= <-]; auto|done].
  Qed.

  Lemma g_call c st : call_ok c -> spares c -> fol (gfin c) st (p_call C h H sl c).
  Proof.
    intros K R. assert (is_node_ext AX) as IA by by left. assert (is_node_ext GX) as IG by by right.
    assert (forall path k, plain path -> k = akey H path \/ k = gkey H path -> plain k) as PK.
    { intros path k P [->| ->]; [by apply (h_key H GS AX)|by apply (h_key H GS GX)]. }
    destruct c; cbn [call_ok] in K; cbn [p_call]; cbn [spares] in R.
    - apply g_reply; [by intros a []|]. apply g_try; [apply g_any_get; first [done|by apply h_key]|done..].
    - apply g_reply; [by intros a []|]. eapply follows_try; [by apply g_node_key| |done|done].
      intros st1 k X. apply g_try; [|done..]. apply g_any_get; first [done|eapply PK; [done|by apply X]].
    - apply g_reply; [by intros a []|]. eapply follows_try; [by apply g_node_key| |done|done].
      intros st1 k X. destruct (X k eq_refl) as [X1 X2]. assert (plain k) as PK' by by eapply PK.
      eapply follows_try; [by apply g_get| |done|done].
      intros st2 x S. destruct (of_option NotFound x) as [text| |]; cbn [pres]; [|done..].
      destruct (from_text as_map text) as [d| |]; cbn [pres]; [|done..]. cbv zeta.
      destruct (json_eqb (JObj (merge_doc d attrs)) (JObj d)); [done|]. apply g_set; [done|done|].
      intros E. destruct R as [R|[R1 R2]]; [auto|]. destruct X1 as [->| ->]; [by apply R1 in E|by apply R2 in E].
    - apply g_reply; [by intros a []|]. unfold p_create_group.
      apply g_try; [apply g_any_exists; first [done|by apply h_key]| |done|done].
      intros st1 [|]; [done|]. apply g_try; [apply g_any_exists; first [done|by apply h_key]| |done|done].
      intros st2 [|]; [done|]. apply g_set; first [done|by apply h_key].
    - apply g_reply; [by intros a []|]. unfold p_create_array.
      apply g_try; [apply g_any_exists; first [done|by apply h_key]| |done|done].
      intros st1 [|]; [done|]. apply g_try; [apply g_any_exists; first [done|by apply h_key]| |done|done].
      intros st2 [|]; [done|]. apply g_set; first [done|by apply h_key].
    - destruct K as (K1 & K2 & K3). apply g_reply; [by intros a []|]. unfold p_read_chunk.
      destruct (in_bounds _ _ _ ≫= _) as [x| |]; cbn [pres]; [|done..].
      apply g_try; [|done..]. apply g_any_get; first [done|apply plain_chunk_key; [done|apply K2|done]].
    - destruct K as (K1 & K2 & K3). apply g_reply; [by intros a []|]. unfold p_write_chunk.
      apply g_set; first [done|apply plain_chunk_key; [done|apply K2|done]].
    - destruct K as (K1 & K2 & K3). unfold map_reply.
      eapply follows_bind; [apply g_erase; first [done|apply plain_chunk_key; [done|apply K2|done]]|].
      intros st' a [_ X]. cbn. intros [[b E] Y]. injection E as ->. by apply X.
    - destruct K as (K1 & K2). unfold map_reply.
      eapply (follows_bind _ _ (fun st' r => r = Ok tt -> clears (KRemove path ord fuel) (YUnit (Ok tt)) -> snd st' = true)).
      2:{ intros st' a X. cbn. intros [E Y]. injection E as ->. by apply X. }
      unfold p_remove.
      eapply follows_try; [apply g_erase; first [done|by apply (h_key H GS GX)]| |done|done]. intros st1 b1 [X1 X2].
      eapply follows_try; [apply g_erase; first [done|by apply (h_key H GS AX)]| |done|done]. intros st2 b2 [Y1 Y2].
      eapply follows_try; [apply g_erase_prefix; [done|by apply data_key_plain]| |done|done]. intros st3 b3 [Z1 Z2].
      rewrite data_key_loc in Z2 by done. cbn. intros _ [_ [E|[E|E]]]; auto.
    - apply g_reply; [by intros a []|]. unfold p_list_nodes. apply g_try; [|done..]. unfold p_list_dir.
      destruct (key_comps _ _) as [cs| |]; cbn [pres]; [|done..]. apply g_try; [done| |done|done]. intros st1 es.
      eapply follows_bind; [apply g_stats|done].
  Qed.
End Calls.

Section Results.
  Context (C : codec) (h : host) (H : hier) (sl : bytes -> list bytes).
  Context (PB : plain (hy_base H)) (GS : good_suffix (ep_suffix (hy_ep H))).
  Local Notation base := (hy_base H).
  Context (o : os) (W : wf_fs (view o)) (calls : list call) (OK : forall c, c ∈ calls -> call_ok c).
  Context (o' : os) (ps : list (proc reply)) (X : executes C h H sl o calls o' ps).

  Lemma execute_gone p lax : p <> [] -> (forall c, c ∈ calls -> spares p lax H c) -> (lax = true -> lacks p o) ->
    wf_fs (view o') /\
    (lax = true -> file_at (view o') p = None) /\
    (lax = false -> forall i c a, calls !! i = Some c -> returned ps i a -> clears p H c a -> file_at (view o') p = None).
  Proof.
    intros NE SP L.
    destruct (csteps_protocol (gpre p lax) (gnxt p) (ginv p lax) (fun i st a => forall c, calls !! i = Some c -> gfin p H c st a)
      ltac:(intros; by eapply gone_step) _ _ X (fun _ => (false, false))) as (sts & [W' I] & F).
    - split; [done|]. destruct lax; [split; [by apply L|done]|done].
    - cbn [snd]. intros i q E. rewrite list_lookup_fmap in E.
      destruct (calls !! i) as [c|] eqn:EC; [|done]. injection E as <-.
      apply elem_of_list_lookup_2 in EC. eapply follows_weaken; [apply g_call; first [done|by apply OK|by apply SP]|].
      intros st a Y c' [= <-]. done.
    - cbn [fst snd] in *. split; [done|]. split.
      + intros ->. apply lacks_view; [done|]. apply I.
      + intros -> i c a E R CL. apply lacks_view; [done|]. apply (I i). exact (F i _ R c E CL).
  Qed.

  (** *** Nodes *)

  Context (path : bytes) (PP : plain path).
  Lemma nloc_ne e : is_node_ext e -> nloc H e path <> [].
  Proof. intros E. destruct (nloc_meta H GS e path E) as [r ->]. intros Y. by apply app_eq_nil in Y as [_ Y]. Qed.
  Lemma nloc_pieces' e path' : is_node_ext e -> pieces path' = pieces path -> nloc H e path' = nloc H e path.
  Proof. intros E Y. unfold nloc, loc. rewrite !pieces_node_key by (done || apply GS). by rewrite Y. Qed.
  Lemma node_spared e lax : is_node_ext e -> (forall c, c ∈ calls -> ~ creates_node c path) ->
    (lax = false -> forall c, c ∈ calls -> ~ sets_attributes c path) ->
    forall c, c ∈ calls -> spares (nloc H e path) lax H c.
  Proof.
    intros E NC NS c I. pose proof (OK c I) as K.
    assert (forall e' path', is_node_ext e' -> plain path' -> pieces path' <> pieces path ->
      loc base (metadata_key e' (ep_suffix (hy_ep H)) path') <> nloc H e path) as NN.
    { intros e' path' E' P' N Y. apply N. by apply loc_node_inj in Y as [Y _]; first [done|apply GS]. }
    destruct c; cbn [spares]; try done.
    - destruct lax; [by left|right]. split; apply NN; first [by left|by right|done|intros Y; by apply (NS eq_refl _ I)].
    - apply NN; [by right|done|]. intros Y. by apply (NC _ I).
    - apply NN; [by left|done|]. intros Y. by apply (NC _ I).
    - intros Y. symmetry in Y. revert Y. apply loc_node_chunk; [done|apply GS].
  Qed.

  (** There is no node. *)
  Definition no_node (s : fs) : Prop := ~ explicit_array H s path /\ ~ explicit_group H s path.
  Lemma no_node_files s : wf_fs s -> no_node s <-> file_at s (nloc H AX path) = None /\ file_at s (nloc H GX path) = None.
  Proof.
    intros W1. unfold no_node. rewrite (explicit_a H PB GS s path W1 PP), (explicit_g H PB GS s path W1 PP).
    destruct (file_at s (nloc H AX path)), (file_at s (nloc H GX path)); naive_solver.
  Qed.
  Lemma no_node_answers o1 : wf_fs (view o1) -> no_node (view o1) ->
    (forall rs, answers o1 (p_get_array_metadata H path rs) (Err NotFound))
    /\ (forall rs, answers o1 (p_list_attributes H path rs) (Err NotFound)).
  Proof.
    intros W1 [N1 N2]%no_node_files; [|done].
    assert (forall e, is_node_ext e -> key_comps base (metadata_key e (ep_suffix (hy_ep H)) path) = Ok (map Normal (nloc H e path))) as KC.
    { intros e E. apply key_comps_plain; [done|by apply nloc_plain]. }
    split; intros rs; exists o1.
    - unfold p_get_array_metadata, p_get. change (akey H path) with (metadata_key AX (ep_suffix (hy_ep H)) path).
      rewrite KC by by left. cbn [pres]. rewrite run_try. cbn [run sys_step].
      rewrite path_is_file_plain, N1 by done. done.
    - unfold p_list_attributes, p_node_key, p_exists.
      change (akey H path) with (metadata_key AX (ep_suffix (hy_ep H)) path).
      change (gkey H path) with (metadata_key GX (ep_suffix (hy_ep H)) path).
      rewrite KC by by left. rewrite KC by by right. cbn [pres].
      rewrite run_try, run_try. cbn [run sys_step]. rewrite path_is_file_plain, N1 by done.
      rewrite run_try. cbn [run sys_step]. rewrite path_is_file_plain, N2 by done. done.
  Qed.

  Theorem removed_node i path' ord fuel : calls !! i = Some (KRemove path' ord fuel) -> pieces path' = pieces path ->
    returned ps i (YUnit (Ok tt)) ->
    (forall c, c ∈ calls -> ~ creates_node c path /\ ~ sets_attributes c path) -> no_node (view o').
  Proof.
    intros E EP R N.
    assert (forall e, is_node_ext e -> wf_fs (view o') /\ file_at (view o') (nloc H e path) = None) as Y.
    { intros e IE. destruct (execute_gone (nloc H e path) false) as (W' & _ & Y).
      - by apply nloc_ne.
      - apply node_spared; [done|..]; intros; by apply N.
      - done.
      - split; [done|]. eapply Y; [done|exact E|exact R|]. cbn [clears]. split; [done|].
        destruct IE as [->| ->]; [right; left|left].
        + apply nloc_pieces'; [by left|done].
        + apply nloc_pieces'; [by right|done]. }
    apply no_node_files; [by apply (Y AX); left|]. split; apply Y; [by left|by right].
  Qed.
  Theorem absent_node : no_node (view o) -> (forall c, c ∈ calls -> ~ creates_node c path) -> no_node (view o').
  Proof.
    intros NN N.
    assert (forall e, is_node_ext e -> wf_fs (view o') /\ file_at (view o') (nloc H e path) = None) as Y.
    { intros e IE. destruct (execute_gone (nloc H e path) true) as (W' & Y & _).
      - by apply nloc_ne.
      - by apply node_spared.
      - intros _. apply lacks_view; [by apply nloc_ne|]. apply no_node_files in NN as [N1 N2]; [|done].
        by destruct IE as [->| ->].
      - split; [done|by apply Y]. }
    apply no_node_files; [by apply (Y AX); left|]. split; apply Y; [by left|by right].
  Qed.

  (** *** Chunks *)

  Context (m : array_meta) (pos : list Z) (SP : good_sep (am_sep m)) (Q : pos_ok pos).
  Local Notation P := (loc base (get_chunk_key path m pos)).
  Lemma chunk_spared lax : (forall c, c ∈ calls -> ~ writes_chunk c path pos) ->
    forall c, c ∈ calls -> spares P lax H c.
  Proof.
    intros N c I. pose proof (OK c I) as K.
    destruct c; cbn [spares]; try done.
    - right. split; apply loc_node_chunk; first [by left|by right|apply GS].
    - apply loc_node_chunk; [by right|apply GS].
    - apply loc_node_chunk; [by left|apply GS].
    - cbn in K. destruct K as (K1 & K2 & K3). intros Y. apply (N _ I). cbn. by apply loc_chunk_inj in Y.
  Qed.
  Lemma no_chunk_answers o1 t : wf_fs (view o1) -> file_at (view o1) P = None -> in_bounds (h_prof h) m pos = Ok true ->
    forall rs, answers o1 (p_read_chunk H C h t path m pos rs) (Ok None).
  Proof.
    intros W1 N IB rs. exists o1. unfold p_read_chunk. rewrite IB. cbn [pres]. unfold p_get.
    rewrite key_comps_plain by first [done|apply plain_chunk_key; [done|apply SP|done]]. cbn [pres].
    rewrite bind_ok. cbn [assert_ pres]. rewrite run_try. cbn [run sys_step].
    rewrite path_is_file_plain, N by done. done.
  Qed.
  Lemma chunk_absent o1 t rs : wf_fs (view o1) -> answers o1 (p_read_chunk H C h t path m pos rs) (Ok None) ->
    file_at (view o1) P = None /\ in_bounds (h_prof h) m pos = Ok true.
  Proof.
    intros W1 [o2 R]. unfold p_read_chunk in R.
    destruct (in_bounds (h_prof h) m pos) as [b| |]; [|done..]. rewrite bind_ok in R. destruct b; [|done].
    split; [|done]. cbn [assert_ pres] in R. unfold p_get in R.
    rewrite key_comps_plain in R by first [done|apply plain_chunk_key; [done|apply SP|done]]. cbn [pres] in R.
    rewrite run_try in R. cbn [run sys_step] in R. rewrite path_is_file_plain in R by done.
    destruct (file_at (view o1) P); [|done]. rewrite run_try in R. cbn [run] in R.
    destruct (sys_step (SOpenR _ _) _) as [[o3 [fd| |]]|]; cbn [run] in R; [|done..].
    destruct (sys_step (SLock _ _) _) as [[o4 []]|]; [|done]. rewrite run_bind in R.
    destruct (run o4 _) as [[o5 c]|]; [|done]. cbn [run sys_step] in R. by destruct (decode_chunk _ _ _ _ _ _).
  Qed.

  Theorem cleared_chunk i c a : calls !! i = Some c -> returned ps i a -> clears P H c a ->
    (forall c, c ∈ calls -> ~ writes_chunk c path pos) -> in_bounds (h_prof h) m pos = Ok true ->
    forall t rs, answers o' (p_read_chunk H C h t path m pos rs) (Ok None).
  Proof.
    intros E R CL N IB t rs. destruct (execute_gone P false) as (W' & _ & Y).
    - apply P_ne.
    - by apply chunk_spared.
    - done.
    - apply no_chunk_answers; [done|by eapply Y|done].
  Qed.
  Theorem absent_chunk t0 rs0 : answers o (p_read_chunk H C h t0 path m pos rs0) (Ok None) ->
    (forall c, c ∈ calls -> ~ writes_chunk c path pos) ->
    forall t rs, answers o' (p_read_chunk H C h t path m pos rs) (Ok None).
  Proof.
    intros A N t rs. apply chunk_absent in A as [A IB]; [|done]. destruct (execute_gone P true) as (W' & Y & _).
    - apply P_ne.
    - by apply chunk_spared.
    - intros _. apply lacks_view; [apply P_ne|done].
    - apply no_chunk_answers; [done|by apply Y|done].
  Qed.
  Theorem removed_chunk i path' ord fuel : calls !! i = Some (KRemove path' ord fuel) -> pieces path' `prefix_of` pieces path ->
    returned ps i (YUnit (Ok tt)) ->
    (forall c, c ∈ calls -> ~ writes_chunk c path pos) -> in_bounds (h_prof h) m pos = Ok true ->
    forall t rs, answers o' (p_read_chunk H C h t path m pos rs) (Ok None).
  Proof.
    intros E EP R. eapply cleared_chunk; [exact E|exact R|]. cbn [clears]. split; [done|]. right. right.
    rewrite loc_chunk. destruct EP as [k ->]. apply prefix_app. cbn [app]. do 2 apply prefix_cons.
    rewrite <- app_assoc. by eexists.
  Qed.
  Theorem deleted_chunk i path' m' b : calls !! i = Some (KDeleteChunk path' m' pos) -> pieces path' = pieces path ->
    am_sep m' = am_sep m -> returned ps i (YBool (Ok b)) ->
    (forall c, c ∈ calls -> ~ writes_chunk c path pos) -> in_bounds (h_prof h) m pos = Ok true ->
    forall t rs, answers o' (p_read_chunk H C h t path m pos rs) (Ok None).
  Proof.
    intros E EP ES R. eapply cleared_chunk; [exact E|exact R|]. cbn [clears]. split; [by eexists|].
    rewrite (loc_chunk_pieces base path path' m' pos EP). unfold get_chunk_key. by rewrite ES.
  Qed.
End Results.

Theorem removed_node_result C h H sl : plain (hy_base H) -> good_suffix (ep_suffix (hy_ep H)) ->
  forall o, wf_fs (view o) -> forall calls, (forall c, c ∈ calls -> call_ok c) ->
  forall o' ps, executes C h H sl o calls o' ps ->
  forall path, plain path ->
  forall i path' ord fuel, calls !! i = Some (KRemove path' ord fuel) -> pieces path' = pieces path ->
  returned ps i (YUnit (Ok tt)) ->
  (forall c, c ∈ calls -> ~ creates_node c path /\ ~ sets_attributes c path) ->
  ~ explicit_array H (view o') path /\ ~ explicit_group H (view o') path
  /\ (forall rs, answers o' (p_get_array_metadata H path rs) (Err NotFound))
  /\ (forall rs, answers o' (p_list_attributes H path rs) (Err NotFound)).
Proof.
  intros PB GS o W calls OK o' ps X path PP i path' ord fuel E EP R N.
  assert (wf_fs (view o')) as W' by by eapply execute_wf.
  assert (no_node H path (view o')) as NN.
  { eapply (removed_node C h H sl PB GS o W calls OK o' ps X path PP); done. }
  destruct (no_node_answers H PB GS path PP o' W' NN) as [A1 A2]. destruct NN as [N1 N2]. done.
Qed.
Theorem absent_node_result C h H sl : plain (hy_base H) -> good_suffix (ep_suffix (hy_ep H)) ->
  forall o, wf_fs (view o) -> forall calls, (forall c, c ∈ calls -> call_ok c) ->
  forall o' ps, executes C h H sl o calls o' ps ->
  forall path, plain path ->
  ~ explicit_array H (view o) path -> ~ explicit_group H (view o) path ->
  (forall c, c ∈ calls -> ~ creates_node c path) ->
  ~ explicit_array H (view o') path /\ ~ explicit_group H (view o') path
  /\ (forall rs, answers o' (p_get_array_metadata H path rs) (Err NotFound))
  /\ (forall rs, answers o' (p_list_attributes H path rs) (Err NotFound)).
Proof.
  intros PB GS o W calls OK o' ps X path PP N1 N2 N.
  assert (wf_fs (view o')) as W' by by eapply execute_wf.
  assert (no_node H path (view o')) as NN.
  { by eapply (absent_node C h H sl PB GS o W calls OK o' ps X path PP). }
  destruct (no_node_answers H PB GS path PP o' W' NN) as [A1 A2]. destruct NN as [N3 N4]. done.
Qed.
