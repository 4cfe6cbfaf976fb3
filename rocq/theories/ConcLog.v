(** The history of one file that is there all the time, under any
    interleaving: who saw which content, who put which content. *)
From Verif Require Import BaseFacts PathFacts KeyFacts FSFacts Spec SpecMeta.
From Verif Require Import Sys SpecConc SysFacts SysOps CrashFacts CrashOps ConcFacts ConcOps ConcLin.
Local Open Scope Z_scope.

Inductive event := Saw (c : bytes) | Put (c : bytes).

Section Log.
  Context (p : fpath) (NE : p <> []) (gone : fpath -> Prop).
  Local Notation pre0 V := (pre p V True gone).
  Local Notation nxt0 V := (nxt p V True gone).
  Local Notation inv0 V := (inv p V True gone).
  Local Notation fol V := (follows (pre0 V) (nxt0 V)).
  Local Notation nfol := (follows (npre p) (nnxt p)).

  (** ** Sessions that keep a record *)

  (** A reader sees the content when it gets the lock, a writer puts it when it
      closes the file. *)
  Definition ev {T} (c : sys T) (st st' : sess) : list event :=
    match c with
    | SLock _ _ => match st, st' with Open false true _, Hold _ _ x => [Saw x] | _, _ => [] end
    | SClose _ => match st with Hold Dirty _ x => [Put x] | _ => [] end
    | _ => []
    end.
  (** [ok tr e]: a process whose record so far is [tr] may add [e]. *)
  Definition lpre (ok : list event -> event -> Prop) (T : Type) (s : sess * list event) (c : sys T) : Prop :=
    pre0 top T (fst s) c /\
    match c, fst s with
    | SLock _ _, Open false true _ => forall x, ok (snd s) (Saw x)
    | SClose _, Open true true _ => False
    | SClose _, Hold Dirty _ x => ok (snd s) (Put x)
    | _, _ => True
    end.
  Definition lnxt (T : Type) (s : sess * list event) (c : sys T) (x : T) (s' : sess * list event) : Prop :=
    nxt0 top T (fst s) c x (fst s') /\ snd s' = snd s ++ ev c (fst s) (fst s').
  Local Notation lfol ok := (follows (lpre ok) lnxt).

  Lemma pre_top V T st (c : sys T) : pre0 V T st c -> pre0 top T st c.
  Proof. by apply pre_any. Qed.
  Lemma nxt_top V T st (c : sys T) x st' : nxt0 V T st c x st' -> nxt0 top T st c x st'.
  Proof. by apply nxt_any. Qed.

  (** *** Processes that do not write the file *)
  Definition only_saw (es : list event) : Prop := Forall (fun e => exists c, e = Saw c) es.
  Definition saw_ok (_ : list event) (e : event) : Prop := exists c, e = Saw c.
  Lemma lift_n {A} (Fin : sess -> A -> Prop) (q : proc A) : forall a st tr,
    nlink a st -> nfol any a q -> fol top Fin st q ->
    lfol saw_ok (fun s x => Fin (fst s) x /\ exists es, snd s = tr ++ es /\ only_saw es) (st, tr) q.
  Proof.
    induction q as [x|T c k IH]; intros a st tr L N F; cbn [follows] in *.
    - split; [done|]. exists []. rewrite app_nil_r. split; [done|constructor].
    - destruct N as [N1 N2], F as [F1 F2]. split.
      + split; [done|]. destruct c; try done; cbn.
        * destruct st as [|[] [] ?|]; try done. intros y. by exists y.
        * by destruct st as [|[] [] ?|[] ? ?], L.
      + intros x [st' tr'] [X1 X2]. cbn [fst snd] in *.
        destruct (nlink_step p gone top a st T c x st' L N1 F1 X1) as (a' & L' & Na).
        specialize (IH x a' st' tr' L' (N2 _ _ Na) (F2 _ _ X1)).
        eapply follows_weaken; [exact IH|]. intros s y (Y1 & es & Y2 & Y3). split; [done|].
        exists (ev c st st' ++ es). rewrite Y2, X2, app_assoc. split; [done|]. apply list.Forall_app. split; [|done].
        destruct c; cbn [ev]; try exact (list.Forall_nil_2 _).
        * destruct st as [|[] [] ?|]; try exact (list.Forall_nil_2 _). destruct st'; try exact (list.Forall_nil_2 _).
          apply list.Forall_singleton. by eexists.
        * destruct st as [| |[] ? ?]; try exact (list.Forall_nil_2 _). by destruct L.
  Qed.

  (** *** What follows the lock *)
  Fixpoint noopen {A} (q : proc A) : Prop :=
    match q with
    | Ret _ => True
    | Call c k => match c with SLock _ _ | SOpenR _ _ | SOpenW _ => False | _ => True end /\ forall x, noopen (k x)
    end.
  Lemma no_bind {A B} (f : A -> proc B) q : noopen q -> (forall a, noopen (f a)) -> noopen (pbind q f).
  Proof. induction q as [a|T c k IH]; cbn; [auto|]. intros [N1 N2] F. split; [done|]. auto. Qed.
  Lemma no_read_all fd rs : forall off acc, noopen (p_read_all fd off rs acc).
  Proof.
    induction rs as [|n rs IH]; intros off acc; cbn [p_read_all noopen]; (split; [done|]); [done|].
    intros x. case_bool_decide; [done|apply IH].
  Qed.
  Lemma no_write_all fuel fd : forall off b, noopen (p_write_all fuel fd off b).
  Proof.
    induction fuel as [|f IH]; intros off b; destruct b; try exact I. cbn [p_write_all noopen].
    split; [done|]. intros [[|n]|e|]; try exact I. apply IH.
  Qed.
  Lemma no_drop fd off buf r : noopen (p_drop fd off buf r).
  Proof. apply no_bind; [apply no_write_all|]. intros x. cbn. done. Qed.
  Lemma no_buffered fd r ws : forall off buf, noopen (p_buffered fd off buf ws r).
  Proof.
    induction ws as [|w ws IH]; intros off buf; cbn [p_buffered]; [apply no_drop|].
    assert (forall off buf, noopen
        (if lenZ w >=? BUF_CAP
        then pbind (p_write_all (length w) fd off w) (fun x =>
               let '(off', _, rw) := x in
               match rw with
               | Ok _ => p_buffered fd off' buf ws r
               | e => p_drop fd off' buf e
               end)
        else p_buffered fd off (buf ++ w) ws r)) as PUT.
    { clear off buf. intros off buf. destruct (lenZ w >=? BUF_CAP); [|apply IH].
      apply no_bind; [apply no_write_all|]. intros [[? ?] []]; [apply IH|apply no_drop..]. }
    destruct (lenZ w >? BUF_CAP - lenZ buf); [|apply PUT].
    apply no_bind; [apply no_write_all|]. intros [[? ?] []]; [apply PUT|apply no_drop..].
  Qed.
  Lemma lift_w {A} (ok : list event -> event -> Prop) (R : A -> Prop) w t0 (q : proc A) : ok t0 (Put w) -> noopen q -> forall st tr,
    (st = Free /\ tr = t0 ++ [Put w] \/ exists fd c, st = Hold Dirty fd c /\ tr = t0) ->
    fol (eq w) (fun st a => st = Free /\ R a) st q ->
    lfol ok (fun s a => s = (Free, t0 ++ [Put w]) /\ R a) (st, tr) q.
  Proof.
    intros OP. induction q as [x|T c k IH]; intros NO st tr S F; cbn [follows noopen] in *.
    - destruct F as [-> F]. destruct S as [[_ ->]|(? & ? & ? & _)]; done.
    - destruct NO as [NO1 NO2], F as [F1 F2]. split.
      + split; [by eapply pre_top|]. destruct c; try done; cbn; destruct S as [[-> _]|(fd1 & c1 & -> & ->)]; try done.
        destruct F1 as [(? & ? & ? & _)|(d & c2 & E & V)]; [done|]. injection E as <- _ <-. by rewrite <- V.
      + intros x [st' tr'] [X1 X2]. cbn [fst snd] in X1, X2.
        assert (nxt0 (eq w) T st c x st') as N. { destruct c; done. }
        apply IH; [done| |by apply F2]. rewrite X2. clear X2 IH F2.
        destruct S as [[-> ->]|(fd & c1 & -> & ->)].
        * left. destruct c; cbn [pre nxt ev] in *; rewrite ?app_nil_r; try done;
            try (by destruct N as [-> _]); try (by subst st'); try (by destruct F1 as [[? ?]|(? & ? & ? & _)]).
        * destruct c; cbn [pre nxt ev] in *; rewrite ?app_nil_r; try done;
            try (right; eexists _, _; by destruct N as [-> _]); try (right; eexists _, _; by subst st').
          -- destruct N as [(? & ? & _)|(d & c2 & _ & ->)]; [done|]. right. by eexists _, _.
          -- destruct N as (n & _ & _ & _ & [(? & ? & _)|(d & c2 & _ & ->)]); [done|]. right. by eexists _, _.
          -- destruct F1 as [(? & ? & ? & _)|(d & c2 & E & V)]; [done|]. injection E as <- _ <-. left. split; [done|].
             by rewrite V.
  Qed.

  (** *** Accesses through the store *)
  Lemma l_exists (ok : list event -> event -> Prop) base key tr : plain base -> plain key ->
    lfol ok (fun s r => s = (Free, tr) /\ exists b, r = Ok b /\ (loc base key = p -> b = true) /\ (gone (loc base key) -> b = false))
      (Free, tr) (p_exists base key).
  Proof.
    intros PB PK. unfold p_exists. rewrite key_comps_plain by done. cbn [pres follows]. split; [by split|].
    intros b [st' tr'] [(E1 & E2 & E3) E]. cbn [fst snd ev] in *. subst st' tr'. rewrite app_nil_r. split; [done|].
    exists b. split_and!; [done| |].
    - intros Q. apply E2; [done|]. by rewrite Q.
    - intros G. by apply (E3 (loc base key)).
  Qed.
  Lemma l_read_all (ok : list event -> event -> Prop) fd d c tr rs : forall off acc,
    lfol ok (fun s x => s = (Hold d fd c, tr) /\ x = acc ++ drop off c) (Hold d fd c, tr) (p_read_all fd off rs acc).
  Proof.
    intros off acc.
    assert (forall (q : proc bytes) st, noopen q ->
      (fix noclose (q : proc bytes) : Prop := match q with Ret _ => True
         | Call c k => match c with SClose _ => False | _ => True end /\ forall x, noclose (k x) end) q ->
      fol top (fun st' x => st' = Hold d fd c /\ x = acc ++ drop off c) st q ->
      lfol ok (fun s x => s = (Hold d fd c, tr) /\ x = acc ++ drop off c) (st, tr) q) as L.
    { induction q as [x|T s k IH]; intros st N1 N2 F; cbn [follows noopen] in *.
      - destruct F as [-> ->]. done.
      - destruct N1 as [N1 N1'], N2 as [N2 N2'], F as [F1 F2]. split; [split; [done|by destruct s]|].
        intros x [st' tr'] [X1 X2]. cbn [fst snd] in *. assert (tr' = tr) as ->.
        { rewrite X2. destruct s; try done; apply app_nil_r. }
        apply IH; [apply N1'|apply N2'|by apply F2]. }
    apply L; [apply no_read_all| |apply fol_read_all]. clear. revert off acc.
    induction rs as [|n rs IH]; intros off acc; cbn [p_read_all]; (split; [done|]); [done|].
    intros x. case_bool_decide; [done|apply IH].
  Qed.
  Lemma l_get (ok : list event -> event -> Prop) base key rs tr : (forall c, ok tr (Saw c)) -> plain base -> plain key -> loc base key = p ->
    lfol ok (fun s r => exists c, s = (Free, tr ++ [Saw c]) /\ r = Ok (Some c)) (Free, tr) (p_get base key rs).
  Proof.
    intros OS PB PK Q. unfold p_get. rewrite key_comps_plain, Q by done. cbn [pres follows]. split; [by split|].
    intros b [st' tr'] [(E1 & E2 & _) E]. cbn [fst snd ev] in *. subst st' tr'. rewrite app_nil_r.
    rewrite (E2 I eq_refl). clear E2. unfold ptry. cbn [pbind follows]. split; [split; [split; [done|by exists p]|done]|].
    intros r [st' tr'] [X E]. cbn [fst snd ev nxt] in *. subst tr'. rewrite app_nil_r.
    destruct r as [fd|e|]; [|by destruct X as [_ []]|done].
    destruct X as (m & -> & _ & X2). rewrite (X2 eq_refl ltac:(by left)). cbn [follows].
    split; [split; [by eexists _, _|done]|].
    intros [] [st' tr'] [X E]. cbn [fst snd ev nxt] in *. destruct X as [(w & ? & _)|(w & c & Ew & _ & ->)]; [done|].
    injection Ew as <-. subst tr'. cbn [ev]. eapply follows_bind; [apply l_read_all|].
    intros s x [-> ->]. cbn [follows]. split; [split; [right; by eexists _, _|done]|].
    intros [] [st' tr'] [X E]. cbn [fst snd ev nxt] in *. subst st' tr'. exists c. rewrite app_nil_r. by rewrite drop_0.
  Qed.
  Lemma l_set (ok : list event -> event -> Prop) base key ws r tr : ok tr (Put (concat ws)) -> plain base -> plain key -> loc base key = p -> ~ gone p ->
    lfol ok (fun s x => s = (Free, tr ++ [Put (concat ws)]) /\ x = r) (Free, tr) (p_set base key ws r).
  Proof.
    intros OP PB PK Q NG. unfold p_set. rewrite key_comps_plain, Q by done. cbn [pres].
    eapply follows_try with (P := fun s x => s = (Free, tr) /\ x = Ok tt); [| |naive_solver|naive_solver].
    { destruct (map Normal p) eqn:E; [done|]. rewrite <- E. cbn [follows]. split; [by split|].
      intros b [st' tr'] [[E1 SE] E']. cbn [fst snd ev] in *. subst st' tr'. rewrite parent_comps_map in SE.
      rewrite (SE I _ eq_refl), app_nil_r. done. }
    intros st [] [-> _]. unfold ptry. cbn [pbind follows]. split; [split; [split; [done|by exists p]|done]|].
    intros x [st' tr'] [X E]. cbn [fst snd ev nxt] in *. subst tr'. rewrite app_nil_r.
    destruct x as [fd|e|]; [|by destruct X as [_ []]|done]. rewrite bool_decide_true in X by done. subst st'.
    cbn [follows]. split; [split; [by eexists _, _|done]|].
    intros [] [st' tr'] [X E]. cbn [fst snd ev nxt] in *. destruct X as [(w & ? & _)|(w & c & Ew & _ & ->)]; [done|].
    injection Ew as <-. subst tr'. cbn [ev]. rewrite app_nil_r.
    split; [split; [right; by eexists _, _|done]|].
    intros [] [st' tr'] [X E]. cbn [fst snd ev nxt] in *. destruct X as [(? & ? & _)|(d & c' & _ & ->)]; [done|].
    subst tr'. rewrite app_nil_r.
    apply lift_w; [done|apply no_buffered|right; by eexists _, _|]. by apply (fol_buffered p (eq (concat ws)) True gone fd r ws [] []).
  Qed.

  (** ** All processes *)
  Context {A : Type} (ok : nat -> list event -> event -> Prop) (fin : nat -> sess * list event -> A -> Prop) (c0 : bytes).
  Definition val (log : list (nat * event)) : bytes :=
    foldl (fun v e => match snd e with Put w => w | Saw _ => v end) c0 log.
  Definition own (i : nat) (log : list (nat * event)) : list event := map snd (filter (fun e => fst e = i) log).
  Definition right_log (log : list (nat * event)) : Prop :=
    forall l1 i e l2, log = l1 ++ (i, e) :: l2 -> ok i (own i l1) e /\ forall c, e = Saw c -> c = val l1.
  Definition ginv (o : os) (ps : list (proc A)) (log : list (nat * event)) : Prop :=
    exists sts j, at_inode p o sts j /\ inv0 (eq (val log)) o sts (eq j) /\ right_log log /\
      forall i, match ps !! i with Some q => lfol (ok i) (fin i) (sts i, own i log) q | None => sts i = Free end.

  Lemma val_app l1 l2 : val (l1 ++ l2) = foldl (fun v e => match snd e with Put w => w | Saw _ => v end) (val l1) l2.
  Proof. apply foldl_app. Qed.
  Lemma own_app i l1 l2 : own i (l1 ++ l2) = own i l1 ++ own i l2.
  Proof. unfold own. by rewrite list.filter_app, map_app. Qed.
  Lemma own_same i es : own i (map (pair i) es) = es.
  Proof. induction es as [|e es IH]; [done|]. unfold own in *. cbn [map]. rewrite list.filter_cons_True by done. cbn. by rewrite IH. Qed.
  Lemma own_other i i' es : i' <> i -> own i' (map (pair i) es) = [].
  Proof. intros D. induction es as [|e es IH]; [done|]. unfold own in *. cbn [map]. rewrite list.filter_cons_False; [done|]. cbn. congruence. Qed.
  Lemma own_in i e log : e ∈ own i log <-> (i, e) ∈ log.
  Proof.
    unfold own. rewrite elem_of_list_fmap. split.
    - intros ([k x] & -> & [E I]%elem_of_list_filter). cbn in E. by subst k.
    - intros I. exists (i, e). split; [done|]. by apply elem_of_list_filter.
  Qed.

  Lemma ginv_step o ps log i q o1 q1 : ginv o ps log -> ps !! i = Some q -> pstep o q = Some (o1, q1) ->
    exists es, ginv o1 (<[i := q1]> ps) (log ++ map (pair i) es).
  Proof.
    intros (sts & j & AI & I & RL & PI) E PS. destruct q as [a|T c k]; [done|]. cbn in PS.
    destruct (sys_step c o) as [[o2 x]|] eqn:X; [|done]. injection PS as <- <-.
    pose proof (PI i) as PI0. rewrite E in PI0. destruct PI0 as [[PR NC] FO]. cbn [fst snd] in PR, NC.
    assert (exists V : bytes -> Prop, inv0 V o sts (eq j) /\ pre0 V T (sts i) c /\
      ((exists fd (Ec : T = unit) w, sts i = Hold Dirty fd w /\ (forall st', ev c (sts i) st' = [Put w]) /\ V = eq w) \/
       V = eq (val log) /\ forall st' w, Put w ∉ ev c (sts i) st')) as (V & I1 & PR1 & VC).
    { assert ((forall st' w, Put w ∉ ev c (sts i) st') -> pre0 (eq (val log)) T (sts i) c -> exists V : bytes -> Prop, inv0 V o sts (eq j) /\ pre0 V T (sts i) c /\
        ((exists fd (Ec : T = unit) w, sts i = Hold Dirty fd w /\ (forall st', ev c (sts i) st' = [Put w]) /\ V = eq w) \/
         V = eq (val log) /\ forall st' w, Put w ∉ ev c (sts i) st')) as SIMPLE.
      { intros NP PR'. exists (eq (val log)). split_and!; [done|done|]. right. done. }
      destruct c; try (apply SIMPLE; [intros st' w; cbn; apply not_elem_of_nil|exact PR]).
      - apply SIMPLE; [|exact PR]. intros st' w. cbn. destruct (sts i) as [|[] [] ?|]; try apply not_elem_of_nil.
        destruct st'; try apply not_elem_of_nil. by intros Y%elem_of_list_singleton.
      - cbn [pre] in PR. destruct PR as [(w & m & S & _)|(d & c & S & _)].
        + apply SIMPLE; [intros st' w'; rewrite S; apply not_elem_of_nil|]. cbn. left. exists w, m. split; [done|].
          intros -> ->. by rewrite S in NC.
        + destruct d; try (apply SIMPLE; [intros st' w'; rewrite S; apply not_elem_of_nil|]; cbn; right; eexists _, _; by split).
          exists (eq c). split_and!; [by eapply inv_revalue|cbn; right; by exists Dirty, c|]. left.
          exists fd, eq_refl, c. rewrite S. done. }
    destruct (sys_step_inv p _ _ _ NE c o o2 x sts (eq j) i I1 PR1 X) as (st' & Is' & N & I').
    pose proof (step_inode p NE _ _ _ _ _ _ _ _ _ _ _ I1 AI PR1 X N) as AI'.
    apply (inv_restrict _ _ _ _ _ _ _ I') in AI' as I2. clear I' Is'.
    pose proof (lookup_lt_Some _ _ _ E) as LT.
    exists (ev c (sts i) st'). exists (upd sts i st'), j.
    assert (VE : V = eq (val (log ++ map (pair i) (ev c (sts i) st')))).
    { destruct VC as [(fd & _ & w & _ & Ev & ->)|[-> NP]].
      - rewrite Ev, val_app. done.
      - rewrite val_app. f_equal. specialize (NP st'). revert NP. generalize (ev c (sts i) st'). generalize (val log).
        intros v es. induction es as [|[y|y] es IH]; intros NP; cbn; [done| |].
        + apply IH. intros w Y. apply (NP w). by right.
        + destruct (NP y). by left. }
    split_and!; [done|by rewrite <- VE| |].
    - intros l1 i' e' l2 EL.
      destruct (decide (ev c (sts i) st' = [])) as [Z|Z].
      { rewrite Z, app_nil_r in EL. by eapply RL. }
      assert (exists e, ev c (sts i) st' = [e] /\ ok i (own i log) e /\ (forall z, e = Saw z -> z = val log)) as (e & Ee & Oe & Se).
      { destruct c; try done.
        - cbn [ev] in Z |- *. destruct (sts i) as [|[] [] ?|]; try done. destruct st' as [| |d ? z]; try done.
          exists (Saw z). split; [done|]. split; [by apply NC|]. intros z' [= <-]. cbn [nxt] in N.
          destruct VC as [(? & _ & w & S & _)|[-> _]]; [done|].
          destruct N as [(? & ? & ?)|(w & z' & _ & [->|[[] _]] & Eq)]; [done| |done]. by injection Eq.
        - cbn [ev] in Z |- *. destruct (sts i) as [| |[] ? ?]; try done. by eexists. }
      rewrite Ee in EL. cbn [map] in EL. destruct l2 as [|z l2' _] using rev_ind.
      + apply app_inj_tail in EL as [-> EL]. injection EL as <- <-. done.
      + rewrite app_comm_cons, app_assoc in EL.
        apply app_inj_tail in EL as [EL _]. by eapply RL.
    - intros i'. destruct (decide (i' = i)) as [->|D].
      + rewrite list_lookup_insert, upd_same by done. rewrite own_app, own_same. apply FO. split; [|done].
        by eapply nxt_top.
      + rewrite list_lookup_insert_ne, upd_ne by done. rewrite own_app, (own_other i i'), app_nil_r by done. apply PI.
  Qed.

  Lemma ginv_run sched : forall o ps log o' ps', ginv o ps log -> crun o ps sched = Some (o', ps') ->
    exists ext, ginv o' ps' (log ++ ext) /\ (forall e, e ∈ ext -> fst e ∈ sched) /\
      forall s1 s2 o1 ps1, sched = s1 ++ s2 -> crun o ps s1 = Some (o1, ps1) ->
      exists e1 e2, ext = e1 ++ e2 /\ ginv o1 ps1 (log ++ e1) /\ (forall e, e ∈ e1 -> fst e ∈ s1) /\ forall e, e ∈ e2 -> fst e ∈ s2.
  Proof.
    induction sched as [|i sched IH]; intros o ps log o' ps' G R; cbn in R.
    - injection R as <- <-. exists []. rewrite app_nil_r. split; [done|]. split; [by intros e X%elem_of_nil|].
      intros s1 s2 o1 ps1 E R1.
      symmetry in E. apply app_eq_nil in E as [-> ->]. cbn in R1. injection R1 as <- <-.
      exists [], []. split_and!; [done|by rewrite app_nil_r|..]; by intros e X%elem_of_nil.
    - destruct (ps !! i) as [q|] eqn:E; [|done]. destruct (pstep o q) as [[o2 q2]|] eqn:PS; [|done].
      destruct (ginv_step _ _ _ _ _ _ _ G E PS) as (es & G2).
      assert (forall e, e ∈ map (pair i) es -> fst e = i) as EI.
      { intros e (y & -> & _)%elem_of_list_fmap. done. }
      destruct (IH _ _ _ _ _ G2 R) as (ext & G' & IN & SP). exists (map (pair i) es ++ ext). rewrite app_assoc. split; [done|].
      assert (forall e, e ∈ map (pair i) es ++ ext -> fst e ∈ i :: sched) as IN'.
      { intros e [Y|Y]%elem_of_app; apply elem_of_cons; [left; by apply EI|right; by apply IN]. }
      split; [done|]. intros s1 s2 o1 ps1 ES R1. destruct s1 as [|i1 s1].
      + cbn in R1. injection R1 as <- <-. cbn in ES. subst s2. exists [], (map (pair i) es ++ ext).
        split_and!; [done|by rewrite app_nil_r| |done]. by intros y X%elem_of_nil.
      + cbn in ES. injection ES as <- ES. cbn in R1. rewrite E, PS in R1.
        destruct (SP s1 s2 o1 ps1 ES R1) as (e1 & e2 & -> & G1 & I1 & I2). exists (map (pair i) es ++ e1), e2.
        split_and!; [by rewrite app_assoc|by rewrite app_assoc| |done].
        intros y [Y|Y]%elem_of_app; apply elem_of_cons; [left; by apply EI|right; by apply I1].
  Qed.
  Lemma ret_stays sched i : forall o (ps : list (proc A)) o' ps' a, crun o ps sched = Some (o', ps') -> ps !! i = Some (Ret a) -> i ∉ sched.
  Proof.
    induction sched as [|k sched IH]; intros o ps o' ps' a R E; [apply not_elem_of_nil|]. cbn in R.
    destruct (ps !! k) as [q|] eqn:EK; [|done]. destruct (pstep o q) as [[o2 q2]|] eqn:PS; [|done].
    assert (i <> k) as D by (intros <-; rewrite E in EK; by injection EK as <-).
    intros [X|X]%elem_of_cons; [done|]. eapply IH; [exact R| |exact X]. by rewrite list_lookup_insert_ne.
  Qed.

  Lemma ginv_ret o ps log i a : ginv o ps log -> ps !! i = Some (Ret a) -> exists st, fin i (st, own i log) a.
  Proof. intros (sts & j & _ & _ & _ & PI) E. specialize (PI i). rewrite E in PI. by eexists. Qed.
  Lemma ginv_done o ps log : ginv o ps log -> (forall i s a, fin i s a -> fst s = Free) ->
    (forall i q, ps !! i = Some q -> exists a, q = Ret a) ->
    calm o /\ wf_fs (view o) /\ file_at (view o) p = Some (val log) /\ forall q, gone q -> file_at (view o) q = None.
  Proof.
    intros (sts & j & AI & I & _ & PI) FF AR.
    assert (forall k, sts k = Free) as FR.
    { intros k. specialize (PI k). destruct (ps !! k) as [q|] eqn:E; [|done]. destruct (AR _ _ E) as [a ->].
      by apply FF in PI. }
    split_and!; [by eapply inv_calm|apply I| |apply I].
    destruct (inv_stable _ _ _ _ NE _ _ _ I Logic.I) as [c E]. rewrite E. f_equal. symmetry.
    by eapply (inv_done p).
  Qed.
  Lemma ginv_start o ps : calm o -> wf_fs (view o) -> file_at (view o) p = Some c0 ->
    (forall q, gone q -> file_at (view o) q = None) ->
    (forall i q, ps !! i = Some q -> lfol (ok i) (fin i) (Free, []) q) -> ginv o ps [].
  Proof.
    intros CA W E GO F. assert (inv0 (eq c0) o (fun _ => Free) (fun j => o_tree o !! p = Some (DFile j))) as I.
    { apply inv_start; [done|done|done| |by exists c0|done]. intros c E'. congruence. }
    destruct (i_stable _ _ _ _ _ _ _ I Logic.I) as [j T].
    assert (at_inode p o (fun _ => Free) j) as AI.
    { split; [done|]. by intros k fd M%mine_free. }
    exists (fun _ => Free), j. split_and!; [done|by eapply inv_restrict| |].
    - intros l1 i e l2 X. by destruct l1.
    - intros i. destruct (ps !! i) as [q|] eqn:EQ; [|done]. by apply F.
  Qed.
End Log.
