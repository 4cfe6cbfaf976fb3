(** Processes some of whose system calls are refused (C68). *)
From Verif Require Import BaseFacts PathFacts FSFacts KeyFacts HierFacts Spec SpecMeta SpecHier.
From Verif Require Import JsonFacts MetaJsonFacts JsonPrefix NodeFacts RefFacts OpsFacts.
From Verif Require Import Sys SysOpen SysNd SpecSys SpecFault SysFacts SysOps CrashFacts CrashOps CrashMeta CrashOpen CrashRemove ConcOpen OpenFacts.
Local Open Scope Z_scope.

(** ** Generalities *)

Lemma faulty_done {A} (a : A) o o' x : faulty o (Ret a) o' x -> o' = o /\ x = a.
Proof. intros S. inversion S as [|no ? ? ? ? ? ? E]; subst; [done|]. by destruct no. Qed.
Lemma faulty_call {A T} (c : sys T) (k : T -> proc A) o o' a : faulty o (Call c k) o' a ->
  exists o1 x, (sys_step c o = Some (o1, x) \/ (o1 = o /\ refused c = Some x)) /\ faulty o1 (k x) o' a.
Proof.
  intros S. inversion S as [|no ? ? o1 p1 ? ? E S1]; subst. destruct no; cbn [fstep pstep] in E.
  - destruct (refused c) as [x|] eqn:R; [|done]. cbn in E. injection E as <- <-. exists o, x. split; [by right|done].
  - destruct (sys_step c o) as [[o2 x]|] eqn:R; [|done]. injection E as <- <-. exists o2, x. split; [by left|done].
Qed.
Lemma faulty_real {A T} (c : sys T) (k : T -> proc A) o o1 x o' a :
  sys_step c o = Some (o1, x) -> faulty o1 (k x) o' a -> faulty o (Call c k) o' a.
Proof. intros E S. apply (faulty_step false _ _ o1 (k x)); [|done]. cbn. by rewrite E. Qed.
Lemma faulty_refuse {A T} (c : sys T) (k : T -> proc A) o x o' a :
  refused c = Some x -> faulty o (k x) o' a -> faulty o (Call c k) o' a.
Proof. intros E S. apply (faulty_step true _ _ o (k x)); [|done]. cbn. by rewrite E. Qed.
Lemma faulty_bind {A C} (f : A -> proc C) : forall (p : proc A) o o' a, faulty o (pbind p f) o' a ->
  exists o1 x, faulty o p o1 x /\ faulty o1 (f x) o' a.
Proof.
  induction p as [a|T c k IH]; intros o o' y S; cbn [pbind] in S; [exists o, a; split; [constructor|done]|].
  apply faulty_call in S as (o1 & x & E & S). apply IH in S as (o2 & z & S1 & S2).
  exists o2, z. split; [|done]. destruct E as [E|[-> E]]; [by eapply faulty_real|by eapply faulty_refuse].
Qed.
Lemma faulty_bind_r {A C} (f : A -> proc C) (p : proc A) o o1 x o' a :
  faulty o p o1 x -> faulty o1 (f x) o' a -> faulty o (pbind p f) o' a.
Proof.
  intros S1 S2. induction S1 as [o x|no o p o1 p1 o2 x E S1 IH]; [done|].
  apply (faulty_step no _ _ o1 (pbind p1 f)); [|by apply IH]. destruct p as [?|T c k]; [by destruct no|].
  destruct no; cbn [fstep pstep pbind] in *.
  - destruct (refused c); [|done]. cbn in *. by injection E as <- <-.
  - destruct (sys_step c o) as [[? ?]|]; [|done]. by injection E as <- <-.
Qed.
Lemma faulty_try {A C} (p : proc (res A)) (f : A -> proc (res C)) o o' r : faulty o (ptry p f) o' r ->
  exists o1 x, faulty o p o1 x /\
    match x with Ok a => faulty o1 (f a) o' r | Err e => o' = o1 /\ r = Err e | Panic => o' = o1 /\ r = Panic end.
Proof.
  intros S. apply faulty_bind in S as (o1 & x & S1 & S2). exists o1, x. split; [done|].
  destruct x; [done|by apply faulty_done in S2..].
Qed.
Lemma faulty_run {A} (p : proc A) : forall o o' a, run o p = Some (o', a) -> faulty o p o' a.
Proof.
  induction p as [a|T c k IH]; intros o o' x E; cbn in E; [injection E as <- <-; constructor|].
  destruct (sys_step c o) as [[o1 y]|] eqn:E1; [|done]. eapply faulty_real; [done|by apply IH].
Qed.
Lemma faulty_denied {A} deny (p : proc A) : forall o o' a, denied deny o p = Some (o', a) -> faulty o p o' a.
Proof.
  induction p as [a|T c k IH]; intros o o' x E; cbn [denied] in E; [injection E as <- <-; constructor|].
  assert (forall y, match sys_step c o with Some (o', x) => denied deny o' (k x) | None => None end = Some y ->
     faulty o (Call c k) y.1 y.2) as GO.
  { intros [o2 y] E'. destruct (sys_step c o) as [[o1 z]|] eqn:E1; [|done]. eapply faulty_real; [done|by apply IH]. }
  destruct (names c) as [cs|]; [|by apply GO in E]. destruct (refused c) as [y|] eqn:R; [|by apply GO in E].
  destruct (deny cs); [|by apply GO in E]. eapply faulty_refuse; [done|by apply IH].
Qed.
Lemma faulty_calls {A} (P : forall T, sys T -> Prop) (I : os -> Prop) :
  (forall T (c : sys T) o o' x, P T c -> I o -> sys_step c o = Some (o', x) -> I o') ->
  forall (p : proc A) o o' a, calls P p -> I o -> faulty o p o' a -> I o'.
Proof.
  intros HP p o o' a Hp Ho S. induction S as [|no o p o1 p1 o2 a E S IH]; [done|].
  destruct p as [x|T c k]; [by destruct no|]. destruct Hp as [Hc Hk]. destruct no; cbn in E.
  - destruct (refused c); [|done]. cbn in E. injection E as <- <-. by apply IH.
  - destruct (sys_step c o) as [[o3 y]|] eqn:E1; [|done]. injection E as <- <-. apply IH; [done|]. by eapply HP.
Qed.
Lemma calls_all {A} (p : proc A) : calls (fun _ _ => True) p.
Proof. induction p as [a|T c k IH]; [done|]. by split. Qed.
Lemma faulty_ok {A} (p : proc A) o o' a : os_ok o -> faulty o p o' a -> os_ok o'.
Proof.
  intros K S. apply (faulty_calls (fun _ _ => True) os_ok) in S; [done| |apply calls_all|done].
  intros T c o1 o2 x _. by apply sys_step_ok.
Qed.
Lemma faulty_room {A} (p : proc A) o o' a : o_room o = None -> faulty o p o' a -> o_room o' = None.
Proof.
  intros K S. apply (faulty_calls (fun _ _ => True) (fun o => o_room o = None)) in S; [done| |apply calls_all|done].
  intros T c o1 o2 x _. by apply sys_step_room.
Qed.
Lemma faulty_reading {A} (p : proc A) o o' a : calls reading p -> os_ok o -> faulty o p o' a ->
  os_ok o' /\ view o' = view o.
Proof.
  intros P K S. by apply (faulty_calls reading (fun o1 => os_ok o1 /\ view o1 = view o)
    (reading_step (view o)) p o o' a).
Qed.
Lemma faulty_removes {A} P (p : proc A) o o' a : calls (removes P) p -> os_ok o -> wf_fs (view o) -> faulty o p o' a ->
  os_ok o' /\ lost P (view o) (view o').
Proof.
  intros CP K W S. apply (faulty_calls (removes P) (fun o1 => os_ok o1 /\ lost P (view o) (view o1))
    (removes_step P (view o)) p o o' a); [done| |done]. split; [done|]. by apply lost_refl.
Qed.

(** Calls that cannot be refused. *)
Definition firm (T : Type) (c : sys T) : Prop := refused c = None.
Lemma firm_run {A} (p : proc A) : forall o o' a, calls firm p -> faulty o p o' a -> run o p = Some (o', a).
Proof.
  induction p as [a|T c k IH]; intros o o' x CP S.
  - by apply faulty_done in S as [-> ->].
  - destruct CP as [Hc Hk]. apply faulty_call in S as (o1 & y & [E|[_ E]] & S); [|by rewrite Hc in E].
    cbn [run]. rewrite E. by apply IH.
Qed.
Lemma write_all_firm fuel fd : forall off b, calls firm (p_write_all fuel fd off b).
Proof.
  induction fuel as [|fuel IH]; intros off [|x b]; try done. cbn [p_write_all calls]. split; [done|].
  intros [[|n]|e|]; done || apply IH.
Qed.
Lemma drop_firm fd off buf r : calls firm (p_drop fd off buf r).
Proof. apply calls_bind; [apply write_all_firm|]. done. Qed.
Lemma buffered_firm fd ws r : forall off buf, calls firm (p_buffered fd off buf ws r).
Proof.
  induction ws as [|w ws IH]; intros off buf; cbn [p_buffered]; [apply drop_firm|].
  assert (forall off buf, calls firm (if lenZ w >=? BUF_CAP
        then pbind (p_write_all (length w) fd off w) (fun x =>
               let '(off', _, rw) := x in
               match rw with
               | Ok _ => p_buffered fd off' buf ws r
               | e => p_drop fd off' buf e
               end)
        else p_buffered fd off (buf ++ w) ws r)) as PUT.
  { intros off0 buf0. destruct (_ >=? _); [|apply IH]. apply calls_bind; [apply write_all_firm|].
    intros [[off' b] [u|e|]]; [apply IH|apply drop_firm..]. }
  destruct (_ >? _); [|apply PUT]. apply calls_bind; [apply write_all_firm|].
  intros [[off' b] [u|e|]]; [apply PUT|apply drop_firm..].
Qed.
Lemma read_all_firm fd rs : forall off acc, calls firm (p_read_all fd off rs acc).
Proof.
  induction rs as [|n rs IH]; intros off acc; cbn [p_read_all calls]; [done|]. split; [done|].
  intros x. by case_bool_decide.
Qed.

(** ** The store *)

(** The state is as before, except for what was opened and closed again. *)
Definition fine (o o' : os) : Prop := view o' = view o /\ idle o' /\ o_room o' = o_room o.
Lemma fine_refl o : idle o -> fine o o.
Proof. done. Qed.
Lemma fine_trans o1 o2 o3 : fine o1 o2 -> fine o2 o3 -> fine o1 o3.
Proof. intros (V1 & I1 & R1) (V2 & I2 & R2). split_and!; [congruence|done|congruence]. Qed.

Lemma exists_faulty base key o o' r : faulty o (p_exists base key) o' r ->
  o' = o /\ (r = st_exists base (view o) key \/ r = Ok false).
Proof.
  unfold p_exists, st_exists. destruct (key_comps base key) as [cs|e|]; cbn [pres mbind res_bind]; intros S.
  - apply faulty_call in S as (o1 & x & E & S). apply faulty_done in S as [-> ->].
    destruct E as [E|[-> E]]; cbn in E; [injection E as <- <-|injection E as <-]; [by split; [|left]|by split; [|right]].
  - apply faulty_done in S as [-> ->]. by split; [|left].
  - apply faulty_done in S as [-> ->]. by split; [|left].
Qed.

(** Reading: the content, or nothing, or an error. *)
Lemma get_faulty base key rs o o' r : idle o -> faulty o (p_get base key rs) o' r ->
  fine o o' /\ (r = st_get base (view o) key \/ r = Ok None \/ r = Err Other).
Proof.
  intros I S. destruct (run_get base key rs o I) as (o2 & R & V2 & I2 & RM2).
  assert (run o (p_get base key rs) = Some (o', r) ->
    fine o o' /\ (r = st_get base (view o) key \/ r = Ok None \/ r = Err Other)) as FULL.
  { rewrite R. intros E. injection E as <- <-. split; [done|by left]. }
  unfold p_get in S, FULL. destruct (key_comps base key) as [cs|e|]; cbn [pres] in S, FULL.
  2-3: apply faulty_done in S as [-> ->]; by apply FULL.
  apply faulty_call in S as (o1 & b & E & S).
  destruct E as [E|[-> E]]; cbn in E; [injection E as <- <-|injection E as <-].
  2:{ apply faulty_done in S as [-> ->]. split; [by apply fine_refl|right; by left]. }
  cbn [run sys_step] in FULL. destruct (path_is_file (view o) cs).
  2:{ apply faulty_done in S as [-> ->]. by apply FULL. }
  apply faulty_bind in S as (o1 & x & S1 & S). apply faulty_call in S1 as (o3 & y & E & S1).
  apply faulty_done in S1 as [-> ->]. destruct E as [E|[-> E]].
  - apply FULL. unfold ptry. rewrite run_bind. cbn [run]. rewrite E. cbn [run]. apply firm_run in S; [done|].
    destruct y as [fd|e|]; [|done..]. split; [done|]. intros _. apply calls_bind; [apply read_all_firm|]. done.
  - cbn in E. injection E as <-. apply faulty_done in S as [-> ->]. split; [by apply fine_refl|right; by right].
Qed.

Lemma mkdir_no_panic o cs o' r : sys_step (SMkdir cs) o = Some (o', r) -> r <> Panic.
Proof.
  cbn. pose proof (walk_no_panic (view o) cs []) as NP. destruct (walk (view o) [] cs) as [p|e|]; [| |done].
  - destruct (node_at (view o) p); [by intros [= _ <-]|]. destruct (is_dir_at _ _); by intros [= _ <-].
  - by intros [= _ <-].
Qed.
Lemma mkdir_all_no_panic cs n : forall o o' r, faulty o (p_mkdir_all cs n) o' r -> r <> Panic.
Proof.
  induction n as [|n IH]; intros o o' r S; cbn [p_mkdir_all] in S; [by apply faulty_done in S as [_ ->]|].
  assert (forall e o1, e <> Panic ->
    faulty o1 (Call (SIsDir (take (Datatypes.S n) cs)) (fun d : bool => Ret (if d then Ok tt else e))) o' r -> r <> Panic) as D.
  { intros e o1 Ne S'. apply faulty_call in S' as (o2 & d & _ & S'). apply faulty_done in S' as [_ ->]. by destruct d. }
  apply faulty_call in S as (o1 & x & E & S).
  assert (x <> Panic) as NP by (destruct E as [E|[_ E]]; [by eapply mkdir_no_panic|by injection E as <-]).
  destruct x as [u|e|]; [by apply faulty_done in S as [_ ->]| |done].
  destruct e; try by apply D in S.
  apply faulty_try in S as (o2 & y & S1 & S2). apply IH in S1. destruct y as [u|e|]; [| |done].
  - apply faulty_call in S2 as (o3 & z & E2 & S2).
    assert (z <> Panic) as NP2 by (destruct E2 as [E2|[_ E2]]; [by eapply mkdir_no_panic|by injection E2 as <-]).
    destruct z as [u'|e|]; [by apply faulty_done in S2 as [_ ->]|by apply D in S2|done].
  - by destruct S2 as [_ ->].
Qed.

Section Set_.
  Context (base key : bytes) (PB : plain base) (PK : plain key).
  Notation ns := (loc base key).

  Lemma parent_faulty o o1 x : idle o -> wf_fs (view o) ->
    faulty o (match map Normal ns with
      | [] => Ret (Ok tt)
      | _ => Call (SExists (parent_comps (map Normal ns))) (fun b : bool =>
             if b then Ret (Ok tt)
             else p_mkdir_all (parent_comps (map Normal ns)) (length (parent_comps (map Normal ns))))
      end) o1 x ->
    os_ok o1 /\ same_rest o o1 /\ grown (parent ns) (view o) (view o1) /\ x <> Panic.
  Proof.
    intros (K & F & L) W S.
    assert (os_ok o /\ same_rest o o /\ grown (parent ns) (view o) (view o)) as HERE.
    { split_and!; try done. by apply grown_refl. }
    destruct (map Normal ns) as [|c0 cs0] eqn:EC.
    { apply faulty_done in S as [-> ->]. destruct HERE as (? & ? & ?). by split_and!. }
    rewrite <- EC in S. apply faulty_call in S as (o2 & b & E & S).
    assert (o2 = o) as -> by (destruct E as [E|[-> E]]; [cbn in E; by injection E|done]).
    destruct b. { apply faulty_done in S as [-> ->]. destruct HERE as (? & ? & ?). by split_and!. }
    rewrite parent_comps_map in S. pose proof (mkdir_all_no_panic _ _ _ _ _ S) as NP.
    assert (forall T (c : sys T) o1 o2 x, makes_dirs (parent ns) T c ->
      (os_ok o1 /\ same_rest o o1 /\ grown (parent ns) (view o) (view o1)) -> sys_step c o1 = Some (o2, x) ->
      os_ok o2 /\ same_rest o o2 /\ grown (parent ns) (view o) (view o2)) as STEP.
    { intros T c oa ob y M (Ka & Sa & Ga) Ea.
      destruct (makes_dirs_step (parent ns) (view o) T c oa ob y M (conj Ka Ga) Ea) as [Kb Gb]. split_and!; [done| |done].
      destruct c; cbn in M; try done; try by injection Ea as <- _.
      destruct M as [k ->]. destruct (run_mkdir oa (map Normal (take k (parent ns))) Ka) as (oc & Ec & _ & _ & Sc & _).
      rewrite Ec in Ea. injection Ea as <- _. by eapply same_rest_trans. }
    apply (faulty_calls _ _ STEP) in S; [destruct S as (? & ? & ?); by split_and!|apply mkdir_all_calls|done].
  Qed.

  (** An open that succeeds. *)
  Lemma openw_holds o o1 fd : os_ok o -> wf_fs (view o) -> sys_step (SOpenW (map Normal ns)) o = Some (o1, Ok fd) ->
    ns <> [] /\ node_at (view o) (parent ns) = Some Dir /\ can_hold_file (view o) ns.
  Proof.
    intros K W E.
    assert (ns <> [] /\ node_at (view o) (parent ns) = Some Dir /\ node_at (view o) ns <> Some Dir) as (N & PD & ND).
    { cbn [sys_step] in E. destruct (walk (view o) [] (map Normal ns)) as [p|e|] eqn:EW; [|done..].
      apply walk_normal_target in EW. cbn [app] in EW. subst p.
      generalize dependent ns. intros p E. destruct p as [|y p']; [done|]. remember (y :: p') as p eqn:EP.
      assert (p <> []) as N by by subst p. destruct (exists_last N) as (q & x & EQ).
      rewrite (node_at_ne (view o) p), view_lookup by done.
      assert (match o_tree o !! p with
              | Some (DFile i) => (open_fd o i, Ok (o_next o))
              | Some DDir => (o, Err Other)
              | None => if is_dir_at (view o) (parent p)
                        then let o1 := link (new_inode o) p (DFile (o_next o)) in (open_fd o1 (o_next o), Ok (o_next o1))
                        else (o, Err NotFound)
              end = (o1, Ok fd)) as E' by (rewrite EP in *; by injection E).
      destruct (o_tree o !! p) as [[|i]|] eqn:T; [done| |].
      - split; [done|]. split; [|done]. rewrite EQ, parent_snoc.
        apply (wf_prefix _ q [x] (File (default [] (o_data o !! i)))); [done| |done].
        rewrite <- EQ, node_at_ne by done. by rewrite view_lookup, T.
      - destruct (is_dir_at (view o) (parent p)) eqn:D; [|done]. by apply is_dir_at_true in D. }
    split_and!; [done|done|]. split; [|done]. intros q [r EQ] Nq c F. apply file_at_some in F.
    destruct (exists_last N) as (q0 & x & EX). rewrite EX, parent_snoc in PD.
    destruct (decide (r = [])) as [->|Nr]; [by rewrite app_nil_r in EQ|].
    destruct (exists_last Nr) as (r0 & y & ER). rewrite ER, app_assoc, EX in EQ. apply app_inj_tail in EQ as [-> _].
    destruct (decide (r0 = [])) as [->|Nr0]; [rewrite app_nil_r in PD; congruence|].
    rewrite (wf_prefix _ _ _ _ W PD Nr0) in F. done.
  Qed.

  (** Storing: reported as the closure reports and stored, or an error and not
      stored; nothing else is touched. *)
  Lemma set_faulty o o' ws r x : calm o -> wf_fs (view o) -> faulty o (p_set base key ws r) o' x ->
    calm o' /\ wf_fs (view o') /\ same_except (view o) (view o') ns /\ dirs_kept (view o) (view o') /\
    ((x = r /\ file_at (view o') ns = Some (concat ws)) \/
     (exists e, x = Err e /\ file_at (view o') ns = file_at (view o) ns)).
  Proof.
    intros [I RM] W S. unfold p_set in S. rewrite key_comps_plain in S by done. cbn [pres] in S.
    apply faulty_try in S as (o1 & y & S1 & S2). apply parent_faulty in S1 as (K1 & (F1 & L1 & R1) & G1 & NP); [|done|done].
    destruct (grown_files _ _ _ G1) as [FE DK]. pose proof (proj1 G1) as W1.
    assert (calm o1) as C1.
    { destruct I as (_ & F & L). split; [|congruence]. split_and!; [done|congruence|congruence]. }
    assert (forall e, y = Err e \/ x = Err e -> o' = o1 -> x = Err e -> 
      calm o' /\ wf_fs (view o') /\ same_except (view o) (view o') ns /\ dirs_kept (view o) (view o') /\
      ((x = r /\ file_at (view o') ns = Some (concat ws)) \/
       (exists e, x = Err e /\ file_at (view o') ns = file_at (view o) ns))) as STOP.
    { intros e _ -> ->. split_and!; [apply C1..|done|by intros q _|done|right; by exists e]. }
    destruct y as [u|e|]; [| |done].
    2:{ destruct S2 as [-> ->]. apply (STOP e); [by left|done|done]. }
    apply faulty_bind in S2 as (o2 & z & S1 & S2). apply faulty_call in S1 as (o3 & z' & E & S1).
    apply faulty_done in S1 as [-> ->]. destruct E as [E|[-> E]].
    2:{ cbn in E. injection E as <-. apply faulty_done in S2 as [-> ->]. apply (STOP Other); [by right|done|done]. }
    destruct z' as [fd|e|].
    2:{ apply faulty_done in S2 as [-> ->].
        pose proof (run_openw o1 (map Normal ns) K1) as OW.
        destruct (open_truncate (view o1) (map Normal ns)) as [s2 [p|e'|]].
        - destruct OW as (? & ? & ? & ? & OW & _). by rewrite OW in E.
        - destruct OW as [OW _]. rewrite OW in E. injection E as <- <-. apply (STOP e'); [by right|done|done].
        - destruct OW as [OW _]. by rewrite OW in E. }
    2:{ exfalso. cbn [sys_step] in E. pose proof (walk_no_panic (view o1) (map Normal ns) []) as NW.
        destruct (walk (view o1) [] (map Normal ns)) as [p|e|]; [|done|done].
        destruct p as [|a p]; [done|]. destruct (o_tree o1 !! _) as [[]|]; try done. by destruct (is_dir_at _ _). }
    destruct (openw_holds _ _ _ K1 W1 E) as (N & PD & CH).
    assert (run o1 (p_set base key ws r) = Some (o', x)) as RUN.
    { unfold p_set. rewrite key_comps_plain by done. cbn [pres]. rewrite run_try.
      destruct (map Normal ns) as [|c0 cs0] eqn:EC; [by apply map_eq_nil in EC|]. rewrite <- EC in *.
      cbn [run sys_step]. rewrite parent_comps_map, path_exists_plain, PD by done. cbn [run].
      rewrite run_try. cbn [run]. rewrite E. cbn [run]. apply firm_run in S2; [done|].
      split; [done|]. intros _. split; [done|]. intros _. apply buffered_firm. }
    destruct (run_set base key ws r o1 (proj1 C1)) as (o4 & R4 & V4 & I4 & RM4).
    rewrite RUN in R4. injection R4 as <- ->. rewrite (proj2 C1) in V4. cbn [fits] in V4.
    rewrite (proj2 C1). cbn [fits]. rewrite !take_ge in V4 by lia. rewrite !take_ge by lia.
    rewrite bool_decide_eq_true_2 in V4 by lia. rewrite bool_decide_eq_true_2 by lia.
    destruct (st_set_ok base (view o1) key W1 PB PK (concat ws, r) CH) as (s' & ES & W' & NA).
    rewrite ES in V4 |- *. cbn [fst snd] in *. rewrite V4.
    split; [split; [exact I4|by apply RM4, C1]|]. split; [done|]. split_and!.
    - intros q Nq. rewrite <- FE. unfold file_at. rewrite NA, decide_False by done. destruct (decide (q `prefix_of` ns)) as [Q|Q]; [|done].
      destruct (node_at (view o1) q) as [[|c]|] eqn:Eq; try done. exfalso.
      destruct CH as [CH _]. apply (CH q Q Nq c). unfold file_at. by rewrite Eq.
    - intros q Dq. apply DK in Dq. apply is_dir_at_true in Dq. apply is_dir_at_true. rewrite NA.
      destruct (decide (q = ns)) as [->|Q]; [by destruct CH|]. by destruct (decide (q `prefix_of` ns)).
    - left. split; [done|]. unfold file_at. by rewrite NA, decide_True.
  Qed.

  (** Erasing: an error leaves the file; `false` means it is there. *)
  Lemma erase_faulty o o' r : idle o -> wf_fs (view o) -> faulty o (p_erase base key) o' r ->
    idle o' /\ o_room o' = o_room o /\ wf_fs (view o') /\
    (view o' = view o \/ ((exists c, file_at (view o) ns = Some c) /\ view o' = delete ns (view o) /\ r = Ok true)) /\
    (r = Ok false -> node_at (view o') ns <> None) /\ r <> Panic.
  Proof.
    intros I W S. unfold p_erase in S. rewrite key_comps_plain in S by done. cbn [pres] in S.
    assert (FIN : forall o1, wf_fs (view o1) -> faulty o1 (Call (SExists (map Normal ns)) (fun b => Ret (Ok (negb b)))) o' r ->
      o' = o1 /\ (r = Ok true \/ (r = Ok false /\ node_at (view o1) ns <> None))).
    { intros o1 W1 S1. apply faulty_call in S1 as (o2 & b & E & S1). apply faulty_done in S1 as [-> ->].
      destruct E as [E|[-> E]]; cbn in E; [injection E as <- <-|injection E as <-]; [|by split; [|left]].
      split; [done|]. rewrite path_exists_plain by done. destruct (node_at (view o1) ns); [by right|by left]. }
    apply faulty_call in S as (o1 & b & E & S).
    destruct b.
    2:{ assert (o1 = o) as -> by (destruct E as [E|[-> E]]; [cbn in E; by injection E|done]).
        apply FIN in S as [-> S]; [|done]. split_and!; [done..|by left| |]; destruct S as [->|[-> ?]]; done. }
    destruct E as [E|[-> E]]; [|done]. cbn in E. injection E as <- E.
    rewrite path_exists_plain in E by done.
    apply faulty_try in S as (o1 & y & S1 & S2). apply faulty_call in S1 as (o2 & y' & E2 & S1).
    apply faulty_done in S1 as [-> ->].
    assert (HERE : forall e, o' = o -> r = Err e -> idle o' /\ o_room o' = o_room o /\ wf_fs (view o') /\
      (view o' = view o \/ ((exists c, file_at (view o) ns = Some c) /\ view o' = delete ns (view o) /\ r = Ok true)) /\
      (r = Ok false -> node_at (view o') ns <> None) /\ r <> Panic).
    { intros e -> ->. split_and!; try done. by left. }
    destruct E2 as [E2|[-> E2]].
    2:{ cbn in E2. injection E2 as <-. destruct S2 as [-> ->]. by eapply HERE. }
    destruct (node_at (view o) ns) as [n|] eqn:EN; [|done].
    assert (EW : walk (view o) [] (map Normal ns) = Ok ns) by exact (walk_present (view o) ns [] n W EN).
    assert (exists oX i, o2 = open_fd oX i /\ y' = Ok (o_next oX) /\ os_ok oX /\ o_fds oX = ∅ /\ o_locks oX = ∅ /\
      is_Some (o_data oX !! i) /\ view oX = view o /\ o_room oX = o_room o) as (oX & i & -> & -> & KX & FX & LX & DX & VX & RX).
    { destruct I as (K & F & L). destruct n as [|c].
      - cbn [sys_step] in E2. rewrite EW, EN in E2. injection E2 as <- <-. exists (new_inode o), (o_next o).
        split_and!; try done; [by apply ok_new_inode|cbn; by rewrite lookup_insert|apply (view_new_inode o); done].
      - destruct (run_openr o (map Normal ns) ns c true K EW EN) as (i & T & D & E3). rewrite E3 in E2.
        injection E2 as <- <-. exists o, i. split_and!; done. }
    apply faulty_call in S2 as (o3 & u & [E3|[_ E3]] & S2); [|done]. cbn [sys_step] in E3.
    cbn [o_fds open_fd] in E3. rewrite lookup_insert in E3. rewrite no_conflict in E3 by done. injection E3 as <- _.
    set (o3 := set_lock (open_fd oX i) (o_next oX) true) in *.
    assert (V3 : view o3 = view o) by exact VX.
    assert (I3 : idle (close_fd o3 (o_next oX))) by by apply close_open.
    apply faulty_call in S2 as (o4 & z & E4 & S2).
    apply faulty_call in S2 as (o5 & u' & [E5|[_ E5]] & S2); [|done]. cbn in E5. injection E5 as <- _.
    destruct E4 as [E4|[-> E4]].
    - cbn [sys_step] in E4. rewrite V3, EW, EN in E4. destruct n as [|c].
      + injection E4 as <- <-. cbn [pres] in S2. apply faulty_done in S2 as [-> ->].
        assert (view (close_fd o3 (o_next oX)) = view o) as EV by by rewrite view_close.
        split_and!; try done; rewrite EV; [done|by left].
      + injection E4 as <- <-. cbn [pres] in S2.
        assert (view (close_fd (unlink o3 ns) (o_next oX)) = delete ns (view o)) as EV
          by by rewrite view_close, view_unlink, V3.
        assert (WD : wf_fs (delete ns (view o))) by (eapply wf_delete_file; [exact W|exact EN]).
        assert (NN : node_at (delete ns (view o)) ns = None).
        { rewrite node_at_delete, decide_True; [done|done|]. by eapply view_file_ne. }
        apply FIN in S2 as [-> S2]; [|by rewrite EV]. rewrite EV in *.
        destruct S2 as [->|[_ S2]]; [|done].
        split_and!; try done.
        * destruct I3 as (I1 & I2 & I3). split_and!; [|done|done]. by apply (ok_unlink _ ns) in I1.
        * right. split_and!; try done. exists c. unfold file_at. by rewrite EN.
    - cbn in E4. injection E4 as <-. cbn [pres] in S2. apply faulty_done in S2 as [-> ->].
      assert (view (close_fd o3 (o_next oX)) = view o) as EV by by rewrite view_close.
      split_and!; try done; rewrite EV; [done|by left].
  Qed.
End Set_.

Lemma denied_bind {A C} deny (p : proc A) (k : A -> proc C) : forall o,
  denied deny o (pbind p k) = match denied deny o p with Some (o', a) => denied deny o' (k a) | None => None end.
Proof.
  induction p as [a|T c f IH]; intros o; [done|]. cbn [pbind denied].
  destruct (names c); [destruct (refused c); [destruct (deny _)|]|]; try apply IH;
    (destruct (sys_step c o) as [[o1 x]|]; [apply IH|done]).
Qed.

(** Given schedules, for witnesses. *)
Fixpoint frun {A} (nos : list bool) (o : os) (p : proc A) : option (os * A) :=
  match nos with
  | [] => run o p
  | no :: r => match fstep no o p with Some (o1, p1) => frun r o1 p1 | None => None end
  end.
Lemma frun_faulty {A} nos : forall o (p : proc A) o' a, frun nos o p = Some (o', a) -> faulty o p o' a.
Proof.
  induction nos as [|no nos IH]; intros o p o' a E; cbn [frun] in E; [by apply faulty_run|].
  destruct (fstep no o p) as [[o1 p1]|] eqn:F; [|done]. eapply faulty_step; [done|by apply IH].
Qed.

Definition fafter {A} (nos : list bool) (o : os) (p : proc A) : os :=
  match frun nos o p with Some (o', _) => o' | None => o end.
Lemma fafter_run {A} nos o (p : proc A) a : snd <$> frun nos o p = Some a -> faulty o p (fafter nos o p) a.
Proof.
  intros E. unfold fafter. destruct (frun nos o p) as [[o' b]|] eqn:F; [|done]. cbn in E. injection E as ->.
  by eapply frun_faulty.
Qed.
Lemma faulty_calm {A} (p : proc A) o o' a : calm o -> faulty o p o' a ->
  map_to_list (o_fds o') = [] -> map_to_list (o_locks o') = [] -> calm o'.
Proof.
  intros [(K & _) R] S F L. split; [split_and!|].
  - by eapply faulty_ok.
  - by apply map_to_list_empty_iff.
  - by apply map_to_list_empty_iff.
  - by eapply faulty_room.
Qed.

Section Ops.
  Context (H : hier) (PB : plain (hy_base H)) (GS : good_suffix (ep_suffix (hy_ep H))).
  Notation base := (hy_base H).
  Notation sfx := (ep_suffix (hy_ep H)).
  Notation AX := ARRAY_METADATA_KEY_EXT.
  Notation GX := GROUP_METADATA_KEY_EXT.

  Lemma read_chunk_faulty C h t path m pos rs o o' r : idle o ->
    faulty o (p_read_chunk H C h t path m pos rs) o' r ->
    fine o o' /\ (r = read_chunk C h H (view o) t path m pos \/ r = Ok None \/ r = Err Other).
  Proof.
    intros I S. unfold p_read_chunk in S. unfold read_chunk.
    destruct (in_bounds (h_prof h) m pos) as [[|]|e|]; cbn [mbind res_bind assert_ pres] in *.
    2-4: apply faulty_done in S as [-> ->]; split; [by apply fine_refl|by left].
    apply faulty_try in S as (o1 & x & S1 & S2). apply get_faulty in S1 as [F1 X]; [|done].
    destruct X as [->|[->| ->]].
    - destruct (st_get base (view o) (get_chunk_key path m pos)) as [y|e|]; cbn [mbind res_bind].
      + apply faulty_done in S2 as [-> ->]. split; [done|]. left. by destruct y.
      + destruct S2 as [-> ->]. by split; [|left].
      + destruct S2 as [-> ->]. by split; [|left].
    - apply faulty_done in S2 as [-> ->]. split; [done|right; by left].
    - destruct S2 as [-> ->]. split; [done|right; by right].
  Qed.
  Lemma get_array_metadata_faulty path rs o o' r : idle o ->
    faulty o (p_get_array_metadata H path rs) o' r ->
    fine o o' /\ (r = get_array_metadata H (view o) path \/ exists e, r = Err e).
  Proof.
    intros I S. unfold p_get_array_metadata in S. unfold get_array_metadata.
    apply faulty_try in S as (o1 & x & S1 & S2). apply get_faulty in S1 as [F1 X]; [|done].
    destruct X as [->|[->| ->]].
    - destruct (st_get base (view o) (akey H path)) as [y|e|]; cbn [mbind res_bind].
      + apply faulty_done in S2 as [-> ->]. by split; [|left].
      + destruct S2 as [-> ->]. by split; [|left].
      + destruct S2 as [-> ->]. by split; [|left].
    - apply faulty_done in S2 as [-> ->]. split; [done|right]. cbn. by eexists.
    - destruct S2 as [-> ->]. split; [done|right]. by eexists.
  Qed.
  (** Which document of a node is taken. *)
  Lemma node_key_faulty path o o' r : wf_fs (view o) -> plain path -> faulty o (p_node_key H path) o' r ->
    o' = o /\ ((exists ext text, is_node_ext ext /\ r = Ok (metadata_key ext sfx path) /\
                  file_at (view o) (nloc H ext path) = Some text)
               \/ r = Err NotFound).
  Proof.
    intros W P S. unfold p_node_key in S.
    apply faulty_try in S as (o1 & x & S1 & S2). apply exists_faulty in S1 as [-> X].
    unfold akey, gkey, array_metadata_key, group_metadata_key in *.
    rewrite (exists_at H PB GS) in X by (done || by left).
    assert (exists a : bool, x = Ok a /\ (a = true -> is_some (file_at (view o) (nloc H AX path)) = true)) as (a & -> & XA).
    { destruct X as [->| ->]; by eexists. }
    destruct a.
    - apply faulty_done in S2 as [-> ->]. split; [done|left].
      destruct (file_at (view o) (nloc H AX path)) as [text|] eqn:E; [|by specialize (XA eq_refl)].
      exists AX, text. split_and!; try done. by left.
    - apply faulty_try in S2 as (o2 & y & S1 & S2). apply exists_faulty in S1 as [-> Y].
      rewrite (exists_at H PB GS) in Y by (done || by right).
      assert (exists g : bool, y = Ok g /\ (g = true -> is_some (file_at (view o) (nloc H GX path)) = true)) as (g & -> & XG).
      { destruct Y as [->| ->]; by eexists. }
      destruct g; apply faulty_done in S2 as [-> ->]; (split; [done|]); [left|by right].
      destruct (file_at (view o) (nloc H GX path)) as [text|] eqn:E; [|by specialize (XG eq_refl)].
      exists GX, text. split_and!; try done. by right.
  Qed.
  Lemma list_attributes_faulty path rs o o' r : idle o -> wf_fs (view o) -> plain path ->
    faulty o (p_list_attributes H path rs) o' r ->
    fine o o' /\ (r = list_attributes H (view o) path \/ (exists e, r = Err e) \/
      (file_at (view o) (nloc H AX path) <> None /\ file_at (view o) (nloc H GX path) <> None)).
  Proof.
    intros I W P S. unfold p_list_attributes in S. rewrite (list_attributes_at H PB GS) by done.
    apply faulty_try in S as (o1 & k & S1 & S2). apply node_key_faulty in S1 as [-> X]; [|done|done].
    destruct X as [(ext & text & NE & -> & FE)| ->].
    2:{ destruct S2 as [-> ->]. split; [by apply fine_refl|right; left; by eexists]. }
    apply faulty_try in S2 as (o1 & x & S1 & S2). apply get_faulty in S1 as [F1 X]; [|done].
    destruct X as [->|[->| ->]].
    - rewrite (get_at H PB GS), FE in S2 by done. apply faulty_done in S2 as [-> ->]. split; [done|].
      destruct (file_at (view o) (nloc H AX path)) as [ta|] eqn:FA.
      + destruct NE as [->| ->].
        * left. rewrite FA in FE. injection FE as ->. done.
        * right; right. by rewrite FE.
      + left. destruct NE as [->| ->]; [by rewrite FA in FE|]. by rewrite FE.
    - apply faulty_done in S2 as [-> ->]. split; [done|right; left]. cbn. by eexists.
    - destruct S2 as [-> ->]. split; [done|right; left]. by eexists.
  Qed.

  Context (sl : bytes -> list bytes) (SL : forall b, concat (sl b) = b).
  Lemma op_faulty rs op o o' r : calm o -> wf_fs (view o) -> mo_ok op ->
    faulty o (p_meta_op H sl rs op) o' r ->
    calm o' /\ wf_fs (view o') /\ dirs_kept (view o) (view o') /\
    ((r = Ok tt /\ mo_done H (view o) (view o') op) \/
     (exists e, r = Err e /\ forall q, file_at (view o') q = file_at (view o) q)).
  Proof.
    intros C W M S. pose proof (mo_plain op M) as P.
    assert (EXI : forall ext o1 o2 x, wf_fs (view o1) -> is_node_ext ext ->
      faulty o1 (p_exists base (metadata_key ext sfx (mo_path op))) o2 x ->
      o2 = o1 /\ exists b : bool, x = Ok b /\ (b = true -> is_some (file_at (view o1) (nloc H ext (mo_path op))) = true)).
    { intros ext o1 o2 x W1 NE S1. apply exists_faulty in S1 as [-> X]. split; [done|].
      rewrite (exists_at H PB GS) in X by done. destruct X as [->| ->]; by eexists. }
    assert (SAME : forall e, o' = o -> r = Err e -> calm o' /\ wf_fs (view o') /\ dirs_kept (view o) (view o') /\
      ((r = Ok tt /\ mo_done H (view o) (view o') op) \/
       (exists e, r = Err e /\ forall q, file_at (view o') q = file_at (view o) q))).
    { intros e -> ->. split; [done|]. split; [done|]. split; [by intros q|]. right. by exists e. }
    assert (SETS : forall ext v o1, is_node_ext ext -> calm o1 -> view o1 = view o ->
      (file_at (view o') (nloc H ext (mo_path op)) = Some (print v) ->
       same_except (view o) (view o') (nloc H ext (mo_path op)) -> mo_done H (view o) (view o') op) ->
      faulty o1 (p_set base (metadata_key ext sfx (mo_path op)) (sl (print v)) (Ok tt)) o' r ->
      calm o' /\ wf_fs (view o') /\ dirs_kept (view o) (view o') /\
      ((r = Ok tt /\ mo_done H (view o) (view o') op) \/
       (exists e, r = Err e /\ forall q, file_at (view o') q = file_at (view o) q))).
    { intros ext v o1 NE C1 V1 MD S1. apply set_faulty in S1 as (C' & W' & SE & DK & D); [|done|by apply nloc_plain|done|by rewrite V1].
      rewrite V1, SL in *. split; [done|]. split; [done|]. split; [done|].
      destruct D as [[-> D]|(e & -> & D)]; [left; split; [done|by apply MD]|right].
      exists e. split; [done|]. intros q. destruct (decide (q = nloc H ext (mo_path op))) as [->|N]; [done|by apply SE]. }
    assert (GO : view o = view o) by done.
    destruct op as [path m|path|path attrs]; cbn [mo_path p_meta_op] in *.
    - unfold p_create_array, akey, gkey, array_metadata_key, group_metadata_key in S.
      apply faulty_try in S as (o1 & x & S1 & S2). apply EXI in S1 as (-> & g & -> & _); [|done|by right].
      destruct g. { apply faulty_done in S2 as [-> ->]. by eapply SAME. }
      apply faulty_try in S2 as (o1 & x & S1 & S2). apply EXI in S1 as (-> & a & -> & _); [|done|by left].
      destruct a. { apply faulty_done in S2 as [-> ->]. by eapply SAME. }
      apply SETS in S2; [done|by left|done|done|]. intros F SE. by split.
    - unfold p_create_group, akey, gkey, array_metadata_key, group_metadata_key in S.
      apply faulty_try in S as (o1 & x & S1 & S2). apply EXI in S1 as (-> & a & -> & _); [|done|by left].
      destruct a. { apply faulty_done in S2 as [-> ->]. by eapply SAME. }
      apply faulty_try in S2 as (o1 & x & S1 & S2). apply EXI in S1 as (-> & g & -> & XG); [|done|by right].
      destruct g.
      + apply faulty_done in S2 as [-> ->]. split; [done|]. split; [done|]. split; [by intros q|]. left. split; [done|].
        specialize (XG eq_refl). destruct (file_at (view o) (nloc H GX path)) as [text|] eqn:E; [|done].
        split; [|done]. right. by exists text.
      + apply SETS in S2; [done|by right|done|done|]. intros F SE. split; [by left|done].
    - unfold p_set_attributes in S. destruct M as (_ & AV & AD).
      apply faulty_try in S as (o1 & k & S1 & S2). apply node_key_faulty in S1 as [-> X]; [|done|done].
      destruct X as [(ext & text & NE & -> & FE)| ->]; [|destruct S2 as [-> ->]; by eapply SAME].
      apply faulty_try in S2 as (o1 & x & S1 & S2). apply get_faulty in S1 as [(V1 & I1 & R1) X]; [|apply C].
      assert (C1 : calm o1) by (split; [done|rewrite R1; apply C]).
      assert (SAME1 : forall e, o' = o1 -> r = Err e -> calm o' /\ wf_fs (view o') /\ dirs_kept (view o) (view o') /\
        ((r = Ok tt /\ mo_done H (view o) (view o') (MSetAttributes path attrs)) \/
         (exists e, r = Err e /\ forall q, file_at (view o') q = file_at (view o) q))).
      { intros e -> ->. rewrite V1. split; [done|]. split; [done|]. split; [by intros q|]. right. by exists e. }
      destruct X as [->|[->| ->]].
      2:{ cbn [of_option pres] in S2. apply faulty_done in S2 as [-> ->]. by eapply SAME1. }
      2:{ destruct S2 as [-> ->]. by eapply SAME1. }
      rewrite (get_at H PB GS), FE in S2 by done. cbn [of_option pres] in S2.
      destruct (from_text as_map text) as [doc|e|] eqn:D; cbn [pres] in S2.
      2:{ apply faulty_done in S2 as [-> ->]. by eapply SAME1. }
      2:{ exfalso. unfold from_text in D. destruct (parse text) as [v|]; [|done]. by destruct v. }
      pose proof (as_map_doc_ok _ _ D) as DO. pose proof (merge_doc_ok doc attrs DO AV AD) as DM.
      cbv zeta in S2. destruct (json_eqb (JObj (merge_doc doc attrs)) (JObj doc)) eqn:JE.
      + apply faulty_done in S2 as [-> ->]. rewrite V1. split; [done|]. split; [done|]. split; [by intros q|]. left. split; [done|].
        exists ext, text, doc, text. split_and!; try done.
        apply json_eqb_true in JE. injection JE as JE. by rewrite JE.
      + apply SETS in S2; [done|done|done|done|]. intros F SE.
        exists ext, text, doc, (print (JObj (merge_doc doc attrs))). split_and!; try done.
        by apply doc_ok_reads.
  Qed.

  Lemma remove_faulty ord fuel path o o' r : os_ok o -> wf_fs (view o) -> plain path ->
    faulty o (p_remove H ord fuel path) o' r ->
    os_ok o' /\ lost (fun q => q = nloc H GX path \/ q = nloc H AX path \/
      (pieces base ++ B "data" :: B "root" :: pieces path) `prefix_of` q) (view o) (view o').
  Proof.
    intros K W PP S. apply (faulty_removes _ (p_remove H ord fuel path) o o' r); try done.
    assert (PG : plain (gkey H path)) by (apply (nloc_plain H GS); [by right|done]).
    assert (PA : plain (akey H path)) by (apply (nloc_plain H GS); [by left|done]).
    assert (PD := data_key_plain path PP).
    assert (WEAK : forall A (P Q : fpath -> Prop) (p : proc A), (forall q, P q -> Q q) ->
      calls (removes P) p -> calls (removes Q) p).
    { intros A P Q p PQ. induction p as [a|T c k IH]; [done|]. intros [Hc Hk]. split; [|intros x; by apply IH].
      destruct c; cbn in *; try done; destruct Hc as (q & ? & ?); exists q; auto. }
    unfold p_remove. apply try_calls; [|intros _; apply try_calls; [|intros _; apply try_calls; [|done]]].
    - eapply WEAK; [|by apply erase_calls]. intros q ->. by left.
    - eapply WEAK; [|by apply erase_calls]. intros q ->. right; by left.
    - eapply WEAK; [|by apply erase_prefix_calls]. intros q X. right; right. by rewrite data_key_loc in X.
  Qed.

  (** ** Refusals taken for absence *)

  Lemma denied_read C h t path m pos rs o deny : plain path -> plain (am_sep m) -> pos_ok pos ->
    in_bounds (h_prof h) m pos = Ok true ->
    deny (map Normal (loc base (get_chunk_key path m pos))) = true ->
    denied deny o (p_read_chunk H C h t path m pos rs) = Some (o, Ok None).
  Proof.
    intros PP PS Q IB D. unfold p_read_chunk. rewrite IB. cbn [mbind res_bind assert_ pres].
    unfold p_get. rewrite key_comps_plain; [|done|by apply plain_chunk_key].
    cbn [pres ptry pbind denied names refused]. by rewrite D.
  Qed.
  Lemma denied_delete path m pos o deny : plain path -> plain (am_sep m) -> pos_ok pos ->
    deny (map Normal (loc base (get_chunk_key path m pos))) = true ->
    denied deny o (p_delete_chunk H path m pos) = Some (o, Ok true).
  Proof.
    intros PP PS Q D. unfold p_delete_chunk, p_erase. rewrite key_comps_plain; [|done|by apply plain_chunk_key].
    cbn [pres denied names refused]. rewrite !D. cbn [denied names refused]. by rewrite ?D.
  Qed.
  Lemma denied_remove ord fuel path o deny : plain path ->
    (forall q, deny (map Normal (pieces base ++ q)) = true) ->
    denied deny o (p_remove H ord fuel path) = Some (o, Ok tt).
  Proof.
    intros PP D. unfold p_remove.
    assert (PG : plain (gkey H path)) by (apply (nloc_plain H GS); [by right|done]).
    assert (PA : plain (akey H path)) by (apply (nloc_plain H GS); [by left|done]).
    assert (PD := data_key_plain path PP).
    unfold p_erase, p_erase_prefix. rewrite !key_comps_plain by done.
    unfold loc. cbn [pres ptry pbind denied names refused]. repeat (rewrite D; cbn [pres ptry pbind denied names refused negb]).
    done.
  Qed.
  (** Creating an array again over an existing one, one call refused. *)
  Lemma create_over path m o : calm o -> wf_fs (view o) -> plain path ->
    file_at (view o) (nloc H AX path) <> None -> file_at (view o) (nloc H GX path) = None ->
    exists o', faulty o (p_create_array H sl path m) o' (Ok tt) /\ calm o' /\
      file_at (view o') (nloc H AX path) = Some (print (enc_meta m)).
  Proof.
    intros C W PP FA FG.
    assert (PG : plain (gkey H path)) by (apply (nloc_plain H GS); [by right|done]).
    assert (PA : plain (akey H path)) by (apply (nloc_plain H GS); [by left|done]).
    destruct (file_at (view o) (nloc H AX path)) as [text|] eqn:EA; [|done].
    assert (CH : can_hold_file (view o) (nloc H AX path)).
    { apply file_at_some in EA. split; [|congruence]. intros q [r E] N c F. apply file_at_some in F.
      rewrite E in EA. destruct (decide (r = [])) as [->|Nr]; [by rewrite app_nil_r in E|].
      rewrite (wf_prefix _ _ _ _ W EA Nr) in F. done. }
    destruct (does_set base (akey H path) (sl (print (enc_meta m))) (Ok tt) o C) as (o' & R & V & C').
    rewrite SL in R, V.
    destruct (st_set_ok base (view o) (akey H path) W PB PA (print (enc_meta m), Ok tt) CH) as (s' & ES & W' & NA).
    rewrite ES in R, V. cbn [fst snd] in R, V.
    exists o'. split; [|split; [done|]].
    - unfold p_create_array, p_exists. rewrite !key_comps_plain by done. cbn [pres ptry pbind].
      eapply faulty_real; [reflexivity|]. rewrite path_is_file_plain by done.
      change (loc base (gkey H path)) with (nloc H GX path). rewrite FG. cbn [pbind].
      eapply (faulty_refuse _ _ _ false); [reflexivity|]. cbn [pbind]. by apply faulty_run.
    - rewrite V. unfold file_at. by rewrite NA, decide_True.
  Qed.
  (** Not so while the same files are refused throughout. *)
  Lemma denied_create path m o o' deny : wf_fs (view o) -> plain path ->
    denied deny o (p_create_array H sl path m) = Some (o', Ok tt) ->
    file_at (view o) (nloc H AX path) = None.
  Proof.
    intros W PP.
    assert (PG : plain (gkey H path)) by (apply (nloc_plain H GS); [by right|done]).
    assert (PA : plain (akey H path)) by (apply (nloc_plain H GS); [by left|done]).
    unfold p_create_array, p_exists. rewrite !key_comps_plain by done. intros E.
    cbn [pres] in E. unfold ptry in E. rewrite !denied_bind in E.
    assert (FALL : denied deny o (pbind (Call (SIsFile (map Normal (loc base (akey H path)))) (fun b => Ret (Ok b)))
      (fun r => match r with
       | Ok a => if a : bool then Ret (Err AlreadyExists)
                 else p_set base (akey H path) (sl (print (enc_meta m))) (Ok tt)
       | Err e => Ret (Err e) | Panic => Ret Panic end)) = Some (o', Ok tt)).
    { cbn [denied names refused sys_step] in E. destruct (deny _) in E; cbn [denied] in E; [done|].
      by destruct (path_is_file (view o) _) in E. }
    clear E. rewrite denied_bind in FALL. cbn [denied names refused sys_step] in FALL.
    destruct (deny (map Normal (loc base (akey H path)))) eqn:D; cbn [denied] in FALL.
    - exfalso. unfold p_set in FALL. rewrite key_comps_plain in FALL by done. cbn [pres] in FALL. unfold ptry in FALL.
      rewrite denied_bind in FALL. destruct (denied deny o _) as [[o1 [u|e|]]|] in FALL; [|done..].
      rewrite denied_bind in FALL. cbn [denied names refused] in FALL. by rewrite D in FALL.
    - rewrite path_is_file_plain in FALL by done. change (nloc H AX path) with (loc base (akey H path)).
      destruct (file_at (view o) (loc base (akey H path))); [done|done].
  Qed.
End Ops.

(** ** As the properties say it *)

Lemma fine_calm o o' : calm o -> fine o o' -> calm o' /\ view o' = view o.
Proof. intros [_ R] (V & I & R'). split; [|done]. split; [done|congruence]. Qed.

Lemma fault_read_chunk :
  forall H C h t path m pos rs o o' r, calm o ->
  faulty o (p_read_chunk H C h t path m pos rs) o' r ->
  calm o' /\ view o' = view o /\
  (answers o (p_read_chunk H C h t path m pos rs) r \/ r = Ok None \/ r = Err Other).
Proof.
  intros H C h t path m pos rs o o' r CA S. apply read_chunk_faulty in S as [F D]; [|apply CA].
  destruct (fine_calm _ _ CA F) as [CA' V']. split; [done|]. split; [done|].
  destruct D as [->|D]; [left|by right]. destruct (does_read_chunk H C h t path m pos rs o CA) as (o2 & R & _).
  by exists o2.
Qed.
Lemma fault_get_array_metadata :
  forall H path rs o o' r, calm o ->
  faulty o (p_get_array_metadata H path rs) o' r ->
  calm o' /\ view o' = view o /\
  (answers o (p_get_array_metadata H path rs) r \/ exists e, r = Err e).
Proof.
  intros H path rs o o' r CA S. apply get_array_metadata_faulty in S as [F D]; [|apply CA].
  destruct (fine_calm _ _ CA F) as [CA' V']. split; [done|]. split; [done|].
  destruct D as [->|D]; [left|by right]. destruct (does_get_array_metadata H path rs o CA) as (o2 & R & _).
  by exists o2.
Qed.
Lemma fault_list_attributes :
  forall H, plain (hy_base H) -> good_suffix (ep_suffix (hy_ep H)) ->
  forall path rs o o' r, calm o -> wf_fs (view o) -> plain path ->
  ~ (explicit_array H (view o) path /\ explicit_group H (view o) path) ->
  faulty o (p_list_attributes H path rs) o' r ->
  calm o' /\ view o' = view o /\
  (answers o (p_list_attributes H path rs) r \/ exists e, r = Err e).
Proof.
  intros H PB GS path rs o o' r CA W PP NB S. apply list_attributes_faulty in S as [F D]; [|done|done|apply CA|done|done].
  destruct (fine_calm _ _ CA F) as [CA' V']. split; [done|]. split; [done|].
  destruct D as [->|[D|[D1 D2]]]; [left|by right|].
  - destruct (does_list_attributes H path rs o CA) as (o2 & R & _). by exists o2.
  - destruct NB. split; [by apply (explicit_a H PB GS)|by apply (explicit_g H PB GS)].
Qed.

Lemma read_entry_point_faulty base rs o o' r : calm o -> faulty o (p_read_entry_point base rs) o' r ->
  calm o' /\ view o' = view o /\ (r = read_entry_point base (view o) \/ r = Err Other).
Proof.
  intros CA S. destruct (does_read_entry_point base rs o CA) as (o2 & R & V2 & C2).
  assert (FULL : run o (p_read_entry_point base rs) = Some (o', r) ->
    calm o' /\ view o' = view o /\ (r = read_entry_point base (view o) \/ r = Err Other)).
  { rewrite R. intros E. injection E as <- <-. split; [done|]. split; [done|by left]. }
  unfold p_read_entry_point in S, FULL. cbv zeta in S, FULL.
  apply faulty_bind in S as (o1 & x & S1 & S). apply faulty_call in S1 as (o3 & y & E & S1).
  apply faulty_done in S1 as [-> ->]. destruct E as [E|[-> E]].
  - apply FULL. unfold ptry. rewrite run_bind. cbn [run]. rewrite E. cbn [run]. apply firm_run in S; [done|].
    destruct y as [fd|e|]; [|done..]. apply calls_bind; [apply read_all_firm|]. done.
  - cbn in E. injection E as <-. apply faulty_done in S as [-> ->]. split; [done|]. split; [done|by right].
Qed.
Lemma fault_open :
  forall V base rs o o' r, calm o -> faulty o (p_open V base rs) o' r ->
  calm o' /\ view o' = view o /\ (answers o (p_open V base rs) r \/ exists e, r = Err e).
Proof.
  intros V base rs o o' r CA S. destruct (does_open V base rs o CA) as (o2 & R & _). cbn [snd] in R.
  unfold p_open in S. apply faulty_try in S as (o1 & x & S1 & S2).
  apply read_entry_point_faulty in S1 as (C1 & V1 & X); [|done].
  destruct X as [->| ->].
  - unfold open_hier in R. destruct (read_entry_point base (view o)) as [e|e|]; cbn [mbind res_bind] in R.
    + apply faulty_done in S2 as [-> ->]. split; [done|]. split; [done|left]. by exists o2.
    + destruct S2 as [-> ->]. split; [done|]. split; [done|left]. by exists o2.
    + destruct S2 as [-> ->]. split; [done|]. split; [done|left]. by exists o2.
  - destruct S2 as [-> ->]. split; [done|]. split; [done|right]. by exists Other.
Qed.

Lemma fault_write_chunk :
  forall H, plain (hy_base H) ->
  forall C h t path m ck ws o o' r, calm o -> wf_fs (view o) ->
  plain path -> plain (am_sep m) -> pos_ok (ck_pos ck) ->
  encode_chunk C h t m ck = (concat ws, Ok tt) ->
  faulty o (p_write_chunk H C h t path m ck ws) o' r ->
  calm o' /\ wf_fs (view o') /\
  ((r = Ok tt /\ exists o2, run o (p_write_chunk H C h t path m ck ws) = Some (o2, Ok tt) /\
      forall p, file_at (view o') p = file_at (view o2) p)
   \/ (exists e, r = Err e /\ forall p, file_at (view o') p = file_at (view o) p)).
Proof.
  intros H PB C h t path m ck ws o o' r CA W PP PS Q E S.
  assert (PK : plain (get_chunk_key path m (ck_pos ck))) by by apply plain_chunk_key.
  unfold p_write_chunk in *. rewrite E in *. cbn [snd] in *.
  assert (CH0 := S). apply set_faulty in S as (C' & W' & SE & DK & D); [|done..].
  split; [done|]. split; [done|].
  destruct D as [[-> D]|(e & -> & D)]; [left|right].
  2:{ exists e. split; [done|]. intros p.
      destruct (decide (p = loc (hy_base H) (get_chunk_key path m (ck_pos ck)))) as [->|N]; [done|by apply SE]. }
  split; [done|].
  assert (CH : can_hold_file (view o) (loc (hy_base H) (get_chunk_key path m (ck_pos ck)))).
  { destruct (can_hold_existing (view o') _ W' (ex_intro _ _ D)) as [F ND]. split.
    - intros q Q1 Q2 c X. apply (F q Q1 Q2 c). by rewrite SE.
    - intros X. apply is_dir_at_true, DK, is_dir_at_true in X. done. }
  destruct (does_set (hy_base H) (get_chunk_key path m (ck_pos ck)) ws (Ok tt) o CA) as (o2 & R & V & _).
  destruct (st_set_ok (hy_base H) (view o) _ W PB PK (concat ws, Ok tt) CH) as (s' & ES & _ & NA).
  rewrite ES in R, V. cbn [fst snd] in *. exists o2. split; [done|]. intros p. rewrite V.
  destruct (decide (p = loc (hy_base H) (get_chunk_key path m (ck_pos ck)))) as [->|N].
  - rewrite D. unfold file_at. by rewrite NA, decide_True.
  - rewrite SE by done. unfold file_at. rewrite NA, decide_False by done.
    destruct (decide (p `prefix_of` _)) as [Q1|Q1]; [|done].
    destruct (node_at (view o) p) as [[|c]|] eqn:Ep; try done. exfalso.
    destruct CH as [CH _]. apply (CH p Q1 N c). unfold file_at. by rewrite Ep.
Qed.

Lemma fault_delete_chunk :
  forall H, plain (hy_base H) ->
  forall path m pos o o' r, calm o -> wf_fs (view o) ->
  plain path -> plain (am_sep m) -> pos_ok pos ->
  faulty o (p_delete_chunk H path m pos) o' r ->
  calm o' /\ wf_fs (view o') /\
  (forall p, p <> loc (hy_base H) (get_chunk_key path m pos) -> file_at (view o') p = file_at (view o) p) /\
  ((view o' = view o /\ (r = Ok true \/ r = Ok false \/ exists e, r = Err e))
   \/ (r = Ok true /\ file_at (view o') (loc (hy_base H) (get_chunk_key path m pos)) = None)).
Proof.
  intros H PB path m pos o o' r CA W PP PS Q S.
  assert (PK : plain (get_chunk_key path m pos)) by by apply plain_chunk_key.
  apply erase_faulty in S as (I' & R' & W' & D & _ & NP); [|done|done|apply CA|done].
  split; [split; [done|rewrite R'; apply CA]|]. split; [done|].
  destruct D as [D|((c & F) & D & ->)].
  - split; [by rewrite D|]. left. split; [done|]. destruct r as [[|]|e|]; [by left|by right; left| |done].
    right; right. by exists e.
  - assert (NE : loc (hy_base H) (get_chunk_key path m pos) <> []) by (intros X; by rewrite X in F).
    split.
    + intros p N. rewrite D. unfold file_at. by rewrite node_at_delete, decide_False.
    + right. split; [done|]. rewrite D. unfold file_at. by rewrite node_at_delete, decide_True.
Qed.
Lemma fault_remove :
  forall H, plain (hy_base H) -> good_suffix (ep_suffix (hy_ep H)) ->
  forall C h ord fuel path o o' r, calm o -> wf_fs (view o) -> plain path ->
  faulty o (p_remove H ord fuel path) o' r ->
  (idle (released o') /\ wf_fs (view (released o')))
  /\ (forall path' rs, plain path' -> pieces path' <> pieces path ->
       (exists a, answers o (p_get_array_metadata H path' rs) a
               /\ answers (released o') (p_get_array_metadata H path' rs) a)
       /\ (exists a, answers o (p_list_attributes H path' rs) a
               /\ answers (released o') (p_list_attributes H path' rs) a))
  /\ (forall t path' m pos rs, plain path' -> good_sep (am_sep m) -> pos_ok pos ->
       exists a, answers (released o') (p_read_chunk H C h t path' m pos rs) a
        /\ (answers o (p_read_chunk H C h t path' m pos rs) a
            \/ (a = Ok None /\
                (Forall (ordinary_name (ep_suffix (hy_ep H))) (pieces path) -> pieces path `prefix_of` pieces path')))).
Proof.
  intros H PB GS C h ord fuel path o o' r CA W PP S.
  apply (remove_faulty H PB GS) in S as [K L]; [|apply CA|done|done]. pose proof (proj1 L) as W'.
  assert (I : idle o) by apply CA. assert (I' : idle (released o')) by by apply idle_released.
  split; [by rewrite view_released|]. split.
  - intros path' rs P' N.
    destruct (node_same H PB GS (view o) (view o') path' W W' P') as (_ & _ & M1 & M2).
    + by apply (doc_kept H GS path PP ARRAY_METADATA_KEY_EXT path' (view o) (view o')); [left|..].
    + by apply (doc_kept H GS path PP GROUP_METADATA_KEY_EXT path' (view o) (view o')); [right|..].
    + split; eexists; (split; [by apply reads_answers; (apply reads_get_array_metadata || apply reads_list_attributes)|]).
      * rewrite <- M1, <- (view_released o'). by apply reads_answers, reads_get_array_metadata.
      * rewrite <- M2, <- (view_released o'). by apply reads_answers, reads_list_attributes.
  - intros t path' m pos rs P' SP Q. eexists. split; [by apply reads_answers, reads_read_chunk|]. rewrite view_released.
    destruct (chunk_lost H PB GS path C h (view o) (view o') t path' m pos W L P' SP Q) as [->|[-> X]].
    + left. by apply reads_answers, reads_read_chunk.
    + right. split; [done|]. intros O. destruct (decide (pieces path `prefix_of` pieces path')) as [?|NP]; [done|exfalso].
      rewrite loc_chunk in X. destruct X as [k X]. rewrite <- app_assoc in X.
      apply app_inv_head in X. cbn [app] in X. injection X as X. apply NP.
      destruct (chunk_head (ep_suffix (hy_ep H)) (am_sep m) pos Q SP) as (x & r0 & E & O'). rewrite E in X.
      eapply ord_prefix; [exact O|exact O'|]. by exists k.
Qed.

(** While the same files are refused throughout, nothing is overwritten. *)
Lemma denied_create_group H (PB : plain (hy_base H)) (GS : good_suffix (ep_suffix (hy_ep H))) sl path o o' deny :
  wf_fs (view o) -> plain path ->
  denied deny o (p_create_group H sl path) = Some (o', Ok tt) ->
  o' = o \/ file_at (view o) (nloc H GROUP_METADATA_KEY_EXT path) = None.
Proof.
  intros W PP.
  assert (PG : plain (gkey H path)) by (apply (nloc_plain H GS); [by right|done]).
  assert (PA : plain (akey H path)) by (apply (nloc_plain H GS); [by left|done]).
  unfold p_create_group, p_exists. rewrite !key_comps_plain by done. intros E.
  cbn [pres] in E. unfold ptry in E. rewrite !denied_bind in E.
  assert (FALL : denied deny o (pbind (Call (SIsFile (map Normal (loc (hy_base H) (gkey H path)))) (fun b => Ret (Ok b)))
    (fun r => match r with
     | Ok a => if a : bool then Ret (Ok tt)
               else p_set (hy_base H) (gkey H path) (sl (print group_default_json)) (Ok tt)
     | Err e => Ret (Err e) | Panic => Ret Panic end)) = Some (o', Ok tt)).
  { cbn [denied names refused sys_step] in E. destruct (deny _) in E; cbn [denied] in E; [done|].
    by destruct (path_is_file (view o) _) in E. }
  clear E. rewrite denied_bind in FALL. cbn [denied names refused sys_step] in FALL.
  destruct (deny (map Normal (loc (hy_base H) (gkey H path)))) eqn:D; cbn [denied] in FALL.
  - exfalso. unfold p_set in FALL. rewrite key_comps_plain in FALL by done. cbn [pres] in FALL. unfold ptry in FALL.
    rewrite denied_bind in FALL. destruct (denied deny o _) as [[o1 [u|e|]]|] in FALL; [|done..].
    rewrite denied_bind in FALL. cbn [denied names refused] in FALL. by rewrite D in FALL.
  - rewrite path_is_file_plain in FALL by done. change (nloc H GROUP_METADATA_KEY_EXT path) with (loc (hy_base H) (gkey H path)).
    destruct (file_at (view o) (loc (hy_base H) (gkey H path))); [left|by right]. cbn [denied] in FALL. by injection FALL.
Qed.
Lemma denied_meta :
  forall H, plain (hy_base H) -> good_suffix (ep_suffix (hy_ep H)) ->
  forall sl, (forall b, concat (sl b) = b) ->
  forall deny path m o o' r, calm o -> wf_fs (view o) -> plain path -> meta_value m -> nesting_ok m ->
  denied deny o (p_create_array H sl path m) = Some (o', r) \/ denied deny o (p_create_group H sl path) = Some (o', r) ->
  forall p c, file_at (view o) p = Some c -> file_at (view o') p = Some c.
Proof.
  intros H PB GS sl SL deny path m o o' r CA W PP MV NO D p c F.
  destruct D as [D|D].
  - assert (S := faulty_denied _ _ _ _ _ D).
    apply (op_faulty H PB GS sl SL [] (MCreateArray path m)) in S as (_ & _ & _ & X); [|done|done|done].
    destruct X as [[-> [_ X]]|(e & _ & X)]; [|by rewrite X]. cbn [mo_path] in X.
    apply denied_create in D; [|done..]. rewrite X; [done|]. intros ->. unfold nloc in D. congruence.
  - assert (S := faulty_denied _ _ _ _ _ D).
    apply (op_faulty H PB GS sl SL [] (MCreateGroup path)) in S as (_ & _ & _ & X); [|done|done|done].
    destruct X as [[-> [_ X]]|(e & _ & X)]; [|by rewrite X]. cbn [mo_path] in X.
    apply denied_create_group in D as [->|D]; [done| |done..]. rewrite X; [done|]. intros ->. unfold nloc in D. congruence.
Qed.
Lemma denied_open_or_create :
  forall V base, plain base -> forall sl deny rs o o' r c, calm o -> wf_fs (view o) ->
  denied deny o (p_open_or_create V sl base rs) = Some (o', r) ->
  file_at (view o) (pieces base ++ [B "zarr.json"]) = Some c ->
  file_at (view o') (pieces base ++ [B "zarr.json"]) = Some c.
Proof.
  intros V base PB sl deny rs o o' r c CA W D F.
  change (B "zarr.json") with ENTRY_POINT_KEY in *.
  unfold p_open_or_create in D. cbv zeta in D. rewrite entry_comps in D by done.
  cbn [denied names refused sys_step] in D.
  destruct (deny (map Normal (pieces base ++ [ENTRY_POINT_KEY]))) eqn:DY.
  - unfold ptry in D. rewrite denied_bind in D. destruct (denied deny o _) as [[o1 x]|] eqn:D1 in D; [|done].
    apply faulty_denied in D1. rewrite (comps_plain base PB), map_length in D1.
    assert (G : grown (pieces base) (view o) (view o1)).
    { apply (faulty_calls (makes_dirs (pieces base)) (fun o1 => os_ok o1 /\ grown (pieces base) (view o) (view o1))
        (makes_dirs_step (pieces base) (view o))) in D1; [apply D1|apply mkdir_all_calls|].
      split; [apply CA|by apply grown_refl]. }
    destruct (grown_files _ _ _ G) as [FE _].
    assert (o' = o1) as ->; [|by rewrite FE].
    destruct x as [u|e|]; cbn [denied] in D; [|by injection D|by injection D].
    rewrite denied_bind in D. cbn [denied names refused] in D. rewrite DY in D. by injection D.
  - rewrite path_exists_plain in D by done. unfold file_at in F.
    destruct (node_at (view o) (pieces base ++ [ENTRY_POINT_KEY])) as [[|c']|] eqn:N; try done. injection F as ->.
    apply faulty_denied in D. apply faulty_try in D as (o1 & x & S1 & S2).
    apply read_entry_point_faulty in S1 as (_ & V1 & _); [|done].
    assert (o' = o1) as ->.
    { destruct x; [by apply faulty_done in S2 as [-> _]|by destruct S2..]. }
    rewrite V1. unfold file_at. by rewrite N.
Qed.

Lemma fault_metadata_read :
  forall H, plain (hy_base H) -> good_suffix (ep_suffix (hy_ep H)) ->
  forall path rs o, calm o -> wf_fs (view o) -> plain path ->
  (forall V o' r, faulty o (p_open V (hy_base H) rs) o' r ->
     calm o' /\ view o' = view o /\ (answers o (p_open V (hy_base H) rs) r \/ exists e, r = Err e))
  /\ (forall o' r, faulty o (p_get_array_metadata H path rs) o' r ->
     calm o' /\ view o' = view o /\ (answers o (p_get_array_metadata H path rs) r \/ exists e, r = Err e))
  /\ (forall o' r, ~ (explicit_array H (view o) path /\ explicit_group H (view o) path) ->
     faulty o (p_list_attributes H path rs) o' r ->
     calm o' /\ view o' = view o /\ (answers o (p_list_attributes H path rs) r \/ exists e, r = Err e)).
Proof.
  intros H PB GS path rs o CA W PP. split; [|split].
  - intros V o' r. by apply fault_open.
  - intros o' r. by apply fault_get_array_metadata.
  - intros o' r. by apply fault_list_attributes.
Qed.

(** ** When looking is never refused *)

Lemma visible_faulty {A} o (p : proc A) o' a : visible o p o' a -> faulty o p o' a.
Proof.
  induction 1 as [|T c k o o1 x o2 a E _ IH|T c k o x o2 a _ E _ IH]; [constructor|by eapply faulty_real|by eapply faulty_refuse].
Qed.
