(** Consequences of the order of attribute accesses: which updates are kept (C44, C75). *)
From Verif Require Import BaseFacts PathFacts KeyFacts FSFacts Spec SpecMeta SpecHier.
From Verif Require Import Sys SpecConc SpecLin SpecAttr ConcLin ConcAttr.
Local Open Scope Z_scope.

Lemma earlier_before {A} (l1 l2 : list A) x y : NoDup (l1 ++ x :: l2) -> earlier (l1 ++ x :: l2) y x -> y ∈ l1.
Proof.
  intros N (a & b & c & E). replace (a ++ y :: b ++ x :: c) with ((a ++ y :: b) ++ x :: c) in E by (by rewrite <- app_assoc).
  apply NoDup_split_unique in E as ->; [|done]. apply elem_of_app. right. by left.
Qed.
Lemma earlier_after {A} (l1 l2 : list A) x y : NoDup (l1 ++ x :: l2) -> earlier (l1 ++ x :: l2) x y -> y ∈ l2.
Proof.
  intros N (a & b & c & E). pose proof (NoDup_split_unique _ _ _ _ _ N E) as ->. apply app_inv_head in E. injection E as ->.
  apply elem_of_app. right. by left.
Qed.
Lemma NoDup_apart {A} (l1 l2 : list A) x : NoDup (l1 ++ l2) -> x ∈ l1 -> x ∈ l2 -> False.
Proof. intros (_ & N & _)%list.NoDup_app X Y. by apply (N x). Qed.
Lemma NoDup_omap_inj {A D} (f : A -> option D) l : NoDup l ->
  (forall x y i, f x = Some i -> f y = Some i -> x ∈ l -> y ∈ l -> x = y) -> NoDup (omap f l).
Proof.
  induction l as [|x l IH]; intros N I; [constructor|]. apply list.NoDup_cons in N as [N1 N2].
  assert (NoDup (omap f l)) as N3.
  { apply IH; [done|]. intros y z i Y Z Y1 Z1. apply (I y z i); [done|done|by right|by right]. }
  cbn. destruct (f x) as [i|] eqn:E; [|done]. apply list.NoDup_cons. split; [|done].
  intros (y & Y1 & Y2)%elem_of_list_omap. assert (x = y) as <-; [|done]. apply (I x y i); [done|done|by left|by right].
Qed.
Lemma omap_split {A D} (f : A -> option D) l1 l2 : omap f (l1 ++ l2) = omap f l1 ++ omap f l2.
Proof. induction l1 as [|x l1 IH]; [done|]. cbn. destruct (f x); cbn; by rewrite IH. Qed.

Global Instance moment_eq_dec : EqDecision moment.
Proof. solve_decision. Defined.

Section Kept.
  Context (C : codec) (h : host) (H : hier) (sl : bytes -> list bytes) (path : bytes) (o : os) (calls : list call).
  Context (sched : list nat) (o' : os) (ps : list (proc reply)) (old : jmap) (ms : list moment).
  Context (HI : attr_history C h H sl o calls path sched o' ps old ms).
  Context (EX : crun o (map (p_call C h H sl) calls) sched = Some (o', ps)) (AR : all_returned ps).
  Local Notation old_f := (fun k => mget k old).
  Local Notation st l := (foldl (at_moment calls) (fun _ => old_f, old_f) l).
  Local Notation before := (finished_before C h H sl o calls sched).

  Lemma h_nodup : NoDup ms. Proof. apply HI. Qed.
  Lemma h_stores i : Stores i ∈ ms -> (exists c, calls !! i = Some c /\ updates_attrs c path) /\ earlier ms (Looks i) (Stores i).
  Proof. apply HI. Qed.
  Lemma h_before x y : x ∈ ms -> y ∈ ms -> before (actor x) (actor y) -> earlier ms x y.
  Proof. apply HI. Qed.

  Lemma run_length o1 (ps1 : list (proc reply)) s : crun o1 ps1 s = Some (o', ps) -> length ps = length ps1.
  Proof.
    clear. revert o1 ps1. induction s as [|i s IH]; intros o1 ps1 R; cbn in R; [by injection R as _ <-|].
    destruct (ps1 !! i); [|done]. destruct (pstep o1 _) as [[o2 q2]|]; [|done]. apply IH in R. by rewrite R, insert_length.
  Qed.
  Lemma has_returned i c : calls !! i = Some c -> exists a, returned ps i a.
  Proof.
    intros E. apply lookup_lt_Some in E. apply run_length in EX. rewrite map_length in EX. rewrite <- EX in E.
    apply lookup_lt_is_Some_2 in E as [q E]. destruct (AR _ _ E) as [a ->]. by exists a.
  Qed.
  Lemma updater i c : calls !! i = Some c -> updates_attrs c path ->
    exists l1 l2, ms = l1 ++ Looks i :: l2 /\
      (Stores i ∈ l2 \/ Stores i ∉ ms /\ forall k v, mget k (update_of calls i) = Some v -> snd (st l1) k = Some v).
  Proof.
    intros E U. destruct (has_returned i c E) as [a R]. destruct c; try done. cbn in U.
    destruct HI as (_ & _ & _ & _ & _ & _ & X & _). destruct (X i path0 attrs rs a E U R) as (_ & l1 & l2 & E1 & Y).
    exists l1, l2. split; [done|]. unfold update_of. rewrite E. exact Y.
  Qed.
  Lemma looks_before_stores l r i : ms = l ++ Stores i :: r -> Looks i ∈ l.
  Proof.
    intros E. assert (Stores i ∈ ms) as I by (rewrite E; apply elem_of_app; right; by left).
    apply h_stores in I as [_ I]. pose proof h_nodup as N. rewrite E in I, N. by eapply earlier_before.
  Qed.
  Lemma latest_snoc k us u : latest k old (us ++ [u]) = match mget k u with Some v => Some v | None => latest k old us end.
  Proof. unfold latest. by rewrite foldl_snoc. Qed.

  (** *** An update that no other update overlaps *)
  Lemma stays i c k v : calls !! i = Some c -> updates_attrs c path -> mget k (update_of calls i) = Some v ->
    (forall j d, calls !! j = Some d -> updates_attrs d path -> j <> i ->
       before j i \/ before i j /\ mget k (update_of calls j) = None) ->
    exists l1 x l2, ms = l1 ++ x :: l2 /\ actor x = i /\ (forall y, y ∈ ms -> before i (actor y) -> y ∈ l2) /\
      forall r1 r2, l2 = r1 ++ r2 -> snd (st (l1 ++ x :: r1)) k = Some v.
  Proof.
    intros E U Ek OV. pose proof h_nodup as ND.
    assert (exists l1 x l2, ms = l1 ++ x :: l2 /\ actor x = i /\ snd (st (l1 ++ [x])) k = Some v /\ Stores i ∉ l2) as (l1 & x & l2 & EM & AX' & V0 & NS).
    { destruct (updater i c E U) as (l1 & l2 & EM & [S|[S V]]).
      - apply elem_of_list_split in S as (a & b & ->). exists (l1 ++ Looks i :: a), (Stores i), b.
        assert (ms = (l1 ++ Looks i :: a) ++ Stores i :: b) as EM' by (by rewrite EM, <- app_assoc). split_and!; [done|done| |].
        + rewrite foldl_snoc. cbn [at_moment snd]. by rewrite Ek.
        + intros X. rewrite EM', cons_middle, app_assoc in ND. apply (NoDup_apart _ _ (Stores i) ND); [|done].
          apply elem_of_app. right. by left.
      - exists l1, (Looks i), l2. split_and!; [done|done| |].
        + rewrite foldl_snoc. cbn [at_moment snd]. by apply V.
        + intros X. apply S. rewrite EM. apply elem_of_app. right. by right. }
    assert (IX : x ∈ ms) by (rewrite EM; apply elem_of_app; right; by left).
    assert (AF : forall y, y ∈ ms -> before i (actor y) -> y ∈ l2).
    { intros y Y B. rewrite <- AX' in B. pose proof (h_before x y IX Y B) as X. rewrite EM in X, ND. by eapply earlier_after. }
    exists l1, x, l2. split_and!; [done|done|done|].
    cut (forall r1 r2, l2 = r1 ++ r2 -> snd (st (l1 ++ x :: r1)) k = Some v /\
      forall j, Looks j ∈ r1 -> fst (st (l1 ++ x :: r1)) j k = Some v).
    { intros X r1 r2 R. by apply (X r1 r2). }
    intros r1. induction r1 as [|y r1 IH] using rev_ind; intros r2 R.
    { split; [done|]. intros j X. by apply elem_of_nil in X. }
    rewrite <- app_assoc in R. cbn [app] in R. destruct (IH _ R) as [I1 I2]. clear IH.
    assert (y ∈ l2) as YL by (rewrite R; apply elem_of_app; right; by left).
    assert (y ∈ ms) as YM by (rewrite EM; apply elem_of_app; right; by right).
    replace (l1 ++ x :: r1 ++ [y]) with ((l1 ++ x :: r1) ++ [y]) by (by rewrite <- app_assoc).
    rewrite foldl_snoc. destruct y as [j|j]; cbn [at_moment fst snd].
    - split; [done|]. intros j' [J|J]%elem_of_app; [by case_decide; [|apply I2]|].
      apply elem_of_list_singleton in J. injection J as ->. by rewrite decide_True.
    - assert (j <> i) as D by (intros ->; done).
      destruct (h_stores j YM) as [(d & Ed & Ud) EJ]. destruct (OV j d Ed Ud D) as [B|[B Kn]].
      + exfalso. rewrite <- AX' in B. pose proof (h_before (Stores j) x YM IX B) as X. rewrite EM in X, ND.
        apply earlier_before in X; [|done]. apply (NoDup_apart _ _ _ ND X). by right.
      + rewrite Kn. assert (Looks j ∈ r1) as LJ.
        { assert (Looks j ∈ ms) as LM. { destruct EJ as (a & b & e & ->). apply elem_of_app. right. by left. }
          pose proof (AF (Looks j) LM B) as L2. assert (ms = (l1 ++ x :: r1) ++ Stores j :: r2) as EM'.
          { by rewrite EM, R, <- app_assoc. }
          apply looks_before_stores in EM' as [L|L]%elem_of_app; [rewrite EM in ND; destruct (NoDup_apart _ _ _ ND L); by right|].
          apply elem_of_cons in L as [L|L]; [|done]. exfalso. subst x. by destruct D. }
        split; [by apply I2|]. intros j' [J|J]%elem_of_app; [by apply I2|]. by apply elem_of_list_singleton in J.
  Qed.
  Lemma update_kept i c k v : calls !! i = Some c -> updates_attrs c path -> mget k (update_of calls i) = Some v ->
    (forall j d, calls !! j = Some d -> updates_attrs d path -> j <> i ->
       before j i \/ before i j /\ mget k (update_of calls j) = None) ->
    (exists new, list_attributes H (view o') path = Ok new /\ mget k new = Some v) /\
    (forall j path' rs a, calls !! j = Some (KListAttributes path' rs) -> pieces path' = pieces path -> returned ps j a ->
       before i j -> exists new, a = YAttrs (Ok new) /\ mget k new = Some v).
  Proof.
    intros E U Ek OV. destruct (stays i c k v E U Ek OV) as (l1 & x & l2 & EM & _ & AF & V). split.
    - destruct HI as (_ & _ & _ & _ & _ & _ & _ & X). destruct (X AR) as (_ & new & E1 & E2). exists new. split; [done|].
      rewrite E2, EM. unfold replay. apply (V l2 []). by rewrite app_nil_r.
    - intros j path' rs a Ej PE R B. destruct HI as (_ & _ & _ & _ & X & _).
      destruct (X j path' rs a Ej PE R) as (g1 & g2 & new & EM2 & -> & E2). exists new. split; [done|]. rewrite E2. unfold replay.
      assert (Looks j ∈ l2) as L. { apply AF; [|done]. rewrite EM2. apply elem_of_app. right. by left. }
      apply elem_of_list_split in L as (r1 & r2 & ->).
      assert (g1 = l1 ++ x :: r1) as ->; [|by apply (V r1 (Looks j :: r2))].
      pose proof h_nodup as ND. rewrite EM2 in ND. eapply NoDup_split_unique; [exact ND|]. rewrite <- EM2, EM, <- app_assoc. done.
  Qed.

  (** *** Some update is there in full *)
  Lemma no_stores l : forall s, (forall i, Stores i ∉ l) -> snd (foldl (at_moment calls) s l) = snd s.
  Proof.
    induction l as [|[i|i] l IH]; intros s N; [done|..]; cbn [foldl].
    - rewrite IH; [done|]. intros j J. apply (N j). by right.
    - destruct (N i). by left.
  Qed.
  Lemma last_stores l : (forall i, Stores i ∉ l) \/ exists l1 i l2, l = l1 ++ Stores i :: l2 /\ forall j, Stores j ∉ l2.
  Proof.
    induction l as [|x l IH]; [left; intros i; apply not_elem_of_nil|]. destruct IH as [N|(l1 & i & l2 & -> & N)].
    - destruct x as [i|i]; [left; intros j [J|J]%elem_of_cons; [done|by apply (N j)]|]. right. by exists [], i, l.
    - right. by exists (x :: l1), i, l2.
  Qed.
  Lemma some_update i0 c0 : calls !! i0 = Some c0 -> updates_attrs c0 path ->
    exists i c new, calls !! i = Some c /\ updates_attrs c path /\ list_attributes H (view o') path = Ok new /\
      forall k v, mget k (update_of calls i) = Some v -> mget k new = Some v.
  Proof.
    intros E0 U0. destruct HI as (_ & _ & _ & _ & _ & _ & _ & X). destruct (X AR) as (_ & new & E1 & E2). clear X. unfold replay in E2.
    destruct (last_stores ms) as [N|(l1 & i & l2 & EM & N)].
    - exists i0, c0, new. split_and!; [done..|]. intros k v Ek. rewrite E2, (no_stores ms) by done.
      destruct (updater i0 c0 E0 U0) as (l1 & l2 & EM & [S|[_ V]]).
      { destruct (N i0). rewrite EM. apply elem_of_app. right. by right. }
      rewrite <- (V k v Ek). rewrite (no_stores l1); [done|]. intros j J. apply (N j). rewrite EM. apply elem_of_app. by left.
    - assert (Stores i ∈ ms) as S by (rewrite EM; apply elem_of_app; right; by left).
      destruct (h_stores i S) as [(c & E & U) _]. exists i, c, new. split_and!; [done..|]. intros k v Ek. rewrite E2, EM.
      rewrite foldl_app. cbn [foldl]. rewrite no_stores by done. cbn [at_moment snd]. by rewrite Ek.
  Qed.

  (** *** Updates that do not overlap *)
  Definition counts (x : moment) : option nat :=
    match x with
    | Stores i => Some i
    | Looks i => if decide (Stores i ∈ ms) then None else
                 match calls !! i with Some (KSetAttributes _ _ _) => Some i | _ => None end
    end.
  Lemma counts_actor x i : counts x = Some i -> actor x = i.
  Proof. destruct x as [j|j]; cbn; [|by intros [= ->]]. case_decide; [done|]. destruct (calls !! j) as [[]|]; try done. by intros [= ->]. Qed.
  Lemma counts_updater x i : x ∈ ms -> counts x = Some i -> exists c, calls !! i = Some c /\ updates_attrs c path.
  Proof.
    intros I. destruct x as [j|j]; cbn.
    - case_decide; [done|]. destruct (calls !! j) as [c|] eqn:E; [|done]. destruct c; try done. intros [= ->].
      destruct HI as (_ & L & _). destruct (L i I) as (c & E' & R). rewrite E in E'. injection E' as <-. by eexists.
    - intros [= ->]. by apply h_stores.
  Qed.
  Lemma updater_counts i c : calls !! i = Some c -> updates_attrs c path -> exists x, x ∈ ms /\ counts x = Some i.
  Proof.
    intros E U. destruct (updater i c E U) as (l1 & l2 & EM & [S|[S _]]).
    - exists (Stores i). split; [|done]. rewrite EM. apply elem_of_app. right. by right.
    - exists (Looks i). split; [rewrite EM; apply elem_of_app; right; by left|]. cbn. rewrite decide_False, E by done. by destruct c.
  Qed.
  Local Notation order_of l := (omap counts l).

  Context (UA : updates_apart C h H sl o calls path sched).
  Lemma in_turn l : forall r, ms = l ++ r ->
    (forall k, snd (st l) k = latest k old (map (update_of calls) (order_of l))) /\
    (forall i, Looks i ∈ l -> Stores i ∈ r -> forall k, fst (st l) i k = snd (st l) k).
  Proof.
    induction l as [|x l IH] using rev_ind; intros r E.
    { split; [done|]. intros i X. by apply elem_of_nil in X. }
    rewrite <- app_assoc in E. cbn [app] in E. destruct (IH _ E) as [I1 I2]. clear IH.
    pose proof h_nodup as ND. rewrite E in ND.
    rewrite omap_split, map_app, foldl_snoc. cbn [omap list_omap]. destruct x as [i|i]; cbn [at_moment fst snd].
    - split.
      + intros k. destruct (counts (Looks i)) as [j|] eqn:CI; [|cbn; by rewrite app_nil_r].
        pose proof (counts_actor _ _ CI) as X. cbn in X. subst j. cbn [map]. rewrite latest_snoc.
        destruct (counts_updater (Looks i) i) as (c & Ec & Uc); [rewrite E; apply elem_of_app; right; by left|done|].
        destruct (updater i c Ec Uc) as (l1 & l2 & EM & S). cbn [counts] in CI. case_decide as SN; [done|].
        destruct S as [S|[_ S]]; [destruct SN; rewrite EM; apply elem_of_app; right; by right|].
        assert (l = l1) as <-. { rewrite E in EM. by eapply NoDup_split_unique. }
        destruct (mget k (update_of calls i)) as [v|] eqn:Ek; [|done]. by apply S.
      + intros j [J|J]%elem_of_app SJ k.
        * case_decide; [done|]. apply I2; [done|by right].
        * apply elem_of_list_singleton in J. injection J as ->. by rewrite decide_True.
    - pose proof (looks_before_stores _ _ _ E) as LI. split.
      + intros k. cbn [counts map]. rewrite latest_snoc. destruct (mget k (update_of calls i)); [done|].
        rewrite I2; [done|done|by left].
      + intros j J SJ k. exfalso. apply elem_of_app in J as [J|J]; [|by apply elem_of_list_singleton in J].
        assert (i <> j) as D.
        { intros <-. rewrite cons_middle, app_assoc in ND. apply (NoDup_apart _ _ (Stores i) ND); [|done].
          apply elem_of_app. right. by left. }
        assert (Stores i ∈ ms) as Si by (rewrite E; apply elem_of_app; right; by left).
        assert (Stores j ∈ ms) as Sj by (rewrite E; apply elem_of_app; right; by right).
        assert (Looks j ∈ ms) as Lj by (rewrite E; apply elem_of_app; by left).
        assert (Looks i ∈ ms) as Li by (rewrite E; apply elem_of_app; by left).
        destruct (h_stores i Si) as [(c & Ec & Uc) _]. destruct (h_stores j Sj) as [(d & Ed & Ud) _].
        destruct (UA i j c d Ec Ed Uc Ud D) as [F|F].
        * pose proof (h_before (Stores i) (Looks j) Si Lj F) as X. rewrite E in X. apply earlier_after in X; [|done].
          apply (NoDup_apart _ _ _ ND J). by right.
        * pose proof (h_before (Stores j) (Looks i) Sj Li F) as X. rewrite E in X.
          apply elem_of_list_split in LI as (a & b & ->). rewrite <- app_assoc in X. cbn [app] in X.
          apply earlier_before in X; [|by rewrite <- app_assoc in ND].
          apply (NoDup_apart _ _ (Stores j) ND); [apply elem_of_app; by left|by right].
  Qed.

  Lemma updates_in_turn : exists order, NoDup order
    /\ (forall i, i ∈ order <-> exists c, calls !! i = Some c /\ updates_attrs c path)
    /\ (forall i j, i ∈ order -> j ∈ order -> before i j -> comes_before order i j)
    /\ (exists new, list_attributes H (view o') path = Ok new /\ forall k, mget k new = latest k old (map (update_of calls) order))
    /\ (forall i path' rs a, calls !! i = Some (KListAttributes path' rs) -> pieces path' = pieces path -> returned ps i a ->
          exists l1 l2 new, order = l1 ++ l2 /\ a = YAttrs (Ok new)
            /\ (forall k, mget k new = latest k old (map (update_of calls) l1))
            /\ (forall j, j ∈ order -> before j i -> j ∈ l1) /\ (forall j, j ∈ order -> before i j -> j ∈ l2)).
  Proof.
    assert (MEM : forall i (l : list moment), i ∈ order_of l <-> exists x, x ∈ l /\ counts x = Some i).
    { intros i l. by rewrite elem_of_list_omap. }
    exists (order_of ms). split_and!.
    - apply NoDup_omap_inj; [apply h_nodup|]. intros x y i X Y IX IY.
      pose proof (counts_actor _ _ X) as AX'. pose proof (counts_actor _ _ Y) as AY.
      destruct x as [x|x], y as [y|y]; cbn [actor] in AX', AY; subst x y; [done| | |done].
      + cbn in X. by rewrite decide_True in X.
      + cbn in Y. by rewrite decide_True in Y.
    - intros i. rewrite MEM. split; [intros (x & I & Cx); by eapply counts_updater|]. intros (c & E & U). by eapply updater_counts.
    - intros i j (x & IX & CX)%MEM (y & IY & CY)%MEM B.
      pose proof (counts_actor _ _ CX) as AX'. pose proof (counts_actor _ _ CY) as AY. rewrite <- AX', <- AY in B.
      destruct (h_before x y IX IY B) as (a & b & c & E). exists (order_of a), (order_of b), (order_of c).
      rewrite E at 1. rewrite omap_split. f_equal.
      change (x :: b ++ y :: c) with ([x] ++ (b ++ [y] ++ c)). rewrite !omap_split. cbn [omap list_omap]. by rewrite CX, CY.
    - destruct HI as (_ & _ & _ & _ & _ & _ & _ & X). destruct (X AR) as (_ & new & E & V). exists new. split; [done|].
      intros k. rewrite V. apply (proj1 (in_turn ms [] ltac:(by rewrite app_nil_r))).
    - intros i path' rs a E PE R. destruct HI as (_ & _ & _ & _ & X & _). destruct (X i path' rs a E PE R) as (l1 & l2 & new & EM & -> & V).
      exists (order_of l1), (order_of (Looks i :: l2)), new. split_and!; [by rewrite EM at 1; rewrite omap_split|done|..].
      + intros k. rewrite V. by apply (proj1 (in_turn l1 _ EM)).
      + intros j (x & IX & CX)%MEM B. apply MEM. exists x. split; [|done].
        rewrite <- (counts_actor _ _ CX) in B. assert (Looks i ∈ ms) as LI by (rewrite EM; apply elem_of_app; right; by left).
        pose proof (h_before x (Looks i) IX LI B) as Y. pose proof h_nodup as N. rewrite EM in Y at 1. rewrite EM in N.
        by eapply earlier_before.
      + intros j (x & IX & CX)%MEM B. apply MEM. exists x. split; [|done].
        rewrite <- (counts_actor _ _ CX) in B. assert (Looks i ∈ ms) as LI by (rewrite EM; apply elem_of_app; right; by left).
        pose proof (h_before (Looks i) x LI IX B) as Y. pose proof h_nodup as N. rewrite EM in Y at 1. rewrite EM in N.
        right. by eapply earlier_after.
  Qed.
End Kept.

Section Whole.
  Context (C : codec) (h : host) (H : hier) (sl : bytes -> list bytes) (path : bytes) (o : os) (calls : list call) (SL : forall b, concat (sl b) = b).
  Context (PB : plain (hy_base H)) (GS : good_suffix (ep_suffix (hy_ep H))) (PP : plain path) (CO : calm o) (W : wf_fs (view o)).
  Context (OK : forall c, c ∈ calls -> call_ok c) (UOK : updates_ok calls path) (NR : forall c, c ∈ calls -> ~ removes_node c path).
  Context (doc old : jmap) (ND : node_document H (view o) path = Ok doc) (LA : list_attributes H (view o) path = Ok old).
  Context (sched : list nat) (o' : os) (ps : list (proc reply)) (EX : crun o (map (p_call C h H sl) calls) sched = Some (o', ps)) (AR : all_returned ps).
  Local Notation before := (finished_before C h H sl o calls sched).

  Lemma one_in_full i0 c0 : calls !! i0 = Some c0 -> updates_attrs c0 path ->
    exists i c new, calls !! i = Some c /\ updates_attrs c path /\ list_attributes H (view o') path = Ok new /\
      forall k v, mget k (update_of calls i) = Some v -> mget k new = Some v.
  Proof.
    destruct (attr_order C h H sl path o calls SL PB GS PP CO W OK UOK NR doc old ND LA sched o' ps EX) as [ms HI].
    exact (some_update C h H sl path o calls sched o' ps old ms HI EX AR i0 c0).
  Qed.
  Lemma alone_kept i c k v : calls !! i = Some c -> updates_attrs c path -> mget k (update_of calls i) = Some v ->
    (forall j d, calls !! j = Some d -> updates_attrs d path -> j <> i ->
       before j i \/ before i j /\ mget k (update_of calls j) = None) ->
    (exists new, list_attributes H (view o') path = Ok new /\ mget k new = Some v) /\
    (forall j path' rs a, calls !! j = Some (KListAttributes path' rs) -> pieces path' = pieces path -> returned ps j a ->
       before i j -> exists new, a = YAttrs (Ok new) /\ mget k new = Some v).
  Proof.
    destruct (attr_order C h H sl path o calls SL PB GS PP CO W OK UOK NR doc old ND LA sched o' ps EX) as [ms HI].
    exact (update_kept C h H sl path o calls sched o' ps old ms HI EX AR i c k v).
  Qed.
  Lemma all_in_turn : updates_apart C h H sl o calls path sched -> exists order, NoDup order
    /\ (forall i, i ∈ order <-> exists c, calls !! i = Some c /\ updates_attrs c path)
    /\ (forall i j, i ∈ order -> j ∈ order -> before i j -> comes_before order i j)
    /\ (exists new, list_attributes H (view o') path = Ok new /\ forall k, mget k new = latest k old (map (update_of calls) order))
    /\ (forall i path' rs a, calls !! i = Some (KListAttributes path' rs) -> pieces path' = pieces path -> returned ps i a ->
          exists l1 l2 new, order = l1 ++ l2 /\ a = YAttrs (Ok new)
            /\ (forall k, mget k new = latest k old (map (update_of calls) l1))
            /\ (forall j, j ∈ order -> before j i -> j ∈ l1) /\ (forall j, j ∈ order -> before i j -> j ∈ l2)).
  Proof.
    intros UA.
    destruct (attr_order C h H sl path o calls SL PB GS PP CO W OK UOK NR doc old ND LA sched o' ps EX) as [ms HI].
    exact (updates_in_turn C h H sl path o calls sched o' ps old ms HI EX AR UA).
  Qed.
End Whole.
