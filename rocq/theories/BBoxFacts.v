(** Facts about grid arithmetic (Meta.v) and boxes (BBox.v). *)
From Verif Require Import BBox Spec BaseFacts.
From Coq Require Import ZifyBool ZifyNat ZifyN.

(** Run checked arithmetic whose results fit. *)
Ltac u64 := repeat first
  [ rewrite bind_ok
  | rewrite add64_ok by (unfold is_u64; lia)
  | rewrite sub64_ok by (unfold is_u64; lia)
  | rewrite div64_ok by lia
  | rewrite rem64_ok by lia ].

(** ** in_box, structurally *)
Lemma in_box_nil : in_box [] [] [].
Proof. repeat split; intros; done. Qed.
Lemma in_box_cons o off s shape x xs :
  in_box (o :: off) (s :: shape) (x :: xs) <-> o <= x < o + s /\ in_box off shape xs.
Proof.
  unfold in_box. cbn [length]. split.
  - intros (H1 & H2 & H). split; [by apply (H 0%nat)|].
    split; [lia|]. split; [lia|]. intros i xi oi si Hx Ho Hs. by apply (H (S i)).
  - intros (H0 & H1 & H2 & H). split; [lia|]. split; [lia|].
    intros [|i] xi oi si Hx Ho Hs; cbn in *.
    + injection Hx as <-. injection Ho as <-. injection Hs as <-. done.
    + by apply (H i).
Qed.
Lemma in_box_cons_inv o off s shape x :
  in_box (o :: off) (s :: shape) x ->
  exists y ys, x = y :: ys /\ o <= y < o + s /\ in_box off shape ys.
Proof.
  intros H. destruct x as [|y ys]; [by destruct H as [[=] _]|].
  exists y, ys. split; [done|]. by apply in_box_cons.
Qed.
Lemma in_box_nil_inv x : in_box [] [] x -> x = [].
Proof. intros [H _]. by destruct x. Qed.

(** A box whose corners are u64 values. *)
Definition box_ok (b : bbox) : Prop :=
  Forall2 (fun o s => 0 <= o /\ 0 <= s /\ o + s < two64) (bb_off b) (bb_shape b).
Definition box_has (b : bbox) (x : list Z) : Prop := in_box (bb_off b) (bb_shape b) x.

(** ** Ceiling division *)
Lemma u64_ceil_div_exact p a b :
  0 <= a -> a + 1 < two64 -> 0 < b ->
  exists c, is_ceil_div a b c /\
    u64_ceil_div p a b = Ok (c + (if (a + 1) mod b =? 0 then 1 else 0)).
Proof.
  intros Ha Hb Hp. exists (a / b + (if a mod b =? 0 then 0 else 1)). split.
  - unfold is_ceil_div. pose proof (Z.mod_pos_bound a b Hp) as Hm.
    pose proof (Z_div_mod_eq_full a b) as He. destruct (a mod b =? 0) eqn:E; nia.
  - unfold u64_ceil_div. rewrite add64_ok by (unfold is_u64; lia).
    rewrite bind_ok, div64_ok, bind_ok, rem64_ok, bind_ok by lia.
    assert ((a + 1) / b + (if a mod b =? 0 then 0 else 1)
            = a / b + (if a mod b =? 0 then 0 else 1) + (if (a + 1) mod b =? 0 then 1 else 0)) as <-.
    { pose proof (Z.mod_pos_bound a b Hp) as Hm.
      pose proof (Z_div_mod_eq_full a b) as He.
      destruct (Z.eq_dec (a mod b + 1) b) as [H1|H1].
      - rewrite <- (Z.div_unique_pos (a + 1) b (a / b + 1) 0) by nia.
        rewrite <- (Z.mod_unique_pos (a + 1) b (a / b + 1) 0) by nia.
        destruct (a mod b =? 0) eqn:E; cbn [Z.eqb]; lia.
      - rewrite <- (Z.div_unique_pos (a + 1) b (a / b) (a mod b + 1)) by nia.
        rewrite <- (Z.mod_unique_pos (a + 1) b (a / b) (a mod b + 1)) by nia.
        replace (a mod b + 1 =? 0) with false by lia. lia. }
    apply add64_ok. unfold is_u64.
    assert (0 <= (a + 1) / b) by (apply Z.div_pos; lia).
    split; [destruct (a mod b =? 0); lia|].
    destruct (Z.eq_dec b 1) as [->|].
    + rewrite Z.mod_1_r, Z.div_1_r. cbn. lia.
    + destruct (a mod b =? 0) eqn:E.
      * enough ((a + 1) / b <= a + 1) by lia. apply Z.div_le_upper_bound; nia.
      * enough ((a + 1) / b <= a) by lia. apply Z.div_le_upper_bound; [lia|].
        assert (a <> 0) by (intros ->; by rewrite Z.mod_0_l in E by lia). nia.
Qed.
Lemma ceil_div_unique a b q r : 0 < b -> is_ceil_div a b q -> is_ceil_div a b r -> q = r.
Proof. unfold is_ceil_div. nia. Qed.
Lemma ceil_div_nonneg a b q : 0 <= a -> 0 < b -> is_ceil_div a b q -> 0 <= q.
Proof. unfold is_ceil_div. nia. Qed.
(** Ceiling division as usually computed, for (d + s - 1) / s. *)
Lemma ceil_div_spec a b : 0 < b -> is_ceil_div a b ((a + b - 1) / b).
Proof. intros. unfold is_ceil_div. zlia. Qed.
(** A coordinate is below the ceiling iff its interval starts below [a]. *)
Lemma ceil_div_lt a b q c : 0 < b -> is_ceil_div a b q -> (c < q <-> c * b < a).
Proof. unfold is_ceil_div. intros. split; nia. Qed.

(** ** Grid extent *)

(** Dimensions whose grid arithmetic stays in u64. *)
Definition grid_ok (m : array_meta) : Prop :=
  Forall2 (fun d s => 0 <= d /\ d + 1 < two64 /\ 0 < s) (am_shape m) (am_chunk_shape m).

(** Per dimension: extent = ceiling, plus one when the shape is one short of
    a multiple of the chunk extent. *)
Fixpoint extent_rel (shape cs ext : list Z) : Prop :=
  match shape, cs, ext with
  | [], [], [] => True
  | d :: shape', s :: cs', e :: ext' =>
      is_ceil_div d s (e - (if (d + 1) mod s =? 0 then 1 else 0)) /\ extent_rel shape' cs' ext'
  | _, _, _ => False
  end.

Lemma grid_extent_exact p m : grid_ok m ->
  exists ext, grid_extent p m = Ok ext /\ extent_rel (am_shape m) (am_chunk_shape m) ext.
Proof.
  unfold grid_ok, grid_extent. intros H.
  induction H as [|d s shape cs (Hd & Hb & Hs) H IH]; [by exists []|].
  destruct IH as (ext & IH1 & IH2).
  destruct (u64_ceil_div_exact p d s) as (c & Hc & He); [done..|].
  exists ((c + (if (d + 1) mod s =? 0 then 1 else 0)) :: ext). split.
  - cbn. rewrite He, bind_ok, IH1. done.
  - cbn [extent_rel]. split; [|done]. replace (_ - _) with c by lia. done.
Qed.

Definition grid_extent_wrong (d s : Z) : bool := (d + 1) mod s =? 0.

Lemma grid_extent_good p m :
  grid_ok m ->
  Forall2 (fun d s => (d + 1) mod s <> 0) (am_shape m) (am_chunk_shape m) ->
  exists ext, grid_extent p m = Ok ext
    /\ length ext = length (am_shape m)
    /\ (forall i d s e, am_shape m !! i = Some d -> am_chunk_shape m !! i = Some s ->
          ext !! i = Some e -> is_ceil_div d s e).
Proof.
  intros Hg Hd. destruct (grid_extent_exact p m Hg) as (ext & He & Hr).
  exists ext. split; [done|]. clear He. revert ext Hr Hg.
  unfold grid_ok.
  induction Hd as [|d s shape cs Hds Hd IH]; intros ext Hr Hg.
  - destruct ext; [|done]. split; [done|]. intros [|i]; done.
  - destruct ext as [|e ext]; [done|]. destruct Hr as [Hc Hr].
    apply Forall2_cons_1 in Hg as [_ Hg].
    destruct (IH ext Hr Hg) as [Hl Hi]. split; [cbn; lia|].
    intros [|i] d' s' e' Hd' Hs' He'; cbn in *.
    + injection Hd' as <-. injection Hs' as <-. injection He' as <-.
      replace (_ =? 0) with false in Hc by lia. by rewrite Z.sub_0_r in Hc.
    + by apply (Hi i).
Qed.

(** Every position whose chunk meets the array is accepted. *)
Lemma in_bounds_covers p m pos x :
  grid_ok m -> in_chunk (am_chunk_shape m) pos x ->
  in_box (replicate (length (am_shape m)) 0) (am_shape m) x ->
  in_bounds p m pos = Ok true.
Proof.
  intros Hg Hc Hb.
  destruct (grid_extent_exact p m Hg) as (ext & He & Hr).
  unfold in_bounds. rewrite He, bind_ok. clear He.
  destruct Hc as (Hc1 & Hc2 & Hc).
  assert (length (am_shape m) = length (am_chunk_shape m)) as Hlen by (by eapply Forall2_length).
  rewrite bool_decide_eq_true_2 by lia. f_equal.
  apply forallb_Forall.
  destruct Hb as (Hb1 & Hb2 & Hb).
  unfold grid_ok in Hg. revert pos x ext Hr Hc1 Hc2 Hc Hb1 Hb2 Hb. clear Hlen.
  induction Hg as [|d s shape cs (Hd & Hd2 & Hs) Hg IH];
    intros pos x ext Hr Hc1 Hc2 Hc Hb1 Hb2 Hb.
  - destruct ext; [|done]. constructor.
  - destruct ext as [|e ext]; [done|]. destruct pos as [|c pos]; [done|].
    destruct x as [|y x]; [done|]. cbn [length replicate] in *. cbn.
    constructor.
    + specialize (Hc 0%nat c s y eq_refl eq_refl eq_refl).
      specialize (Hb 0%nat y 0 d eq_refl eq_refl eq_refl).
      destruct Hr as [Hr _].
      pose proof (ceil_div_lt d s _ c Hs Hr) as Hlt.
      assert (c < e - (if (d + 1) mod s =? 0 then 1 else 0)) by (apply Hlt; lia).
      destruct (_ =? 0); lia.
    + apply (IH pos x ext); try lia.
      * by destruct Hr.
      * intros i ci si xi H1 H2 H3. by apply (Hc (S i)).
      * intros i xi oi si H1 H2 H3. by apply (Hb (S i)).
Qed.

(** in_bounds against the true extent, where the extent is right. *)
Lemma in_bounds_spec p m ext pos :
  grid_extent p m = Ok ext -> length ext = length (am_shape m) ->
  length pos = length (am_shape m) ->
  exists b, in_bounds p m pos = Ok b /\
    (b = true <-> forall i e c, ext !! i = Some e -> pos !! i = Some c -> c < e).
Proof.
  intros He Hl Hp. unfold in_bounds. rewrite He, bind_ok, bool_decide_eq_true_2 by lia.
  eexists. split; [done|]. rewrite <- Hl in Hp. clear He Hl. revert pos Hp.
  induction ext as [|e ext IH]; intros [|c pos] Hp; try done.
  cbn [length] in Hp. injection Hp as Hp. cbn. rewrite andb_true_iff, IH by done. split.
  - intros [H1 H2] [|i] e' c' H3 H4; cbn in *; [|by eapply H2].
    injection H3 as <-. injection H4 as <-. lia.
  - intros H. split; [specialize (H 0%nat e c eq_refl eq_refl); lia|].
    intros i e' c' H3 H4. by apply (H (S i)).
Qed.

(** ** Boxes *)
Lemma zip_dims_ok f g shape off oshape ooff :
  length shape = length off -> length oshape = length ooff -> length off = length ooff ->
  (forall i s o os oo, shape !! i = Some s -> off !! i = Some o ->
     oshape !! i = Some os -> ooff !! i = Some oo -> f s o os oo = Ok (g s o os oo)) ->
  exists off' shape', zip_dims f shape off oshape ooff = Ok (off', shape')
    /\ length off' = length off /\ length shape' = length off
    /\ forall i s o os oo, shape !! i = Some s -> off !! i = Some o ->
         oshape !! i = Some os -> ooff !! i = Some oo ->
         off' !! i = Some (fst (g s o os oo)) /\ shape' !! i = Some (snd (g s o os oo)).
Proof.
  revert off oshape ooff. induction shape as [|s shape IH]; intros [|o off] [|os oshape] [|oo ooff];
    cbn [length]; try done.
  - intros _ _ _ _. exists [], []. repeat split; done.
  - intros [= H1] [= H2] [= H3] Hf.
    destruct (IH off oshape ooff) as (off' & shape' & Hz & L1 & L2 & Hi); try done.
    { intros i s' o' os' oo' A1 A2 A3 A4. by apply (Hf (S i)). }
    pose proof (Hf 0%nat s o os oo eq_refl eq_refl eq_refl eq_refl) as H0.
    cbn [zip_dims]. rewrite H0, bind_ok.
    destruct (g s o os oo) as [o1 s1] eqn:Eg. rewrite Hz, bind_ok.
    exists (o1 :: off'), (s1 :: shape'). split; [done|].
    split; [cbn; lia|]. split; [cbn; lia|].
    intros [|i] s' o' os' oo' A1 A2 A3 A4; cbn in *.
    + injection A1 as <-. injection A2 as <-. injection A3 as <-. injection A4 as <-.
      by rewrite Eg.
    + by apply Hi.
Qed.

Definition isect1 (s o os oo : Z) : Z * Z :=
  let n := Z.max oo o in (n, Z.max 0 (Z.min (s + o) (oo + os) - n)).
Definition union1 (s o os oo : Z) : Z * Z :=
  let n := Z.min oo o in (n, Z.max (s + o) (oo + os) - n).

Lemma box_ok_lookup b i o s :
  box_ok b -> bb_off b !! i = Some o -> bb_shape b !! i = Some s ->
  0 <= o /\ 0 <= s /\ o + s < two64.
Proof. unfold box_ok. intros H. rewrite Forall2_lookup in H. specialize (H i).
  intros Ho Hs. rewrite Ho, Hs in H. by inversion H. Qed.
Lemma box_ok_length b : box_ok b -> length (bb_off b) = length (bb_shape b).
Proof. apply Forall2_length. Qed.

Lemma intersect_dims p a b :
  box_ok a -> box_ok b -> length (bb_off a) = length (bb_off b) ->
  exists c, intersect p a b = Ok c /\ length (bb_off c) = length (bb_off a)
    /\ length (bb_shape c) = length (bb_off a)
    /\ forall i s o os oo, bb_shape a !! i = Some s -> bb_off a !! i = Some o ->
         bb_shape b !! i = Some os -> bb_off b !! i = Some oo ->
         bb_off c !! i = Some (fst (isect1 s o os oo))
         /\ bb_shape c !! i = Some (snd (isect1 s o os oo)).
Proof.
  intros Ha Hb Hl. pose proof (box_ok_length a Ha). pose proof (box_ok_length b Hb).
  destruct (zip_dims_ok (intersect_dim p) isect1 (bb_shape a) (bb_off a) (bb_shape b) (bb_off b))
    as (off & shape & Hz & L1 & L2 & Hi); try lia.
  { intros i s o os oo H1 H2 H3 H4.
    pose proof (box_ok_lookup a i o s Ha H2 H1). pose proof (box_ok_lookup b i oo os Hb H4 H3).
    unfold intersect_dim. cbv zeta. u64. done. }
  exists (BBox off shape). unfold intersect.
  rewrite bool_decide_eq_true_2 by done. cbn [assert_]. rewrite bind_ok, Hz, bind_ok. done.
Qed.
Lemma union_dims p a b :
  box_ok a -> box_ok b -> length (bb_off a) = length (bb_off b) ->
  exists c, union_bb p a b = Ok c /\ length (bb_off c) = length (bb_off a)
    /\ length (bb_shape c) = length (bb_off a)
    /\ forall i s o os oo, bb_shape a !! i = Some s -> bb_off a !! i = Some o ->
         bb_shape b !! i = Some os -> bb_off b !! i = Some oo ->
         bb_off c !! i = Some (fst (union1 s o os oo))
         /\ bb_shape c !! i = Some (snd (union1 s o os oo)).
Proof.
  intros Ha Hb Hl. pose proof (box_ok_length a Ha). pose proof (box_ok_length b Hb).
  destruct (zip_dims_ok (union_dim p) union1 (bb_shape a) (bb_off a) (bb_shape b) (bb_off b))
    as (off & shape & Hz & L1 & L2 & Hi); try lia.
  { intros i s o os oo H1 H2 H3 H4.
    pose proof (box_ok_lookup a i o s Ha H2 H1). pose proof (box_ok_lookup b i oo os Hb H4 H3).
    unfold union_dim. cbv zeta. u64. done. }
  exists (BBox off shape). unfold union_bb.
  rewrite bool_decide_eq_true_2 by done. cbn [assert_]. rewrite bind_ok, Hz, bind_ok. done.
Qed.

Lemma lookup_some {A} (l : list A) i n : length l = n -> (i < n)%nat -> exists x, l !! i = Some x.
Proof. intros. apply lookup_lt_is_Some_2. lia. Qed.

(** Get the i-th entries of all the lists of the goal's hypotheses. *)
Lemma intersect_points p a b :
  box_ok a -> box_ok b -> length (bb_off a) = length (bb_off b) ->
  exists c, intersect p a b = Ok c /\ box_ok c
    /\ length (bb_off c) = length (bb_off a)
    /\ forall x, box_has c x <-> box_has a x /\ box_has b x.
Proof.
  intros Ha Hb Hl. destruct (intersect_dims p a b Ha Hb Hl) as (c & Hc & L1 & L2 & Hi).
  pose proof (box_ok_length a Ha) as La. pose proof (box_ok_length b Hb) as Lb.
  exists c. split; [done|]. split; [|split; [done|]].
  - unfold box_ok. apply Forall2_same_length_lookup. split; [lia|].
    intros i o' s' H1 H2. assert (i < length (bb_off a))%nat.
    { rewrite <- L1. by eapply lookup_lt_Some. }
    destruct (lookup_some (bb_off a) i _ eq_refl) as [o Ho]; [lia|].
    destruct (lookup_some (bb_shape a) i _ eq_refl) as [s Hs]; [lia|].
    destruct (lookup_some (bb_off b) i _ eq_refl) as [oo Hoo]; [lia|].
    destruct (lookup_some (bb_shape b) i _ eq_refl) as [os Hos]; [lia|].
    destruct (Hi i s o os oo Hs Ho Hos Hoo) as [E1 E2].
    rewrite E1 in H1. rewrite E2 in H2. injection H1 as <-. injection H2 as <-.
    pose proof (box_ok_lookup a i o s Ha Ho Hs). pose proof (box_ok_lookup b i oo os Hb Hoo Hos).
    unfold isect1. cbn. lia.
  - intros x. unfold box_has, in_box. rewrite L1, L2, <- Hl, <- La, <- Lb, <- Hl.
    split.
    + intros (Hx1 & _ & Hx). split; (split; [done|split; [done|]]).
      all: intros i xi oi si H1 H2 H3;
        assert (i < length (bb_off a))%nat by (rewrite <- Hx1; by eapply lookup_lt_Some);
        destruct (lookup_some (bb_off a) i _ eq_refl) as [o Ho]; [lia|];
        destruct (lookup_some (bb_shape a) i _ eq_refl) as [s Hs]; [lia|];
        destruct (lookup_some (bb_off b) i _ eq_refl) as [oo Hoo]; [lia|];
        destruct (lookup_some (bb_shape b) i _ eq_refl) as [os Hos]; [lia|];
        destruct (Hi i s o os oo Hs Ho Hos Hoo) as [E1 E2];
        specialize (Hx i xi _ _ H1 E1 E2); unfold isect1 in Hx; cbn in Hx;
        simplify_eq; lia.
    + intros [(Hx1 & _ & Hxa) (_ & _ & Hxb)]. split; [done|]. split; [done|].
      intros i xi oi si H1 H2 H3.
      assert (i < length (bb_off a))%nat by (rewrite <- Hx1; by eapply lookup_lt_Some).
      destruct (lookup_some (bb_off a) i _ eq_refl) as [o Ho]; [lia|].
      destruct (lookup_some (bb_shape a) i _ eq_refl) as [s Hs]; [lia|].
      destruct (lookup_some (bb_off b) i _ eq_refl) as [oo Hoo]; [lia|].
      destruct (lookup_some (bb_shape b) i _ eq_refl) as [os Hos]; [lia|].
      destruct (Hi i s o os oo Hs Ho Hos Hoo) as [E1 E2].
      specialize (Hxa i xi _ _ H1 Ho Hs). specialize (Hxb i xi _ _ H1 Hoo Hos).
      unfold isect1 in *. cbn in *. simplify_eq. lia.
Qed.

Lemma is_empty_spec b :
  box_ok b -> is_empty b = true <-> ~ exists x, box_has b x.
Proof.
  unfold box_ok, box_has, is_empty. intros H.
  assert (existsb (Z.eqb 0) (bb_shape b) = false <-> exists x, in_box (bb_off b) (bb_shape b) x) as Hf.
  { induction H as [|o s off shape (H1 & H2 & H3) H IH].
    - split; [|done]. intros _. exists []. apply in_box_nil.
    - cbn [existsb]. rewrite orb_false_iff, IH. split.
      + intros [Hs (x & Hx)]. exists (o :: x). apply in_box_cons. split; [lia|done].
      + intros (x & Hx). apply in_box_cons_inv in Hx as (y & ys & -> & Hy & Hx).
        split; [lia|by exists ys]. }
  rewrite <- Hf. destruct (existsb _ _); split; congruence.
Qed.

Lemma union_points p a b :
  box_ok a -> box_ok b -> length (bb_off a) = length (bb_off b) ->
  exists c, union_bb p a b = Ok c
    /\ length (bb_off c) = length (bb_off a) /\ length (bb_shape c) = length (bb_off a)
    /\ (forall x, box_has a x \/ box_has b x -> box_has c x)
    /\ (is_empty a = false -> is_empty b = false ->
        forall d, (forall x, box_has a x \/ box_has b x -> box_has d x) ->
        forall x, box_has c x -> box_has d x).
Proof.
  intros Ha Hb Hl. destruct (union_dims p a b Ha Hb Hl) as (c & Hc & L1 & L2 & Hi).
  pose proof (box_ok_length a Ha) as La. pose proof (box_ok_length b Hb) as Lb.
  exists c. split; [done|]. split; [done|]. split; [done|]. split.
  - intros x Hx. unfold box_has, in_box in *.
    assert (length x = length (bb_off a)) as Hxl by (destruct Hx as [[? _]|[? _]]; lia).
    split; [lia|]. split; [lia|].
    intros i xi oi si H1 H2 H3.
    assert (i < length (bb_off a))%nat by (rewrite <- Hxl; by eapply lookup_lt_Some).
    destruct (lookup_some (bb_off a) i _ eq_refl) as [o Ho]; [lia|].
    destruct (lookup_some (bb_shape a) i _ eq_refl) as [s Hs]; [lia|].
    destruct (lookup_some (bb_off b) i _ eq_refl) as [oo Hoo]; [lia|].
    destruct (lookup_some (bb_shape b) i _ eq_refl) as [os Hos]; [lia|].
    destruct (Hi i s o os oo Hs Ho Hos Hoo) as [E1 E2]. unfold union1 in *. cbn in *.
    simplify_eq.
    destruct Hx as [(_ & _ & Hx)|(_ & _ & Hx)];
      [specialize (Hx i xi _ _ H1 Ho Hs)|specialize (Hx i xi _ _ H1 Hoo Hos)]; lia.
  - intros Ea Eb d Hd x Hx.
    (* low and high corners of the operands are in [d] *)
    assert (forall b, box_ok b -> is_empty b = false ->
      box_has b (bb_off b) /\ box_has b (zip_with (fun o s => o + s - 1) (bb_off b) (bb_shape b))) as Hcorner.
    { clear. intros b Hb Hne. unfold box_ok, is_empty, box_has in *.
      induction Hb as [|o s off shape (H1 & H2 & H3) Hb IH]; [split; apply in_box_nil|].
      cbn [existsb] in Hne. apply orb_false_iff in Hne as [Hs Hne].
      destruct (IH Hne) as [I1 I2]. split; cbn [zip_with]; apply in_box_cons; (split; [lia|done]). }
    destruct (Hcorner a Ha Ea) as [A1 A2]. destruct (Hcorner b Hb Eb) as [B1 B2]. clear Hcorner.
    pose proof (Hd _ (or_introl A1)) as DA1. pose proof (Hd _ (or_introl A2)) as DA2.
    pose proof (Hd _ (or_intror B1)) as DB1. pose proof (Hd _ (or_intror B2)) as DB2.
    clear Hd A1 A2 B1 B2.
    unfold box_has, in_box in *.
    destruct Hx as (Hx1 & Hx2 & Hx). destruct DA1 as (D1 & D2 & DA1). destruct DA2 as (_ & _ & DA2).
    destruct DB1 as (_ & _ & DB1). destruct DB2 as (_ & _ & DB2).
    split; [lia|]. split; [lia|].
    intros i xi oi si H1 H2 H3.
    assert (i < length (bb_off a))%nat by (rewrite <- L1, <- Hx1; by eapply lookup_lt_Some).
    destruct (lookup_some (bb_off a) i _ eq_refl) as [o Ho]; [lia|].
    destruct (lookup_some (bb_shape a) i _ eq_refl) as [s Hs]; [lia|].
    destruct (lookup_some (bb_off b) i _ eq_refl) as [oo Hoo]; [lia|].
    destruct (lookup_some (bb_shape b) i _ eq_refl) as [os Hos]; [lia|].
    destruct (Hi i s o os oo Hs Ho Hos Hoo) as [E1 E2].
    specialize (Hx i xi _ _ H1 E1 E2).
    specialize (DA1 i _ _ _ Ho H2 H3). specialize (DB1 i _ _ _ Hoo H2 H3).
    assert (zip_with (λ o s : Z, o + s - 1) (bb_off a) (bb_shape a) !! i = Some (o + s - 1)) as Za.
    { rewrite lookup_zip_with, Ho, Hs. done. }
    assert (zip_with (λ o s : Z, o + s - 1) (bb_off b) (bb_shape b) !! i = Some (oo + os - 1)) as Zb.
    { rewrite lookup_zip_with, Hoo, Hos. done. }
    specialize (DA2 i _ _ _ Za H2 H3). specialize (DB2 i _ _ _ Zb H2 H3).
    unfold union1 in Hx. cbn in Hx. lia.
Qed.

Lemma bb_sub_points b o :
  length o = length (bb_off b) -> length (bb_off b) = length (bb_shape b) ->
  Forall2 (fun bo oo => oo <= bo) (bb_off b) o ->
  exists c, bb_sub b o = Ok c /\ bb_shape c = bb_shape b
    /\ length (bb_off c) = length (bb_off b)
    /\ forall x, length x = length o -> box_has c x <-> box_has b (zip_with Z.add x o).
Proof.
  intros Hl Hls H. unfold bb_sub, box_has.
  exists (BBox (zip_with Z.sub (bb_off b) o) (bb_shape b)). split; [|split; [done|split]].
  - assert (mapM_res (fun '(s, o) => if o <=? s then Ok (s - o) else Panic) (zip (bb_off b) o)
            = Ok (zip_with Z.sub (bb_off b) o)) as ->; [|done].
    clear Hl Hls. induction H as [|x y l l' Hxy H IH]; [done|].
    cbn. replace (y <=? x) with true by lia. rewrite bind_ok, IH. done.
  - cbn. rewrite zip_with_length. lia.
  - intros x Hx. cbn [bb_off bb_shape]. unfold in_box.
    rewrite !zip_with_length. split.
    + intros (H1 & H2 & H3). split; [lia|]. split; [lia|].
      intros i xi oi si A1 A2 A3. rewrite lookup_zip_with_Some in A1.
      destruct A1 as (x1 & o1 & -> & B1 & B2).
      specialize (H3 i x1 (oi - o1) si B1). rewrite lookup_zip_with, A2, B2 in H3.
      specialize (H3 eq_refl A3). lia.
    + intros (H1 & H2 & H3). split; [lia|]. split; [lia|].
      intros i xi oi si A1 A2 A3. rewrite lookup_zip_with_Some in A2.
      destruct A2 as (b1 & o1 & -> & B1 & B2).
      specialize (H3 i (xi + o1) b1 si). rewrite lookup_zip_with, A1, B2 in H3.
      specialize (H3 eq_refl B1 A3). lia.
Qed.
(** Subtracting an origin that is not below the offset panics (checked_sub). *)
Lemma bb_sub_panic b o i bo oo :
  bb_off b !! i = Some bo -> o !! i = Some oo -> bo < oo -> bb_sub b o = Panic.
Proof.
  unfold bb_sub. generalize (bb_off b) as l. intros l. revert o i.
  induction l as [|x l IH]; intros [|y o] [|i] H1 H2 Hlt; cbn in *; try done.
  - injection H1 as ->. injection H2 as ->. replace (oo <=? bo) with false by lia. done.
  - destruct (y <=? x); [|done]. rewrite bind_ok.
    specialize (IH o i H1 H2 Hlt).
    destruct (mapM_res _ (zip l o)) eqn:E; cbn in *; done.
Qed.

(** ** Chunk count *)
Lemma product64_prefix_gen p l a :
  0 <= a -> Forall (fun z => 0 <= z) l ->
  (forall k, a * prodZ (take k l) < two64) ->
  foldl (fun acc d => a ← acc; mul64 p a d) (Ok a) l = Ok (a * prodZ l).
Proof.
  revert a. induction l as [|x l IH]; intros a Ha Hl Hk.
  - cbn. by rewrite Z.mul_1_r.
  - apply list.Forall_cons in Hl as [Hx Hl]. cbn [foldl]. rewrite bind_ok.
    pose proof (Hk 1%nat) as H1. cbn in H1. rewrite Z.mul_1_r in H1.
    rewrite mul64_ok by (unfold is_u64; nia).
    rewrite IH; [f_equal; rewrite prodZ_cons; lia|nia|done|].
    intros k. specialize (Hk (S k)). cbn [take] in Hk. rewrite prodZ_cons in Hk. lia.
Qed.
Lemma product64_prefix p l :
  Forall (fun z => 0 <= z) l -> (forall k, prodZ (take k l) < two64) ->
  product64 p l = Ok (prodZ l).
Proof.
  intros Hl Hk. unfold product64. rewrite product64_prefix_gen; [by rewrite Z.mul_1_l|lia|done|].
  intros k. rewrite Z.mul_1_l. apply Hk.
Qed.

Lemma extent_nonneg m ext :
  grid_ok m -> extent_rel (am_shape m) (am_chunk_shape m) ext -> Forall (fun z => 0 <= z) ext.
Proof.
  unfold grid_ok. intros H. revert ext.
  induction H as [|d s shape cs (H1 & H2 & H3) H IH]; intros [|e ext] Hr; try done.
  destruct Hr as [Hc Hr]. constructor; [|by apply IH].
  apply ceil_div_nonneg in Hc; [|done..]. destruct (_ =? 0); lia.
Qed.

Lemma grid_extent_full p m :
  grid_ok m ->
  Forall2 (fun d s => (d + 1) mod s <> 0) (am_shape m) (am_chunk_shape m) ->
  exists ext, grid_extent p m = Ok ext
    /\ length ext = length (am_shape m)
    /\ (forall i d s e, am_shape m !! i = Some d -> am_chunk_shape m !! i = Some s ->
          ext !! i = Some e -> is_ceil_div d s e)
    /\ ((forall k, prodZ (take k ext) < two64) -> num_chunks p m = Ok (prodZ ext))
    /\ (forall pos, exists b, in_bounds p m pos = Ok b /\
          (b = true <-> length pos = length (am_shape m) /\
             forall i e c, ext !! i = Some e -> pos !! i = Some c -> c < e)).
Proof.
  intros Hg Hd. destruct (grid_extent_good p m Hg Hd) as (ext & He & Hl & Hi).
  exists ext. split; [done|]. split; [done|]. split; [done|]. split.
  - intros Hk. unfold num_chunks. rewrite He, bind_ok. apply product64_prefix; [|done].
    destruct (grid_extent_exact p m Hg) as (ext' & He' & Hr). rewrite He in He'.
    injection He' as <-. by eapply extent_nonneg.
  - intros pos. destruct (decide (length pos = length (am_shape m))) as [Hp|Hp].
    + destruct (in_bounds_spec p m ext pos He Hl Hp) as (b & Hb & Hb2).
      exists b. split; [done|]. rewrite Hb2. tauto.
    + exists false. unfold in_bounds. rewrite bool_decide_eq_false_2 by done.
      split; [done|]. split; [done|]. by intros [? _].
Qed.

(** The extent is one too large exactly on the remaining dimensions. *)
Lemma grid_extent_dim_exact p m ext :
  grid_ok m -> grid_extent p m = Ok ext ->
  length ext = length (am_shape m) /\
  forall i d s e, am_shape m !! i = Some d -> am_chunk_shape m !! i = Some s ->
    ext !! i = Some e ->
    ((d + 1) mod s <> 0 -> is_ceil_div d s e)
    /\ ((d + 1) mod s = 0 -> is_ceil_div d s (e - 1)).
Proof.
  intros Hg He. destruct (grid_extent_exact p m Hg) as (ext' & He' & Hr).
  rewrite He in He'. injection He' as <-. clear He.
  revert ext Hr. unfold grid_ok in Hg.
  induction Hg as [|d s shape cs H0 Hg IH]; intros [|e ext] Hr; try done.
  destruct Hr as [Hc Hr]. destruct (IH ext Hr) as [Hl Hi]. split; [cbn; lia|].
  intros [|i] d' s' e' H1 H2 H3; cbn in *; [|by apply (Hi i)].
  injection H1 as <-. injection H2 as <-. injection H3 as <-.
  destruct ((d + 1) mod s =? 0) eqn:E; rewrite ?Z.sub_0_r in Hc; split; intros; try done; lia.
Qed.

Lemma grid_extent_refuted :
  exists p m ext, meta_typed m /\ grid_ok m /\ grid_extent p m = Ok ext
    /\ (exists d s e, am_shape m !! 0%nat = Some d /\ am_chunk_shape m !! 0%nat = Some s
          /\ ext !! 0%nat = Some e /\ ~ is_ceil_div d s e)
    /\ num_chunks p m = Ok 2
    /\ in_bounds p m [1] = Ok true
    /\ ~ exists x, in_chunk (am_chunk_shape m) [1] x
                   /\ in_box (bb_off (get_bounds m)) (am_shape m) x.
Proof.
  exists Debug, (ArrayMeta [3] (Core DBool) (B "regular") [4] (B "/") RowMajor None [] [] CRaw), [2].
  split; [split; repeat constructor; vm_compute; done|].
  split; [repeat constructor; cbn; unfold two64; lia|].
  split; [vm_compute; reflexivity|].
  split; [exists 3, 4, 2; repeat split; unfold is_ceil_div; lia|].
  split; [vm_compute; reflexivity|]. split; [vm_compute; reflexivity|].
  intros (x & (_ & Hl & Hc) & (_ & _ & Hb)). cbn in *. destruct x as [|x [|]]; try done.
  specialize (Hc 0%nat 1 4 x eq_refl eq_refl eq_refl).
  specialize (Hb 0%nat x 0 3 eq_refl eq_refl eq_refl). lia.
Qed.

(** A dimension of 2^64-1 overflows: panic, or a wrong extent in release. *)
Lemma grid_extent_overflow :
  exists m, meta_typed m /\ Forall (fun s => 0 < s) (am_chunk_shape m)
    /\ grid_extent Debug m = Panic /\ grid_extent Release m = Ok [1].
Proof.
  exists (ArrayMeta [2 ^ 64 - 1] (Core DBool) (B "regular") [2] (B "/") RowMajor None [] [] CRaw).
  split; [split; repeat constructor; vm_compute; done|].
  split; [repeat constructor|]. split; vm_compute; reflexivity.
Qed.

Lemma box_has_in_box b x : box_has b x <-> in_box (bb_off b) (bb_shape b) x.
Proof. done. Qed.
