(** Facts about coordinate iteration (CoordIter.v). *)
From Verif Require Import CoordIter Spec BaseFacts BBoxFacts ChunkFacts.
From Coq Require Import ZifyBool ZifyNat ZifyN Sorting.Sorted.

(** ** zrange *)
Lemma elem_of_zrange f c x : x ∈ zrange f c <-> f <= x < c.
Proof.
  unfold zrange. rewrite elem_of_list_fmap. split.
  - intros (i & -> & Hi). apply elem_of_seq in Hi. lia.
  - intros H. exists (Z.to_nat (x - f)). split; [lia|]. apply elem_of_seq. lia.
Qed.
Lemma zrange_empty f c : c <= f -> zrange f c = [].
Proof. intros. unfold zrange. by replace (Z.to_nat (c - f)) with 0%nat by lia. Qed.
Lemma zrange_cons f c : f < c -> zrange f c = f :: zrange (f + 1) c.
Proof.
  intros. unfold zrange. replace (Z.to_nat (c - f)) with (S (Z.to_nat (c - (f + 1)))) by lia.
  cbn [seq map]. f_equal; [lia|]. rewrite <- seq_shift, map_map. apply map_ext. lia.
Qed.
Lemma zrange_length f c : lenZ (zrange f c) = sat_sub c f.
Proof. unfold lenZ, zrange, sat_sub. rewrite map_length, seq_length. lia. Qed.

(** ** box_coords *)
Definition in_ranges (r : list (Z * Z)) (x : list Z) : Prop :=
  Forall2 (fun '(f, c) v => f <= v < c) r x.

Lemma elem_of_box_coords r x : x ∈ box_coords r <-> in_ranges r x.
Proof.
  unfold in_ranges. revert x. induction r as [|[f c] r IH]; intros x.
  - cbn. rewrite elem_of_list_singleton. split; [intros ->; constructor|]. by inversion 1.
  - cbn [box_coords]. rewrite elem_of_list_In, in_flat_map. split.
    + intros (v & Hv & Hx). apply in_map_iff in Hx as (y & <- & Hy).
      apply elem_of_list_In in Hv, Hy. apply elem_of_zrange in Hv.
      constructor; [done|]. by apply IH.
    + intros H. inversion H as [|? v ? y Hv Hy]; subst. exists v.
      split; [apply elem_of_list_In; by apply elem_of_zrange|].
      apply in_map_iff. exists y. split; [done|]. apply elem_of_list_In. by apply IH.
Qed.

Lemma box_coords_length r :
  lenZ (box_coords r) = prodZ (map (fun '(f, c) => sat_sub c f) r).
Proof.
  induction r as [|[f c] r IH]; [done|]. cbn [box_coords map]. rewrite prodZ_cons.
  rewrite <- zrange_length. unfold lenZ in *. rewrite <- IH. clear IH.
  induction (zrange f c) as [|v l IHl]; [done|].
  cbn [flat_map]. rewrite app_length, map_length. cbn [length]. lia.
Qed.

(** Lexicographic order. *)
Lemma lex_sorted_app l1 l2 :
  StronglySorted lex_lt l1 -> StronglySorted lex_lt l2 ->
  (forall x y, x ∈ l1 -> y ∈ l2 -> lex_lt x y) -> StronglySorted lex_lt (l1 ++ l2).
Proof.
  induction 1 as [|x l1 Hl IH Hx]; intros H2 H; [done|]. cbn. constructor.
  - apply IH; [done|]. intros; apply H; [by right|done].
  - apply list.Forall_app. split; [done|]. apply list.Forall_forall. intros y Hy. apply H; [left|done].
Qed.
Lemma lex_sorted_map v l : StronglySorted lex_lt l -> StronglySorted lex_lt (map (cons v) l).
Proof.
  induction 1 as [|x l Hl IH Hx]; [constructor|]. cbn. constructor; [done|].
  apply Forall_fmap. eapply list.Forall_impl; [exact Hx|]. intros y Hy. cbn. by right.
Qed.
Lemma box_coords_sorted r : StronglySorted lex_lt (box_coords r).
Proof.
  induction r as [|[f c] r IH]; [repeat constructor|]. cbn [box_coords].
  remember (Z.to_nat (c - f)) as n eqn:En. revert f En.
  induction n as [|n IHn]; intros f En.
  - rewrite zrange_empty by lia. constructor.
  - rewrite zrange_cons by lia. cbn [flat_map]. apply lex_sorted_app.
    + by apply lex_sorted_map.
    + apply IHn. lia.
    + intros x y Hx Hy. apply elem_of_list_fmap in Hx as (x' & -> & _).
      apply elem_of_list_In, in_flat_map in Hy as (v & Hv & Hy).
      apply in_map_iff in Hy as (y' & <- & _). apply elem_of_list_In, elem_of_zrange in Hv.
      left. lia.
Qed.
Lemma lex_lt_irrefl x : ~ lex_lt x x.
Proof. induction x as [|a x IH]; cbn; [tauto|]. intros [?|[_ ?]]; [lia|by apply IH]. Qed.
Lemma sorted_NoDup l : StronglySorted lex_lt l -> NoDup l.
Proof.
  induction 1 as [|x l Hl IH Hx]; constructor; [|done].
  intros Hin. rewrite list.Forall_forall in Hx. by apply (lex_lt_irrefl x), Hx.
Qed.

(** ** The itertools state machine yields box_coords *)

(** Enumeration with the least significant coordinate first. *)
Fixpoint enum_rev (rs : list (Z * Z)) : list (list Z) :=
  match rs with
  | [] => [[]]
  | (f, c) :: rs' => flat_map (fun h => map (fun x => x :: h) (zrange f c)) (enum_rev rs')
  end.
(** Items strictly after [c]. *)
Fixpoint rest_rev (rs : list (Z * Z)) (c : list Z) : list (list Z) :=
  match rs, c with
  | (f, e) :: rs', x :: c' =>
      map (fun y => y :: c') (zrange (x + 1) e)
      ++ flat_map (fun h => map (fun y => y :: h) (zrange f e)) (rest_rev rs' c')
  | _, _ => []
  end.

(** States of the factors. *)
Fixpoint st_mid (l : list mpi) (rs : list (Z * Z)) (c : list Z) : Prop :=
  match l, rs, c with
  | [], [], [] => True
  | i :: l', (f, e) :: rs', x :: c' =>
      i = Mpi (Some x) (x + 1) f e /\ f <= x < e /\ st_mid l' rs' c'
  | _, _, _ => False
  end.
Definition st_fresh (rs : list (Z * Z)) : list mpi := map mpi_new rs.

Lemma st_mid_current l rs c : st_mid l rs c -> mp_current (rev l) = Ok (rev c).
Proof.
  assert (forall l1 l2 a b, mp_current l1 = Ok a -> mp_current l2 = Ok b ->
            mp_current (l1 ++ l2) = Ok (a ++ b)) as Happ.
  { intros l1. induction l1 as [|i l1 IH]; intros l2 a b H1 H2; cbn in *.
    - injection H1 as <-. done.
    - destruct (mp_cur i) as [v|]; [|done]. apply bind_ok_inv in H1 as (r & H1 & [= <-]).
      rewrite (IH l2 r b H1 H2). done. }
  revert rs c. induction l as [|i l IH]; intros [|[f e] rs] [|x c]; cbn [st_mid]; try done.
  intros (-> & _ & H). cbn [rev]. apply Happ; [by eapply IH|done].
Qed.

Lemma iterate_mid l rs c :
  st_mid l rs c ->
  match rest_rev rs c with
  | [] => fst (mp_iterate_last l (Some false)) = false
  | c' :: r => exists l', mp_iterate_last l (Some false) = (true, l')
                 /\ st_mid l' rs c' /\ rest_rev rs c' = r
  end.
Proof.
  revert rs c. induction l as [|i l IH]; intros [|[f e] rs] [|x c]; cbn [st_mid]; try done.
  intros (-> & Hx & H). specialize (IH rs c H). cbn [rest_rev].
  cbn [mp_iterate_last]. cbv zeta. cbn iota. unfold mpi_iterate. cbn [mp_pos mp_hi mp_lo mp_cur mpi_reset mpi_in_progress].
  destruct (x + 1 <? e) eqn:E.
  - rewrite zrange_cons by lia. cbn [map app mpi_in_progress mp_cur].
    eexists. split; [done|]. cbn [st_mid rest_rev]. repeat split; try done; lia.
  - rewrite zrange_empty by lia. cbn [map app mpi_in_progress mp_cur].
    destruct (rest_rev rs c) as [|c' r].
    + destruct (mp_iterate_last l (Some false)) as [b l'] eqn:El. cbn in IH. subst b. done.
    + destruct IH as (l' & -> & H' & <-). cbn [flat_map].
      unfold mpi_reset, mpi_iterate. cbn [mp_pos mp_hi mp_lo mp_cur].
      replace (f <? e) with true by lia. cbn [mpi_in_progress mp_cur].
      rewrite (zrange_cons f e) by lia. cbn [map app].
      eexists. split; [done|]. cbn [st_mid rest_rev]. repeat split; try done; lia.
Qed.

Lemma iterate_fresh rs st :
  st = Some true \/ (st = None /\ rs <> []) ->
  match enum_rev rs with
  | [] => fst (mp_iterate_last (st_fresh rs) st) = false
  | c' :: r => exists l', mp_iterate_last (st_fresh rs) st = (true, l')
                 /\ st_mid l' rs c' /\ rest_rev rs c' = r
  end.
Proof.
  revert st. induction rs as [|[f e] rs IH]; intros st Hst.
  - cbn. destruct Hst as [->|[_ ?]]; [|done]. exists []. done.
  - specialize (IH (Some true) (or_introl eq_refl)).
    change (st_fresh ((f, e) :: rs)) with (mpi_new (f, e) :: st_fresh rs).
    cbn [mp_iterate_last]. cbv zeta.
    replace (match st with Some b => b | None => negb (mpi_in_progress (mpi_new (f, e))) end)
      with true by (destruct Hst as [->|[-> _]]; done).
    unfold mpi_new, mpi_reset, mpi_iterate, mpi_in_progress.
    cbn [mp_cur mp_pos mp_lo mp_hi fst snd]. cbn [enum_rev].
    destruct (enum_rev rs) as [|c' r].
    + destruct (mp_iterate_last (st_fresh rs) (Some true)) as [b l'] eqn:El. cbn in IH. subst b. done.
    + destruct IH as (l' & -> & H' & <-). cbn [flat_map].
      destruct (f <? e) eqn:E.
      * rewrite (zrange_cons f e) by lia. cbn [map app mpi_in_progress mp_cur].
        eexists. split; [done|]. cbn [st_mid rest_rev]. rewrite (zrange_cons f e) by lia. repeat split; try done; lia.
      * rewrite zrange_empty by lia. cbn [map app mpi_in_progress mp_cur].
        replace (flat_map _ _) with (@nil (list Z)); [done|].
        symmetry. clear. induction (rest_rev rs c'); done.
Qed.

(** Reversal. *)
Lemma box_coords_snoc r f e :
  box_coords (r ++ [(f, e)])
  = flat_map (fun h => map (fun x => h ++ [x]) (zrange f e)) (box_coords r).
Proof.
  induction r as [|[f0 e0] r IH]; cbn [app box_coords].
  - cbn [flat_map map]. rewrite app_nil_r. induction (zrange f e); cbn; [done|by f_equal].
  - induction (zrange f0 e0) as [|v l IHl]; [done|]. cbn [flat_map].
    rewrite flat_map_app, IHl. f_equal. rewrite IH. clear.
    induction (box_coords r) as [|h t IH]; [done|]. cbn [flat_map map].
    rewrite map_app, IH, map_map. done.
Qed.
Lemma enum_rev_box rs : map (@rev Z) (enum_rev rs) = box_coords (rev rs).
Proof.
  induction rs as [|[f e] rs IH]; [done|]. cbn [enum_rev rev].
  rewrite box_coords_snoc, <- IH. clear.
  induction (enum_rev rs) as [|h t IH]; [done|]. cbn [flat_map map].
  rewrite map_app, IH. f_equal. rewrite map_map. apply map_ext. done.
Qed.

(** Running the iterator. *)
Lemma mp_next_mid l rs c :
  st_mid l rs c -> l <> [] ->
  match rest_rev rs c with
  | [] => exists l', mp_next l = Ok (None, l')
  | c' :: r => exists l', mp_next l = Ok (Some (rev c'), l') /\ st_mid l' rs c' /\ rest_rev rs c' = r
  end.
Proof.
  intros H Hl. pose proof (iterate_mid l rs c H) as Hi.
  assert (mp_iterate_last l None = mp_iterate_last l (Some false)) as Heq.
  { destruct l as [|i l]; [done|]. destruct rs as [|[f e] rs], c as [|x c]; try done.
    destruct H as (-> & _). done. }
  unfold mp_next. rewrite Heq. destruct (rest_rev rs c) as [|c' r].
  - destruct (mp_iterate_last l (Some false)) as [b l']. cbn in Hi. subst b. by eexists.
  - destruct Hi as (l' & -> & H' & Hr). rewrite (st_mid_current l' rs c' H'). by exists l'.
Qed.
Lemma st_mid_nonnil l rs c l' c' : st_mid l rs c -> st_mid l' rs c' -> l <> [] -> l' <> [].
Proof. destruct l, rs as [|[]], c, l', c'; cbn; intros; by try tauto. Qed.

Lemma yields_mid p l rs c a t :
  st_mid l rs c -> l <> [] -> 0 <= a -> a + lenZ (rest_rev rs c) + 1 < two64 ->
  ci_yields p (CoordIt l a t) (map (@rev Z) (rest_rev rs c)).
Proof.
  remember (rest_rev rs c) as r eqn:Er. revert l c a Er.
  induction r as [|c' r IH]; intros l c a Er H Hl Ha Hb;
    pose proof (mp_next_mid l rs c H Hl) as Hn; rewrite <- Er in Hn; cbn [map ci_yields].
  - destruct Hn as (l' & Hn). exists (CoordIt l' (a + 1) t).
    unfold ci_next. cbn [ci_acc ci_iter ci_total lenZ length] in *. unfold lenZ in Hb. cbn in Hb.
    u64. by rewrite Hn.
  - destruct Hn as (l' & Hn & H' & Hr). exists (CoordIt l' (a + 1) t).
    unfold lenZ in Hb. cbn [length] in Hb. split.
    + unfold ci_next. cbn [ci_acc ci_iter ci_total]. u64. by rewrite Hn.
    + apply (IH l' c'); [done|done| |lia|unfold lenZ; lia].
      by apply (st_mid_nonnil l rs c l' c').
Qed.

Lemma yields_fresh p rs t :
  lenZ (product_items rs) + 1 < two64 ->
  ci_yields p (CoordIt (rev (map mpi_new rs)) 0 t) (product_items rs).
Proof.
  intros Hb. rewrite <- map_rev. fold (st_fresh (rev rs)).
  destruct (decide (rs = [])) as [->|Hne].
  { cbn [product_items ci_yields]. eexists. unfold ci_next. cbn [ci_acc ci_iter ci_total rev st_fresh map].
    rewrite add64_ok by (unfold is_u64, two64; lia). done. }
  assert (product_items rs = map (@rev Z) (enum_rev (rev rs))) as Heq.
  { rewrite enum_rev_box, rev_involutive. by destruct rs. }
  rewrite Heq in *. clear Heq. unfold lenZ in Hb. rewrite map_length in Hb.
  assert (rev rs <> []) as Hne' by (intros E; apply Hne; by rewrite <- (rev_involutive rs), E).
  remember (rev rs) as q eqn:Eq. clear Eq Hne rs.
  pose proof (iterate_fresh q None (or_intror (conj eq_refl Hne'))) as Hi.
  destruct (enum_rev q) as [|c' r]; cbn [map ci_yields].
  - destruct (mp_iterate_last (st_fresh q) None) as [b l'] eqn:El. cbn in Hi. subst b.
    exists (CoordIt l' 1 t). unfold ci_next. cbn [ci_acc ci_iter ci_total].
    rewrite add64_ok by (unfold is_u64, two64; lia). rewrite bind_ok.
    unfold mp_next. by rewrite El.
  - destruct Hi as (l' & El & H' & <-). exists (CoordIt l' 1 t). split.
    + unfold ci_next. cbn [ci_acc ci_iter ci_total].
      rewrite add64_ok by (unfold is_u64, two64; lia). rewrite bind_ok.
      unfold mp_next. rewrite El. by rewrite (st_mid_current l' q c' H').
    + cbn [length] in Hb. apply yields_mid; [done| |lia|unfold lenZ; lia].
      destruct l'; [|done]. destruct q as [|[]], c'; cbn in H'; done.
Qed.

(** The promise of CoordIter.v: what a `for` loop sees. *)
Lemma ci_collect p floor ceil it :
  ci_floor_ceil p floor ceil = Ok it ->
  lenZ (product_items (zip floor ceil)) + 1 < two64 ->
  ci_yields p it (product_items (zip floor ceil)).
Proof.
  unfold ci_floor_ceil. intros H Hb. apply bind_ok_inv in H as (t & _ & [= <-]).
  by apply yields_fresh.
Qed.
Lemma ci_collect_new p ceil it :
  ci_new p ceil = Ok it ->
  lenZ (product_items (map (pair 0) ceil)) + 1 < two64 ->
  ci_yields p it (product_items (map (pair 0) ceil)).
Proof.
  unfold ci_new. intros H Hb. apply bind_ok_inv in H as (t & _ & [= <-]).
  replace (map (fun c => mpi_new (0, c)) ceil) with (map mpi_new (map (pair 0) ceil)).
  - by apply yields_fresh.
  - rewrite map_map. done.
Qed.

(** The items of a run are determined. *)
Lemma ci_yields_unique p it l1 l2 : ci_yields p it l1 -> ci_yields p it l2 -> l1 = l2.
Proof.
  revert it l2. induction l1 as [|x l1 IH]; intros it [|y l2]; cbn [ci_yields].
  - done.
  - intros (i1 & H1) (i2 & H2 & _). congruence.
  - intros (i1 & H1 & _) (i2 & H2). congruence.
  - intros (i1 & H1 & H1') (i2 & H2 & H2'). rewrite H1 in H2. injection H2 as <- <-.
    f_equal. by eapply IH.
Qed.

(** ** Remaining length *)
Lemma ci_next_total p it o it' : ci_next p it = Ok (o, it') ->
  ci_total it' = ci_total it.
Proof.
  unfold ci_next. intros H. apply bind_ok_inv in H as (a & _ & H).
  destruct (mp_next (ci_iter it)) as [[o' l]| |]; try done. by injection H as <- <-.
Qed.
Lemma ci_next_acc p it o it' : 0 <= ci_acc it -> ci_acc it + 1 < two64 ->
  ci_next p it = Ok (o, it') -> ci_acc it' = ci_acc it + 1.
Proof.
  unfold ci_next. intros H1 H2 H. rewrite add64_ok in H by (unfold is_u64; lia).
  rewrite bind_ok in H.
  destruct (mp_next (ci_iter it)) as [[o' l]| |]; try done. by injection H as <- <-.
Qed.
Lemma size_hint_run p it items n it' :
  ci_yields p it items -> ci_advance p it n it' -> (n <= length items)%nat ->
  0 <= ci_acc it -> ci_acc it + lenZ items + 1 < two64 ->
  ci_total it = ci_acc it + lenZ items ->
  ci_size_hint p it' = Ok (lenZ (drop n items)) /\ ci_yields p it' (drop n items).
Proof.
  revert it items. induction n as [|n IH]; intros it items Hy Ha Hn H0 Hb Ht.
  - cbn in Ha. subst it'. rewrite drop_0. split; [|done]. unfold ci_size_hint.
    rewrite Ht, sub64_ok by (unfold is_u64, lenZ in *; lia). f_equal. unfold lenZ; lia.
  - destruct items as [|x items]; [cbn in Hn; lia|].
    destruct Ha as (y & it1 & Hy1 & Ha). destruct Hy as (it2 & Hy2 & Hy).
    rewrite Hy1 in Hy2. injection Hy2 as <- <-. cbn [drop length] in *.
    unfold lenZ in *. cbn [length] in *.
    pose proof (ci_next_acc _ _ _ _ H0 ltac:(lia) Hy1). pose proof (ci_next_total _ _ _ _ Hy1).
    apply (IH it1 items); try done; unfold lenZ; lia.
Qed.
Lemma advance_le p it items n it' : ci_yields p it items -> ci_advance p it n it' -> (n <= length items)%nat.
Proof.
  revert it items. induction n as [|n IH]; intros it items Hy Ha; [lia|].
  destruct Ha as (y & it1 & Hy1 & Ha). destruct items as [|x items].
  - destruct Hy as (it2 & Hy2). congruence.
  - destruct Hy as (it2 & Hy2 & Hy). rewrite Hy1 in Hy2. injection Hy2 as <- <-.
    cbn [length]. specialize (IH _ _ Hy Ha). lia.
Qed.

(** ** coord_iter *)
Definition ceil_of (d s : Z) : Z := (d + s - 1) / s.
(** Dimensions whose ceiling stays in u64. *)
Definition iter_ok (m : array_meta) : Prop :=
  Forall2 (fun d s => 0 <= d /\ 0 < s /\ d + s < two64) (am_shape m) (am_chunk_shape m).

Lemma coord_iter_eq p m :
  iter_ok m -> coord_iter p m = ci_new p (zip_with ceil_of (am_shape m) (am_chunk_shape m)).
Proof.
  unfold coord_iter, iter_ok. intros H.
  assert (mapM_res (fun '(d, s) => a ← add64 p d s; b ← sub64 p a 1; div64 b s)
            (zip (am_shape m) (am_chunk_shape m))
          = Ok (zip_with ceil_of (am_shape m) (am_chunk_shape m))) as ->; [|done].
  induction H as [|d s shape cs (H1 & H2 & H3) H IH]; [done|].
  cbn [zip_with mapM_res]. u64. cbn in IH. rewrite IH. done.
Qed.

Lemma meets_array_iff m pos :
  iter_ok m ->
  meets_array m pos <->
  in_ranges (map (pair 0) (zip_with ceil_of (am_shape m) (am_chunk_shape m))) pos.
Proof.
  unfold meets_array, iter_ok, in_ranges. intros H. revert pos.
  induction H as [|d s shape cs (H1 & H2 & H3) H IH]; intros pos.
  - cbn. split.
    + intros (x & (H1 & _) & _). destruct pos; [constructor|done].
    + intros Hp. inversion Hp; subst. exists []. repeat split; done.
  - cbn [length replicate zip_with map]. pose proof (ceil_div_spec d s H2) as Hc. fold (ceil_of d s) in Hc.
    split.
    + intros (x & (C1 & C2 & C) & (B1 & B2 & B3)).
      destruct pos as [|c pos]; [done|]. destruct x as [|v x]; [done|]. constructor.
      * specialize (C 0%nat c s v eq_refl eq_refl eq_refl).
        specialize (B3 0%nat v 0 d eq_refl eq_refl eq_refl).
        split; [nia|]. apply (ceil_div_lt d s _ c H2 Hc). lia.
      * apply IH. exists x. cbn [length] in *. rewrite ?replicate_length in *. split; (split; [cbn [length]; rewrite ?replicate_length; lia|split; [cbn [length]; lia|]]).
        -- intros i. by apply (C (S i)).
        -- intros i. by apply (B3 (S i)).
    + intros Hp. inversion Hp as [|? c ? pos' Hcv Hpos]; subst.
      apply IH in Hpos as (x & (C1 & C2 & C) & (B1 & B2 & B3)).
      assert (c * s < d) by (apply (ceil_div_lt d s _ c H2 Hc); lia).
      exists (c * s :: x). cbn [length] in *. rewrite ?replicate_length in *. split; (split; [cbn [length]; rewrite ?replicate_length; lia|split; [cbn [length]; lia|]]).
      * intros [|i] ci si xi E1 E2 E3; cbn in *; [|by apply (C i ci si xi)].
        injection E1 as <-. injection E2 as <-. injection E3 as <-. nia.
      * intros [|i] ci si xi E1 E2 E3; cbn in *; [|by apply (B3 i ci si xi)].
        injection E1 as <-. injection E2 as <-. injection E3 as <-. nia.
Qed.

Lemma ceil_of_nonneg m : iter_ok m ->
  Forall (fun z => 0 <= z) (zip_with ceil_of (am_shape m) (am_chunk_shape m)).
Proof.
  unfold iter_ok. induction 1 as [|d s shape cs (H1 & H2 & H3) H IH]; cbn; constructor; [|done].
  apply Z.div_pos; lia.
Qed.
Lemma map_sat_sub0 l : Forall (fun z => 0 <= z) l ->
  map (fun '(f, c) => sat_sub c f) (map (pair 0) l) = l.
Proof.
  induction 1 as [|x l Hx Hl IH]; [done|]. cbn. f_equal; [unfold sat_sub; lia|done].
Qed.

Lemma coord_iter_spec p m it :
  iter_ok m -> am_shape m <> [] -> coord_iter p m = Ok it ->
  prodZ (zip_with ceil_of (am_shape m) (am_chunk_shape m)) + 1 < two64 ->
  exists items, ci_yields p it items
    /\ StronglySorted lex_lt items /\ NoDup items
    /\ lenZ items = prodZ (zip_with ceil_of (am_shape m) (am_chunk_shape m))
    /\ forall pos, pos ∈ items <-> meets_array m pos.
Proof.
  intros Hok Hne Hit Hb. rewrite coord_iter_eq in Hit by done.
  set (r := map (pair 0) (zip_with ceil_of (am_shape m) (am_chunk_shape m))).
  assert (product_items r = box_coords r) as Hpr.
  { subst r. destruct Hok as [|d s shape cs]; [done|]. done. }
  assert (lenZ (box_coords r) = prodZ (zip_with ceil_of (am_shape m) (am_chunk_shape m))) as Hl.
  { rewrite box_coords_length. subst r. by rewrite map_sat_sub0 by by apply ceil_of_nonneg. }
  exists (box_coords r). split; [|split; [|split; [|split]]].
  - rewrite <- Hpr. apply (ci_collect_new p _ it Hit). fold r. rewrite Hpr. lia.
  - apply box_coords_sorted.
  - apply sorted_NoDup, box_coords_sorted.
  - done.
  - intros pos. rewrite elem_of_box_coords, meets_array_iff by done. done.
Qed.

(** Creation succeeds when the grid has fewer than 2^64 chunks. *)
Lemma coord_iter_ok p m :
  iter_ok m ->
  (forall k, prodZ (take k (zip_with ceil_of (am_shape m) (am_chunk_shape m))) < two64) ->
  exists it, coord_iter p m = Ok it.
Proof.
  intros Hok Hk. rewrite coord_iter_eq by done. unfold ci_new.
  rewrite product64_prefix; [|by apply ceil_of_nonneg|done]. by eexists.
Qed.
Lemma coord_iter_total p m it :
  iter_ok m -> coord_iter p m = Ok it ->
  prodZ (zip_with ceil_of (am_shape m) (am_chunk_shape m)) < two64 ->
  ci_total it = prodZ (zip_with ceil_of (am_shape m) (am_chunk_shape m)) /\ ci_acc it = 0.
Proof.
  intros Hok. rewrite coord_iter_eq by done. unfold ci_new. intros H Hb.
  apply bind_ok_inv in H as (t & Ht & [= <-]). cbn. split; [|done].
  eapply product64_val; [done|]. split; [|done].
  apply prodZ_nonneg, ceil_of_nonneg. done.
Qed.

Lemma coord_iter_len p m it n it' :
  iter_ok m -> am_shape m <> [] -> coord_iter p m = Ok it ->
  prodZ (zip_with ceil_of (am_shape m) (am_chunk_shape m)) + 1 < two64 ->
  ci_advance p it n it' ->
  exists rest, ci_size_hint p it' = Ok (lenZ rest) /\ ci_yields p it' rest.
Proof.
  intros Hok Hne Hit Hb Ha.
  destruct (coord_iter_spec p m it Hok Hne Hit Hb) as (items & Hy & _ & _ & Hl & _).
  destruct (coord_iter_total p m it Hok Hit) as [Ht H0]; [lia|].
  exists (drop n items). eapply size_hint_run; try done.
  - by eapply advance_le.
  - lia.
  - rewrite H0, Hl. lia.
  - rewrite H0, Hl, Ht. lia.
Qed.

(** ** bounded_coord_iter *)
Definition b_shape (d oo os : Z) : Z := Z.max 0 (Z.min d (oo + os) - oo).
Definition b_floor (oo cs : Z) : Z := oo / cs.
Definition b_ceil (d oo os cs : Z) : Z := (oo + b_shape d oo os + cs - 1) / cs.

Definition bok (m : array_meta) (b : bbox) : Prop :=
  bounded_ok (am_shape m) (am_chunk_shape m) (bb_off b) (bb_shape b).

Fixpoint b_ranges (shape chunks off oshape : list Z) : list (Z * Z) :=
  match shape, chunks, off, oshape with
  | d :: shape', cs :: chunks', oo :: off', os :: oshape' =>
      (b_floor oo cs, b_ceil d oo os cs) :: b_ranges shape' chunks' off' oshape'
  | _, _, _, _ => []
  end.
Definition branges (m : array_meta) (b : bbox) : list (Z * Z) :=
  b_ranges (am_shape m) (am_chunk_shape m) (bb_off b) (bb_shape b).

Lemma bok_dims m b : bok m b ->
  Forall2 (fun d s => 0 <= d /\ 0 < s /\ d + 1 < two64) (am_shape m) (am_chunk_shape m).
Proof.
  unfold bok. generalize (am_shape m) (am_chunk_shape m) (bb_off b) (bb_shape b).
  induction 1; constructor; [|done]. lia.
Qed.
Lemma bok_box_ok m b : bok m b -> box_ok b.
Proof.
  unfold bok, box_ok. generalize (am_shape m) (am_chunk_shape m) (bb_off b) (bb_shape b).
  induction 1; constructor; [|done]. lia.
Qed.
Lemma bok_length m b : bok m b ->
  length (am_chunk_shape m) = length (am_shape m) /\ length (bb_off b) = length (am_shape m)
  /\ length (bb_shape b) = length (am_shape m).
Proof.
  unfold bok. generalize (am_shape m) (am_chunk_shape m) (bb_off b) (bb_shape b).
  induction 1; cbn; lia.
Qed.
Lemma zip_fst_snd {A B} (l : list (A * B)) : zip (map fst l) (map snd l) = l.
Proof. induction l as [|[a b] l IH]; cbn; [done|]. by f_equal. Qed.

Lemma bounded_intersect p m b : bok m b ->
  intersect p (get_bounds m) b
  = Ok (BBox (bb_off b)
         (zip_with (fun '(d, oo) os => b_shape d oo os) (zip (am_shape m) (bb_off b)) (bb_shape b))).
Proof.
  intros H. pose proof (bok_length m b H) as (L1 & L2 & L3).
  unfold intersect, get_bounds. cbn [bb_off bb_shape].
  rewrite bool_decide_eq_true_2 by (rewrite replicate_length; lia).
  cbn [assert_]. rewrite bind_ok.
  assert (zip_dims (intersect_dim p) (am_shape m) (replicate (length (am_shape m)) 0)
            (bb_shape b) (bb_off b)
          = Ok (bb_off b, zip_with (fun '(d, oo) os => b_shape d oo os)
                  (zip (am_shape m) (bb_off b)) (bb_shape b))) as ->; [|done].
  unfold bok in H. clear L1 L2 L3. revert H.
  generalize (am_shape m) (am_chunk_shape m) (bb_off b) (bb_shape b).
  induction 1 as [|d cs oo os shape chunks off oshape H1 H2 H3 H4 H5 H6 H7 H IH]; [done|].
  cbn [length replicate zip_dims].
  assert (intersect_dim p d 0 os oo = Ok (oo, b_shape d oo os)) as ->.
  { unfold intersect_dim. cbv zeta. u64. unfold b_shape, sat_sub. do 2 f_equal; lia. }
  rewrite bind_ok, IH. done.
Qed.

Lemma bounded_ranges_eq p m b : bok m b ->
  bounded_ranges p m b = Ok (map fst (branges m b), map snd (branges m b)).
Proof.
  intros H. unfold bounded_ranges. rewrite (bounded_intersect p m b H), bind_ok.
  cbn [bb_off bb_shape].
  assert (mapM_res (fun '(o, cs) => div64 o cs) (zip (bb_off b) (am_chunk_shape m))
          = Ok (map fst (branges m b))) as ->.
  { unfold bok, branges in *. revert H.
    generalize (am_shape m) (am_chunk_shape m) (bb_off b) (bb_shape b).
    induction 1 as [|d cs oo os shape chunks off oshape H1 H2 H3 H4 H5 H6 H7 H IH]; [done|].
    cbn [zip_with mapM_res b_ranges map fst]. rewrite div64_ok by lia. cbn in IH |- *.
    rewrite IH. done. }
  rewrite bind_ok.
  assert (mapM_res (fun '(o, s, cs) =>
            a ← add64 p o s; b ← add64 p a cs; c ← sub64 p b 1; div64 c cs)
          (zip (zip (bb_off b) (zip_with (fun '(d, oo) os => b_shape d oo os)
                                  (zip (am_shape m) (bb_off b)) (bb_shape b)))
               (am_chunk_shape m))
          = Ok (map snd (branges m b))) as ->; [|done].
  unfold bok, branges in *. revert H.
  generalize (am_shape m) (am_chunk_shape m) (bb_off b) (bb_shape b).
  induction 1 as [|d cs oo os shape chunks off oshape H1 H2 H3 H4 H5 H6 H7 H IH]; [done|].
  cbn [zip_with mapM_res b_ranges map snd].
  assert (0 <= b_shape d oo os) as Hs by (unfold b_shape; lia).
  assert (oo + b_shape d oo os + cs < two64) as Hb by (unfold b_shape; lia).
  rewrite (add64_ok p oo) by (unfold is_u64; lia). rewrite bind_ok.
  rewrite add64_ok by (unfold is_u64; lia). rewrite bind_ok.
  rewrite sub64_ok by (unfold is_u64; lia). rewrite bind_ok.
  rewrite div64_ok by lia. rewrite bind_ok. cbn in IH |- *. rewrite IH. done.
Qed.

(** Per dimension: a shared voxel puts the coordinate in range; conversely
    when the box and the array share any index. *)
Lemma b_dim_complete d cs oo os c v :
  0 < cs -> c * cs <= v < (c + 1) * cs -> 0 <= v < d -> oo <= v < oo + os -> 0 <= oo ->
  b_floor oo cs <= c < b_ceil d oo os cs.
Proof.
  intros Hcs Hv Hd Ho Hoo. unfold b_floor, b_ceil. split.
  - apply Z.lt_succ_r, Z.div_lt_upper_bound; nia.
  - apply (ceil_div_lt (oo + b_shape d oo os) cs); [done|by apply ceil_div_spec|].
    unfold b_shape. nia.
Qed.
Lemma b_dim_sound d cs oo os c :
  0 < cs -> 0 <= oo -> 0 < b_shape d oo os ->
  b_floor oo cs <= c < b_ceil d oo os cs ->
  let v := Z.max (c * cs) oo in
  c * cs <= v < (c + 1) * cs /\ 0 <= v < d /\ oo <= v < oo + os.
Proof.
  intros Hcs Hoo Hs [H1 H2]. unfold b_floor, b_ceil in *.
  apply (ceil_div_lt (oo + b_shape d oo os) cs) in H2; [|done|by apply ceil_div_spec].
  pose proof (Z.mod_pos_bound oo cs Hcs). pose proof (Z_div_mod_eq_full oo cs).
  unfold b_shape in *. cbv zeta. repeat split; nia.
Qed.

Lemma branges_complete m b pos : bok m b -> meets_box m b pos -> in_ranges (branges m b) pos.
Proof.
  unfold bok, meets_box, in_ranges, branges. intros H. revert H pos.
  generalize (am_shape m) (am_chunk_shape m) (bb_off b) (bb_shape b).
  induction 1 as [|d cs oo os shape chunks off oshape H1 H2 H3 H4 H5 H6 H7 H IH];
    intros pos (x & (C1 & C2 & C) & (A1 & A2 & A) & (B1 & B2 & B3)).
  - destruct pos; [constructor|done].
  - destruct pos as [|c pos]; [done|]. destruct x as [|v x]; [done|]. cbn [b_ranges]. constructor.
    + specialize (C 0%nat c cs v eq_refl eq_refl eq_refl).
      specialize (A 0%nat v 0 d eq_refl eq_refl eq_refl).
      specialize (B3 0%nat v oo os eq_refl eq_refl eq_refl).
      apply (b_dim_complete d cs oo os c v); lia.
    + apply IH. exists x. cbn [length replicate] in *.
      split; [|split]; (split; [lia|split; [lia|]]); intros i.
      * by apply (C (S i)).
      * by apply (A (S i)).
      * by apply (B3 (S i)).
Qed.

Lemma branges_sound m b pos : bok m b -> overlaps m b ->
  in_ranges (branges m b) pos -> meets_box m b pos.
Proof.
  unfold bok, meets_box, in_ranges, branges, overlaps. intros H. revert H pos.
  generalize (am_shape m) (am_chunk_shape m) (bb_off b) (bb_shape b).
  induction 1 as [|d cs oo os shape chunks off oshape H1 H2 H3 H4 H5 H6 H7 H IH];
    intros pos (y & HA & HB) Hp; cbn [b_ranges] in Hp.
  - inversion Hp; subst. exists []. repeat split; done.
  - inversion Hp as [|? c ? pos' Hc Hp']; subst. cbn [length replicate] in *.
    apply in_box_cons_inv in HA as (w & ys & -> & Hw & HA).
    apply in_box_cons in HB as [Hw2 HB].
    destruct (IH pos' (ex_intro _ ys (conj HA HB)) Hp') as (x & (C1 & C2 & C) & XA & XB).
    assert (0 < b_shape d oo os) as Hs by (unfold b_shape; lia).
    pose proof (b_dim_sound d cs oo os c H2 H4 Hs Hc) as HV. cbv zeta in HV.
    destruct HV as (V1 & V2 & V3).
    exists (Z.max (c * cs) oo :: x). split; [|split].
    + split; [cbn [length]; lia|]. split; [cbn [length]; lia|].
      intros [|i] ci si xi E1 E2 E3; cbn in *; [|by apply (C i ci si xi)].
      injection E1 as <-. injection E2 as <-. injection E3 as <-. done.
    + apply in_box_cons. split; [lia|done].
    + apply in_box_cons. split; [lia|done].
Qed.

Lemma branges_nonneg m b : bok m b ->
  Forall (fun z => 0 <= z) (map (fun '(f, c) => sat_sub c f) (branges m b)).
Proof.
  unfold branges. intros _.
  induction (b_ranges _ _ _ _) as [|[f c] l IH]; cbn; constructor; [unfold sat_sub; lia|done].
Qed.

Lemma bounded_coord_iter_eq p m b : bok m b ->
  bounded_coord_iter p m b = ci_floor_ceil p (map fst (branges m b)) (map snd (branges m b)).
Proof. intros H. unfold bounded_coord_iter. by rewrite bounded_ranges_eq. Qed.

(** Number of positions yielded. *)
Definition bcount (m : array_meta) (b : bbox) : Z :=
  prodZ (map (fun '(f, c) => sat_sub c f) (branges m b)).
Lemma branges_nonnil m b : bok m b -> am_shape m <> [] -> product_items (branges m b) = box_coords (branges m b).
Proof. unfold bok, branges. intros H Hn. by destruct H. Qed.

Lemma bounded_iter_spec p m b it :
  bok m b -> am_shape m <> [] -> bounded_coord_iter p m b = Ok it -> bcount m b + 1 < two64 ->
  exists items, ci_yields p it items
    /\ StronglySorted lex_lt items /\ NoDup items
    /\ lenZ items = bcount m b
    /\ (forall pos, meets_box m b pos -> pos ∈ items)
    /\ (overlaps m b -> forall pos, pos ∈ items -> meets_box m b pos).
Proof.
  intros Hok Hne Hit Hb. rewrite bounded_coord_iter_eq in Hit by done.
  pose proof (branges_nonnil m b Hok Hne) as Hpr.
  assert (lenZ (box_coords (branges m b)) = bcount m b) as Hl by apply box_coords_length.
  exists (box_coords (branges m b)). split; [|split; [|split; [|split; [|split]]]].
  - pose proof (ci_collect p _ _ it Hit) as Hc. rewrite zip_fst_snd, Hpr in Hc. apply Hc. lia.
  - apply box_coords_sorted.
  - apply sorted_NoDup, box_coords_sorted.
  - done.
  - intros pos Hp. apply elem_of_box_coords. by apply branges_complete.
  - intros Ho pos Hp. apply elem_of_box_coords in Hp. by apply branges_sound.
Qed.

Lemma bounded_coords_eq p m b : bok m b ->
  bounded_coords p m b =
  (_ ← product64 p (map (fun '(f, c) => sat_sub c f) (branges m b));
   Ok (product_items (branges m b))).
Proof. intros H. unfold bounded_coords. rewrite bounded_ranges_eq, bind_ok by done. by rewrite zip_fst_snd. Qed.

(** [bounded_coords] is what a loop over the iterator sees. *)
Lemma bounded_coords_run p m b it items :
  bounded_coord_iter p m b = Ok it -> bounded_coords p m b = Ok items ->
  lenZ items + 1 < two64 -> ci_yields p it items.
Proof.
  unfold bounded_coord_iter, bounded_coords. intros H1 H2 Hb.
  destruct (bounded_ranges p m b) as [[floor ceil]| |]; [|done..]. rewrite bind_ok in *.
  apply bind_ok_inv in H2 as (t & Ht & [= <-]). by apply ci_collect.
Qed.

Lemma bounded_iter_len p m b it n it' :
  bok m b -> am_shape m <> [] -> bounded_coord_iter p m b = Ok it -> bcount m b + 1 < two64 ->
  ci_advance p it n it' ->
  exists rest, ci_size_hint p it' = Ok (lenZ rest) /\ ci_yields p it' rest.
Proof.
  intros Hok Hne Hit Hb Ha.
  destruct (bounded_iter_spec p m b it Hok Hne Hit Hb) as (items & Hy & _ & _ & Hl & _).
  rewrite bounded_coord_iter_eq in Hit by done. unfold ci_floor_ceil in Hit.
  apply bind_ok_inv in Hit as (t & Ht & [= <-]). rewrite zip_fst_snd in *.
  apply product64_val in Ht; [|split; [apply prodZ_nonneg, branges_nonneg; done|fold (bcount m b); lia]].
  fold (bcount m b) in Ht.
  exists (drop n items). eapply size_hint_run; try done.
  - by eapply advance_le.
  - cbn [ci_acc]. lia.
  - cbn [ci_acc ci_total]. lia.
Qed.

(** ** Statements for Props_Iter.v *)
Lemma coord_iter_items p m it :
  iter_ok m -> am_shape m <> [] -> coord_iter p m = Ok it ->
  exists items,
    (lenZ items + 1 < two64 -> ci_yields p it items
       /\ forall n it', ci_advance p it n it' ->
            ci_size_hint p it' = Ok (lenZ (drop n items)) /\ ci_yields p it' (drop n items))
    /\ StronglySorted lex_lt items /\ NoDup items
    /\ forall pos, pos ∈ items <-> meets_array m pos.
Proof.
  intros Hok Hne Hit.
  set (r := map (pair 0) (zip_with ceil_of (am_shape m) (am_chunk_shape m))).
  assert (lenZ (box_coords r) = prodZ (zip_with ceil_of (am_shape m) (am_chunk_shape m))) as Hl.
  { rewrite box_coords_length. subst r. by rewrite map_sat_sub0 by by apply ceil_of_nonneg. }
  exists (box_coords r). split.
  - intros Hb. rewrite Hl in Hb.
    destruct (coord_iter_spec p m it Hok Hne Hit Hb) as (items & Hy & Hs & Hn & Hl2 & Hi).
    assert (ci_yields p it (box_coords r)) as Hy'.
    { assert (product_items r = box_coords r) as Hpr.
      { subst r. destruct Hok as [|d s shape cs]; [done|]. done. }
      rewrite coord_iter_eq in Hit by done.
      rewrite <- Hpr. apply (ci_collect_new p _ it Hit). fold r. rewrite Hpr. lia. }
    split; [done|]. intros n it' Ha.
    destruct (coord_iter_total p m it Hok Hit) as [Ht H0]; [lia|].
    eapply size_hint_run; try done.
    + by eapply advance_le.
    + lia.
    + rewrite H0, Hl. lia.
    + rewrite H0, Hl, Ht. lia.
  - split; [apply box_coords_sorted|]. split; [apply sorted_NoDup, box_coords_sorted|].
    intros pos. rewrite elem_of_box_coords, meets_array_iff by done. done.
Qed.

Lemma ceil_is_extent m : iter_ok m ->
  is_extent m (zip_with ceil_of (am_shape m) (am_chunk_shape m)).
Proof.
  unfold is_extent, iter_ok. intros Hok.
  induction Hok as [|d s shape cs (H1 & H2 & H3) Hok (IH1 & IH2)].
  - split; [done|]. intros [|i]; done.
  - cbn [zip_with length]. split; [lia|].
    intros [|i] d' s' e' E1 E2 E3; cbn in *; [|by apply (IH2 i)].
    injection E1 as <-. injection E2 as <-. injection E3 as <-. by apply ceil_div_spec.
Qed.
Lemma coord_iter_created p m :
  iter_ok m ->
  (forall ext, is_extent m ext -> forall k, prodZ (take k ext) < two64) ->
  exists it, coord_iter p m = Ok it.
Proof. intros Hok Hk. apply coord_iter_ok; [done|]. by apply Hk, ceil_is_extent. Qed.

Lemma bounded_iter_items p m b it :
  bok m b -> am_shape m <> [] -> bounded_coord_iter p m b = Ok it ->
  exists items,
    (lenZ items + 1 < two64 -> ci_yields p it items
       /\ forall n it', ci_advance p it n it' ->
            ci_size_hint p it' = Ok (lenZ (drop n items)) /\ ci_yields p it' (drop n items))
    /\ StronglySorted lex_lt items /\ NoDup items
    /\ (forall pos, meets_box m b pos -> pos ∈ items)
    /\ (overlaps m b -> forall pos, pos ∈ items -> meets_box m b pos).
Proof.
  intros Hok Hne Hit.
  assert (lenZ (box_coords (branges m b)) = bcount m b) as Hl by apply box_coords_length.
  pose proof (branges_nonnil m b Hok Hne) as Hpr.
  exists (box_coords (branges m b)). split; [|split; [|split; [|split]]].
  - rewrite Hl. intros Hb. rewrite bounded_coord_iter_eq in Hit by done.
    assert (ci_yields p it (box_coords (branges m b))) as Hy.
    { pose proof (ci_collect p _ _ it Hit) as Hc. rewrite zip_fst_snd, Hpr in Hc. apply Hc. lia. }
    split; [done|]. intros n it' Ha.
    unfold ci_floor_ceil in Hit.
    apply bind_ok_inv in Hit as (t & Ht & [= <-]). rewrite zip_fst_snd in *.
    apply product64_val in Ht; [|split; [apply prodZ_nonneg, branges_nonneg; done|fold (bcount m b); lia]].
    fold (bcount m b) in Ht.
    eapply size_hint_run; try done.
    + by eapply advance_le.
    + cbn [ci_acc]. lia.
    + cbn [ci_acc ci_total]. lia.
  - apply box_coords_sorted.
  - apply sorted_NoDup, box_coords_sorted.
  - intros pos Hp. apply elem_of_box_coords. by apply branges_complete.
  - intros Ho pos Hp. apply elem_of_box_coords in Hp. by apply branges_sound.
Qed.

(** ** Counterexamples *)
Definition cx_meta (shape cs : list Z) : array_meta :=
  ArrayMeta shape (Core DBool) (B "regular") cs (B "/") RowMajor None [] [] CRaw.

Lemma coord_iter_rank0 p :
  exists it, coord_iter p (cx_meta [] []) = Ok it /\ ci_yields p it []
    /\ meets_array (cx_meta [] []) [] /\ ci_size_hint p it = Ok 1.
Proof.
  exists (CoordIt [] 0 1). split; [by destruct p|]. split; [|split; [|by destruct p]].
  - exists (CoordIt [] 1 1). by destruct p.
  - exists []. repeat split; done.
Qed.
Lemma coord_iter_after_end :
  exists m it0 it1 it2, iter_ok m /\ am_shape m <> []
    /\ coord_iter Debug m = Ok it0
    /\ ci_next Debug it0 = Ok (Some [0], it1)
    /\ ci_next Debug it1 = Ok (None, it2)
    /\ ci_size_hint Debug it2 = Panic
    /\ exists it3, ci_next Debug it2 = Ok (Some [0], it3).
Proof.
  exists (cx_meta [3] [4]).
  eexists _, _, _. split; [repeat constructor; vm_compute; done|]. split; [done|].
  split; [vm_compute; reflexivity|]. split; [vm_compute; reflexivity|].
  split; [vm_compute; reflexivity|]. split; [vm_compute; reflexivity|].
  eexists. vm_compute. reflexivity.
Qed.
Lemma bounded_iter_extra p :
  exists m b it, bok m b /\ bounded_coord_iter p m b = Ok it /\ ci_yields p it [[3]]
    /\ ~ meets_array m [3] /\ ~ exists pos, meets_box m b pos.
Proof.
  exists (cx_meta [10] [4]), (BBox [13] [2]), (CoordIt [Mpi None 3 3 4] 0 1).
  split; [repeat constructor; vm_compute; done|].
  split; [by destruct p|]. split; [|split].
  - exists (CoordIt [Mpi (Some 3) 4 3 4] 1 1). split; [by destruct p|].
    exists (CoordIt [Mpi None 4 3 4] 2 1). by destruct p.
  - intros (x & (_ & Hl & Hc) & (_ & _ & Hb)). cbn in *. destruct x as [|v [|]]; try done.
    specialize (Hc 0%nat 3 4 v eq_refl eq_refl eq_refl).
    specialize (Hb 0%nat v 0 10 eq_refl eq_refl eq_refl). lia.
  - intros (pos & x & _ & (Hl & _ & Hb) & (_ & _ & Hc)). cbn in *. destruct x as [|v [|]]; try done.
    specialize (Hb 0%nat v 0 10 eq_refl eq_refl eq_refl).
    specialize (Hc 0%nat v 13 2 eq_refl eq_refl eq_refl). lia.
Qed.
(** A box that ends near 2^64 panics in a debug build. *)
Lemma bounded_iter_overflow :
  exists m b, box_ok b /\ iter_ok m /\ length (bb_off b) = length (am_shape m)
    /\ bounded_coord_iter Debug m b = Panic.
Proof.
  exists (cx_meta [10] [4]), (BBox [2 ^ 64 - 2] [1]).
  split; [repeat constructor; vm_compute; done|]. split; [repeat constructor; vm_compute; done|].
  split; [done|]. vm_compute. reflexivity.
Qed.
Lemma is_extent_unique m ext : iter_ok m -> is_extent m ext ->
  ext = zip_with ceil_of (am_shape m) (am_chunk_shape m).
Proof.
  unfold is_extent, iter_ok. intros Hok. revert ext.
  induction Hok as [|d s shape cs (H1 & H2 & H3) Hok IH]; intros [|e ext] [Hl Hi]; try done.
  cbn [zip_with]. f_equal.
  - specialize (Hi 0%nat d s e eq_refl eq_refl eq_refl).
    eapply ceil_div_unique; [exact H2|done|]. by apply ceil_div_spec.
  - apply IH. cbn [length] in Hl. split; [lia|]. intros i. by apply (Hi (S i)).
Qed.
Lemma coord_iter_remaining p m it ext :
  iter_ok m -> am_shape m <> [] -> coord_iter p m = Ok it ->
  is_extent m ext -> prodZ ext + 1 < two64 ->
  forall n it', ci_advance p it n it' ->
  exists rest, ci_yields p it' rest /\ ci_size_hint p it' = Ok (lenZ rest)
    /\ lenZ rest = prodZ ext - Z.of_nat n.
Proof.
  intros H1 H2 H3 He Hb n it' Ha.
  rewrite (is_extent_unique m ext H1 He) in *.
  destruct (coord_iter_spec p m it H1 H2 H3 Hb) as (items & Hy & _ & _ & Hl & _).
  destruct (coord_iter_total p m it H1 H3) as [Ht H0]; [lia|].
  pose proof (advance_le _ _ _ _ _ Hy Ha) as Hle.
  exists (drop n items).
  destruct (size_hint_run p it items n it' Hy Ha Hle) as [E1 E2]; [lia..|].
  split; [done|]. split; [done|]. rewrite <- Hl. unfold lenZ. rewrite drop_length. lia.
Qed.
Lemma bounded_iter_remaining p m b it items :
  bok m b -> am_shape m <> [] -> bounded_coord_iter p m b = Ok it ->
  bounded_coords p m b = Ok items -> lenZ items + 1 < two64 ->
  forall n it', ci_advance p it n it' ->
  exists rest, ci_yields p it' rest /\ ci_size_hint p it' = Ok (lenZ rest).
Proof.
  intros Hok Hne Hit Hc Hb n it' Ha.
  assert (lenZ items = bcount m b) as Hl.
  { rewrite bounded_coords_eq in Hc by done. apply bind_ok_inv in Hc as (t & _ & [= <-]).
    rewrite branges_nonnil by done. apply box_coords_length. }
  destruct (bounded_iter_len p m b it n it' Hok Hne Hit) as (rest & H1 & H2); [lia|done|].
  by exists rest.
Qed.
