(** Facts about fill values. *)
From Verif Require Import BaseFacts.
From Verif Require Import Spec MetaJson.
Local Open Scope Z_scope.

Lemma abs_mul_pos a b : 0 <= b -> Z.abs (a * b) = Z.abs a * b.
Proof. intros. rewrite Z.abs_mul. f_equal. lia. Qed.

Lemma round_half_even_spec a k : 0 < k -> 0 <= a ->
  let q := round_half_even a k in
  forall n, Z.abs (q * 2 ^ k - a) <= Z.abs (n * 2 ^ k - a)
    /\ (Z.abs (n * 2 ^ k - a) = Z.abs (q * 2 ^ k - a) -> n = q \/ Z.even q = true).
Proof.
  intros Hk Ha q n. unfold q, round_half_even.
  assert (0 < 2 ^ (k - 1)) as HP by (apply Z.pow_pos_nonneg; lia).
  assert (2 ^ k = 2 * 2 ^ (k - 1)) as HK.
  { replace k with (1 + (k - 1)) at 1 by lia. rewrite Z.pow_add_r by lia. done. }
  set (hf := 2 ^ (k - 1)) in *. rewrite HK.
  pose proof (Z.mod_pos_bound a (2 * hf) ltac:(lia)) as R.
  pose proof (Z_div_mod_eq_full a (2 * hf)) as DM.
  set (qq := a / (2 * hf)) in *. set (r := a mod (2 * hf)) in *.
  assert (n <= qq \/ qq + 1 <= n) as NC by lia.
  assert (forall u, u <= qq -> u * (2 * hf) <= qq * (2 * hf)) as M1 by (intros; nia).
  assert (forall u, qq + 1 <= u -> (qq + 1) * (2 * hf) <= u * (2 * hf)) as M2 by (intros; nia).
  assert (forall u, u * (2 * hf) = qq * (2 * hf) -> u = qq) as J1 by (intros; nia).
  assert (forall u, u * (2 * hf) = (qq + 1) * (2 * hf) -> u = qq + 1) as J2 by (intros; nia).
  rewrite Zmod_even.
  destruct (r <? hf) eqn:E1; cbn [orb].
  - split; [destruct NC as [N|N]; [specialize (M1 n N)|specialize (M2 n N)]; lia|].
    intros EQ. destruct NC as [N|N]; [specialize (M1 n N)|specialize (M2 n N)]; left;
      [apply J1; lia|lia].
  - destruct (r =? hf) eqn:E2; cbn [andb].
    + destruct (Z.even qq) eqn:EV; cbn.
      * split; [destruct NC as [N|N]; [specialize (M1 n N)|specialize (M2 n N)]; lia|]. by right.
      * split; [destruct NC as [N|N]; [specialize (M1 n N)|specialize (M2 n N)]; lia|].
        intros _. right. rewrite Z.even_add, EV. done.
    + split; [destruct NC as [N|N]; [specialize (M1 n N)|specialize (M2 n N)]; lia|].
      intros EQ. destruct NC as [N|N]; [specialize (M1 n N)|specialize (M2 n N)]; left;
        [lia|apply J2; lia].
Qed.
Lemma round_half_even_range a k mb : 0 < k -> 0 <= mb -> 2 ^ (mb + k) <= a < 2 ^ (mb + k + 1) ->
  2 ^ mb <= round_half_even a k <= 2 ^ (mb + 1).
Proof.
  intros Hk Hm Ha. unfold round_half_even.
  assert (0 < 2 ^ k) by (apply Z.pow_pos_nonneg; lia).
  assert (2 ^ mb <= a / 2 ^ k < 2 ^ (mb + 1)) as Q.
  { rewrite Z.pow_add_r in Ha by lia. split; [apply Z.div_le_lower_bound; lia|].
    apply Z.div_lt_upper_bound; [lia|]. rewrite <- Z.pow_add_r by lia.
    replace (k + (mb + 1)) with (mb + k + 1) by lia. lia. }
  destruct (_ || _); lia.
Qed.

Section float.
Context (mb bias sb : Z).
Hypothesis Hmb : 0 < mb.
Hypothesis Hbias : 0 < bias.
Hypothesis Hsb : mb < sb.
(** Exponents up to 65 + bias are finite. *)
Hypothesis Hexp : 65 + bias < 2 ^ (sb - mb) - 1.

Lemma fl_units_make (neg : bool) e' mant : 0 < e' -> e' + 1 < 2 ^ (sb - mb) - 1 ->
  2 ^ mb <= mant <= 2 ^ (mb + 1) ->
  let v := (if neg then 2 ^ sb else 0) + (e' * 2 ^ mb + (mant - 2 ^ mb)) in
  fl_finite mb sb v /\ fl_units mb sb v = (if neg then -1 else 1) * (mant * 2 ^ (e' - 1))
  /\ Z.even v = Z.even mant.
Proof.
  intros He1 He2 Hm v.
  assert (0 < 2 ^ mb) as P by (apply Z.pow_pos_nonneg; lia).
  assert (2 ^ (mb + 1) = 2 * 2 ^ mb) as P1 by (rewrite Z.pow_add_r by lia; lia).
  assert (2 ^ sb = 2 ^ (sb - mb) * 2 ^ mb) as P2 by (rewrite <- Z.pow_add_r by lia; f_equal; lia).
  assert (2 ^ (sb + 1) = 2 * 2 ^ sb) as P3 by (rewrite Z.pow_add_r by lia; lia).
  set (low := e' * 2 ^ mb + (mant - 2 ^ mb)).
  assert (0 <= low < 2 ^ sb) as L by (unfold low; nia).
  assert (v mod 2 ^ sb = low) as VM.
  { unfold v. fold low. destruct neg; [|by apply Z.mod_small].
    replace (2 ^ sb + low) with (low + 1 * 2 ^ sb) by lia.
    rewrite Z_mod_plus_full. by apply Z.mod_small. }
  assert ((2 ^ sb <=? v) = neg) as VS.
  { unfold v. fold low. destruct neg; lia. }
  assert (2 ^ mb = 2 * 2 ^ (mb - 1)) as P4.
  { replace mb with (1 + (mb - 1)) at 1 by lia. rewrite Z.pow_add_r by lia. done. }
  assert (2 ^ sb = 2 * 2 ^ (sb - 1)) as P5.
  { replace sb with (1 + (sb - 1)) at 1 by lia. rewrite Z.pow_add_r by lia. done. }
  assert (v mod 2 ^ mb = low mod 2 ^ mb) as VF.
  { unfold v. fold low. destruct neg; [|done]. rewrite P2, Z.add_comm. apply Z_mod_plus_full. }
  unfold fl_finite, fl_units, fl_exp, fl_frac. rewrite VM, VS, VF.
  assert (EV : Z.even v = Z.even mant).
  { unfold v, low. destruct neg; rewrite ?P5, P4, ?Z.even_add, ?Z.even_sub, ?Z.even_mul;
      cbn; rewrite ?orb_true_r; by destruct (Z.even mant). }
  destruct (decide (mant = 2 ^ (mb + 1))) as [->|N].
  - assert (low = (e' + 1) * 2 ^ mb) as EL by (unfold low; lia).
    rewrite EL, Z.div_mul, Z.mod_mul by lia.
    replace (e' + 1 =? 0) with false by lia.
    split; [split; [unfold v; fold low; destruct neg; lia|lia]|]. split; [|done].
    rewrite P1. replace (e' + 1 - 1) with (1 + (e' - 1)) by lia. rewrite Z.pow_add_r by lia. lia.
  - assert (low = mant - 2 ^ mb + e' * 2 ^ mb) as EL by (unfold low; lia).
    rewrite EL, Z.div_add, Z_mod_plus_full by lia.
    rewrite Z.div_small, Z.mod_small by lia. replace (0 + e') with e' by lia.
    replace (e' =? 0) with false by lia.
    split; [split; [unfold v; fold low; destruct neg; lia|lia]|]. split; [|done]. f_equal. f_equal. lia.
Qed.

(** Every float is small or a multiple of the unit of binade [E]. *)
Lemma fl_units_cases w E : 0 < E -> fl_finite mb sb w ->
  Z.abs (fl_units mb sb w) < 2 ^ mb * 2 ^ (E - 1)
  \/ exists n, fl_units mb sb w = n * 2 ^ (E - 1).
Proof.
  intros HE [H1 _]. unfold fl_units.
  assert (0 < 2 ^ mb) as P by (apply Z.pow_pos_nonneg; lia).
  pose proof (Z.mod_pos_bound w (2 ^ mb) P) as F. fold (fl_frac mb w) in F.
  assert (0 <= fl_exp mb sb w) as EN.
  { apply Z.div_pos; [|lia]. apply Z.mod_pos_bound. apply Z.pow_pos_nonneg; lia. }
  assert (0 < 2 ^ (E - 1)) as PE by (apply Z.pow_pos_nonneg; lia).
  set (sg := if 2 ^ sb <=? w then -1 else 1).
  assert (Z.abs sg = 1) as SG by (unfold sg; by destruct (_ <=? _)).
  destruct (fl_exp mb sb w =? 0) eqn:Z0.
  - left. rewrite Z.abs_mul, SG. rewrite (Z.abs_eq (fl_frac mb w)) by lia. nia.
  - destruct (decide (E <= fl_exp mb sb w)) as [L|L].
    + right. exists (sg * ((2 ^ mb + fl_frac mb w) * 2 ^ (fl_exp mb sb w - E))).
      replace (fl_exp mb sb w - 1) with (fl_exp mb sb w - E + (E - 1)) by lia.
      rewrite Z.pow_add_r by lia. lia.
    + left. rewrite Z.abs_mul, SG.
      assert (0 < 2 ^ (fl_exp mb sb w - 1)) by (apply Z.pow_pos_nonneg; lia).
      rewrite Z.abs_eq by nia.
      assert (2 * 2 ^ (fl_exp mb sb w - 1) <= 2 ^ (E - 1)).
      { rewrite <- (Z.pow_1_r 2) at 1. rewrite <- Z.pow_add_r by lia.
        apply Z.pow_le_mono_r; lia. }
      nia.
Qed.

Lemma fl_units_zero : fl_finite mb sb 0 /\ fl_units mb sb 0 = 0.
Proof.
  unfold fl_finite, fl_units, fl_exp, fl_frac.
  assert (0 < 2 ^ mb) by (apply Z.pow_pos_nonneg; lia).
  assert (0 < 2 ^ sb) by (apply Z.pow_pos_nonneg; lia).
  assert (0 < 2 ^ (sb + 1)) by (apply Z.pow_pos_nonneg; lia).
  rewrite !Z.mod_0_l, Z.div_0_l by lia. cbn. split; [lia|]. replace (2 ^ sb <=? 0) with false by lia. done.
Qed.

Lemma int_to_float_nearest z : Z.abs z < 2 ^ 65 ->
  nearest_float mb bias sb z (int_to_float_bits mb bias sb z).
Proof.
  intros Hz. unfold nearest_float, int_to_float_bits. cbv zeta.
  destruct (Z.abs z =? 0) eqn:Z0.
  { assert (z = 0) as -> by lia. destruct fl_units_zero as [F ->]. split; [done|].
    intros w _. split; [lia|]. intros _. by right. }
  set (a := Z.abs z) in *. assert (0 < a) as Ha by lia.
  pose proof (Z.log2_spec a Ha) as [L1 L2]. pose proof (Z.log2_nonneg a) as L0.
  assert (Z.log2 a < 65) as L3 by (apply Z.log2_lt_pow2; lia).
  set (e := Z.log2 a) in *.
  set (mant := if e <=? mb then a * 2 ^ (mb - e) else round_half_even a (e - mb)).
  set (W := 2 ^ (bias + mb - 1)).
  assert (0 < W) as HW by (apply Z.pow_pos_nonneg; lia).
  assert (0 < 2 ^ mb) as PM by (apply Z.pow_pos_nonneg; lia).
  assert (2 ^ mb <= mant <= 2 ^ (mb + 1)) as MR.
  { unfold mant. destruct (e <=? mb) eqn:LE.
    - assert (2 ^ mb = 2 ^ e * 2 ^ (mb - e)) as Q by (rewrite <- Z.pow_add_r by lia; f_equal; lia).
      assert (0 < 2 ^ (mb - e)) by (apply Z.pow_pos_nonneg; lia).
      assert (2 ^ (mb + 1) = 2 ^ Z.succ e * 2 ^ (mb - e)) as Q2
        by (rewrite <- Z.pow_add_r by lia; f_equal; lia).
      nia.
    - apply round_half_even_range; [lia|lia|].
      replace (mb + (e - mb)) with e by lia. by replace (e + 1) with (Z.succ e) by lia. }
  destruct (fl_units_make (z <? 0) (e + bias) mant ltac:(lia) ltac:(lia) MR) as (F & U & EV).
  split; [exact F|]. intros w Hw. rewrite U, EV.
  (* reduce to the absolute value *)
  set (sg := if z <? 0 then -1 else 1). assert (z = sg * a) as Ez by (unfold sg, a; destruct (z <? 0) eqn:?; lia).
  assert (sg * sg = 1) as SS by (unfold sg; by destruct (_ <? _)).
  assert (Z.abs sg = 1) as SA by (unfold sg; by destruct (_ <? _)).
  set (uw := fl_units mb sb w) in *.
  replace (Z.abs (uw - z * W)) with (Z.abs (sg * uw - a * W)).
  2:{ rewrite <- (Z.mul_1_l (Z.abs (sg * uw - a * W))), <- SA, <- Z.abs_mul. f_equal. rewrite Ez. nia. }
  replace (Z.abs (sg * (mant * 2 ^ (e + bias - 1)) - z * W)) with (Z.abs (mant * 2 ^ (e + bias - 1) - a * W)).
  2:{ rewrite <- (Z.mul_1_l (Z.abs (mant * 2 ^ (e + bias - 1) - a * W))), <- SA, <- Z.abs_mul. f_equal. rewrite Ez. nia. }
  assert (Z.abs (sg * uw) < 2 ^ mb * 2 ^ (e + bias - 1)
          \/ exists n, sg * uw = n * 2 ^ (e + bias - 1)) as UC.
  { destruct (fl_units_cases w (e + bias) ltac:(lia) Hw) as [Q|[n Q]]; fold uw in Q.
    - left. by rewrite Z.abs_mul, SA, Z.mul_1_l.
    - right. exists (sg * n). rewrite Q. lia. }
  assert (forall x, sg * uw = x -> uw = sg * x) as BACK by (intros x <-; nia).
  unfold mant in *. destruct (e <=? mb) eqn:LE.
  - (* exact *)
    assert (a * 2 ^ (mb - e) * 2 ^ (e + bias - 1) = a * W) as EX.
    { rewrite <- Z.mul_assoc, <- Z.pow_add_r by lia. unfold W. do 2 f_equal. lia. }
    rewrite EX, Z.sub_diag. split; [cbn; lia|]. intros Q. left. apply BACK. cbn in Q. lia.
  - set (k := e - mb) in *. assert (0 < k) as Hk by lia.
    assert (2 ^ (e + bias - 1) = 2 ^ k * W) as EU.
    { unfold W. rewrite <- Z.pow_add_r by lia. f_equal. unfold k. lia. }
    rewrite EU in *. rewrite !Z.mul_assoc.
    set (q := round_half_even a k) in *.
    rewrite <- Z.mul_sub_distr_r, abs_mul_pos by lia.
    assert (2 ^ mb * 2 ^ k = 2 ^ e) as EE by (rewrite <- Z.pow_add_r by lia; f_equal; unfold k; lia).
    destruct UC as [Q|[n Q]].
    + destruct (round_half_even_spec a k Hk ltac:(lia) (2 ^ mb)) as [R1 _]. fold q in R1.
      rewrite EE in R1. rewrite Z.mul_assoc, EE in Q.
      assert (Z.abs (q * 2 ^ k - a) <= a - 2 ^ e) as R2 by lia.
      assert (Z.abs (q * 2 ^ k - a) * W <= (a - 2 ^ e) * W) as R3 by nia.
      rewrite Z.mul_sub_distr_r in R3. assert (2 ^ e * W <= a * W) by nia. lia.
    + destruct (round_half_even_spec a k Hk ltac:(lia) n) as [R1 R2]. fold q in R1, R2.
      rewrite Q, Z.mul_assoc, <- Z.mul_sub_distr_r, abs_mul_pos by lia. split; [nia|].
      intros EQ. apply Z.mul_reg_r in EQ; [|lia]. destruct (R2 EQ) as [->|EV2]; [left|by right].
      rewrite (BACK _ Q). ring.
Qed.
End float.

Lemma nearest_unique mb bias sb z v w :
  nearest_float mb bias sb z v -> nearest_float mb bias sb z w ->
  fl_units mb sb v = fl_units mb sb w \/ (Z.even v = true /\ Z.even w = true).
Proof.
  intros [F1 N1] [F2 N2]. destruct (N1 w F2) as [A1 A2]. destruct (N2 v F1) as [B1 B2].
  cbv zeta in *. destruct A2 as [E|E]; [lia|by left|]. destruct B2 as [E'|E']; [lia|by left|]. by right.
Qed.

Lemma fill_denotes flit t j v : int_json j -> t <> RF16 ->
  elt_of_json flit t j = Ok v -> denotes flit t j v.
Proof.
  intros IJ NH E. unfold denotes.
  destruct t; try done; cbn [rkind rbits]; cbn [elt_of_json] in E.
  all: try (destruct j; cbn [as_int as_bool] in E; try done;
    destruct (_ && _) eqn:Q; [|done]; injection E as <-; split; [done|lia]).
  - destruct j; cbn in E; try done. by injection E as <-.
  - destruct j; try done; injection E as <-; [|done]. cbn in IJ.
    apply (int_to_float_nearest 23 127 31); try lia.
  - destruct j; try done; injection E as <-; [|done]. cbn in IJ.
    apply (int_to_float_nearest 52 1023 63); try lia.
Qed.
Lemma fill_complete flit t j : int_json j -> t <> RF16 ->
  (exists e, elt_of_json flit t j = Err e) -> forall v, ~ denotes flit t j v.
Proof.
  intros IJ NH [e E] v D. unfold denotes in D.
  destruct t; try done; cbn [rkind rbits] in D; cbn [elt_of_json] in E; destruct j; try done;
    cbn [as_int as_bool] in E; try (destruct (_ && _) eqn:Q; [done|]; lia).
Qed.

Lemma effective_fill_ok flit t m v : (forall l, elt_ok t (flit t l)) ->
  (forall j, am_fill m = Some j -> int_json j) ->
  effective_fill flit t m = Ok v -> elt_ok t v.
Proof.
  intros HF HJ. unfold effective_fill. destruct (am_fill m) as [j|].
  2:{ intros [= <-]. destruct t; cbn; lia. }
  intros E. specialize (HJ j eq_refl). destruct (decide (t = RF16)) as [->|N].
  { cbn in E. destruct j; try done. cbn in E. destruct (_ && _) eqn:Q; [|done]. injection E as <-.
    cbn. lia. }
  pose proof (fill_denotes flit t j v HJ N E) as D. unfold denotes in D.
  destruct t; cbn [rkind rbits] in D; try done; destruct j; try done; cbn.
  all: try lia.
  - destruct b; lia.
  - destruct D as [[D _] _]. cbn in D. lia.
  - subst v. exact (HF lit).
  - destruct D as [[D _] _]. cbn in D. lia.
  - subst v. exact (HF lit).
Qed.
Lemma effective_fill_spec flit t m : t <> RF16 ->
  (forall j, am_fill m = Some j -> int_json j) ->
  match am_fill m with
  | None => effective_fill flit t m = Ok 0
  | Some j => (exists v, effective_fill flit t m = Ok v /\ denotes flit t j v)
              \/ (exists e, effective_fill flit t m = Err e /\ forall v, ~ denotes flit t j v)
  end.
Proof.
  intros N HJ. unfold effective_fill. destruct (am_fill m) as [j|]; [|done].
  specialize (HJ j eq_refl). destruct (elt_of_json flit t j) as [v|e|] eqn:E.
  - left. exists v. split; [done|]. by apply fill_denotes.
  - right. exists e. split; [done|]. eapply fill_complete; eauto.
  - exfalso. revert E. destruct t, j; try done; cbn; try (by destruct (_ && _)).
Qed.
Lemma half_fill_refuted : exists j v, int_json j
  /\ (forall flit, elt_of_json flit RF16 j = Ok v)
  /\ (forall flit, ~ denotes flit RF16 j v).
Proof.
  exists (JInt 1), 1. split; [cbn; lia|]. split; [done|].
  intros flit [_ D]. destruct (D 15360) as [D1 _].
  - split; [cbn; lia|]. vm_compute. reflexivity.
  - vm_compute in D1. by apply D1.
Qed.
