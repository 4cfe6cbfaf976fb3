(** Facts about Base.v. *)
From Verif Require Import Base.
From Coq Require Import ZifyBool ZifyNat ZifyN.

Ltac zlia := Z.to_euclidean_division_equations; lia.

Lemma Z_of_byte_range b : 0 <= Z_of_byte b < 256.
Proof. destruct b as [[] [] [] [] [] [] [] []]; vm_compute; split; congruence. Qed.

Lemma byte_of_Z_of_byte b : byte_of_Z (Z_of_byte b) = b.
Proof.
  unfold byte_of_Z. rewrite Z.mod_small by apply Z_of_byte_range.
  unfold Z_of_byte. rewrite N2Z.id. apply ascii_N_embedding.
Qed.

Lemma Z_of_byte_of_Z z : Z_of_byte (byte_of_Z z) = z mod 256.
Proof.
  unfold byte_of_Z, Z_of_byte.
  assert (0 <= z mod 256 < 256) by (apply Z.mod_pos_bound; lia).
  rewrite N_ascii_embedding by lia. lia.
Qed.

Lemma Z_of_byte_inj a b : Z_of_byte a = Z_of_byte b -> a = b.
Proof. intros H. rewrite <- (byte_of_Z_of_byte a), <- (byte_of_Z_of_byte b), H. done. Qed.

Lemma forallb_Forall {A} (f : A -> bool) l :
  forallb f l = true <-> Forall (fun x => f x = true) l.
Proof.
  induction l as [|x l IH]; cbn; [split; [constructor|done]|].
  rewrite andb_true_iff, list.Forall_cons, IH. done.
Qed.

(** ** Results *)
Lemma bind_ok {A B} (f : A -> res B) (a : A) : (Ok a ≫= f) = f a.
Proof. done. Qed.
Lemma bind_ok_inv {A B} (f : A -> res B) (m : res A) b :
  (m ≫= f) = Ok b -> exists a, m = Ok a /\ f a = Ok b.
Proof. destruct m; cbn; intros; try done. eauto. Qed.
Lemma assert_true (b : bool) : b = true -> assert_ b = Ok tt.
Proof. intros ->; done. Qed.

(** ** Machine arithmetic *)
Lemma chk64_ok p z : is_u64 z -> chk64 p z = Ok z.
Proof. unfold is_u64, chk64. intros. replace (_ && _) with true by lia. done. Qed.
Lemma chk64_inv p z r : chk64 p z = Ok r -> is_u64 r /\ (is_u64 z -> r = z).
Proof.
  unfold chk64, is_u64. destruct ((0 <=? z) && (z <? two64)) eqn:E.
  - intros [= <-]. lia.
  - destruct p; [done|]. intros [= <-].
    pose proof (Z.mod_pos_bound z two64). unfold two64 in *. lia.
Qed.
Lemma add64_ok p a b : is_u64 (a + b) -> add64 p a b = Ok (a + b).
Proof. apply chk64_ok. Qed.
Lemma sub64_ok p a b : is_u64 (a - b) -> sub64 p a b = Ok (a - b).
Proof. apply chk64_ok. Qed.
Lemma mul64_ok p a b : is_u64 (a * b) -> mul64 p a b = Ok (a * b).
Proof. apply chk64_ok. Qed.
Lemma div64_ok a b : b <> 0 -> div64 a b = Ok (a / b).
Proof. unfold div64. intros. replace (b =? 0) with false by lia. done. Qed.
Lemma rem64_ok a b : b <> 0 -> rem64 a b = Ok (a mod b).
Proof. unfold rem64. intros. replace (b =? 0) with false by lia. done. Qed.

Lemma prodZ_nonneg l : Forall (fun z => 0 <= z) l -> 0 <= prodZ l.
Proof. induction 1; cbn [prodZ foldr]; [lia|]. fold (prodZ l). nia. Qed.
Lemma prodZ_pos l : Forall (fun z => 0 < z) l -> 0 < prodZ l.
Proof. induction 1; cbn [prodZ foldr]; [lia|]. fold (prodZ l). nia. Qed.
Lemma prodZ_cons x l : prodZ (x :: l) = x * prodZ l.
Proof. done. Qed.
Lemma prodZ_app l k : prodZ (l ++ k) = prodZ l * prodZ k.
Proof. induction l as [|x l IH]; cbn [app]; rewrite ?prodZ_cons, ?IH; [cbn [prodZ foldr]|]; lia. Qed.
Lemma prodZ_zero l : 0 ∈ l -> prodZ l = 0.
Proof.
  induction l as [|x l IH]; intros H; [by apply elem_of_nil in H|].
  rewrite prodZ_cons. apply elem_of_cons in H as [<-|H]; [lia|]. rewrite IH by done. lia.
Qed.

Lemma product64_gen p l a :
  0 <= a -> Forall (fun z => 0 < z) l -> a * prodZ l < two64 ->
  foldl (fun acc d => a ← acc; mul64 p a d) (Ok a) l = Ok (a * prodZ l).
Proof.
  revert a. induction l as [|x l IH]; intros a Ha Hl Hb.
  - cbn. f_equal. lia.
  - cbn [foldl]. rewrite prodZ_cons in Hb |- *.
    inversion Hl as [|? ? Hx Hl']; subst.
    pose proof (prodZ_pos _ Hl').
    rewrite bind_ok, mul64_ok by (unfold is_u64; nia).
    rewrite IH; [f_equal; lia|nia|done|nia].
Qed.
Lemma product64_ok p l :
  Forall (fun z => 0 < z) l -> prodZ l < two64 -> product64 p l = Ok (prodZ l).
Proof. intros. unfold product64. rewrite product64_gen by lia || done. f_equal. lia. Qed.

Lemma product64_release_gen l a :
  foldl (fun acc d => a ← acc; mul64 Release a d) (Ok (a mod two64)) l
  = Ok ((a * prodZ l) mod two64).
Proof.
  revert a. induction l as [|x l IH]; intros a.
  - cbn. do 2 f_equal. lia.
  - cbn [foldl]. rewrite bind_ok, prodZ_cons.
    assert (mul64 Release (a mod two64) x = Ok ((a * x) mod two64)) as ->.
    { unfold mul64, chk64. rewrite <- (Z.mul_mod_idemp_l a x) by done.
      destruct ((0 <=? _) && _) eqn:E; [|done].
      rewrite (Z.mod_small (a mod two64 * x)) by lia. done. }
    rewrite IH. do 2 f_equal. lia.
Qed.
Lemma product64_release l : product64 Release l = Ok (prodZ l mod two64).
Proof.
  unfold product64. rewrite <- (Z.mod_small 1 two64) by (unfold two64; lia).
  rewrite product64_release_gen. do 2 f_equal. lia.
Qed.

(** Zero factor: the product is zero in every profile that does not panic. *)
Lemma product64_inv p l r :
  Forall is_u64 l -> product64 p l = Ok r -> is_u64 r.
Proof.
  intros Hl. unfold product64. assert (is_u64 1) as H1 by (unfold is_u64, two64; lia).
  revert H1. generalize 1 as a. induction Hl as [|x l Hx Hl IH]; intros a Ha.
  - cbn. by intros [= <-].
  - cbn [foldl]. rewrite bind_ok. destruct (mul64 p a x) as [b| |] eqn:E.
    + apply chk64_inv in E as [Hb _]. by apply IH.
    + clear. induction l; cbn; done.
    + clear. induction l; cbn; done.
Qed.
Lemma product64_zero_acc p l :
  foldl (fun acc d => a ← acc; mul64 p a d) (Ok 0) l = Ok 0.
Proof. induction l as [|x l IH]; [done|]. cbn [foldl]. rewrite bind_ok. cbn. exact IH. Qed.

Lemma mapM_res_ok {A B} (f : A -> res B) (g : A -> B) l :
  Forall (fun a => f a = Ok (g a)) l -> mapM_res f l = Ok (map g l).
Proof. induction 1 as [|a l Ha _ IH]; cbn; [done|]. rewrite Ha, bind_ok, IH. done. Qed.
Lemma mapM_res_inv {A B} (f : A -> res B) l r :
  mapM_res f l = Ok r -> Forall2 (fun a b => f a = Ok b) l r.
Proof.
  revert r. induction l as [|a l IH]; intros r; cbn.
  - intros [= <-]. constructor.
  - intros H. apply bind_ok_inv in H as (b & Hb & H).
    apply bind_ok_inv in H as (bs & Hbs & [= <-]). constructor; auto.
Qed.
Lemma mapM_res_Forall2 {A B} (f : A -> res B) l r :
  Forall2 (fun a b => f a = Ok b) l r -> mapM_res f l = Ok r.
Proof. induction 1 as [|a b l r Hab _ IH]; cbn; [done|]. rewrite Hab, bind_ok, IH. done. Qed.
Lemma mapM_res_not_err {A B} (f : A -> res B) l e :
  (forall a, f a <> Err e) -> mapM_res f l <> Err e.
Proof.
  intros Hf. induction l as [|a l IH]; cbn; [done|].
  destruct (f a) eqn:E; cbn; try done.
  - destruct (mapM_res f l) eqn:E2; cbn; try done; intros [= ->]; done.
  - intros [= ->]. by apply (Hf a).
Qed.

(** ** Decimal numbers *)
Lemma digit_val z : 0 <= z < 10 -> Z_of_byte (digit z) = 48 + z.
Proof. intros. unfold digit. rewrite Z_of_byte_of_Z. rewrite Z.mod_small; lia. Qed.
Lemma digit_is_digit z : 0 <= z < 10 -> is_digit (digit z) = true.
Proof. intros. unfold is_digit. rewrite digit_val by done. lia. Qed.

Lemma dec_val_snoc l b : dec_val (l ++ [b]) = 10 * dec_val l + (Z_of_byte b - 48).
Proof. unfold dec_val. rewrite foldl_app. done. Qed.

Lemma dec_fuel_spec f z acc :
  0 <= z -> z < 2 ^ Z.of_nat f ->
  exists l, dec_fuel f z acc = l ++ acc /\ Forall (fun b => is_digit b = true) l
    /\ dec_val l = z /\ (f <> O -> l <> [])
    /\ (0 < z -> forall d, head l = Some d -> d <> "0"%char)
    /\ (z = 0 -> f <> O -> l = ["0"%char]).
Proof.
  revert z acc. induction f as [|f IH]; intros z acc Hz Hb.
  - exists []. cbn. repeat split; try done. cbn in Hb. change (dec_val []) with 0. lia.
  - cbn [dec_fuel]. cbv zeta.
    assert (0 <= z mod 10 < 10) as Hm by (apply Z.mod_pos_bound; lia).
    destruct (z / 10 =? 0) eqn:E.
    + exists [digit (z mod 10)]. assert (z < 10) by zlia.
      rewrite Z.mod_small in Hm |- * by lia.
      split; [done|]. split; [constructor; [by apply digit_is_digit|done]|].
      split; [unfold dec_val; cbn [foldl]; rewrite digit_val by lia; lia|]. split; [done|].
      split.
      * intros Hp d [= <-] Hd. apply (f_equal Z_of_byte) in Hd.
        rewrite digit_val in Hd by lia. change (Z_of_byte "0") with 48 in Hd. lia.
      * intros -> _. done.
    + assert (0 < z / 10 < 2 ^ Z.of_nat f) as Hq.
      { rewrite Nat2Z.inj_succ, Z.pow_succ_r in Hb by lia. zlia. }
      destruct (IH (z / 10) (digit (z mod 10) :: acc)) as (l & -> & Hd & Hv & Hn & Hh & _); try lia.
      exists (l ++ [digit (z mod 10)]).
      split; [by rewrite <- app_assoc|].
      split; [apply Forall_app; split; [done|constructor; [by apply digit_is_digit|done]]|].
      split; [rewrite dec_val_snoc, digit_val by lia; zlia|].
      split; [intros _ H; by destruct l|].
      split.
      * intros _ d Hd'. destruct l as [|d' l].
        -- exfalso. destruct f; [cbn in Hq; lia|]. by apply Hn.
        -- cbn in Hd'. apply Hh; [lia|done].
      * intros ->. done.
Qed.

Lemma show_nat_spec z : 0 <= z ->
  Forall (fun b => is_digit b = true) (show_nat z) /\ dec_val (show_nat z) = z
  /\ show_nat z <> [] /\ (0 < z -> forall d, head (show_nat z) = Some d -> d <> "0"%char)
  /\ (z = 0 -> show_nat z = ["0"%char]).
Proof.
  intros Hz. unfold show_nat.
  destruct (dec_fuel_spec (S (Z.to_nat (Z.log2 z))) z []) as (l & -> & Hd & Hv & Hn & Hh & H0); try lia.
  - rewrite Nat2Z.inj_succ, Z2Nat.id by apply Z.log2_nonneg.
    destruct (Z.eq_dec z 0) as [->|]; [cbn; lia|].
    apply Z.log2_spec; lia.
  - rewrite app_nil_r. repeat split; auto.
Qed.
Lemma show_nat_digits z : 0 <= z -> Forall (fun b => is_digit b = true) (show_nat z).
Proof. intros. by apply show_nat_spec. Qed.
Lemma show_nat_val z : 0 <= z -> dec_val (show_nat z) = z.
Proof. intros. by apply show_nat_spec. Qed.
Lemma show_nat_nonempty z : 0 <= z -> show_nat z <> [].
Proof. intros. by apply show_nat_spec. Qed.
Lemma show_nat_inj a b : 0 <= a -> 0 <= b -> show_nat a = show_nat b -> a = b.
Proof. intros Ha Hb H. rewrite <- (show_nat_val a), <- (show_nat_val b), H by done. done. Qed.

Lemma is_digit_not_plus b : is_digit b = true -> b <> "+"%char.
Proof. intros H ->. done. Qed.

Lemma parse_usize_show z : is_u64 z -> parse_usize (show_nat z) = Some z.
Proof.
  intros [Hz Hb]. unfold parse_usize.
  destruct (show_nat_spec z Hz) as (Hd & Hv & Hn & _).
  destruct (show_nat z) as [|c r] eqn:E; [done|].
  inversion Hd as [|? ? Hc Hr]; subst.
  rewrite bool_decide_eq_false_2 by (by apply is_digit_not_plus).
  assert (forallb is_digit (c :: r) = true) as ->.
  { by apply forallb_Forall. }
  replace (dec_val (c :: r) <? two64) with true by lia. done.
Qed.


(** Length bound: a u64 has at most 20 digits. *)
Lemma foldl_dec_ge r a :
  Forall (fun b => is_digit b = true) r ->
  a * 10 ^ Z.of_nat (length r) <= foldl (fun acc b => 10 * acc + (Z_of_byte b - 48)) a r.
Proof.
  intros Hr. revert a. induction Hr as [|d r Hd Hr IH]; intros a.
  - cbn. lia.
  - cbn [foldl length]. unfold is_digit in Hd. rewrite Nat2Z.inj_succ, Z.pow_succ_r by lia.
    etrans; [|apply IH].
    assert (0 < 10 ^ Z.of_nat (length r)) by (apply Z.pow_pos_nonneg; lia). nia.
Qed.
Lemma show_nat_length z : is_u64 z -> (length (show_nat z) <= 20)%nat.
Proof.
  intros [Hz Hb]. destruct (Z.eq_dec z 0) as [->|Hnz]; [vm_compute; lia|].
  destruct (show_nat_spec z Hz) as (Hd & Hv & Hn & Hh & _).
  destruct (show_nat z) as [|c r] eqn:E; [done|]. cbn [length].
  inversion Hd as [|? ? Hc Hr]; subst.
  assert (1 <= Z_of_byte c - 48) as Hc1.
  { unfold is_digit in Hc.
    destruct (Z.eq_dec (Z_of_byte c) 48) as [E'|]; [|lia].
    exfalso. apply (Hh ltac:(lia) c); [done|]. apply Z_of_byte_inj. done. }
  assert ((Z_of_byte c - 48) * 10 ^ Z.of_nat (length r) <= dec_val (c :: r)) as Hge.
  { unfold dec_val. cbn [foldl].
    replace (10 * 0 + (Z_of_byte c - 48)) with (Z_of_byte c - 48) by lia. by apply foldl_dec_ge. }
  destruct (le_lt_dec (length r) 19); [lia|].
  assert (10 ^ 20 <= 10 ^ Z.of_nat (length r)) by (apply Z.pow_le_mono_r; lia).
  assert (two64 < 10 ^ 20) by (unfold two64; lia). nia.
Qed.

(** ** Byte strings *)
Lemma beq_true a b : beq a b = true <-> a = b.
Proof. unfold beq. apply bool_decide_eq_true. Qed.
Lemma beq_refl a : beq a a = true.
Proof. by apply beq_true. Qed.
Lemma beq_false a b : beq a b = false <-> a <> b.
Proof. unfold beq. apply bool_decide_eq_false. Qed.

Lemma starts_with_app p s : starts_with p (p ++ s) = true.
Proof. induction p as [|a p IH]; cbn; [done|]. rewrite bool_decide_eq_true_2 by done. done. Qed.
Lemma starts_with_spec p s : starts_with p s = true <-> exists r, s = p ++ r.
Proof.
  split.
  - revert s. induction p as [|a p IH]; intros s H; [by exists s|].
    destruct s as [|b s]; [done|]. cbn in H. apply andb_true_iff in H as [H1 H2].
    apply bool_decide_eq_true in H1 as ->. apply IH in H2 as [r ->]. by exists r.
  - intros [r ->]. apply starts_with_app.
Qed.
Lemma ends_with_spec p s : ends_with p s = true <-> exists r, s = r ++ p.
Proof.
  unfold ends_with. rewrite starts_with_spec. split; intros [r H].
  - exists (rev r). apply (f_equal (@rev ascii)) in H.
    rewrite rev_involutive, rev_app_distr, rev_involutive in H. done.
  - exists (rev r). subst s. rewrite rev_app_distr. done.
Qed.
