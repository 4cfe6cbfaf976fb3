(** The parser of Json.v accepts exactly the JSON texts (SpecJson.v). *)
From Verif Require Import Json SpecJson BaseFacts JsonFacts JsonPrefix.
Local Open Scope Z_scope.

(** ** White space *)

Lemma is_ws_white c : is_ws c = true <-> Z_of_byte c ∈ [32; 9; 10; 13].
Proof.
  unfold is_ws. cbv zeta. rewrite !elem_of_cons, elem_of_nil, !orb_true_iff, !Z.eqb_eq. tauto.
Qed.
Lemma white_ws w : white w <-> Forall (fun c => is_ws c = true) w.
Proof. unfold white. apply Forall_iff. intros c. by rewrite is_ws_white. Qed.
Lemma skip_white w s : white w -> skip_ws (w ++ s) = skip_ws s.
Proof. intros Hw%white_ws. induction Hw as [|c w Hc _ IH]; [done|]. cbn. by rewrite Hc. Qed.
Lemma skip_ws_split s : exists w, s = w ++ skip_ws s /\ white w.
Proof.
  induction s as [|c s (w & IH & Hw)]; [exists []; split; [done|constructor]|]. cbn.
  destruct (is_ws c) eqn:E.
  - exists (c :: w). split; [cbn; by rewrite <- IH|]. constructor; [by apply is_ws_white|done].
  - exists []. split; [done|constructor].
Qed.
Lemma white_skip w : white w -> skip_ws w = [].
Proof. intros Hw. rewrite <- (app_nil_r w). by rewrite skip_white. Qed.
Lemma white_nstop w r : white w -> nstop r -> nstop (w ++ r).
Proof.
  intros [|c w' Hc _]%white_ws Hr; [done|]. cbn [app nstop].
  unfold is_ws in Hc. cbv zeta in Hc. rewrite !orb_true_iff, !Z.eqb_eq in Hc. unfold is_digit.
  split; [lia|]. split_and!; intros ->; vm_compute in Hc; intuition discriminate.
Qed.

(** ** Strings *)

Lemma hex_val_says c n : hex_val c = Some n <-> hex_says c n.
Proof.
  split.
  - destruct c as [[] [] [] [] [] [] [] []]; intros H; vm_compute in H; try discriminate H; injection H as <-;
      (match goal with |- hex_says _ ?n => exists (Z.to_nat n) end; split; [reflexivity|]); vm_compute; auto.
  - intros (i & -> & H). do 16 (destruct i as [|i]; [cbn in H; destruct H as [[= <-]|[= <-]]; reflexivity|]).
    destruct H as [H|H]; by rewrite lookup_ge_None_2 in H by (cbn; lia).
Qed.
Lemma hex4_of_says h n r : hex4_says h n -> hex4 (h ++ r) = Some (n, r).
Proof.
  intros (a & b & c & d & x & y & z & u & -> & Ha & Hb & Hc & Hd & ->). cbn [app hex4].
  apply hex_val_says in Ha as ->. apply hex_val_says in Hb as ->. apply hex_val_says in Hc as ->.
  apply hex_val_says in Hd as ->. do 2 f_equal. lia.
Qed.
Lemma hex4_inv s n r : hex4 s = Some (n, r) -> exists h, s = h ++ r /\ hex4_says h n.
Proof.
  destruct s as [|a [|b [|c [|d s]]]]; try done. cbn [hex4].
  destruct (hex_val a) as [x|] eqn:Ea; [|done]. destruct (hex_val b) as [y|] eqn:Eb; [|done].
  destruct (hex_val c) as [z|] eqn:Ec; [|done]. destruct (hex_val d) as [u|] eqn:Ed; [|done].
  intros [= <- <-]. exists [a; b; c; d]. split; [done|].
  exists a, b, c, d, x, y, z, u. split; [done|]. rewrite <- !hex_val_says. split_and!; try done. lia.
Qed.
Lemma hex_says_range c n : hex_says c n -> 0 <= n < 16.
Proof.
  intros (i & -> & H). assert (i < 16)%nat; [|lia].
  destruct H as [H|H]; apply lookup_lt_Some in H; cbn in H; lia.
Qed.
Lemma hex4_range h n : hex4_says h n -> 0 <= n < 65536.
Proof.
  intros (a & b & c & d & x & y & z & u & _ & Ha%hex_says_range & Hb%hex_says_range & Hc%hex_says_range & Hd%hex_says_range & ->).
  lia.
Qed.
Lemma div_of a b k : 0 <= b < k -> (k * a + b) / k = a.
Proof. intros. symmetry. apply (Z.div_unique _ _ _ b); lia. Qed.
Lemma mod_of a b k : 0 <= b < k -> (k * a + b) mod k = b.
Proof. intros. symmetry. apply (Z.mod_unique _ _ a b); lia. Qed.
Lemma utf8_of_says n u : utf8_says n u -> utf8 n = u.
Proof.
  intros [m H|a b H Hb|a b c H Hb Hc|a b c d H Hb Hc Hd]; unfold utf8, low_six in *.
  - by rewrite (proj2 (Z.ltb_lt _ _)) by lia.
  - rewrite (proj2 (Z.ltb_ge _ _)), (proj2 (Z.ltb_lt _ 2048)) by lia.
    by rewrite div_of, mod_of by lia.
  - rewrite (proj2 (Z.ltb_ge _ 128)), (proj2 (Z.ltb_ge _ 2048)), (proj2 (Z.ltb_lt _ 65536)) by lia.
    assert ((4096 * a + 64 * b + c) / 4096 = a) as ->.
    { replace (4096 * a + 64 * b + c) with (4096 * a + (64 * b + c)) by lia. apply div_of. lia. }
    replace (4096 * a + 64 * b + c) with (64 * (64 * a + b) + c) by lia.
    by rewrite div_of, !mod_of by lia.
  - rewrite (proj2 (Z.ltb_ge _ 128)), (proj2 (Z.ltb_ge _ 2048)), (proj2 (Z.ltb_ge _ 65536)) by lia.
    assert ((262144 * a + 4096 * b + 64 * c + d) / 262144 = a) as ->.
    { replace (262144 * a + 4096 * b + 64 * c + d) with (262144 * a + (4096 * b + 64 * c + d)) by lia. apply div_of. lia. }
    assert ((262144 * a + 4096 * b + 64 * c + d) / 4096 = 64 * a + b) as ->.
    { replace (262144 * a + 4096 * b + 64 * c + d) with (4096 * (64 * a + b) + (64 * c + d)) by lia. apply div_of. lia. }
    replace (262144 * a + 4096 * b + 64 * c + d) with (64 * (64 * (64 * a + b) + c) + d) by lia.
    by rewrite div_of, !mod_of by lia.
Qed.
Lemma split64 n : exists q r, n = 64 * q + r /\ low_six r.
Proof. exists (n / 64), (n mod 64). split; [apply Z.div_mod; lia|apply Z.mod_pos_bound; lia]. Qed.
Lemma utf8_total n : 0 <= n < 1114112 -> utf8_says n (utf8 n).
Proof.
  intros Hn. assert (exists u, utf8_says n u) as [u Hu]; [|by rewrite (utf8_of_says n u Hu)].
  destruct (split64 n) as (q & d & -> & Hd). destruct (split64 q) as (p & c & -> & Hc).
  destruct (split64 p) as (a & b & -> & Hb). unfold low_six in *.
  destruct (Z.lt_ge_cases (64 * (64 * (64 * a + b) + c) + d) 128).
  { eexists. apply utf8_1. lia. }
  destruct (Z.lt_ge_cases (64 * (64 * (64 * a + b) + c) + d) 2048).
  { eexists. apply utf8_2; unfold low_six; lia. }
  destruct (Z.lt_ge_cases (64 * (64 * (64 * a + b) + c) + d) 65536).
  { eexists. replace (64 * (64 * (64 * a + b) + c) + d) with (4096 * (64 * a + b) + 64 * c + d) by lia.
    apply utf8_3; unfold low_six; lia. }
  eexists. replace (64 * (64 * (64 * a + b) + c) + d) with (262144 * a + 4096 * b + 64 * c + d) by lia.
  apply utf8_4; unfold low_six; lia.
Qed.

Lemma byte_of_eq c z : Z_of_byte c = z -> c = byte_of_Z z.
Proof. intros <-. by rewrite byte_of_Z_of_byte. Qed.
Lemma pescape_simple c z r : (c, z) ∈ simple_escapes -> pescape (c :: r) = Some ([byte_of_Z z], r).
Proof.
  unfold simple_escapes. rewrite !elem_of_cons, elem_of_nil.
  intros H. destruct_or! H; injection H as -> ->; reflexivity.
Qed.
(** What an escape sequence denotes. *)
Lemma pescape_inv s u r : pescape s = Some (u, r) ->
  exists e, s = e ++ r /\ forall t x, chars t x -> chars (backslash :: e ++ t) (u ++ x).
Proof.
  rewrite pescape_alt. destruct s as [|c s]; [done|]. cbv zeta.
  do 8 (destruct (Z_of_byte c =? _) eqn:Ec;
    [apply Z.eqb_eq, byte_of_eq in Ec as ->; intros [= <- <-];
     eexists [_]; split; [reflexivity|]; intros t x Hx; apply chars_escape; [|done];
     apply (bool_decide_unpack _); vm_compute; exact I|clear Ec]).
  destruct (_ =? 117) eqn:Ec; [|done]. apply Z.eqb_eq, byte_of_eq in Ec as ->.
  destruct (hex4 s) as [[n r']|] eqn:E; [|done]. apply hex4_inv in E as (h & -> & Hh).
  pose proof (hex4_range h n Hh).
  destruct (_ && _) eqn:E1; [done|]. destruct ((55296 <=? n) && _) eqn:E2.
  - destruct (hd_is "\"%char r') as [ru|] eqn:E3; [|done]. apply hd_is_Some in E3 as ->.
    destruct (hd_is "u"%char ru) as [r''|] eqn:E4; [|done]. apply hd_is_Some in E4 as ->.
    destruct (hex4 r'') as [[n2 r3]|] eqn:E5; [|done]. apply hex4_inv in E5 as (h2 & -> & Hh2).
    destruct ((56320 <=? n2) && _) eqn:E6; [|done]. intros [= <- <-].
    exists ("u"%char :: h ++ backslash :: "u"%char :: h2). split; [cbn; by rewrite <- app_assoc|].
    intros t x Hx. cbn [app]. rewrite <- app_assoc. cbn [app].
    eapply chars_pair; [done|lia|done|lia| |done].
    replace (65536 + (n - 55296) * 1024 + (n2 - 56320)) with (65536 + 1024 * (n - 55296) + (n2 - 56320)) by lia.
    apply utf8_total. lia.
  - intros [= <- <-]. exists ("u"%char :: h). split; [done|]. intros t x Hx.
    apply (chars_unicode h n); [done|lia| |done]. apply utf8_total. lia.
Qed.

Lemma pstr_chars b s rest : chars b s -> forall f, (length b < f)%nat ->
  pstr f (b ++ quote :: rest) = Some (s, rest).
Proof.
  induction 1 as [|c t s H1 H2 H3 _ IH|c z t s Hz _ IH|h n u t s Hh Hn Hu _ IH
    |h1 n1 h2 n2 u t s Hh1 Hn1 Hh2 Hn2 Hu _ IH]; intros f Hf; (destruct f as [|f]; [lia|]).
  - reflexivity.
  - cbn [app pstr]. cbn [length] in Hf.
    assert (Z_of_byte c <> 34). { intros E%byte_of_eq. by apply H2. }
    assert (Z_of_byte c <> 92). { intros E%byte_of_eq. by apply H3. }
    rewrite (proj2 (Z.eqb_neq _ 34)), (proj2 (Z.eqb_neq _ 92)), (proj2 (Z.ltb_ge _ 32)) by done.
    by rewrite IH by lia.
  - cbn [app]. cbn [length] in Hf. change (pstr (S f) (backslash :: c :: t ++ quote :: rest)) with
      (match pescape (c :: t ++ quote :: rest) with
       | Some (u, r') => match pstr f r' with Some (t, r'') => Some (u ++ t, r'') | None => None end
       | None => None end).
    rewrite (pescape_simple c z) by done. rewrite IH by lia. done.
  - cbn [app]. rewrite <- app_assoc. cbn [length] in Hf. rewrite app_length in Hf.
    change (pstr (S f) (backslash :: "u"%char :: h ++ t ++ quote :: rest)) with
      (match pescape ("u"%char :: h ++ t ++ quote :: rest) with
       | Some (u, r') => match pstr f r' with Some (t, r'') => Some (u ++ t, r'') | None => None end
       | None => None end).
    rewrite pescape_alt. cbv zeta. change (Z_of_byte "u"%char) with 117.
    do 8 (rewrite (proj2 (Z.eqb_neq 117 _)) by lia). rewrite Z.eqb_refl.
    rewrite (hex4_of_says h n) by done.
    destruct (_ && _) eqn:E1; [lia|]. destruct ((55296 <=? n) && _) eqn:E2; [lia|].
    rewrite IH by lia. by rewrite (utf8_of_says n u).
  - cbn [app]. rewrite <- app_assoc. cbn [length] in Hf. rewrite !app_length in Hf. cbn [length] in Hf.
    rewrite app_length in Hf. cbn [app]. rewrite <- app_assoc.
    change (pstr (S f) (backslash :: "u"%char :: h1 ++ backslash :: "u"%char :: h2 ++ t ++ quote :: rest)) with
      (match pescape ("u"%char :: h1 ++ backslash :: "u"%char :: h2 ++ t ++ quote :: rest) with
       | Some (u, r') => match pstr f r' with Some (t, r'') => Some (u ++ t, r'') | None => None end
       | None => None end).
    rewrite pescape_alt. cbv zeta. change (Z_of_byte "u"%char) with 117.
    do 8 (rewrite (proj2 (Z.eqb_neq 117 _)) by lia). rewrite Z.eqb_refl.
    rewrite (hex4_of_says h1 n1) by done.
    destruct ((56320 <=? n1) && _) eqn:E1; [lia|]. destruct ((55296 <=? n1) && _) eqn:E2; [|lia].
    unfold backslash. rewrite !hd_is_cons. rewrite (hex4_of_says h2 n2) by done.
    destruct ((56320 <=? n2) && _) eqn:E3; [|lia]. rewrite IH by lia.
    replace (65536 + (n1 - 55296) * 1024 + (n2 - 56320)) with (65536 + 1024 * (n1 - 55296) + (n2 - 56320)) by lia.
    by rewrite (utf8_of_says _ u).
Qed.
Lemma pstr_inv f : forall s x r, pstr f s = Some (x, r) -> exists b, s = b ++ quote :: r /\ chars b x.
Proof.
  induction f as [|f IH]; intros s x r; [done|]. cbn [pstr]. destruct s as [|c s]; [done|]. cbv zeta.
  destruct (_ =? 34) eqn:E1.
  { apply Z.eqb_eq, byte_of_eq in E1 as ->. intros [= <- <-]. exists []. split; [done|constructor]. }
  destruct (_ =? 92) eqn:E2.
  { apply Z.eqb_eq, byte_of_eq in E2 as ->. destruct (pescape s) as [[u r']|] eqn:Ep; [|done].
    apply pescape_inv in Ep as (e & -> & He). destruct (pstr f r') as [[t r'']|] eqn:Es; [|done].
    intros [= <- <-]. apply IH in Es as (b & -> & Hb). exists (backslash :: e ++ b).
    split; [by rewrite <- app_comm_cons, <- app_assoc|by apply He]. }
  destruct (_ <? 32) eqn:E3; [done|]. destruct (pstr f s) as [[t r'']|] eqn:Es; [|done].
  intros [= <- <-]. apply IH in Es as (b & -> & Hb). exists (c :: b). split; [done|].
  apply chars_plain; [lia| | |done]; intros ->; done.
Qed.
Lemma utf8_ok_char n u s : utf8_says n u -> ~ (55296 <= n <= 57343) -> utf8_ok (u ++ s) = utf8_ok s.
Proof.
  intros U NS. destruct U as [n R|a b R L|a b c R L1 L2|a b c d R L1 L2 L3]; unfold low_six in *; cbn [map app utf8_ok];
    rewrite !Z_of_byte_of_Z, !Z.mod_small by lia; (match goal with |- (if ?x then _ else _) = _ => destruct x eqn:E0 end); [done|lia|lia| |lia| |lia|];
    unfold utf8_head2, utf8_head3, utf8_head4, between; rewrite !Z_of_byte_of_Z, !Z.mod_small by lia;
    (match goal with |- (if ?x then _ else _) = _ => destruct x eqn:E1 end); [done|lia|lia| |lia|];
    (match goal with |- (if ?x then _ else _) = _ => destruct x eqn:E2 end); [done|lia|lia|].
  match goal with |- ?x && _ = _ => assert (x = true) as -> by lia end. done.
Qed.
Lemma utf8_ok_text s : utf8_ok s = true <-> utf8_text s.
Proof.
  split; [|induction 1 as [|n u s U NS _ IH]; [done|by rewrite (utf8_ok_char n)]].
  remember (length s) as k eqn:K. revert s K. induction k as [k IH] using lt_wf_ind. intros s -> E.
  assert (CH : forall n u r, s = u ++ r -> u <> [] -> utf8_says n u -> ~ (55296 <= n <= 57343) -> utf8_ok r = true -> utf8_text s).
  { intros n u r -> NE U NS R. apply (text_char n); [done|done|]. eapply IH; [|reflexivity|done].
    rewrite app_length. destruct u; [done|cbn; lia]. }
  clear IH. destruct s as [|a s1]; [constructor|]. cbn [utf8_ok] in E.
  assert (BB := fun x => byte_of_Z_of_byte x). pose proof (Z_of_byte_range a).
  destruct (Z_of_byte a <? 128) eqn:E0.
  { apply (CH (Z_of_byte a) [a] s1); [done|done| |lia|done]. rewrite <- (BB a) at 2. constructor. lia. }
  destruct s1 as [|b s2]; [done|]. destruct (utf8_head2 a && between 128 b 191) eqn:E1.
  { unfold utf8_head2, between in E1.
    apply (CH (64 * (Z_of_byte a - 192) + (Z_of_byte b - 128)) [a; b] s2); [done|done| |lia|done].
    replace [a; b] with (map byte_of_Z [192 + (Z_of_byte a - 192); 128 + (Z_of_byte b - 128)])
      by (cbn [map]; rewrite !Z.add_sub_assoc, !Z.add_simpl_l; by rewrite !BB).
    constructor; unfold low_six; lia. }
  clear E1. destruct s2 as [|c s3]; [done|]. destruct (utf8_head3 a b && between 128 c 191) eqn:E1.
  { unfold utf8_head3, between in E1.
    apply (CH (4096 * (Z_of_byte a - 224) + 64 * (Z_of_byte b - 128) + (Z_of_byte c - 128)) [a; b; c] s3); [done|done| |lia|done].
    replace [a; b; c] with (map byte_of_Z [224 + (Z_of_byte a - 224); 128 + (Z_of_byte b - 128); 128 + (Z_of_byte c - 128)])
      by (cbn [map]; rewrite !Z.add_sub_assoc, !Z.add_simpl_l; by rewrite !BB).
    constructor; unfold low_six; lia. }
  clear E1. destruct s3 as [|d s4]; [done|]. apply andb_true_iff in E as [E1 E].
  unfold utf8_head4, between in E1.
  apply (CH (262144 * (Z_of_byte a - 240) + 4096 * (Z_of_byte b - 128) + 64 * (Z_of_byte c - 128) + (Z_of_byte d - 128)) [a; b; c; d] s4); [done|done| |lia|done].
  replace [a; b; c; d] with (map byte_of_Z [240 + (Z_of_byte a - 240); 128 + (Z_of_byte b - 128); 128 + (Z_of_byte c - 128); 128 + (Z_of_byte d - 128)])
    by (cbn [map]; rewrite !Z.add_sub_assoc, !Z.add_simpl_l; by rewrite !BB).
  constructor; unfold low_six; lia.
Qed.
Lemma pstring_says t s rest : string_says (quote :: t) s -> pstring (t ++ rest) = Some (s, rest).
Proof.
  intros (b & [= ->] & Hb & Hu). unfold pstring. rewrite <- app_assoc. cbn [app].
  rewrite (pstr_chars b s rest) by (done || (rewrite app_length; cbn; lia)). by apply utf8_ok_text in Hu as ->.
Qed.
Lemma pstring_inv s x r : pstring s = Some (x, r) -> exists t, s = t ++ r /\ string_says (quote :: t) x.
Proof.
  unfold pstring. destruct (pstr _ _) as [[t' r']|] eqn:E; [|done]. destruct (utf8_ok t') eqn:U; [|done]. intros [= -> ->].
  apply pstr_inv in E as (b & -> & Hb). exists (b ++ [quote]). split; [by rewrite <- app_assoc|]. exists b.
  split; [done|]. split; [done|by apply utf8_ok_text].
Qed.

(** ** Numbers *)

Lemma digits_some d : some_digits d <-> digits d /\ d <> [].
Proof.
  unfold some_digits, digits.
  assert (Forall (fun c => 48 <= Z_of_byte c <= 57) d <-> Forall (fun b => is_digit b = true) d) as ->; [|tauto].
  apply Forall_iff. intros c. unfold is_digit. lia.
Qed.
Lemma number_says_tok t v : number_says t v <->
  exists neg ip fr ex, t = num_text neg ip fr ex /\ num_tok neg ip fr ex /\ v = num_val neg ip fr ex.
Proof.
  unfold number_says, num_tok, num_text, num_val, frac_tok, exp_tok, int_lo.
  repeat setoid_rewrite digits_some. cbv zeta.
  assert (forall neg (ip fr ex t : bytes), let z := if neg : bool then - dec_val ip else dec_val ip in
    let int := fr = [] /\ ex = [] /\ ~ (neg = true /\ z = 0) /\ - 2 ^ 63 <= z < 2 ^ 64 in
    (int /\ v = JInt z \/ ~ int /\ v = JFloat t) <->
    v = if bool_decide (fr = []) && bool_decide (ex = []) && negb (neg && (z =? 0))
          && ((- 2 ^ 63 <=? z) && (z <? two64)) then JInt z else JFloat t) as Hv.
  { intros neg ip fr ex t' z int.
    assert (bool_decide (fr = []) && bool_decide (ex = []) && negb (neg && (z =? 0))
          && ((- 2 ^ 63 <=? z) && (z <? two64)) = true <-> int) as Hint.
    { unfold int. rewrite !andb_true_iff, !bool_decide_eq_true, negb_true_iff, andb_false_iff, Z.eqb_neq, Z.leb_le, Z.ltb_lt.
      change two64 with (2 ^ 64). destruct neg; naive_solver. }
    destruct (_ && (_ && _)) eqn:E.
    - split; [intros [[_ ->]|[[] _]]; [done|by apply Hint]|]. intros ->. left. split; [by apply Hint|done].
    - assert (~ int). { intros ?%Hint. congruence. }
      split; [intros [[? _]|[_ ->]]; done|]. intros ->. by right. }
  split.
  - intros (neg & ip & fr & ex & -> & Hi & H0 & Hf & He & H). exists neg, ip, fr, ex.
    split; [done|]. split; [naive_solver|]. by apply (Hv neg ip fr ex).
  - intros (neg & ip & fr & ex & -> & (Hi & Hn & H0 & Hf & He) & ->). exists neg, ip, fr, ex.
    split; [done|]. split; [done|]. split; [done|]. split; [naive_solver|]. split; [naive_solver|].
    by apply (Hv neg ip fr ex).
Qed.

(** ** Values *)

Scheme value_says_ind2 := Minimality for value_says Sort Prop
  with elements_say_ind2 := Minimality for elements_say Sort Prop
  with members_say_ind2 := Minimality for members_say Sort Prop.
Combined Scheme says_ind from value_says_ind2, elements_say_ind2, members_say_ind2.

(** The first byte of a value. *)
Lemma value_head t v : value_says t v -> exists c r, t = c :: r /\ is_ws c = false /\ c <> "]"%char.
Proof.
  intros []; try (by eexists _, _).
  - apply number_says_tok in H as (neg & ip & fr & ex & -> & Ht & _).
    destruct (num_text_head neg ip fr ex Ht) as (c & r & -> & Hc). exists c, r. split; [done|].
    destruct Hc as [->|Hc]; [done|]. unfold is_digit, is_ws in *. split; [lia|]. intros ->. by vm_compute in Hc.
  - destruct H as (b & -> & _). by eexists _, _.
Qed.
Lemma skip_value w t v rest : white w -> value_says t v -> skip_ws (w ++ t ++ rest) = t ++ rest.
Proof.
  intros Hw (c & r & -> & Hc & _)%value_head. rewrite skip_white by done. by apply skip_ws_head.
Qed.
Lemma string_head tk k : string_says tk k -> exists r, tk = quote :: r.
Proof. intros (b & -> & _). by eexists. Qed.
Lemma pval_skip f d s : pval f d (skip_ws s) = pval f d s.
Proof. destruct f; [done|]. by rewrite !pval_S, skip_ws_idem. Qed.
Lemma pelems_skip f d s : pelems f d (skip_ws s) = pelems f d s.
Proof. destruct f; [done|]. by rewrite !pelems_S, pval_skip. Qed.
Lemma pmembers_skip f d s : pmembers f d (skip_ws s) = pmembers f d s.
Proof. destruct f; [done|]. by rewrite !pmembers_S, skip_ws_idem. Qed.
Lemma elements_head t l rest : elements_say t l -> hd_is "]"%char (skip_ws (t ++ rest)) = None.
Proof.
  intros []; rewrite <- !app_assoc; rewrite (skip_value _ _ v) by done;
    destruct (value_head _ _ H0) as (c & r & -> & _ & Hc); by apply hd_is_ne.
Qed.
Lemma members_head t l rest : members_say t l -> hd_is "}"%char (skip_ws (t ++ rest)) = None.
Proof.
  intros []; rewrite <- !app_assoc; rewrite skip_white by done;
    destruct (string_head _ _ H0) as (r & ->); reflexivity.
Qed.

Lemma says_parse :
  (forall t v, value_says t v -> forall f d w rest, (length t <= f)%nat -> (jdepth v < d)%nat -> white w ->
     nstop rest -> pval f d (w ++ t ++ rest) = Some (v, rest)) /\
  (forall t l, elements_say t l -> forall f d rest, (length t < f)%nat -> Forall (fun v => jdepth v < d)%nat l ->
     pelems f d (t ++ "]"%char :: rest) = Some (l, rest)) /\
  (forall t m, members_say t m -> forall f d rest, (length t < f)%nat ->
     Forall (fun kv => jdepth (snd kv) < d)%nat m ->
     pmembers f d (t ++ "}"%char :: rest) = Some (m, rest)).
Proof.
  apply says_ind.
  - intros f d w rest Hf Hd Hw Hr. destruct f as [|f]; [cbn in Hf; lia|]. rewrite pval_S, skip_white by done. reflexivity.
  - intros f d w rest Hf Hd Hw Hr. destruct f as [|f]; [cbn in Hf; lia|]. rewrite pval_S, skip_white by done. reflexivity.
  - intros f d w rest Hf Hd Hw Hr. destruct f as [|f]; [cbn in Hf; lia|]. rewrite pval_S, skip_white by done. reflexivity.
  - intros t v (neg & ip & fr & ex & -> & Ht & ->)%number_says_tok f d w rest Hf Hd Hw Hr.
    destruct (num_text_head neg ip fr ex Ht) as (c & r & E & Hc).
    destruct f as [|f]; [rewrite E in Hf; cbn in Hf; lia|].
    rewrite <- pval_skip, skip_white by done. rewrite pval_skip. rewrite E. cbn [app]. rewrite pval_num by done.
    change (c :: r ++ rest) with ((c :: r) ++ rest). rewrite <- E. apply pnum_tok; [done|by apply nstop_num_rest].
  - intros t s Hs f d w rest Hf Hd Hw Hr. destruct (string_head _ _ Hs) as (r & ->).
    destruct f as [|f]; [cbn in Hf; lia|]. rewrite pval_S, skip_white by done. cbn [app].
    rewrite skip_ws_head by done. cbv zeta. change (Z_of_byte quote) with 34. cbn [Z.eqb Pos.eqb].
    by rewrite (pstring_says r s rest).
  - intros w0 Hw0 f d w rest Hf Hd Hw Hr. destruct f as [|f]; [cbn in Hf; lia|].
    rewrite pval_S, skip_white by done. cbn [app]. rewrite skip_ws_head by done. cbv zeta.
    change (Z_of_byte "["%char) with 91. change (is_digit "["%char) with false. cbn [Z.eqb Pos.eqb orb].
    cbn in Hd. destruct d as [|[|d]]; [lia|lia|]. rewrite <- app_assoc, skip_white by done. reflexivity.
  - intros t l Hl IH f d w rest Hf Hd Hw Hr. destruct f as [|f]; [cbn in Hf; lia|].
    rewrite pval_S, skip_white by done. cbn [app]. rewrite skip_ws_head by done. cbv zeta.
    change (Z_of_byte "["%char) with 91. change (is_digit "["%char) with false. cbn [Z.eqb Pos.eqb orb].
    destruct d as [|[|d]]; [lia|cbn in Hd; lia|].
    rewrite <- app_assoc, (elements_head t l) by done. rewrite pelems_skip. cbn [app].
    cbn [length] in Hf. rewrite app_length in Hf. cbn [length] in Hf.
    rewrite IH; [done|lia|]. assert (jdepth (JArr l) <= S d)%nat as H%jdepth_arr by lia.
    eapply list.Forall_impl; [exact H|]. cbn. lia.
  - intros w0 Hw0 f d w rest Hf Hd Hw Hr. destruct f as [|f]; [cbn in Hf; lia|].
    rewrite pval_S, skip_white by done. cbn [app]. rewrite skip_ws_head by done. cbv zeta.
    change (Z_of_byte "{"%char) with 123. change (is_digit "{"%char) with false. cbn [Z.eqb Pos.eqb orb].
    cbn in Hd. destruct d as [|[|d]]; [lia|lia|]. rewrite <- app_assoc, skip_white by done. reflexivity.
  - intros t m Hm IH f d w rest Hf Hd Hw Hr. destruct f as [|f]; [cbn in Hf; lia|].
    rewrite pval_S, skip_white by done. cbn [app]. rewrite skip_ws_head by done. cbv zeta.
    change (Z_of_byte "{"%char) with 123. change (is_digit "{"%char) with false. cbn [Z.eqb Pos.eqb orb].
    destruct d as [|[|d]]; [lia|cbn in Hd; lia|].
    rewrite <- app_assoc, (members_head t m) by done. rewrite pmembers_skip. cbn [app].
    cbn [length] in Hf. rewrite app_length in Hf. cbn [length] in Hf.
    rewrite IH; [done|lia|]. assert (jdepth (JObj m) <= S d)%nat as H%jdepth_obj by lia.
    eapply list.Forall_impl; [exact H|]. cbn. lia.
  - intros w1 t w2 v Hw1 Hv IH Hw2 f d rest Hf Hd. destruct f as [|f]; [lia|]. rewrite pelems_S.
    rewrite !app_length in Hf. rewrite <- !app_assoc.
    rewrite IH; [|lia|exact (proj1 (list.Forall_singleton _ _) Hd)|done|by apply white_nstop].
    rewrite skip_white by done. reflexivity.
  - intros w1 t w2 v t' l Hw1 Hv IH Hw2 Hl IHl f d rest Hf Hd. destruct f as [|f]; [lia|]. rewrite pelems_S.
    rewrite !app_length in Hf. cbn [length] in Hf. rewrite <- !app_assoc. apply list.Forall_cons in Hd as [Hd Hds].
    rewrite IH; [|lia|done|done|by apply white_nstop].
    rewrite skip_white by done. cbn [app]. rewrite skip_ws_head by done. rewrite hd_is_ne by done. rewrite hd_is_cons.
    by rewrite IHl by (done || lia).
  - intros w1 tk k w2 w3 t v w4 Hw1 Hk Hw2 Hw3 Hv IH Hw4 f d rest Hf Hd. destruct f as [|f]; [lia|].
    rewrite pmembers_S. destruct (string_head _ _ Hk) as (r & ->). rewrite <- !app_assoc, skip_white by done.
    cbn [app]. rewrite skip_ws_head by done. rewrite hd_is_cons. rewrite (pstring_says r k) by done.
    rewrite skip_white by done. rewrite skip_ws_head by done. rewrite hd_is_cons. rewrite <- !app_assoc.
    repeat (rewrite !app_length in Hf || cbn [length] in Hf).
    rewrite IH; [|lia|exact (proj1 (list.Forall_singleton _ _) Hd)|done|by apply white_nstop].
    rewrite skip_white by done. reflexivity.
  - intros w1 tk k w2 w3 t v w4 t' m Hw1 Hk Hw2 Hw3 Hv IH Hw4 Hm IHm f d rest Hf Hd. destruct f as [|f]; [lia|].
    rewrite pmembers_S. destruct (string_head _ _ Hk) as (r & ->). rewrite <- !app_assoc, skip_white by done.
    cbn [app]. rewrite skip_ws_head by done. rewrite hd_is_cons. rewrite (pstring_says r k) by done.
    rewrite skip_white by done. rewrite skip_ws_head by done. rewrite hd_is_cons. rewrite <- !app_assoc.
    repeat (rewrite !app_length in Hf || cbn [length] in Hf). apply list.Forall_cons in Hd as [Hd Hds].
    rewrite IH; [|lia|done|done|by apply white_nstop].
    rewrite skip_white by done. cbn [app]. rewrite skip_ws_head by done. rewrite hd_is_ne by done. rewrite hd_is_cons.
    by rewrite IHm by (done || lia).
Qed.

Lemma parse_says f :
  (forall d s v r, pval f d s = Some (v, r) -> exists w t, s = w ++ t ++ r /\ white w /\ value_says t v) /\
  (forall d s l r, pelems f d s = Some (l, r) -> exists t, s = t ++ "]"%char :: r /\ elements_say t l) /\
  (forall d s m r, pmembers f d s = Some (m, r) -> exists t, s = t ++ "}"%char :: r /\ members_say t m).
Proof.
  induction f as [|f (IHv & IHe & IHm)]; [repeat split; intros; done|].
  split; [|split].
  - intros d s v r. rewrite pval_S. destruct (skip_ws_split s) as (w & Es & Hw).
    destruct (skip_ws s) as [|c s1]; [done|]. rewrite Es. clear s Es. cbv zeta. unfold pword.
    destruct (_ =? 110) eqn:E1.
    { apply Z.eqb_eq, byte_of_eq in E1 as ->. destruct (strip_prefix _ _) as [r'|] eqn:E; [|done].
      apply strip_prefix_Some in E as ->. intros [= <- <-]. exists w, (B "null"). by split; [|split; [|constructor]]. }
    destruct (_ =? 116) eqn:E2.
    { apply Z.eqb_eq, byte_of_eq in E2 as ->. destruct (strip_prefix _ _) as [r'|] eqn:E; [|done].
      apply strip_prefix_Some in E as ->. intros [= <- <-]. exists w, (B "true"). by split; [|split; [|constructor]]. }
    destruct (_ =? 102) eqn:E3.
    { apply Z.eqb_eq, byte_of_eq in E3 as ->. destruct (strip_prefix _ _) as [r'|] eqn:E; [|done].
      apply strip_prefix_Some in E as ->. intros [= <- <-]. exists w, (B "false"). by split; [|split; [|constructor]]. }
    destruct (_ =? 34) eqn:E4.
    { apply Z.eqb_eq, byte_of_eq in E4 as ->. destruct (pstring _) as [[x r']|] eqn:E; [|done].
      apply pstring_inv in E as (t & -> & Ht). intros [= <- <-]. exists w, (quote :: t).
      split; [done|]. split; [done|]. by constructor. }
    destruct (_ || _).
    { intros (neg & ip & fr & ex & -> & Ht & _ & ->)%pnum_inv. exists w, (num_text neg ip fr ex).
      split; [done|]. split; [done|]. apply says_num, number_says_tok. by exists neg, ip, fr, ex. }
    destruct (_ =? 91) eqn:E5.
    { apply Z.eqb_eq, byte_of_eq in E5 as ->. destruct d as [|[|d]]; [done|done|].
      destruct (hd_is _ _) as [r'|] eqn:E.
      - destruct (skip_ws_split s1) as (w' & Es & Hw'). apply hd_is_Some in E. rewrite E in Es. rewrite Es.
        intros [= <- <-]. exists w, ("["%char :: w' ++ ["]"%char]). split; [cbn; by rewrite <- app_assoc|].
        split; [done|]. by constructor.
      - rewrite pelems_skip. destruct (pelems _ _ _) as [[l r'']|] eqn:Ee; [|done]. intros [= <- <-].
        apply IHe in Ee as (t & -> & Ht). exists w, ("["%char :: t ++ ["]"%char]).
        split; [cbn; by rewrite <- app_assoc|]. split; [done|]. by constructor. }
    destruct (_ =? 123) eqn:E6; [|done].
    apply Z.eqb_eq, byte_of_eq in E6 as ->. destruct d as [|[|d]]; [done|done|].
    destruct (hd_is _ _) as [r'|] eqn:E.
    + destruct (skip_ws_split s1) as (w' & Es & Hw'). apply hd_is_Some in E. rewrite E in Es. rewrite Es.
      intros [= <- <-]. exists w, ("{"%char :: w' ++ ["}"%char]). split; [cbn; by rewrite <- app_assoc|].
      split; [done|]. by constructor.
    + rewrite pmembers_skip. destruct (pmembers _ _ _) as [[l r'']|] eqn:Ee; [|done]. intros [= <- <-].
      apply IHm in Ee as (t & -> & Ht). exists w, ("{"%char :: t ++ ["}"%char]).
      split; [cbn; by rewrite <- app_assoc|]. split; [done|]. by constructor.
  - intros d s l r. rewrite pelems_S. destruct (pval f d s) as [[v s1]|] eqn:Ev; [|done].
    apply IHv in Ev as (w & t & -> & Hw & Ht). destruct (skip_ws_split s1) as (w2 & Es & Hw2).
    destruct (hd_is "]"%char _) as [r'|] eqn:E.
    { apply hd_is_Some in E. rewrite E in Es. rewrite Es. intros [= <- <-]. exists (w ++ t ++ w2).
      split; [by rewrite <- !app_assoc|]. by constructor. }
    destruct (hd_is ","%char _) as [r'|] eqn:E'; [|done]. apply hd_is_Some in E'. rewrite E' in Es. rewrite Es.
    destruct (pelems f d r') as [[l' r'']|] eqn:Ee; [|done]. intros [= <- <-].
    apply IHe in Ee as (t' & -> & Ht'). exists (w ++ t ++ w2 ++ ","%char :: t').
    split; [rewrite <- !app_assoc; cbn; by rewrite <- ?app_assoc|]. by constructor.
  - intros d s m r. rewrite pmembers_S. destruct (skip_ws_split s) as (w1 & Es & Hw1).
    destruct (hd_is quote _) as [r0|] eqn:E0; [|done]. apply hd_is_Some in E0. rewrite E0 in Es. rewrite Es. clear Es E0.
    destruct (pstring r0) as [[k r1]|] eqn:Ek; [|done]. apply pstring_inv in Ek as (tk & -> & Hk).
    destruct (skip_ws_split r1) as (w2 & Es & Hw2).
    destruct (hd_is ":"%char _) as [r2|] eqn:E2; [|done]. apply hd_is_Some in E2. rewrite E2 in Es. rewrite Es. clear Es E2.
    destruct (pval f d r2) as [[v s1]|] eqn:Ev; [|done].
    apply IHv in Ev as (w3 & t & -> & Hw3 & Ht). destruct (skip_ws_split s1) as (w4 & Es & Hw4).
    destruct (hd_is "}"%char _) as [r'|] eqn:E.
    { apply hd_is_Some in E. rewrite E in Es. rewrite Es. intros [= <- <-].
      exists (w1 ++ (quote :: tk) ++ w2 ++ ":"%char :: w3 ++ t ++ w4).
      split; [repeat (rewrite <- !app_assoc; cbn [app]); reflexivity|]. by constructor. }
    destruct (hd_is ","%char _) as [r'|] eqn:E'; [|done]. apply hd_is_Some in E'. rewrite E' in Es. rewrite Es.
    destruct (pmembers f d r') as [[l' r'']|] eqn:Ee; [|done]. intros [= <- <-].
    apply IHm in Ee as (t' & -> & Ht').
    exists (w1 ++ (quote :: tk) ++ w2 ++ ":"%char :: w3 ++ t ++ w4 ++ ","%char :: t').
    split; [repeat (rewrite <- !app_assoc; cbn [app]); reflexivity|]. by constructor.
Qed.

Lemma parse_json_says text v : parse text = Some v <-> json_says text v /\ (jdepth v <= 127)%nat.
Proof.
  split.
  - intros H. split; [|by eapply parse_ok]. revert H. unfold parse.
    destruct (pval _ _ _) as [[v' r]|] eqn:E; [|done]. apply (parse_says _) in E as (w & t & Et & Hw & Ht).
    destruct (skip_ws r) eqn:Er; [|done]. intros [= <-]. exists w, t, r. split; [done|]. split; [done|].
    split; [done|]. by apply white_ws, skip_ws_nil_ws.
  - intros ((w1 & t & w2 & -> & Hw1 & Ht & Hw2) & Hd). unfold parse.
    rewrite (proj1 says_parse t v Ht); [|rewrite !app_length; lia|lia|done|].
    + by rewrite white_skip.
    + rewrite <- (app_nil_r w2). by apply white_nstop.
Qed.
