(** Facts about Json.v: what is printed parses back, and no proper prefix of a
    printed object parses. *)
From Verif Require Import Json BaseFacts.

(** ** Induction on nested values *)

Section json_induction.
  Context (P : json -> Prop).
  Context (Hnull : P JNull) (Hbool : forall b, P (JBool b)) (Hint : forall z, P (JInt z))
    (Hfloat : forall l, P (JFloat l)) (Hstr : forall s, P (JStr s))
    (Harr : forall l, Forall P l -> P (JArr l))
    (Hobj : forall m, Forall (fun kv => P (snd kv)) m -> P (JObj m)).
  Fixpoint json_ind2 (j : json) : P j :=
    match j with
    | JNull => Hnull | JBool b => Hbool b | JInt z => Hint z
    | JFloat l => Hfloat l | JStr s => Hstr s
    | JArr l =>
        Harr l ((fix go (l : list json) : Forall P l :=
                   match l with
                   | [] => @Forall_nil _ P
                   | x :: l' => @Forall_cons _ P x l' (json_ind2 x) (go l')
                   end) l)
    | JObj m =>
        Hobj m ((fix go (m : jmap) : Forall (fun kv => P (snd kv)) m :=
                   match m with
                   | [] => @Forall_nil _ (fun kv => P (snd kv))
                   | x :: m' => @Forall_cons _ (fun kv => P (snd kv)) x m' (json_ind2 (snd x)) (go m')
                   end) m)
    end.
End json_induction.

(** ** The parser with tests instead of literal patterns *)

Definition hd_is (c : byte) (s : bytes) : option bytes :=
  match s with
  | x :: r => if bool_decide (x = c) then Some r else None
  | [] => None
  end.
Lemma hd_is_cons c r : hd_is c (c :: r) = Some r.
Proof. cbn. by rewrite bool_decide_eq_true_2. Qed.
Lemma hd_is_ne c x r : x <> c -> hd_is c (x :: r) = None.
Proof. intros. cbn. by rewrite bool_decide_eq_false_2. Qed.
Lemma hd_is_Some c s r : hd_is c s = Some r -> s = c :: r.
Proof. destruct s as [|x s]; [done|]. cbn. case_bool_decide; [|done]. by intros [= ->]; subst. Qed.
Lemma hd_is_app c s t r : hd_is c s = Some r -> hd_is c (s ++ t) = Some (r ++ t).
Proof. intros ->%hd_is_Some. apply hd_is_cons. Qed.
Lemma hd_is_app_None c s t : s <> [] -> hd_is c s = None -> hd_is c (s ++ t) = None.
Proof. destruct s as [|x s]; [done|]. intros _. cbn. by case_bool_decide. Qed.

Ltac bytecases s :=
  destruct s as [|[[] [] [] [] [] [] [] []] s]; reflexivity.

Lemma span_frac_alt s :
  span_frac s = match hd_is "."%char s with
                | Some s' => let '(d, r) := span_digits s' in
                             match d with [] => None | _ => Some ("."%char :: d, r) end
                | None => Some ([], s)
                end.
Proof. bytecases s. Qed.
Definition exp_sign (s : bytes) : bytes * bytes :=
  match hd_is "+"%char s with
  | Some t => (B "+", t)
  | None => match hd_is "-"%char s with Some t => (B "-", t) | None => ([], s) end
  end.
Lemma span_exp_alt s :
  span_exp s = match s with
    | c :: s' =>
        if bool_decide (c = "e"%char) || bool_decide (c = "E"%char) then
          let '(sg, s'') := exp_sign s' in
          let '(d, r) := span_digits s'' in
          match d with [] => None | _ => Some (c :: sg ++ d, r) end
        else Some ([], s)
    | [] => Some ([], s)
    end.
Proof.
  destruct s as [|c s]; [done|]. cbn [span_exp].
  destruct (_ || _); [|done]. bytecases s.
Qed.
Definition num_sign (s : bytes) : bool * bytes :=
  match hd_is "-"%char s with Some t => (true, t) | None => (false, s) end.
Definition pnum_body (neg : bool) (s1 : bytes) : option (json * bytes) :=
  let '(ip, s2) := span_digits s1 in
  match ip with
  | [] => None
  | d0 :: more =>
      if bool_decide (d0 = "0"%char) && negb (bool_decide (more = [])) then None
      else match span_frac s2 with
      | None => None
      | Some (fr, s3) =>
          match span_exp s3 with
          | None => None
          | Some (ex, s4) =>
              let tok := (if neg then B "-" else []) ++ ip ++ fr ++ ex in
              let z := if neg then - dec_val ip else dec_val ip in
              match fr, ex with
              | [], [] =>
                  if neg && (z =? 0) then Some (JFloat tok, s4)
                  else if (int_lo <=? z) && (z <? two64) then Some (JInt z, s4)
                  else Some (JFloat tok, s4)
              | _, _ => Some (JFloat tok, s4)
              end
          end
      end
  end.
Lemma pnum_alt s : pnum s = let '(neg, s1) := num_sign s in pnum_body neg s1.
Proof. bytecases s. Qed.

Lemma pval_S f d s :
  pval (S f) d s =
  match skip_ws s with
  | [] => None
  | c :: r =>
      let z := Z_of_byte c in
      if z =? 110 then pword (B "ull") JNull r
      else if z =? 116 then pword (B "rue") (JBool true) r
      else if z =? 102 then pword (B "alse") (JBool false) r
      else if z =? 34 then
        match pstring r with Some (t, r') => Some (JStr t, r') | None => None end
      else if (z =? 45) || is_digit c then pnum (c :: r)
      else if z =? 91 then
        match d with
        | O | S O => None
        | S d' =>
            match hd_is "]"%char (skip_ws r) with
            | Some r' => Some (JArr [], r')
            | None => match pelems f d' (skip_ws r) with
                      | Some (l, r'') => Some (JArr l, r'')
                      | None => None
                      end
            end
        end
      else if z =? 123 then
        match d with
        | O | S O => None
        | S d' =>
            match hd_is "}"%char (skip_ws r) with
            | Some r' => Some (JObj [], r')
            | None => match pmembers f d' (skip_ws r) with
                      | Some (l, r'') => Some (JObj l, r'')
                      | None => None
                      end
            end
        end
      else None
  end.
Proof.
  cbn [pval]. destruct (skip_ws s) as [|c r]; [done|]. cbv zeta.
  do 5 (destruct (_ : bool); [reflexivity|]).
  destruct (_ =? 91).
  { destruct d as [|[|d]]; [done|done|]. generalize (skip_ws r). intros w. bytecases w. }
  destruct (_ =? 123); [|done].
  destruct d as [|[|d]]; [done|done|]. generalize (skip_ws r). intros w. bytecases w.
Qed.
Lemma pelems_S f d s :
  pelems (S f) d s =
  match pval f d s with
  | None => None
  | Some (v, r) =>
      match hd_is "]"%char (skip_ws r) with
      | Some r' => Some ([v], r')
      | None =>
          match hd_is ","%char (skip_ws r) with
          | Some r' =>
              match pelems f d r' with
              | Some (l, r'') => Some (v :: l, r'')
              | None => None
              end
          | None => None
          end
      end
  end.
Proof.
  cbn [pelems]. destruct (pval f d s) as [[v r]|]; [|done].
  generalize (skip_ws r). intros w. bytecases w.
Qed.
Lemma pmembers_S f d s :
  pmembers (S f) d s =
  match hd_is quote (skip_ws s) with
  | None => None
  | Some r0 =>
      match pstring r0 with
      | None => None
      | Some (k, r1) =>
          match hd_is ":"%char (skip_ws r1) with
          | None => None
          | Some r2 =>
              match pval f d r2 with
              | None => None
              | Some (v, r) =>
                  match hd_is "}"%char (skip_ws r) with
                  | Some r' => Some ([(k, v)], r')
                  | None =>
                      match hd_is ","%char (skip_ws r) with
                      | Some r' =>
                          match pmembers f d r' with
                          | Some (l, r'') => Some ((k, v) :: l, r'')
                          | None => None
                          end
                      | None => None
                      end
                  end
              end
          end
      end
  end.
Proof.
  cbn [pmembers]. destruct (skip_ws s) as [|c r0]; [done|]. cbn [hd_is].
  case_bool_decide; [|done]. destruct (pstring r0) as [[k r1]|]; [|done].
  assert (forall (X : bytes -> option (jmap * bytes)) w,
    match w with ":"%char :: r2 => X r2 | _ => None end
    = match hd_is ":"%char w with Some r2 => X r2 | None => None end) as HX.
  { intros X w. bytecases w. }
  rewrite HX. destruct (hd_is _ _) as [r2|]; [|done].
  destruct (pval f d r2) as [[v r]|]; [|done].
  generalize (skip_ws r). intros w. bytecases w.
Qed.

(** ** White space *)

Lemma skip_ws_head c r : is_ws c = false -> skip_ws (c :: r) = c :: r.
Proof. intros H. cbn. by rewrite H. Qed.
Lemma skip_ws_app s t : skip_ws s <> [] -> skip_ws (s ++ t) = skip_ws s ++ t.
Proof. induction s as [|c s IH]; [done|]. cbn. destruct (is_ws c); [apply IH|done]. Qed.
Lemma skip_ws_nil_ws s : skip_ws s = [] -> Forall (fun c => is_ws c = true) s.
Proof.
  induction s as [|c s IH]; [done|]. cbn. destruct (is_ws c) eqn:E; [|done].
  intros H. constructor; [done|by apply IH].
Qed.

(** ** Numbers *)

Definition digits (l : bytes) : Prop := Forall (fun b => is_digit b = true) l.
Definition no_digit (s : bytes) : Prop :=
  match s with c :: _ => is_digit c = false | [] => True end.
(** What may follow a number token without becoming part of it. *)
Definition nstop (s : bytes) : Prop :=
  match s with
  | c :: _ => is_digit c = false /\ c <> "."%char /\ c <> "e"%char /\ c <> "E"%char
  | [] => True
  end.
Lemma nstop_no_digit s : nstop s -> no_digit s.
Proof. destruct s; [done|]. by intros [? _]. Qed.

Lemma span_digits_app d r : digits d -> no_digit r -> span_digits (d ++ r) = (d, r).
Proof.
  intros Hd Hr. induction Hd as [|b d Hb _ IH].
  - destruct r as [|c r]; [done|]. cbn in *. by rewrite Hr.
  - cbn [app span_digits]. by rewrite Hb, IH.
Qed.
Lemma span_digits_spec s d r :
  span_digits s = (d, r) -> s = d ++ r /\ digits d /\ no_digit r.
Proof.
  revert d r. induction s as [|c s IH]; intros d r; cbn.
  - intros [= <- <-]. repeat split; constructor.
  - destruct (is_digit c) eqn:E.
    + destruct (span_digits s) as [d' r'] eqn:Es. intros [= <- <-].
      destruct (IH _ _ eq_refl) as (-> & ? & ?). repeat split; [|done]. by constructor.
    + intros [= <- <-]. repeat split; [constructor|done].
Qed.

(** Fractions and exponents as printed tokens. *)
Definition frac_tok (fr : bytes) : Prop := fr = [] \/ exists d, fr = "."%char :: d /\ digits d /\ d <> [].
Definition exp_tok (ex : bytes) : Prop :=
  ex = [] \/ exists c sg d, ex = c :: sg ++ d /\ (c = "e"%char \/ c = "E"%char)
    /\ (sg = [] \/ sg = B "+" \/ sg = B "-") /\ digits d /\ d <> [].
Definition no_dot (s : bytes) : Prop := match s with c :: _ => c <> "."%char | [] => True end.
Definition no_exp (s : bytes) : Prop :=
  match s with c :: _ => c <> "e"%char /\ c <> "E"%char | [] => True end.

Lemma span_frac_spec s fr r : span_frac s = Some (fr, r) ->
  s = fr ++ r /\ frac_tok fr /\ (if bool_decide (fr = []) then no_dot r else no_digit r).
Proof.
  rewrite span_frac_alt. destruct (hd_is _ s) as [s'|] eqn:E.
  - apply hd_is_Some in E as ->. destruct (span_digits s') as [d r'] eqn:Es.
    apply span_digits_spec in Es as (-> & Hd & Hr).
    destruct d as [|d0 d]; [done|]. intros [= <- <-]. split; [done|].
    split; [right; by exists (d0 :: d)|]. by rewrite bool_decide_eq_false_2.
  - intros [= <- <-]. split; [done|]. split; [by left|]. rewrite bool_decide_eq_true_2 by done.
    destruct s as [|c s]; [done|]. cbn in E |- *. by case_bool_decide.
Qed.
Lemma span_frac_app fr r : frac_tok fr ->
  (if bool_decide (fr = []) then no_dot r else no_digit r) ->
  span_frac (fr ++ r) = Some (fr, r).
Proof.
  intros [->|(d & -> & Hd & Hn)] Hr; rewrite span_frac_alt.
  - rewrite bool_decide_eq_true_2 in Hr by done. destruct r as [|c r]; [done|].
    cbn [app]. by rewrite hd_is_ne.
  - rewrite bool_decide_eq_false_2 in Hr by done. cbn [app]. rewrite hd_is_cons.
    rewrite span_digits_app by done. by destruct d.
Qed.
Lemma span_exp_spec s ex r : span_exp s = Some (ex, r) ->
  s = ex ++ r /\ exp_tok ex /\ (if bool_decide (ex = []) then no_exp r else no_digit r).
Proof.
  rewrite span_exp_alt. destruct s as [|c s]; [|].
  - intros [= <- <-]. split; [done|]. split; [by left|]. done.
  - destruct (_ || _) eqn:E.
    + apply orb_true_iff in E. rewrite !bool_decide_eq_true in E.
      destruct (exp_sign s) as [sg s''] eqn:Esg.
      assert (s = sg ++ s'' /\ (sg = [] \/ sg = B "+" \/ sg = B "-")) as [-> Hsg].
      { revert Esg. unfold exp_sign. destruct (hd_is "+"%char s) as [t|] eqn:E1.
        - apply hd_is_Some in E1 as ->. intros [= <- <-]. auto.
        - destruct (hd_is "-"%char s) as [t|] eqn:E2.
          + apply hd_is_Some in E2 as ->. intros [= <- <-]. auto.
          + intros [= <- <-]. auto. }
      destruct (span_digits s'') as [d r'] eqn:Ed.
      apply span_digits_spec in Ed as (-> & Hd & Hr).
      destruct d as [|d0 d]; [done|]. intros [= <- <-].
      split; [cbn; by rewrite <- app_assoc|].
      split; [right; by exists c, sg, (d0 :: d)|].
      rewrite bool_decide_eq_false_2; done.
    + intros [= <- <-]. split; [done|]. split; [by left|].
      rewrite bool_decide_eq_true_2 by done. apply orb_false_iff in E.
      rewrite !bool_decide_eq_false in E. done.
Qed.
Lemma digits_head_sign d r : digits d -> d <> [] ->
  hd_is "+"%char (d ++ r) = None /\ hd_is "-"%char (d ++ r) = None.
Proof.
  intros Hd Hn. destruct d as [|c d]; [done|]. apply Forall_cons_1 in Hd as [Hc _].
  cbn [app]. split; apply hd_is_ne; intros ->; done.
Qed.
Lemma span_exp_app ex r : exp_tok ex ->
  (if bool_decide (ex = []) then no_exp r else no_digit r) ->
  span_exp (ex ++ r) = Some (ex, r).
Proof.
  intros [->|(c & sg & d & -> & Hc & Hsg & Hd & Hn)] Hr; rewrite span_exp_alt.
  - rewrite bool_decide_eq_true_2 in Hr by done. destruct r as [|c r]; [done|].
    cbn [app]. destruct Hr. by rewrite !bool_decide_eq_false_2.
  - rewrite bool_decide_eq_false_2 in Hr by done. cbn [app].
    assert (bool_decide (c = "e"%char) || bool_decide (c = "E"%char) = true) as ->.
    { apply orb_true_iff. by rewrite !bool_decide_eq_true. }
    rewrite <- app_assoc.
    assert (exp_sign (sg ++ d ++ r) = (sg, d ++ r)) as ->.
    { destruct (digits_head_sign d r Hd Hn) as [H1 H2].
      destruct Hsg as [->|[->| ->]]; unfold exp_sign; [|done..].
      cbn [app]. by rewrite H1, H2. }
    rewrite span_digits_app by done. by destruct d.
Qed.

(** A number token: sign, integer part, fraction, exponent. *)
Definition num_tok (neg : bool) (ip fr ex : bytes) : Prop :=
  digits ip /\ ip <> [] /\ (head ip = Some "0"%char -> ip = ["0"%char])
  /\ frac_tok fr /\ exp_tok ex.
Definition num_text (neg : bool) (ip fr ex : bytes) : bytes :=
  (if neg then B "-" else []) ++ ip ++ fr ++ ex.
Definition num_val (neg : bool) (ip fr ex : bytes) : json :=
  let z := if neg then - dec_val ip else dec_val ip in
  if bool_decide (fr = []) && bool_decide (ex = []) && negb (neg && (z =? 0))
     && ((int_lo <=? z) && (z <? two64))
  then JInt z else JFloat (num_text neg ip fr ex).
(** The rest does not extend the token. *)
Definition num_rest (fr ex r : bytes) : Prop :=
  match ex with
  | _ :: _ => no_digit r
  | [] => no_exp r /\ no_digit r /\ (fr = [] -> no_dot r)
  end.
Lemma nstop_num_rest fr ex r : nstop r -> num_rest fr ex r.
Proof. destruct r as [|c r]; [by destruct ex|]. intros (? & ? & ? & ?). by destruct ex. Qed.

Lemma frac_tok_head fr : frac_tok fr -> no_digit fr /\ no_exp fr.
Proof. intros [->|(d & -> & _)]; [done|]. done. Qed.
Lemma exp_tok_head ex : exp_tok ex -> no_digit ex /\ no_dot ex.
Proof. intros [->|(c & sg & d & -> & [->| ->] & _)]; done. Qed.

Lemma pnum_tok neg ip fr ex r : num_tok neg ip fr ex -> num_rest fr ex r ->
  pnum (num_text neg ip fr ex ++ r) = Some (num_val neg ip fr ex, r).
Proof.
  intros (Hd & Hn & H0 & Hf & He) Hr. rewrite pnum_alt.
  assert (num_sign (num_text neg ip fr ex ++ r) = (neg, ip ++ fr ++ ex ++ r)) as ->.
  { unfold num_text, num_sign. destruct neg.
    - cbn [app B list_ascii_of_string]. rewrite hd_is_cons. by rewrite <- !app_assoc.
    - cbn [app]. rewrite <- !app_assoc.
      by destruct (digits_head_sign ip (fr ++ ex ++ r) Hd Hn) as [_ ->]. }
  unfold pnum_body. rewrite span_digits_app; [|done|].
  2: { destruct Hf as [->|(d & -> & _)]; [|done]. destruct (exp_tok_head ex He) as [H _].
       cbn [app]. destruct ex; [|done]. apply Hr. }
  destruct ip as [|d0 more]; [done|].
  assert (bool_decide (d0 = "0"%char) && negb (bool_decide (more = [])) = false) as ->.
  { case_bool_decide as E0; [|done]. cbn in H0. rewrite E0 in H0.
    specialize (H0 eq_refl). injection H0 as ->. done. }
  rewrite span_frac_app; [|done|].
  2: { case_bool_decide as E.
       - destruct (exp_tok_head ex He) as [_ H]. destruct ex; [|done]. by apply Hr.
       - destruct (exp_tok_head ex He) as [H _]. destruct ex; [|done]. by apply Hr. }
  rewrite span_exp_app; [|done|].
  2: { case_bool_decide as E; [subst; by apply Hr|]. by destruct ex. }
  unfold num_val, num_text. cbv zeta.
  destruct fr; [|done]. destruct ex; [|done].
  rewrite !bool_decide_eq_true_2 by done. cbn [andb].
  destruct (neg && _); [done|]. cbn [andb negb].
  by destruct (_ && _).
Qed.
Lemma pnum_inv s v r : pnum s = Some (v, r) ->
  exists neg ip fr ex, s = num_text neg ip fr ex ++ r /\ num_tok neg ip fr ex
    /\ num_rest fr ex r /\ v = num_val neg ip fr ex.
Proof.
  rewrite pnum_alt. unfold num_sign.
  assert (exists neg s1, num_sign s = (neg, s1) /\ s = (if neg then B "-" else []) ++ s1) as (neg & s1 & E & ->).
  { unfold num_sign. destruct (hd_is _ s) eqn:E; [|by eexists _, _].
    apply hd_is_Some in E as ->. by eexists _, _. }
  unfold num_sign in E. rewrite E. clear E. unfold pnum_body.
  destruct (span_digits s1) as [ip s2] eqn:E1. apply span_digits_spec in E1 as (-> & Hd & Hr2).
  destruct ip as [|d0 more]; [done|].
  destruct (_ && negb _) eqn:E0; [done|].
  destruct (span_frac s2) as [[fr s3]|] eqn:E2; [|done].
  apply span_frac_spec in E2 as (-> & Hf & Hr3).
  destruct (span_exp s3) as [[ex s4]|] eqn:E3; [|done].
  apply span_exp_spec in E3 as (-> & He & Hr4).
  intros H. exists neg, (d0 :: more), fr, ex.
  assert (v = num_val neg (d0 :: more) fr ex /\ r = s4) as [-> ->].
  { revert H. unfold num_val, num_text. cbv zeta.
    destruct fr; [|by intros [= <- <-]]. destruct ex; [|by intros [= <- <-]].
    rewrite !bool_decide_eq_true_2 by done. cbn [andb].
    destruct (neg && _); [by intros [= <- <-]|]. cbn [andb negb].
    destruct ((int_lo <=? _) && _); intros H; injection H as H1 H2; (split; [symmetry; exact H1|symmetry; exact H2]). }
  split; [unfold num_text; by rewrite <- !app_assoc|].
  split.
  { repeat split; try done. cbn. intros [= ->].
    rewrite bool_decide_eq_true_2 in E0 by done.
    destruct more as [|x more]; [done|]. by rewrite bool_decide_eq_false_2 in E0. }
  split; [|done].
  unfold num_rest. destruct ex as [|e0 ex]; [|done].
  cbn [app] in *. split; [done|]. destruct fr as [|f0 fr]; [|done]. split; done.
Qed.

(** More text after a complete number changes nothing. *)
Lemma pnum_app s v r t : pnum s = Some (v, r) -> r <> [] \/ nstop t ->
  pnum (s ++ t) = Some (v, r ++ t).
Proof.
  intros (neg & ip & fr & ex & -> & Ht & Hr & ->)%pnum_inv H.
  rewrite <- app_assoc. apply pnum_tok; [done|].
  destruct r as [|c r].
  - destruct H as [H|H]; [done|]. by apply nstop_num_rest.
  - by destruct ex.
Qed.

Lemma num_text_head neg ip fr ex : num_tok neg ip fr ex ->
  exists c r, num_text neg ip fr ex = c :: r /\ (c = "-"%char \/ is_digit c = true).
Proof.
  intros (Hd & Hn & _). unfold num_text. destruct neg; [by eexists _, _; split; [|left]|].
  destruct ip as [|c ip]; [done|]. apply Forall_cons_1 in Hd as [Hc _].
  eexists _, _. split; [done|by right].
Qed.

Lemma print_int_tok z : int_lo <= z < two64 ->
  exists neg ip, print_int z = num_text neg ip [] [] /\ num_tok neg ip [] []
    /\ num_val neg ip [] [] = JInt z.
Proof.
  intros Hz. unfold print_int.
  assert (exists neg ip, (if z <? 0 then "-"%char :: show_nat (- z) else show_nat z)
    = (if neg : bool then B "-" else []) ++ ip /\ ip = show_nat (Z.abs z)
    /\ neg = (z <? 0)) as (neg & ip & -> & -> & ->).
  { destruct (z <? 0) eqn:E; eexists (_ <? _), _; rewrite ?E.
    - repeat split. by rewrite Z.abs_neq by lia.
    - repeat split. by rewrite Z.abs_eq by lia. }
  destruct (show_nat_spec (Z.abs z)) as (Hd & Hv & Hn & H0 & Hz0); [lia|].
  exists (z <? 0), (show_nat (Z.abs z)).
  split; [unfold num_text; by rewrite !app_nil_r|]. split.
  - repeat split; try done; [|by left|by left].
    intros Hh. destruct (Z.eq_dec z 0) as [->|]; [done|].
    exfalso. by eapply H0; [|done|]; [lia|].
  - unfold num_val. cbv zeta. rewrite Hv. rewrite !bool_decide_eq_true_2 by done. cbn [andb].
    destruct (z <? 0) eqn:E.
    + rewrite Z.abs_neq, Z.opp_involutive by lia. destruct (z =? 0) eqn:E0; [lia|].
      cbn [andb negb]. destruct (_ && _) eqn:E1; [done|]. exfalso.
      apply andb_false_iff in E1. rewrite Z.leb_gt, Z.ltb_ge in E1. lia.
    + rewrite Z.abs_eq by lia. cbn [andb negb].
      destruct (_ && _) eqn:E1; [done|]. exfalso.
      apply andb_false_iff in E1. rewrite Z.leb_gt, Z.ltb_ge in E1. lia.
Qed.
Lemma float_lit_ok_tok lit : float_lit_ok lit = true <->
  exists neg ip fr ex, lit = num_text neg ip fr ex /\ num_tok neg ip fr ex
    /\ num_val neg ip fr ex = JFloat lit.
Proof.
  unfold float_lit_ok. split.
  - destruct (pnum lit) as [[v r]|] eqn:E; [|done]. destruct v; try done. destruct r; [|done].
    intros Hl. apply beq_true in Hl as ->. apply pnum_inv in E as (neg & ip & fr & ex & E & Ht & _ & Hv).
    rewrite app_nil_r in E. by exists neg, ip, fr, ex.
  - intros (neg & ip & fr & ex & E & Ht & Hv).
    rewrite <- (app_nil_r lit) at 1. rewrite E at 1. rewrite pnum_tok; [|done|by apply nstop_num_rest].
    rewrite Hv. apply beq_refl.
Qed.
(** Numbers the parser returns are values that print back to themselves. *)
Lemma pnum_ok s v r : pnum s = Some (v, r) -> json_ok v = true.
Proof.
  intros (neg & ip & fr & ex & -> & Ht & Hr & ->)%pnum_inv.
  unfold num_val. cbv zeta.
  destruct (_ && ((int_lo <=? _) && _)) eqn:E; cbn [json_ok].
  { by apply andb_true_iff in E as [_ ?]. }
  apply float_lit_ok_tok. exists neg, ip, fr, ex. split; [done|]. split; [done|].
  unfold num_val. cbv zeta. by rewrite E.
Qed.

(** ** Strings *)

Lemma pstr_char f b t :
  pstr (S f) (print_char b ++ t) =
  match pstr f t with Some (u, r) => Some (b :: u, r) | None => None end.
Proof. destruct b as [[] [] [] [] [] [] [] []]; reflexivity. Qed.
Lemma pstr_print s f rest : (length s < f)%nat ->
  pstr f (concat (map print_char s) ++ quote :: rest) = Some (s, rest).
Proof.
  revert f. induction s as [|b s IH]; intros f Hf; (destruct f as [|f]; [cbn in Hf; lia|]).
  - reflexivity.
  - cbn [map concat]. rewrite <- app_assoc, pstr_char, IH by (cbn in Hf; lia). done.
Qed.
Lemma print_char_length b : (1 <= length (print_char b))%nat.
Proof. apply Nat.leb_le. destruct b as [[] [] [] [] [] [] [] []]; reflexivity. Qed.
Lemma print_chars_length s : (length s <= length (concat (map print_char s)))%nat.
Proof.
  induction s as [|b s IH]; [done|]. cbn [map concat length]. rewrite app_length.
  pose proof (print_char_length b). lia.
Qed.
Lemma pstring_print s rest : utf8_ok s = true ->
  pstring (concat (map print_char s) ++ quote :: rest) = Some (s, rest).
Proof.
  intros U. unfold pstring. rewrite pstr_print; [by rewrite U|]. rewrite app_length. cbn.
  pose proof (print_chars_length s). lia.
Qed.

(** ** Printing, then parsing *)

Lemma strip_prefix_app p s : strip_prefix p (p ++ s) = Some s.
Proof. induction p as [|c p IH]; [done|]. cbn. by rewrite bool_decide_eq_true_2. Qed.
Lemma strip_prefix_Some p s r : strip_prefix p s = Some r -> s = p ++ r.
Proof.
  revert s. induction p as [|c p IH]; intros s; cbn; [by intros [= ->]|].
  destruct s as [|x s]; [done|]. case_bool_decide; [|done]. subst. intros H.
  by rewrite (IH _ H).
Qed.

Lemma print_head v : json_ok v = true ->
  exists c r, print v = c :: r /\ is_ws c = false /\ c <> "]"%char.
Proof.
  destruct v as [|[]|z|lit|s|l|m]; cbn [json_ok print]; intros Hv.
  - by eexists _, _.
  - by eexists _, _.
  - by eexists _, _.
  - apply andb_true_iff in Hv as [H1 H2].
    destruct (print_int_tok z) as (neg & ip & -> & Ht & _); [lia|].
    destruct (num_text_head _ _ _ _ Ht) as (c & r & -> & Hc). exists c, r. split; [done|].
    destruct Hc as [->|Hc]; [done|]. unfold is_digit in Hc. apply andb_true_iff in Hc.
    split; [unfold is_ws; lia|]. intros ->. vm_compute in Hc. by destruct Hc.
  - apply float_lit_ok_tok in Hv as (neg & ip & fr & ex & -> & Ht & _).
    destruct (num_text_head _ _ _ _ Ht) as (c & r & -> & Hc). exists c, r. split; [done|].
    destruct Hc as [->|Hc]; [done|]. unfold is_digit in Hc. apply andb_true_iff in Hc.
    split; [unfold is_ws; lia|]. intros ->. vm_compute in Hc. by destruct Hc.
  - by eexists _, _.
  - by eexists _, _.
  - by eexists _, _.
Qed.
Lemma print_nonempty v : json_ok v = true -> (1 <= length (print v))%nat.
Proof. intros (c & r & -> & _)%print_head. cbn. lia. Qed.

Lemma commas_cons2 x y l : commas (x :: y :: l) = x ++ ","%char :: commas (y :: l).
Proof. done. Qed.
Lemma pval_num f d c r : (c = "-"%char \/ is_digit c = true) ->
  pval (S f) d (c :: r) = pnum (c :: r).
Proof.
  intros Hc. rewrite pval_S.
  assert (is_ws c = false /\ (Z_of_byte c =? 110) = false /\ (Z_of_byte c =? 116) = false
    /\ (Z_of_byte c =? 102) = false /\ (Z_of_byte c =? 34) = false
    /\ (Z_of_byte c =? 45) || is_digit c = true) as (Hw & E1 & E2 & E3 & E4 & E5).
  { destruct Hc as [->|Hc]; [done|]. rewrite Hc. unfold is_digit, is_ws in *.
    apply andb_true_iff in Hc as [H1 H2]. repeat split; lia. }
  rewrite skip_ws_head by done. cbv zeta. by rewrite E1, E2, E3, E4, E5.
Qed.

Definition parses (v : json) : Prop :=
  json_ok v = true -> forall f d rest, (length (print v) <= f)%nat -> (jdepth v < d)%nat ->
  nstop rest -> pval f d (print v ++ rest) = Some (v, rest).

Lemma pelems_print l : Forall parses l -> l <> [] -> forallb json_ok l = true ->
  forall f d rest, (length (commas (map print l)) < f)%nat ->
  Forall (fun v => jdepth v < d)%nat l ->
  pelems f d (commas (map print l) ++ "]"%char :: rest) = Some (l, rest).
Proof.
  intros Hp Hn Hok. induction Hp as [|v l Hv _ IH]; [done|].
  intros f d rest Hf Hd. apply Forall_cons_1 in Hd as [Hd Hds].
  cbn in Hok. apply andb_true_iff in Hok as [Hok Hoks].
  destruct f as [|f]; [lia|]. rewrite pelems_S.
  destruct l as [|w l].
  - cbn [map commas] in *. rewrite Hv; [|done|lia|done|done].
    rewrite skip_ws_head by done. by rewrite hd_is_cons.
  - cbn [map] in *. rewrite commas_cons2 in *. rewrite app_length in Hf. cbn [length] in Hf.
    rewrite <- app_assoc. cbn [app]. rewrite Hv; [|done|lia|done|done].
    rewrite skip_ws_head by done. rewrite hd_is_ne by done. rewrite hd_is_cons.
    rewrite IH; [done|done|done|lia|done].
Qed.
Definition print_kv (kv : bytes * json) : bytes :=
  print_string (fst kv) ++ ":"%char :: print (snd kv).
Lemma pmembers_print m : Forall (fun kv => parses (snd kv)) m -> m <> [] ->
  forallb (fun kv => utf8_ok (fst kv) && json_ok (snd kv)) m = true ->
  forall f d rest, (length (commas (map print_kv m)) < f)%nat ->
  Forall (fun kv => jdepth (snd kv) < d)%nat m ->
  pmembers f d (commas (map print_kv m) ++ "}"%char :: rest) = Some (m, rest).
Proof.
  assert (forall k v f d t, utf8_ok k = true -> parses v -> json_ok v = true -> (length (print_kv (k, v)) <= f)%nat ->
    (jdepth v < d)%nat -> nstop t ->
    pmembers (S f) d (print_kv (k, v) ++ t) =
      match hd_is "}"%char (skip_ws t) with
      | Some r' => Some ([(k, v)], r')
      | None =>
          match hd_is ","%char (skip_ws t) with
          | Some r' =>
              match pmembers f d r' with
              | Some (l, r'') => Some ((k, v) :: l, r'')
              | None => None
              end
          | None => None
          end
      end) as Hone.
  { intros k v f d t Hk Hv Hok Hf Hd Ht. rewrite pmembers_S. unfold print_kv, print_string in *.
    cbn [fst snd] in *. repeat (rewrite <- app_assoc || cbn [app] in * ).
    rewrite skip_ws_head by done. rewrite hd_is_cons.
    rewrite pstring_print by done. rewrite skip_ws_head by done. rewrite hd_is_cons.
    cbn [length] in Hf. rewrite !app_length in Hf. cbn [length] in Hf.
    rewrite Hv; [done|done|lia|done|done]. }
  intros Hp Hn Hok. induction Hp as [|[k v] m Hv _ IH]; [done|].
  intros f d rest Hf Hd. apply Forall_cons_1 in Hd as [Hd Hds].
  cbn [forallb] in Hok. apply andb_true_iff in Hok as [[Hk Hok]%andb_true_iff Hoks].
  destruct f as [|f]; [lia|]. cbn [fst snd] in *.
  destruct m as [|w m].
  - cbn [map commas] in *. rewrite Hone; [|done|done|done|lia|done|done].
    rewrite skip_ws_head by done. by rewrite hd_is_cons.
  - cbn [map] in *. rewrite commas_cons2 in *. rewrite app_length in Hf. cbn [length] in Hf.
    rewrite <- app_assoc. cbn [app]. rewrite Hone; [|done|done|done|lia|done|done].
    rewrite skip_ws_head by done. rewrite hd_is_ne by done. rewrite hd_is_cons.
    rewrite IH; [done|done|done|lia|done].
Qed.

Lemma jdepth_arr l d : (jdepth (JArr l) <= S d)%nat <-> Forall (fun v => jdepth v <= d)%nat l.
Proof.
  cbn [jdepth]. rewrite <- Nat.succ_le_mono. induction l as [|v l IH]; cbn.
  - split; [constructor|lia].
  - rewrite Nat.max_lub_iff, IH, list.Forall_cons. done.
Qed.
Lemma jdepth_obj m d : (jdepth (JObj m) <= S d)%nat <-> Forall (fun kv => jdepth (snd kv) <= d)%nat m.
Proof.
  cbn [jdepth]. rewrite <- Nat.succ_le_mono. induction m as [|v m IH]; cbn.
  - split; [constructor|lia].
  - rewrite Nat.max_lub_iff, IH, list.Forall_cons. done.
Qed.

Lemma pval_print v : parses v.
Proof.
  induction v as [|b|z|lit|s|l Hl|m Hm] using json_ind2; intros Hok f d rest Hf Hd Hr.
  - destruct f as [|f]; [cbn in Hf; lia|]. rewrite pval_S. reflexivity.
  - destruct f as [|f]; [destruct b; cbn in Hf; lia|]. rewrite pval_S. destruct b; reflexivity.
  - cbn [json_ok] in Hok. apply andb_true_iff in Hok as [H1 H2]. cbn [print] in *.
    destruct (print_int_tok z) as (neg & ip & E & Ht & Hv); [lia|]. rewrite E in *.
    destruct (num_text_head _ _ _ _ Ht) as (c & r & E' & Hc).
    rewrite E' in Hf |- *. destruct f as [|f]; [cbn in Hf; lia|].
    cbn [app]. rewrite pval_num by done. rewrite app_comm_cons, <- E', <- Hv.
    apply pnum_tok; [done|by apply nstop_num_rest].
  - cbn [json_ok] in Hok. cbn [print] in *.
    apply float_lit_ok_tok in Hok as (neg & ip & fr & ex & E & Ht & Hv).
    destruct (num_text_head _ _ _ _ Ht) as (c & r & E' & Hc). rewrite <- Hv.
    rewrite E, E' in Hf |- *. destruct f as [|f]; [cbn in Hf; lia|].
    cbn [app]. rewrite pval_num by done. rewrite app_comm_cons, <- E'.
    apply pnum_tok; [done|by apply nstop_num_rest].
  - cbn [print] in *. destruct f as [|f]; [cbn in Hf; lia|]. rewrite pval_S.
    unfold print_string. cbn [app]. rewrite skip_ws_head by done. cbv zeta.
    change (Z_of_byte quote) with 34. cbn [Z.eqb Pos.eqb].
    rewrite <- app_assoc. cbn [app]. by rewrite pstring_print.
  - cbn [print] in *. destruct f as [|f]; [cbn in Hf; lia|]. rewrite pval_S.
    cbn [app]. rewrite skip_ws_head by done. cbv zeta.
    change (Z_of_byte "["%char) with 91. cbn [Z.eqb Pos.eqb orb].
    change (is_digit "["%char) with false. cbn iota.
    destruct d as [|[|d]]; [lia|cbn in Hd; lia|].
    assert (Forall (fun v => jdepth v < S d)%nat l) as Hds.
    { assert (jdepth (JArr l) <= S d)%nat as Hd' by lia.
      apply jdepth_arr in Hd'. eapply list.Forall_impl; [exact Hd'|]. cbn. lia. }
    destruct l as [|v l]; [reflexivity|].
    assert (exists c r, commas (map print (v :: l)) = c :: r /\ is_ws c = false
      /\ c <> "]"%char) as (c & r & E & Hw & Hc).
    { cbn [json_ok forallb] in Hok. apply andb_true_iff in Hok as [Hv _].
      destruct (print_head v Hv) as (c & r & E & ?). destruct l as [|w l].
      - cbn. rewrite E. by eexists _, _.
      - cbn [map]. rewrite commas_cons2, E. by eexists _, _. }
    rewrite <- app_assoc.
    assert (skip_ws (commas (map print (v :: l)) ++ B "]" ++ rest)
      = commas (map print (v :: l)) ++ "]"%char :: rest) as ->.
    { rewrite E. cbn [app]. by rewrite skip_ws_head. }
    assert (hd_is "]"%char (commas (map print (v :: l)) ++ "]"%char :: rest) = None) as ->.
    { rewrite E. cbn [app]. by rewrite hd_is_ne. }
    rewrite pelems_print; [done|done|done|done| |done].
    cbn [length] in Hf. rewrite app_length in Hf. cbn [length B list_ascii_of_string] in Hf. lia.
  - cbn [print] in *. destruct f as [|f]; [cbn in Hf; lia|]. rewrite pval_S.
    cbn [app]. rewrite skip_ws_head by done. cbv zeta.
    change (Z_of_byte "{"%char) with 123. cbn [Z.eqb Pos.eqb orb].
    change (is_digit "{"%char) with false. cbn iota.
    destruct d as [|[|d]]; [lia|cbn in Hd; lia|].
    assert (Forall (fun kv => jdepth (snd kv) < S d)%nat m) as Hds.
    { assert (jdepth (JObj m) <= S d)%nat as Hd' by lia.
      apply jdepth_obj in Hd'. eapply list.Forall_impl; [exact Hd'|]. cbn. lia. }
    change (map (fun kv => print_string (fst kv) ++ ":"%char :: print (snd kv)) m)
      with (map print_kv m) in *.
    destruct m as [|kv m]; [reflexivity|].
    assert (exists r, commas (map print_kv (kv :: m)) = quote :: r) as (r & E).
    { destruct m as [|w m]; [by eexists|]. cbn [map]. rewrite commas_cons2. by eexists. }
    rewrite <- app_assoc.
    assert (skip_ws (commas (map print_kv (kv :: m)) ++ B "}" ++ rest)
      = commas (map print_kv (kv :: m)) ++ "}"%char :: rest) as ->.
    { rewrite E. cbn [app]. by rewrite skip_ws_head. }
    assert (hd_is "}"%char (commas (map print_kv (kv :: m)) ++ "}"%char :: rest) = None) as ->.
    { rewrite E. cbn [app]. by rewrite hd_is_ne. }
    rewrite pmembers_print; [done|done|done|done| |done].
    cbn [length] in Hf. rewrite app_length in Hf. cbn [length B list_ascii_of_string] in Hf. lia.
Qed.

Lemma parse_print v : json_ok v = true -> (jdepth v <= 127)%nat -> parse (print v) = Some v.
Proof.
  intros Hok Hd. unfold parse. rewrite <- (app_nil_r (print v)) at 2.
  rewrite pval_print; [done|done|lia|lia|done].
Qed.
