(** More facts about Json.v: text after a parsed value is irrelevant, hence no
    proper prefix of a printed object parses; what the parser returns. *)
From Verif Require Import Json BaseFacts JsonFacts.

Lemma hex4_app s n r t : hex4 s = Some (n, r) -> hex4 (s ++ t) = Some (n, r ++ t).
Proof.
  destruct s as [|a [|b [|c [|d s]]]]; try done. cbn [hex4 app].
  repeat (destruct (hex_val _); [|done]). by intros [= <- <-].
Qed.
Lemma pescape_alt s :
  pescape s = match s with
  | c :: r =>
      let z := Z_of_byte c in
      if z =? 34 then Some ([byte_of_Z 34], r)
      else if z =? 92 then Some ([byte_of_Z 92], r)
      else if z =? 47 then Some ([byte_of_Z 47], r)
      else if z =? 98 then Some ([byte_of_Z 8], r)
      else if z =? 102 then Some ([byte_of_Z 12], r)
      else if z =? 110 then Some ([byte_of_Z 10], r)
      else if z =? 114 then Some ([byte_of_Z 13], r)
      else if z =? 116 then Some ([byte_of_Z 9], r)
      else if z =? 117 then
        match hex4 r with
        | None => None
        | Some (n, r') =>
            if (56320 <=? n) && (n <=? 57343) then None
            else if (55296 <=? n) && (n <=? 56319) then
              match hd_is "\"%char r' with
              | Some ru =>
                  match hd_is "u"%char ru with
                  | Some r'' =>
                      match hex4 r'' with
                      | Some (n2, r3) =>
                          if (56320 <=? n2) && (n2 <=? 57343)
                          then Some (utf8 (65536 + (n - 55296) * 1024 + (n2 - 56320)), r3)
                          else None
                      | None => None
                      end
                  | None => None
                  end
              | None => None
              end
            else Some (utf8 n, r')
        end
      else None
  | [] => None
  end.
Proof.
  destruct s as [|c r]; [done|]. cbn [pescape]. cbv zeta.
  do 8 (destruct (_ =? _); [reflexivity|]). destruct (_ =? 117); [|reflexivity].
  destruct (hex4 r) as [[n r']|]; [|reflexivity].
  destruct (_ && _); [reflexivity|]. destruct (_ && _); [|reflexivity].
  assert (forall (X : bytes -> option (bytes * bytes)) w,
    match w with "\"%char :: "u"%char :: r2 => X r2 | _ => None end
    = match hd_is "\"%char w with
      | Some ru => match hd_is "u"%char ru with Some r2 => X r2 | None => None end
      | None => None end) as HX.
  { intros X w. destruct w as [|[[] [] [] [] [] [] [] []] w]; try reflexivity. bytecases w. }
  rewrite HX. done.
Qed.
Lemma pescape_app s u r t : pescape s = Some (u, r) -> pescape (s ++ t) = Some (u, r ++ t).
Proof.
  rewrite !pescape_alt. destruct s as [|c s]; [done|]. cbn [app]. cbv zeta.
  do 8 (destruct (_ =? _); [by intros [= <- <-]|]). destruct (_ =? 117); [|done].
  destruct (hex4 s) as [[n r']|] eqn:E; [|done]. rewrite (hex4_app _ _ _ t E).
  destruct (_ && _); [done|]. destruct (_ && _); [|by intros [= <- <-]].
  destruct (hd_is "\"%char r') as [ru|] eqn:E1; [|done]. rewrite (hd_is_app _ _ t _ E1).
  destruct (hd_is "u"%char ru) as [r''|] eqn:E2; [|done]. rewrite (hd_is_app _ _ t _ E2).
  destruct (hex4 r'') as [[n2 r3]|] eqn:E3; [|done]. rewrite (hex4_app _ _ _ t E3).
  destruct (_ && _); [|done]. by intros [= <- <-].
Qed.
Lemma pstr_app f s u r t f' : pstr f s = Some (u, r) -> (f <= f')%nat ->
  pstr f' (s ++ t) = Some (u, r ++ t).
Proof.
  revert f' s u r. induction f as [|f IH]; intros f' s u r; [done|].
  intros H Hf. destruct f' as [|f']; [lia|]. apply le_S_n in Hf.
  revert H. destruct s as [|c s]; [done|]. cbn [pstr app]. cbv zeta.
  destruct (_ =? 34); [by intros [= <- <-]|].
  destruct (_ =? 92).
  - destruct (pescape s) as [[u1 r1]|] eqn:E; [|done]. rewrite (pescape_app _ _ _ t E).
    destruct (pstr f r1) as [[u2 r2]|] eqn:E2; [|done]. rewrite (IH f' _ _ _ E2) by done.
    by intros [= <- <-].
  - destruct (_ <? 32); [done|].
    destruct (pstr f s) as [[u2 r2]|] eqn:E2; [|done]. rewrite (IH f' _ _ _ E2) by done.
    by intros [= <- <-].
Qed.
Lemma pstring_app s u r t : pstring s = Some (u, r) -> pstring (s ++ t) = Some (u, r ++ t).
Proof.
  unfold pstring. destruct (pstr (length s) s) as [[u' r']|] eqn:E; [|done].
  rewrite (pstr_app _ _ _ _ t (length (s ++ t)) E) by (rewrite app_length; lia). destruct (utf8_ok u'); [|done].
  by intros [= -> ->].
Qed.
Lemma pstring_utf8 s u r : pstring s = Some (u, r) -> utf8_ok u = true.
Proof. unfold pstring. destruct (pstr _ _) as [[u' r']|]; [|done]. destruct (utf8_ok u') eqn:E; [|done]. by intros [= <- _]. Qed.
Lemma pword_app w v s x r t : pword w v s = Some (x, r) -> pword w v (s ++ t) = Some (x, r ++ t).
Proof.
  unfold pword. destruct (strip_prefix w s) as [r'|] eqn:E; [|done].
  apply strip_prefix_Some in E as ->. intros [= <- <-]. rewrite <- app_assoc.
  by rewrite strip_prefix_app.
Qed.

Definition is_num (v : json) : bool := match v with JInt _ | JFloat _ => true | _ => false end.

Definition ext_val (f : nat) : Prop := forall d s v r, pval f d s = Some (v, r) ->
  forall f' t, (f <= f')%nat -> r <> [] \/ nstop t \/ is_num v = false ->
  pval f' d (s ++ t) = Some (v, r ++ t).
Definition ext_elems (f : nat) : Prop := forall d s l r, pelems f d s = Some (l, r) ->
  forall f' t, (f <= f')%nat -> pelems f' d (s ++ t) = Some (l, r ++ t).
Definition ext_members (f : nat) : Prop := forall d s l r, pmembers f d s = Some (l, r) ->
  forall f' t, (f <= f')%nat -> pmembers f' d (s ++ t) = Some (l, r ++ t).

Lemma hd_is_skip_nonempty c s r : hd_is c (skip_ws s) = Some r -> s <> [] /\ skip_ws s <> [].
Proof. intros H. apply hd_is_Some in H. split; intros E; [by subst|by rewrite E in H]. Qed.
Lemma hd_is_skip_app c s r t :
  hd_is c (skip_ws s) = Some r -> hd_is c (skip_ws (s ++ t)) = Some (r ++ t).
Proof.
  intros H. destruct (hd_is_skip_nonempty _ _ _ H) as [_ Hn].
  rewrite skip_ws_app by done. by apply hd_is_app.
Qed.
Lemma hd_is_skip_app_None c s t :
  skip_ws s <> [] -> hd_is c (skip_ws s) = None -> hd_is c (skip_ws (s ++ t)) = None.
Proof. intros Hn H. rewrite skip_ws_app by done. by apply hd_is_app_None. Qed.

Lemma pval_nil f d s : skip_ws s = [] -> pval f d s = None.
Proof. intros H. destruct f; [done|]. by rewrite pval_S, H. Qed.
Lemma skip_ws_idem s : skip_ws (skip_ws s) = skip_ws s.
Proof. induction s as [|c s IH]; [done|]. cbn. destruct (is_ws c) eqn:E; [done|]. cbn. by rewrite E. Qed.
Lemma pelems_nonempty f d s l r : pelems f d s = Some (l, r) -> skip_ws s <> [].
Proof. destruct f; [done|]. rewrite pelems_S. intros H E. by rewrite pval_nil in H. Qed.
Lemma pmembers_nonempty f d s l r : pmembers f d s = Some (l, r) -> skip_ws s <> [].
Proof. destruct f; [done|]. rewrite pmembers_S. intros H E. by rewrite E in H. Qed.

Lemma extend f : ext_val f /\ ext_elems f /\ ext_members f.
Proof.
  induction f as [|f (IHv & IHe & IHm)]; [repeat split; intros ?????; done|].
  repeat split.
  - intros d s v r H f' t Hf Hc. destruct f' as [|f']; [lia|]. apply le_S_n in Hf.
    rewrite pval_S in H |- *.
    destruct (skip_ws s) as [|c w] eqn:Es; [done|].
    rewrite skip_ws_app by (by rewrite Es). rewrite Es. cbn [app]. cbv zeta in *.
    destruct (_ =? 110); [by apply pword_app|].
    destruct (_ =? 116); [by apply pword_app|].
    destruct (_ =? 102); [by apply pword_app|].
    destruct (_ =? 34).
    { destruct (pstring w) as [[u r']|] eqn:E; [|done]. injection H as <- <-.
      by rewrite (pstring_app _ _ _ t E). }
    destruct (_ || _).
    { rewrite app_comm_cons. apply pnum_app; [done|].
      destruct Hc as [Hc|[Hc|Hc]]; [by left|by right|]. exfalso.
      apply pnum_inv in H as (? & ? & ? & ? & _ & _ & _ & ->). revert Hc.
      unfold num_val. cbv zeta. by destruct (_ && _). }
    destruct (_ =? 91).
    { destruct d as [|[|d]]; [done|done|].
      destruct (hd_is _ (skip_ws w)) as [r'|] eqn:E.
      { injection H as <- <-. by rewrite (hd_is_skip_app _ _ _ t E). }
      destruct (pelems f (S d) (skip_ws w)) as [[l r'']|] eqn:E2; [|done].
      injection H as <- <-. pose proof (pelems_nonempty _ _ _ _ _ E2) as Hn.
      rewrite skip_ws_idem in Hn.
      rewrite hd_is_skip_app_None by done. rewrite skip_ws_app by done.
      by rewrite (IHe _ _ _ _ E2 f' t Hf). }
    destruct (_ =? 123); [|done].
    destruct d as [|[|d]]; [done|done|].
    destruct (hd_is _ (skip_ws w)) as [r'|] eqn:E.
    { injection H as <- <-. by rewrite (hd_is_skip_app _ _ _ t E). }
    destruct (pmembers f (S d) (skip_ws w)) as [[l r'']|] eqn:E2; [|done].
    injection H as <- <-. pose proof (pmembers_nonempty _ _ _ _ _ E2) as Hn.
    rewrite skip_ws_idem in Hn.
    rewrite hd_is_skip_app_None by done. rewrite skip_ws_app by done.
    by rewrite (IHm _ _ _ _ E2 f' t Hf).
  - intros d s l r H f' t Hf. destruct f' as [|f']; [lia|]. apply le_S_n in Hf.
    rewrite pelems_S in H |- *.
    destruct (pval f d s) as [[v w]|] eqn:E; [|done].
    destruct (hd_is "]"%char (skip_ws w)) as [r'|] eqn:E1.
    { injection H as <- <-. destruct (hd_is_skip_nonempty _ _ _ E1) as [Hn _].
      rewrite (IHv _ _ _ _ E f' t Hf) by auto. by rewrite (hd_is_skip_app _ _ _ t E1). }
    destruct (hd_is ","%char (skip_ws w)) as [r'|] eqn:E2; [|done].
    destruct (pelems f d r') as [[l' r'']|] eqn:E3; [|done]. injection H as <- <-.
    destruct (hd_is_skip_nonempty _ _ _ E2) as [Hn Hn'].
    rewrite (IHv _ _ _ _ E f' t Hf) by auto.
    rewrite (hd_is_skip_app_None _ _ t Hn' E1), (hd_is_skip_app _ _ _ t E2).
    by rewrite (IHe _ _ _ _ E3 f' t Hf).
  - intros d s l r H f' t Hf. destruct f' as [|f']; [lia|]. apply le_S_n in Hf.
    rewrite pmembers_S in H |- *.
    destruct (hd_is quote (skip_ws s)) as [r0|] eqn:E0; [|done].
    rewrite (hd_is_skip_app _ _ _ t E0).
    destruct (pstring r0) as [[k r1]|] eqn:Ek; [|done]. rewrite (pstring_app _ _ _ t Ek).
    destruct (hd_is ":"%char (skip_ws r1)) as [r2|] eqn:Ec; [|done].
    rewrite (hd_is_skip_app _ _ _ t Ec).
    destruct (pval f d r2) as [[v w]|] eqn:E; [|done].
    destruct (hd_is "}"%char (skip_ws w)) as [r'|] eqn:E1.
    { injection H as <- <-. destruct (hd_is_skip_nonempty _ _ _ E1) as [Hn _].
      rewrite (IHv _ _ _ _ E f' t Hf) by auto. by rewrite (hd_is_skip_app _ _ _ t E1). }
    destruct (hd_is ","%char (skip_ws w)) as [r'|] eqn:E2; [|done].
    destruct (pmembers f d r') as [[l' r'']|] eqn:E3; [|done]. injection H as <- <-.
    destruct (hd_is_skip_nonempty _ _ _ E2) as [Hn Hn'].
    rewrite (IHv _ _ _ _ E f' t Hf) by auto.
    rewrite (hd_is_skip_app_None _ _ t Hn' E1), (hd_is_skip_app _ _ _ t E2).
    by rewrite (IHm _ _ _ _ E3 f' t Hf).
Qed.

(** A prefix of a printed object or array that parses is the whole text. *)
Lemma parse_prefix v p q w : json_ok v = true -> (jdepth v <= 127)%nat -> is_num v = false ->
  print v = p ++ q -> parse p = Some w -> q = [] /\ w = v.
Proof.
  intros Hok Hd Hn E. unfold parse.
  destruct (pval (S (length p)) 128 p) as [[x r]|] eqn:Ep; [|done].
  destruct (skip_ws r) eqn:Er; [|done]. intros [= ->].
  assert (is_num w = false) as Hw.
  { pose proof (print_head v Hok) as (c & rr & Ec & Hws & _).
    destruct p as [|c' p]; [done|]. rewrite Ec in E. injection E as <- E.
    rewrite pval_S in Ep. rewrite skip_ws_head in Ep by done. cbv zeta in Ep.
    assert ((Z_of_byte c =? 45) || is_digit c = false) as Hc.
    { revert Ec Hn. destruct v as [|[]|z|lit|s|l|m]; try done; cbn [print];
        intros [= <- _] _; reflexivity. }
    rewrite Hc in Ep.
    revert Ep. unfold pword.
    destruct (_ =? 110); [destruct (strip_prefix _ _); [by intros [= <- _]|done]|].
    destruct (_ =? 116); [destruct (strip_prefix _ _); [by intros [= <- _]|done]|].
    destruct (_ =? 102); [destruct (strip_prefix _ _); [by intros [= <- _]|done]|].
    destruct (_ =? 34); [destruct (pstring _) as [[? ?]|]; [by intros [= <- _]|done]|].
    destruct (_ =? 91).
    { destruct (hd_is _ _); [by intros [= <- _]|].
      destruct (pelems _ _ _) as [[? ?]|]; [by intros [= <- _]|done]. }
    destruct (_ =? 123); [|done].
    destruct (hd_is _ _); [by intros [= <- _]|].
    destruct (pmembers _ _ _) as [[? ?]|]; [by intros [= <- _]|done]. }
  destruct (extend (S (length p))) as (Hx & _ & _).
  specialize (Hx _ _ _ _ Ep (S (length (p ++ q))) q).
  assert (pval (S (length (p ++ q))) 128 (p ++ q) = Some (v, [])) as Hv.
  { rewrite <- E. rewrite <- (app_nil_r (print v)) at 2. apply pval_print; [done|lia|lia|done]. }
  rewrite Hv in Hx. rewrite app_length in Hx. specialize (Hx ltac:(lia) ltac:(auto)).
  injection Hx as -> H. symmetry in H. apply app_eq_nil in H as [_ ->]. done.
Qed.

(** ** Parsed values *)

Lemma parsed_ok f :
  (forall d s v r, pval f d s = Some (v, r) -> json_ok v = true /\ (jdepth v <= d - 1)%nat)
  /\ (forall d s l r, pelems f d s = Some (l, r) ->
      Forall (fun v => json_ok v = true /\ (jdepth v <= d - 1)%nat) l)
  /\ (forall d s m r, pmembers f d s = Some (m, r) ->
      Forall (fun kv => utf8_ok (fst kv) && json_ok (snd kv) = true /\ (jdepth (snd kv) <= d - 1)%nat) m).
Proof.
  induction f as [|f (IHv & IHe & IHm)]; [repeat split; intros; done|].
  split; [|split].
  - intros d s v r. rewrite pval_S. destruct (skip_ws s) as [|c w]; [done|]. cbv zeta.
    unfold pword.
    do 3 (destruct (_ =? _); [destruct (strip_prefix _ _); [intros [= <- _]; cbn; split; [done|lia]|done]|]).
    destruct (_ =? 34).
    { destruct (pstring _) as [[? ?]|] eqn:E; [|done]. apply pstring_utf8 in E. intros [= <- _]. cbn. split; [done|lia]. }
    destruct (_ || _).
    { intros H. split; [by eapply pnum_ok|].
      apply pnum_inv in H as (? & ? & ? & ? & _ & _ & _ & ->).
      unfold num_val. cbv zeta. destruct (_ && _); cbn; lia. }
    destruct (_ =? 91).
    { destruct d as [|[|d]]; [done|done|].
      destruct (hd_is _ _); [intros [= <- _]; cbn; split; [done|lia]|].
      destruct (pelems _ _ _) as [[l r'']|] eqn:E; [|done]. intros [= <- _].
      apply IHe in E. apply list.Forall_and in E as [E1 E2].
      split; [cbn; by apply forallb_Forall|]. replace (S (S d) - 1)%nat with (S d) by lia.
      apply jdepth_arr. eapply list.Forall_impl; [exact E2|]. cbn. lia. }
    destruct (_ =? 123); [|done].
    destruct d as [|[|d]]; [done|done|].
    destruct (hd_is _ _); [intros [= <- _]; cbn; split; [done|lia]|].
    destruct (pmembers _ _ _) as [[l r'']|] eqn:E; [|done]. intros [= <- _].
    apply IHm in E. apply list.Forall_and in E as [E1 E2].
    split; [cbn; by apply forallb_Forall|]. replace (S (S d) - 1)%nat with (S d) by lia.
    apply jdepth_obj. eapply list.Forall_impl; [exact E2|]. cbn. lia.
  - intros d s l r. rewrite pelems_S.
    destruct (pval f d s) as [[v w]|] eqn:E; [|done]. apply IHv in E.
    destruct (hd_is _ _); [intros [= <- _]; constructor; [done|constructor]|].
    destruct (hd_is _ _); [|done]. destruct (pelems f d _) as [[l' r'']|] eqn:E3; [|done].
    intros [= <- _]. constructor; [done|by eapply IHe].
  - intros d s l r. rewrite pmembers_S.
    destruct (hd_is _ _); [|done]. destruct (pstring _) as [[k r1]|] eqn:Ek; [|done]. apply pstring_utf8 in Ek.
    destruct (hd_is _ _); [|done].
    destruct (pval f d _) as [[v w]|] eqn:E; [|done]. apply IHv in E as [E E'].
    assert (utf8_ok (k, v).1 && json_ok (k, v).2 = true /\ (jdepth (k, v).2 <= d - 1)%nat) as KV by (cbn; by rewrite Ek, E).
    destruct (hd_is _ _); [intros [= <- _]; constructor; [done|constructor]|].
    destruct (hd_is _ _); [|done]. destruct (pmembers f d _) as [[l' r'']|] eqn:E3; [|done].
    intros [= <- _]. constructor; [done|by eapply IHm].
Qed.
Lemma parse_ok s v : parse s = Some v -> json_ok v = true /\ (jdepth v <= 127)%nat.
Proof.
  unfold parse. destruct (pval _ _ _) as [[w r]|] eqn:E; [|done].
  destruct (skip_ws r); [|done]. intros [= <-]. by eapply parsed_ok in E.
Qed.

(** ** Maps *)

Lemma bcmp_eq a b : bcmp a b = Eq <-> a = b.
Proof.
  revert b. induction a as [|x a IH]; intros [|y b]; cbn; try done.
  destruct (Z.compare_spec (Z_of_byte x) (Z_of_byte y)) as [E|E|E].
  - apply Z_of_byte_inj in E as ->. rewrite IH. split; congruence.
  - split; [done|]. intros [= -> ->]. lia.
  - split; [done|]. intros [= -> ->]. lia.
Qed.
Lemma bcmp_antisym a b : bcmp b a = CompOpp (bcmp a b).
Proof.
  revert b. induction a as [|x a IH]; intros [|y b]; cbn; try done.
  rewrite (Z.compare_antisym (Z_of_byte x)). destruct (_ ?= _); cbn; [apply IH|done|done].
Qed.
Lemma bcmp_lt_trans a b c : bcmp a b = Lt -> bcmp b c = Lt -> bcmp a c = Lt.
Proof.
  revert b c. induction a as [|x a IH]; intros [|y b] [|z c]; cbn; try done.
  destruct (Z.compare_spec (Z_of_byte x) (Z_of_byte y)) as [E1|E1|E1];
  destruct (Z.compare_spec (Z_of_byte y) (Z_of_byte z)) as [E2|E2|E2]; try done;
  destruct (Z.compare_spec (Z_of_byte x) (Z_of_byte z)) as [E3|E3|E3]; try done; try lia.
  apply IH.
Qed.
Definition blt (a b : bytes) : Prop := bcmp a b = Lt.
Lemma blt_irrefl a : ~ blt a a.
Proof. unfold blt. intros H. assert (bcmp a a = Eq) by by apply bcmp_eq. congruence. Qed.
Lemma bcmp_gt a b : bcmp a b = Gt <-> blt b a.
Proof. unfold blt. rewrite (bcmp_antisym a b). by destruct (bcmp a b). Qed.

Section maps.
  Context {A : Type}.
  Implicit Types m : list (bytes * A).

  Definition below (k : bytes) m : Prop := Forall (fun kv => blt k (fst kv)) m.
  Inductive sorted : list (bytes * A) -> Prop :=
    | sorted_nil : sorted []
    | sorted_cons k v m : below k m -> sorted m -> sorted ((k, v) :: m).

  Lemma keys_sorted_spec m : keys_sorted m = true <-> sorted m.
  Proof.
    induction m as [|[k v] m IH]; [split; [constructor|done]|].
    cbn [keys_sorted]. destruct m as [|[k' v'] m].
    - split; [|done]. intros _. constructor; constructor.
    - destruct (bcmp k k') eqn:E.
      1, 3: split; [done|]; intros H; inversion H as [|? ? ? Hb _]; subst;
        apply Forall_cons_1 in Hb as [Hb _]; cbn in Hb; unfold blt in Hb; congruence.
      rewrite IH. split; intros H.
      + constructor; [|done]. inversion H as [|? ? ? Hb _]; subst.
        constructor; [done|]. eapply list.Forall_impl; [exact Hb|].
        intros kv. cbn. by apply bcmp_lt_trans.
      + by inversion H.
  Qed.
  Lemma below_minsert k k' v m : blt k k' -> below k m -> below k (minsert k' v m).
  Proof.
    intros Hk. induction m as [|[k2 v2] m IH]; cbn; intros Hb.
    - constructor; [done|constructor].
    - apply Forall_cons_1 in Hb as [Hb1 Hb2].
      destruct (bcmp k' k2); repeat constructor; try done. by apply IH.
  Qed.
  Lemma minsert_sorted k v m : sorted m -> sorted (minsert k v m).
  Proof.
    induction 1 as [|k2 v2 m Hb Hs IH]; cbn.
    - constructor; [constructor|constructor].
    - destruct (bcmp k k2) eqn:E.
      + apply bcmp_eq in E as ->. by constructor.
      + constructor; [|by constructor]. constructor; [done|].
        eapply list.Forall_impl; [exact Hb|]. intros kv. cbn. by apply bcmp_lt_trans.
      + constructor; [|done]. apply below_minsert; [by apply bcmp_gt|done].
  Qed.
  Lemma mget_minsert k k' v m : sorted m ->
    mget k' (minsert k v m) = if beq k' k then Some v else mget k' m.
  Proof.
    induction 1 as [|k2 v2 m Hb Hs IH]; cbn; [done|].
    destruct (bcmp k k2) eqn:E; cbn.
    - apply bcmp_eq in E as ->. by destruct (beq k' k2).
    - done.
    - rewrite IH. destruct (beq k' k2) eqn:E2; [|done].
      apply beq_true in E2 as ->. destruct (beq k2 k) eqn:E3; [|done].
      apply beq_true in E3 as ->. apply bcmp_gt in E. by apply blt_irrefl in E.
  Qed.
  Lemma below_mget k m : below k m -> mget k m = None.
  Proof.
    induction 1 as [|[k2 v2] m Hk Hb IH]; cbn; [done|].
    destruct (beq k k2) eqn:E; [|done]. apply beq_true in E as ->. by apply blt_irrefl in Hk.
  Qed.
  Lemma minsert_below k v m : Forall (fun kv => blt (fst kv) k) m ->
    minsert k v m = m ++ [(k, v)].
  Proof.
    induction 1 as [|[k2 v2] m Hk _ IH]; cbn; [done|].
    apply bcmp_gt in Hk. cbn in Hk. by rewrite Hk, IH.
  Qed.
  Lemma mmerge_sorted_app a b : sorted (a ++ b) -> mmerge a b = a ++ b.
  Proof.
    unfold mmerge. revert a. induction b as [|[k v] b IH]; intros a Hs; cbn.
    - by rewrite app_nil_r.
    - rewrite minsert_below.
      + rewrite IH; [by rewrite <- app_assoc|by rewrite <- app_assoc].
      + clear IH. induction a as [|[k2 v2] a IH]; [done|].
        inversion Hs as [|? ? ? Hb Hs']; subst. constructor; [|by apply IH].
        apply Forall_app in Hb as [_ Hb]. by apply Forall_cons_1 in Hb as [Hb _].
  Qed.
  Lemma mmerge_nil_sorted m : sorted m -> mmerge [] m = m.
  Proof. intros. by rewrite mmerge_sorted_app. Qed.
  Lemma mmerge_sorted a b : sorted a -> sorted (mmerge a b).
  Proof.
    unfold mmerge. revert a. induction b as [|[k v] b IH]; intros a Hs; [done|].
    apply IH. by apply minsert_sorted.
  Qed.
  (** [b] wins, keys of neither are absent. *)
  Lemma mget_mmerge k a b : sorted a -> sorted b ->
    mget k (mmerge a b) = match mget k b with Some v => Some v | None => mget k a end.
  Proof.
    intros Ha Hb. revert a Ha. unfold mmerge.
    induction Hb as [|k2 v2 m Hbl Hs IH]; intros a Ha; [done|].
    cbn [foldl fst snd mget]. rewrite IH by by apply minsert_sorted.
    rewrite mget_minsert by done. destruct (beq k k2) eqn:E; [|done].
    apply beq_true in E as ->. by rewrite below_mget.
  Qed.
  Lemma mget_elem k v m : mget k m = Some v -> (k, v) ∈ m.
  Proof.
    induction m as [|[k2 v2] m IH]; cbn; [done|]. destruct (beq k k2) eqn:E.
    - intros [= ->]. apply beq_true in E as ->. by left.
    - intros H. right. by apply IH.
  Qed.
  Lemma elem_mget k v m : sorted m -> (k, v) ∈ m -> mget k m = Some v.
  Proof.
    induction 1 as [|k2 v2 m Hb Hs IH]; intros H; [by apply elem_of_nil in H|].
    cbn. apply elem_of_cons in H as [[= -> ->]|H]; [by rewrite beq_refl|].
    destruct (beq k k2) eqn:E; [|by apply IH]. apply beq_true in E as ->.
    exfalso. unfold below in Hb. rewrite list.Forall_forall in Hb. apply Hb in H. by apply blt_irrefl in H.
  Qed.
  (** Sorted maps with the same lookups are equal. *)
  Lemma sorted_ext a b : sorted a -> sorted b -> (forall k, mget k a = mget k b) -> a = b.
  Proof.
    intros Ha. revert b. induction Ha as [|k v a Hba Ha IH]; intros b Hb H.
    - destruct b as [|[k v] b]; [done|]. specialize (H k). cbn in H. by rewrite beq_refl in H.
    - destruct Hb as [|k2 v2 b Hbb Hb].
      { specialize (H k). cbn in H. by rewrite beq_refl in H. }
      destruct (bcmp k k2) eqn:E.
      + apply bcmp_eq in E as ->. f_equal.
        * specialize (H k2). cbn in H. rewrite beq_refl in H. congruence.
        * apply IH; [done|]. intros k. specialize (H k). cbn in H.
          destruct (beq k k2) eqn:E; [|done]. apply beq_true in E as ->.
          by rewrite !below_mget.
      + exfalso. specialize (H k). cbn in H. rewrite beq_refl in H.
        destruct (beq k k2) eqn:E2.
        { apply beq_true in E2 as ->. by apply blt_irrefl in E. }
        rewrite below_mget in H; [done|]. eapply list.Forall_impl; [exact Hbb|].
        intros kv. cbn. by apply bcmp_lt_trans.
      + exfalso. apply bcmp_gt in E. specialize (H k2). cbn in H. rewrite beq_refl in H.
        destruct (beq k2 k) eqn:E2.
        { apply beq_true in E2 as ->. by apply blt_irrefl in E. }
        rewrite below_mget in H; [done|]. eapply list.Forall_impl; [exact Hba|].
        intros kv. cbn. by apply bcmp_lt_trans.
  Qed.
  Lemma Forall_minsert (P : bytes * A -> Prop) k v m :
    P (k, v) -> Forall P m -> Forall P (minsert k v m).
  Proof.
    intros Hp. induction 1 as [|[k2 v2] m H1 H2 IH]; cbn; [by repeat constructor|].
    destruct (bcmp k k2); repeat (constructor; try done).
  Qed.
  Lemma Forall_mmerge (P : bytes * A -> Prop) a b :
    Forall P a -> Forall P b -> Forall P (mmerge a b).
  Proof.
    unfold mmerge. intros Ha Hb. revert a Ha. induction Hb as [|[k v] b H1 H2 IH]; intros a Ha; [done|].
    apply IH. by apply Forall_minsert.
  Qed.
End maps.

(** ** Values *)

Lemma norm_is_value j : is_value (norm j) = true.
Proof.
  induction j as [|b|z|lit|s|l Hl|m Hm] using json_ind2; try done.
  - cbn [norm is_value]. apply forallb_Forall. by rewrite Forall_map.
  - cbn [norm is_value]. apply andb_true_iff. split.
    + apply keys_sorted_spec, mmerge_sorted. constructor.
    + apply forallb_Forall. apply Forall_mmerge; [constructor|]. by rewrite Forall_map.
Qed.
Lemma norm_value j : is_value j = true -> norm j = j.
Proof.
  induction j as [|b|z|lit|s|l Hl|m Hm] using json_ind2; try done; cbn [norm is_value].
  - rewrite forallb_Forall. intros Hv. f_equal. induction Hl as [|v l H _ IH]; [done|].
    apply Forall_cons_1 in Hv as [H1 H2]. cbn. by rewrite H, IH.
  - rewrite andb_true_iff, forallb_Forall, keys_sorted_spec. intros [Hs Hv]. f_equal.
    assert (map (fun kv => (kv.1, norm kv.2)) m = m) as ->.
    { clear Hs. induction Hm as [|[k v] m H _ IH]; [done|].
      apply Forall_cons_1 in Hv as [H1 H2]. cbn in *. by rewrite H, IH. }
    by apply mmerge_nil_sorted.
Qed.
Lemma norm_json_ok j : json_ok j = true -> json_ok (norm j) = true.
Proof.
  induction j as [|b|z|lit|s|l Hl|m Hm] using json_ind2; try done; cbn [norm json_ok];
    rewrite !forallb_Forall; intros H.
  - rewrite Forall_map. rewrite list.Forall_forall in *. intros x Hx. by apply Hl, H.
  - apply Forall_mmerge; [constructor|]. rewrite Forall_map.
    rewrite list.Forall_forall in *. intros x Hx. cbn [fst snd]. destruct (andb_prop _ _ (H x Hx)) as [-> J].
    by apply Hm.
Qed.
Lemma norm_jdepth j : (jdepth (norm j) <= jdepth j)%nat.
Proof.
  induction j as [|b|z|lit|s|l Hl|m Hm] using json_ind2; try (cbn; lia); cbn [norm].
  - apply jdepth_arr. rewrite Forall_map.
    assert (jdepth (JArr l) <= S (foldr Nat.max 0%nat (map jdepth l)))%nat as H by done.
    apply jdepth_arr in H. rewrite list.Forall_forall in *. intros x Hx.
    etransitivity; [exact (Hl x Hx)|exact (H x Hx)].
  - apply jdepth_obj. apply Forall_mmerge; [constructor|]. rewrite Forall_map.
    assert (jdepth (JObj m) <= S (foldr Nat.max 0%nat (map (fun kv => jdepth (snd kv)) m)))%nat as H by done.
    apply jdepth_obj in H. rewrite list.Forall_forall in *. intros x Hx.
    etransitivity; [exact (Hm x Hx)|exact (H x Hx)].
Qed.

Lemma json_eqb_true a b : json_eqb a b = true <-> a = b.
Proof.
  revert b. induction a as [|x|x|x|x|l Hl|m Hm] using json_ind2; intros b.
  - by destruct b.
  - destruct b; cbn; try done. rewrite eqb_true_iff. split; congruence.
  - destruct b; cbn; try done. rewrite Z.eqb_eq. split; congruence.
  - destruct b; cbn; try done. rewrite beq_true. split; congruence.
  - destruct b; cbn; try done. rewrite beq_true. split; congruence.
  - destruct b as [| | | | |l'|]; cbn [json_eqb]; try done.
    transitivity (l = l'); [|split; congruence].
    revert l'. induction Hl as [|v l Hv _ IH]; intros [|w l']; try done.
    rewrite andb_true_iff, Hv, IH. split; [intros [-> ->]; done|by intros [= -> ->]].
  - destruct b as [| | | | | |m']; cbn [json_eqb]; try done.
    transitivity (m = m'); [|split; congruence].
    revert m'. induction Hm as [|[k v] m Hv _ IH]; intros [|[k' w] m']; try done.
    cbn [snd] in Hv. rewrite !andb_true_iff, beq_true, Hv, IH. split; [intros [[-> ->] ->]; done|by intros [= -> -> ->]].
Qed.
