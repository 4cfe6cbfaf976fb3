(** Facts about DataType.v. *)
From Verif Require Import DataType Spec BaseFacts.

Lemma dtype_roundtrip d :
  (forall n, d <> DRaw n) ->
  exists d', dtype_of_string (dtype_to_string d) = Ok d'
    /\ eq_modulo_endian d d' = true
    /\ (dtype_size d <> 1 -> d' = d).
Proof.
  intros Hr. destruct d as [|s e|s e|s e|n]; [| | | |by destruct (Hr n)].
  - exists DBool. done.
  - destruct s, e; eexists; split; try (vm_compute; reflexivity); split; done.
  - destruct s, e; eexists; split; try (vm_compute; reflexivity); split; done.
  - destruct s, e; eexists; split; try (vm_compute; reflexivity); split; done.
Qed.

Lemma raw_string_rejected n : is_u64 n ->
  dtype_of_string (dtype_to_string (DRaw n)) = Err InvalidData.
Proof.
  intros Hn. unfold dtype_to_string, in_buffer.
  pose proof (show_nat_length n Hn) as Hlen.
  destruct (show_nat_spec n ltac:(apply Hn)) as (Hd & _ & Hne & _).
  destruct (show_nat n) as [|c r] eqn:E; [done|].
  cbn [length] in Hlen.
  set (s := take 32 (_ ++ _)).
  assert (exists z, s = "r"%char :: (c :: r) ++ "000"%char :: z) as [z Hs].
  { unfold s. rewrite take_app_ge by (cbn [length]; lia).
    destruct (32 - length ("r"%char :: c :: r))%nat as [|k] eqn:Ek; [cbn [length] in Ek; lia|].
    change (replicate 32 Ascii.zero) with ("000"%char :: replicate 31 Ascii.zero).
    cbn [take app]. by eexists. }
  clearbody s. subst s.
  unfold dtype_of_string.
  assert (is_digit c = true) as Hc by (by inversion Hd).
  cbn [app]. rewrite !(proj2 (beq_false _ _)) by (intros [=]).
  cbn [starts_with B String.list_ascii_of_string].
  rewrite bool_decide_eq_true_2 by done. cbn [andb drop].
  unfold parse_usize.
  rewrite bool_decide_eq_false_2 by (by apply is_digit_not_plus).
  assert (forallb is_digit (c :: r ++ "000"%char :: z) = false) as ->; [|done].
  apply not_true_iff_false. intros H%forallb_Forall.
  apply list.Forall_cons in H as [_ H]. apply list.Forall_app in H as [_ H].
  apply list.Forall_cons in H as [H _]. done.
Qed.

(** ** When parsing panics *)
Definition int_size_chars : list byte := ["1"; "2"; "4"; "8"]%char.
Definition float_size_chars : list byte := ["2"; "4"; "8"]%char.

Lemma int_size_of_char_None c : int_size_of_char c = None <-> c ∉ int_size_chars.
Proof.
  unfold int_size_chars. split.
  - intros H Hin. repeat (apply elem_of_cons in Hin as [->|Hin]; [by cbn in H|]). by apply elem_of_nil in Hin.
  - intros H. destruct (int_size_of_char c) eqn:E; [|done]. exfalso. apply H.
    destruct c as [[] [] [] [] [] [] [] []]; cbn in E; try discriminate; set_solver.
Qed.
Lemma float_size_of_char_None c : float_size_of_char c = None <-> c ∉ float_size_chars.
Proof.
  unfold float_size_chars. split.
  - intros H Hin. repeat (apply elem_of_cons in Hin as [->|Hin]; [by cbn in H|]). by apply elem_of_nil in Hin.
  - intros H. destruct (float_size_of_char c) eqn:E; [|done]. exfalso. apply H.
    destruct c as [[] [] [] [] [] [] [] []]; cbn in E; try discriminate; set_solver.
Qed.
Lemma endian_of_char_None c : endian_of_char c = None <-> c <> ">"%char /\ c <> "<"%char.
Proof.
  split.
  - intros H. split; intros ->; by cbn in H.
  - intros [H1 H2]. destruct (endian_of_char c) eqn:E; [|done]. exfalso.
    destruct c as [[] [] [] [] [] [] [] []]; cbn in E; congruence.
Qed.

Lemma dtype_of_string_panic v :
  dtype_of_string v = Panic <->
  exists c0 c1 c2, v = [c0; c1; c2] /\ c0 <> "r"%char /\
    ((c0 <> ">"%char /\ c0 <> "<"%char)
     \/ ((c1 = "i"%char \/ c1 = "u"%char) /\ c2 ∉ int_size_chars)
     \/ (c1 = "f"%char /\ c2 ∉ float_size_chars)).
Proof.
  unfold dtype_of_string.
  destruct (beq v (B "bool")) eqn:E1; [apply beq_true in E1 as ->; split; [done|by intros (?&?&?&[=]&_)]|].
  destruct (beq v (B "i1")) eqn:E2; [apply beq_true in E2 as ->; split; [done|by intros (?&?&?&[=]&_)]|].
  destruct (beq v (B "u1")) eqn:E3; [apply beq_true in E3 as ->; split; [done|by intros (?&?&?&[=]&_)]|].
  destruct (starts_with (B "r") v) eqn:E4.
  { split.
    - destruct (parse_usize (drop 1 v)) as [z|]; [|done]. by destruct (z mod 8 =? 0).
    - intros (c0&c1&c2&->&Hr&_). cbn in E4. rewrite bool_decide_eq_false_2 in E4 by done. done. }
  destruct v as [|c0 [|c1 [|c2 [|c3 v]]]]; try (split; [done|by intros (?&?&?&[=]&_)]).
  assert (c0 <> "r"%char) as Hr.
  { intros ->. by cbn in E4. }
  clear E1 E2 E3 E4.
  assert (forall P, (exists c3 c4 c5, [c0;c1;c2] = [c3;c4;c5] /\ P c3 c4 c5) <-> P c0 c1 c2) as Hex.
  { intros P. split; [by intros (?&?&?&[= <- <- <-]&?)|]. intros; by exists c0, c1, c2. }
  rewrite (Hex (fun c0 c1 c2 => c0 ≠ "r"%char
      ∧ (c0 ≠ ">"%char ∧ c0 ≠ "<"%char
         ∨ (c1 = "i"%char ∨ c1 = "u"%char) ∧ c2 ∉ int_size_chars
           ∨ c1 = "f"%char ∧ c2 ∉ float_size_chars))).
  destruct (endian_of_char c0) as [e|] eqn:Ee.
  2:{ split; [|done]. intros _. split; [done|]. left. by apply endian_of_char_None. }
  assert (~ (c0 ≠ ">"%char ∧ c0 ≠ "<"%char)) as He.
  { intros H. apply endian_of_char_None in H. congruence. }
  rewrite <- int_size_of_char_None, <- float_size_of_char_None.
  destruct (ascii_dec c1 "i"%char) as [->|Hi].
  { destruct (int_size_of_char c2) eqn:E; naive_solver. }
  destruct (ascii_dec c1 "u"%char) as [->|Hu].
  { destruct (int_size_of_char c2) eqn:E; naive_solver. }
  destruct (ascii_dec c1 "f"%char) as [->|Hf].
  { destruct (float_size_of_char c2) eqn:E; naive_solver. }
  split; [|naive_solver].
  intros H. exfalso. clear -H Hi Hu Hf.
  destruct c1 as [[] [] [] [] [] [] [] []]; cbn in H; congruence.
Qed.

(** ** Sizes and equivalence *)
Lemma eq_modulo_endian_refl d : eq_modulo_endian d d = true.
Proof. destruct d; cbn; try done; by apply bool_decide_eq_true_2. Qed.
Lemma eq_modulo_endian_sym a b : eq_modulo_endian a b = true -> eq_modulo_endian b a = true.
Proof. destruct a, b; cbn; try done; intros H%bool_decide_eq_true; by apply bool_decide_eq_true_2. Qed.
Lemma eq_modulo_endian_trans a b c :
  eq_modulo_endian a b = true -> eq_modulo_endian b c = true -> eq_modulo_endian a c = true.
Proof.
  destruct a, b, c; cbn; try done; intros H1%bool_decide_eq_true H2%bool_decide_eq_true;
    apply bool_decide_eq_true_2; congruence.
Qed.
Lemma eq_modulo_endian_size a b : eq_modulo_endian a b = true -> dtype_size a = dtype_size b.
Proof. destruct a, b; cbn; try done; by intros ->%bool_decide_eq_true. Qed.
Lemma zarr_type_size h t : dtype_size (zarr_type h t) = Z.of_nat (rty_size t).
Proof. by destruct t. Qed.
Lemma zarr_type_inj h t u : eq_modulo_endian (zarr_type h t) (zarr_type h u) = true -> t = u.
Proof. destruct t, u; cbn; done. Qed.

(** In the vocabulary of Spec.v. *)
Lemma eq_modulo_endian_kind a b :
  eq_modulo_endian a b = true <-> dkind a = dkind b /\ dbits a = dbits b.
Proof.
  destruct a as [|[] ?|[] ?|[] ?|?], b as [|[] ?|[] ?|[] ?|?]; cbn;
    rewrite ?bool_decide_eq_true; (split; [intros H; try discriminate H; split; congruence
      |intros [H1 H2]; congruence]).
Qed.
Lemma dtype_roundtrip_spec d :
  (forall n, d <> DRaw n) ->
  exists d', dtype_of_string (dtype_to_string d) = Ok d'
    /\ dkind d' = dkind d /\ dbits d' = dbits d
    /\ (dbits d <> 8 -> d' = d).
Proof.
  intros Hd. destruct (dtype_roundtrip d Hd) as (d' & H1 & H2 & H3).
  exists d'. split; [done|]. apply eq_modulo_endian_kind in H2 as [H4 H5].
  split; [done|]. split; [done|]. intros H. apply H3. intros H'.
  destruct d as [|[] ?|[] ?|[] ?|n]; try done. by destruct (Hd n).
Qed.
Lemma dtype_of_string_no_panic v : (length v <> 3)%nat -> dtype_of_string v <> Panic.
Proof.
  intros Hl H. apply dtype_of_string_panic in H as (? & ? & ? & -> & _). by apply Hl.
Qed.
Lemma eq_modulo_endian_spec :
  (forall d, eq_modulo_endian d d = true)
  /\ (forall a b, eq_modulo_endian a b = true -> eq_modulo_endian b a = true)
  /\ (forall a b c, eq_modulo_endian a b = true -> eq_modulo_endian b c = true ->
      eq_modulo_endian a c = true)
  /\ (forall a b, eq_modulo_endian a b = true <-> dkind a = dkind b /\ dbits a = dbits b)
  /\ (forall a b, eq_modulo_endian a b = true -> dtype_size a = dtype_size b).
Proof.
  split; [exact eq_modulo_endian_refl|]. split; [exact eq_modulo_endian_sym|].
  split; [exact eq_modulo_endian_trans|]. split; [exact eq_modulo_endian_kind|].
  exact eq_modulo_endian_size.
Qed.

Lemma dtype_size_bits d : dbits d mod 8 = 0 -> 8 * dtype_size d = dbits d.
Proof.
  destruct d as [|[]|[]|[]|n]; try done. cbn [dbits dtype_size]. intros H.
  pose proof (Z.div_mod n 8 ltac:(lia)). rewrite Z.mul_1_l. lia.
Qed.
