(** Facts about MetaJson.v: the decoders accept exactly the documents that say
    what they return (SpecDoc.v). *)
From Verif Require Import MetaJson Hier Spec SpecMeta SpecDoc SpecJson BaseFacts DataTypeFacts JsonFacts JsonPrefix
  JsonGrammar PathFacts FSFacts KeyFacts MetaJsonFacts NodeFacts OpenFacts NdSafe.
Local Open Scope Z_scope.

Lemma bind_iff {A B} (m : res A) (f : A -> res B) b :
  (m ≫= f) = Ok b <-> exists a, m = Ok a /\ f a = Ok b.
Proof.
  split; [apply bind_ok_inv|]. intros (a & -> & H). exact H.
Qed.

(** ** Members *)

Lemma keys_in k (m : jmap) : k ∉ m.*1 <-> existsb (beq k) (map fst m) = false.
Proof.
  induction m as [|[k' v] m IH]; [split; [done|intros _; apply not_elem_of_nil]|].
  cbn [fmap list_fmap map existsb fst]. rewrite not_elem_of_cons, orb_false_iff, beq_false, <- IH. done.
Qed.
Lemma field_none k m : field (B k) m = Ok None <-> lacks k (JObj m).
Proof.
  split.
  - intros H. exists m. split; [done|]. apply keys_in. revert H. unfold field.
    induction m as [|[k' v] m IH]; [done|]. rewrite filter_cons. cbn [fst map existsb].
    case_decide as E; [by destruct (filter _ m) as [|[] ?]|]. intros H.
    rewrite IH, orb_false_r by done. by destruct (beq (B k) k').
  - intros (m' & [= <-] & H). by apply field_absent, keys_in.
Qed.
Lemma field_some k m v : field (B k) m = Ok (Some v) <-> has k v (JObj m).
Proof.
  split.
  - intros H. induction m as [|[k' v'] m IH]; [done|]. destruct (beq (B k) k') eqn:E.
    + apply beq_true in E as <-. revert H. unfold field. rewrite filter_cons. cbn [fst].
      rewrite decide_True by apply beq_refl. destruct (filter _ m) as [|[] ?] eqn:Ef; [|done].
      intros [= ->]. exists [], m. split; [done|]. split; [apply not_elem_of_nil|].
      assert (field (B k) m = Ok None) as (m' & [= <-] & Hm)%field_none by (unfold field; by rewrite Ef). done.
    + rewrite field_skip in H by done. destruct (IH H) as (l1 & l2 & [= ->] & H1 & H2).
      exists ((k', v') :: l1), l2. split; [done|]. split; [|done]. cbn [fmap list_fmap fst].
      apply not_elem_of_cons. split; [by apply beq_false|done].
  - intros (l1 & l2 & [= ->] & H1 & H2). induction l1 as [|[k' v'] l1 IH].
    + cbn [app]. by apply field_hit, keys_in.
    + cbn [app]. cbn [fmap list_fmap fst] in H1. apply not_elem_of_cons in H1 as [H1 H1'].
      rewrite field_skip by by apply beq_false. by apply IH.
Qed.
Lemma required_has k m v : required (B k) m = Ok v <-> has k v (JObj m).
Proof.
  unfold required. rewrite bind_iff, <- field_some. split.
  - intros ([w|] & H1 & H2); [|done]. cbn in H2. by injection H2 as <-.
  - intros H. by exists (Some v).
Qed.
Lemma has_obj k v j : has k v j -> exists m, j = JObj m.
Proof. intros (l1 & l2 & -> & _). by eexists. Qed.
Lemma lacks_obj k j : lacks k j -> exists m, j = JObj m.
Proof. intros (m & -> & _). by eexists. Qed.
Lemma as_obj_iff j m : as_obj j = Ok m <-> j = JObj m.
Proof. destruct j; cbn; naive_solver. Qed.
Lemma as_struct_iff names req j m :
  as_struct (map B names) req j = Ok m <-> as_members names req j (JObj m).
Proof.
  unfold as_members. destruct j as [| | | | |l|m0]; cbn [as_struct]; try (split; [done|by intros [[(? & ?) _]|(? & ? & _)]]).
  - rewrite map_length. split.
    + destruct (_ && _) eqn:E; [|done]. intros [= <-]. right. exists l. split; [done|]. split; [|done].
      apply andb_true_iff in E as [E1 E2]. apply Nat.leb_le in E1, E2. lia.
    + intros [[(? & ?) _]|(l' & [= <-] & E & [= ->])]; [done|].
      by rewrite (proj2 (Nat.leb_le _ _)), (proj2 (Nat.leb_le _ _)) by lia.
  - split; [intros [= ->]; left; split; [by eexists|done]|]. by intros [[_ [= ->]]|(? & ? & _)].
Qed.
Lemma as_members_obj names req j o : as_members names req j o -> exists m, o = JObj m.
Proof. intros [[(m & ->) ->]|(l & _ & _ & ->)]; by eexists. Qed.
Lemma written_iff {A} names req (says : json -> A -> Prop) (f : jmap -> res A) j a :
  (forall m a, f m = Ok a <-> says (JObj m) a) ->
  (m ← as_struct (map B names) req j; f m) = Ok a <-> written names req says j a.
Proof.
  intros F. rewrite bind_iff. unfold written. split.
  - intros (m & Hm%as_struct_iff & Ha%F). by eexists.
  - intros (o & Ho & Ha). destruct (as_members_obj _ _ _ _ Ho) as [m ->]. exists m. split; [by apply as_struct_iff|].
    by apply F.
Qed.
Lemma as_variant_iff j w : as_variant j = Ok w <-> word j w.
Proof.
  unfold word. destruct j as [| | | |s|l|[|[k v] [|]]]; cbn [as_variant]; try naive_solver;
    destruct v; naive_solver.
Qed.
Lemma as_str_iff j s : as_str j = Ok s <-> j = JStr s.
Proof. destruct j; cbn; naive_solver. Qed.
Lemma as_bool_iff j b : as_bool j = Ok b <-> j = JBool b.
Proof. destruct j; cbn; naive_solver. Qed.
Lemma as_arr_iff j l : as_arr j = Ok l <-> j = JArr l.
Proof. destruct j; cbn; naive_solver. Qed.
Lemma as_int_iff lo hi j z : as_int lo hi j = Ok z <-> j = JInt z /\ lo <= z < hi.
Proof.
  destruct j as [| |x| | | |]; cbn; try (split; [done|intros [? _]; done]).
  destruct (_ && _) eqn:E; split.
  - intros [= ->]. split; [done|lia].
  - by intros [[= ->] _].
  - done.
  - intros [[= ->] ?]. lia.
Qed.
Lemma ints_iff lo hi l zs : mapM_res (as_int lo hi) l = Ok zs <->
  l = map JInt zs /\ Forall (fun z => lo <= z < hi) zs.
Proof.
  split.
  - intros H%mapM_res_inv. induction H as [|j z l zs H _ [-> IH]]; [split; [done|constructor]|].
    apply as_int_iff in H as [-> H]. split; [done|by constructor].
  - intros [-> H]. apply mapM_res_Forall2. induction H as [|z zs Hz _ IH]; constructor; [by apply as_int_iff|done].
Qed.
Lemma str_field k m s : (e ← required (B k) m; as_str e) = Ok s <-> has k (JStr s) (JObj m).
Proof.
  rewrite bind_iff. split.
  - intros (v & H1%required_has & ->%as_str_iff). done.
  - intros H. exists (JStr s). split; [by apply required_has|done].
Qed.

(** ** Free-form values *)

Lemma last_occurrence {A} k (m : list (bytes * A)) : k ∈ m.*1 ->
  exists l1 v l2, m = l1 ++ (k, v) :: l2 /\ k ∉ l2.*1.
Proof.
  induction m as [|[k' v] m IH]; [by intros ?%elem_of_nil|]. cbn [fmap list_fmap fst].
  intros [->|H]%elem_of_cons.
  - destruct (decide (k' ∈ m.*1)) as [H|H].
    + destruct (IH H) as (l1 & v1 & l2 & -> & Hl). by exists ((k', v) :: l1), v1, l2.
    + by exists [], v, m.
  - destruct (IH H) as (l1 & v1 & l2 & -> & Hl). by exists ((k', v) :: l1), v1, l2.
Qed.
Lemma keys_map (m : jmap) : (map (fun kv => (fst kv, norm (snd kv))) m).*1 = m.*1.
Proof. induction m as [|[k v] m IH]; [done|]. cbn [map fmap list_fmap fst]. f_equal. exact IH. Qed.
Lemma norm_map_absent k m : k ∉ m.*1 -> mget k (norm_map m) = None.
Proof.
  intros H. unfold norm_map. rewrite (mget_mmerge_field k _ None); [done| |constructor].
  apply field_absent, keys_in. by rewrite keys_map.
Qed.
Lemma norm_map_last l1 k v l2 : k ∉ l2.*1 -> mget k (norm_map (l1 ++ (k, v) :: l2)) = Some (norm v).
Proof.
  intros H. unfold norm_map. rewrite map_app. cbn [map fst snd]. unfold mmerge. rewrite foldl_app. cbn [foldl fst snd].
  set (a := foldl _ [] _). assert (sorted a) as Ha by (apply (mmerge_sorted []); constructor).
  change (foldl _ ?x ?y) with (mmerge x y).
  rewrite (mget_mmerge_field k _ None); [|apply field_absent, keys_in; by rewrite keys_map|by apply minsert_sorted].
  rewrite mget_minsert by done. by rewrite beq_refl.
Qed.
Lemma not_in_mget {A} k (m : list (bytes * A)) : k ∉ m.*1 -> mget k m = None.
Proof.
  induction m as [|[k' v] m IH]; [done|]. cbn [fmap list_fmap fst mget]. rewrite not_elem_of_cons.
  intros [H1 H2]. rewrite (proj2 (beq_false k k') H1). by apply IH.
Qed.
Lemma mget_not_in {A} k (m : list (bytes * A)) : mget k m = None -> k ∉ m.*1.
Proof.
  induction m as [|[k' v] m IH]; [intros _; apply not_elem_of_nil|]. cbn [fmap list_fmap fst mget].
  destruct (beq k k') eqn:E; [done|]. intros H. apply not_elem_of_cons. split; [by apply beq_false|by apply IH].
Qed.
Lemma kept_norm j : kept j (norm j).
Proof.
  induction j as [|b|z|lit|s|l Hl|m Hm] using json_ind2; cbn [norm]; try constructor.
  - induction Hl; constructor; done.
  - apply keys_sorted_spec, norm_map_sorted.
  - intros k Hk. apply mget_not_in. by apply (norm_map_absent k m).
  - intros l1 k v l2 -> Hk. exists (norm v). split.
    + apply mget_elem. by apply (norm_map_last l1 k v l2).
    + rewrite list.Forall_forall in Hm. apply (Hm (k, v)). apply elem_of_app. right. by left.
Qed.
Lemma kept_unique j j' : kept j j' -> j' = norm j.
Proof.
  revert j'. induction j as [|b|z|lit|s|l Hl|m Hm] using json_ind2; intros j' H; [by inversion H..| |]; cbn [norm].
  - inversion H as [| | | | |l0 r HF|]; subst. f_equal. clear H. induction HF as [|x y l r Hxy HF IH]; [done|].
    apply list.Forall_cons in Hl as [H1 H2]. cbn [map]. f_equal; [by apply H1|by apply IH].
  - inversion H as [| | | | | |m0 m' S N L]; subst. f_equal. change (mmerge [] _) with (norm_map m). apply keys_sorted_spec in S.
    apply sorted_ext; [done|apply norm_map_sorted|]. intros k.
    destruct (decide (k ∈ m.*1)) as [Hk|Hk].
    + destruct (last_occurrence k m Hk) as (l1 & v & l2 & -> & Hl2).
      rewrite norm_map_last by done. destruct (L l1 k v l2 eq_refl Hl2) as (v' & Hv & Hkv).
      rewrite (elem_mget k v') by done. f_equal.
      rewrite list.Forall_forall in Hm. apply (Hm (k, v)); [|done]. apply elem_of_app. right. by left.
    + rewrite norm_map_absent by done. by apply not_in_mget, N.
Qed.
Lemma kept_iff j j' : kept j j' <-> norm j = j'.
Proof. split; [intros H%kept_unique; by subst|]. intros <-. apply kept_norm. Qed.
Lemma as_map_iff j m : as_map j = Ok m <-> kept j (JObj m).
Proof. rewrite kept_iff. unfold as_map. destruct (norm j); naive_solver. Qed.
Lemma kept_null_iff j : kept j JNull <-> j = JNull.
Proof. rewrite kept_iff. apply norm_null. Qed.

(** An optional member. *)
Lemma option_iff {A} k (f : json -> res A) m (x : option A) :
  (o ← field (B k) m; as_option f o) = Ok x <->
  match x with
  | Some a => exists v, has k v (JObj m) /\ v <> JNull /\ f v = Ok a
  | None => none k (JObj m)
  end.
Proof.
  rewrite bind_iff. destruct x as [a|].
  - split.
    + intros ([v|] & H1 & H2); [|done]. apply field_some in H1. exists v. split; [done|].
      destruct v; [done|..]; (cbn [as_option] in H2; apply bind_iff in H2 as (? & H2 & [= ->])); done.
    + intros (v & H1%field_some & H2 & H3). exists (Some v). split; [done|].
      destruct v; [done|..]; cbn [as_option]; by rewrite H3.
  - split.
    + intros ([v|] & H1 & H2).
      * apply field_some in H1. destruct v; try (by apply bind_iff in H2 as (? & _ & ?)). by right.
      * left. by apply field_none.
    + intros [H|H]; [exists None; split; [by apply field_none|done]|].
      exists (Some JNull). split; [by apply field_some|done].
Qed.

(** ** Data types *)

Lemma parse_usize_inv n z : parse_usize n = Some z ->
  exists plus ds, n = plus ++ ds /\ (plus = [] \/ plus = ["+"%char]) /\ ds <> []
  /\ Forall (fun c => 48 <= Z_of_byte c <= 57) ds /\ dec_val ds < 2 ^ 64 /\ z = dec_val ds.
Proof.
  assert (forall ds : bytes, match ds with [] => None | _ => if forallb is_digit ds
    then if dec_val ds <? two64 then Some (dec_val ds) else None else None end = Some z ->
    ds <> [] /\ Forall (fun c => 48 <= Z_of_byte c <= 57) ds /\ dec_val ds < 2 ^ 64 /\ z = dec_val ds) as G.
  { intros ds. destruct ds as [|d0 ds]; [done|]. destruct (forallb _ _) eqn:Ef; [|done].
    destruct (_ <? two64) eqn:El; [|done]. intros [= <-]. split; [done|]. split.
    - apply forallb_Forall in Ef. eapply list.Forall_impl; [exact Ef|]. unfold is_digit. cbn. lia.
    - split; [|done]. change (2 ^ 64) with two64. lia. }
  unfold parse_usize. destruct n as [|c n]; [done|]. case_bool_decide as E; intros H.
  - apply G in H. subst. exists ["+"%char], n. split; [done|]. split; [by right|done].
  - apply (G (c :: n)) in H. exists [], (c :: n). split; [done|]. split; [by left|done].
Qed.
Lemma name_iff n d : dtype_of_string n = Ok d <-> type_name n d.
Proof.
  split.
  - unfold dtype_of_string.
    destruct (beq n (B "bool")) eqn:E1; [apply beq_true in E1 as ->; intros [= <-]; constructor|].
    destruct (beq n (B "i1")) eqn:E2; [apply beq_true in E2 as ->; intros [= <-]; constructor|].
    destruct (beq n (B "u1")) eqn:E3; [apply beq_true in E3 as ->; intros [= <-]; constructor|].
    destruct (starts_with (B "r") n) eqn:E4.
    + destruct n as [|c n]; [done|]. assert (c = "r"%char) as ->.
      { cbn in E4. rewrite andb_true_iff, bool_decide_eq_true in E4. by destruct E4. }
      change (drop 1 ("r"%char :: n)) with n. destruct (parse_usize n) as [z|] eqn:Ep; [|done]. destruct (_ =? 0) eqn:Em; [|done]. intros [= <-].
      apply parse_usize_inv in Ep as (plus & ds & -> & Hp & Hn & Hd & Hl & ->). apply name_raw; try done. lia.
    + destruct n as [|c0 [|c1 [|c2 [|]]]]; try done.
      destruct (endian_of_char c0) as [e|] eqn:Ee; [|done].
      assert (order_char c0 e) as Ho.
      { unfold order_char. destruct c0 as [[] [] [] [] [] [] [] []]; cbn in Ee; try done; injection Ee as <-; auto. }
      assert (forall o, int_size_of_char c2 = Some o -> int_char c2 o) as Hi.
      { intros o. unfold int_char. destruct c2 as [[] [] [] [] [] [] [] []]; cbn; try done; intros [= <-];
          rewrite !elem_of_cons; auto. }
      assert (forall o, float_size_of_char c2 = Some o -> float_char c2 o) as Hf.
      { intros o. unfold float_char. destruct c2 as [[] [] [] [] [] [] [] []]; cbn; try done; intros [= <-];
          rewrite !elem_of_cons; auto. }
      destruct c1 as [[] [] [] [] [] [] [] []]; try done.
      all: match goal with |- context [int_size_of_char ?x] => destruct (int_size_of_char x) as [o|]
        | |- context [float_size_of_char ?x] => destruct (float_size_of_char x) as [o|] end; [|done]; intros [= <-]; constructor; auto.
  - intros [| | |c w o e Hc Hw|c w o e Hc Hw|c w o e Hc Hw|plus ds Hp Hn Hd Hl Hm]; try reflexivity.
    + unfold int_char in Hw. rewrite !elem_of_cons, elem_of_nil in Hw.
      destruct Hc as [[-> ->]|[-> ->]]; destruct_or! Hw; injection Hw as -> ->; reflexivity.
    + unfold int_char in Hw. rewrite !elem_of_cons, elem_of_nil in Hw.
      destruct Hc as [[-> ->]|[-> ->]]; destruct_or! Hw; injection Hw as -> ->; reflexivity.
    + unfold float_char in Hw. rewrite !elem_of_cons, elem_of_nil in Hw.
      destruct Hc as [[-> ->]|[-> ->]]; destruct_or! Hw; injection Hw as -> ->; reflexivity.
    + unfold dtype_of_string.
      rewrite !(proj2 (beq_false _ _)) by (by intros [=]).
      change (starts_with (B "r") ("r"%char :: plus ++ ds)) with true. change (drop 1 ("r"%char :: plus ++ ds)) with (plus ++ ds).
      assert (parse_usize (plus ++ ds) = Some (dec_val ds)) as ->.
      { unfold parse_usize.
        assert (match plus ++ ds with c :: r => if bool_decide (c = "+"%char) then r else plus ++ ds | [] => [] end = ds) as ->.
        { destruct Hp as [->| ->]; [|done]. cbn [app]. destruct ds as [|d0 ds]; [done|].
          apply list.Forall_cons in Hd as [Hd _]. rewrite bool_decide_eq_false_2; [done|]. intros ->. change (48 <= 43 <= 57) in Hd. lia. }
        destruct ds as [|d0 ds]; [done|].
        rewrite (proj2 (forallb_Forall _ _)).
        2: { eapply list.Forall_impl; [exact Hd|]. unfold is_digit. cbn. lia. }
        change two64 with (2 ^ 64). by rewrite (proj2 (Z.ltb_lt _ _)). }
      by rewrite Hm.
Qed.
Lemma core_iff j d : dec_core j = Ok d <-> exists n, j = JStr n /\ type_name n d.
Proof.
  unfold dec_core. rewrite bind_iff. split.
  - intros (n & ->%as_str_iff & H%name_iff). by exists n.
  - intros (n & -> & H%name_iff). by exists n.
Qed.
Lemma type_iff j x : dec_dtype j = Ok x <-> type_says j x.
Proof.
  unfold dec_dtype.
  assert (forall m y, dec_extended (JObj m) = Ok y <-> match y with Core _ => False | _ => type_says (JObj m) y end) as HE.
  { intros m y. unfold dec_extended. cbn [as_obj]. rewrite bind_ok, bind_iff. split.
    - intros (e & He%required_has & H). apply bind_iff in H as (se & ->%as_str_iff & H).
      apply bind_iff in H as (t & Ht%required_has & H). apply bind_iff in H as (st & ->%as_str_iff & H).
      apply bind_iff in H as (fb & Hfb & H). apply bind_iff in H as (fo & Hfo & [= <-]).
      assert ((o ← field (B "fallback") m; as_option dec_core o) = Ok fo) as HH by (rewrite Hfb; exact Hfo).
      apply option_iff in HH. cbn [type_says]. split; [done|]. split; [done|].
      destruct fo as [d|]; [|done]. destruct HH as (v & Hv & _ & (n & -> & Hn)%core_iff). by exists n.
    - destruct y as [|e t fb]; [done|]. intros (He & Ht & Hfb). exists (JStr e). split; [by apply required_has|].
      cbn [as_str]. rewrite bind_ok. apply bind_iff. exists (JStr t). split; [by apply required_has|].
      cbn [as_str]. rewrite bind_ok.
      assert ((o ← field (B "fallback") m; as_option dec_core o) = Ok fb) as HH.
      { apply option_iff. destruct fb as [d|]; [|done]. destruct Hfb as (n & Hn & Hd). exists (JStr n).
        split; [done|]. split; [done|]. apply core_iff. by exists n. }
      apply bind_iff in HH as (o & -> & HH). rewrite bind_ok, HH. done. }
  destruct (dec_core j) as [d|e|] eqn:E.
  - apply core_iff in E as (n & -> & Hn). split.
    + intros [= <-]. by exists n.
    + destruct x as [d'|e t fb].
      * intros (n' & [= <-] & Hn'). apply name_iff in Hn, Hn'. congruence.
      * intros ((? & ? & ? & _) & _). done.
  - destruct j as [| | | |s| |m]; try (split; [done|]; destruct x; [intros (? & ? & _); done|intros ((? & ? & ? & _) & _); done]).
    + split; [done|]. destruct x as [d|? ? ?]; [intros (n & [= <-] & Hn)|intros ((? & ? & ? & _) & _); done].
      apply name_iff in Hn. unfold dec_core in E. cbn [as_str] in E. rewrite bind_ok in E. congruence.
    + rewrite HE. destruct x; [|done]. split; [done|]. intros (? & ? & _). done.
  - split; [done|]. destruct j as [| | | |s| |m]; try done. destruct x as [d|? ? ?].
    + intros (n & [= <-] & Hn). apply name_iff in Hn. unfold dec_core in E. cbn [as_str] in E. rewrite bind_ok in E. congruence.
    + intros ((? & ? & ? & _) & _). done.
Qed.

(** ** Compressors *)

Lemma cfg_iff k lo hi dflt j z : dec_cfg (B k) lo hi dflt j = Ok z <-> setting k lo hi dflt j z.
Proof.
  apply (written_iff [k] 0). clear j z. intros m z. rewrite bind_iff. split.
  - intros ([v|] & Ho & H).
    + apply as_int_iff in H as [-> H]. left. split; [by apply field_some|done].
    + injection H as <-. right. split; [by apply field_none|done].
  - intros [[H Hz]|[H ->]].
    + exists (Some (JInt z)). split; [by apply field_some|]. by apply as_int_iff.
    + exists None. split; [by apply field_none|done].
Qed.
Lemma comp_iff j c : dec_comp j = Ok c <-> compressor_says j c.
Proof.
  apply (written_iff ["codec"; "configuration"] 2). clear j c. intros m c. split.
  - intros H. apply bind_iff in H as (v & Hv%required_has & H).
    apply bind_iff in H as (tag & ->%as_str_iff & H). apply bind_iff in H as (cfg & Hcfg%required_has & H).
    exists cfg. split; [done|]. revert H.
    destruct (beq tag (B "raw")) eqn:E1.
    { apply beq_true in E1 as ->. destruct cfg; try done. by intros [= <-]. }
    destruct (beq tag (B "bzip2")) eqn:E2.
    { apply beq_true in E2 as ->. intros (b & Hb & [= <-])%bind_iff. split; [done|]. by apply cfg_iff. }
    destruct (beq tag GZIP_ID) eqn:E3.
    { apply beq_true in E3 as ->. intros (b & Hb & [= <-])%bind_iff. split; [done|]. by apply cfg_iff. }
    destruct (beq tag (B "lz4")) eqn:E4.
    { apply beq_true in E4 as ->. intros (b & Hb & [= <-])%bind_iff. split; [done|]. by apply cfg_iff. }
    destruct (beq tag (B "xz")) eqn:E5; [|done].
    apply beq_true in E5 as ->. intros (b & Hb & [= <-])%bind_iff. split; [done|]. by apply cfg_iff.
  - intros (cfg & Hcfg & H). apply required_has in Hcfg.
    assert (forall tag, has "codec" (JStr tag) (JObj m) -> required (B "codec") m = Ok (JStr tag)) as HT.
    { intros tag Ht. by apply required_has. }
    destruct c as [|b|l|b|p]; destruct H as [Ht H]; apply HT in Ht; rewrite Ht, bind_ok; cbn [as_str];
      rewrite bind_ok, Hcfg, bind_ok; [by rewrite H|apply cfg_iff in H..].
    + change (beq (B "bzip2") (B "raw")) with false. change (beq (B "bzip2") (B "bzip2")) with true. cbn match.
      by rewrite H.
    + change (B "https://purl.org/zarr/spec/codec/gzip/1.0") with GZIP_ID.
      change (beq GZIP_ID (B "raw")) with false. change (beq GZIP_ID (B "bzip2")) with false.
      change (beq GZIP_ID GZIP_ID) with true. cbn match. unfold i32_lo, i32_hi. by rewrite H.
    + change (beq (B "lz4") (B "raw")) with false. change (beq (B "lz4") (B "bzip2")) with false.
      change (beq (B "lz4") GZIP_ID) with false. change (beq (B "lz4") (B "lz4")) with true. cbn match.
      unfold i32_lo, i32_hi. by rewrite H.
    + change (beq (B "xz") (B "raw")) with false. change (beq (B "xz") (B "bzip2")) with false.
      change (beq (B "xz") GZIP_ID) with false. change (beq (B "xz") (B "lz4")) with false.
      change (beq (B "xz") (B "xz")) with true. cbn match. unfold i32_lo, i32_hi. by rewrite H.
Qed.

(** ** Extensions *)

Lemma ext_iff j e : dec_ext j = Ok e <-> ext_says j e.
Proof.
  apply (written_iff ["extension"; "must_understand"; "configuration"] 3). clear j e. intros m e. split.
  - intros H. apply bind_iff in H as (v & Hv%required_has & H).
    apply bind_iff in H as (n & ->%as_str_iff & H). apply bind_iff in H as (u & Hu%required_has & H).
    apply bind_iff in H as (b & ->%as_bool_iff & H). apply bind_iff in H as (o & Ho & H).
    apply bind_iff in H as (c & Hc & [= <-]). cbn [em_extension em_must_understand em_configuration].
    split; [done|]. split; [done|].
    assert ((o ← field (B "configuration") m; as_option as_map o) = Ok c) as HH by (rewrite Ho; exact Hc).
    apply option_iff in HH. destruct c as [c|]; [|done]. destruct HH as (w & Hw & _ & Hk%as_map_iff). by exists w.
  - destruct e as [n u c]. cbn [em_extension em_must_understand em_configuration]. intros (Hn & Hu & Hc).
    apply required_has in Hn, Hu. rewrite Hn, bind_ok. cbn [as_str]. rewrite bind_ok, Hu, bind_ok. cbn [as_bool].
    rewrite bind_ok. assert ((o ← field (B "configuration") m; as_option as_map o) = Ok c) as HH.
    { apply option_iff. destruct c as [c|]; [|done]. destruct Hc as (w & Hw & Hk). exists w. split; [done|].
      split; [|by apply as_map_iff]. intros ->. inversion Hk. }
    apply bind_iff in HH as (o & -> & HH). rewrite bind_ok, HH. done.
Qed.
Lemma exts_iff m l : (ex ← required (B "extensions") m; ex ← as_arr ex; mapM_res dec_ext ex) = Ok l
  <-> exts_say (JObj m) l.
Proof.
  unfold exts_say. rewrite bind_iff. split.
  - intros (v & Hv%required_has & H). apply bind_iff in H as (es & ->%as_arr_iff & H%mapM_res_inv).
    exists es. split; [done|]. eapply Forall2_impl; [exact H|]. intros j e. apply ext_iff.
  - intros (es & Hv & H). exists (JArr es). split; [by apply required_has|]. cbn [as_arr]. rewrite bind_ok.
    apply mapM_res_Forall2. eapply Forall2_impl; [exact H|]. intros j e. apply ext_iff.
Qed.

(** ** Documents *)

Lemma order_iff j o : dec_order j = Ok o <-> word j (match o with RowMajor => B "C" | ColumnMajor => B "F" end).
Proof.
  unfold dec_order. rewrite bind_iff. split.
  - intros (s & Hs%as_variant_iff & H). revert H.
    destruct (beq s (B "C")) eqn:E1; [apply beq_true in E1 as ->; by intros [= <-]|].
    destruct (beq s (B "F")) eqn:E2; [apply beq_true in E2 as ->; by intros [= <-]|done].
  - intros Hw%as_variant_iff. eexists. split; [exact Hw|]. by destruct o.
Qed.
Lemma grid_iff {A} g (f : bytes -> list Z -> bytes -> res A) a :
  (g ← as_struct grid_fields 3 g;
   gt ← required (B "type") g; gt ← as_str gt;
   cs ← required (B "chunk_shape") g; cs ← as_arr cs; cs ← mapM_res (as_int 0 two32) cs;
   sp ← required (B "separator") g; sp ← as_str sp; f gt cs sp) = Ok a
  <-> exists gt cs sp, grid_says g (gt, cs, sp) /\ f gt cs sp = Ok a.
Proof.
  rewrite bind_iff. split.
  - intros (go & Hg & H). apply bind_iff in H as (v4 & H4%required_has & H). apply bind_iff in H as (gt & ->%as_str_iff & H).
    apply bind_iff in H as (v5 & H5%required_has & H). apply bind_iff in H as (l5 & ->%as_arr_iff & H).
    apply bind_iff in H as (cs & [-> Hcs]%ints_iff & H).
    apply bind_iff in H as (v6 & H6%required_has & H). apply bind_iff in H as (sp & ->%as_str_iff & H).
    exists gt, cs, sp. split; [|done]. exists (JObj go). split; [|done].
    by apply (as_struct_iff ["type"; "chunk_shape"; "separator"] 3).
  - intros (gt & cs & sp & (o & Ho & H4 & H5 & Hcs & H6) & H). destruct (as_members_obj _ _ _ _ Ho) as [go ->].
    exists go. split; [by apply (as_struct_iff ["type"; "chunk_shape"; "separator"] 3)|].
    apply required_has in H4, H5, H6.
    rewrite H4, bind_ok. cbn [as_str]. rewrite bind_ok, H5, bind_ok. cbn [as_arr].
    rewrite bind_ok. rewrite (proj2 (ints_iff 0 two32 _ cs)) by done. rewrite bind_ok, H6, bind_ok. cbn [as_str].
    by rewrite bind_ok.
Qed.
Lemma meta_iff j m : dec_meta j = Ok m <-> array_says j m.
Proof.
  apply (written_iff ["shape"; "data_type"; "chunk_grid"; "chunk_memory_layout"; "fill_value"; "extensions"; "attributes";
    "compressor"] 7). clear j m. intros o m. split.
  - intros H.
    apply bind_iff in H as (v1 & H1%required_has & H). apply bind_iff in H as (l1 & ->%as_arr_iff & H).
    apply bind_iff in H as (sh & [-> Hsh]%ints_iff & H).
    apply bind_iff in H as (v2 & H2%required_has & H). apply bind_iff in H as (dt & Hdt%type_iff & H).
    apply bind_iff in H as (g & H3%required_has & H).
    apply grid_iff in H as (gt & cs & sp & Hg & H).
    apply bind_iff in H as (v7 & H7%required_has & H). apply bind_iff in H as (ol & Hol%order_iff & H).
    apply bind_iff in H as (v8 & H8 & H). apply bind_iff in H as (fv & H8' & H).
    assert ((o' ← field (B "fill_value") o; as_option dec_value o') = Ok fv) as Hfv%option_iff by (rewrite H8; exact H8').
    apply bind_iff in H as (v9 & H9 & H). apply bind_iff in H as (l9 & H9' & H).
    apply bind_iff in H as (ex & H9'' & H).
    assert ((ex ← required (B "extensions") o; ex ← as_arr ex; mapM_res dec_ext ex) = Ok ex) as Hex%exts_iff.
    { rewrite H9, bind_ok, H9', bind_ok. exact H9''. }
    apply bind_iff in H as (va & Ha%required_has & H). apply bind_iff in H as (at_ & Hat%as_map_iff & H).
    apply bind_iff in H as (vc & Hc & H). apply bind_iff in H as (cp & Hcp & [= <-]).
    cbn [am_shape am_dtype am_grid_type am_chunk_shape am_sep am_order am_fill am_exts am_attrs am_comp].
    split; [done|]. split; [exact Hsh|]. split; [by exists v2|].
    split; [by exists g|]. split; [by exists v7|]. split.
    { destruct fv as [f|]; [|done]. destruct Hfv as (v & Hv & Hn & [= <-]). exists v.
      split; [done|]. split; [done|]. apply kept_norm. }
    split; [done|]. split; [by exists va|].
    destruct vc as [c|].
    + apply field_some in Hc. apply comp_iff in Hcp. left. by exists c.
    + apply field_none in Hc. injection Hcp as <-. by right.
  - destruct m as [sh dt gt cs sp ol fv ex at_ cp].
    cbn [am_shape am_dtype am_grid_type am_chunk_shape am_sep am_order am_fill am_exts am_attrs am_comp].
    intros (H1 & Hsh & (v2 & H2 & Hdt) & (g & H3 & Hg) & (v7 & H7 & Hol) & H8 & H9 & (va & Ha & Hat) & Hc).
    apply required_has in H1, H2, H3, H7, Ha. apply type_iff in Hdt. apply as_map_iff in Hat. apply order_iff in Hol.
    rewrite H1, bind_ok. cbn [as_arr]. rewrite bind_ok.
    rewrite (proj2 (ints_iff 0 two64 _ sh)) by done. rewrite bind_ok, H2, bind_ok, Hdt, bind_ok, H3, bind_ok.
    apply grid_iff. exists gt, cs, sp. split; [done|].
    rewrite H7, bind_ok, Hol, bind_ok.
    assert ((o' ← field (B "fill_value") o; as_option dec_value o') = Ok fv) as Hfv.
    { apply option_iff. destruct fv as [f|]; [|done]. destruct H8 as (v & Hv & Hn & Hk). exists v.
      split; [done|]. split; [done|]. unfold dec_value. f_equal. by apply kept_iff. }
    apply bind_iff in Hfv as (o8 & -> & Hfv). rewrite bind_ok, Hfv, bind_ok.
    apply exts_iff in H9. apply bind_iff in H9 as (v9 & -> & H9). apply bind_iff in H9 as (l9 & H9' & H9).
    rewrite bind_ok, H9', bind_ok, H9, bind_ok, Ha, bind_ok, Hat, bind_ok.
    destruct Hc as [(c & Hc & Hcp)|[Hc ->]].
    + apply field_some in Hc. apply comp_iff in Hcp. by rewrite Hc, bind_ok, Hcp, bind_ok.
    + apply field_none in Hc. by rewrite Hc, bind_ok.
Qed.
Lemma ep_iff j e : dec_ep j = Ok e <-> entry_says j e.
Proof.
  apply (written_iff ["zarr_format"; "metadata_encoding"; "metadata_key_suffix"; "extensions"] 4).
  clear j e. intros o e. split.
  - intros H.
    apply bind_iff in H as (v1 & H1%required_has & H). apply bind_iff in H as (f & ->%as_str_iff & H).
    apply bind_iff in H as (v2 & H2%required_has & H). apply bind_iff in H as (en & ->%as_str_iff & H).
    apply bind_iff in H as (v3 & H3%required_has & H). apply bind_iff in H as (su & ->%as_str_iff & H).
    apply bind_iff in H as (v9 & H9 & H). apply bind_iff in H as (l9 & H9' & H).
    apply bind_iff in H as (ex & H9'' & [= <-]). cbn [ep_format ep_encoding ep_suffix ep_exts].
    split; [done|]. split; [done|]. split; [done|]. apply exts_iff. rewrite H9, bind_ok, H9', bind_ok. exact H9''.
  - destruct e as [f en su ex]. cbn [ep_format ep_encoding ep_suffix ep_exts]. intros (H1 & H2 & H3 & H9).
    apply required_has in H1, H2, H3.
    rewrite H1, bind_ok. cbn [as_str]. rewrite bind_ok, H2, bind_ok. cbn [as_str].
    rewrite bind_ok, H3, bind_ok. cbn [as_str]. rewrite bind_ok.
    apply exts_iff in H9. apply bind_iff in H9 as (v9 & -> & H9). apply bind_iff in H9 as (l9 & H9' & H9).
    by rewrite bind_ok, H9', bind_ok, H9, bind_ok.
Qed.

(** ** Refusals *)

Section clean.
Context (P : Prop).
(** A document is refused with the error for invalid data; a panic means [P]. *)
Definition clean {A} (x : res A) : Prop := (x = Panic -> P) /\ forall e, x = Err e -> e = InvalidData.
Lemma clean_ok {A} (a : A) : clean (Ok a).
Proof. by split. Qed.
Lemma clean_err {A} : clean (@Err A InvalidData).
Proof. split; [done|]. by intros e [= <-]. Qed.
Lemma clean_bind {A B} (x : res A) (f : A -> res B) : clean x -> (forall a, x = Ok a -> clean (f a)) -> clean (x ≫= f).
Proof.
  intros [H1 H2] Hf. destruct x as [a|e|]; [|split; [done|]; intros e' [= <-]; by apply H2|split; [intros _; by apply H1|done]].
  rewrite bind_ok. by apply Hf.
Qed.
Lemma clean_mapM {A B} (f : A -> res B) l : (forall a, clean (f a)) -> clean (mapM_res f l).
Proof.
  intros Hf. induction l as [|a l IH]; [apply clean_ok|]. cbn [mapM_res]. apply clean_bind; [done|]. intros b _.
  apply clean_bind; [done|]. intros bs _. apply clean_ok.
Qed.
Lemma clean_field k m : clean (field k m).
Proof. unfold field. destruct (filter _ m) as [|[] []]; first [apply clean_ok|apply clean_err]. Qed.
Lemma clean_required k m : clean (required k m).
Proof. apply clean_bind; [apply clean_field|]. intros [v|] _; [apply clean_ok|apply clean_err]. Qed.
Lemma clean_as_obj j : clean (as_obj j).
Proof. destruct j; first [apply clean_ok|apply clean_err]. Qed.
Lemma clean_as_struct names req j : clean (as_struct names req j).
Proof. destruct j; cbn [as_struct]; try destruct (_ && _); first [apply clean_ok|apply clean_err]. Qed.
Lemma clean_as_variant j : clean (as_variant j).
Proof.
  destruct j as [| | | | | |[|[? []] [|]]]; first [apply clean_ok|apply clean_err].
Qed.
Lemma clean_as_arr j : clean (as_arr j).
Proof. destruct j; first [apply clean_ok|apply clean_err]. Qed.
Lemma clean_as_str j : clean (as_str j).
Proof. destruct j; first [apply clean_ok|apply clean_err]. Qed.
Lemma clean_as_bool j : clean (as_bool j).
Proof. destruct j; first [apply clean_ok|apply clean_err]. Qed.
Lemma clean_as_map j : clean (as_map j).
Proof. unfold as_map. destruct (norm j); first [apply clean_ok|apply clean_err]. Qed.
Lemma clean_as_int lo hi j : clean (as_int lo hi j).
Proof. unfold as_int. destruct j; try apply clean_err. destruct (_ && _); [apply clean_ok|apply clean_err]. Qed.
Lemma clean_option {A} (f : json -> res A) o : (forall j, clean (f j)) -> clean (as_option f o).
Proof.
  intros Hf. destruct o as [[]|]; try apply clean_ok; (apply clean_bind; [done|]; intros; apply clean_ok).
Qed.
Lemma clean_order j : clean (dec_order j).
Proof.
  apply clean_bind; [apply clean_as_variant|]. intros s _. destruct (beq s (B "C")); [apply clean_ok|].
  destruct (beq s (B "F")); [apply clean_ok|apply clean_err].
Qed.
Lemma clean_ext j : clean (dec_ext j).
Proof.
  repeat (apply clean_bind; [first [apply clean_as_struct|apply clean_required|apply clean_as_str|apply clean_as_bool
    |apply clean_field|apply clean_option, clean_as_map]|intros]). apply clean_ok.
Qed.
Lemma clean_cfg k lo hi d j : clean (dec_cfg k lo hi d j).
Proof.
  apply clean_bind; [apply clean_as_struct|]. intros m _. apply clean_bind; [apply clean_field|].
  intros [v|] _; [apply clean_as_int|apply clean_ok].
Qed.
Lemma clean_comp j : clean (dec_comp j).
Proof.
  apply clean_bind; [apply clean_as_struct|]. intros m _. apply clean_bind; [apply clean_required|]. intros v _.
  apply clean_bind; [apply clean_as_str|]. intros tag _. apply clean_bind; [apply clean_required|]. intros cfg _.
  destruct (beq tag (B "raw")); [destruct cfg; first [apply clean_ok|apply clean_err]|].
  repeat (destruct (beq tag _); [apply clean_bind; [apply clean_cfg|]; intros; apply clean_ok|]). apply clean_err.
Qed.
Lemma clean_ep j : clean (dec_ep j).
Proof.
  repeat (apply clean_bind; [first [apply clean_as_struct|apply clean_required|apply clean_as_str|apply clean_as_arr
    |apply clean_mapM, clean_ext]|intros]). apply clean_ok.
Qed.
Lemma dtype_string_err n e : dtype_of_string n = Err e -> e = InvalidData.
Proof.
  unfold dtype_of_string. repeat (destruct (beq n _); [done|]). destruct (starts_with _ _).
  { destruct (parse_usize _); [|by intros [= <-]]. destruct (_ =? 0); [done|]. by intros [= <-]. }
  destruct n as [|c0 [|c1 [|c2 [|]]]]; try by intros [= <-]. destruct (endian_of_char c0); [|done].
  destruct c1 as [[] [] [] [] [] [] [] []]; try by intros [= <-].
  all: match goal with |- context [int_size_of_char ?x] => destruct (int_size_of_char x) as [o|]
    | |- context [float_size_of_char ?x] => destruct (float_size_of_char x) as [o|] end; done.
Qed.
(** The names of data types a document contains. *)
Definition names_type (j : json) (n : bytes) : Prop :=
  j = JStr n \/ has "fallback" (JStr n) j.
Lemma clean_core j : (forall n, j = JStr n -> (dtype_of_string n = Panic -> P)) -> clean (dec_core j).
Proof.
  intros H. apply clean_bind; [apply clean_as_str|]. intros n ->%as_str_iff. split; [by apply H|].
  intros e. apply dtype_string_err.
Qed.
Lemma clean_type j : (forall n, names_type j n -> (dtype_of_string n = Panic -> P)) -> clean (dec_dtype j).
Proof.
  intros H. unfold dec_dtype. assert (clean (dec_core j)) as [Hp _] by (apply clean_core; intros n Hn; apply H; by left).
  destruct (dec_core j); [apply clean_ok| |by split; [intros _; apply Hp|]]. unfold dec_extended.
  apply clean_bind; [apply clean_as_obj|]. intros m ->%as_obj_iff.
  do 2 (apply clean_bind; [apply clean_required|]; intros; apply clean_bind; [apply clean_as_str|]; intros).
  apply clean_bind; [apply clean_field|]. intros o Ho. apply clean_bind; [|intros; apply clean_ok].
  destruct o as [v|]; [|apply clean_ok].
  assert (clean (dec_core v)) as Hc.
  { apply clean_core. intros n ->. apply H. right. by apply field_some. }
  destruct v; try apply clean_ok; (apply clean_bind; [done|]; intros; apply clean_ok).
Qed.
Lemma clean_meta j : (forall t n, has "data_type" t j \/ (exists shape rest, j = JArr (shape :: t :: rest)) -> names_type t n -> (dtype_of_string n = Panic -> P)) ->
  clean (dec_meta j).
Proof.
  intros H. unfold dec_meta. apply clean_bind; [apply clean_as_struct|]. intros m Hm.
  assert (forall t, has "data_type" t (JObj m) -> has "data_type" t j \/ exists shape rest, j = JArr (shape :: t :: rest)) as HD.
  { intros t Ht. destruct j as [| | | | |l|m0]; try done; cbn [as_struct] in Hm; [|injection Hm as ->; by left].
    right. destruct (_ && _) eqn:E; [|done]. injection Hm as <-. destruct l as [|v1 [|v2 l]]; [done..|].
    exists v1, l. apply field_some in Ht. cbn [meta_fields zip zip_with] in Ht.
    rewrite field_skip in Ht by reflexivity. rewrite field_hit in Ht.
    - by injection Ht as ->.
    - clear. do 6 (destruct l as [|? l]; [reflexivity|]). reflexivity. }
  apply clean_bind; [apply clean_required|]; intros. apply clean_bind; [apply clean_as_arr|]; intros.
  apply clean_bind; [apply clean_mapM, clean_as_int|]; intros.
  apply clean_bind; [apply clean_required|]. intros t Ht%required_has.
  apply clean_bind; [apply clean_type; intros n Hn; eapply H; [by apply HD|done]|]. intros.
  repeat (apply clean_bind; [first [apply clean_as_struct|apply clean_required|apply clean_as_str|apply clean_as_arr
    |apply clean_mapM, clean_ext|apply clean_mapM, clean_as_int|apply clean_order|apply clean_field
    |apply clean_option; intros; apply clean_ok|apply clean_as_map]|intros]).
  apply clean_bind; [|intros; apply clean_ok]. match goal with |- context [match ?o with _ => _ end] => destruct o end;
    [apply clean_comp|apply clean_ok].
Qed.

End clean.

(** ** The library *)

Lemma says_parsed text j : json_says text j -> (jdepth j <= 127)%nat -> parse text = Some j.
Proof. intros. by apply parse_json_says. Qed.
Lemma read_iff {A} (dec : json -> res A) (says : json -> A -> Prop) text a :
  (forall j a, dec j = Ok a <-> says j a) -> from_text dec text = Ok a <-> reads_as says text a.
Proof.
  intros H. unfold from_text. rewrite bind_iff. split.
  - intros (j & Hj & Ha%H). destruct (parse text) as [v|] eqn:E; [|done]. injection Hj as ->.
    apply parse_json_says in E as [E1 E2]. by exists j.
  - intros (j & H1 & H2 & H3%H). exists j. by rewrite (says_parsed text j).
Qed.
Lemma clean_read {A} P (dec : json -> res A) text :
  (forall j, json_says text j -> clean P (dec j)) -> clean P (from_text dec text).
Proof.
  intros H. apply clean_bind; [destruct (parse text); [apply clean_ok|apply clean_err]|].
  intros j Hj. apply H. destruct (parse text) as [v|] eqn:E; [|done]. injection Hj as ->.
  by apply parse_json_says in E as [E _].
Qed.
Lemma clean_meta_text text : clean (names_bad_type text) (from_text dec_meta text).
Proof.
  apply clean_read. intros j Hj. apply clean_meta. intros t n Ht Hn Hp. exists j, t, n. split; [done|].
  split; [done|]. split; [done|]. by apply dtype_of_string_panic.
Qed.
Lemma clean_ep_text text : clean False (from_text dec_ep text).
Proof. apply clean_read. intros j _. apply clean_ep. Qed.

Lemma sorted_nodup {A} (m : list (bytes * A)) : sorted m -> NoDup m.*1.
Proof.
  induction 1 as [|k v m Hb Hs IH]; [constructor|]. rewrite fmap_cons. constructor; [|done]. cbn [fst].
  intros (x & -> & Hx)%elem_of_list_fmap. unfold below in Hb. rewrite list.Forall_forall in Hb.
  by apply (blt_irrefl (x.1)), Hb.
Qed.
Section doc.
  Context (H : hier) (s : fs) (path : bytes).
  Hypothesis W : wf_fs s.
  Hypothesis PB : plain (hy_base H).
  Hypothesis PS : slash ∉ strip_dot (ep_suffix (hy_ep H)).
  Hypothesis PP : plain path.
  Notation adoc := (file_at s (loc (hy_base H) (akey H path))).
  Notation gdoc := (file_at s (loc (hy_base H) (gkey H path))).

  Lemma akey_plain : plain (akey H path).
  Proof. apply plain_node_key; [by left|done|done]. Qed.
  Lemma gkey_plain : plain (gkey H path).
  Proof. apply plain_node_key; [by right|done|done]. Qed.

  Lemma document_key ext k : is_node_ext ext -> ext = B k -> loc (hy_base H) (metadata_key ext (ep_suffix (hy_ep H)) path) = document H k path.
  Proof.
    intros E ->. unfold document, loc. f_equal. rewrite pieces_node_key by done. unfold meta_pieces.
    assert (SD : match ep_suffix (hy_ep H) with "."%char :: t => B "." ++ t | t => B "." ++ t end = dot :: strip_dot (ep_suffix (hy_ep H))).
    { destruct (ep_suffix (hy_ep H)) as [|c t]; [done|]. unfold strip_dot. case_bool_decide as X; [by subst c|].
      destruct c as [[] [] [] [] [] [] [] []]; done. }
    cbv zeta. rewrite SD. destruct (rev (pieces path)) as [|n r] eqn:ER; [done|].
    rewrite (proj2 (beq_false n dotdot)); [done|]. intros ->. apply PP.
    rewrite <- (rev_involutive (pieces path)), ER. cbn [rev]. apply elem_of_app. right. by left.
  Qed.
  Lemma akey_document : loc (hy_base H) (akey H path) = document H "array" path.
  Proof. apply document_key; [by left|done]. Qed.
  Lemma gkey_document : loc (hy_base H) (gkey H path) = document H "group" path.
  Proof. apply document_key; [by right|done]. Qed.

  Lemma array_doc :
    (adoc = None -> get_array_metadata H s path = Err NotFound)
    /\ forall text, adoc = Some text ->
       (forall m, reads_as array_says text m ->
          (requires_extension (am_exts m) -> get_array_metadata H s path = Err Other)
          /\ (~ requires_extension (am_exts m) -> get_array_metadata H s path = Ok m))
       /\ ((forall m, ~ reads_as array_says text m) ->
           get_array_metadata H s path = Err InvalidData
           \/ names_bad_type text /\ get_array_metadata H s path = Panic).
  Proof.
    assert (st_get (hy_base H) s (akey H path) = Ok adoc) as G by (apply st_get_plain; [done|done|apply akey_plain]).
    split.
    - intros E. unfold get_array_metadata. rewrite G, E. done.
    - intros text E. rewrite E in G. split.
      + intros m Hm%(read_iff dec_meta array_says text m meta_iff). by apply (required_extensions _ _ _ _ _ G).
      + intros N. unfold get_array_metadata. rewrite G, bind_ok. cbn [of_option]. rewrite bind_ok.
        destruct (from_text dec_meta text) as [m|e|] eqn:F.
        * exfalso. apply (N m). by apply (read_iff dec_meta array_says text m meta_iff).
        * left. by rewrite (proj2 (clean_meta_text text) e F).
        * right. split; [|done]. by apply (clean_meta_text text).
  Qed.

  (** Attributes, of an array or else of a group. *)
  Definition ndoc : option bytes := match adoc with Some t => Some t | None => gdoc end.
  Definition dec_attrs (j : json) : res jmap :=
    match norm j with
    | JObj m => match mget ATTRIBUTES_NAME m with
                | Some (JObj a) => Ok a
                | Some _ => Err InvalidData
                | None => Ok []
                end
    | _ => Ok []
    end.
  Lemma list_attributes_doc : list_attributes H s path =
    match ndoc with Some text => from_text dec_attrs text | None => Err NotFound end.
  Proof.
    unfold list_attributes, node_key, ndoc.
    rewrite !st_exists_plain by first [done|apply akey_plain|apply gkey_plain]. rewrite !bind_ok.
    assert (st_get (hy_base H) s (akey H path) = Ok adoc) as GA by (apply st_get_plain; [done|done|apply akey_plain]).
    assert (st_get (hy_base H) s (gkey H path) = Ok gdoc) as GG by (apply st_get_plain; [done|done|apply gkey_plain]).
    fold (loc (hy_base H) (akey H path)) (loc (hy_base H) (gkey H path)).
    destruct adoc as [t|] eqn:E1.
    - rewrite bind_ok, GA, bind_ok. cbn [of_option]. rewrite bind_ok. unfold from_text.
      destruct (parse t); [|done]. cbn [of_option]. by rewrite !bind_ok.
    - destruct gdoc as [t|] eqn:E2; [|done].
      rewrite bind_ok, GG, bind_ok. cbn [of_option]. rewrite bind_ok. unfold from_text.
      destruct (parse t); [|done]. cbn [of_option]. by rewrite !bind_ok.
  Qed.
  Lemma sorted_has k v m : sorted m -> mget (B k) m = Some v <-> has k v (JObj m).
  Proof.
    intros Hs. split.
    - intros E. apply mget_elem in E. apply elem_of_list_split in E as (l1 & l2 & ->). exists l1, l2. split; [done|].
      apply sorted_nodup in Hs. rewrite fmap_app, fmap_cons in Hs. cbn [fst] in Hs.
      apply list.NoDup_app in Hs as (_ & N1 & N2). apply list.NoDup_cons in N2 as [N2 _]. split; [|done].
      intros N. apply (N1 _ N). by left.
    - intros (l1 & l2 & [= ->] & _). apply elem_mget; [done|]. apply elem_of_app. right. by left.
  Qed.
  Lemma attrs_iff j a : dec_attrs j = Ok a <-> attributes_say j a.
  Proof.
    unfold dec_attrs, attributes_say. assert (forall m, norm j = JObj m -> sorted m) as Hs.
    { intros m E. destruct j; try done. cbn [norm] in E. injection E as <-. apply norm_map_sorted. }
    split.
    - intros E. exists (norm j). split; [by apply kept_iff|]. destruct (norm j) as [| | | | | |m]; try (by injection E as <-; right; split; [|right]).
      destruct (mget ATTRIBUTES_NAME m) as [v|] eqn:G.
      + left. destruct v; try done. injection E as ->. by apply sorted_has; [apply Hs|].
      + injection E as <-. right. split; [done|]. left. exists m. split; [done|]. by apply mget_not_in.
    - intros (j' & <-%kept_iff & [Hh|[-> [Hh|Hh]]]).
      + destruct (norm j) as [| | | | | |m]; try (by destruct Hh as (? & ? & ? & _)).
        apply sorted_has in Hh; [|by apply Hs]. unfold ATTRIBUTES_NAME. by rewrite Hh.
      + destruct Hh as (m & -> & Hh). unfold ATTRIBUTES_NAME. by rewrite not_in_mget.
      + destruct (norm j) as [| | | | | |m]; try done. by destruct (Hh m).
  Qed.
  Lemma attrs_doc :
    (ndoc = None -> list_attributes H s path = Err NotFound)
    /\ forall text, ndoc = Some text ->
       (forall a, reads_as attributes_say text a -> list_attributes H s path = Ok a)
       /\ ((forall a, ~ reads_as attributes_say text a) -> list_attributes H s path = Err InvalidData).
  Proof.
    rewrite list_attributes_doc. split; [by intros ->|]. intros text ->. split.
    - intros a Ha. by apply (read_iff dec_attrs attributes_say text a attrs_iff).
    - intros N. destruct (from_text dec_attrs text) as [a|e|] eqn:F.
      + exfalso. apply (N a). by apply (read_iff dec_attrs attributes_say text a attrs_iff).
      + f_equal. revert F. unfold from_text. destruct (parse text) as [j|]; [|by intros [= <-]]. cbn [of_option].
        rewrite bind_ok. unfold dec_attrs. destruct (norm j); try done. destruct (mget _ _) as [[]|]; try done; by intros [= <-].
      + exfalso. revert F. unfold from_text. destruct (parse text) as [j|]; [|done]. cbn [of_option].
        rewrite bind_ok. unfold dec_attrs. destruct (norm j); try done. by destruct (mget _ _) as [[]|].
  Qed.
  Lemma array_document :
    (file_at s (document H "array" path) = None -> get_array_metadata H s path = Err NotFound)
    /\ forall text, file_at s (document H "array" path) = Some text ->
       (forall m, reads_as array_says text m ->
          (requires_extension (am_exts m) -> get_array_metadata H s path = Err Other)
          /\ (~ requires_extension (am_exts m) -> get_array_metadata H s path = Ok m))
       /\ ((forall m, ~ reads_as array_says text m) ->
           get_array_metadata H s path = Err InvalidData
           \/ names_bad_type text /\ get_array_metadata H s path = Panic).
  Proof. rewrite <- akey_document. exact array_doc. Qed.
  Lemma attrs_document :
    let doc := match file_at s (document H "array" path) with
               | Some t => Some t
               | None => file_at s (document H "group" path)
               end in
    (doc = None -> list_attributes H s path = Err NotFound)
    /\ forall text, doc = Some text ->
       (forall a, reads_as attributes_say text a -> list_attributes H s path = Ok a)
       /\ ((forall a, ~ reads_as attributes_say text a) -> list_attributes H s path = Err InvalidData).
  Proof. rewrite <- akey_document, <- gkey_document. exact attrs_doc. Qed.
End doc.

(** ** Opening *)

Lemma join_snoc l x : l <> [] -> join_slash (l ++ [x]) = join_slash l ++ slash :: x.
Proof.
  induction l as [|y l IH]; [done|]. intros _. destruct (decide (l = [])) as [->|L]; [done|].
  change ((y :: l) ++ [x]) with (y :: (l ++ [x])). rewrite !join_cons by (done || by destruct l). rewrite IH by done.
  by rewrite <- app_assoc.
Qed.
Lemma version_iff e v : version_str e = v <-> version_of (ep_format e) v.
Proof.
  unfold version_str, version_of. generalize (ep_format e). intros f. clear e. split.
  - intros <-. destruct (list.last (split_slash f)) as [x|] eqn:E.
    2: { apply last_None in E. by apply split_ne in E. }
    apply last_Some in E as [l E]. assert (noslash x) as N.
    { pose proof (split_all_noslash f) as A. rewrite E in A. apply list.Forall_app in A as [_ A].
      exact (proj1 (list.Forall_singleton _ _) A). }
    split; [exact N|]. pose proof (join_split f) as J. rewrite E in J.
    destruct (decide (l = [])) as [->|L]; [left; by rewrite <- J|]. right. exists (join_slash l).
    rewrite <- J. by apply join_snoc.
  - intros (N & [->|(pre & ->)]).
    + by rewrite split_noslash.
    + by rewrite split_app, (split_noslash v), last_snoc.
Qed.

Section opening.
  Context (V : bytes -> option bool) (base : bytes) (s : fs).
  Hypothesis W : wf_fs s.
  Hypothesis PB : plain base.
  Notation zloc := (pieces base ++ [B "zarr.json"]).

  Lemma entry_doc :
    (file_at s zloc = None -> exists e, open_hier V base s = Err e)
    /\ forall text, file_at s zloc = Some text ->
       (forall e, reads_as entry_says text e ->
          (requires_extension (ep_exts e) -> open_hier V base s = Err Other)
          /\ (~ requires_extension (ep_exts e) -> forall v, version_of (ep_format e) v ->
                open_hier V base s = match V v with
                                     | Some true => Ok (Hier base e)
                                     | Some false => Err Other
                                     | None => Err InvalidData
                                     end))
       /\ ((forall e, ~ reads_as entry_says text e) -> open_hier V base s = Err InvalidData)
       /\ open_or_create V base s = (s, open_hier V base s).
  Proof.
    assert (comps (path_join base ENTRY_POINT_KEY) = map Normal zloc) as EC by by apply entry_comps.
    split.
    - intros E. unfold open_hier, read_entry_point. rewrite EC.
      destruct (open_read s (map Normal zloc)) as [c|e|] eqn:O.
      + exfalso. revert O. unfold open_read. destruct (walk s [] (map Normal zloc)) as [p| |] eqn:Ew; [|done..].
        cbn [mbind res_bind]. intros O. destruct (node_at s p) as [[|c']|] eqn:En; [done| |done].
        apply walk_normal_target in Ew. cbn [app] in Ew. subst p. apply file_at_some in En. congruence.
      + by exists e.
      + exfalso. by apply NdSafe.open_read_no_panic in O.
    - intros text E.
      assert (read_entry_point base s = (e ← from_text dec_ep text; _ ← check_exts (ep_exts e); Ok e)) as R.
      { unfold read_entry_point. rewrite EC. rewrite (open_read_plain _ _ _ W E). done. }
      unfold open_hier. rewrite R. split; [|split].
      + intros e He%(read_iff dec_ep entry_says text e ep_iff). rewrite He, bind_ok. split.
        * intros X. by rewrite check_exts_err.
        * intros X v Hv. rewrite check_exts_ok, !bind_ok by done. apply version_iff in Hv.
          unfold check_version. rewrite Hv. destruct (V v) as [[]|]; done.
      + intros N. destruct (from_text dec_ep text) as [e|e|] eqn:F.
        * exfalso. apply (N e). by apply (read_iff dec_ep entry_says text e ep_iff).
        * by rewrite (proj2 (clean_ep_text text) e F).
        * exfalso. by apply (proj1 (clean_ep_text text)).
      + rewrite open_existing; [unfold open_hier; by rewrite R|].
        rewrite EC, path_exists_plain by done. apply file_at_some in E. by rewrite E.
  Qed.

  Lemma entry_missing : node_at s zloc = None -> (forall k, file_at s (take k (pieces base)) = None) ->
    open_hier V base s = Err NotFound.
  Proof.
    intros E F. assert (comps (path_join base ENTRY_POINT_KEY) = map Normal zloc) as EC by by apply entry_comps.
    unfold open_hier, read_entry_point. rewrite EC. unfold open_read. rewrite walk_nofile.
    - cbn [app]. destruct (is_dir_at s (parent zloc)); [|done]. rewrite bind_ok, E. done.
    - done.
    - done.
    - intros k Hk. cbn [app]. rewrite app_length in Hk. cbn [length] in Hk. rewrite take_app_le by lia. apply F.
    - by destruct (pieces base).
  Qed.
End opening.
