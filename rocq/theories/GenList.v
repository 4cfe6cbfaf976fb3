(** The default listings (storage.rs:47-63) over any store whose `list_dir` does
    what the trait asks for. *)
From Verif Require Import GenHier Nd Spec SpecMeta SpecHier SpecStore BaseFacts PathFacts KeyFacts ListFacts GenFacts.

Section keys.
Context (keys : list bytes).
Hypothesis ND : NoDup keys.

Definition under (v : bytes) : list bytes := filter (fun k => v `prefix_of` k) keys.
Definition weight (v : bytes) : nat := sum_list (map (fun k => 1 + (length k - length v))%nat (under v)).
Definition weights (V : list bytes) : nat := sum_list (map weight V).

Lemma elem_under v k : k ∈ under v <-> v `prefix_of` k /\ k ∈ keys.
Proof. unfold under. by rewrite elem_of_list_filter. Qed.
Lemma under_nodup v : NoDup (under v).
Proof. by apply list.NoDup_filter. Qed.

(** What one call to list_dir returns. *)
Record dir_of (v : bytes) (ks ps : list bytes) : Prop := {
  d_ks : NoDup ks; d_ps : NoDup ps;
  d_keys : forall k, k ∈ ks <-> k ∈ keys /\ exists r, k = v ++ r /\ slash ∉ r;
  d_prefixes : forall q, q ∈ ps <-> exists r r', q = v ++ r ++ [slash] /\ slash ∉ r /\ q ++ r' ∈ keys
}.

Lemma first_slash (r r' u u' : bytes) : slash ∉ r -> slash ∉ r' -> r ++ slash :: u = r' ++ slash :: u' -> r = r' /\ u = u'.
Proof.
  revert r'. induction r as [|b r IH]; intros [|b' r'] N N' E; cbn [app] in E.
  - by injection E as ->.
  - injection E as <- _. destruct N'. by left.
  - injection E as -> _. destruct N. by left.
  - injection E as -> E. destruct (IH r') as [-> ->]; [| |done|done].
    + intros I. apply N. by right.
    + intros I. apply N'. by right.
Qed.
Lemma slash_split (r : bytes) : slash ∉ r \/ exists u w, r = u ++ slash :: w /\ slash ∉ u.
Proof.
  induction r as [|b r IH]; [left; apply not_elem_of_nil|].
  destruct (decide (b = slash)) as [->|N].
  - right. exists [], r. split; [done|]. apply not_elem_of_nil.
  - destruct IH as [IH|(u & w & -> & IH)].
    + left. intros [?|?]%elem_of_cons; congruence.
    + right. exists (b :: u), w. split; [done|]. intros [?|?]%elem_of_cons; congruence.
Qed.

Lemma elem_concat (ps : list bytes) k : k ∈ concat (map under ps) <-> exists q, q ∈ ps /\ k ∈ under q.
Proof.
  induction ps as [|p ps IH]; cbn [map concat].
  - split; [by intros ?%elem_of_nil|by intros (q & ?%elem_of_nil & _)].
  - rewrite elem_of_app, IH. split.
    + intros [I|(q & Q & I)]; [exists p; split; [by left|done]|exists q; split; [by right|done]].
    + intros (q & [->|Q]%elem_of_cons & I); [by left|right; by exists q].
Qed.
Lemma concat_nodup (ps : list bytes) : NoDup ps ->
  (forall q q' k, q ∈ ps -> q' ∈ ps -> q `prefix_of` k -> q' `prefix_of` k -> q = q') ->
  NoDup (concat (map under ps)).
Proof.
  induction 1 as [|q ps N _ IH]; intros D; [constructor|]. cbn [map concat].
  apply list.NoDup_app. split; [apply under_nodup|]. split.
  - intros k (P & _)%elem_under (q' & Hq' & Hl)%elem_concat.
    apply elem_under in Hl as [P' _].
    apply N. rewrite (D q q' k); [done|by left|by right|done|done].
  - apply IH. intros q1 q2 k Q1 Q2. apply D; by right.
Qed.
Lemma under_split v ks ps : dir_of v ks ps -> under v ≡ₚ ks ++ concat (map under ps).
Proof.
  intros D. assert (DJ : forall q q' k, q ∈ ps -> q' ∈ ps -> q `prefix_of` k -> q' `prefix_of` k -> q = q').
  { intros q q' k (r & _ & -> & N & _)%(d_prefixes _ _ _ D) (r' & _ & -> & N' & _)%(d_prefixes _ _ _ D) [u ->] [u' E].
    rewrite <- !app_assoc in E. apply app_inv_head in E. cbn [app] in E.
    apply first_slash in E as [-> _]; done. }
  apply list.NoDup_Permutation; [apply under_nodup| |].
  - apply list.NoDup_app. split; [apply D|]. split; [|apply concat_nodup; [apply D|done]].
    intros k (_ & r & -> & N)%(d_keys _ _ _ D) (q & Hq & Hl)%elem_concat.
    apply elem_under in Hl as [[u E] _].
    apply (d_prefixes _ _ _ D) in Hq as (r' & _ & -> & _). rewrite <- !app_assoc in E. apply app_inv_head in E.
    apply N. rewrite E. apply elem_of_app. right. by left.
  - intros k. rewrite elem_under, elem_of_app, (d_keys _ _ _ D), elem_concat. split.
    + intros [[r ->] K]. destruct (slash_split r) as [N|(u & w & -> & N)]; [left; by eauto|]. right.
      exists (v ++ u ++ [slash]). split.
      2: { apply elem_under. split; [|done]. exists w. by rewrite <- !app_assoc. }
      * apply (d_prefixes _ _ _ D). exists u, w. split; [done|]. split; [done|].
        by rewrite <- !app_assoc.
    + intros [(K & r & -> & _)|(q & Hq & Hl)]; [split; [by eexists|done]|].
      apply elem_under in Hl as [[u ->] K]. split; [|done].
      apply (d_prefixes _ _ _ D) in Hq as (r & _ & -> & _). rewrite <- !app_assoc. by eexists.
Qed.

Lemma sum_le {A} (f g : A -> nat) l : (forall a, a ∈ l -> (f a <= g a)%nat) -> (sum_list (map f l) <= sum_list (map g l))%nat.
Proof.
  induction l as [|a l IH]; intros L; [done|]. cbn. assert (f a <= g a)%nat by (apply L; by left).
  assert (sum_list (map f l) <= sum_list (map g l))%nat by (apply IH; intros b Hb; apply L; by right). lia.
Qed.
Lemma sum_cons (f : bytes -> nat) a l : sum_list (map f (a :: l)) = (f a + sum_list (map f l))%nat.
Proof. done. Qed.
Lemma sum_perm (f : bytes -> nat) l l' : l ≡ₚ l' -> sum_list (map f l) = sum_list (map f l').
Proof. induction 1; cbn; lia. Qed.
Lemma sum_app (f : bytes -> nat) l l' : sum_list (map f (l ++ l')) = (sum_list (map f l) + sum_list (map f l'))%nat.
Proof. induction l as [|x l IH]; cbn; lia. Qed.

(** Descending costs less than the directory did. *)
Lemma weights_dir v ks ps : dir_of v ks ps -> under v <> [] -> (S (weights ps) <= weight v)%nat.
Proof.
  intros D NE. unfold weight. rewrite (sum_perm _ _ _ (under_split v ks ps D)), sum_app.
  set (f := fun k : bytes => (1 + (length k - length v))%nat).
  assert (Q : forall q, q ∈ ps -> (length v < length q)%nat /\ exists k, k ∈ under q).
  { intros q Hq. apply (d_prefixes _ _ _ D) in Hq as (r & r' & -> & _ & K). split; [rewrite !app_length; cbn; lia|].
    eexists. apply elem_under. split; [|exact K]. by eexists. }
  assert (L : forall l, (forall q, q ∈ l -> q ∈ ps) ->
    (weights l <= sum_list (map f (concat (map under l))) /\ (l <> [] -> S (weights l) <= sum_list (map f (concat (map under l)))))%nat).
  { induction l as [|q l IH]; intros Hl; [done|]. destruct IH as [IH _]; [intros; apply Hl; by right|].
    destruct (Q q) as [Lq [k Hk]]; [apply Hl; by left|].
    unfold weights in *. rewrite sum_cons. cbn [map concat]. rewrite sum_app.
    assert (S (weight q) <= sum_list (map f (under q)))%nat; [|lia].
    assert (SL : forall l', (forall k', k' ∈ l' -> q `prefix_of` k') ->
      (sum_list (map (fun k' => 1 + (length k' - length q)) l') + length l' <= sum_list (map f l'))%nat).
    { induction l' as [|k' l' IH']; intros P; [done|]. rewrite !sum_cons. cbn [length].
      assert (q `prefix_of` k') as PK by (apply P; by left). apply prefix_length in PK.
      assert (forall k0, k0 ∈ l' -> q `prefix_of` k0) as P' by (intros; apply P; by right).
      specialize (IH' P'). unfold f at 1. lia. }
    assert (length (under q) <> 0%nat) by (destruct (under q); [by apply elem_of_nil in Hk|done]).
    unfold weight. specialize (SL (under q)). feed specialize SL; [by intros k' [? _]%elem_under|]. lia. }
  destruct ps as [|q ps].
  - cbn. rewrite Nat.add_0_r. pose proof (under_split v ks [] D) as P. cbn in P. rewrite app_nil_r in P.
    destruct ks as [|k ks]; [by apply Permutation_nil_r in P|]. cbn. unfold f. lia.
  - destruct (L (q :: ps)) as [_ L2]; [done|]. specialize (L2 ltac:(done)). lia.
Qed.

(** The loop from any stack of prefixes that have keys. *)
Context (list_dir : bytes -> res (list bytes * list bytes)).
Hypothesis LD : forall v, exists ks ps, list_dir v = Ok (ks, ps) /\ dir_of v ks ps.
Lemma rev_nil {A} (l : list A) : rev l = [] -> l = [].
Proof. intros E. apply (f_equal (@rev A)) in E. by rewrite rev_involutive in E. Qed.
Lemma loop_ok fuel : forall V L, (forall v, v ∈ V -> under v <> []) -> (weights V <= fuel)%nat ->
  exists l, list_prefix_loop list_dir fuel V L = Some (Ok (L ++ l)) /\ l ≡ₚ concat (map under V).
Proof.
  induction fuel as [|fuel IH]; intros V L NE F.
  - assert (V = []) as ->.
    { destruct V as [|v V]; [done|]. exfalso. assert (under v <> []) as U by (apply NE; by left).
      unfold weights in F. cbn in F. assert (weight v = 0%nat) as Z by lia. unfold weight in Z.
      destruct (under v); [done|]. cbn in Z. lia. }
    exists []. split; [cbn; by rewrite app_nil_r|done].
  - cbn [list_prefix_loop]. destruct (rev V) as [|v rest] eqn:E.
    + apply rev_nil in E as ->. exists []. split; [by rewrite app_nil_r|done].
    + assert (V = rev rest ++ [v]) as ->.
      { apply (f_equal (@rev bytes)) in E. rewrite rev_involutive in E. by rewrite E. }
      clear E. destruct (LD v) as (ks & ps & -> & D).
      assert (U : under v <> []) by (apply NE; apply elem_of_app; right; by left).
      assert (W := weights_dir v ks ps D U).
      destruct (IH (rev rest ++ ps) (L ++ ks)) as (l & E & P).
      * intros q [Hq|Hq]%elem_of_app; [apply NE; apply elem_of_app; by left|].
        apply (d_prefixes _ _ _ D) in Hq as (r & r' & -> & _ & K). intros X.
        eapply elem_of_nil. rewrite <- X. apply elem_under. split; [|exact K]. by eexists.
      * unfold weights in *. rewrite sum_app in F |- *. cbn in F. lia.
      * exists (ks ++ l). split; [by rewrite app_assoc|]. rewrite P, !map_app, !concat_app. cbn.
        rewrite app_nil_r, (under_split v ks ps D). rewrite (Permutation_app_comm ks), <- app_assoc.
        f_equiv. by rewrite Permutation_app_comm.
Qed.
Lemma list_prefix_ok v fuel : (S (weight v) <= fuel)%nat ->
  exists l, list_prefix_loop list_dir fuel [v] [] = Some (Ok l) /\ l ≡ₚ under v.
Proof.
  intros F. destruct (decide (under v = [])) as [E|NE].
  - destruct fuel as [|fuel]; [lia|]. cbn [list_prefix_loop rev app]. destruct (LD v) as (ks & ps & -> & D).
    assert (P := under_split v ks ps D). rewrite E in P. symmetry in P. apply Permutation_nil_r, app_eq_nil in P as [-> P].
    assert (ps = []) as ->.
    { destruct ps as [|q ps]; [done|]. exfalso. assert (q ∈ q :: ps) as Hq by by left.
      apply (d_prefixes _ _ _ D) in Hq as (r & r' & -> & _ & K). cbn in P. apply app_eq_nil in P as [P _].
      eapply elem_of_nil. rewrite <- P. apply elem_under. split; [|exact K]. by eexists. }
    exists []. rewrite E. split; [|done]. by destruct fuel.
  - destruct (loop_ok fuel [v] []) as (l & E & P).
    + by intros q ->%elem_of_list_singleton.
    + unfold weights. cbn. lia.
    + exists l. split; [done|]. rewrite P. cbn. by rewrite app_nil_r.
Qed.
End keys.

Definition stored (m : gmap bytes bytes) : list bytes := map fst (map_to_list m).
Lemma stored_nodup m : NoDup (stored m).
Proof. apply NoDup_fst_map_to_list. Qed.
Lemma elem_stored m k : k ∈ stored m <-> is_Some (m !! k).
Proof.
  unfold stored. rewrite elem_of_list_fmap. split.
  - intros ([k' v] & -> & I). apply elem_of_map_to_list in I. by eexists.
  - intros [v I]. exists (k, v). split; [done|]. by apply elem_of_map_to_list.
Qed.
Lemma lawful_dir {S} (st : store S) kv x : lists_dir st kv ->
  forall v, exists ks ps, ss_list_dir st x v = Ok (ks, ps) /\ dir_of (stored (kv x)) v ks ps.
Proof.
  intros L v. destruct (L x v) as (ks & ps & E & N1 & N2 & K & P). exists ks, ps. split; [done|]. split; try done.
  - intros k. by rewrite elem_stored.
  - intros q. rewrite P. split; intros (r & r' & ? & ? & ?); exists r, r'; by rewrite elem_stored in *.
Qed.
Lemma any_list_prefix {S} (st : store S) kv x p : lists_dir st kv ->
  exists n, forall fuel, (n <= fuel)%nat -> exists l, g_list_prefix st x fuel p = Some (Ok l)
    /\ NoDup l /\ forall k, k ∈ l <-> is_Some (kv x !! k) /\ p `prefix_of` k.
Proof.
  intros L. exists (Datatypes.S (weight (stored (kv x)) p)). intros fuel F.
  destruct (list_prefix_ok (stored (kv x)) (stored_nodup _) (ss_list_dir st x) (lawful_dir st kv x L) p fuel F)
    as (l & E & P).
  exists l. split; [done|]. split.
  - rewrite P. apply under_nodup, stored_nodup.
  - intros k. rewrite P, elem_under, elem_stored. tauto.
Qed.

(** ** list_nodes *)
Local Open Scope Z_scope.

Lemma mapM_cases {A B : Type} (f : A -> res B) l : (forall a e, f a <> Err e) ->
  mapM_res f l = Panic \/ exists l', mapM_res f l = Ok l' /\ forall a b, a ∈ l -> f a = Ok b -> b ∈ l'.
Proof.
  intros NE. induction l as [|a l IH]; [right; exists []; split; [done|by intros a b ?%elem_of_nil]|]. cbn [mapM_res].
  destruct (f a) as [b|e|] eqn:E; [|by apply NE in E|by left]. rewrite bind_ok.
  destruct IH as [->|(l' & -> & IH)]; [by left|right]. exists (b :: l'). split; [done|].
  intros a' b' [->|I]%elem_of_cons F; [rewrite E in F; injection F as ->; by left|right; by eapply IH].
Qed.
Lemma truncate_no_err p n k e : truncate_by p n k <> Err e.
Proof. unfold truncate_by, sub64, chk64. destruct p, (_ && _); done. Qed.
Lemma ends_app (a b : bytes) : ends_with b (a ++ b) = true.
Proof.
  unfold ends_with. rewrite rev_app_distr. induction (rev b) as [|x l IH]; [by destruct (rev a)|]. cbn.
  by rewrite bool_decide_eq_true_2.
Qed.
Lemma truncate_app p (a b : bytes) : b <> [] -> lenZ (a ++ b) < two64 -> truncate_by p (lenZ b) (a ++ b) = Ok a.
Proof.
  intros NE L. unfold truncate_by. rewrite app_lenZ in *. pose proof (lenZ_nonneg a). pose proof (lenZ_nonneg b).
  rewrite sub64_ok by (unfold is_u64; lia). rewrite bind_ok, Z.add_simpl_r.
  assert (lenZ b <> 0) by (unfold lenZ; destruct b; [done|cbn [length]; lia]).
  destruct (Z.leb_spec (lenZ a + lenZ b) (lenZ a)); [lia|]. f_equal. unfold lenZ. rewrite Nat2Z.id. apply take_app.
Qed.
Lemma gen_panics {S} (st : store S) kv sfx p x path n ext : lists_dir st kv -> sfx <> [] -> is_node_ext ext ->
  let kp := META_ROOT_PATH ++ slash :: canonicalize_path path in
  slash ∉ n ++ dot :: ext ++ sfx -> is_Some (kv x !! (kp ++ n ++ dot :: ext ++ sfx)) ->
  lenZ n < lenZ sfx <= lenZ kp + lenZ n -> lenZ (kp ++ n ++ dot :: ext ++ sfx) < two64 ->
  g_list_nodes st sfx p x path = Panic.
Proof.
  intros L NE X kp NS K LN LK. unfold g_list_nodes. cbv zeta. fold kp.
  destruct (L x kp) as (ks & ps & -> & _ & _ & EK & _). rewrite bind_ok.
  assert (I : kp ++ n ++ dot :: ext ++ sfx ∈ ks) by (apply EK; split; [done|by eexists]).
  assert (A : kp ++ n ++ dot :: ext ++ sfx = (kp ++ n ++ dot :: ext) ++ sfx) by by rewrite <- !app_assoc.
  rewrite A in I, LK.
  destruct (mapM_cases (truncate_by p (lenZ sfx)) (filter (fun k => ends_with sfx k = true) ks)) as [->|(k1 & -> & I1)];
    [intros; apply truncate_no_err|done|]. rewrite bind_ok.
  assert (J1 : kp ++ n ++ dot :: ext ∈ k1).
  { eapply I1; [|by apply truncate_app]. apply elem_of_list_filter. split; [apply ends_app|done]. }
  clear I1. set (k2 := filter _ k1).
  assert (J2 : kp ++ n ++ dot :: ext ∈ k2).
  { apply elem_of_list_filter. split; [|done].
    assert (kp ++ n ++ dot :: ext = (kp ++ n ++ [dot]) ++ ext) as E by by rewrite <- !app_assoc.
    destruct X as [X|X]; subst ext; rewrite E, ends_app; [done|]. apply orb_true_r. }
  clearbody k2. clear J1 k1.
  set (m := lenZ sfx + lenZ ARRAY_METADATA_KEY_EXT + 1).
  destruct (mapM_cases (truncate_by p m) k2) as [->|(k3 & -> & I3)]; [intros; apply truncate_no_err|done|]. rewrite bind_ok.
  assert (LE : lenZ ext = 5) by (unfold lenZ; by rewrite node_ext_len).
  assert (LF : lenZ (kp ++ n ++ dot :: ext) = lenZ kp + lenZ n + 6) by (rewrite app_lenZ, app_lenZ, lenZ_cons; lia).
  assert (J3 : take (Z.to_nat (lenZ kp + lenZ n - lenZ sfx)) (kp ++ n ++ dot :: ext) ∈ k3).
  { eapply I3; [done|]. unfold truncate_by. rewrite LF. unfold m. change (lenZ ARRAY_METADATA_KEY_EXT) with 5.
    rewrite app_lenZ, LF in LK. pose proof (lenZ_nonneg sfx). pose proof (lenZ_nonneg kp). pose proof (lenZ_nonneg n).
    rewrite sub64_ok by (unfold is_u64; lia). rewrite bind_ok.
    replace (lenZ kp + lenZ n + 6 - (lenZ sfx + 5 + 1)) with (lenZ kp + lenZ n - lenZ sfx) by lia.
    destruct (Z.leb_spec (lenZ kp + lenZ n + 6) (lenZ kp + lenZ n - lenZ sfx)); [lia|done]. }
  apply mapM_panic.
  { intros a e. unfold drain_to. by destruct (_ <=? _)%nat. }
  eexists. split; [apply dedup_elem; rewrite sort_perm; apply elem_of_app; left; exact J3|].
  unfold drain_to. rewrite (proj2 (Nat.leb_gt _ _)); [done|]. rewrite take_length. unfold lenZ in *. lia.
Qed.

Lemma join_snoc u (n e : bytes) : join_slash (u ++ [n ++ e]) = join_slash (u ++ [n]) ++ e.
Proof.
  destruct u as [|x u]; [done|]. rewrite !join_app by done. cbn [join_slash]. by rewrite <- app_assoc.
Qed.
(** Any node other than the root. *)
Lemma any_list_nodes {S} (st : store S) kv sfx t p x path : lists_dir st kv -> good_suffix sfx -> sfx = dot :: t ->
  lenZ sfx <= 11 -> tidy_path path -> plain path -> pieces path <> [] -> lenZ path < two32 ->
  is_Some (kv x !! array_metadata_key sfx path) \/ is_Some (kv x !! group_metadata_key sfx path) ->
  g_list_nodes st sfx p x path = Panic.
Proof.
  intros L GS SX L11 T P NR LP K.
  assert (exists ext, is_node_ext ext /\ is_Some (kv x !! metadata_key ext sfx path)) as (ext & X & K').
  { destruct K as [K|K]; [exists ARRAY_METADATA_KEY_EXT|exists GROUP_METADATA_KEY_EXT]; (split; [|done]); [by left|by right]. }
  clear K. destruct (meta_key_form sfx GS ext path X T P) as (l & n & E & _ & _ & Q).
  set (kp := META_ROOT_PATH ++ slash :: canonicalize_path path).
  assert (EK : metadata_key ext sfx path = kp ++ [] ++ dot :: ext ++ sfx).
  { rewrite E. unfold kp. rewrite tidy_canon by done. destruct (pieces path) as [|y ys _] using rev_ind; [done|].
    assert (l ++ [n] = ([B "meta"; B "root"] ++ ys) ++ [y]) as Q' by by rewrite Q.
    apply app_inj_tail in Q' as [-> ->].
    change (META_ROOT_PATH) with (key_of [B "meta"; B "root"]). rewrite <- (key_of_app [B "meta"; B "root"]) by by destruct ys.
    rewrite app_assoc. unfold key_of. rewrite !app_comm_cons.
    rewrite join_snoc. cbn [app]. rewrite SX. cbn [strip_dot]. rewrite bool_decide_eq_true_2 by done. by rewrite app_nil_r. }
  rewrite EK in K'. assert (LX : lenZ ext = 5) by (unfold lenZ; by rewrite node_ext_len).
  assert (KL := kp_len path). feed specialize KL; [done|]. fold kp in KL.
  eapply (gen_panics st kv sfx p x path [] ext); [done|by rewrite SX|done| |done| |].
  - destruct (node_ext_ok ext X) as (X1 & _). cbn [app]. apply cons_noslash. split; [done|]. apply app_noslash. split; [done|].
    rewrite SX. apply cons_noslash. split; [done|]. destruct GS as [G _]. rewrite SX in G. cbn in G.
    by rewrite bool_decide_eq_true_2 in G.
  - fold kp. change (lenZ (@nil ascii)) with 0. rewrite SX in *. rewrite lenZ_cons in *. pose proof (lenZ_nonneg t). lia.
  - fold kp. cbn [app]. rewrite app_lenZ, lenZ_cons, app_lenZ.
    change two32 with 4294967296 in *. change two64 with 18446744073709551616. lia.
Qed.
(** The root, with a child whose name is short. *)
Lemma any_list_root {S} (st : store S) kv sfx t p x n : lists_dir st kv -> good_suffix sfx -> sfx = dot :: t ->
  lenZ sfx <= 11 -> pieces n = [n] -> n <> dotdot -> lenZ n < lenZ sfx ->
  is_Some (kv x !! array_metadata_key sfx n) \/ is_Some (kv x !! group_metadata_key sfx n) ->
  g_list_nodes st sfx p x [] = Panic.
Proof.
  intros L GS SX L11 N D LN K.
  assert (exists ext, is_node_ext ext /\ is_Some (kv x !! metadata_key ext sfx n)) as (ext & X & K').
  { destruct K as [K|K]; [exists ARRAY_METADATA_KEY_EXT|exists GROUP_METADATA_KEY_EXT]; (split; [|done]); [by left|by right]. }
  clear K. destruct (meta_key_form sfx GS ext n X) as (l & y & E & _ & _ & Q).
  { exists 0%nat, 0%nat. rewrite N. cbn. by rewrite app_nil_r. }
  { unfold plain. rewrite N. by intros ?%elem_of_list_singleton. }
  rewrite N in Q. change [B "meta"; B "root"; n] with ([B "meta"; B "root"] ++ [n]) in Q. apply app_inj_tail in Q as [-> ->].
  assert (ES : sfx = dot :: strip_dot sfx) by (rewrite SX; cbn; by rewrite bool_decide_eq_true_2).
  set (kp := META_ROOT_PATH ++ slash :: canonicalize_path []).
  assert (EK : metadata_key ext sfx n = kp ++ n ++ dot :: ext ++ sfx).
  { rewrite E, ES at 1. cbn [strip_dot]. rewrite bool_decide_eq_true_2 by done. rewrite <- ES. rewrite key_of_app by done. done. }
  rewrite EK in K'. assert (LX : lenZ ext = 5) by (unfold lenZ; by rewrite node_ext_len).
  assert (NN : noslash n) by (assert (F := pieces_noslash n); rewrite N in F; by inversion F).
  eapply (gen_panics st kv sfx p x [] n ext); [done|by rewrite SX|done| |done| |].
  - destruct (node_ext_ok ext X) as (X1 & _). apply app_noslash. split; [done|]. apply cons_noslash. split; [done|].
    apply app_noslash. split; [done|]. rewrite ES. apply cons_noslash. split; [done|]. apply GS.
  - fold kp. change (lenZ kp) with 11. pose proof (lenZ_nonneg n). lia.
  - fold kp. rewrite app_lenZ, app_lenZ, lenZ_cons, app_lenZ. change (lenZ kp) with 11.
    change two64 with 18446744073709551616. lia.
Qed.

(** ** The map as a store *)

Lemma upto_spec r : r = fst (upto_slash r) ++ drop (length (fst (upto_slash r))) r /\ slash ∉ fst (upto_slash r)
  /\ (snd (upto_slash r) = true -> exists w, drop (length (fst (upto_slash r))) r = slash :: w)
  /\ (snd (upto_slash r) = false -> drop (length (fst (upto_slash r))) r = []).
Proof.
  induction r as [|b r (E & N & T & F)]; [split_and!; try done; apply not_elem_of_nil|]. cbn [upto_slash]. case_bool_decide as D.
  - subst b. cbn. split; [done|]. split; [apply not_elem_of_nil|]. split; [by eexists|done].
  - destruct (upto_slash r) as [u f]. cbn in *. split; [by f_equal|]. split; [|done].
    intros [?|?]%elem_of_cons; congruence.
Qed.
Lemma upto_none r : slash ∉ r -> upto_slash r = (r, false).
Proof.
  induction r as [|b r IH]; intros N; [done|]. cbn. rewrite bool_decide_eq_false_2 by (intros ->; apply N; by left).
  rewrite IH; [done|]. intros I. apply N. by right.
Qed.
Lemma upto_some r w : slash ∉ r -> upto_slash (r ++ slash :: w) = (r, true).
Proof.
  induction r as [|b r IH]; intros N; [done|]. cbn [app upto_slash]. rewrite bool_decide_eq_false_2 by (intros ->; apply N; by left).
  rewrite IH; [done|]. intros I. apply N. by right.
Qed.
Lemma map_lists_dir erased `{forall p k, Decision (erased p k)} : lists_dir (map_store erased) id.
Proof.
  intros m p. cbn [map_store ss_list_dir id]. unfold map_list_dir. set (ks := filter _ (map fst _)).
  assert (KS : forall k, k ∈ ks <-> p `prefix_of` k /\ is_Some (m !! k)).
  { intros k. unfold ks. rewrite elem_of_list_filter. by rewrite (elem_stored m k). }
  eexists _, _. split; [done|]. split; [|split; [apply NoDup_remove_dups|split]].
  - apply list.NoDup_filter, list.NoDup_filter, stored_nodup.
  - intros k. rewrite elem_of_list_filter, KS. split.
    + intros (F & [r ->] & K). split; [done|]. exists r. split; [done|]. rewrite drop_app in F.
      destruct (upto_spec r) as (E & N & _ & X). rewrite (X F), app_nil_r in E. by rewrite E.
    + intros (K & r & -> & N). split; [|split; [by eexists|done]]. by rewrite drop_app, upto_none.
  - intros q. rewrite elem_of_remove_dups, elem_of_list_fmap. split.
    + intros (k & -> & I). apply elem_of_list_filter in I as [F I]. apply KS in I as [[r ->] K]. rewrite drop_app in F |- *.
      destruct (upto_spec r) as (E & N & X & _). destruct (X F) as [w Ew]. rewrite Ew in E.
      exists (fst (upto_slash r)), w. split; [done|]. split; [done|]. rewrite E in K. rewrite <- !app_assoc. done.
    + intros (r & r' & -> & N & K). exists ((p ++ r ++ [slash]) ++ r').
      assert (D : drop (length p) ((p ++ r ++ [slash]) ++ r') = r ++ slash :: r') by (rewrite <- !app_assoc; apply drop_app).
      rewrite D, upto_some by done. split; [done|]. apply elem_of_list_filter. rewrite D, upto_some by done.
      split; [done|]. apply KS. split; [|done]. exists (r ++ slash :: r'). by rewrite <- !app_assoc.
Qed.
Lemma map_map_like erased `{forall p k, Decision (erased p k)} : map_like (map_store erased) erased id.
Proof.
  split; cbn [map_store ss_exists ss_get ss_set ss_erase ss_erase_prefix id fst snd]; try done.
  - intros m k c. by eexists.
  - intros m k. by eexists.
  - intros m p. eexists. split; [done|]. intros k. split.
    + intros E. apply map_filter_lookup_None. right. intros c _ N. by apply N.
    + intros E. destruct (m !! k) as [c|] eqn:K.
      * by apply map_filter_lookup_Some.
      * apply map_filter_lookup_None. by left.
Qed.
Lemma any_list {S} (st : store S) kv x : lists_dir st kv ->
  exists n, forall fuel, (n <= fuel)%nat -> exists l, g_list st x fuel = Some (Ok l)
    /\ NoDup l /\ forall k, k ∈ l <-> is_Some (kv x !! k) /\ exists r, k = slash :: r.
Proof.
  intros L. destruct (any_list_prefix st kv x (B "/") L) as [n Hn]. exists n. intros fuel F.
  destruct (Hn fuel F) as (l & E & N & K). exists l. done.
Qed.
