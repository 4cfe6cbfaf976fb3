(** The hierarchy operations over any map-like store behave as over the file
    system: keys of the library for tidy paths determine their components. *)
From Verif Require Import GenHier Nd Spec SpecMeta SpecHier SpecStore BaseFacts PathFacts FSFacts KeyFacts HierFacts
  RefFacts.
Local Open Scope Z_scope.

(** ** Tidy keys *)

Definition names (l : list bytes) : Prop := Forall noslash l /\ Forall nj l.
Definition key_of (l : list bytes) : bytes := join_slash ([] :: l).
Definition tidy (k : bytes) : Prop := exists l, l <> [] /\ names l /\ k = key_of l.

Lemma names_app a b : names (a ++ b) <-> names a /\ names b.
Proof. unfold names. rewrite !list.Forall_app. tauto. Qed.
Lemma names_cons p l : names (p :: l) <-> (noslash p /\ is_junk p = false) /\ names l.
Proof. unfold names. rewrite !list.Forall_cons. tauto. Qed.
Lemma names_nil : names [].
Proof. split; constructor. Qed.
Lemma names_pieces s : names (pieces s).
Proof. split; [apply pieces_noslash|apply pieces_nj]. Qed.
Lemma names_meta : names [B "meta"; B "root"].
Proof. split; (repeat constructor); unfold noslash; by apply (bool_decide_eq_true_1 _). Qed.
Lemma names_data : names [B "data"; B "root"].
Proof. split; (repeat constructor); unfold noslash; by apply (bool_decide_eq_true_1 _). Qed.
Lemma filter_nj l : Forall nj l -> filter nj l = l.
Proof. induction 1 as [|x l J F IH]; [done|]. rewrite filter_cons_True by done. by rewrite IH. Qed.
Lemma pieces_key_of l : names l -> pieces (key_of l) = l.
Proof.
  intros [N J]. unfold key_of. rewrite pieces_join by (constructor; [apply not_elem_of_nil|done]).
  rewrite filter_cons_False by done. by apply filter_nj.
Qed.
Lemma tidy_pieces k : tidy k -> k = key_of (pieces k).
Proof. intros (l & _ & N & ->). by rewrite pieces_key_of. Qed.
Lemma tidy_inj k k' : tidy k -> tidy k' -> pieces k = pieces k' -> k = k'.
Proof. intros T T' E. rewrite (tidy_pieces k T), (tidy_pieces k' T'). by rewrite E. Qed.

Lemma join_app a b : a <> [] -> b <> [] -> join_slash (a ++ b) = join_slash a ++ slash :: join_slash b.
Proof.
  intros A Bn. induction a as [|x a IH]; [done|]. destruct a as [|y a].
  - cbn [app]. by rewrite join_cons.
  - cbn [app]. rewrite (join_cons x (y :: a ++ b)), (join_cons x (y :: a)) by done. change (y :: a ++ b) with ((y :: a) ++ b).
    rewrite IH by done. rewrite <- app_assoc. done.
Qed.
Lemma key_of_app a b : b <> [] -> key_of (a ++ b) = key_of a ++ slash :: join_slash b.
Proof. intros N. unfold key_of. by rewrite app_comm_cons, join_app. Qed.

(** ** Canonical paths *)

Lemma trim_start_hd s : has_root s = false -> trim_start_slash s = s.
Proof. apply trim_start_id. Qed.
Lemma join_names_noroot l : names l -> has_root (join_slash l) = false.
Proof. intros [N J]. apply has_root_join; [done|]. destruct l as [|[|] [|]]; try done. by inversion J. Qed.
Lemma trim_end_join l : names l -> trim_end_slash (join_slash l) = join_slash l.
Proof.
  intros [N J]. unfold trim_end_slash. rewrite trim_start_hd; [apply rev_involutive|].
  destruct l as [|n l _] using rev_ind; [done|].
  apply list.Forall_app in N as [_ N]. apply list.Forall_app in J as [_ J].
  inversion N as [|? ? N1 _]; subst. inversion J as [|? ? J1 _]; subst.
  assert (exists u, join_slash (l ++ [n]) = u ++ n) as [u ->].
  { destruct l as [|x l]; [by exists []|]. rewrite join_app by done. cbn [join_slash].
    exists (join_slash (x :: l) ++ [slash]). by rewrite <- app_assoc. }
  destruct n as [|b n _] using rev_ind; [done|]. rewrite rev_app_distr, rev_unit. cbn [app has_root].
  apply bool_decide_eq_false. intros ->. apply N1. apply elem_of_app. right. by left.
Qed.
Lemma trim_start_replicate i s : trim_start_slash (replicate i slash ++ s) = trim_start_slash s.
Proof. induction i as [|i IH]; [done|]. cbn [replicate app trim_start_slash]. by rewrite bool_decide_true. Qed.
Lemma rev_replicate i : rev (replicate i slash) = replicate i slash.
Proof. induction i as [|i IH]; [done|]. cbn [replicate rev]. by rewrite IH, <- replicate_cons_app. Qed.
Lemma trim_end_replicate j s : trim_end_slash (s ++ replicate j slash) = trim_end_slash s.
Proof. unfold trim_end_slash. by rewrite rev_app_distr, rev_replicate, trim_start_replicate. Qed.
Lemma tidy_canon path : tidy_path path -> canonicalize_path path = join_slash (pieces path).
Proof.
  pose proof (names_pieces path) as N. intros (i & j & E). rewrite E at 1. unfold canonicalize_path.
  rewrite trim_start_replicate. destruct (pieces path) as [|y ys] eqn:P.
  - cbn [join_slash app]. rewrite <- (app_nil_r (replicate j slash)), trim_start_replicate. done.
  - rewrite trim_start_hd.
    + rewrite trim_end_replicate. by apply trim_end_join.
    + pose proof (join_names_noroot _ N) as R. destruct (join_slash (y :: ys)) eqn:J; [|done].
      exfalso. apply (f_equal pieces) in J. rewrite pieces_join in J by apply N. by rewrite filter_nj in J by apply N.
Qed.

(** ** The library's keys are tidy *)

Lemma base_split (r : bytes) (root : bytes) P :
  names (r :: B "root" :: P) -> dotdot ∉ P -> r <> dotdot -> root = slash :: r ++ B "/root" ->
  exists l n, split_name (path_join root (join_slash P)) = Some ([] :: l, n)
              /\ names (l ++ [n]) /\ l ++ [n] = r :: B "root" :: P.
Proof.
  intros N D R ->. assert (N' := N). apply names_cons in N' as [[R1 R2] N']. apply names_cons in N' as [[T1 T2] NP].
  unfold path_join. rewrite join_names_noroot by done.
  change (slash :: r ++ B "/root") with ((slash :: r) ++ B "/root").
  assert (list.last ((slash :: r) ++ B "/root") = Some "t"%char) as ->.
  { change (B "/root") with (B "/roo" ++ ["t"%char]). rewrite app_assoc. apply last_snoc. }
  rewrite bool_decide_false by done.
  assert (K : ((slash :: r) ++ B "/root") ++ slash :: join_slash P = key_of [r; B "root"] ++ slash :: join_slash P) by done.
  rewrite K. destruct P as [|p P _] using rev_ind.
  - exists [r], (B "root"). cbn [join_slash]. split; [|done].
    replace (key_of [r; B "root"] ++ [slash]) with (join_slash [[]; r; B "root"; []]).
    2: { change [[]; r; B "root"; []] with ([[]; r; B "root"] ++ [[]]). by rewrite join_app. }
    unfold split_name. rewrite split_join; [|done|].
    2: { repeat (constructor; [first [done|apply not_elem_of_nil]|]). constructor. }
    change [[]; r; B "root"; []] with ([[]; r; B "root"] ++ [[]]).
    unfold trim_back. rewrite rev_app_distr. cbn [rev app trim_front].
    change (is_junk []) with true. cbn iota. change (is_junk (B "root")) with false. cbn iota.
    cbn [rev app]. done.
  - rewrite <- key_of_app by by destruct P. exists (r :: B "root" :: P), p.
    split; [|done]. unfold key_of. change ([] :: [r; B "root"] ++ P ++ [p]) with (([] :: r :: B "root" :: P) ++ [p]).
    apply names_app in NP as [NP Np]. apply names_cons in Np as [[P1 P2] _].
    apply split_name_join.
    + repeat (constructor; [first [done|apply not_elem_of_nil]|]). apply NP.
    + split; [done|]. split; [done|]. intros ->. apply D. apply elem_of_app. right. by left.
Qed.

Section keys.
Context (sfx : bytes).
Hypothesis GS : good_suffix sfx.
Notation sf := (strip_dot sfx).

Lemma meta_key_form ext path : is_node_ext ext -> tidy_path path -> plain path ->
  exists l n, metadata_key ext sfx path = key_of (l ++ [n ++ dot :: ext ++ dot :: sf])
    /\ names (l ++ [n]) /\ n <> dotdot /\ l ++ [n] = B "meta" :: B "root" :: pieces path.
Proof.
  intros X T P. destruct (node_ext_ok ext X) as (X1 & X2 & X3).
  destruct (base_split (B "meta") META_ROOT_PATH (pieces path)) as (l & n & E & N & L); [|done|done|done|].
  { apply (names_app [B "meta"; B "root"]). split; [apply names_meta|apply names_pieces]. }
  exists l, n. split; [|split; [done|]].
  - unfold metadata_key. cbv zeta. rewrite tidy_canon by done.
    rewrite (add_two_extensions _ _ _ _ _ E) by (done || apply GS). done.
  - split; [|done]. destruct (split_name_some _ _ _ E) as ((_ & _ & D) & _). done.
Qed.
Lemma tag_name ext n : is_node_ext ext -> noslash n -> is_junk n = false ->
  noslash (n ++ dot :: ext ++ dot :: sf) /\ is_junk (n ++ dot :: ext ++ dot :: sf) = false.
Proof.
  intros X N J. destruct (node_ext_ok ext X) as (X1 & _). split.
  - apply app_noslash. split; [done|]. apply cons_noslash. split; [done|]. apply app_noslash.
    split; [done|]. apply cons_noslash. split; [done|]. apply GS.
  - apply nj_app; [by apply nj_ne in J as [? _]|done].
Qed.
Lemma meta_key_tidy ext path : is_node_ext ext -> tidy_path path -> plain path ->
  tidy (metadata_key ext sfx path).
Proof.
  intros X T P. destruct (meta_key_form ext path X T P) as (l & n & E & N & _).
  apply names_app in N as [N1 N2]. apply names_cons in N2 as [[N2 N3] _].
  eexists. split; [|split; [|exact E]]; [by destruct l|]. apply names_app. split; [done|].
  apply names_cons. split; [|apply names_nil]. by apply tag_name.
Qed.
Lemma stem_key_tidy path : tidy_path path -> plain path ->
  tidy (set_extension (set_extension (group_metadata_key sfx path) []) []).
Proof.
  intros T P. destruct (meta_key_form _ path (or_intror eq_refl) T P) as (l & n & E & N & D & _).
  assert (N' := N). apply names_app in N as [N1 N2]. apply names_cons in N2 as [[N2 N3] _].
  assert (NE : n <> []) by by apply nj_ne in N3 as [? _].
  unfold group_metadata_key. rewrite E.
  assert (S1 : forall m e, m <> [] -> dot ∉ e -> name_ok (m ++ dot :: e) ->
    set_extension (key_of (l ++ [m ++ dot :: e])) [] = key_of (l ++ [m])).
  { intros m e M X O. unfold set_extension, key_of. rewrite !app_comm_cons, split_name_join; [|constructor; [apply not_elem_of_nil|apply N1]|done].
    rewrite split_ext_app by done. cbn [fst]. by rewrite app_nil_r. }
  replace (n ++ dot :: GROUP_METADATA_KEY_EXT ++ dot :: sf) with ((n ++ dot :: GROUP_METADATA_KEY_EXT) ++ dot :: sf)
    by by rewrite <- app_assoc.
  assert (X := ext_group_ok). destruct X as (X1 & X2 & X3).
  assert (O1 : name_ok (n ++ dot :: GROUP_METADATA_KEY_EXT)) by (apply name_ok_ext; [by split|done|done]).
  rewrite S1; [|by destruct n|apply GS|].
  2: { apply name_ok_dot; [done|apply GS|]. apply elem_of_app. right. by left. }
  rewrite S1; [|done|done|done]. by exists (l ++ [n]); split; [destruct l|].
Qed.
End keys.

(** *** Chunk keys *)

Lemma coords_names sep pos : pos_ok pos -> good_sep sep -> tidy_sep sep ->
  names (split_slash ("c"%char :: coords_str sep pos)).
Proof.
  intros P G [->|N].
  - assert (X : forall pos, pos_ok pos -> pos <> [] -> split_slash (coords_str [slash] pos) = map show_nat pos).
    { clear. induction 1 as [|z pos Pz P IH]; [done|]. intros _. destruct pos as [|z' pos].
      - cbn. rewrite split_noslash; [done|]. apply digits_notin; [by apply show_digits|done].
      - cbn [coords_str]. change (map show_nat (z :: z' :: pos)) with ([show_nat z] ++ map show_nat (z' :: pos)).
        rewrite <- IH by done. cbn [app]. rewrite split_app, split_noslash; [done|].
        apply digits_notin; [by apply show_digits|done]. }
    cbn [split_slash]. rewrite bool_decide_false by done.
    destruct pos as [|z pos].
    { cbn. apply names_cons. split; [|apply names_nil]. split; [|done]. by apply (bool_decide_eq_true_1 _). }
    rewrite X by done. cbn [map].
    assert (D : forall z, is_u64 z -> noslash (show_nat z) /\ is_junk (show_nat z) = false).
    { intros y Hy. assert (Dy := show_digits y Hy). assert (Ny := show_ne y Hy). split; [by apply digits_notin|].
      apply nj_intro; [done|]. intros E. rewrite E in Dy. by inversion Dy. }
    inversion P as [|? ? Pz P']; subst. apply names_cons. split.
    + destruct (D z Pz) as [D1 D2]. split; [by apply cons_noslash|]. apply nj_intro; [done|].
      intros [=].
    + split; apply list.Forall_forall; intros y (w & -> & Hw)%elem_of_list_fmap;
        unfold pos_ok in P'; rewrite list.Forall_forall in P'; by apply D, P'.
  - assert (NS : noslash ("c"%char :: coords_str sep pos)).
    { apply cons_noslash. split; [done|]. intros I. apply coords_chars in I as [I|I]; [|done|done].
      apply digit_chars in I. tauto. }
    rewrite split_noslash by done. apply names_cons. split; [|apply names_nil]. split; [done|].
    apply nj_intro; [done|]. intros [=].
Qed.
Lemma chunk_key_tidy path m pos : tidy_path path -> pos_ok pos -> good_sep (am_sep m) -> tidy_sep (am_sep m) ->
  tidy (get_chunk_key path m pos).
Proof.
  intros T P G S. pose proof (coords_names _ pos P G S) as N. pose proof (names_pieces path) as NP.
  exists ([B "data"; B "root"] ++ pieces path ++ split_slash ("c"%char :: coords_str (am_sep m) pos)).
  split; [done|]. split; [apply names_app; split; [apply names_data|by apply names_app]|].
  assert (J := join_split ("c"%char :: coords_str (am_sep m) pos)).
  assert (NE := split_ne ("c"%char :: coords_str (am_sep m) pos)).
  set (q := split_slash ("c"%char :: coords_str (am_sep m) pos)) in *.
  unfold get_chunk_key. cbv zeta. rewrite tidy_canon by done.
  destruct (pieces path) as [|p ps] eqn:E.
  - change ([B "data"; B "root"] ++ [] ++ q) with ([B "data"; B "root"] ++ q).
    rewrite key_of_app by done. rewrite J. done.
  - rewrite key_of_app by done. rewrite (join_app (p :: ps) q) by done. rewrite J.
    destruct (join_slash (p :: ps)) as [|x u] eqn:X.
    + exfalso. apply (f_equal pieces) in X. rewrite pieces_join in X by apply NP. by rewrite filter_nj in X by apply NP.
    + rewrite <- app_assoc. cbn [app]. f_equal. rewrite <- !app_assoc. done.
Qed.

(** *** Prefixes *)

Lemma tidy_below p k : tidy (trim_end_slash p) -> tidy k ->
  (below p k <-> pieces p `prefix_of` pieces k).
Proof.
  intros Tp Tk. rewrite <- (pieces_trim_end p). unfold below. set (q := trim_end_slash p) in *. split.
  - intros [->|[r ->]]; [done|]. exists (pieces r). rewrite <- app_assoc. apply pieces_app.
  - intros [r E]. rewrite (tidy_pieces k Tk), E, (tidy_pieces q Tp). destruct r as [|x r].
    + left. rewrite pieces_key_of by apply names_pieces. by rewrite app_nil_r.
    + right. rewrite pieces_key_of by apply names_pieces. rewrite key_of_app by done.
      exists (join_slash (x :: r)). by rewrite <- app_assoc.
Qed.
Lemma data_key_tidy path : tidy_path path -> tidy (trim_end_slash (data_path_key path)).
Proof.
  intros T. unfold data_path_key. rewrite tidy_canon by done. pose proof (names_pieces path) as N.
  unfold path_join. rewrite join_names_noroot by done.
  change (list.last DATA_ROOT_PATH) with (Some "t"%char). cbn iota. rewrite bool_decide_false by done.
  destruct (pieces path) as [|p ps] eqn:E.
  - exists [B "data"; B "root"]. split; [done|]. split; [apply names_data|]. done.
  - exists ([B "data"; B "root"] ++ p :: ps). split; [done|].
    assert (N' : names ([B "data"; B "root"] ++ p :: ps)) by (apply names_app; split; [apply names_data|done]).
    split; [done|].
    change (DATA_ROOT_PATH ++ slash :: join_slash (p :: ps)) with (key_of [B "data"; B "root"] ++ slash :: join_slash (p :: ps)).
    rewrite <- key_of_app by done. unfold trim_end_slash, key_of. rewrite join_cons by done.
    cbn [app]. assert (X := trim_end_join _ N'). unfold trim_end_slash in X. cbn [app] in X.
    set (u := join_slash _) in *.
    assert (U : u <> []).
    { unfold u. rewrite join_cons by done. done. }
    cbn [rev]. clearbody u. clear - X U.
    rewrite <- (rev_involutive u) in U. 
    destruct (rev u) as [|b r] eqn:Eu; [done|]. cbn [app].
    cbn [trim_start_slash] in X |- *. case_bool_decide as Hb.
    + exfalso. subst b. apply (f_equal length) in X. rewrite rev_length in X.
      assert (L : forall l, (length (trim_start_slash l) <= length l)%nat).
      { induction l as [|y l IH]; [done|]. cbn. case_bool_decide; cbn; lia. }
      specialize (L r). apply (f_equal length) in Eu. rewrite rev_length in Eu. cbn in Eu. lia.
    + change (b :: r ++ [slash]) with ((b :: r) ++ [slash]). rewrite rev_app_distr. cbn [rev app].
      f_equal. apply (f_equal (@rev ascii)) in Eu. rewrite rev_involutive in Eu. cbn [rev] in Eu. done.
Qed.
