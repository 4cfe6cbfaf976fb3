(** The file-system hierarchy refines the abstract hierarchy of SpecHier.v. *)
From Verif Require Import Hier Spec SpecMeta SpecHier BaseFacts DataTypeFacts PathFacts FSFacts KeyFacts HierFacts
  HistFacts ContainFacts JsonFacts JsonPrefix MetaJsonFacts NodeFacts.
Local Open Scope Z_scope.

(** ** Attribute maps *)

Lemma to_attrs_lookup l k : to_attrs l !! k = mget k l.
Proof.
  unfold to_attrs. induction l as [|[k' v] l IH]; [done|]. rewrite list_to_map_cons. cbn [mget fst snd].
  destruct (beq k k') eqn:E.
  - apply beq_true in E as ->. apply lookup_insert.
  - apply beq_false in E. by rewrite lookup_insert_ne.
Qed.
Lemma to_attrs_overridden old upd new : overridden old upd new -> to_attrs new = to_attrs upd ∪ to_attrs old.
Proof.
  intros [_ H]. apply map_eq. intros k. rewrite lookup_union, !to_attrs_lookup, H.
  destruct (mget k upd), (mget k old); done.
Qed.

(** ** Names *)

Definition tag (ext sfx : bytes) : bytes := dot :: ext ++ dot :: sfx.

Section names.
Context (sfx : bytes).
Notation ord := (ordinary_name sfx).
Notation sf := (strip_dot sfx).

Lemma tag_not_ord n ext : is_node_ext ext -> ~ ord (n ++ tag ext sf).
Proof. intros [->| ->] (_ & _ & H1 & H2); [by apply (H1 n)|by apply (H2 n)]. Qed.
Lemma root_ord : ord (B "root").
Proof.
  split; [done|]. split; [done|].
  split; intros k E; apply (f_equal length) in E; rewrite !app_length in E; cbn in E; lia.
Qed.
Lemma chunk_head0 sep pos : pos_ok pos -> good_sep sep -> exists x q, cpieces sep pos = x :: q /\
  ~ (x <> B "c" /\ forall b r, x = "c"%char :: b :: r -> is_digit b = false).
Proof.
  intros Hp (_ & Hc & _). unfold pieces. cbn [split_slash]. rewrite bool_decide_false by done.
  destruct (split_slash (coords_str sep pos)) as [|y r] eqn:E.
  { exfalso. by destruct (coords_str sep pos); cbn in E; [|destruct (bool_decide _), (split_slash _)]. }
  exists ("c"%char :: y). rewrite filter_cons_True; [|apply nj_intro; [done|by destruct y]].
  eexists. split; [done|]. intros (O1 & O2).
  destruct pos as [|z pos].
  { cbn in E. injection E as <- <-. done. }
  assert (exists b r', show_nat z = b :: r' /\ is_digit b = true) as (b & r' & Es & Eb).
  { inversion Hp as [|? ? Hz _]; subst. pose proof (show_digits z Hz) as D. pose proof (show_ne z Hz) as N.
    destruct (show_nat z) as [|b r']; [done|]. exists b, r'. split; [done|]. by inversion D. }
  assert (exists u, coords_str sep (z :: pos) = b :: u) as [u Eu].
  { cbn [coords_str]. destruct pos; rewrite Es; by eexists. }
  rewrite Eu in E. cbn [split_slash] in E. rewrite bool_decide_false in E.
  2: { intros ->. apply digit_chars in Eb. tauto. }
  destruct (split_slash u) as [|y' r''].
  - injection E as <- _. rewrite (O2 b [] eq_refl) in Eb. done.
  - injection E as <- _. rewrite (O2 b y' eq_refl) in Eb. done.
Qed.
Lemma chunk_head sep pos : pos_ok pos -> good_sep sep -> exists x q, cpieces sep pos = x :: q /\ ~ ord x.
Proof.
  intros P G. destruct (chunk_head0 sep pos P G) as (x & q & E & N). exists x, q. split; [done|].
  intros (O1 & O2 & _). by apply N.
Qed.

Lemma split_first {A} (P : A -> Prop) (a a' : list A) x x' q q' :
  Forall P a -> Forall P a' -> ~ P x -> ~ P x' -> a ++ x :: q = a' ++ x' :: q' ->
  a = a' /\ x :: q = x' :: q'.
Proof.
  intros Ha. revert a'. induction Ha as [|y a Hy Ha IH]; intros a' Ha' Hx Hx' E.
  - destruct a' as [|y' a']; [done|]. cbn in E. injection E as -> E. inversion Ha'; subst. done.
  - destruct a' as [|y' a']; cbn in E; injection E as -> E; [done|].
    apply list.Forall_cons in Ha' as [_ Ha']. destruct (IH a' Ha' Hx Hx' E) as [-> ->]. done.
Qed.
Lemma prefix_before {A} (P : A -> Prop) (ps a : list A) x q :
  Forall P ps -> ~ P x -> ps `prefix_of` a ++ x :: q -> ps `prefix_of` a.
Proof.
  intros Hp Hx [k E].
  destruct (prefix_weak_total ps a (a ++ x :: q)) as [Z|[z Z]]; [by exists k|by eexists|done|].
  subst ps. rewrite <- app_assoc in E. apply app_inv_head in E. destruct z as [|z1 z]; [by rewrite app_nil_r|].
  cbn in E. injection E as <- _. apply list.Forall_app in Hp as [_ Hp]. by inversion Hp.
Qed.
Lemma ord_prefix ps a x q : Forall ord ps -> ~ ord x -> ps `prefix_of` a ++ x :: q -> ps `prefix_of` a.
Proof. apply prefix_before. Qed.
End names.

(** ** Removing a tree *)

Lemma is_prefix_false p q : is_prefix p q = false <-> ~ p `prefix_of` q.
Proof. rewrite <- is_prefix_spec. by destruct (is_prefix p q). Qed.
Lemma st_erase_prefix_plain base s key : wf_fs s -> plain base -> plain key -> loc base key <> [] ->
  exists s', st_erase_prefix base s key = (s', Ok true) /\ wf_fs s'
  /\ forall q, node_at s' q = if decide (loc base key `prefix_of` q) then None else node_at s q.
Proof.
  intros W PB PK NE. unfold st_erase_prefix. rewrite key_comps_plain by done.
  rewrite stat_plain, path_exists_plain by done.
  destruct (node_at s (loc base key)) as [n|] eqn:E.
  - assert (existsb (is_prefix (loc base key)) ([] :: visited s [] (map Normal (loc base key))) = false) as ->.
    { apply not_true_is_false. intros X. apply existsb_exists in X as (q & Hq & Hp).
      apply is_prefix_spec in Hp. apply prefix_length in Hp.
      assert (length q < length (loc base key))%nat; [|lia].
      destruct Hq as [<-|Hq]; [destruct (loc base key); [done|cbn; lia]|].
      assert (forall cs cur, In q (visited s cur (map Normal cs)) -> (length q < length cur + length cs)%nat) as V.
      { induction cs as [|c cs IH]; intros cur; [done|]. cbn [map visited]. intros [<-|I].
        - cbn. lia.
        - apply IH in I. cbn [step] in I. rewrite app_length in I. cbn in I |- *. lia. }
      apply V in Hq. cbn in Hq. lia. }
    cbv zeta. set (s1 := filter _ s).
    assert (N1 : forall q, node_at s1 q = if decide (loc base key `prefix_of` q) then None else node_at s q).
    { intros q. destruct q as [|x q].
      - rewrite decide_False; [done|]. intros P%prefix_nil_inv. done.
      - rewrite !node_at_ne by done. unfold s1. case_decide as P.
        + apply map_filter_lookup_None. right. intros n' _. cbn. rewrite is_prefix_false. tauto.
        + destruct (s !! (x :: q)) eqn:Es.
          * apply map_filter_lookup_Some. split; [done|]. cbn. by rewrite is_prefix_false.
          * apply map_filter_lookup_None. by left. }
    assert (W1 : wf_fs s1).
    { intros p n' x Hp. rewrite <- node_at_ne in Hp by by destruct p. rewrite N1 in Hp |- *.
      case_decide as P1; [done|]. rewrite node_at_ne in Hp by by destruct p. apply W in Hp.
      rewrite decide_False; [done|]. intros P2. apply P1. etransitivity; [exact P2|]. by exists [x]. }
    exists s1. split; [|done]. f_equal. f_equal. rewrite path_exists_plain by done.
    rewrite N1, decide_True by done. done.
  - exists s. split; [done|]. split; [done|]. intros q. case_decide as P; [|done].
    destruct (node_at s q) as [n|] eqn:Eq; [|done]. exfalso.
    destruct P as [k ->]. destruct k as [|x k]; [rewrite app_nil_r in Eq; congruence|].
    apply wf_prefix in Eq; [congruence|done|done].
Qed.

(** ** The relation *)

Section refine.
Context (C : codec) (h : host) (H : hier).
Hypothesis PB : plain (hy_base H).
Hypothesis GS : good_suffix (ep_suffix (hy_ep H)).
Notation base := (hy_base H).
Notation bp := (pieces (hy_base H)).
Notation sfx := (ep_suffix (hy_ep H)).
Notation sf := (strip_dot (ep_suffix (hy_ep H))).
Notation ord := (ordinary_name (ep_suffix (hy_ep H))).
Notation AX := ARRAY_METADATA_KEY_EXT.
Notation GX := GROUP_METADATA_KEY_EXT.

Definition mloc (ext : bytes) (P : list bytes) : fpath := bp ++ meta_pieces ext sf P.
Definition ppath (P : list bytes) : Prop := dotdot ∉ P /\ Forall ord P.

Definition array_text (s : fs) (P : list bytes) (m' : array_meta) : Prop :=
  exists text, file_at s (mloc AX P) = Some text /\ from_text dec_meta text = Ok m'
               /\ check_exts (am_exts m') = Ok tt /\ exists doc, from_text as_map text = Ok doc.
Definition node_rel (s : fs) (P : list bytes) (o : option anode) : Prop :=
  match o with
  | None => file_at s (mloc AX P) = None /\ file_at s (mloc GX P) = None
  | Some (NArr m g) =>
      (exists m', array_text s P m' /\ meta_agree m' m g) /\ file_at s (mloc GX P) = None
      /\ good_sep (am_sep m)
  | Some (NGrp g) =>
      file_at s (mloc AX P) = None
      /\ exists text doc a, file_at s (mloc GX P) = Some text /\ from_text as_map text = Ok doc
         /\ mget ATTRIBUTES_NAME doc = Some (JObj a) /\ attrs_agree a g
  end.

(** Directories and files under meta. *)
Record meta_shape (s : fs) : Prop := {
  ms_top : forall q, q `prefix_of` bp ++ [B "meta"; B "root"] -> file_at s q = None;
  ms_dir : forall q, node_at s (bp ++ B "meta" :: q) = Some Dir -> Forall ord q;
  ms_file : forall q c, node_at s (bp ++ B "meta" :: q) = Some (File c) ->
            exists l n ext, is_node_ext ext /\ q = l ++ [n ++ tag ext sf]
}.
(** Directories and files under data. *)
Record data_shape (s : fs) (a : astate) : Prop := {
  ds_top : forall q, q `prefix_of` bp ++ [B "data"; B "root"] -> file_at s q = None;
  ds_dir : forall q, node_at s (bp ++ B "data" :: B "root" :: q) = Some Dir ->
    Forall ord q \/
    exists P m g pos pre k, a_nodes a !! P = Some (NArr m g) /\ ppath P
      /\ length pos = length (am_shape m) /\ pos_ok pos /\ pre <> [] /\ k <> []
      /\ cpieces (am_sep m) pos = pre ++ k /\ q = P ++ pre;
  ds_file : forall q c, node_at s (bp ++ B "data" :: B "root" :: q) = Some (File c) ->
    exists P m g pos, a_nodes a !! P = Some (NArr m g) /\ ppath P
      /\ length pos = length (am_shape m) /\ pos_ok pos
      /\ is_Some (a_chunks a !! (P, pos)) /\ q = P ++ cpieces (am_sep m) pos;
  ds_chunk : forall P pos data, a_chunks a !! (P, pos) = Some data ->
    exists m g m' d t pos0 bs, a_nodes a !! P = Some (NArr m g) /\ ppath P
      /\ length pos = length (am_shape m) /\ pos_ok pos
      /\ array_text s P m' /\ effective m' d /\ same_kind_width d t
      /\ file_at s (bp ++ B "data" :: B "root" :: P ++ cpieces (am_sep m) pos) = Some bs
      /\ encode_chunk C h t m' (Chunk pos0 data) = (bs, Ok tt)
      /\ full_chunk m data /\ Forall (elt_ok t) data
}.
Record rel (s : fs) (a : astate) : Prop := {
  r_wf : wf_fs s;
  r_meta : meta_shape s;
  r_nodes : forall P, ppath P -> node_rel s P (a_nodes a !! P);
  r_nodes_ok : forall P n, a_nodes a !! P = Some n -> ppath P;
  r_data : data_shape s a
}.

(** *** Locations *)

Lemma sf_noslash : slash ∉ sf.
Proof. apply GS. Qed.
Lemma path_loc ext path : is_node_ext ext -> loc base (metadata_key ext sfx path) = mloc ext (pieces path).
Proof. intros E. unfold loc, mloc. rewrite pieces_node_key; [done|done|apply sf_noslash]. Qed.
Lemma akey_loc path : loc base (akey H path) = mloc AX (pieces path).
Proof. apply path_loc. by left. Qed.
Lemma gkey_loc path : loc base (gkey H path) = mloc GX (pieces path).
Proof. apply path_loc. by right. Qed.
Lemma akey_plain path : plain path -> plain (akey H path).
Proof. intros. apply plain_node_key; [by left|apply sf_noslash|done]. Qed.
Lemma gkey_plain path : plain path -> plain (gkey H path).
Proof. intros. apply plain_node_key; [by right|apply sf_noslash|done]. Qed.
Lemma mloc_inj ext ext' P P' : is_node_ext ext -> is_node_ext ext' -> ppath P -> ppath P' ->
  mloc ext P = mloc ext' P' -> P = P' /\ ext = ext'.
Proof.
  intros E E' [D _] [D' _] X. unfold mloc in X. apply app_inv_head in X.
  eapply meta_pieces_inj; [|exact D|exact D'|exact X]. by rewrite !node_ext_len.
Qed.
Lemma mloc_form ext P : is_node_ext ext -> ppath P -> exists l n,
  mloc ext P = bp ++ B "meta" :: l ++ [n ++ tag ext sf] /\ Forall ord l.
Proof.
  intros E [D O]. unfold mloc, tag.
  destruct (meta_pieces_cases ext sf P D) as [[-> ->]|(l & n & -> & ->)].
  - exists [], (B "root"). done.
  - exists (B "root" :: l), n. split; [done|]. apply Forall_app in O as [O _].
    apply Forall_cons_2; [apply root_ord|done].
Qed.
Lemma ppath_path path : ordinary_path sfx path -> ppath (pieces path).
Proof. done. Qed.

Lemma prefix_meta q l x : q `prefix_of` bp ++ B "meta" :: l ++ [x] -> q <> bp ++ B "meta" :: l ++ [x] ->
  q `prefix_of` bp \/ exists k, q = bp ++ B "meta" :: k /\ k `prefix_of` l.
Proof.
  intros Hp Hn. destruct (prefix_weak_total q bp (bp ++ B "meta" :: l ++ [x])) as [Z|[z Z]];
    [done|by eexists|by left|].
  destruct z as [|y z]; [left; rewrite app_nil_r in Z; by subst|]. right. subst q.
  destruct Hp as [k Hk]. rewrite <- app_assoc in Hk. apply app_inv_head in Hk. cbn in Hk. injection Hk as <- Hk.
  exists z. split; [done|].
  destruct k as [|k0 k] using rev_ind.
  { rewrite app_nil_r in Hk. subst. done. }
  rewrite app_assoc in Hk. apply app_inj_tail in Hk as [-> _]. by eexists.
Qed.

Lemma meta_room s ext P : meta_shape s -> is_node_ext ext -> ppath P -> can_hold_file s (mloc ext P).
Proof.
  intros M E PP. destruct (mloc_form ext P E PP) as (l & n & -> & O). split.
  - intros q Hq Hn c Hc. apply prefix_meta in Hq as [Hq|(k & -> & Hk)]; [| |done].
    + rewrite (ms_top s M) in Hc; [done|]. etransitivity; [exact Hq|]. by eexists.
    + apply file_at_some in Hc. apply (ms_file s M) in Hc as (l' & n' & ext' & E' & ->).
      destruct Hk as [k' ->]. rewrite !Forall_app in O. destruct O as [[_ O] _]. inversion O as [|? ? O' _].
      by eapply tag_not_ord.
  - intros Hd. apply (ms_dir s M) in Hd. apply Forall_app in Hd as [_ Hd]. inversion Hd as [|? ? O' _].
    by eapply tag_not_ord.
Qed.

Lemma meta_not_data q q' : bp ++ B "meta" :: q <> bp ++ B "data" :: q'.
Proof. intros E. apply app_inv_head in E. done. Qed.
Lemma top_cases r q : q `prefix_of` bp ++ [r; B "root"] ->
  q `prefix_of` bp \/ q = bp ++ [r] \/ q = bp ++ [r; B "root"].
Proof.
  intros Hp. destruct (prefix_weak_total q bp (bp ++ [r; B "root"])) as [Z|[z Z]]; [done|by eexists|by left|].
  subst q. destruct Hp as [k Hk]. rewrite <- app_assoc in Hk. apply app_inv_head in Hk.
  destruct z as [|z1 [|z2 z]]; [left; by rewrite app_nil_r|right; left|right; right].
  - cbn in Hk. by injection Hk as <- _.
  - cbn in Hk. injection Hk as <- <- Hk. destruct z; [done|done].
Qed.
Lemma prefix_bp_ne q x r : q `prefix_of` bp -> q <> bp ++ x :: r.
Proof. intros Hp%prefix_length ->. rewrite app_length in Hp. cbn in Hp. lia. Qed.

(** *** Writing and erasing a metadata file *)

Definition set_at (s s' : fs) (p : fpath) (c : bytes) : Prop :=
  forall q, node_at s' q = if decide (q = p) then Some (File c)
                           else if decide (q `prefix_of` p) then Some Dir else node_at s q.
Definition erase_at (s s' : fs) (p : fpath) : Prop :=
  forall q, node_at s' q = if decide (q = p) then None else node_at s q.

Lemma set_at_file s s' p c q : can_hold_file s p -> set_at s s' p c -> q <> p -> file_at s' q = file_at s q.
Proof.
  intros [Hc _] S N. unfold file_at. rewrite S, decide_False by done. case_decide as P; [|done].
  destruct (node_at s q) as [[|c']|] eqn:X; [done| |done]. exfalso. eapply (Hc q); [done|done|]. by apply file_at_some.
Qed.
Lemma erase_at_file s s' p q : erase_at s s' p -> q <> p -> file_at s' q = file_at s q.
Proof. intros S N. unfold file_at. by rewrite S, decide_False. Qed.

Lemma meta_shape_set s s' ext P c : is_node_ext ext -> ppath P -> meta_shape s ->
  set_at s s' (mloc ext P) c -> meta_shape s'.
Proof.
  intros E PP M S. pose proof (meta_room s ext P M E PP) as R.
  destruct (mloc_form ext P E PP) as (l & n & El & O). split.
  - intros q Hq. rewrite (set_at_file s s' (mloc ext P) c); [by apply M|done|done|].
    rewrite El. apply top_cases in Hq as [Hq|[->| ->]]; [by apply prefix_bp_ne| |].
    + intros X%app_inv_head. injection X as X. by destruct l.
    + intros X%app_inv_head. injection X as X. destruct l as [|? [|]]; try done.
      injection X as X. eapply tag_not_ord; [exact E|]. rewrite <- X. apply root_ord.
  - intros q. rewrite S. case_decide; [done|]. case_decide as Q; [|apply M].
    intros _. rewrite El in Q. apply prefix_meta in Q as [Q|(k & X & [k' Hk])]; [| |by rewrite <- El].
    + exfalso. by eapply (prefix_bp_ne _ (B "meta") q); [exact Q|].
    + apply app_inv_head in X. injection X as ->. rewrite Hk in O. apply Forall_app in O as [O _]. done.
  - intros q c'. rewrite S. case_decide as X; [|case_decide; [done|apply M]].
    intros _. rewrite El in X. apply app_inv_head in X. injection X as ->. by exists l, n, ext.
Qed.
Lemma meta_shape_erase s s' p : meta_shape s -> erase_at s s' p -> meta_shape s'.
Proof.
  intros M S. split.
  - intros q Hq. pose proof (ms_top s M q Hq) as X. unfold file_at in *. rewrite S. by case_decide.
  - intros q. rewrite S. case_decide; [done|apply M].
  - intros q c. rewrite S. case_decide; [done|apply M].
Qed.
Lemma data_same_set s s' ext P c q : is_node_ext ext -> ppath P ->
  set_at s s' (mloc ext P) c -> node_at s' (bp ++ B "data" :: q) = node_at s (bp ++ B "data" :: q).
Proof.
  intros E PP S. destruct (mloc_form ext P E PP) as (l & n & El & _). rewrite S, El.
  rewrite decide_False by (intros X; by apply app_inv_head in X).
  rewrite decide_False; [done|]. intros [k X]. rewrite <- app_assoc in X. by apply app_inv_head in X.
Qed.
Lemma data_same_erase s s' ext P q : is_node_ext ext -> ppath P ->
  erase_at s s' (mloc ext P) -> node_at s' (bp ++ B "data" :: q) = node_at s (bp ++ B "data" :: q).
Proof.
  intros E PP S. destruct (mloc_form ext P E PP) as (l & n & El & _). rewrite S, El.
  by rewrite decide_False by (intros X; by apply app_inv_head in X).
Qed.
Lemma data_top_set s s' ext P c q : is_node_ext ext -> ppath P -> meta_shape s ->
  set_at s s' (mloc ext P) c -> q `prefix_of` bp ++ [B "data"; B "root"] -> file_at s' q = file_at s q.
Proof.
  intros E PP M S Hq. eapply set_at_file; [by apply meta_room|done|].
  destruct (mloc_form ext P E PP) as (l & n & -> & _).
  apply top_cases in Hq as [Hq|[->| ->]]; [by apply prefix_bp_ne| |]; by intros X%app_inv_head.
Qed.

Lemma data_mono s s' a a' :
  (forall q, node_at s' (bp ++ B "data" :: q) = node_at s (bp ++ B "data" :: q)) ->
  (forall q, q `prefix_of` bp ++ [B "data"; B "root"] -> file_at s q = None -> file_at s' q = None) ->
  a_chunks a' = a_chunks a ->
  (forall P m g, a_nodes a !! P = Some (NArr m g) -> exists g', a_nodes a' !! P = Some (NArr m g')) ->
  (forall P m g m', a_nodes a !! P = Some (NArr m g) -> ppath P -> array_text s P m' ->
     exists x, array_text s' P (with_attrs m' x)) ->
  data_shape s a -> data_shape s' a'.
Proof.
  intros N T EC EN ET D. split.
  - intros q Hq. apply T; [done|]. by apply D.
  - intros q. rewrite N. intros X. apply (ds_dir s a D) in X as [X|(P & m & g & pos & pre & k & X1 & X2)]; [by left|].
    right. destruct (EN _ _ _ X1) as [g' X1']. by exists P, m, g', pos, pre, k.
  - intros q c. rewrite N. intros X. apply (ds_file s a D) in X as (P & m & g & pos & X1 & X2).
    destruct (EN _ _ _ X1) as [g' X1']. exists P, m, g', pos. by rewrite EC.
  - intros P pos data. rewrite EC. intros X.
    apply (ds_chunk s a D) in X as (m & g & m' & d & t & pos0 & bs & X1 & X2 & X3 & X4 & X5 & X6 & X7 & X8 & X9 & X10).
    destruct (EN _ _ _ X1) as [g' X1']. destruct (ET _ _ _ _ X1 X2 X5) as [x X5'].
    exists m, g', (with_attrs m' x), d, t, pos0, bs.
    split; [done|]. split; [done|]. split; [done|]. split; [done|]. split; [done|]. split; [exact X6|].
    split; [done|]. split; [|split; [exact X9|done]].
    unfold file_at in X8 |- *. by rewrite N.
Qed.
Lemma with_attrs_id m : with_attrs m (am_attrs m) = m.
Proof. by destruct m. Qed.
Lemma array_text_same s s' P m' : file_at s' (mloc AX P) = file_at s (mloc AX P) ->
  array_text s P m' -> array_text s' P m'.
Proof. intros E (text & T). exists text. by rewrite E. Qed.
Lemma node_rel_same s s' P o : file_at s' (mloc AX P) = file_at s (mloc AX P) ->
  file_at s' (mloc GX P) = file_at s (mloc GX P) -> node_rel s P o -> node_rel s' P o.
Proof.
  intros EA EG. destruct o as [[m g|g]|]; cbn [node_rel]; rewrite ?EA, ?EG; [|done..].
  intros ((m' & T & A) & G). split; [|done]. exists m'. split; [by eapply array_text_same|done].
Qed.

(** *** Setting a metadata file of [P] *)

Lemma rel_set s a s' ext P c o' :
  rel s a -> is_node_ext ext -> ppath P -> wf_fs s' -> set_at s s' (mloc ext P) c ->
  node_rel s' P (Some o') ->
  (forall m g, a_nodes a !! P = Some (NArr m g) -> exists g', o' = NArr m g') ->
  (forall m g m', a_nodes a !! P = Some (NArr m g) -> array_text s P m' ->
     exists x, array_text s' P (with_attrs m' x)) ->
  rel s' (AState (<[P := o']> (a_nodes a)) (a_chunks a)).
Proof.
  intros R E PP W S NR HA HT. pose proof (r_meta s a R) as M.
  pose proof (meta_room s ext P M E PP) as Room.
  assert (F : forall e Q, is_node_ext e -> ppath Q -> Q <> P -> file_at s' (mloc e Q) = file_at s (mloc e Q)).
  { intros e Q Ee PQ NQ. eapply set_at_file; [exact Room|exact S|]. intros X.
    apply mloc_inj in X as [X _]; done. }
  split; cbn [a_nodes a_chunks].
  - done.
  - by eapply meta_shape_set.
  - intros Q PQ. destruct (decide (Q = P)) as [->|NQ]; [by rewrite lookup_insert|].
    rewrite lookup_insert_ne by done. eapply node_rel_same; [..|by apply R].
    + apply F; [by left|done..].
    + apply F; [by right|done..].
  - intros Q n. destruct (decide (Q = P)) as [->|NQ]; [done|]. rewrite lookup_insert_ne by done. apply R.
  - eapply (data_mono s s' a); [..|apply R]; cbn [a_nodes a_chunks].
    + intros q. by eapply data_same_set.
    + intros q Hq X. rewrite <- X. by eapply data_top_set.
    + done.
    + intros Q m g X. destruct (decide (Q = P)) as [->|NQ].
      * rewrite lookup_insert. destruct (HA _ _ X) as [g' ->]. by exists g'.
      * rewrite lookup_insert_ne by done. by exists g.
    + intros Q m g m' X PQ T. destruct (decide (Q = P)) as [->|NQ]; [by eapply HT|].
      exists (am_attrs m'). rewrite with_attrs_id. eapply array_text_same; [|done].
      apply F; [by left|done..].
Qed.

(** *** Reading nodes *)

Lemma get_akey s path : wf_fs s -> plain path ->
  st_get base s (akey H path) = Ok (file_at s (mloc AX (pieces path))).
Proof. intros W PP. rewrite st_get_plain; [by rewrite akey_loc|done|done|by apply akey_plain]. Qed.
Lemma get_gkey s path : wf_fs s -> plain path ->
  st_get base s (gkey H path) = Ok (file_at s (mloc GX (pieces path))).
Proof. intros W PP. rewrite st_get_plain; [by rewrite gkey_loc|done|done|by apply gkey_plain]. Qed.
Definition is_some {A} (o : option A) : bool := match o with Some _ => true | None => false end.
Lemma exists_akey s path : wf_fs s -> plain path ->
  st_exists base s (akey H path) = Ok (is_some (file_at s (mloc AX (pieces path)))).
Proof. intros W PP. rewrite st_exists_plain; [by rewrite akey_loc|done|done|by apply akey_plain]. Qed.
Lemma exists_gkey s path : wf_fs s -> plain path ->
  st_exists base s (gkey H path) = Ok (is_some (file_at s (mloc GX (pieces path)))).
Proof. intros W PP. rewrite st_exists_plain; [by rewrite gkey_loc|done|done|by apply gkey_plain]. Qed.

Lemma text_metadata s path m' : wf_fs s -> plain path ->
  array_text s (pieces path) m' -> get_array_metadata H s path = Ok m'.
Proof.
  intros W PP (text & T1 & T2 & T3 & _).
  erewrite get_meta_text; [by rewrite T3, bind_ok| |exact T2]. rewrite get_akey by done. by rewrite T1.
Qed.
Lemma metadata_text s path m' doc : wf_fs s -> plain path ->
  get_array_metadata H s path = Ok m' -> node_document H s path = Ok doc -> array_text s (pieces path) m'.
Proof.
  intros W PP E D. destruct (get_meta_document _ _ _ _ _ E D) as (_ & _ & Hk & _).
  revert E. unfold node_document in D. rewrite Hk, bind_ok in D.
  rewrite get_akey in D by done. rewrite bind_ok in D.
  unfold get_array_metadata. rewrite get_akey, bind_ok by done. intros E.
  destruct (file_at s (mloc AX (pieces path))) as [text|] eqn:Ef; [|done]. cbn [of_option] in E.
  cbn [of_option] in D. rewrite bind_ok in D.
  rewrite bind_ok in E. apply bind_ok_inv in E as (m1 & E1 & E). apply bind_ok_inv in E as ([] & E2 & [= ->]).
  exists text. split_and!; try done. by exists doc.
Qed.
Lemma no_metadata s path : wf_fs s -> plain path -> file_at s (mloc AX (pieces path)) = None ->
  get_array_metadata H s path = Err NotFound.
Proof. intros W PP E. unfold get_array_metadata. rewrite get_akey, bind_ok, E by done. done. Qed.
Lemma node_key_a s path c : wf_fs s -> plain path -> file_at s (mloc AX (pieces path)) = Some c ->
  node_key H s path = Ok (akey H path).
Proof. intros W PP E. eapply node_key_array. rewrite get_akey by done. by rewrite E. Qed.
Lemma text_document s path m' : wf_fs s -> plain path ->
  array_text s (pieces path) m' -> exists doc, node_document H s path = Ok doc.
Proof.
  intros W PP (text & T1 & _ & _ & doc & T4). exists doc. unfold node_document.
  rewrite (node_key_a s path text), bind_ok, get_akey, T1, bind_ok by done. done.
Qed.
Lemma node_key_g s path c : wf_fs s -> plain path -> file_at s (mloc AX (pieces path)) = None ->
  file_at s (mloc GX (pieces path)) = Some c -> node_key H s path = Ok (gkey H path).
Proof. intros W PP E1 E2. unfold node_key. rewrite exists_akey, bind_ok, E1 by done. cbn [is_some].
  rewrite exists_gkey, bind_ok, E2 by done. done. Qed.
Lemma node_key_none s path : wf_fs s -> plain path -> file_at s (mloc AX (pieces path)) = None ->
  file_at s (mloc GX (pieces path)) = None -> node_key H s path = Err NotFound.
Proof. intros W PP E1 E2. unfold node_key. rewrite exists_akey, bind_ok, E1 by done. cbn [is_some].
  rewrite exists_gkey, bind_ok, E2 by done. done. Qed.

Lemma insert_set_at s p c c' : wf_fs s -> node_at s p = Some (File c) -> set_at s (<[p := File c']> s) p c'.
Proof.
  intros W F q. rewrite node_at_insert by (intros ->; done). case_decide; [done|]. case_decide as Q; [|done].
  destruct Q as [k ->]. destruct k as [|x k]; [by rewrite app_nil_r in *|]. by eapply wf_prefix in F.
Qed.

Lemma agree_fields m' m g : meta_agree m' m g ->
  am_shape m' = am_shape m /\ am_chunk_shape m' = am_chunk_shape m /\ am_sep m' = am_sep m /\ am_comp m' = am_comp m.
Proof. intros ((E1 & _ & _ & E4 & E5 & _ & _ & _ & _ & E10) & _). done. Qed.
Lemma agree_type m' m g d t : meta_agree m' m g -> effective m d -> same_kind_width d t ->
  exists d', effective m' d' /\ same_kind_width d' t.
Proof.
  intros ((_ & E & _) & _) Ed Ek. cbn [with_attrs am_dtype] in E.
  unfold effective in *. destruct Ed as [Ed|(x & ty & Ed)]; rewrite Ed in E; cbn [ext_dtype_same] in E.
  - destruct (am_dtype m') as [d'|]; [|done]. exists d'. split; [by left|].
    destruct E as (E1 & E2 & _), Ek as [K1 K2]. split; congruence.
  - destruct (am_dtype m') as [|x' ty' [d'|]]; [done| |done]. destruct E as (-> & -> & E). exists d'.
    split; [right; by eexists _, _|].
    destruct E as (E1 & E2 & _), Ek as [K1 K2]. split; congruence.
Qed.
Lemma type_unique m d d' t t' : effective m d -> same_kind_width d t -> effective m d' -> same_kind_width d' t' ->
  t = t'.
Proof.
  intros E K E' K'. assert (d = d') as <-.
  { destruct E as [E|(? & ? & E)], E' as [E'|(? & ? & E')]; rewrite E in E'; congruence. }
  destruct K as [K1 K2], K' as [K1' K2']. rewrite K1 in K1'. rewrite K2 in K2'.
  destruct t, t'; try done.
Qed.
Lemma agree_bounds m' m g p pos : meta_agree m' m g -> in_bounds p m' pos = in_bounds p m pos.
Proof. intros (E1 & E2 & _)%agree_fields. unfold in_bounds, grid_extent. by rewrite E1, E2. Qed.

(** *** Chunk locations *)

Definition cloc (P : list bytes) (sep : bytes) (pos : list Z) : fpath :=
  bp ++ B "data" :: B "root" :: P ++ cpieces sep pos.
Lemma cloc_loc path m pos : loc base (get_chunk_key path m pos) = cloc (pieces path) (am_sep m) pos.
Proof. by rewrite loc_chunk. Qed.

Lemma prefix_data q r : q `prefix_of` bp ++ B "data" :: B "root" :: r ->
  q `prefix_of` bp ++ [B "data"; B "root"] \/ exists k, q = bp ++ B "data" :: B "root" :: k /\ k `prefix_of` r.
Proof.
  intros Hp. change (B "data" :: B "root" :: r) with ([B "data"; B "root"] ++ r) in Hp. rewrite app_assoc in Hp.
  destruct (prefix_weak_total q (bp ++ [B "data"; B "root"]) _ Hp) as [Z|[z Z]]; [by eexists|by left|].
  right. exists z. split; [rewrite Z; by rewrite <- app_assoc|]. subst q.
  destruct Hp as [k Hk]. rewrite <- (app_assoc _ z k) in Hk. apply app_inv_head in Hk. by exists k.
Qed.

Section chunk.
Context (a : astate) (P : list bytes) (m : array_meta) (g : attr_map).
Hypothesis NP : a_nodes a !! P = Some (NArr m g).
Hypothesis PP : ppath P.
Hypothesis GSep : good_sep (am_sep m).
Context (pos : list Z).
Hypothesis LP : length pos = length (am_shape m).
Hypothesis QP : pos_ok pos.
Notation L := (cloc P (am_sep m) pos).

Lemma chunk_same P2 m2 g2 pos2 k : a_nodes a !! P2 = Some (NArr m2 g2) -> ppath P2 ->
  length pos2 = length (am_shape m2) -> pos_ok pos2 -> good_sep (am_sep m2) ->
  P ++ cpieces (am_sep m) pos = (P2 ++ cpieces (am_sep m2) pos2) ++ k -> P2 = P /\ m2 = m /\ pos2 = pos /\ k = [].
Proof.
  intros N2 PP2 L2 Q2 G2 E.
  destruct (chunk_head sfx (am_sep m) pos QP GSep) as (x & r & E1 & O1).
  destruct (chunk_head sfx (am_sep m2) pos2 Q2 G2) as (x2 & r2 & E2 & O2).
  assert (E' := E). rewrite E1, E2, <- app_assoc in E'.
  destruct (split_first ord _ _ _ _ _ _ (proj2 PP) (proj2 PP2) O1 O2 E') as [-> E3].
  assert (m2 = m) as -> by congruence.
  assert (E4 : cpieces (am_sep m) pos = cpieces (am_sep m) pos2 ++ k) by (rewrite E1, E2; exact E3). clear E3. rename E4 into E3.
  assert (pos2 = pos) as -> by (eapply cpieces_prefix; [..|exact E3]; congruence || done).
  split; [done|]. split; [done|]. split; [done|].
  apply (f_equal length) in E3. rewrite app_length in E3. destruct k; [done|cbn in E3; lia].
Qed.

Lemma chunk_room s : (forall P n, ppath P -> a_nodes a !! P = Some n -> node_rel s P (Some n)) ->
  data_shape s a -> can_hold_file s L.
Proof.
  intros NR D.
  assert (GG : forall P2 m2 g2, a_nodes a !! P2 = Some (NArr m2 g2) -> ppath P2 -> good_sep (am_sep m2)).
  { intros P2 m2 g2 N2 PP2. by apply (NR _ _ PP2) in N2 as (_ & _ & X). }
  split.
  - intros q Hq Hn c Hc. apply prefix_data in Hq as [Hq|(k & -> & Hk)].
    + by rewrite (ds_top s a D) in Hc.
    + apply file_at_some in Hc. apply (ds_file s a D) in Hc as (P2 & m2 & g2 & pos2 & N2 & PP2 & L2 & Q2 & _ & ->).
      destruct Hk as [k Hk].
      apply (chunk_same P2 m2 g2 pos2 k) in Hk as (-> & -> & -> & ->); [|done..|by eapply GG].
      by apply Hn.
  - intros Hd. apply (ds_dir s a D) in Hd as [Hd|(P2 & m2 & g2 & pos2 & pre & k & N2 & PP2 & L2 & Q2 & X1 & X2 & X3 & X4)].
    + apply Forall_app in Hd as [_ Hd]. destruct (chunk_head sfx (am_sep m) pos QP GSep) as (x & r & E & O).
      rewrite E in Hd. by inversion Hd.
    + pose proof (GG _ _ _ N2 PP2) as G2.
      destruct (chunk_head sfx (am_sep m) pos QP GSep) as (x & r & E1 & O1).
      destruct (chunk_head sfx (am_sep m2) pos2 Q2 G2) as (x2 & r2 & E2 & O2).
      destruct pre as [|y pre]; [done|]. assert (y = x2) as ->.
      { rewrite E2 in X3. by injection X3. }
      assert (X4' := X4). rewrite E1 in X4'.
      destruct (split_first ord _ _ _ _ _ _ (proj2 PP) (proj2 PP2) O1 O2 X4') as [-> E3].
      assert (m2 = m) as -> by congruence. rewrite <- E1 in E3. rewrite <- E3 in X3.
      assert (pos = pos2) as <-.
      { eapply cpieces_prefix; [exact GSep|done|done|congruence|exact X3]. }
      apply (f_equal length) in X3. rewrite app_length in X3. destruct k; [done|cbn in X3; lia].
Qed.

Lemma meta_not_cloc q : bp ++ B "meta" :: q <> L /\ ~ (bp ++ B "meta" :: q) `prefix_of` L.
Proof.
  assert (~ (bp ++ B "meta" :: q) `prefix_of` L) as X.
  { intros [k E]. unfold cloc in E. rewrite <- app_assoc in E. by apply app_inv_head in E. }
  split; [|done]. intros E. apply X. by rewrite E.
Qed.
Lemma top_not_cloc r q : q `prefix_of` bp ++ [r; B "root"] -> q <> L.
Proof.
  intros Hp%prefix_length ->. unfold cloc in Hp. rewrite !app_length in Hp. cbn [length] in Hp.
  rewrite app_length in Hp. destruct (chunk_head sfx (am_sep m) pos QP GSep) as (x & l & E & _).
  rewrite E in Hp. cbn in Hp. lia.
Qed.
Lemma mloc_meta ext Q : is_node_ext ext -> ppath Q -> exists q, mloc ext Q = bp ++ B "meta" :: q.
Proof. intros E PQ. destruct (mloc_form ext Q E PQ) as (l & n & -> & _). by eexists. Qed.

Lemma rel_chunk_set s s' data m' d t pos0 bs :
  rel s a -> wf_fs s' -> set_at s s' L bs ->
  array_text s P m' -> effective m' d -> same_kind_width d t ->
  encode_chunk C h t m' (Chunk pos0 data) = (bs, Ok tt) -> full_chunk m data -> Forall (elt_ok t) data ->
  rel s' (AState (a_nodes a) (<[(P, pos) := data]> (a_chunks a))).
Proof.
  intros R W S T Ed Ek Ee Ef Et.
  assert (NR : forall P n, ppath P -> a_nodes a !! P = Some n -> node_rel s P (Some n)).
  { intros Q n PQ <-. by apply R. }
  pose proof (chunk_room s NR (r_data s a R)) as Room.
  assert (FS' : forall q, q <> L -> file_at s' q = file_at s q) by (intros q Hq; by eapply set_at_file).
  assert (MF : forall ext Q, is_node_ext ext -> ppath Q -> file_at s' (mloc ext Q) = file_at s (mloc ext Q)).
  { intros ext Q E PQ. destruct (mloc_meta ext Q E PQ) as [q ->]. apply FS', meta_not_cloc. }
  assert (MN : forall q, node_at s' (bp ++ B "meta" :: q) = node_at s (bp ++ B "meta" :: q)).
  { intros q. rewrite S. destruct (meta_not_cloc q). by rewrite !decide_False. }
  assert (AT : forall Q m1, ppath Q -> array_text s Q m1 -> array_text s' Q m1).
  { intros Q m1 PQ. apply array_text_same. apply MF; [by left|done]. }
  pose proof (r_data s a R) as D.
  split; cbn [a_nodes a_chunks].
  - done.
  - split.
    + intros q Hq. rewrite FS' by by eapply top_not_cloc. by apply (r_meta s a R).
    + intros q. rewrite MN. apply (r_meta s a R).
    + intros q c. rewrite MN. apply (r_meta s a R).
  - intros Q PQ. eapply node_rel_same; [apply MF; [by left|done]|apply MF; [by right|done]|by apply R].
  - apply R.
  - split; cbn [a_nodes a_chunks].
    + intros q Hq. rewrite FS' by by eapply top_not_cloc. by apply D.
    + intros q. rewrite S. case_decide; [done|]. case_decide as Hp; [|apply D].
      intros _. destruct Hp as [k Hk]. unfold cloc in Hk. rewrite <- app_assoc in Hk. apply app_inv_head in Hk.
      cbn [app] in Hk. injection Hk as Hk.
      destruct (prefix_weak_total q P (P ++ cpieces (am_sep m) pos)) as [[z Z]|[z Z]]; [by exists k|by eexists|..].
      * left. pose proof (proj2 PP) as O. rewrite Z in O. apply Forall_app in O as [O _]. done.
      * destruct z as [|x z]; [left; rewrite app_nil_r in Z; subst q; apply PP|].
        right. subst q. rewrite <- app_assoc in Hk. apply app_inv_head in Hk.
        destruct k as [|y k].
        { exfalso. rewrite app_nil_r in Hk. rewrite <- Hk in *. done. }
        exists P, m, g, pos, (x :: z), (y :: k). done.
    + intros q c. rewrite S. case_decide as Hq.
      * intros _. unfold cloc in Hq. apply app_inv_head in Hq. injection Hq as ->.
        exists P, m, g, pos. rewrite lookup_insert. split_and!; try done.
      * case_decide; [done|]. intros X. apply (ds_file s a D) in X as (P2 & m2 & g2 & pos2 & N2 & PP2 & L2 & Q2 & X1 & X2).
        exists P2, m2, g2, pos2. split_and!; try done.
        destruct (decide ((P2, pos2) = (P, pos))) as [->|]; [by rewrite lookup_insert|by rewrite lookup_insert_ne].
    + intros P2 pos2 data2. destruct (decide ((P2, pos2) = (P, pos))) as [X|X].
      * injection X as -> ->. rewrite lookup_insert. intros [= ->].
        exists m, g, m', d, t, pos0, bs. split_and!; try done.
        -- by apply AT.
        -- unfold file_at. fold L. rewrite S. by rewrite decide_True.
      * rewrite lookup_insert_ne by done. intros Y.
        apply (ds_chunk s a D) in Y as (m2 & g2 & m2' & d2 & t2 & pos02 & bs2 & X1 & X2 & X3 & X4 & X5 & X6 & X7 & X8 & X9 & X10 & X11).
        exists m2, g2, m2', d2, t2, pos02, bs2. split_and!; try done.
        -- by apply AT.
        -- rewrite FS'; [done|]. intros Z. apply X. unfold cloc in Z. apply app_inv_head in Z. injection Z as Z.
           destruct (chunk_same P2 m2 g2 pos2 []) as (-> & _ & -> & _); try done.
           ++ by apply (NR _ _ X2) in X1 as (_ & _ & ?).
           ++ by rewrite app_nil_r.
Qed.

Lemma rel_chunk_erase s s' :
  rel s a -> wf_fs s' -> erase_at s s' L -> rel s' (AState (a_nodes a) (delete (P, pos) (a_chunks a))).
Proof.
  intros R W S.
  assert (NR : forall P n, ppath P -> a_nodes a !! P = Some n -> node_rel s P (Some n)).
  { intros Q n PQ <-. by apply R. }
  assert (FS' : forall q, q <> L -> file_at s' q = file_at s q) by (intros q Hq; by eapply erase_at_file).
  assert (MF : forall ext Q, is_node_ext ext -> ppath Q -> file_at s' (mloc ext Q) = file_at s (mloc ext Q)).
  { intros ext Q E PQ. destruct (mloc_meta ext Q E PQ) as [q ->]. apply FS', meta_not_cloc. }
  assert (AT : forall Q m1, ppath Q -> array_text s Q m1 -> array_text s' Q m1).
  { intros Q m1 PQ. apply array_text_same. apply MF; [by left|done]. }
  pose proof (r_data s a R) as D.
  split; cbn [a_nodes a_chunks].
  - done.
  - eapply meta_shape_erase; [apply R|done].
  - intros Q PQ. eapply node_rel_same; [apply MF; [by left|done]|apply MF; [by right|done]|by apply R].
  - apply R.
  - split; cbn [a_nodes a_chunks].
    + intros q Hq. rewrite FS' by by eapply top_not_cloc. by apply D.
    + intros q. rewrite S. case_decide; [done|]. apply D.
    + intros q c. rewrite S. case_decide as Hq; [done|].
      intros X. apply (ds_file s a D) in X as (P2 & m2 & g2 & pos2 & N2 & PP2 & L2 & Q2 & X1 & X2).
      exists P2, m2, g2, pos2. split_and!; try done.
      rewrite lookup_delete_ne; [done|]. intros [= <- <-]. apply Hq. subst q. unfold cloc. congruence.
    + intros P2 pos2 data2. destruct (decide ((P2, pos2) = (P, pos))) as [X|X].
      * rewrite X, lookup_delete. done.
      * rewrite lookup_delete_ne by done. intros Y.
        apply (ds_chunk s a D) in Y as (m2 & g2 & m2' & d2 & t2 & pos02 & bs2 & X1 & X2 & X3 & X4 & X5 & X6 & X7 & X8 & X9 & X10 & X11).
        exists m2, g2, m2', d2, t2, pos02, bs2. split_and!; try done.
        -- by apply AT.
        -- rewrite FS'; [done|]. intros Z. apply X. unfold cloc in Z. apply app_inv_head in Z. injection Z as Z.
           destruct (chunk_same P2 m2 g2 pos2 []) as (-> & _ & -> & _); try done.
           ++ by apply (NR _ _ X2) in X1 as (_ & _ & ?).
           ++ by rewrite app_nil_r.
Qed.
End chunk.

(** *** Removing a node *)

Lemma rel_remove s a s' P :
  rel s a -> ppath P -> wf_fs s' ->
  (forall q, node_at s' q = if decide (q = mloc AX P) then None else if decide (q = mloc GX P) then None
       else if decide ((bp ++ B "data" :: B "root" :: P) `prefix_of` q) then None else node_at s q) ->
  rel s' (AState (delete P (a_nodes a)) (filter (fun kv => ~ P `prefix_of` fst (fst kv)) (a_chunks a))).
Proof.
  intros R PP W S. pose proof (r_data s a R) as D.
  assert (EA : is_node_ext AX) by by left. assert (EG : is_node_ext GX) by by right.
  assert (MD : forall q k, bp ++ B "meta" :: q <> bp ++ B "data" :: B "root" :: k).
  { intros q k E. by apply app_inv_head in E. }
  assert (MP : forall q k, ~ (bp ++ B "data" :: B "root" :: k) `prefix_of` bp ++ B "meta" :: q).
  { intros q k [z E]. rewrite <- app_assoc in E. by apply app_inv_head in E. }
  assert (MF : forall ext Q, is_node_ext ext -> ppath Q -> Q <> P -> file_at s' (mloc ext Q) = file_at s (mloc ext Q)).
  { intros ext Q E PQ N. unfold file_at. rewrite S.
    rewrite decide_False by (intros X; apply mloc_inj in X as [X _]; done).
    rewrite decide_False by (intros X; apply mloc_inj in X as [X _]; done).
    destruct (mloc_meta ext Q E PQ) as [q ->]. by rewrite decide_False. }
  assert (DN : forall q, node_at s' (bp ++ B "data" :: B "root" :: q)
       = if decide (P `prefix_of` q) then None else node_at s (bp ++ B "data" :: B "root" :: q)).
  { intros q. rewrite S. destruct (mloc_meta AX P EA PP) as [q1 ->]. destruct (mloc_meta GX P EG PP) as [q2 ->].
    rewrite decide_False by (intros X; by apply app_inv_head in X).
    rewrite decide_False by (intros X; by apply app_inv_head in X).
    destruct (decide (P `prefix_of` q)) as [Y|Y].
    - apply decide_True. destruct Y as [k ->]. exists k. by rewrite <- app_assoc.
    - apply decide_False. intros [k X]. apply Y. rewrite <- app_assoc in X. apply app_inv_head in X.
      cbn [app] in X. injection X as X. by exists k. }
  assert (TOP : forall q, file_at s q = None -> file_at s' q = None).
  { intros q X. unfold file_at in *. rewrite S. by repeat case_decide. }
  assert (AT : forall Q m1, Q <> P -> ppath Q -> array_text s Q m1 -> array_text s' Q m1).
  { intros Q m1 NQ PQ. apply array_text_same. by apply MF. }
  split; cbn [a_nodes a_chunks].
  - done.
  - pose proof (r_meta s a R) as M. split.
    + intros q Hq. apply TOP. by apply M.
    + intros q. rewrite S. repeat case_decide; try done. apply M.
    + intros q c. rewrite S. repeat case_decide; try done. apply M.
  - intros Q PQ. destruct (decide (Q = P)) as [->|N].
    + rewrite lookup_delete. split; unfold file_at; rewrite S; by repeat case_decide.
    + rewrite lookup_delete_ne by done. eapply node_rel_same; [by apply MF..|by apply R].
  - intros Q n. destruct (decide (Q = P)) as [->|N]; [done|]. rewrite lookup_delete_ne by done. apply R.
  - split; cbn [a_nodes a_chunks].
    + intros q Hq. apply TOP. by apply D.
    + intros q. rewrite DN. case_decide as Y; [done|]. intros X.
      apply (ds_dir s a D) in X as [X|(P2 & m2 & g2 & pos2 & pre & k & N2 & X)]; [by left|].
      right. exists P2, m2, g2, pos2, pre, k. rewrite lookup_delete_ne; [done|].
      intros <-. apply Y. destruct X as (_ & _ & _ & _ & _ & _ & ->). by eexists.
    + intros q c. rewrite DN. case_decide as Y; [done|]. intros X.
      apply (ds_file s a D) in X as (P2 & m2 & g2 & pos2 & N2 & PP2 & L2 & Q2 & X1 & X2).
      exists P2, m2, g2, pos2.
      assert (NP : ~ P `prefix_of` P2).
      { intros Z. apply Y. subst q. destruct Z as [z ->]. exists (z ++ cpieces (am_sep m2) pos2). by rewrite <- app_assoc. }
      rewrite lookup_delete_ne by (intros <-; by apply NP). split_and!; try done.
      destruct X1 as [dd X1]. exists dd. by apply map_filter_lookup_Some.
    + intros P2 pos2 data2 Y. apply map_filter_lookup_Some in Y as [Y NP]. cbn [fst] in NP.
      apply (ds_chunk s a D) in Y as (m2 & g2 & m2' & d2 & t2 & pos02 & bs2 & X1 & X2 & X3 & X4 & X5 & X6 & X7 & X8 & X9 & X10 & X11).
      assert (P2 <> P) by (intros ->; by apply NP).
      exists m2, g2, m2', d2, t2, pos02, bs2. rewrite lookup_delete_ne by done. split_and!; try done.
      * by apply AT.
      * unfold file_at in X8 |- *. rewrite DN. rewrite decide_False; [done|]. intros Z. apply NP.
        assert (GG : good_sep (am_sep m2)).
        { pose proof (r_nodes s a R _ X2) as NN. rewrite X1 in NN. by destruct NN as (_ & _ & ?). }
        destruct (chunk_head sfx (am_sep m2) pos2 X4 GG) as (x & r & E & O). rewrite E in Z.
        eapply ord_prefix; [apply PP|exact O|exact Z].
Qed.

(** *** One operation *)

Lemma array_of s a path m g : rel s a -> ordinary_path sfx path -> a_nodes a !! pieces path = Some (NArr m g) ->
  (exists m', get_array_metadata H s path = Ok m' /\ array_text s (pieces path) m' /\ meta_agree m' m g)
  /\ file_at s (mloc GX (pieces path)) = None /\ good_sep (am_sep m).
Proof.
  intros R PP E. pose proof (r_nodes s a R _ PP) as N. rewrite E in N. destruct N as ((m' & T & A) & G & S).
  split; [|done]. exists m'. split; [|done]. apply text_metadata; [apply R|apply PP|done].
Qed.
Lemma not_array s a path : rel s a -> ordinary_path sfx path ->
  (forall m g, a_nodes a !! pieces path <> Some (NArr m g)) ->
  file_at s (mloc AX (pieces path)) = None /\ get_array_metadata H s path = Err NotFound.
Proof.
  intros R PP E. pose proof (r_nodes s a R _ PP) as N.
  assert (F : file_at s (mloc AX (pieces path)) = None).
  { destruct (a_nodes a !! pieces path) as [[m g|g]|] eqn:X; [by destruct (E m g)|apply N|apply N]. }
  split; [done|]. apply no_metadata; [apply R|apply PP|done].
Qed.

Lemma meta_set s path ext c : wf_fs s -> meta_shape s -> ordinary_path sfx path -> is_node_ext ext ->
  exists s', st_set base s (metadata_key ext sfx path) (c, Ok tt) = (s', Ok tt) /\ wf_fs s'
  /\ set_at s s' (mloc ext (pieces path)) c.
Proof.
  intros W M PP E.
  destruct (st_set_ok base s (metadata_key ext sfx path)) with (v := (c, Ok tt : res unit)) as (s' & E1 & W1 & N1).
  - done.
  - done.
  - apply plain_node_key; [done|apply sf_noslash|apply PP].
  - rewrite path_loc by done. by apply meta_room.
  - exists s'. split; [done|]. split; [done|]. intros q. rewrite N1. by rewrite path_loc.
Qed.

Lemma set_at_self s s' p c : set_at s s' p c -> file_at s' p = Some c.
Proof. intros S. unfold file_at. by rewrite S, decide_True. Qed.

Lemma mloc_ne P : ppath P -> mloc AX P <> mloc GX P.
Proof. intros PP E. apply mloc_inj in E as [_ E]; [done|by left|by right|done|done]. Qed.

Lemma step_create_array s a path m : rel s a -> ordinary_path sfx path -> array_ok m ->
  exists s' r, create_array H s path m = (s', r) /\ ans_agree (HUnit r) (snd (ab_step a (OCreateArray path m)))
  /\ rel s' (fst (ab_step a (OCreateArray path m))).
Proof.
  intros R PP (A1 & A2 & A3 & A4 & A5). pose proof (r_wf s a R) as W.
  pose proof (r_nodes s a R _ PP) as N. unfold create_array.
  rewrite exists_akey, exists_gkey by (done || apply PP). cbn [on ab_step].
  destruct (a_nodes a !! pieces path) as [[m0 g0|g0]|] eqn:E; cbn [node_rel] in N.
  - destruct N as ((m' & (text & T & _) & _) & -> & _). rewrite T. cbn [is_some on].
    exists s, (Err AlreadyExists). done.
  - destruct N as (-> & text & doc & a0 & -> & _). cbn [is_some]. exists s, (Err AlreadyExists). done.
  - destruct N as [FA FG]. rewrite FA, FG. cbn [is_some on].
    destruct (meta_set s path AX (print (enc_meta m)) W (r_meta s a R) PP ltac:(by left)) as (s' & Es & W' & S).
    unfold akey, array_metadata_key. rewrite Es. exists s', (Ok tt). split; [done|]. split; [done|]. cbn [fst].
    pose proof (set_at_self _ _ _ _ S) as F.
    destruct (read_enc_meta m A1 A3 A2) as (m' & Hm & Hs).
    assert (T : array_text s' (pieces path) m').
    { exists (print (enc_meta m)). split; [done|]. split; [done|]. split.
      { apply check_exts_ok. destruct Hs as (_ & _ & _ & _ & _ & _ & _ & -> & _). done. }
      rewrite from_text_print; [by eexists|by apply enc_meta_ok|apply enc_meta_depth; [apply A1|done]]. }
    eapply rel_set; [done|by left|done|done|exact S|..].
    + cbn [node_rel]. split; [|split; [|done]].
      * exists m'. split; [done|]. split.
        -- destruct Hs as (B1 & B2 & B3 & B4 & B5 & B6 & B7 & B8 & B9 & B10). done.
        -- destruct Hs as (_ & _ & _ & _ & _ & _ & _ & _ & -> & _). split; [|done].
           destruct A1 as (_ & _ & [A1 _] & _). cbn [is_value] in A1. apply andb_true_iff in A1 as [A1 _]. done.
      * erewrite set_at_file; [exact FG|by apply (meta_room s AX); [apply R|left|]|exact S|].
        intros X. symmetry in X. revert X. by apply mloc_ne.
    + intros m1 g1 X. by rewrite E in X.
    + intros m1 g1 m1' X. by rewrite E in X.
Qed.

Lemma step_create_group s a path : rel s a -> ordinary_path sfx path ->
  exists s' r, create_group H s path = (s', r) /\ ans_agree (HUnit r) (snd (ab_step a (OCreateGroup path)))
  /\ rel s' (fst (ab_step a (OCreateGroup path))).
Proof.
  intros R PP. pose proof (r_wf s a R) as W.
  pose proof (r_nodes s a R _ PP) as N. unfold create_group.
  rewrite exists_akey, exists_gkey by (done || apply PP). cbn [on ab_step].
  destruct (a_nodes a !! pieces path) as [[m0 g0|g0]|] eqn:E; cbn [node_rel] in N.
  - destruct N as ((m' & (text & T & _) & _) & _). rewrite T. cbn [is_some on].
    exists s, (Err AlreadyExists). done.
  - destruct N as (-> & text & doc & a0 & -> & _). cbn [is_some on]. exists s, (Ok tt). done.
  - destruct N as [FA FG]. rewrite FA, FG. cbn [is_some on].
    destruct (meta_set s path GX (print group_default_json) W (r_meta s a R) PP ltac:(by right)) as (s' & Es & W' & S).
    unfold gkey, group_metadata_key. rewrite Es. exists s', (Ok tt). split; [done|]. split; [done|]. cbn [fst].
    pose proof (set_at_self _ _ _ _ S) as F.
    eapply rel_set; [done|by right|done|done|exact S|..].
    + cbn [node_rel]. split.
      * erewrite set_at_file; [exact FA|by apply (meta_room s GX); [apply R|right|]|exact S|by apply mloc_ne].
      * eexists _, _, []. split; [exact F|]. split; [vm_compute; reflexivity|]. split; [vm_compute; reflexivity|done].
    + intros m1 g1 X. by rewrite E in X.
    + intros m1 g1 m1' X. by rewrite E in X.
Qed.

Lemma value_sorted attrs : value_ok (JObj attrs) -> keys_sorted attrs = true.
Proof. intros [A1 _]. cbn [is_value] in A1. apply andb_true_iff in A1 as [A1 _]. done. Qed.
Lemma rel_insert_same s a P n : rel s a -> a_nodes a !! P = Some n ->
  rel s (AState (<[P := n]> (a_nodes a)) (a_chunks a)).
Proof. intros R E. rewrite insert_id by done. by destruct a. Qed.

Lemma changed_loc s k cs p c : wf_fs s -> plain k -> key_comps base k = Ok cs -> walk s [] cs = Ok p ->
  node_at s p = Some (File c) -> p = loc base k.
Proof.
  intros W PK E1 E2 E3. rewrite key_comps_plain in E1 by done. injection E1 as <-.
  by apply walk_normal_target in E2.
Qed.

Lemma step_set_attributes s a path attrs : rel s a -> ordinary_path sfx path ->
  value_ok (JObj attrs) -> (jdepth (JObj attrs) <= 126)%nat ->
  exists s' r, set_attributes H s path attrs = (s', r)
  /\ ans_agree (HUnit r) (snd (ab_step a (OSetAttributes path attrs)))
  /\ rel s' (fst (ab_step a (OSetAttributes path attrs))).
Proof.
  intros R PP V1 V2. pose proof (r_wf s a R) as W. assert (PL : plain path) by apply PP.
  pose proof (r_nodes s a R _ PP) as N. cbn [ab_step].
  destruct (a_nodes a !! pieces path) as [[m g|g]|] eqn:E; cbn [node_rel] in N.
  - destruct (array_of s a path m g R PP E) as ((m' & M1 & M2 & M3) & FG & GSep).
    destruct (text_document s path m' W PL M2) as [doc Hdoc].
    destruct (set_attributes_meta H s path attrs m' doc M1 Hdoc V1 V2) as (s' & a' & Es & Em & Eo).
    destruct (get_meta_document _ _ _ _ _ M1 Hdoc) as (_ & _ & Hkey & _).
    destruct (set_attributes_spec _ _ _ _ _ Hdoc V1 V2)
      as (s1 & Es1 & Hdoc1 & _ & k & cs & p & c & Hk & Hc & Hw & Hn & c' & Eq).
    rewrite Es in Es1. injection Es1 as <-. rewrite Hkey in Hk. injection Hk as <-.
    assert (p = mloc AX (pieces path)) as ->.
    { rewrite <- akey_loc. eapply changed_loc; [exact W|by apply akey_plain|done..]. }
    assert (S : set_at s s' (mloc AX (pieces path)) c') by (rewrite Eq; by eapply insert_set_at).
    assert (W' : wf_fs s') by (rewrite Eq; by eapply ow_wf).
    exists s', (Ok tt). split; [done|]. split; [done|]. cbn [fst set_node_attrs node_attrs].
    pose proof (metadata_text s' path _ _ W' PL Em Hdoc1) as T'.
    eapply rel_set; [done|by left|done|done|exact S|..].
    + cbn [node_rel]. split; [|split; [|done]].
      * exists (with_attrs m' a'). split; [done|]. destruct M3 as ((B1 & B2 & B3 & B4 & B5 & B6 & B7 & B8 & B9 & B10) & B11 & B12).
        split; [done|]. cbn [with_attrs am_attrs]. split; [apply Eo|].
        rewrite (to_attrs_overridden _ _ _ Eo). by rewrite B12.
      * erewrite set_at_file; [exact FG|by apply (meta_room s AX); [apply R|left|]|exact S|].
        intros X. symmetry in X. revert X. by apply mloc_ne.
    + intros m1 g1 X. rewrite E in X. injection X as <- <-. by eexists.
    + intros m1 g1 m1' X T. rewrite E in X. injection X as <- <-.
      pose proof (text_metadata s path _ W PL T) as X. rewrite M1 in X. injection X as <-. by exists a'.
  - destruct N as (FA & text & doc & a0 & FG & Hd & Ha & As).
    pose proof (node_key_g s path text W PL FA FG) as Hkey.
    assert (Hdoc : node_document H s path = Ok doc).
    { unfold node_document. rewrite Hkey, bind_ok, get_gkey, FG, bind_ok by done. done. }
    destruct (set_attributes_spec _ _ _ _ _ Hdoc V1 V2)
      as (s' & Es & Hdoc' & _ & k & cs & p & c & Hk & Hc & Hw & Hn & c' & Eq).
    rewrite Hkey in Hk. injection Hk as <-.
    assert (p = mloc GX (pieces path)) as ->.
    { rewrite <- gkey_loc. eapply changed_loc; [exact W|by apply gkey_plain|done..]. }
    assert (S : set_at s s' (mloc GX (pieces path)) c') by (rewrite Eq; by eapply insert_set_at).
    assert (W' : wf_fs s') by (rewrite Eq; by eapply ow_wf).
    exists s', (Ok tt). split; [done|]. split; [done|]. cbn [fst set_node_attrs node_attrs].
    assert (FA' : file_at s' (mloc AX (pieces path)) = None).
    { erewrite set_at_file; [exact FA|by apply (meta_room s GX); [apply R|right|]|exact S|by apply mloc_ne]. }
    pose proof (set_at_self _ _ _ _ S) as FG'.
    eapply rel_set; [done|by right|done|done|exact S|..].
    + cbn [node_rel]. split; [done|].
      exists c', (merge_doc doc attrs), (mmerge a0 attrs). split; [done|].
      assert (SD : sorted doc) by (apply as_map_doc_ok in Hd; apply doc_ok_iff in Hd; apply Hd).
      split; [|split].
      * unfold node_document in Hdoc'. rewrite (node_key_g s' path c' W' PL FA' FG'), bind_ok in Hdoc'.
        rewrite get_gkey, FG', bind_ok in Hdoc' by done. done.
      * rewrite merge_doc_attrs by done. by rewrite Ha.
      * destruct As as [As1 As2]. 
        assert (Eo : overridden a0 attrs (mmerge a0 attrs)).
        { apply mmerge_overridden; apply keys_sorted_spec; [done|by apply value_sorted]. }
        split; [apply Eo|]. rewrite (to_attrs_overridden _ _ _ Eo). by rewrite As2.
    + intros m1 g1 X. by rewrite E in X.
    + intros m1 g1 m1' X T. by rewrite E in X.
  - destruct N as [FA FG]. unfold set_attributes. rewrite (node_key_none s path W PL FA FG). cbn [on].
    by exists s, (Err NotFound).
Qed.

Lemma erase_meta s path ext : wf_fs s -> meta_shape s -> ordinary_path sfx path -> is_node_ext ext ->
  exists s', st_erase base s (metadata_key ext sfx path) = (s', Ok true) /\ wf_fs s'
  /\ erase_at s s' (mloc ext (pieces path)).
Proof.
  intros W M PP E. assert (PK : plain (metadata_key ext sfx path)).
  { apply plain_node_key; [done|apply sf_noslash|apply PP]. }
  rewrite st_erase_plain by done. rewrite path_loc by done.
  pose proof (proj2 (meta_room s ext (pieces path) M E PP)) as ND.
  destruct (node_at s (mloc ext (pieces path))) as [[|c]|] eqn:X; [done| |].
  - eexists. split; [done|]. rewrite <- (path_loc ext path) in X |- * by done. split; [by eapply wf_delete_file|].
    intros q. apply node_at_delete. intros Z. by rewrite Z in X.
  - exists s. split; [done|]. split; [done|]. intros q. case_decide; [by subst|done].
Qed.

Lemma step_remove s a path : rel s a -> ordinary_path sfx path ->
  exists s' r, Hier.remove H s path = (s', r)
  /\ ans_agree (HUnit r) (snd (ab_step a (ORemove path)))
  /\ rel s' (fst (ab_step a (ORemove path))).
Proof.
  intros R PP. pose proof (r_wf s a R) as W. assert (PL : plain path) by apply PP. unfold Hier.remove.
  destruct (erase_meta s path GX W (r_meta s a R) PP ltac:(by right)) as (s1 & E1 & W1 & S1).
  pose proof (meta_shape_erase _ _ _ (r_meta s a R) S1) as M1.
  destruct (erase_meta s1 path AX W1 M1 PP ltac:(by left)) as (s2 & E2 & W2 & S2).
  unfold gkey, akey, group_metadata_key, array_metadata_key. rewrite E1. cbn [andthen]. rewrite E2. cbn [andthen].
  assert (EL : loc base (data_path_key path) = bp ++ B "data" :: B "root" :: pieces path).
  { unfold loc. by rewrite pieces_data_key. }
  assert (PK : plain (data_path_key path)).
  { unfold plain. rewrite pieces_data_key. intros I. apply elem_of_app in I as [I|I]; [|done].
    apply elem_of_cons in I as [I|I]; [done|]. by apply elem_of_list_singleton in I. }
  destruct (st_erase_prefix_plain base s2 (data_path_key path) W2 PB PK) as (s3 & E3 & W3 & S3).
  { rewrite EL. by destruct bp. }
  rewrite E3. cbn [andthen]. exists s3, (Ok tt). split; [done|]. split; [done|].
  cbn [ab_step fst]. eapply rel_remove; [done|done|done|].
  intros q. rewrite S3, S2, S1, EL. by repeat case_decide.
Qed.

Lemma node_exists_ans s a path : rel s a -> ordinary_path sfx path ->
  node_exists H s path = Ok (bool_decide (is_Some (a_nodes a !! pieces path))).
Proof.
  intros R PP. pose proof (r_wf s a R) as W. assert (PL : plain path) by apply PP.
  pose proof (r_nodes s a R _ PP) as N. unfold node_exists. rewrite exists_akey, bind_ok by done.
  destruct (a_nodes a !! pieces path) as [[m g|g]|] eqn:E; cbn [node_rel] in N.
  - destruct N as ((m' & (text & -> & _) & _) & _). done.
  - destruct N as (-> & text & doc & a0 & FG & _). cbn [is_some]. rewrite exists_gkey, bind_ok, FG by done. done.
  - destruct N as [-> FG]. cbn [is_some]. rewrite exists_gkey, bind_ok, FG by done. cbn [is_some].
    fold (ekey H path). rewrite st_exists_plain by (done || by apply plain_ekey).
    destruct (file_at s (loc base (ekey H path))) as [c|] eqn:F; [|done]. exfalso.
    unfold loc in F. rewrite pieces_ekey in F by done. apply file_at_some in F.
    apply (ms_file s (r_meta s a R)) in F as (l & n & ext & Ee & X).
    assert (O : Forall ord (B "root" :: pieces path)) by (apply Forall_cons_2; [apply root_ord|apply PP]).
    change ([B "root"] ++ pieces path) with (B "root" :: pieces path) in X. cbn [app] in X. rewrite X in O.
    apply Forall_app in O as [_ O]. inversion O as [|? ? O' _]. by eapply tag_not_ord.
Qed.

Lemma attributes_ans s a path : rel s a -> ordinary_path sfx path ->
  ans_agree (HAttrs (list_attributes H s path))
    (BAttrs (match a_nodes a !! pieces path with Some n => Ok (node_attrs n) | None => Err NotFound end)).
Proof.
  intros R PP. pose proof (r_wf s a R) as W. assert (PL : plain path) by apply PP.
  pose proof (r_nodes s a R _ PP) as N.
  destruct (a_nodes a !! pieces path) as [[m g|g]|] eqn:E; cbn [node_rel] in N.
  - destruct (array_of s a path m g R PP E) as ((m' & M1 & M2 & M3) & _).
    destruct (text_document s path m' W PL M2) as [doc Hdoc].
    rewrite (get_meta_attrs _ _ _ _ _ M1 Hdoc). cbn [ans_agree node_attrs]. apply M3.
  - destruct N as (FA & text & doc & a0 & FG & Hd & Ha & As).
    assert (Hdoc : node_document H s path = Ok doc).
    { unfold node_document. rewrite (node_key_g s path text W PL FA FG), bind_ok, get_gkey, FG, bind_ok by done. done. }
    destruct (node_document_attrs _ _ _ _ [] Hdoc) as [-> _]. rewrite Ha. done.
  - destruct N as [FA FG]. unfold list_attributes. rewrite (node_key_none s path W PL FA FG). done.
Qed.
Lemma metadata_ans s a path : rel s a -> ordinary_path sfx path ->
  ans_agree (HMeta (get_array_metadata H s path))
    (BMeta (match a_nodes a !! pieces path with Some (NArr m g) => Ok (m, g) | _ => Err NotFound end)).
Proof.
  intros R PP. destruct (a_nodes a !! pieces path) as [[m g|g]|] eqn:E.
  - destruct (array_of s a path m g R PP E) as ((m' & -> & M2 & M3) & _). done.
  - destruct (not_array s a path R PP) as [_ ->]; [by rewrite E|done].
  - destruct (not_array s a path R PP) as [_ ->]; [by rewrite E|done].
Qed.

Lemma step_write s a t path pos data : rel s a -> hop_ok C (h_prof h) sfx a (OWrite t path pos data) ->
  exists s' x, hop_step C h H s (OWrite t path pos data) = (s', x)
  /\ ans_agree x (snd (ab_step a (OWrite t path pos data)))
  /\ rel s' (fst (ab_step a (OWrite t path pos data))).
Proof.
  intros R [PP OA]. pose proof (r_wf s a R) as W. assert (PL : plain path) by apply PP.
  cbn [hop_step ab_step].
  assert ((exists m g, a_nodes a !! pieces path = Some (NArr m g))
          \/ forall m g, a_nodes a !! pieces path <> Some (NArr m g)) as [(m & g & E)|E].
  { destruct (a_nodes a !! pieces path) as [[m g|g]|]; [left; by eexists _, _|by right..]. }
  2: { destruct (not_array s a path R PP E) as [_ ->]. cbn [on fst snd]. exists s, (HUnit (Err NotFound)).
       split; [done|]. destruct (a_nodes a !! pieces path) as [[m g|g]|]; [by destruct (E m g)|done|done]. }
  destruct (OA m g E) as (((d & Ed & Ek) & CS & LL & TC) & Lp & Qp & Ef & Et).
  destruct (array_of s a path m g R PP E) as ((m' & -> & T & A) & FG & GSep). rewrite E. cbn [on].
  destruct (agree_fields _ _ _ A) as (A1 & A2 & A3 & A4).
  destruct (agree_type _ _ _ _ _ A Ed Ek) as (d' & Ed' & Ek').
  assert (CS' : chunk_shape_ok m') by (unfold chunk_shape_ok; by rewrite A2).
  assert (Ef' : full_chunk m' data) by (unfold full_chunk; by rewrite A2).
  pose proof (encode_chunk_ok C h t m' d' data pos Ed' Ek' CS' Ef') as Ee.
  assert (EOK : snd (encode_chunk C h t m' (Chunk pos data)) = Ok tt).
  { rewrite Ee, A4. apply TC. }
  assert (NR : forall P n, ppath P -> a_nodes a !! P = Some n -> node_rel s P (Some n)).
  { intros Q n PQ <-. by apply R. }
  pose proof (chunk_room a (pieces path) m g E PP GSep pos Lp Qp s NR (r_data s a R)) as Room.
  assert (EL : loc base (get_chunk_key path m' pos) = cloc (pieces path) (am_sep m) pos).
  { rewrite cloc_loc. by rewrite A3. }
  unfold write_chunk. cbn [ck_pos].
  assert (PK : plain (get_chunk_key path m' pos)).
  { apply plain_chunk_key; [done|rewrite A3; apply GSep|done]. }
  destruct (st_set_ok base s (get_chunk_key path m' pos) W PB PK (encode_chunk C h t m' (Chunk pos data)))
    as (s' & E1 & W1 & N1).
  { by rewrite EL. }
  rewrite E1, EOK. cbn [fst snd]. eexists _, _. split; [done|]. split; [done|].
  destruct (encode_chunk C h t m' (Chunk pos data)) as [bs r] eqn:Een. cbn [fst snd] in *. subst r.
  eapply (rel_chunk_set a (pieces path) m g E PP GSep pos Lp Qp s s' data m' d' t pos bs); try done.
  intros q. rewrite N1. by rewrite EL.
Qed.

Lemma step_delete s a path pos : rel s a -> hop_ok C (h_prof h) sfx a (ODelete path pos) ->
  exists s' x, hop_step C h H s (ODelete path pos) = (s', x)
  /\ ans_agree x (snd (ab_step a (ODelete path pos)))
  /\ rel s' (fst (ab_step a (ODelete path pos))).
Proof.
  intros R [PP OA]. pose proof (r_wf s a R) as W. assert (PL : plain path) by apply PP.
  cbn [hop_step ab_step]. cbv zeta.
  assert ((exists m g, a_nodes a !! pieces path = Some (NArr m g))
          \/ forall m g, a_nodes a !! pieces path <> Some (NArr m g)) as [(m & g & E)|E].
  { destruct (a_nodes a !! pieces path) as [[m g|g]|]; [left; by eexists _, _|by right..]. }
  2: { destruct (not_array s a path R PP E) as [_ ->]. cbn [on fst snd]. exists s, (HBool (Err NotFound)).
       split; [done|]. destruct (a_nodes a !! pieces path) as [[m g|g]|]; [by destruct (E m g)|done|done]. }
  destruct (OA m g E) as (Lp & Qp).
  destruct (array_of s a path m g R PP E) as ((m' & -> & T & A) & FG & GSep). rewrite E. cbn [on].
  destruct (agree_fields _ _ _ A) as (A1 & A2 & A3 & A4).
  assert (NR : forall P n, ppath P -> a_nodes a !! P = Some n -> node_rel s P (Some n)).
  { intros Q n PQ <-. by apply R. }
  pose proof (chunk_room a (pieces path) m g E PP GSep pos Lp Qp s NR (r_data s a R)) as [_ ND].
  assert (EL : loc base (get_chunk_key path m' pos) = cloc (pieces path) (am_sep m) pos).
  { rewrite cloc_loc. by rewrite A3. }
  assert (PK : plain (get_chunk_key path m' pos)).
  { apply plain_chunk_key; [done|rewrite A3; apply GSep|done]. }
  unfold delete_chunk. rewrite st_erase_plain by done. rewrite EL.
  assert (exists s', (match node_at s (cloc (pieces path) (am_sep m) pos) with
    | Some Dir => (s, Err Other) | Some (File _) => (delete (cloc (pieces path) (am_sep m) pos) s, Ok true)
    | None => (s, Ok true) end) = (s', Ok true) /\ wf_fs s' /\ erase_at s s' (cloc (pieces path) (am_sep m) pos))
    as (s' & -> & W' & S').
  { destruct (node_at s (cloc (pieces path) (am_sep m) pos)) as [[|c]|] eqn:X; [done| |].
    - eexists. split; [done|]. split.
      + rewrite <- EL in X |- *. by eapply wf_delete_file.
      + intros q. apply node_at_delete. intros Z. by rewrite Z in X.
    - exists s. split; [done|]. split; [done|]. intros q. case_decide; [by subst|done]. }
  cbn [fst snd]. eexists _, _. split; [done|]. split; [done|].
  by eapply (rel_chunk_erase a (pieces path) m g E PP GSep pos Lp Qp s s').
Qed.

Lemma read_ans s a t path pos : rel s a -> hop_ok C (h_prof h) sfx a (ORead t path pos) ->
  (m ← get_array_metadata H s path; read_chunk C h H s t path m pos)
  = match a_nodes a !! pieces path with
    | Some (NArr _ _) => Ok (match a_chunks a !! (pieces path, pos) with
                             | Some d => Some (Chunk pos d) | None => None end)
    | _ => Err NotFound
    end.
Proof.
  intros R [PP OA]. pose proof (r_wf s a R) as W. assert (PL : plain path) by apply PP.
  assert ((exists m g, a_nodes a !! pieces path = Some (NArr m g))
          \/ forall m g, a_nodes a !! pieces path <> Some (NArr m g)) as [(m & g & E)|E].
  { destruct (a_nodes a !! pieces path) as [[m g|g]|]; [left; by eexists _, _|by right..]. }
  2: { destruct (not_array s a path R PP E) as [_ ->].
       destruct (a_nodes a !! pieces path) as [[m g|g]|]; [by destruct (E m g)|done|done]. }
  destruct (OA m g E) as (((d & Ed & Ek) & CS & LL & TC) & IB & Qp).
  assert (Lp : length pos = length (am_shape m)) by by eapply in_bounds_len.
  destruct (array_of s a path m g R PP E) as ((m' & -> & T & A) & FG & GSep). rewrite E, bind_ok.
  destruct (agree_fields _ _ _ A) as (A1 & A2 & A3 & A4).
  destruct (agree_type _ _ _ _ _ A Ed Ek) as (d' & Ed' & Ek').
  assert (EL : loc base (get_chunk_key path m' pos) = cloc (pieces path) (am_sep m) pos).
  { rewrite cloc_loc. by rewrite A3. }
  assert (PK : plain (get_chunk_key path m' pos)).
  { apply plain_chunk_key; [done|rewrite A3; apply GSep|done]. }
  unfold read_chunk. rewrite (agree_bounds _ _ _ _ _ A), IB, bind_ok. cbn [assert_]. rewrite bind_ok.
  rewrite st_get_plain, bind_ok, EL by done.
  destruct (a_chunks a !! (pieces path, pos)) as [data|] eqn:X.
  - apply (ds_chunk s a (r_data s a R)) in X as (m2 & g2 & m2' & d2 & t2 & pos02 & bs2 & X1 & X2 & X3 & X4 & X5 & X6 & X7 & X8 & X9 & X10 & X11).
    rewrite E in X1. injection X1 as <- <-. 
    pose proof (text_metadata s path _ W PL X5) as Y1. rewrite (text_metadata s path _ W PL T) in Y1. injection Y1 as <-.
    assert (t = t2) as <- by exact (type_unique m' d' d2 t t2 Ed' Ek' X6 X7).
    unfold cloc. rewrite X8.
    assert (F' : full_chunk m' data) by (unfold full_chunk; by rewrite A2).
    assert (LT : lenZ data < two64).
    { unfold full_chunk in X10. destruct CS as [_ CS]. unfold two32, two64 in *. lia. }
    destruct (chunk_roundtrip_both C h t m' data bs2 pos02 pos (Chunk [] [])) as [-> _]; try done.
    by rewrite A4.
  - destruct (file_at s (cloc (pieces path) (am_sep m) pos)) as [bs|] eqn:F; [|done]. exfalso.
    apply file_at_some in F. apply (ds_file s a (r_data s a R)) in F as (P2 & m2 & g2 & pos2 & N2 & PP2 & L2 & Q2 & [dd X1] & X2).
    destruct (chunk_same a (pieces path) m g E PP GSep pos Lp Qp P2 m2 g2 pos2 []) as (-> & _ & -> & _); try done.
    + pose proof (r_nodes s a R _ PP2) as NN. rewrite N2 in NN. by destruct NN as (_ & _ & ?).
    + by rewrite app_nil_r.
    + congruence.
Qed.

Lemma hop_refines s a o : rel s a -> hop_ok C (h_prof h) sfx a o ->
  exists s' x, hop_step C h H s o = (s', x) /\ ans_agree x (snd (ab_step a o)) /\ rel s' (fst (ab_step a o)).
Proof.
  intros R O. destruct o as [path m|path|path attrs|path|path|path|path|t path pos data|path pos|t path pos].
  - destruct O as [PP A]. destruct (step_create_array s a path m R PP A) as (s' & r & E & X).
    cbn [hop_step]. cbv zeta. rewrite E. by eexists _, _.
  - destruct (step_create_group s a path R O) as (s' & r & E & X).
    cbn [hop_step]. cbv zeta. rewrite E. by eexists _, _.
  - destruct O as (PP & V1 & V2). destruct (step_set_attributes s a path attrs R PP V1 V2) as (s' & r & E & X).
    cbn [hop_step]. cbv zeta. rewrite E. by eexists _, _.
  - destruct (step_remove s a path R O) as (s' & r & E & X).
    cbn [hop_step]. cbv zeta. rewrite E. by eexists _, _.
  - cbn [hop_step ab_step fst snd]. eexists _, _. split; [done|]. split; [|done].
    cbn [ans_agree]. by apply node_exists_ans.
  - cbn [hop_step ab_step fst snd]. eexists _, _. split; [done|]. split; [|done]. by apply metadata_ans.
  - cbn [hop_step ab_step fst snd]. eexists _, _. split; [done|]. split; [|done]. by apply attributes_ans.
  - by apply step_write.
  - by apply step_delete.
  - cbn [hop_step ab_step fst snd]. eexists _, _. split; [done|]. split; [|done].
    cbn [ans_agree]. by apply read_ans.
Qed.

Lemma history_refines os : forall s a, rel s a -> history_ok C (h_prof h) sfx a os ->
  Forall2 ans_agree (snd (hop_run C h H s os)) (snd (ab_run a os)).
Proof.
  induction os as [|o os IH]; intros s a R O; [constructor|]. destruct O as [O1 O2].
  destruct (hop_refines s a o R O1) as (s' & x & E & A & R'). cbn [hop_run ab_run]. rewrite E.
  destruct (ab_step a o) as [a' y]. cbn [fst snd] in *. specialize (IH s' a' R' O2).
  destruct (hop_run C h H s' os), (ab_run a' os). by constructor.
Qed.

Lemma history_rel os : forall s a, rel s a -> history_ok C (h_prof h) sfx a os ->
  rel (fst (hop_run C h H s os)) (fst (ab_run a os)).
Proof.
  induction os as [|o os IH]; intros s a R O; [done|]. destruct O as [O1 O2].
  destruct (hop_refines s a o R O1) as (s' & x & E & A & R'). cbn [hop_run ab_run]. rewrite E.
  destruct (ab_step a o) as [a' y]. cbn [fst snd] in *. specialize (IH s' a' R' O2).
  destruct (hop_run C h H s' os), (ab_run a' os). done.
Qed.

Lemma fresh_rel s : fresh_hierarchy s base -> rel s a_empty.
Proof.
  intros (W & T & NM & ND).
  assert (SUB : forall r q n, node_at s (bp ++ [r]) = None -> node_at s (bp ++ r :: q) = Some n -> False).
  { intros r q n N E. destruct q as [|x q]; [congruence|].
    change (r :: x :: q) with ([r] ++ x :: q) in E. rewrite app_assoc in E.
    apply wf_prefix in E; [by rewrite N in E|done|done]. }
  assert (TOP : forall r q, node_at s (bp ++ [r]) = None -> q `prefix_of` bp ++ [r; B "root"] -> file_at s q = None).
  { intros r q N Hq. apply top_cases in Hq as [[k Hk]|[->| ->]].
    - rewrite <- (T (length q)). f_equal. by rewrite Hk, take_app.
    - unfold file_at. by rewrite N.
    - unfold file_at. destruct (node_at s (bp ++ [r; B "root"])) eqn:E; [|done]. by destruct (SUB _ _ _ N E). }
  split.
  - done.
  - split.
    + intros q. by apply TOP.
    + intros q E. by destruct (SUB _ _ _ NM E).
    + intros q c E. by destruct (SUB _ _ _ NM E).
  - intros P PP. cbn [a_nodes a_empty]. rewrite lookup_empty. cbn [node_rel].
    assert (X : forall ext, is_node_ext ext -> file_at s (mloc ext P) = None).
    { intros ext E. destruct (mloc_form ext P E PP) as (l & n & -> & _). unfold file_at.
      destruct (node_at s (bp ++ B "meta" :: l ++ [n ++ tag ext sf])) as [nd|] eqn:Y; [|done]. by destruct (SUB _ _ _ NM Y). }
    split; apply X; [by left|by right].
  - intros P n X. cbn [a_nodes a_empty] in X. by rewrite lookup_empty in X.
  - split.
    + intros q. by apply TOP.
    + intros q E. by destruct (SUB _ _ _ ND E).
    + intros q c E. by destruct (SUB _ _ _ ND E).
    + intros P pos data X. cbn [a_chunks a_empty] in X. by rewrite lookup_empty in X.
Qed.
End refine.

Theorem hierarchy_refines C h H s os :
  plain (hy_base H) -> good_suffix (ep_suffix (hy_ep H)) -> fresh_hierarchy s (hy_base H) ->
  history_ok C (h_prof h) (ep_suffix (hy_ep H)) a_empty os ->
  Forall2 ans_agree (snd (hop_run C h H s os)) (snd (ab_run a_empty os)).
Proof. intros PB GS F O. apply history_refines; [done|done|by apply fresh_rel|done]. Qed.
