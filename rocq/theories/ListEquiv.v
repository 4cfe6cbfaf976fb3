(** Listings depend on the metadata tree only (C08, C10, C13). *)
From Verif Require Import CoordIter Hier Nd Spec SpecMeta SpecHier SpecList BaseFacts PathFacts FSFacts StoreFacts CoordIterFacts NdFacts JsonPrefix OpsFacts ListFacts.
From Coq Require Import Sorting.Sorted.
Local Open Scope Z_scope.

(** Two lists in strict order with the same members are equal. *)
Lemma sorted_lt_eq (l1 : list bytes) : forall l2, StronglySorted string_lt l1 -> StronglySorted string_lt l2 ->
  (forall x, x ∈ l1 <-> x ∈ l2) -> l1 = l2.
Proof.
  assert (IR : forall a, ~ string_lt a a) by (intros a X; apply blt_lex in X; by apply blt_irrefl in X).
  assert (TR : forall a b, string_lt a b -> string_lt b a -> False).
  { intros a b X Y. apply blt_lex in X, Y. apply (blt_irrefl a). unfold blt in *. by eapply bcmp_lt_trans. }
  induction l1 as [|a l1 IH]; intros [|b l2] S1 S2 M.
  - done.
  - exfalso. by apply (not_elem_of_nil b), M; left.
  - exfalso. by apply (not_elem_of_nil a), M; left.
  - apply StronglySorted_inv in S1 as [S1 F1]. apply StronglySorted_inv in S2 as [S2 F2].
    rewrite list.Forall_forall in F1, F2.
    assert (a = b) as ->.
    { assert (Ya1 := proj1 (M a) ltac:(left)); apply elem_of_cons in Ya1 as [?|J]; [done|].
      assert (Yb2 := proj2 (M b) ltac:(left)); apply elem_of_cons in Yb2 as [?|K]; [done|].
      exfalso. apply (TR a b); auto. }
    f_equal. apply IH; [done..|]. intros x. split; intros I.
    + assert (Yx1 := proj1 (M x) ltac:(by right)); apply elem_of_cons in Yx1 as [->|J]; [|done]. destruct (IR b). auto.
    + assert (Yx2 := proj2 (M x) ltac:(by right)); apply elem_of_cons in Yx2 as [->|J]; [|done]. destruct (IR b). auto.
Qed.

(** No directory there: the answer does not depend on the spelling. *)
Lemma list_nodes_no_dir p H s path : plain (hy_base H) -> plain path -> node_at s (meta_dir H path) <> Some Dir ->
  list_nodes p H s path = (q ← walk s [] (map Normal (meta_dir H path));
    match node_at s q with Some (File _) => Err Other | _ => Err NotFound end).
Proof.
  intros PB PP ND. unfold list_nodes, st_list_dir. cbv zeta. rewrite key_comps_plain by first [done|by apply plain_kp].
  rewrite loc_kp, bind_ok. destruct (walk s [] (map Normal (meta_dir H path))) as [q|e|] eqn:E; [|done..].
  rewrite !bind_ok. apply walk_normal_target in E as ->. cbn [app]. destruct (node_at s (meta_dir H path)) as [[|]|]; done.
Qed.

Section same.
Context (p : profile) (H : hier) (t : bytes).
Hypothesis PB : plain (hy_base H).
Hypothesis GS : good_suffix (ep_suffix (hy_ep H)).
Hypothesis SX : ep_suffix (hy_ep H) = dot :: t.
Hypothesis S11 : lenZ (ep_suffix (hy_ep H)) <= 11.
Notation base := (hy_base H).

(** What is there: nothing, a file, or a directory. *)
Definition kind (o : option node) : option bool :=
  match o with Some Dir => Some true | Some (File _) => Some false | None => None end.
Lemma kind_dir o o' : kind o' = kind o -> o = Some Dir -> o' = Some Dir.
Proof. intros E ->. by destruct o' as [[]|]. Qed.

(** The same metadata tree, but for the contents of documents. *)
Definition same_meta (s s' : fs) : Prop :=
  (forall r, walk s' [] (map Normal (pieces base ++ B "meta" :: r)) = walk s [] (map Normal (pieces base ++ B "meta" :: r)))
  /\ forall r, kind (node_at s' (pieces base ++ B "meta" :: r)) = kind (node_at s (pieces base ++ B "meta" :: r)).

Lemma meta_same s s' : wf_fs s -> wf_fs s' -> node_at s (pieces base) = Some Dir -> node_at s' (pieces base) = Some Dir ->
  (forall r, kind (node_at s' (pieces base ++ B "meta" :: r)) = kind (node_at s (pieces base ++ B "meta" :: r))) -> same_meta s s'.
Proof.
  intros W W' D D' E. split; [|done]. intros r. rewrite map_app, !walk_app.
  rewrite (walk_present s _ [] _ W D), (walk_present s' _ [] _ W' D'), !bind_ok. cbn [app map walk].
  rewrite D, D'. cbn [step].
  assert (G : forall r d, walk s' (pieces base ++ B "meta" :: d) (map Normal r) = walk s (pieces base ++ B "meta" :: d) (map Normal r)).
  { clear r. induction r as [|x r IH]; intros d; [done|]. cbn [map walk]. specialize (E d).
    destruct (node_at s' (pieces base ++ B "meta" :: d)) as [[|]|], (node_at s (pieces base ++ B "meta" :: d)) as [[|]|]; try done. cbn [step].
    replace ((pieces base ++ B "meta" :: d) ++ [x]) with (pieces base ++ B "meta" :: (d ++ [x])) by by rewrite <- app_assoc. apply IH. }
  apply (G r []).
Qed.

Lemma explicit_same s s' path n : plain path -> wf_fs s -> wf_fs s' -> same_meta s s' -> explicit_child H s path n -> explicit_child H s' path n.
Proof.
  intros PP W W' (_ & SM) X. apply (explicit_iff H s path t) in X as (path' & ext & Ee & P1 & P2 & F); [|done..].
  apply (explicit_iff H s' path t); [done..|]. exists path', ext. split_and!; [done..|].
  intros F'. apply F. revert F'. unfold file_at, meta_dir. rewrite <- !app_assoc. cbn [app].
  specialize (SM (B "root" :: pieces path ++ [doc H n ext])). revert SM.
  destruct (node_at s' _) as [[|]|], (node_at s _) as [[|]|]; done.
Qed.
Lemma docs_same s s' : same_meta s s' -> documents_only H s -> documents_only H s'.
Proof.
  intros (_ & SM) DO r c F. specialize (SM r). unfold file_at in F. destruct (node_at s' _) as [[|c']|]; [done| |done].
  destruct (node_at s (pieces base ++ B "meta" :: r)) as [[|c0]|] eqn:E; [done| |done]. apply (DO r c0). unfold file_at. by rewrite E.
Qed.
Lemma names_same s s' path : same_meta s s' -> real_in s (meta_dir H path) -> real_in s' (meta_dir H path).
Proof.
  intros (_ & SM) R x n E.
  assert (X : meta_dir H path ++ [x] = pieces base ++ B "meta" :: (B "root" :: pieces path ++ [x])) by (unfold meta_dir; by rewrite <- !app_assoc).
  specialize (SM (B "root" :: pieces path ++ [x])). rewrite <- X in SM.
  assert (NA : forall s0 : fs, node_at s0 (meta_dir H path ++ [x]) = s0 !! (meta_dir H path ++ [x])).
  { intros s0. unfold node_at. by destruct (meta_dir H path). }
  rewrite !NA, E in SM. destruct (s !! (meta_dir H path ++ [x])) as [n0|] eqn:E0; [by apply (R x n0)|by destruct n].
Qed.

Lemma listing_same s s' path path' : wf_fs s -> wf_fs s' -> real_names s -> documents_only H s ->
  same_meta s s' -> plain path -> pieces path' = pieces path -> lenZ path < two32 -> lenZ path' < two32 ->
  list_nodes p H s' path' = list_nodes p H s path.
Proof.
  intros W W' RN DO SM PP EP L L'.
  assert (DO' : documents_only H s') by by eapply docs_same.
  assert (PP' : plain path') by (unfold plain; by rewrite EP).
  assert (DD : meta_dir H path' = meta_dir H path) by (unfold meta_dir; by rewrite EP).
  assert (RN1 : real_in s (meta_dir H path)) by (intros x n; apply RN).
  assert (RN2 : real_in s' (meta_dir H path')) by (rewrite DD; by eapply names_same).
  assert (ND : kind (node_at s' (meta_dir H path)) = kind (node_at s (meta_dir H path))) by apply SM.
  assert (SM' : same_meta s' s) by (destruct SM as (A & B); by split).
  assert (EC : forall n, explicit_child H s' path' n <-> explicit_child H s path n).
  { intros n. split; intros X.
    - apply (explicit_same s' s); [done..|]. unfold explicit_child in *. by rewrite <- EP.
    - unfold explicit_child. rewrite EP. by apply (explicit_same s s'). }
  assert (CD : forall n, child_dir H s' path' n <-> child_dir H s path n).
  { intros n. unfold child_dir. rewrite DD. unfold meta_dir. cbn [app]. rewrite <- !app_assoc. cbn [app].
    split; apply kind_dir; [symmetry|]; apply SM. }
  assert (ED : EqDecision (res (list bytes))) by solve_decision.
  destruct (decide (list_nodes p H s' path' = list_nodes p H s path)) as [|NE]; [done|exfalso].
  assert (CN : node_at s (meta_dir H path) = Some Dir \/ node_at s (meta_dir H path) <> Some Dir)
    by (destruct (node_at s (meta_dir H path)) as [[|]|]; auto).
  destruct CN as [D|D].
  - assert (D' : node_at s' (meta_dir H path') = Some Dir) by (rewrite DD; by eapply kind_dir).
    assert (LN : forall n, explicit_child H s path n -> lenZ (ep_suffix (hy_ep H)) <= lenZ n).
    { intros n X. destruct (Z_le_gt_dec (lenZ (ep_suffix (hy_ep H))) (lenZ n)) as [|G]; [done|exfalso]. apply NE.
      rewrite (list_nodes_panics_in p H s path t) with (n := n); [|done || lia..].
      rewrite (list_nodes_panics_in p H s' path' t) with (n := n); [done|..]; try done; [by apply EC|lia]. }
    destruct (list_nodes_ok_in p H s path t) as (l & E & S & M); [done..|].
    destruct (list_nodes_ok_in p H s' path' t) as (l' & E' & S' & M'); [done..| |].
    { intros n X. by apply LN, EC. }
    apply NE. rewrite E, E'. f_equal. apply sorted_lt_eq; [done..|]. intros x. rewrite M, M', CD.
    by setoid_rewrite EC.
  - assert (D' : node_at s' (meta_dir H path) <> Some Dir) by (intros X; apply D; by eapply kind_dir; [symmetry|]).
    apply NE. rewrite !list_nodes_no_dir; [|done..|by rewrite DD]. rewrite DD. unfold meta_dir at 1 2. cbn [app].
    rewrite (proj1 SM). destruct (walk s [] _) as [q| |] eqn:E; [|done..]. rewrite !bind_ok.
    apply walk_normal_target in E as ->. cbn [app]. pose proof (proj2 SM (B "root" :: pieces path)) as K.
    revert K. destruct (node_at s' _) as [[|]|], (node_at s _) as [[|]|]; done.
Qed.

(** ** Calls that leave the metadata tree as it is *)

Definition kept_meta (s s' : fs) : Prop :=
  wf_fs s' /\ node_at s' (pieces base) = Some Dir
  /\ forall r, kind (node_at s' (pieces base ++ B "meta" :: r)) = kind (node_at s (pieces base ++ B "meta" :: r)).
Lemma kept_refl s : wf_fs s -> node_at s (pieces base) = Some Dir -> kept_meta s s.
Proof. by repeat split. Qed.
Lemma kept_trans s1 s2 s3 : kept_meta s1 s2 -> kept_meta s2 s3 -> kept_meta s1 s3.
Proof. intros (A1 & A2 & A3) (B1 & B2 & B3). split; [done|]. split; [done|]. intros r. by rewrite B3. Qed.

Lemma set_kept s key v s' r : wf_fs s -> plain key -> node_at s (pieces base) = Some Dir -> pieces key <> [] ->
  (forall r, pieces base ++ B "meta" :: r = loc base key -> file_at s (loc base key) <> None) ->
  (forall r, (pieces base ++ B "meta" :: r) `prefix_of` loc base key -> file_at s (loc base key) <> None) ->
  st_set base s key v = (s', r) -> kept_meta s s'.
Proof.
  intros W PK D NK X1 X2 E. destruct (can_hold_dec base s key) as [CH|CH].
  - destruct (st_set_ok base s key W PB PK v CH) as (s1 & E1 & W1 & N1). rewrite E in E1. injection E1 as <- _.
    assert (BL : pieces base `prefix_of` loc base key) by by eexists.
    assert (BN : pieces base <> loc base key).
    { intros Y. apply NK. unfold loc in Y. rewrite <- (app_nil_r (pieces base)) in Y at 1. by apply app_inv_head in Y. }
    split; [done|]. split.
    + rewrite N1, decide_False, decide_True by done. done.
    + intros q. rewrite N1. case_decide as Q1.
      * specialize (X1 _ Q1). rewrite Q1. unfold file_at in X1. destruct (node_at s (loc base key)) as [[|]|]; [by destruct X1|done|by destruct X1].
      * case_decide as Q2; [|done]. specialize (X2 _ Q2). unfold file_at in X2.
        destruct (node_at s (loc base key)) as [nd|] eqn:Y; [|by destruct X2]. by rewrite (wf_strict s _ _ _ W Y Q2 Q1).
  - destruct (st_set_blocked base s key W PB PK v CH) as (e & E1). rewrite E in E1. injection E1 as -> _. by apply kept_refl.
Qed.
Lemma chunk_prefix path m pos r : ~ (pieces base ++ B "meta" :: r) `prefix_of` loc base (get_chunk_key path m pos).
Proof. rewrite loc_chunk. intros [k E]. rewrite <- app_assoc in E. apply app_inv_head in E. discriminate E. Qed.
Lemma write_kept C h s t0 path m ck s' r : wf_fs s -> node_at s (pieces base) = Some Dir ->
  plain path -> plain (am_sep m) -> pos_ok (ck_pos ck) -> write_chunk C h H s t0 path m ck = (s', r) -> kept_meta s s'.
Proof.
  intros W D PP PS PO E. apply set_kept in E; [done..|by apply plain_chunk_key|done| | |].
  - by rewrite pieces_chunk_key.
  - intros q X. symmetry in X. by apply chunk_not_meta in X.
  - intros q X. by apply chunk_prefix in X.
Qed.
Lemma delete_kept s path m pos s' r : wf_fs s -> node_at s (pieces base) = Some Dir ->
  plain path -> plain (am_sep m) -> pos_ok pos -> delete_chunk H s path m pos = (s', r) -> kept_meta s s'.
Proof.
  intros W D PP PS PO. unfold delete_chunk. assert (PK := plain_chunk_key path m pos PP PS PO).
  rewrite st_erase_plain by done. destruct (node_at s (loc base (get_chunk_key path m pos))) as [[|c]|] eqn:E;
    intros [= <- _]; [by apply kept_refl| |by apply kept_refl].
  assert (NE : loc base (get_chunk_key path m pos) <> []) by (intros X; rewrite X in E; done).
  split; [by eapply wf_delete_file|]. split.
  - rewrite node_at_delete by done. case_decide as X; [|done]. rewrite X, E in D. done.
  - intros q. rewrite node_at_delete by done. case_decide as X; [|done]. symmetry in X. by apply chunk_not_meta in X.
Qed.
Lemma loop_kept C h t0 path m arr bb fill coords : plain path -> plain (am_sep m) -> Forall pos_ok coords -> forall s buf s' r,
  wf_fs s -> node_at s (pieces base) = Some Dir -> write_loop C h H t0 path m arr bb fill coords s buf = (s', r) -> kept_meta s s'.
Proof.
  intros PP PS PO. induction coords as [|c coords IH]; intros s buf s' r W D E; cbn [write_loop] in E.
  { injection E as <- <-. by apply kept_refl. }
  apply list.Forall_cons in PO as [PO1 PO2].
  destruct (write_step _ _ _ _ _ _ _ _ _ _ _ _) as [s1 r1] eqn:E1.
  assert (K1 : kept_meta s s1).
  { apply write_step_frame in E1 as [->|(data & r' & E1)]; [by apply kept_refl|]. by eapply write_kept in E1. }
  destruct r1 as [buf1|e|]; cbn [andthen] in E; [|by injection E as <- <-..].
  eapply kept_trans; [exact K1|]. destruct K1 as (W1 & D1 & _). by eapply (IH PO2).
Qed.
Lemma region_kept flit C h s t0 path m off arr s' r : wf_fs s -> node_at s (pieces base) = Some Dir ->
  bounded_ok (am_shape m) (am_chunk_shape m) off (nd_shape arr) -> plain path -> plain (am_sep m) ->
  write_ndarray flit C h H s t0 path m off arr = (s', r) -> kept_meta s s'.
Proof.
  intros W D BO PP PS. assert (K0 := kept_refl s W D). unfold write_ndarray. destruct (negb _); [by intros [= <- _]|].
  cbv zeta. destruct (effective_fill flit t0 m) as [fill|e|]; cbn [on]; [|by intros [= <- _]..].
  assert (B1 : bok m (BBox off (nd_shape arr))) by done. rewrite (bounded_coords_eq (h_prof h) m _ B1).
  destruct (mbind _ _) as [coords|e|] eqn:Ec; cbn [on]; [|by intros [= <- _]..].
  apply bind_ok_inv in Ec as (n & _ & [= <-]). intros E. eapply loop_kept in E; [done..| |done|done].
  apply list.Forall_forall. intros pos Hp. eapply ranges_pos; [exact B1|]. by apply visited_ranges.
Qed.
Lemma attrs_kept s path attrs s' r : wf_fs s -> node_at s (pieces base) = Some Dir -> plain path ->
  set_attributes H s path attrs = (s', r) -> kept_meta s s'.
Proof.
  intros W D PP. assert (K0 := kept_refl s W D). unfold set_attributes.
  destruct (node_key H s path) as [k|e|] eqn:K; cbn [on]; [|by intros [= <- <-]..].
  assert (PA : plain (metadata_key ARRAY_METADATA_KEY_EXT (ep_suffix (hy_ep H)) path)) by (apply nloc_plain; [done|by left|done]).
  assert (PG : plain (metadata_key GROUP_METADATA_KEY_EXT (ep_suffix (hy_ep H)) path)) by (apply nloc_plain; [done|by right|done]).
  assert (PK : plain k).
  { revert K. unfold node_key, akey, gkey, array_metadata_key, group_metadata_key.
    destruct (st_exists _ s (metadata_key ARRAY_METADATA_KEY_EXT _ path)) as [[]| |]; cbn [mbind res_bind]; [by intros [= <-]| |done..].
    destruct (st_exists _ s (metadata_key GROUP_METADATA_KEY_EXT _ path)) as [[]| |]; cbn [mbind res_bind]; [by intros [= <-]|done..]. }
  rewrite st_get_plain by done. cbn [on].
  destruct (file_at s (loc base k)) as [text|] eqn:F; cbn [of_option on]; [|by intros [= <- <-]].
  destruct (from_text as_map text) as [doc0|e|]; cbn [on]; [|by intros [= <- <-]..].
  cbv zeta. destruct (json_eqb _ _); [by intros [= <- <-]|].
  intros E. apply set_kept in E; [done..| |by rewrite F|by rewrite F].
  intros X. unfold loc, file_at in F. rewrite X, app_nil_r, D in F. done.
Qed.

Lemma step_kept flit C h s o : wf_fs s -> node_at s (pieces base) = Some Dir -> api_plain o -> keeps_nodes o ->
  kept_meta s (api_step flit C h H s o).
Proof.
  intros W D O K. destruct o as [path m|path|path attrs|path|t0 path m ck|path m pos|t0 path m off arr]; cbn [api_step api_plain keeps_nodes] in *; try done.
  - by eapply attrs_kept; [..|apply surjective_pairing].
  - destruct O as (O1 & O2 & O3). by eapply write_kept; [..|apply surjective_pairing].
  - destruct O as (O1 & O2 & O3). by eapply delete_kept; [..|apply surjective_pairing].
  - destruct O as (O1 & O2 & O3). by eapply region_kept; [..|apply surjective_pairing].
Qed.
Lemma history_kept flit C h os : forall s, wf_fs s -> node_at s (pieces base) = Some Dir -> Forall api_plain os -> Forall keeps_nodes os ->
  kept_meta s (fold_left (api_step flit C h H) os s).
Proof.
  induction os as [|o os IH]; intros s W D O K; [by apply kept_refl|]. apply list.Forall_cons in O as [O1 O2], K as [K1 K2].
  assert (X := step_kept flit C h s o W D O1 K1). eapply kept_trans; [exact X|]. destruct X as (W1 & D1 & _). by apply IH.
Qed.
Lemma listing_kept flit C h os s path path' : wf_fs s -> node_at s (pieces base) = Some Dir -> real_names s -> documents_only H s ->
  Forall api_plain os -> Forall keeps_nodes os -> plain path -> pieces path' = pieces path -> lenZ path < two32 -> lenZ path' < two32 ->
  list_nodes p H (fold_left (api_step flit C h H) os s) path' = list_nodes p H s path.
Proof.
  intros W D RN DO O K PP EP L L'. destruct (history_kept flit C h os s W D O K) as (W' & D' & E).
  apply listing_same; try done. by apply meta_same.
Qed.
Lemma listing_spelling s path path' : wf_fs s -> real_names s -> documents_only H s ->
  plain path -> pieces path' = pieces path -> lenZ path < two32 -> lenZ path' < two32 ->
  list_nodes p H s path' = list_nodes p H s path.
Proof. intros W RN DO PP EP L L'. by apply listing_same. Qed.
End same.
