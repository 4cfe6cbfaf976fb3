(** Any map-like store gives the answers of the abstract hierarchy: simulation
    by the file-system store, whose answers C52 settles. *)
From Verif Require Import GenHier Nd Spec SpecMeta SpecHier SpecStore BaseFacts PathFacts FSFacts KeyFacts HierFacts
  RefFacts GenFacts.
Local Open Scope Z_scope.

Definition plain_hier (sfx : bytes) : hier := Hier [] (EntryPoint [] [] sfx []).

Section sim.
Context {S : Type} (st : store S) (kv : S -> gmap bytes bytes).
Hypothesis ML : map_like st below kv.
Context (sfx : bytes).
Hypothesis GS : good_suffix sfx.
Context (C : codec) (h : host).
Notation H := (plain_hier sfx).
Notation AX := ARRAY_METADATA_KEY_EXT.
Notation GX := GROUP_METADATA_KEY_EXT.

Lemma PB : plain (hy_base H).
Proof. unfold plain. cbn. apply not_elem_of_nil. Qed.

(** The keys of a hierarchy. *)
Definition hkey (k : bytes) : Prop :=
  tidy k /\ plain k /\ exists r, r <> [] /\ (pieces k = B "meta" :: r \/ pieces k = B "data" :: r).
Definition sim (x : S) (s : fs) : Prop := forall k, hkey k -> kv x !! k = file_at s (pieces k).

Lemma loc_nil k : loc (hy_base H) k = pieces k.
Proof. done. Qed.

Section calls.
Context (x : S) (s : fs) (k : bytes).
Hypothesis W : wf_fs s.
Hypothesis R : sim x s.
Hypothesis K : hkey k.
Lemma sim_exists : ss_exists st x k = st_exists [] s k.
Proof.
  rewrite (ml_exists _ _ _ ML), st_exists_plain by (done || apply PB || apply K).
  rewrite (R k K). change (loc [] k) with (pieces k). by destruct (file_at s (pieces k)).
Qed.
Lemma sim_get : ss_get st x k = st_get [] s k.
Proof.
  rewrite (ml_get _ _ _ ML), st_get_plain by (done || apply PB || apply K). by rewrite (R k K).
Qed.
Lemma sim_set c s' : st_set [] s k (c, Ok tt) = (s', Ok tt) ->
  exists x', ss_set st x k (c, Ok tt) = (x', Ok tt) /\ sim x' s' /\ wf_fs s'.
Proof.
  intros E. destruct (st_set_effect [] s k W PB (proj1 (proj2 K)) _ _ _ E) as (W' & SE & _ & [(_ & F & _)|(_ & _ & e & X)]); [|done].
  destruct (ml_set _ _ _ ML x k c) as (x' & Ex & V). exists x'. split; [done|]. split; [|done].
  intros k' K'. rewrite V. destruct (decide (k' = k)) as [->|N].
  - rewrite lookup_insert. symmetry. exact F.
  - rewrite lookup_insert_ne by done. rewrite (R k' K'). symmetry. apply SE.
    intros X. apply N. apply tidy_inj; [apply K'|apply K|exact X].
Qed.
Lemma sim_erase s' : st_erase [] s k = (s', Ok true) ->
  exists x', ss_erase st x k = (x', Ok true) /\ sim x' s' /\ wf_fs s'.
Proof.
  intros E. destruct (st_erase_effect [] s k W PB (proj1 (proj2 K)) _ _ E) as (W' & SE & _ & [(_ & F & _)|(_ & _ & X)]); [|done].
  destruct (ml_erase _ _ _ ML x k) as (x' & Ex & V). exists x'. split; [done|]. split; [|done].
  intros k' K'. rewrite V. destruct (decide (k' = k)) as [->|N].
  - rewrite lookup_delete. symmetry. exact F.
  - rewrite lookup_delete_ne by done. rewrite (R k' K'). symmetry. apply SE.
    intros X. apply N. apply tidy_inj; [apply K'|apply K|exact X].
Qed.
End calls.
Lemma sim_erase_prefix x s p : wf_fs s -> sim x s -> plain p -> tidy (trim_end_slash p) ->
  exists x' s', ss_erase_prefix st x p = (x', Ok true) /\ st_erase_prefix [] s p = (s', Ok true)
  /\ sim x' s' /\ wf_fs s'.
Proof.
  intros W R P T. assert (NE : loc [] p <> []).
  { change (loc [] p) with (pieces p). rewrite <- pieces_trim_end. destruct T as (l & L & N & ->). by rewrite pieces_key_of. }
  destruct (st_erase_prefix_plain [] s p W PB P NE) as (s' & E & W' & N).
  destruct (ml_erase_prefix _ _ _ ML x p) as (x' & Ex & V). exists x', s'. split_and!; try done.
  intros k K. pose proof (tidy_below p k T (proj1 K)) as TB. destruct (V k) as [V1 V2].
  unfold file_at. rewrite N. change (loc [] p) with (pieces p). case_decide as D.
  - apply V1. by apply TB.
  - rewrite V2 by by rewrite TB. apply (R k K).
Qed.

(** *** Keys *)
Context (path : bytes).
Hypothesis T : tidy_path path.
Hypothesis PP : plain path.
Lemma hkey_meta ext : is_node_ext ext -> hkey (metadata_key ext sfx path).
Proof.
  intros X. split; [by apply meta_key_tidy|]. split; [apply plain_node_key; [done|apply GS|done]|].
  rewrite pieces_node_key by (done || apply GS). unfold meta_pieces.
  destruct (rev (pieces path)); [by eexists; split; [|by left]|].
  destruct (beq _ _); by eexists; split; [|by left].
Qed.
Lemma hkey_a : hkey (array_metadata_key sfx path).
Proof. apply hkey_meta. by left. Qed.
Lemma hkey_g : hkey (group_metadata_key sfx path).
Proof. apply hkey_meta. by right. Qed.
Lemma hkey_stem : hkey (set_extension (set_extension (group_metadata_key sfx path) []) []).
Proof.
  split; [by apply stem_key_tidy|]. split; [by apply (plain_ekey H path)|].
  change (set_extension _ _) with (ekey H path). rewrite pieces_ekey by done. by eexists; split; [|by left].
Qed.
Lemma hkey_chunk m pos : pos_ok pos -> good_sep (am_sep m) -> tidy_sep (am_sep m) -> hkey (get_chunk_key path m pos).
Proof.
  intros P G TS. split; [by apply chunk_key_tidy|].
  split; [apply plain_chunk_key; [done|apply (proj2 (proj2 (proj2 G)))|done]|].
  rewrite pieces_chunk_key. by eexists; split; [|by right].
Qed.

(** *** Reading *)
Context (x : S) (s : fs).
Hypothesis W : wf_fs s.
Hypothesis R : sim x s.
Lemma sim_metadata : g_get_array_metadata st sfx x path = get_array_metadata H s path.
Proof.
  unfold g_get_array_metadata, get_array_metadata, akey. cbn [hy_base hy_ep ep_suffix plain_hier].
  by rewrite (sim_get x s _ W R hkey_a).
Qed.
Lemma sim_node_exists : g_exists st sfx x path = node_exists H s path.
Proof.
  unfold g_exists, node_exists, akey, gkey. cbn [hy_base hy_ep ep_suffix plain_hier].
  rewrite (sim_exists x s _ W R hkey_a), (sim_exists x s _ W R hkey_g), (sim_exists x s _ W R hkey_stem). done.
Qed.
Lemma sim_node_key : g_node_key st sfx x path = node_key H s path.
Proof.
  unfold g_node_key, node_key, akey, gkey. cbn [hy_base hy_ep ep_suffix plain_hier].
  rewrite (sim_exists x s _ W R hkey_a), (sim_exists x s _ W R hkey_g). done.
Qed.
Lemma node_key_hkey k : node_key H s path = Ok k -> hkey k.
Proof.
  unfold node_key. rewrite (st_exists_plain _ _ _ W PB (proj1 (proj2 hkey_a) : plain (akey H path))).
  rewrite (st_exists_plain _ _ _ W PB (proj1 (proj2 hkey_g) : plain (gkey H path))).
  cbn [mbind res_bind]. destruct (file_at s _) as [c|]; [intros [= <-]; apply hkey_a|].
  destruct (file_at s _) as [c|]; [intros [= <-]; apply hkey_g|done].
Qed.
Lemma sim_attributes : g_list_attributes st sfx x path = list_attributes H s path.
Proof.
  unfold g_list_attributes, list_attributes. rewrite sim_node_key.
  destruct (node_key H s path) as [k|e|] eqn:E; [|done|done]. apply node_key_hkey in E.
  cbn [mbind res_bind]. by rewrite (sim_get x s k W R E).
Qed.
End sim.

Section step.
Context {S : Type} (st : store S) (kv : S -> gmap bytes bytes).
Hypothesis ML : map_like st below kv.
Context (sfx : bytes).
Hypothesis GS : good_suffix sfx.
Context (C : codec) (h : host).
Notation H := (plain_hier sfx).
Notation AX := ARRAY_METADATA_KEY_EXT.
Notation GX := GROUP_METADATA_KEY_EXT.
Notation sim := (sim kv).
Notation PB := (PB sfx).

Definition seps (a : astate) : Prop := forall P m g, a_nodes a !! P = Some (NArr m g) -> tidy_sep (am_sep m).
Lemma seps_step a o : seps a -> hop_tidy o -> seps (fst (ab_step a o)).
Proof.
  intros Q [_ To]. destruct o as [path m|path|path attrs|path|path|path|path|t path pos data|path pos|t path pos];
    cbn [ab_step fst]; try done; intros P m' g'.
  - destruct (a_nodes a !! pieces path); [apply Q|]. cbn [fst a_nodes].
    rewrite lookup_insert_Some. intros [[_ [= <- _]]|[_ X]]; [done|by eapply Q].
  - destruct (a_nodes a !! pieces path) as [[]|]; try apply Q. cbn [fst a_nodes].
    rewrite lookup_insert_Some. intros [[_ [=]]|[_ X]]. by eapply Q.
  - destruct (a_nodes a !! pieces path) as [n|] eqn:E; [|apply Q]. cbn [fst a_nodes].
    rewrite lookup_insert_Some. intros [[_ X]|[_ X]]; [|by eapply Q].
    destruct n as [m g|g]; cbn in X; [|done]. injection X as <- _. by eapply Q.
  - cbn [a_nodes]. rewrite lookup_delete_Some. intros [_ X]. by eapply Q.
  - destruct (a_nodes a !! pieces path) as [[]|]; apply Q.
  - destruct (a_nodes a !! pieces path) as [[]|]; apply Q.
Qed.

Lemma none_node s a path : rel C h H s a -> ordinary_path sfx path ->
  file_at s (mloc H AX (pieces path)) = None -> file_at s (mloc H GX (pieces path)) = None ->
  a_nodes a !! pieces path = None.
Proof.
  intros R PP FA FG. pose proof (r_nodes _ _ _ _ _ R _ PP) as N.
  destruct (a_nodes a !! pieces path) as [[m g|g]|]; [| |done].
  - destruct N as ((m' & (t & Ft & _) & _) & _). congruence.
  - destruct N as (_ & t & d & l & Ft & _). congruence.
Qed.

Lemma sim_step x s a o : sim x s -> rel C h H s a -> hop_ok C (h_prof h) sfx a o -> hop_tidy o -> seps a ->
  exists x' s' y, g_step st sfx C h x o = (x', y) /\ hop_step C h H s o = (s', y) /\ sim x' s'
    /\ rel C h H s' (fst (ab_step a o)) /\ ans_agree y (snd (ab_step a o)).
Proof.
  intros Z R O To Q. pose proof (r_wf _ _ _ _ _ R) as W.
  destruct (hop_refines C h H PB GS s a o R O) as (s' & y & E & A & R').
  enough (exists x', g_step st sfx C h x o = (x', y) /\ sim x' s') as (x' & G1 & G2).
  { exists x', s', y. split_and!; done. }
  destruct To as [T To]. 
  destruct o as [path m|path|path attrs|path|path|path|path|t path pos data|path pos|t path pos];
    cbn [hop_path] in T; cbn [hop_step] in E; cbv zeta in E; cbn [g_step]; cbv zeta.
  - destruct O as [PP O]. pose proof (hkey_a sfx GS path T (proj1 PP)) as KA.
    pose proof (hkey_g sfx GS path T (proj1 PP)) as KG.
    unfold g_create_array. rewrite (sim_exists _ _ ML sfx _ _ _ W Z KG), (sim_exists _ _ ML sfx _ _ _ W Z KA).
    unfold create_array, akey, gkey in E. cbn [hy_base hy_ep ep_suffix plain_hier] in E.
    rewrite (st_exists_plain [] _ _ W PB (proj1 (proj2 KA))), (st_exists_plain [] _ _ W PB (proj1 (proj2 KG))) in E |- *.
    cbn [on] in E. cbn [gon].
    destruct (file_at s (loc [] (group_metadata_key sfx path))) eqn:FG; [injection E as <- <-; by eexists|].
    cbn [on] in E. cbn [gon].
    destruct (file_at s (loc [] (array_metadata_key sfx path))) eqn:FA; [injection E as <- <-; by eexists|].
    destruct (st_set [] s _ _) as [s1 r] eqn:ES. injection E as <- <-. cbn [fst snd] in *.
    assert (a_nodes a !! pieces path = None) as NN.
    { eapply none_node; [done|done| |].
      - rewrite <- (akey_loc H GS path). exact FA.
      - rewrite <- (gkey_loc H GS path). exact FG. }
    cbn [ab_step] in A. rewrite NN in A. cbn in A. subst r.
    destruct (sim_set _ _ ML sfx _ _ _ W Z KA _ _ ES) as (x' & -> & Z' & _). by exists x'.
  - pose proof O as PP. pose proof (hkey_a sfx GS path T (proj1 PP)) as KA.
    pose proof (hkey_g sfx GS path T (proj1 PP)) as KG.
    unfold g_create_group. rewrite (sim_exists _ _ ML sfx _ _ _ W Z KG), (sim_exists _ _ ML sfx _ _ _ W Z KA).
    unfold create_group, akey, gkey in E. cbn [hy_base hy_ep ep_suffix plain_hier] in E.
    rewrite (st_exists_plain [] _ _ W PB (proj1 (proj2 KA))), (st_exists_plain [] _ _ W PB (proj1 (proj2 KG))) in E |- *.
    cbn [on] in E. cbn [gon].
    destruct (file_at s (loc [] (array_metadata_key sfx path))) eqn:FA; [injection E as <- <-; by eexists|].
    cbn [on] in E. cbn [gon].
    destruct (file_at s (loc [] (group_metadata_key sfx path))) eqn:FG; [injection E as <- <-; by eexists|].
    destruct (st_set [] s _ _) as [s1 r] eqn:ES. injection E as <- <-. cbn [fst snd] in *.
    assert (a_nodes a !! pieces path = None) as NN.
    { eapply none_node; [done|done| |].
      - rewrite <- (akey_loc H GS path). exact FA.
      - rewrite <- (gkey_loc H GS path). exact FG. }
    cbn [ab_step] in A. rewrite NN in A. cbn in A. subst r.
    destruct (sim_set _ _ ML sfx _ _ _ W Z KG _ _ ES) as (x' & -> & Z' & _). by exists x'.
  - destruct O as (PP & _). unfold g_set_attributes. rewrite (sim_node_key st kv ML sfx GS path T (proj1 PP) x s W Z).
    unfold set_attributes in E. cbn [hy_base plain_hier] in E.
    destruct (node_key H s path) as [k|e|] eqn:EK; cbn [on] in E; cbn [gon];
      [|injection E as <- <-; by eexists|injection E as <- <-; by eexists].
    pose proof (node_key_hkey sfx GS path T (proj1 PP) s W k EK) as KK.
    rewrite (sim_get _ _ ML sfx _ _ _ W Z KK).
    destruct (st_get [] s k) as [o|e|]; cbn [on] in E; cbn [gon];
      [|injection E as <- <-; by eexists|injection E as <- <-; by eexists].
    destruct (of_option NotFound o) as [text|e|]; cbn [on] in E; cbn [gon];
      [|injection E as <- <-; by eexists|injection E as <- <-; by eexists].
    destruct (from_text as_map text) as [ex|e|]; cbn [on] in E; cbn [gon];
      [|injection E as <- <-; by eexists|injection E as <- <-; by eexists].
    cbv zeta in E |- *. destruct (json_eqb _ _); [injection E as <- <-; by eexists|].
    destruct (st_set [] s _ _) as [s1 r] eqn:ES. injection E as <- <-. cbn [fst snd] in *.
    assert (r = Ok tt) as ->.
    { cbn [ab_step] in A. destruct (a_nodes a !! pieces path) as [n|] eqn:NN; [done|]. exfalso.
      pose proof (r_nodes _ _ _ _ _ R _ PP) as N. rewrite NN in N. destruct N as [FA FG].
      unfold node_key in EK.
      rewrite (st_exists_plain _ _ _ W PB (proj1 (proj2 (hkey_a sfx GS path T (proj1 PP))) : plain (akey H path))) in EK.
      rewrite (st_exists_plain _ _ _ W PB (proj1 (proj2 (hkey_g sfx GS path T (proj1 PP))) : plain (gkey H path))) in EK.
      rewrite (akey_loc H GS), (gkey_loc H GS), FA, FG in EK. done. }
    destruct (sim_set _ _ ML sfx _ _ _ W Z KK _ _ ES) as (x' & -> & Z' & _). by exists x'.
  - pose proof O as PP. pose proof (hkey_a sfx GS path T (proj1 PP)) as KA.
    pose proof (hkey_g sfx GS path T (proj1 PP)) as KG. unfold g_remove.
    unfold Hier.remove, akey, gkey in E. cbn [hy_base hy_ep ep_suffix plain_hier] in E.
    cbn [ab_step snd] in A.
    destruct (st_erase [] s (group_metadata_key sfx path)) as [s1 r1] eqn:E1.
    destruct r1 as [b1|e|]; cbn [andthen] in E; [|by injection E as <- <-|by injection E as <- <-].
    assert (b1 = true) as ->.
    { rewrite (st_erase_plain [] _ _ W PB (proj1 (proj2 KG))) in E1.
      destruct (node_at s _) as [[]|]; congruence. }
    destruct (sim_erase _ _ ML sfx _ _ _ W Z KG _ E1) as (x1 & -> & Z1 & W1). cbn [gthen].
    destruct (st_erase [] s1 (array_metadata_key sfx path)) as [s2 r2] eqn:E2.
    destruct r2 as [b2|e|]; cbn [andthen] in E; [|by injection E as <- <-|by injection E as <- <-].
    assert (b2 = true) as ->.
    { rewrite (st_erase_plain [] _ _ W1 PB (proj1 (proj2 KA))) in E2.
      destruct (node_at s1 _) as [[]|]; congruence. }
    destruct (sim_erase _ _ ML sfx _ _ _ W1 Z1 KA _ E2) as (x2 & -> & Z2 & W2). cbn [gthen].
    destruct (sim_erase_prefix _ _ ML sfx x2 s2 (data_path_key path) W2 Z2) as (x3 & s3 & -> & E3 & Z3 & _).
    { unfold plain. rewrite pieces_data_key. intros [I|I]%elem_of_app; [|by apply PP].
      apply elem_of_cons in I as [I|I]; [done|]. by apply elem_of_list_singleton in I. }
    { by apply data_key_tidy. }
    rewrite E3 in E. cbn [andthen] in E. injection E as <- <-. cbn [gthen]. by exists x3.
  - injection E as <- <-. exists x. split; [|done].
    by rewrite (sim_node_exists st kv ML sfx GS path T (proj1 O) x s W Z).
  - injection E as <- <-. exists x. split; [|done].
    by rewrite (sim_metadata st kv ML sfx GS path T (proj1 O) x s W Z).
  - injection E as <- <-. exists x. split; [|done].
    by rewrite (sim_attributes st kv ML sfx GS path T (proj1 O) x s W Z).
  - destruct O as [PP O]. rewrite (sim_metadata st kv ML sfx GS path T (proj1 PP) x s W Z).
    destruct (a_nodes a !! pieces path) as [[m g|g]|] eqn:NN.
    2, 3: destruct (not_array C h H PB GS s a path R PP) as [_ X]; [by rewrite NN|];
      rewrite X in E |- *; cbn [on] in E; cbn [gon]; injection E as <- <-; by eexists.
    destruct (array_of C h H PB GS s a path m g R PP NN) as ((m' & EM & _ & AG) & _ & GSp).
    destruct (O m g NN) as (_ & _ & OP & _).
    rewrite EM in E |- *. cbn [on] in E. cbn [gon]. unfold g_write_chunk. unfold write_chunk in E.
    cbn [hy_base plain_hier] in E. destruct (agree_fields _ _ _ AG) as (_ & _ & ES' & _).
    assert (KK : hkey (get_chunk_key path m' pos)).
    { apply hkey_chunk; [done|apply PP|done| |]; rewrite ES'; [done|by eapply Q]. }
    destruct (st_set [] s _ _) as [s1 r] eqn:ES. injection E as <- <-. cbn [fst snd] in *.
    cbn [ab_step] in A. rewrite NN in A. cbn in A. subst r. cbn [ck_pos] in *.
    destruct (encode_chunk C h t m' (Chunk pos data)) as [c r] eqn:EE.
    assert (r = Ok tt) as ->.
    { destruct (st_set_effect [] s _ W PB (proj1 (proj2 KK)) _ _ _ ES) as (_ & _ & _ & [(_ & _ & X)|(_ & _ & e & X)]); [|done].
      by symmetry. }
    destruct (sim_set _ _ ML sfx _ _ _ W Z KK _ _ ES) as (x' & -> & Z' & _). by exists x'.
  - destruct O as [PP O]. rewrite (sim_metadata st kv ML sfx GS path T (proj1 PP) x s W Z).
    destruct (a_nodes a !! pieces path) as [[m g|g]|] eqn:NN.
    2, 3: destruct (not_array C h H PB GS s a path R PP) as [_ X]; [by rewrite NN|];
      rewrite X in E |- *; cbn [on] in E; cbn [gon]; injection E as <- <-; by eexists.
    destruct (array_of C h H PB GS s a path m g R PP NN) as ((m' & EM & _ & AG) & _ & GSp).
    destruct (O m g NN) as (_ & OP).
    rewrite EM in E |- *. cbn [on] in E. cbn [gon]. unfold g_delete_chunk. unfold delete_chunk in E.
    cbn [hy_base plain_hier] in E. destruct (agree_fields _ _ _ AG) as (_ & _ & ES' & _).
    assert (KK : hkey (get_chunk_key path m' pos)).
    { apply hkey_chunk; [done|apply PP|done| |]; rewrite ES'; [done|by eapply Q]. }
    destruct (st_erase [] s _) as [s1 r] eqn:ES. injection E as <- <-. cbn [fst snd] in *.
    cbn [ab_step] in A. rewrite NN in A. cbn in A. subst r.
    destruct (sim_erase _ _ ML sfx _ _ _ W Z KK _ ES) as (x' & -> & Z' & _). by exists x'.
  - destruct O as [PP O]. rewrite (sim_metadata st kv ML sfx GS path T (proj1 PP) x s W Z).
    injection E as <- <-. exists x. split; [|done]. f_equal. f_equal.
    destruct (a_nodes a !! pieces path) as [[m g|g]|] eqn:NN.
    2, 3: destruct (not_array C h H PB GS s a path R PP) as [_ X]; [by rewrite NN|]; by rewrite X.
    destruct (array_of C h H PB GS s a path m g R PP NN) as ((m' & EM & _ & AG) & _ & GSp).
    destruct (O m g NN) as (_ & _ & OP).
    rewrite EM. cbn [mbind res_bind]. unfold g_read_chunk, read_chunk. cbn [hy_base plain_hier].
    destruct (agree_fields _ _ _ AG) as (_ & _ & ES' & _).
    assert (KK : hkey (get_chunk_key path m' pos)).
    { apply hkey_chunk; [done|apply PP|done| |]; rewrite ES'; [done|by eapply Q]. }
    by rewrite (sim_get _ _ ML sfx _ _ _ W Z KK).
Qed.

Lemma sim_history os : forall x s a, sim x s -> rel C h H s a -> history_ok C (h_prof h) sfx a os ->
  Forall hop_tidy os -> seps a -> Forall2 ans_agree (snd (g_run st sfx C h x os)) (snd (ab_run a os)).
Proof.
  induction os as [|o os IH]; intros x s a Z R O F Q; [constructor|]. destruct O as [O1 O2].
  apply list.Forall_cons in F as [F1 F2].
  destruct (sim_step x s a o Z R O1 F1 Q) as (x' & s' & y & E & _ & Z' & R' & A).
  cbn [g_run ab_run]. rewrite E. pose proof (seps_step a o Q F1) as Q'.
  destruct (ab_step a o) as [a' z]. cbn [fst snd] in *. specialize (IH x' s' a' Z' R' O2 F2 Q').
  destruct (g_run st sfx C h x' os), (ab_run a' os). by constructor.
Qed.

Lemma fresh_sim x : fresh_store (kv x) -> sim x ∅.
Proof.
  intros F k (Tk & _ & r & NE & E). transitivity (@None bytes).
  - apply F. rewrite (tidy_pieces k Tk). destruct r as [|y r]; [done|].
    destruct E as [E|E]; rewrite E; [left|right]; unfold key_of; rewrite !join_cons by done; by eexists.
  - symmetry. unfold file_at. destruct (pieces k); done.
Qed.
Lemma any_store x os : fresh_store (kv x) -> history_ok C (h_prof h) sfx a_empty os -> Forall hop_tidy os ->
  Forall2 ans_agree (snd (g_run st sfx C h x os)) (snd (ab_run a_empty os)).
Proof.
  intros F O Td. apply (sim_history os x ∅); [by apply fresh_sim| |done|done|].
  - apply fresh_rel. split; [by intros p n y X|]. split; [intros k; by destruct k|done].
  - intros P m g X. cbn [a_nodes a_empty] in X. by rewrite lookup_empty in X.
Qed.
End step.

(** ** Stores that read prefixes as strings *)

Lemma data_key_prefix path path' m pos : canonicalize_path path `prefix_of` canonicalize_path path' ->
  data_path_key path `prefix_of` get_chunk_key path' m pos.
Proof.
  intros [r E]. unfold data_path_key, get_chunk_key, path_join. cbv zeta. rewrite canon_noroot.
  change (list.last DATA_ROOT_PATH) with (Some "t"%char). cbn iota. rewrite bool_decide_false by done. rewrite E.
  destruct (canonicalize_path path) as [|b u]; cbn [app].
  - destruct r as [|b r].
    + exists (["c"%char] ++ coords_str (am_sep m) pos). by rewrite <- !app_assoc.
    + exists ((b :: r ++ B "/c") ++ coords_str (am_sep m) pos). by rewrite <- !app_assoc.
  - exists (r ++ B "/c" ++ coords_str (am_sep m) pos). rewrite <- !app_assoc. cbn [app]. by rewrite <- !app_assoc.
Qed.
Lemma string_prefix_loss {S} (st : store S) kv sfx C h x t path path' m pos :
  map_like st string_prefix kv -> canonicalize_path path `prefix_of` canonicalize_path path' ->
  in_bounds (h_prof h) m pos = Ok true ->
  exists x', g_remove st sfx x path = (x', Ok tt) /\ g_read_chunk st C h x' t path' m pos = Ok None.
Proof.
  intros ML P IB. unfold g_remove.
  destruct (ml_erase _ _ _ ML x (group_metadata_key sfx path)) as (x1 & -> & _). cbn [gthen].
  destruct (ml_erase _ _ _ ML x1 (array_metadata_key sfx path)) as (x2 & -> & _). cbn [gthen].
  destruct (ml_erase_prefix _ _ _ ML x2 (data_path_key path)) as (x3 & -> & V). cbn [gthen].
  exists x3. split; [done|]. unfold g_read_chunk. rewrite IB. cbn [mbind res_bind assert_].
  rewrite (ml_get _ _ _ ML). destruct (V (get_chunk_key path' m pos)) as [V1 _].
  rewrite V1 by by apply data_key_prefix. done.
Qed.
Lemma untidy_apart {S} (st : store S) erased kv x :
  map_like st erased kv -> fresh_store (kv x) ->
  exists x', g_create_group st (B ".json") x (B "a//b") = (x', Ok tt)
    /\ g_exists st (B ".json") x' (B "a//b") = Ok true /\ g_exists st (B ".json") x' (B "a/b") = Ok false.
Proof.
  intros ML F.
  assert (N : forall r, kv x !! (B "/meta/" ++ r) = None) by (intros r; apply F; left; by eexists).
  unfold g_create_group.
  change (array_metadata_key (B ".json") (B "a//b")) with (B "/meta/" ++ B "root/a//b.array.json").
  change (group_metadata_key (B ".json") (B "a//b")) with (B "/meta/" ++ B "root/a//b.group.json").
  rewrite (ml_exists _ _ _ ML), N. cbn [gon]. rewrite bool_decide_eq_false_2 by (intros [? ?]; done).
  rewrite (ml_exists _ _ _ ML), N. cbn [gon]. rewrite bool_decide_eq_false_2 by (intros [? ?]; done).
  destruct (ml_set _ _ _ ML x (B "/meta/" ++ B "root/a//b.group.json") (print group_default_json)) as (x' & -> & V).
  exists x'. split; [done|].
  assert (K : forall k, ss_exists st x' (B "/meta/" ++ k) = Ok (bool_decide (k = B "root/a//b.group.json"))).
  { intros k. rewrite (ml_exists _ _ _ ML), V. f_equal. apply bool_decide_ext. split.
    - intros I. destruct (decide (k = B "root/a//b.group.json")) as [E|NE]; [done|].
      rewrite lookup_insert_ne, N in I; [by destruct I|]. intros E. apply NE. by apply app_inv_head in E.
    - intros ->. by rewrite lookup_insert. }
  unfold g_exists. split.
  - change (array_metadata_key (B ".json") (B "a//b")) with (B "/meta/" ++ B "root/a//b.array.json").
    change (group_metadata_key (B ".json") (B "a//b")) with (B "/meta/" ++ B "root/a//b.group.json").
    by rewrite !K.
  - change (array_metadata_key (B ".json") (B "a/b")) with (B "/meta/" ++ B "root/a/b.array.json").
    change (group_metadata_key (B ".json") (B "a/b")) with (B "/meta/" ++ B "root/a/b.group.json").
    change (set_extension _ _) with (B "/meta/" ++ B "root/a/b"). by rewrite !K.
Qed.

(** ** The file-system store is an instance *)
Lemma filesystem_instance H C h p : let st := fs_store (hy_base H) in let sfx := ep_suffix (hy_ep H) in
  g_get_array_metadata st sfx = get_array_metadata H
  /\ g_exists st sfx = node_exists H
  /\ g_array_exists st sfx = array_exists H
  /\ (forall s, g_get_chunk_uri st s = get_chunk_uri H)
  /\ g_read_chunk st C h = read_chunk C h H
  /\ g_read_chunk_into st C h = read_chunk_into C h H
  /\ g_list_attributes st sfx = list_attributes H
  /\ g_set_attributes st sfx = set_attributes H
  /\ g_create_group st sfx = create_group H
  /\ g_create_array st sfx = create_array H
  /\ g_remove st sfx = Hier.remove H
  /\ g_write_chunk st C h = write_chunk C h H
  /\ g_delete_chunk st = delete_chunk H
  /\ g_list_prefix st = list_prefix (hy_base H)
  /\ g_list st = list_keys (hy_base H)
  /\ g_list_nodes st sfx p = list_nodes p H
  /\ g_step st sfx C h = hop_step C h H.
Proof. cbv zeta. repeat (split; [reflexivity|]). reflexivity. Qed.
