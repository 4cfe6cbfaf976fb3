(** FilesystemHierarchy::get_attributes. *)
From Verif Require Import Hier Attrs Spec SpecMeta SpecHier SpecList SpecAttrs PathFacts FSFacts KeyFacts HierFacts.

Lemma file_path base key : plain base -> plain key -> exists p, get_path base key = Ok p
  /\ pieces p = loc base key.
Proof.
  intros PB PK. assert (K := key_comps_plain _ _ PB PK). unfold key_comps in K.
  unfold get_path in *. destruct (_ <? 0)%Z; [done|]. eexists. split; [done|].
  cbn in K. injection K as K. rewrite comps_pieces in K.
  set (p := path_join base (unrooted key)) in *. clearbody p. revert K.
  generalize (loc base key). induction (pieces p) as [|x r IH]; intros [|y l] K; [done..|].
  cbn in K. injection K as K1 K2. f_equal; [|by apply IH].
  unfold comp_of in K1. destruct (beq x dotdot); [done|]. by injection K1 as ->.
Qed.
Lemma exists_file s cs : path_exists s cs && path_is_file s cs = path_is_file s cs.
Proof.
  unfold path_exists, path_is_file. destruct (stat s cs) as [[? []]|]; done.
Qed.
Lemma without_ext_stem n n' : without_ext n n' -> stem n = n'.
Proof.
  intros [(e & -> & D & N)|[-> [D|(e & -> & D)]]].
  - by apply stem_app.
  - unfold stem. destruct (split_ext_cases n) as [->|(u & e & _ & E & _)]; [done|].
    exfalso. apply D. rewrite E. set_solver.
  - unfold stem. destruct (split_ext_cases (dot :: e)) as [->|(u & e' & _ & E & N)]; [done|].
    exfalso. destruct u as [|c u]; [done|]. injection E as _ ->. apply D. set_solver.
Qed.
Lemma without_ext_ne n n' : n <> [] -> without_ext n n' -> n' <> [].
Proof. intros N [(e & _ & _ & ?)|[-> _]]; done. Qed.

Section read.
Context (H : hier) (s : fs) (key : bytes).
Hypothesis PB : plain (hy_base H).
Hypothesis W : wf_fs s.
Hypothesis PK : plain key.

Lemma attrs_stored c : file_at s (loc (hy_base H) key) = Some c ->
  get_attributes H s key = from_text dec_value c.
Proof.
  intros F. unfold get_attributes. destruct (file_path _ _ PB PK) as (p & -> & P). rewrite ?bind_ok.
  assert (C : comps p = map Normal (loc (hy_base H) key)).
  { rewrite comps_plain, P; [done|]. unfold plain. rewrite P. unfold loc. rewrite elem_of_app. by intros [?|?]. }
  rewrite exists_file, C, path_is_file_plain, F, (open_read_plain _ _ _ W F) by done. done.
Qed.

Lemma attrs_elsewhere l n n' : file_at s (loc (hy_base H) key) = None ->
  pieces key = l ++ [n] -> without_two_exts n n' ->
  get_attributes H s key = match file_at s (pieces (hy_base H) ++ l ++ [n']) with
                           | Some _ => Ok (JObj []) | None => Err NotFound end.
Proof.
  intros F K (m & X & Y & M & N). unfold get_attributes. destruct (file_path _ _ PB PK) as (p & -> & P). rewrite ?bind_ok.
  assert (PL : plain p). { unfold plain. rewrite P. unfold loc. rewrite elem_of_app. by intros [?|?]. }
  assert (C : comps p = map Normal (loc (hy_base H) key)) by by rewrite comps_plain, P.
  rewrite !exists_file, C, path_is_file_plain, F by done.
  assert (NJ := pieces_nj key). rewrite K in NJ. apply list.Forall_app in NJ as [_ NJ].
  inversion NJ as [|? ? J _]; subst. clear NJ.
  assert (D : n <> dotdot). { intros ->. apply PK. rewrite K. set_solver. }
  assert (E1 : pieces (set_extension p []) = pieces (hy_base H) ++ l ++ [m]).
  { rewrite set_ext_pieces, P. unfold loc. rewrite K, app_assoc, rev_unit, (proj2 (beq_false _ _) D).
    rewrite rev_involutive, (without_ext_stem _ _ X), filter_cons_True, app_assoc; [done|].
    apply nj_intro; [|set_solver]. eapply without_ext_ne, X. by apply nj_ne in J as [? _]. }
  assert (E2 : pieces (set_extension (set_extension p []) []) = pieces (hy_base H) ++ l ++ [n']).
  { rewrite set_ext_pieces, E1, app_assoc, rev_unit.
    rewrite (proj2 (beq_false _ _)) by set_solver.
    rewrite rev_involutive, (without_ext_stem _ _ Y), filter_cons_True, app_assoc; [done|].
    apply nj_intro; [|set_solver]. eapply without_ext_ne, Y. eapply without_ext_ne, X. by apply nj_ne in J as [? _]. }
  assert (PL2 : plain (set_extension (set_extension p []) [])).
  { unfold plain. rewrite E2, !elem_of_app. intros [I|[I|I]]; [by apply PB| |].
    - apply PK. rewrite K. apply elem_of_app. by left.
    - apply elem_of_list_singleton in I. subst n'. apply N. set_solver. }
  rewrite comps_plain, E2, path_is_file_plain by done. by destruct (file_at s (pieces (hy_base H) ++ l ++ [n'])).
Qed.
End read.

Lemma attrs_implicit H s path : plain (hy_base H) -> good_suffix (ep_suffix (hy_ep H)) -> wf_fs s -> plain path ->
  node_at s (meta_dir H path) = Some Dir -> ~ explicit_group H s path ->
  get_attributes H s (group_metadata_key (ep_suffix (hy_ep H)) path) = Err NotFound.
Proof.
  intros PB GS W PP D X.
  assert (PK : plain (gkey H path)) by (apply plain_node_key; [by right|apply GS|done]).
  assert (F : file_at s (loc (hy_base H) (gkey H path)) = None).
  { destruct (file_at _ _) as [c|] eqn:E; [|done]. exfalso. apply X. unfold explicit_group. fold (gkey H path).
    by rewrite st_exists_plain, E. }
  assert (K : pieces (gkey H path) = meta_pieces GROUP_METADATA_KEY_EXT (strip_dot (ep_suffix (hy_ep H))) (pieces path)).
  { apply pieces_node_key; [by right|apply GS]. }
  assert (T : forall n, n <> [] -> n ∉ [[dot]; dotdot] ->
    without_two_exts (n ++ dot :: GROUP_METADATA_KEY_EXT ++ dot :: strip_dot (ep_suffix (hy_ep H))) n).
  { intros n N Nn. exists (n ++ dot :: GROUP_METADATA_KEY_EXT). split_and!; [left|left| |done].
    - exists (strip_dot (ep_suffix (hy_ep H))). split_and!; [by rewrite <- app_assoc|apply GS|by destruct n].
    - exists GROUP_METADATA_KEY_EXT. split_and!; [done|apply ext_group_ok|done].
    - rewrite !elem_of_cons. intros [E|[E|E]]; [..|by apply elem_of_nil in E];
        apply (f_equal length) in E; rewrite app_length in E; cbn in E; lia. }
  fold (gkey H path). unfold meta_pieces in K. unfold meta_dir in D. destruct (rev (pieces path)) as [|n r] eqn:R.
  - apply rev_eq_nil in R. rewrite R in D. 
    rewrite (attrs_elsewhere H s _ PB W PK [B "meta"] _ (B "root") F K) by (apply T; [done|set_solver]).
    unfold file_at. change ([B "meta"] ++ [B "root"]) with ([B "meta"; B "root"] ++ []). by rewrite D.
  - apply rev_eq_cons in R. destruct (beq n dotdot) eqn:Bn.
    { exfalso. apply beq_true in Bn. subst n. apply PP. rewrite R. set_solver. }
    apply beq_false in Bn. rewrite app_assoc in K.
    assert (NJ := pieces_nj path). rewrite R in NJ, D. apply list.Forall_app in NJ as [_ NJ].
    inversion NJ as [|? ? J _]; subst. apply nj_ne in J as [J1 J2].
    rewrite (attrs_elsewhere H s _ PB W PK _ _ n F K) by (apply T; [done|set_solver]).
    unfold file_at. by rewrite <- !app_assoc, D.
Qed.

Lemma attrs_document H s path k d : plain (hy_base H) -> good_suffix (ep_suffix (hy_ep H)) -> wf_fs s -> plain path ->
  node_key H s path = Ok k -> node_document H s path = Ok d -> get_attributes H s k = Ok (JObj d).
Proof.
  intros PB GS W PP K D. unfold node_document in D. rewrite K, bind_ok in D.
  assert (PK : plain k).
  { unfold node_key in K. apply bind_ok_inv in K as ([] & _ & K); [injection K as <-; apply plain_node_key; [by left|apply GS|done]|].
    apply bind_ok_inv in K as ([] & _ & K); [injection K as <-; apply plain_node_key; [by right|apply GS|done]|done]. }
  rewrite st_get_plain, bind_ok in D by done. destruct (file_at _ _) as [c|] eqn:F; [|done].
  rewrite (attrs_stored H s k PB W PK c F). cbn [of_option] in D. rewrite bind_ok in D.
  unfold from_text in *. apply bind_ok_inv in D as (j & -> & D). rewrite bind_ok.
  unfold as_map in D. unfold dec_value. by destruct (norm j); try done; injection D as ->.
Qed.
