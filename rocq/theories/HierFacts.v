(** Chunk operations on the file-system store. *)
From Verif Require Export Hier KeyFacts ChunkFacts.
Local Open Scope Z_scope.

(** ** Effect of set and erase on files *)

Section plain2.
Context (base : bytes) (s : fs) (key : bytes).
Hypothesis W : wf_fs s.
Hypothesis PB : plain base.
Hypothesis PK : plain key.
Notation ns := (loc base key).

Lemma st_set_effect v s' r : st_set base s key v = (s', r) ->
  wf_fs s' /\ same_except s s' ns /\ dirs_kept s s' /\
  ((can_hold_file s ns /\ file_at s' ns = Some (fst v) /\ r = snd v)
   \/ (~ can_hold_file s ns /\ s' = s /\ exists e, r = Err e)).
Proof.
  intros E. destruct (can_hold_dec base s key) as [Hc|Hc].
  - destruct (st_set_ok base s key W PB PK v Hc) as (s1 & E1 & W1 & N1).
    rewrite E in E1. injection E1 as -> ->. split; [done|]. split; [|split].
    + intros q Hq. unfold file_at. rewrite N1, decide_False by done.
      case_decide as P; [|done].
      destruct (node_at s q) as [[|c]|] eqn:X; [done| |done].
      destruct Hc as [Hc _]. exfalso. eapply (Hc q); [done|done|]. by apply file_at_some.
    + intros q Hq. apply is_dir_at_true in Hq. apply is_dir_at_true. rewrite N1.
      rewrite decide_False; [by case_decide|]. intros ->. by destruct Hc.
    + left. split; [done|]. split; [|done]. unfold file_at. by rewrite N1, decide_True.
  - destruct (st_set_blocked base s key W PB PK v Hc) as [e E1].
    rewrite E in E1. injection E1 as -> ->. split; [done|]. split; [done|]. split; [by intros q|].
    right. split; [done|]. split; [done|]. by exists e.
Qed.

Lemma st_erase_effect s' r : st_erase base s key = (s', r) ->
  wf_fs s' /\ same_except s s' ns /\ dirs_kept s s' /\
  ((node_at s ns <> Some Dir /\ file_at s' ns = None /\ r = Ok true)
   \/ (node_at s ns = Some Dir /\ s' = s /\ r = Err Other)).
Proof.
  rewrite st_erase_plain by done. destruct (node_at s ns) as [[|c]|] eqn:E; intros [= <- <-].
  - split_and!; [done|done|by intros q|by right].
  - assert (NE : ns <> []) by (intros X; rewrite X in E; done).
    split; [by eapply wf_delete_file|]. split; [|split].
    + intros q Hq. unfold file_at. by rewrite node_at_delete, decide_False.
    + intros q Hq. apply is_dir_at_true in Hq. apply is_dir_at_true.
      rewrite node_at_delete, decide_False; [done| |done]. intros ->. congruence.
    + left. split; [done|]. split; [|done]. unfold file_at. by rewrite node_at_delete, decide_True.
  - split_and!; [done|done|by intros q|]. left. split_and!; try done. unfold file_at. by rewrite E.
Qed.
End plain2.

(** Same files, same answers. *)
Lemma st_get_same base s s' key : wf_fs s -> wf_fs s' -> plain base -> plain key ->
  file_at s' (loc base key) = file_at s (loc base key) ->
  st_get base s' key = st_get base s key.
Proof. intros. rewrite !st_get_plain by done. congruence. Qed.
Lemma st_exists_same base s s' key : wf_fs s -> wf_fs s' -> plain base -> plain key ->
  file_at s' (loc base key) = file_at s (loc base key) ->
  st_exists base s' key = st_exists base s key.
Proof. intros ? ? ? ? E. rewrite !st_exists_plain by done. by rewrite E. Qed.

(** ** Chunk round trip *)

Lemma encode_ok_length C h t m data pos bs :
  encode_chunk C h t m (Chunk pos data) = (bs, Ok tt) ->
  chunk_num_elements (h_prof h) m = Ok (as_u32 (lenZ data)).
Proof.
  unfold encode_chunk. cbn [ck_data]. destruct (check_array_type h m t); [|done|done].
  cbn [mbind res_bind]. destruct (chunk_num_elements (h_prof h) m) as [n| |]; [|done|done].
  cbn [mbind res_bind]. destruct (_ =? n) eqn:E; [|done]. intros _. f_equal. lia.
Qed.

Lemma write_read C h H s t path m pos data s' old :
  lossless C (am_comp m) -> Forall (elt_ok t) data -> lenZ data < two64 -> full_chunk m data ->
  in_bounds (h_prof h) m pos = Ok true ->
  write_chunk C h H s t path m (Chunk pos data) = (s', Ok tt) ->
  read_chunk C h H s' t path m pos = Ok (Some (Chunk pos data))
  /\ read_chunk_into C h H s' t path m pos old = Ok (Some (Chunk pos data)).
Proof.
  intros L F B64 U I E. unfold write_chunk in E. cbn [ck_pos] in E.
  pose proof (st_set_get _ _ _ _ _ _ E eq_refl) as G.
  assert (X : exists bs, encode_chunk C h t m (Chunk pos data) = (bs, Ok tt)).
  { destruct (encode_chunk C h t m (Chunk pos data)) as [bs r] eqn:Q.
    revert E. unfold st_set. destruct (key_comps _ _); [|done|done].
    destruct (match _ with [] => _ | _ => _ end) as [s1 [[]| |]]; [|done|done].
    destruct (open_truncate s1 _) as [s2 [p| |]]; [|done|done].
    cbn [snd]. intros [= _ ->]. by eexists. }
  destruct X as [bs X]. rewrite X in G. cbn [fst] in G.
  destruct (chunk_roundtrip_both C h t m data bs pos pos old L F B64 U X) as [D1 D2].
  unfold read_chunk, read_chunk_into. rewrite I. cbn [mbind res_bind assert_].
  rewrite G. cbn [mbind res_bind]. rewrite D1, D2. done.
Qed.

(** ** Frame *)

Lemma write_chunk_effect C h H s t path m ck s' r :
  wf_fs s -> plain (hy_base H) -> plain path -> plain (am_sep m) -> pos_ok (ck_pos ck) ->
  write_chunk C h H s t path m ck = (s', r) ->
  let p := loc (hy_base H) (get_chunk_key path m (ck_pos ck)) in
  wf_fs s' /\ same_except s s' p /\ dirs_kept s s' /\
  ((can_hold_file s p /\ file_at s' p = Some (fst (encode_chunk C h t m ck))
      /\ r = snd (encode_chunk C h t m ck))
   \/ (~ can_hold_file s p /\ s' = s /\ exists e, r = Err e)).
Proof.
  intros W PB PP PS Q E. apply st_set_effect in E; [done|done|done|].
  by apply plain_chunk_key.
Qed.

Lemma read_chunk_same C h H s s' t path m pos :
  wf_fs s -> wf_fs s' -> plain (hy_base H) -> plain path -> plain (am_sep m) -> pos_ok pos ->
  file_at s' (loc (hy_base H) (get_chunk_key path m pos))
    = file_at s (loc (hy_base H) (get_chunk_key path m pos)) ->
  read_chunk C h H s' t path m pos = read_chunk C h H s t path m pos.
Proof.
  intros. unfold read_chunk. rewrite (st_get_same _ s s'); try done. by apply plain_chunk_key.
Qed.

(** ** Pieces after set_extension *)

Definition stem (n : bytes) : bytes := fst (split_ext n).
Lemma set_ext_pieces s : pieces (set_extension s []) =
  match rev (pieces s) with
  | [] => pieces s
  | n :: r => if beq n dotdot then pieces s else rev r ++ filter nj [stem n]
  end.
Proof.
  unfold set_extension. destruct (split_name s) as [[ps n]|] eqn:Q.
  - destruct (split_name_some _ _ _ Q) as ((N1 & N2 & N3) & F & R).
    rewrite R, rev_unit, (proj2 (beq_false _ _) N3), rev_involutive.
    unfold stem. destruct (split_ext n) as [u v] eqn:X. cbn [fst].
    assert (U : noslash u).
    { destruct (split_ext_cases n) as [Y|Y].
      - rewrite X in Y. injection Y as -> _. done.
      - destruct Y as (a & b & Y1 & Y2 & _). rewrite X in Y1. injection Y1 as -> _.
        rewrite Y2 in N1. by apply app_noslash in N1 as [? _]. }
    rewrite app_nil_r, pieces_join.
    + by rewrite list.filter_app.
    + apply list.Forall_app. split; [done|]. by repeat constructor.
  - destruct (split_name_none _ Q) as [R|[l R]]; rewrite R; [done|].
    rewrite rev_unit, beq_refl. done.
Qed.

(** The key consulted last by exists (storage.rs:187-192). *)
Definition ekey (H : hier) (path : bytes) : bytes :=
  set_extension (set_extension (gkey H path) []) [].

Lemma stem_app n e : n <> [] -> dot ∉ e -> stem (n ++ dot :: e) = n.
Proof. intros. unfold stem. by rewrite split_ext_app. Qed.
Lemma nj_app n x : n <> [] -> length x <> 0%nat -> is_junk (n ++ x) = false.
Proof.
  intros N X. apply nj_intro; intros E; apply (f_equal length) in E; rewrite app_length in E;
    destruct n; simpl in E; [done|lia|done|lia].
Qed.

Lemma pieces_ekey H path : good_suffix (ep_suffix (hy_ep H)) ->
  pieces (ekey H path) = [B "meta"; B "root"] ++ pieces path.
Proof.
  intros [S1 S2]. unfold ekey, gkey.
  assert (K : pieces (group_metadata_key (ep_suffix (hy_ep H)) path) =
    meta_pieces GROUP_METADATA_KEY_EXT (strip_dot (ep_suffix (hy_ep H))) (pieces path)).
  { apply pieces_node_key; [by right|done]. }
  assert (NJ := pieces_nj path). set (ps := pieces path) in *.
  set (sfx := strip_dot (ep_suffix (hy_ep H))) in *.
  assert (TAG : forall l n, n <> [] -> is_junk n = false -> n <> dotdot ->
    pieces (group_metadata_key (ep_suffix (hy_ep H)) path)
      = l ++ [n ++ dot :: GROUP_METADATA_KEY_EXT ++ dot :: sfx] ->
    pieces (set_extension (set_extension (group_metadata_key (ep_suffix (hy_ep H)) path) []) [])
      = l ++ [n]).
  { intros l n N J D E. rewrite (set_ext_pieces (set_extension _ [])).
    assert (E1 : pieces (set_extension (group_metadata_key (ep_suffix (hy_ep H)) path) [])
                 = l ++ [n ++ dot :: GROUP_METADATA_KEY_EXT]).
    { rewrite set_ext_pieces, E, rev_unit, rev_involutive.
      rewrite (proj2 (beq_false _ _)) by by apply tag_not_dotdot; try apply ext_group_ok.
      rewrite app_comm_cons, app_assoc, stem_app; [|by destruct n|done].
      rewrite filter_cons_True by by apply nj_app. done. }
    rewrite E1, rev_unit, rev_involutive.
    rewrite (proj2 (beq_false _ _)).
    - rewrite stem_app by by (try apply ext_group_ok). by rewrite filter_cons_True.
    - intros X. apply (f_equal length) in X. rewrite app_length in X. simpl in X. lia. }
  unfold meta_pieces in K. destruct (rev ps) as [|n r] eqn:E.
  - apply rev_eq_nil in E. rewrite E. apply (TAG [B "meta"]); done.
  - apply rev_eq_cons in E. destruct (beq n dotdot) eqn:Bn.
    + apply beq_true in Bn. subst n.
      assert (K2 : pieces (set_extension (group_metadata_key (ep_suffix (hy_ep H)) path) [])
              = [B "meta"; B "root"] ++ ps).
      { rewrite set_ext_pieces, K, E, app_assoc, rev_unit, beq_refl. done. }
      rewrite set_ext_pieces, K2, E, app_assoc, rev_unit, beq_refl. done.
    + apply beq_false in Bn. rewrite E, app_assoc. rewrite app_assoc in K.
      rewrite E in NJ. apply list.Forall_app in NJ as [_ NJ]. inversion NJ as [|? ? J _]; subst.
      apply TAG; [by apply nj_ne in J as [? _]|done|done|done].
Qed.

Lemma plain_ekey H path : good_suffix (ep_suffix (hy_ep H)) -> plain path -> plain (ekey H path).
Proof.
  intros G P. unfold plain. rewrite pieces_ekey by done.
  intros [I|I]%elem_of_app; [|done].
  apply elem_of_cons in I as [I|I]; [done|]. by apply elem_of_list_singleton in I.
Qed.

(** Metadata readers look only below "meta". *)
Definition meta_same (base : bytes) (s s' : fs) : Prop :=
  forall r, file_at s' (pieces base ++ B "meta" :: r) = file_at s (pieces base ++ B "meta" :: r).

Section meta_readers.
Context (H : hier) (s s' : fs).
Hypothesis W : wf_fs s.
Hypothesis W' : wf_fs s'.
Hypothesis PB : plain (hy_base H).
Hypothesis G : good_suffix (ep_suffix (hy_ep H)).
Hypothesis M : meta_same (hy_base H) s s'.

Lemma loc_node_head ext path : is_node_ext ext -> exists r,
  loc (hy_base H) (metadata_key ext (ep_suffix (hy_ep H)) path) = pieces (hy_base H) ++ B "meta" :: r.
Proof.
  intros E. unfold loc. rewrite pieces_node_key by (try done; apply G).
  destruct (meta_pieces_head ext (strip_dot (ep_suffix (hy_ep H))) (pieces path)) as [r ->].
  by exists r.
Qed.
Lemma same_node_get ext path : is_node_ext ext -> plain path ->
  st_get (hy_base H) s' (metadata_key ext (ep_suffix (hy_ep H)) path)
  = st_get (hy_base H) s (metadata_key ext (ep_suffix (hy_ep H)) path).
Proof.
  intros E P. apply st_get_same; try done.
  - apply plain_node_key; [done|apply G|done].
  - destruct (loc_node_head ext path E) as [r ->]. apply M.
Qed.
Lemma same_node_exists ext path : is_node_ext ext -> plain path ->
  st_exists (hy_base H) s' (metadata_key ext (ep_suffix (hy_ep H)) path)
  = st_exists (hy_base H) s (metadata_key ext (ep_suffix (hy_ep H)) path).
Proof.
  intros E P. apply st_exists_same; try done.
  - apply plain_node_key; [done|apply G|done].
  - destruct (loc_node_head ext path E) as [r ->]. apply M.
Qed.

Lemma meta_readers_same path : plain path ->
  get_array_metadata H s' path = get_array_metadata H s path
  /\ node_exists H s' path = node_exists H s path
  /\ array_exists H s' path = array_exists H s path
  /\ list_attributes H s' path = list_attributes H s path.
Proof.
  intros P.
  assert (A : is_node_ext ARRAY_METADATA_KEY_EXT) by by left.
  assert (B : is_node_ext GROUP_METADATA_KEY_EXT) by by right.
  assert (E1 : get_array_metadata H s' path = get_array_metadata H s path).
  { unfold get_array_metadata, akey, array_metadata_key. by rewrite same_node_get. }
  assert (E2 : node_exists H s' path = node_exists H s path).
  { unfold node_exists. fold (ekey H path).
    unfold akey, gkey, array_metadata_key, group_metadata_key.
    rewrite !same_node_exists by done.
    rewrite (st_exists_same _ s s' (ekey H path)); try done; [by apply plain_ekey|].
    unfold loc. rewrite pieces_ekey by done. apply M. }
  assert (K : node_key H s' path = node_key H s path).
  { unfold node_key, akey, gkey, array_metadata_key, group_metadata_key.
    by rewrite !same_node_exists. }
  split; [done|]. split; [done|]. split.
  - unfold array_exists. by rewrite E1, E2.
  - unfold list_attributes. rewrite K.
    unfold node_key, akey, gkey, array_metadata_key, group_metadata_key.
    destruct (st_exists _ s (metadata_key ARRAY_METADATA_KEY_EXT _ _)) as [[]| |];
      cbn [mbind res_bind]; [by rewrite same_node_get| |done|done].
    destruct (st_exists _ s (metadata_key GROUP_METADATA_KEY_EXT _ _)) as [[]| |];
      cbn [mbind res_bind]; [by rewrite same_node_get|done|done|done].
Qed.
End meta_readers.

Lemma chunk_not_meta base path m pos r :
  loc base (get_chunk_key path m pos) <> pieces base ++ B "meta" :: r.
Proof. rewrite loc_chunk. intros E. by apply app_inv_head in E. Qed.

Lemma same_except_meta base s s' path m pos :
  same_except s s' (loc base (get_chunk_key path m pos)) -> meta_same base s s'.
Proof. intros S r. apply S. intros E. symmetry in E. by apply chunk_not_meta in E. Qed.

Section frame.
Context (C : codec) (h : host) (H : hier) (s s' : fs) (path : bytes) (m : array_meta) (pos : list Z).
Hypothesis W : wf_fs s.
Hypothesis W' : wf_fs s'.
Hypothesis PB : plain (hy_base H).
Hypothesis S : same_except s s' (loc (hy_base H) (get_chunk_key path m pos)).
Lemma frame_chunks t' path' m' pos' : plain path' -> good_sep (am_sep m) -> good_sep (am_sep m') ->
  pos_ok pos -> pos_ok pos' ->
  (pieces path', pos') <> (pieces path, pos) ->
  read_chunk C h H s' t' path' m' pos' = read_chunk C h H s t' path' m' pos'.
Proof.
  intros P G G' Q Q' N. apply read_chunk_same; try done; [apply G'|].
  apply S. intros E. apply loc_chunk_inj in E as [E1 E2]; try done. congruence.
Qed.
End frame.

(** ** Delete *)

Lemma delete_chunk_effect H s path m pos s' r :
  wf_fs s -> plain (hy_base H) -> plain path -> plain (am_sep m) -> pos_ok pos ->
  delete_chunk H s path m pos = (s', r) ->
  let p := loc (hy_base H) (get_chunk_key path m pos) in
  wf_fs s' /\ same_except s s' p /\ dirs_kept s s' /\
  ((node_at s p <> Some Dir /\ file_at s' p = None /\ r = Ok true)
   \/ (node_at s p = Some Dir /\ s' = s /\ r = Err Other)).
Proof.
  intros W PB PP PS Q E. apply st_erase_effect in E; [done|done|done|].
  by apply plain_chunk_key.
Qed.

Lemma read_absent C h H s t path m pos :
  wf_fs s -> plain (hy_base H) -> plain path -> plain (am_sep m) -> pos_ok pos ->
  in_bounds (h_prof h) m pos = Ok true ->
  file_at s (loc (hy_base H) (get_chunk_key path m pos)) = None ->
  read_chunk C h H s t path m pos = Ok None.
Proof.
  intros. unfold read_chunk. rewrite H5. cbn [mbind res_bind assert_].
  rewrite st_get_plain by (try done; by apply plain_chunk_key). by rewrite H6.
Qed.
