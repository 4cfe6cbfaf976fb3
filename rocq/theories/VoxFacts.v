(** Histories of writes to an array (C80). *)
From Verif Require Import Nd Hier Spec SpecHier SpecPlace SpecVox BaseFacts PathFacts FSFacts KeyFacts HierFacts ChunkFacts BBoxFacts CoordIterFacts NdFacts
  NdWrite NdSafe RefFacts OpsFacts StoreFacts PlaceFacts FilesFacts.
Local Open Scope Z_scope.

Lemma in_box_or off shape x : in_box off shape x \/ ~ in_box off shape x.
Proof.
  unfold in_box. destruct (decide (length x = length off)) as [E1|]; [|by right; intros [? _]].
  destruct (decide (length x = length shape)) as [E2|]; [|by right; intros (_ & ? & _)].
  revert off shape E1 E2. induction x as [|z x IH]; intros [|o off] [|e shape] E1 E2; try done.
  { left. split; [done|]. split; [done|]. intros i ? ? ? L. done. }
  cbn [length] in *. destruct (IH off shape ltac:(lia) ltac:(lia)) as [(_ & _ & A)|A].
  - destruct (decide (o <= z < o + e)) as [B|B].
    + left. split; [lia|]. split; [lia|]. intros [|i] xi oi si; cbn; [by intros [= <-] [= <-] [= <-]|apply A].
    + right. intros (_ & _ & X). apply B. by apply (X 0%nat).
  - right. intros (_ & _ & X). apply A. split; [lia|]. split; [lia|]. intros i. apply (X (S i)).
Qed.
Lemma last_written_snoc m fill first cs c x v : last_written m fill first (cs ++ [c]) x v ->
  (concerns m c x /\ gives m fill c x v) \/ (~ concerns m c x /\ last_written m fill first cs x v).
Proof.
  intros L. remember (cs ++ [c]) as l eqn:E. destruct L as [x|cs' c' x v I G|cs' c' x v N L].
  - by destruct cs.
  - apply app_inj_tail in E as [-> ->]. by left.
  - apply app_inj_tail in E as [-> ->]. by right.
Qed.
Lemma last_written_nil m fill first x v : last_written m fill first [] x v -> v = first.
Proof. intros U. remember [] as l eqn:E. destruct U; [done|by destruct cs..]. Qed.
Lemma last_written_unique m fill first cs x : forall v v', last_written m fill first cs x v -> last_written m fill first cs x v' -> v = v'.
Proof.
  induction cs as [|c cs IH] using rev_ind; intros v v' L L'.
  - apply last_written_nil in L, L'. congruence.
  - apply last_written_snoc in L as [[I G]|[N L]]; apply last_written_snoc in L' as [[I' G']|[N' L']]; try done; [|by apply IH].
    destruct c; cbn [gives] in *; congruence.
Qed.
Lemma last_written_regions m m' fill first cs x v : regions_only cs -> last_written m fill first cs x v -> last_written m' fill first cs x v.
Proof.
  revert v. induction cs as [|c cs IH] using rev_ind; intros v R L.
  - apply last_written_nil in L as ->. constructor.
  - destruct (R c) as (off & arr & ->); [apply elem_of_app; right; by apply elem_of_list_singleton|].
    apply last_written_snoc in L as [[I G]|[N L]]; [by apply written_now|apply written_before; [done|]].
    apply IH; [|done]. intros c Hc. apply R. apply elem_of_app. by left.
Qed.

Section vox.
  Context (flit : rty -> bytes -> Z) (C : codec) (h : host) (H : hier) (t : rty) (path : bytes) (m : array_meta).
  Hypothesis PB : plain (hy_base H).
  Hypothesis PP : plain path.
  Hypothesis GS : good_sep (am_sep m).
  Hypothesis LC : lossless C (am_comp m).
  Hypothesis CK : chunk_shape_ok m.
  Hypothesis NE : am_shape m <> [].
  Context (fill : Z).
  Hypothesis FE : effective_fill flit t m = Ok fill.
  Hypothesis FO : elt_ok t fill.

  Lemma sep_plain : plain (am_sep m).
  Proof. apply GS. Qed.
  Lemma performs_wf s c s' : wf_fs s -> performs flit C h H t path m s c s' -> wf_fs s'.
  Proof.
    intros W. pose proof sep_plain as PS. destruct c as [off arr|pos data|pos]; cbn [performs].
    - intros (BO & FI & EA & E). by destruct (write_region _ _ _ _ _ _ _ _ _ _ _ _ BO CK NE FI W PB PP GS LC FE FO EA E).
    - intros (PO & _ & _ & E). by apply write_chunk_effect in E as (W' & _).
    - intros (PO & b & E). apply st_erase_effect in E as (W' & _); [done|done|done|by apply plain_chunk_key].
  Qed.
  Lemma history_wf s cs s' : wf_fs s -> history_of flit C h H t path m s cs s' -> wf_fs s'.
  Proof. intros W R. induction R; [done|by eapply performs_wf|done]. Qed.

  (** A voxel whose chunk holds [ck], or is absent. *)
  Lemma voxel_chunk s x o : length x = length (am_chunk_shape m) -> read_chunk C h H s t path m (chunk_of m x) = Ok o ->
    voxel C h H s t path m fill x = match o with None => Ok fill | Some ck => Ok (cell m ck x) end.
  Proof. intros L E. destruct o as [ck|]; [by apply voxel_some|by apply voxel_none]. Qed.
  Lemma chunk_case pos x : length x = length (am_chunk_shape m) ->
    (in_chunk (am_chunk_shape m) pos x /\ pos = chunk_of m x) \/ (~ in_chunk (am_chunk_shape m) pos x /\ pos <> chunk_of m x).
  Proof.
    intros L. pose proof CK as [CP _]. destruct (decide (pos = chunk_of m x)) as [->|N].
    - left. split; [by apply chunk_of_covers|done].
    - right. split; [|done]. intros I. apply (in_chunk_of m pos x CP) in I as [E _]. congruence.
  Qed.
  Lemma performs_voxel bb s c s' x : bok m bb -> wf_fs s -> grid_voxel m x -> performs flit C h H t path m s c s' ->
    (concerns m c x -> exists v, voxel C h H s' t path m fill x = Ok v /\ gives m fill c x v)
    /\ (~ concerns m c x -> voxel C h H s' t path m fill x = voxel C h H s t path m fill x)
    /\ (concerns m c x \/ ~ concerns m c x).
  Proof.
    intros BO W G P. pose proof (performs_wf _ _ _ W P) as W'. pose proof CK as [CP _]. pose proof sep_plain as PS.
    pose proof (chunk_of_pos_ok m bb x BO G) as PX.
    pose proof (chunk_of_in_bounds (h_prof h) m x (bok_grid_ok m bb BO) CP G) as IB.
    assert (L : length x = length (am_chunk_shape m)) by (destruct G as (pos & Hc & _); by apply (in_chunk_of m pos x CP Hc)).
    destruct (one_position_text (am_sep m) _ PX) as (w & T & _).
    assert (RC : forall s, wf_fs s -> _) by (intros s0 W0; exact (chunk_read H s0 path W0 PB PP C h t m _ w PS PX T IB)).
    assert (OTHER : forall pos w', pos_ok pos -> position_text (am_sep m) pos w' -> pos <> chunk_of m x -> chunk_file H path w <> chunk_file H path w').
    { intros pos w' PO T' N E. rewrite <- (chunk_place H path m _ _ PX T), <- (chunk_place H path m _ _ PO T') in E.
      apply loc_chunk_inj in E as [_ E]; done. }
    destruct c as [off arr|pos data|pos]; cbn [performs concerns gives] in *.
    - destruct P as (BO' & FI & EA & E).
      destruct (write_region _ _ _ _ _ _ _ _ _ _ _ _ BO' CK NE FI W PB PP GS LC FE FO EA E) as (_ & _ & _ & Q).
      destruct (Q x G) as [Q1 Q2]. split; [|split; [done|apply in_box_or]].
      intros I. eexists. split; [by apply Q1|done].
    - destruct P as (PO & EO & LD & E). destruct (one_position_text (am_sep m) _ PO) as (w' & T' & _).
      pose proof E as E0. apply (chunk_written H s path W PB PP C h t m (Chunk pos data) s' w' PS PO T') in E as [F SE].
      apply write_chunk_effect in E0 as (_ & _ & _ & X); [|done..].
      destruct X as [(_ & _ & X)|(_ & _ & e & X)]; [|done].
      destruct (chunk_case pos x L) as [[I ->]|[N NX]].
      + split; [|split; [done|by left]]. intros _. cbn [ck_pos] in *.
        destruct (encode_chunk C h t m (Chunk (chunk_of m x) data)) as [bs r] eqn:EN. cbn [fst snd] in *. subst r.
        assert (FC : full_chunk m data).
        { apply encode_chunk_inv in EN as (d & n & _ & _ & Hn & Hl & _). rewrite chunk_num_ok in Hn by done. injection Hn as <-.
          cbn [ck_data] in Hl. unfold full_chunk. rewrite as_u32_small in Hl; [done|]. unfold lenZ in *. lia. }
        assert (RR : read_chunk C h H s' t path m (chunk_of m x) = Ok (Some (Chunk (chunk_of m x) data))).
        { rewrite (RC s' W'). assert (w = w') as -> by (by eapply position_unique). rewrite F.
          erewrite chunk_roundtrip; [by rewrite bind_ok|done|done| |done|exact EN]. unfold two64, two32 in *. lia. }
        unfold voxel. fold (chunk_of m x). rewrite RR, bind_ok. cbn [ck_data]. rewrite (index_in_chunk m x CP L).
        destruct (data !! _) as [v|] eqn:D; [by exists v|]. exfalso.
        apply lookup_ge_None in D. pose proof (mod_index m CK x L) as K. unfold full_chunk, lenZ in FC. lia.
      + split; [done|]. split; [|by right]. intros _. unfold voxel. fold (chunk_of m x). rewrite !RC by done.
        rewrite SE; [done|]. by apply (OTHER pos w').
    - destruct P as (PO & b & E). destruct (one_position_text (am_sep m) _ PO) as (w' & T' & _).
      apply (chunk_deleted H s path W PB PP m pos s' b w' PS PO T') in E as [F SE].
      destruct (chunk_case pos x L) as [[I ->]|[N NX]].
      + split; [|split; [done|by left]]. intros _. exists fill. split; [|done]. unfold voxel. fold (chunk_of m x).
        rewrite (RC s' W'). assert (w = w') as -> by (by eapply position_unique). by rewrite F.
      + split; [done|]. split; [|by right]. intros _. unfold voxel. fold (chunk_of m x). rewrite !RC by done.
        rewrite SE; [done|]. by apply (OTHER pos w').
  Qed.
  Lemma history_voxel_from bb s cs s' x first : bok m bb -> wf_fs s -> history_of flit C h H t path m s cs s' ->
    index_of (am_shape m) x -> voxel C h H s t path m fill x = Ok first ->
    exists v, voxel C h H s' t path m fill x = Ok v /\ last_written m fill first cs x v.
  Proof.
    intros BO W R X V0. pose proof CK as [CP _]. pose proof sep_plain as PS.
    assert (G : grid_voxel m x).
    { apply index_grid; [done| |done]. pose proof (bok_length m bb BO). lia. }
    pose proof (chunk_of_pos_ok m bb x BO G) as PO.
    pose proof (chunk_of_in_bounds (h_prof h) m x (bok_grid_ok m bb BO) CP G) as IB.
    destruct (one_position_text (am_sep m) _ PO) as (w & T & _).
    assert (RC : forall s, wf_fs s -> _) by (intros s0 W0; exact (chunk_read H s0 path W0 PB PP C h t m _ w PS PO T IB)).
    induction R as [|cs s' c s'' R IH P|cs s' s'' R IH W'' EQ].
    - exists first. split; [done|constructor].
    - pose proof (history_wf _ _ _ W R) as W'. destruct IH as (v & V & L).
      destruct (performs_voxel bb s' c s'' x BO W' G P) as (Q1 & Q2 & [I|N]).
      + destruct (Q1 I) as (v' & V' & G'). exists v'. split; [done|by apply written_now].
      + exists v. split; [by rewrite Q2|by apply written_before].
    - pose proof (history_wf _ _ _ W R) as W'. destruct IH as (v & V & L). exists v. split; [|done]. rewrite <- V.
      unfold voxel. fold (chunk_of m x). rewrite !RC by done. by rewrite (EQ _ w PO T).
  Qed.
  Lemma history_voxel bb s cs s' : bok m bb -> wf_fs s -> unwritten H s path m ->
    history_of flit C h H t path m s cs s' ->
    forall x, index_of (am_shape m) x -> exists v, voxel C h H s' t path m fill x = Ok v /\ last_written m fill fill cs x v.
  Proof.
    intros BO W NC R x X. pose proof CK as [CP _]. pose proof sep_plain as PS.
    eapply history_voxel_from; [done..|].
    assert (G : grid_voxel m x).
    { apply index_grid; [done| |done]. pose proof (bok_length m bb BO). lia. }
    pose proof (chunk_of_pos_ok m bb x BO G) as PO.
    pose proof (chunk_of_in_bounds (h_prof h) m x (bok_grid_ok m bb BO) CP G) as IB.
    destruct (one_position_text (am_sep m) _ PO) as (w & T & _).
    unfold voxel. fold (chunk_of m x). rewrite (chunk_read H s path W PB PP C h t m _ w PS PO T IB). by rewrite (NC _ w PO T).
  Qed.
  Lemma history_read_from bb s cs s' a0 a : wf_fs s -> history_of flit C h H t path m s cs s' ->
    bok m bb -> read_ndarray flit C h H s t path m bb = Ok a0 -> read_ndarray flit C h H s' t path m bb = Ok a ->
    forall i, index_of (bb_shape bb) i -> index_of (am_shape m) (zip_with Z.add (bb_off bb) i) ->
    last_written m fill (nd_at a0 i) cs (zip_with Z.add (bb_off bb) i) (nd_at a i).
  Proof.
    intros W R BO E0 E i I X.
    destruct (read_region _ _ _ _ _ _ _ _ _ _ BO CK NE E0) as (fill0 & FE0 & S0 & V0).
    destruct (read_region _ _ _ _ _ _ _ _ _ _ BO CK NE E) as (fill1 & FE1 & S1 & V1).
    assert (fill0 = fill) as -> by congruence. assert (fill1 = fill) as -> by congruence.
    assert (G : grid_voxel m (zip_with Z.add (bb_off bb) i)).
    { pose proof CK as [CP _]. apply index_grid; [done| |done]. pose proof (bok_length m bb BO). lia. }
    destruct (V0 i I) as [V0' _]. destruct (V1 i I) as [V1' _]. specialize (V0' G). specialize (V1' G).
    destruct (history_voxel_from bb s cs s' _ _ BO W R X V0') as (v & V & L). rewrite V1' in V. by injection V as ->.
  Qed.
  Lemma history_read bb s cs s' a : wf_fs s -> unwritten H s path m -> history_of flit C h H t path m s cs s' ->
    bok m bb -> read_ndarray flit C h H s' t path m bb = Ok a ->
    nd_shape a = bb_shape bb
    /\ forall i, index_of (bb_shape bb) i -> index_of (am_shape m) (zip_with Z.add (bb_off bb) i) ->
       last_written m fill fill cs (zip_with Z.add (bb_off bb) i) (nd_at a i).
  Proof.
    intros W NC R BO E. destruct (read_region _ _ _ _ _ _ _ _ _ _ BO CK NE E) as (fill' & FE' & S & V).
    assert (fill' = fill) as -> by congruence. split; [done|]. intros i I X.
    destruct (history_voxel bb s cs s' BO W NC R _ X) as (v & V1 & L). destruct (V i I) as [V2 _].
    rewrite V2 in V1. { by injection V1 as ->. }
    pose proof CK as [CP _]. apply index_grid; [done| |done]. pose proof (bok_length m bb BO). lia.
  Qed.
  Lemma history_chunk bb s cs s' pos o : wf_fs s -> unwritten H s path m -> history_of flit C h H t path m s cs s' ->
    bok m bb -> read_chunk C h H s' t path m pos = Ok o ->
    forall x, in_chunk (am_chunk_shape m) pos x -> index_of (am_shape m) x ->
    exists v, last_written m fill fill cs x v
      /\ match o with
         | None => v = fill
         | Some ck => ck_data ck !! Z.to_nat (layout_rank (am_order m) (am_chunk_shape m)
                        (zip_with Z.sub x (zip_with Z.mul pos (am_chunk_shape m)))) = Some v
         end.
  Proof.
    intros W NC R BO E x I X. destruct (history_voxel bb s cs s' BO W NC R x X) as (v & V & L). exists v. split; [done|].
    pose proof CK as [CP _]. apply (in_chunk_of m pos x CP) in I as [<- LX]. unfold voxel in V. fold (chunk_of m x) in V.
    rewrite E, bind_ok in V. destruct o as [ck|]; [|by injection V]. rewrite (index_in_chunk m x CP LX).
    destruct (ck_data ck !! _) as [u|]; [|done]. cbn in V. by injection V as ->.
  Qed.
End vox.

(** Calls about other nodes. *)
Section others.
  Context (H : hier).
  Hypothesis PB : plain (hy_base H).
  Hypothesis GF : good_suffix (ep_suffix (hy_ep H)).
  Notation base := (hy_base H).
  Notation sfx := (ep_suffix (hy_ep H)).
  Notation AX := ARRAY_METADATA_KEY_EXT.
  Notation GX := GROUP_METADATA_KEY_EXT.

  (** Nothing but files under meta/ changes. *)
  Definition only_meta (s s' : fs) : Prop := forall q, file_at s' q = file_at s q \/ exists r, q = pieces base ++ B "meta" :: r.
  Lemma key_meta ext path : is_node_ext ext -> exists r, loc base (metadata_key ext sfx path) = pieces base ++ B "meta" :: r.
  Proof.
    intros E. unfold loc. rewrite pieces_node_key by (try done; apply GF). unfold meta_pieces. cbv zeta.
    destruct (rev (pieces path)); [by eexists|]. destruct (beq _ _); by eexists.
  Qed.
  Lemma same_only ext path s s' : is_node_ext ext -> same_except s s' (loc base (metadata_key ext sfx path)) -> only_meta s s'.
  Proof.
    intros E SE q. destruct (decide (q = loc base (metadata_key ext sfx path))) as [->|N]; [right; by apply key_meta|left; by apply SE].
  Qed.
  Lemma only_refl s : only_meta s s.
  Proof. intros q. by left. Qed.
  Lemma only_trans s s1 s2 : only_meta s s1 -> only_meta s1 s2 -> only_meta s s2.
  Proof. intros A A' q. destruct (A' q) as [->|X]; [apply A|by right]. Qed.
  Lemma create_array_only s path m : wf_fs s -> plain path -> wf_fs (fst (create_array H s path m)) /\ only_meta s (fst (create_array H s path m)).
  Proof.
    intros W PP. unfold create_array, akey, gkey, array_metadata_key, group_metadata_key.
    assert (PA : plain (metadata_key AX sfx path)) by (apply nloc_plain; [done|by left|done]).
    assert (PG : plain (metadata_key GX sfx path)) by (apply nloc_plain; [done|by right|done]).
    rewrite !st_exists_plain by done. cbn [on].
    destruct (file_at s (loc base (metadata_key GX sfx path))); [split; [done|apply only_refl]|]. cbn [on].
    destruct (file_at s (loc base (metadata_key AX sfx path))); [split; [done|apply only_refl]|].
    destruct (st_set base s _ _) as [s' r] eqn:E. apply st_set_effect in E as (W' & SE & _ & _); [|done..].
    split; [done|]. by apply (same_only AX path); [by left|].
  Qed.
  Lemma create_group_only s path : wf_fs s -> plain path -> wf_fs (fst (create_group H s path)) /\ only_meta s (fst (create_group H s path)).
  Proof.
    intros W PP. unfold create_group, akey, gkey, array_metadata_key, group_metadata_key.
    assert (PA : plain (metadata_key AX sfx path)) by (apply nloc_plain; [done|by left|done]).
    assert (PG : plain (metadata_key GX sfx path)) by (apply nloc_plain; [done|by right|done]).
    rewrite !st_exists_plain by done. cbn [on].
    destruct (file_at s (loc base (metadata_key AX sfx path))); [split; [done|apply only_refl]|]. cbn [on].
    destruct (file_at s (loc base (metadata_key GX sfx path))); [split; [done|apply only_refl]|].
    destruct (st_set base s _ _) as [s' r] eqn:E. apply st_set_effect in E as (W' & SE & _ & _); [|done..].
    split; [done|]. by apply (same_only GX path); [by right|].
  Qed.
  Lemma set_attributes_only s path attrs : wf_fs s -> plain path ->
    wf_fs (fst (set_attributes H s path attrs)) /\ only_meta s (fst (set_attributes H s path attrs)).
  Proof.
    intros W PP. assert (RF : wf_fs s /\ only_meta s s) by (split; [done|apply only_refl]). unfold set_attributes.
    destruct (node_key H s path) as [k|e|] eqn:K; cbn [on]; [|done..].
    assert (PK : plain k /\ exists ext, is_node_ext ext /\ k = metadata_key ext sfx path).
    { revert K. unfold node_key, akey, gkey, array_metadata_key, group_metadata_key.
      assert (PA : plain (metadata_key AX sfx path)) by (apply nloc_plain; [done|by left|done]).
      assert (PG : plain (metadata_key GX sfx path)) by (apply nloc_plain; [done|by right|done]).
      destruct (st_exists _ s (metadata_key AX sfx path)) as [[]| |]; cbn [mbind res_bind];
        [intros [= <-]; split; [done|]; exists AX; split; [by left|done]| |done..].
      destruct (st_exists _ s (metadata_key GX sfx path)) as [[]| |]; cbn [mbind res_bind];
        [intros [= <-]; split; [done|]; exists GX; split; [by right|done]|done..]. }
    destruct PK as [PK (ext & EX & KE)].
    rewrite st_get_plain by done. cbn [on].
    destruct (file_at s (loc base k)) as [text|] eqn:F; cbn [of_option on]; [|done].
    destruct (from_text as_map text) as [doc|e|]; cbn [on]; [|done..].
    cbv zeta. destruct (json_eqb _ _); [done|].
    destruct (st_set base s _ _) as [s' r] eqn:E. apply st_set_effect in E as (W' & SE & _ & _); [|done..].
    split; [done|]. subst k. by apply (same_only ext path).
  Qed.
  Lemma erase_only s ext path : wf_fs s -> is_node_ext ext -> plain path ->
    wf_fs (fst (st_erase base s (metadata_key ext sfx path))) /\ only_meta s (fst (st_erase base s (metadata_key ext sfx path))).
  Proof.
    intros W EX PP. assert (PA : plain (metadata_key ext sfx path)) by (by apply nloc_plain).
    destruct (st_erase base s _) as [s' r] eqn:E. apply st_erase_effect in E as (W' & SE & _); [|done..].
    split; [done|]. by apply (same_only ext path).
  Qed.
  Lemma remove_only s path : wf_fs s -> plain path -> wf_fs (fst (Hier.remove H s path))
    /\ forall q, file_at (fst (Hier.remove H s path)) q = file_at s q \/ (exists r, q = pieces base ++ B "meta" :: r)
                 \/ (pieces base ++ B "data" :: B "root" :: pieces path) `prefix_of` q.
  Proof.
    intros W PP. unfold Hier.remove, akey, gkey, array_metadata_key, group_metadata_key.
    assert (EG : is_node_ext GX) by by right. assert (EA : is_node_ext AX) by by left.
    destruct (erase_only s GX path W EG PP) as [W1 O1].
    destruct (st_erase base s _) as [s1 r1]. cbn [fst] in *.
    assert (D1 : forall q, file_at s1 q = file_at s q \/ (exists r, q = pieces base ++ B "meta" :: r) \/ (pieces base ++ B "data" :: B "root" :: pieces path) `prefix_of` q).
    { intros q. destruct (O1 q); [by left|right; by left]. }
    destruct r1 as [b1|e1|]; cbn [andthen fst]; [|done..].
    destruct (erase_only s1 AX path W1 EA PP) as [W2 O2].
    destruct (st_erase base s1 _) as [s2 r2]. cbn [fst] in *. pose proof (only_trans _ _ _ O1 O2) as O3.
    assert (D2 : forall q, file_at s2 q = file_at s q \/ (exists r, q = pieces base ++ B "meta" :: r) \/ (pieces base ++ B "data" :: B "root" :: pieces path) `prefix_of` q).
    { intros q. destruct (O3 q); [by left|right; by left]. }
    destruct r2 as [b2|e2|]; cbn [andthen fst]; [|done..].
    destruct (st_erase_prefix_plain base s2 (data_path_key path) W2 PB (data_key_plain path PP)) as (s3 & -> & W3 & S3).
    { rewrite data_key_loc. by destruct (pieces base). }
    cbn [andthen fst]. split; [done|]. intros q. rewrite data_key_loc in S3.
    destruct (decide ((pieces base ++ B "data" :: B "root" :: pieces path) `prefix_of` q)) as [X|X]; [right; by right|].
    unfold file_at at 1. rewrite S3, decide_False by done. apply D2.
  Qed.

  Lemma elsewhere_kept flit C h path m s o : good_sep (am_sep m) -> wf_fs s -> api_plain o -> elsewhere path o ->
    wf_fs (api_step flit C h H s o)
    /\ forall pos w, pos_ok pos -> position_text (am_sep m) pos w ->
       file_at (api_step flit C h H s o) (chunk_file H path w) = file_at s (chunk_file H path w).
  Proof.
    intros GS W O EL.
    assert (ME : forall s', only_meta s s' -> forall pos w, pos_ok pos -> position_text (am_sep m) pos w ->
      file_at s' (chunk_file H path w) = file_at s (chunk_file H path w)).
    { intros s' OM pos w PO T. destruct (OM (chunk_file H path w)) as [|(r & X)]; [done|].
      rewrite <- (chunk_place H path m pos w PO T) in X. by apply chunk_not_meta in X. }
    assert (OT : forall q m' pos pos' w, pieces q <> pieces path -> good_sep (am_sep m') -> pos_ok pos' -> pos_ok pos -> position_text (am_sep m) pos w ->
      chunk_file H path w <> loc base (get_chunk_key q m' pos')).
    { intros q m' pos pos' w N G' PO' PO T X. rewrite <- (chunk_place H path m pos w PO T) in X. apply loc_chunk_inj in X as [X _]; done. }
    destruct o as [q m'|q|q attrs|q|t q m' ck|q m' pos'|t q m' off arr]; cbn [api_step api_plain elsewhere] in *.
    - destruct (create_array_only s q m' W O). split; [done|by apply ME].
    - destruct (create_group_only s q W O). split; [done|by apply ME].
    - destruct (set_attributes_only s q attrs W O). split; [done|by apply ME].
    - destruct (remove_only s q W O) as [W' R]. split; [done|]. intros pos w PO T.
      destruct (R (chunk_file H path w)) as [|[(r & X)|X]]; [done| |]; exfalso.
      + rewrite <- (chunk_place H path m pos w PO T) in X. by apply chunk_not_meta in X.
      + destruct EL as [N1 N2]. unfold chunk_file in X. apply prefix_app_inv in X. do 2 apply prefix_cons_inv_2 in X.
        apply prefix_weak_total with (l2 := pieces path) in X as [X|X]; [done..|]. by exists (pieces (B "c" ++ w)).
    - destruct O as (O1 & O2 & O3), EL as [N G']. destruct (write_chunk C h H s t q m' ck) as [s' r] eqn:E.
      apply write_chunk_effect in E as (W' & SE & _); [|done..]. split; [done|]. cbn [fst]. intros pos w PO T. apply SE. by apply (OT q m' pos).
    - destruct O as (O1 & O2 & O3), EL as [N G']. destruct (delete_chunk H s q m' pos') as [s' r] eqn:E.
      apply delete_chunk_effect in E as (W' & SE & _); [|done..]. split; [done|]. cbn [fst]. intros pos w PO T. apply SE. by apply (OT q m' pos).
    - destruct O as (O1 & O2 & O3), EL as [N G']. destruct (write_ndarray flit C h H s t q m' off arr) as [s' r] eqn:E.
      apply write_ndarray_frame in E as (W' & _ & F); [|done..]. split; [done|]. cbn [fst]. intros pos w PO T. apply F.
      intros pos' PO' _. by apply (OT q m' pos).
  Qed.
End others.
Lemma history_elsewhere flit C h H t path m :
  plain (hy_base H) -> good_suffix (ep_suffix (hy_ep H)) -> plain path -> good_sep (am_sep m) ->
  lossless C (am_comp m) -> chunk_shape_ok m -> am_shape m <> [] ->
  forall fill, effective_fill flit t m = Ok fill -> elt_ok t fill ->
  forall s cs s', wf_fs s -> history_of flit C h H t path m s cs s' ->
  forall flit' C' h' o, api_plain o -> elsewhere path o ->
  history_of flit C h H t path m s cs (api_step flit' C' h' H s' o).
Proof.
  intros PB GF PP GS LC CK NE fill FE FO s cs s' W R flit' C' h' o O EL.
  pose proof (history_wf flit C h H t path m PB PP GS LC CK NE fill FE FO s cs s' W R) as W1.
  destruct (elsewhere_kept H PB GF flit' C' h' path m s' o GS W1 O EL) as [W' F]. by apply (history_else _ _ _ _ _ _ _ _ cs s').
Qed.

Lemma chunks_invisible flit C h H path m C' h' H' path' m' t fill :
  plain (hy_base H) -> plain path -> good_sep (am_sep m) -> lossless C (am_comp m) -> chunk_shape_ok m ->
  plain (hy_base H') -> plain path' -> good_sep (am_sep m') -> lossless C' (am_comp m') -> chunk_shape_ok m' ->
  same_to_users flit t m m' -> am_shape m <> [] -> effective_fill flit t m = Ok fill -> elt_ok t fill ->
  forall s s' cs r r' bb a a', wf_fs s -> wf_fs s' -> unwritten H s path m -> unwritten H' s' path' m' -> regions_only cs ->
  history_of flit C h H t path m s cs r -> history_of flit C' h' H' t path' m' s' cs r' ->
  bounded_ok (am_shape m) (am_chunk_shape m) (bb_off bb) (bb_shape bb) ->
  bounded_ok (am_shape m') (am_chunk_shape m') (bb_off bb) (bb_shape bb) ->
  read_ndarray flit C h H r t path m bb = Ok a -> read_ndarray flit C' h' H' r' t path' m' bb = Ok a' ->
  nd_shape a = nd_shape a'
  /\ forall i, index_of (bb_shape bb) i -> index_of (am_shape m) (zip_with Z.add (bb_off bb) i) -> nd_at a i = nd_at a' i.
Proof.
  intros PB PP GS LC CK PB' PP' GS' LC' CK' (ES & EF) NE FE FO s s' cs r r' bb a a' W W' NC NC' RO R R' BO BO' E E'.
  destruct (history_read flit C h H t path m PB PP GS LC CK NE fill FE FO bb s cs r a W NC R BO E) as [S V].
  assert (NE' : am_shape m' <> []) by congruence. assert (FE' : effective_fill flit t m' = Ok fill) by congruence.
  destruct (history_read flit C' h' H' t path' m' PB' PP' GS' LC' CK' NE' fill FE' FO bb s' cs r' a' W' NC' R' BO' E') as [S' V'].
  split; [congruence|]. intros i I X. eapply last_written_unique; [by apply V|].
  apply (last_written_regions m'); [done|]. apply V'; [done|]. by rewrite <- ES.
Qed.
