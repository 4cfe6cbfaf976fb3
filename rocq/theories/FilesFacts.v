(** The voxels of arrays as numbers in files (C79). *)
From Verif Require Import Nd Hier GenHier Spec SpecHier SpecGenNd SpecPlace SpecFiles BaseFacts PathFacts FSFacts KeyFacts HierFacts ChunkFacts BBoxFacts CoordIterFacts NdFacts
  NdWrite NdSafe StoreFacts GenNdFacts PlaceFacts.
Local Open Scope Z_scope.

Lemma bytes_value_le e l : bytes_value e l = le_val (match e with Little => l | Big => rev l end).
Proof. rewrite <- be_value_rev. destruct e; cbn [bytes_value]; [by rewrite rev_involutive|done]. Qed.
Lemma to_signed_cong n z : 0 <= z < 2 ^ (8 * Z.of_nat n) -> (to_signed n z) mod 2 ^ (8 * Z.of_nat n) = z.
Proof.
  intros Z. unfold to_signed. destruct (_ <? _); [by apply Z.mod_small|].
  symmetry. apply (Z.mod_unique _ _ (-1)); lia.
Qed.
Lemma elt_val_stands e t l : length l = rty_size t -> stands_for e t l (elt_val e t l).
Proof.
  intros L. split; [by apply elt_val_ok|].
  assert (R : 0 <= bytes_value e l < 2 ^ (8 * Z.of_nat (rty_size t))).
  { rewrite bytes_value_le, pow256, <- L.
    replace (length l) with (length (match e with Little => l | Big => rev l end)) by (destruct e; by rewrite ?rev_length).
    apply le_val_range. }
  unfold encodes, elt_val. cbv zeta. rewrite <- bytes_value_le.
  destruct t; cbn [rty_signed]; (split; [done|]);
    first [ destruct (Z.eqb_spec (bytes_value e l) 0); split; lia
          | symmetry; by apply to_signed_cong
          | symmetry; by apply Z.mod_small ].
Qed.
Lemma stands_for_unique e t l v v' : stands_for e t l v -> stands_for e t l v' -> v = v'.
Proof.
  intros [O V] [O' V'].
  assert (G : forall a b, elt_ok t a -> elt_ok t b -> t <> RBool ->
    a mod 2 ^ (8 * Z.of_nat (rty_size t)) = b mod 2 ^ (8 * Z.of_nat (rty_size t)) -> a = b).
  { intros a b A B N E. rewrite <- (elt_val_bytes Little t a A), <- (elt_val_bytes Little t b B). f_equal.
    pose proof (elt_bytes_encodes Little t a) as X. pose proof (elt_bytes_encodes Little t b) as Y.
    eapply encodes_inj; [exact X|]. destruct Y as [Y1 Y2]. split; [done|]. congruence. }
  destruct t; try (apply G; [done|done|done|]; destruct V as [_ <-], V' as [_ <-]; done).
  destruct V as [_ V], V' as [_ V']. unfold elt_ok in O, O'. lia.
Qed.
Lemma decode_elts_at e t n : forall l k, (k < n)%nat ->
  decode_elts e t n l !! k = Some (elt_val e t (take (rty_size t) (drop (k * rty_size t) l))).
Proof.
  induction n as [|n IH]; intros l k K; [lia|]. cbn [decode_elts]. destruct k as [|k]; [done|]. cbn [lookup list_lookup].
  change (S k * rty_size t)%nat with (rty_size t + k * rty_size t)%nat. rewrite <- drop_drop. apply IH. lia.
Qed.
Lemma elt_val_order h d e t l : same_kind_width d t -> names_byte_order d e -> length l = rty_size t ->
  elt_val (dtype_endian h d) t l = elt_val e t l.
Proof.
  intros K N L. destruct d; cbn in N; subst; try done.
  - apply elt_val_endian_irrel. destruct K as [K1 K2]. destruct t; done.
  - destruct K as [K1 K2]. destruct t; done.
Qed.
Lemma index_in_chunk m x : Forall (fun s => 0 < s) (am_chunk_shape m) -> length x = length (am_chunk_shape m) ->
  zip_with Z.sub x (zip_with Z.mul (chunk_of m x) (am_chunk_shape m)) = zip_with Z.modulo x (am_chunk_shape m).
Proof.
  unfold chunk_of. generalize (am_chunk_shape m) as cs. clear. intros cs P. revert x.
  induction P as [|c cs C P IH]; intros [|z x] L; [done..|]. cbn [zip_with]. f_equal; [|apply IH; cbn in L; lia].
  pose proof (Z.div_mod z c). lia.
Qed.

Lemma position_unique sep pos w : position_text sep pos w -> forall w', position_text sep pos w' -> w = w'.
Proof.
  induction 1 as [|z w D|z w y pos w1 D T IH]; intros w' T'; inversion T'; subst; [done|by eapply decimal_unique|].
  f_equal; [by eapply decimal_unique|]. f_equal. by apply IH.
Qed.
Lemma unpacked_unique C c content r r' : unpacked C c content r -> unpacked C c content r' -> r = r'.
Proof. destruct c; cbn [unpacked]; [congruence|..]; intros (s & E & <-) (s' & E' & <-); congruence. Qed.
Lemma unpacked_iff C c content raw : unpacked C c content raw <-> exists st, decode_with C c content = Ok st /\ st_bytes st = raw.
Proof. destruct c; cbn [unpacked decode_with]; try done. split; [intros ->; by eexists|by intros (st & [= <-] & <-)]. Qed.
Lemma decode_eq C h t m d content pos : effective m d -> same_kind_width d t -> chunk_shape_ok m ->
  decode_chunk C h t m content pos =
  st ← decode_with C (am_comp m) content;
  if lenZ (st_bytes st) <? prodZ (am_chunk_shape m) * Z.of_nat (rty_size t) then Err (eof_error st)
  else Ok (Chunk pos (decode_elts (dtype_endian h d) t (Z.to_nat (prodZ (am_chunk_shape m))) (st_bytes st))).
Proof.
  intros He Hk Hs. unfold decode_chunk.
  rewrite (check_type_ok h m d t He Hk), bind_ok, chunk_num_ok, bind_ok by done.
  destruct (decode_with _ _ _) as [st| |]; [|done..]. rewrite !bind_ok, (meta_endian_ok h m d He), bind_ok.
  pose proof (chunk_shape_prod_pos m Hs). destruct Hs as [_ Hs].
  rewrite as_u32_small by lia. rewrite read_data_spec, replicate_length. unfold lenZ.
  destruct (_ <=? _)%nat eqn:E1, (_ <? _) eqn:E2; try done; exfalso; nia.
Qed.
Lemma files_unique C H s path m e t fill x v v' : Forall (fun s => 0 < s) (am_chunk_shape m) ->
  voxel_in_files C H s path m e t fill x v -> voxel_in_files C H s path m e t fill x v' -> v = v'.
Proof.
  intros CP (p1 & w1 & I1 & T1 & V1) (p2 & w2 & I2 & T2 & V2).
  destruct (in_chunk_of m p1 x CP I1) as [<- _], (in_chunk_of m p2 x CP I2) as [<- _].
  rewrite (position_unique _ _ _ T1 _ T2) in V1.
  destruct (file_at s _); [|congruence].
  destruct V1 as (r1 & U1 & V1), V2 as (r2 & U2 & V2). rewrite (unpacked_unique _ _ _ _ _ U1 U2) in V1.
  by eapply stands_for_unique.
Qed.

Section files.
  Context (C : codec) (h : host) (H : hier) (t : rty) (path : bytes) (m : array_meta) (d : data_type) (e : endian).
  Hypothesis PB : plain (hy_base H).
  Hypothesis PP : plain path.
  Hypothesis PS : plain (am_sep m).
  Hypothesis EF : effective m d.
  Hypothesis KW : same_kind_width d t.
  Hypothesis NB : names_byte_order d e.
  Hypothesis CK : chunk_shape_ok m.

  Lemma mod_index x : length x = length (am_chunk_shape m) ->
    0 <= layout_rank (am_order m) (am_chunk_shape m) (zip_with Z.modulo x (am_chunk_shape m)) < prodZ (am_chunk_shape m).
  Proof.
    intros L. apply layout_rank_range. destruct CK as [P _]. unfold inb. revert x L.
    induction P as [|c cs P1 P IH]; intros [|z x] L; try done; cbn [zip_with]; constructor.
    - apply Z.mod_pos_bound. done.
    - apply IH. cbn in L. lia.
  Qed.
  Lemma voxel_files s bb fill x v : wf_fs s -> bok m bb -> grid_voxel m x ->
    voxel C h H s t path m fill x = Ok v -> voxel_in_files C H s path m e t fill x v.
  Proof.
    intros W BO G E. pose proof (chunk_of_pos_ok m bb x BO G) as PO. pose proof CK as [CP _].
    pose proof (chunk_of_in_bounds (h_prof h) m x (bok_grid_ok m bb BO) CP G) as IB.
    assert (L : length x = length (am_chunk_shape m)) by (destruct G as (pos & Hc & _); by apply (in_chunk_of m pos x CP Hc)).
    destruct (one_position_text (am_sep m) _ PO) as (w & T & _).
    exists (chunk_of m x), w. split; [by apply chunk_of_covers|]. split; [done|].
    rewrite (index_in_chunk m x CP L).
    unfold voxel in E. fold (chunk_of m x) in E. rewrite (chunk_read H s path W PB PP C h t m _ w PS PO T IB) in E.
    destruct (file_at s (chunk_file H path w)) as [content|]; [|by injection E].
    rewrite (decode_eq C h t m d) in E by done. destruct (decode_with C (am_comp m) content) as [st| |] eqn:DW; [|done..].
    rewrite bind_ok in E. exists (st_bytes st). split; [apply unpacked_iff; by eexists|].
    destruct (_ <? _) eqn:LT; [done|]. rewrite !bind_ok in E.
    cbn [ck_data] in E. pose proof (mod_index x L) as K. apply Z.ltb_ge in LT. unfold lenZ in LT.
    rewrite decode_elts_at in E by lia. injection E as <-.
    assert (LL : length (take (rty_size t) (drop (Z.to_nat (layout_rank (am_order m) (am_chunk_shape m)
        (zip_with Z.modulo x (am_chunk_shape m))) * rty_size t) (st_bytes st))) = rty_size t).
    { rewrite take_length, drop_length. revert K LT. generalize (layout_rank (am_order m) (am_chunk_shape m)
        (zip_with Z.modulo x (am_chunk_shape m))) as k, (prodZ (am_chunk_shape m)) as n. intros k n K LT. nia. }
    rewrite (elt_val_order h d e t) by done. by apply elt_val_stands.
  Qed.
  Lemma whole_readable s pos : wf_fs s -> pos_ok pos -> in_bounds (h_prof h) m pos = Ok true ->
    whole_file C H s path m t pos -> exists o, read_chunk C h H s t path m pos = Ok o.
  Proof.
    intros W PO IB WF. destruct (one_position_text (am_sep m) _ PO) as (w & T & _).
    rewrite (chunk_read H s path W PB PP C h t m _ w PS PO T IB).
    destruct (file_at s (chunk_file H path w)) as [content|] eqn:F; [|by eexists].
    destruct (WF w content T F) as (raw & U & L). apply unpacked_iff in U as (st & DW & <-).
    rewrite (decode_eq C h t m d) by done. rewrite DW, bind_ok. replace (_ <? _) with false by lia. rewrite bind_ok. by eexists.
  Qed.
  Lemma files_voxel s bb fill x v : wf_fs s -> bok m bb -> grid_voxel m x ->
    (forall pos, in_chunk (am_chunk_shape m) pos x -> whole_file C H s path m t pos) ->
    voxel_in_files C H s path m e t fill x v -> voxel C h H s t path m fill x = Ok v.
  Proof.
    intros W BO G WF V. pose proof (chunk_of_pos_ok m bb x BO G) as PO. pose proof CK as [CP _].
    pose proof (chunk_of_in_bounds (h_prof h) m x (bok_grid_ok m bb BO) CP G) as IB.
    assert (L : length x = length (am_chunk_shape m)) by (destruct G as (pos & Hc & _); by apply (in_chunk_of m pos x CP Hc)).
    destruct (whole_readable s _ W PO IB) as ([ck|] & E); [by apply WF, chunk_of_covers|..].
    - rewrite (voxel_some C h H s t path m fill x ck CK L E). f_equal.
      eapply files_unique; [exact CP| |exact V]. eapply voxel_files; [done..|]. by apply voxel_some.
    - rewrite (voxel_none C h H s t path m fill x E). f_equal.
      eapply files_unique; [exact CP| |exact V]. eapply voxel_files; [done..|]. by apply voxel_none.
  Qed.

  Lemma region_in_files flit s bb a : wf_fs s -> bok m bb -> am_shape m <> [] ->
    read_ndarray flit C h H s t path m bb = Ok a ->
    exists fill, effective_fill flit t m = Ok fill /\ nd_shape a = bb_shape bb
    /\ forall i, index_of (bb_shape bb) i -> grid_voxel m (zip_with Z.add (bb_off bb) i) ->
       voxel_in_files C H s path m e t fill (zip_with Z.add (bb_off bb) i) (nd_at a i).
  Proof.
    intros W BO NE E. destruct (read_region _ _ _ _ _ _ _ _ _ _ BO CK NE E) as (fill & EFF & S & V).
    exists fill. split; [done|]. split; [done|]. intros i I G. eapply voxel_files; [done..|]. by apply V.
  Qed.
  Lemma files_read_succeeds flit s bb fill : wf_fs s -> bok m bb -> overlaps m bb -> fits_memory (bb_shape bb) ->
    effective_fill flit t m = Ok fill -> (forall pos, pos_ok pos -> whole_file C H s path m t pos) ->
    exists a, read_ndarray flit C h H s t path m bb = Ok a.
  Proof.
    intros W BO OV FI FE WF. destruct (nd_filesystem H flit C h) as (_ & _ & R & _). rewrite <- R.
    eapply g_read_succeeds; [done..|]. intros pos PO IB. by apply whole_readable; [..|apply WF].
  Qed.
  Lemma files_written flit s off arr s' fill : wf_fs s -> bok m (BBox off (nd_shape arr)) -> am_shape m <> [] ->
    fits_memory (nd_shape arr) -> good_sep (am_sep m) -> lossless C (am_comp m) -> effective_fill flit t m = Ok fill -> elt_ok t fill ->
    (forall i, index_of (nd_shape arr) i -> elt_ok t (nd_at arr i)) ->
    write_ndarray flit C h H s t path m off arr = (s', Ok tt) ->
    (forall q, (forall pos w, pos_ok pos -> position_text (am_sep m) pos w -> q <> chunk_file H path w) -> file_at s' q = file_at s q)
    /\ forall x, grid_voxel m x ->
       (in_box off (nd_shape arr) x -> voxel_in_files C H s' path m e t fill x (nd_at arr (zip_with Z.sub x off)))
       /\ (~ in_box off (nd_shape arr) x ->
           (forall pos, in_chunk (am_chunk_shape m) pos x -> whole_file C H s path m t pos) ->
           forall v, voxel_in_files C H s path m e t fill x v -> voxel_in_files C H s' path m e t fill x v).
  Proof.
    intros W BO NE FI GS LC FE EO EA E.
    destruct (write_region _ _ _ _ _ _ _ _ _ _ _ _ BO CK NE FI W PB PP GS LC FE EO EA E) as (W' & _ & FR & V).
    split.
    - intros q Q. apply FR. intros pos PO. destruct (one_position_text (am_sep m) _ PO) as (w & T & _).
      rewrite (chunk_place H path m pos w PO T). by eapply Q.
    - intros x G. destruct (V x G) as [V1 V2]. split.
      + intros I. eapply voxel_files; [done..|]. by apply V1.
      + intros NI WF v VF. eapply voxel_files; [done..|]. rewrite V2 by done. by eapply files_voxel.
  Qed.
End files.
