(** Reading a region and writing it somewhere (C81). *)
From Verif Require Import Nd Hier Spec SpecHier SpecPlace SpecVox BaseFacts PathFacts FSFacts KeyFacts HierFacts ChunkFacts BBoxFacts CoordIterFacts NdFacts
  NdWrite NdSafe StoreFacts PlaceFacts FilesFacts VoxFacts.
Local Open Scope Z_scope.

Lemma in_box_unshift off shape x : in_box off shape x ->
  index_of shape (zip_with Z.sub x off) /\ zip_with Z.add off (zip_with Z.sub x off) = x.
Proof.
  unfold index_of, in_box. rewrite replicate_length, zip_with_length. intros (L1 & L2 & B). split.
  - split; [lia|]. split; [lia|]. intros k y o s E1 E2 E3.
    apply lookup_replicate in E2 as [-> _]. apply lookup_zip_with_Some in E1 as (u & v & -> & Eu & Ev).
    pose proof (B k u v s Eu Ev E3). lia.
  - clear B L2. revert off L1. induction x as [|z x IH]; intros [|o off] L; try done. cbn. f_equal; [lia|]. apply IH. cbn in L. lia.
Qed.

(** What is read is of the element type. *)
Lemma read_elts flit C h H s t path m bb a : bok m bb -> chunk_shape_ok m -> am_shape m <> [] ->
  (forall fill, effective_fill flit t m = Ok fill -> elt_ok t fill) ->
  read_ndarray flit C h H s t path m bb = Ok a ->
  forall i, index_of (bb_shape bb) i -> elt_ok t (nd_at a i).
Proof.
  intros BO CK NE FO E i I. destruct (read_region _ _ _ _ _ _ _ _ _ _ BO CK NE E) as (fill & FE & _ & V).
  destruct (V i I) as [_ [->|X]]; [by apply FO|]. unfold voxel in X.
  apply bind_ok_inv in X as ([ck|] & RC & X); [|injection X as <-; by apply FO].
  apply read_chunk_inv in RC as (_ & _ & EO); [|done].
  destruct (ck_data ck !! _) as [v|] eqn:D; [|done]. cbn in X. injection X as <-.
  rewrite list.Forall_lookup in EO. by eapply EO.
Qed.

Section copy.
  Context (flit : rty -> bytes -> Z) (C : codec) (h : host) (H : hier) (t : rty).
  Hypothesis PB : plain (hy_base H).

  Lemma write_back path m : plain path -> good_sep (am_sep m) -> lossless C (am_comp m) -> chunk_shape_ok m -> am_shape m <> [] ->
    (forall fill, effective_fill flit t m = Ok fill -> elt_ok t fill) ->
    forall s bb a s', wf_fs s -> bok m bb -> fits_memory (bb_shape bb) ->
    read_ndarray flit C h H s t path m bb = Ok a ->
    write_ndarray flit C h H s t path m (bb_off bb) a = (s', Ok tt) ->
    forall bb' b b', bok m bb' ->
    read_ndarray flit C h H s t path m bb' = Ok b -> read_ndarray flit C h H s' t path m bb' = Ok b' ->
    forall i, index_of (bb_shape bb') i -> index_of (am_shape m) (zip_with Z.add (bb_off bb') i) -> nd_at b' i = nd_at b i.
  Proof.
    intros PP GS LC CK NE FO s bb a s' W BO FM R E bb' b b' BO' R1 R2 i I X.
    destruct (read_region _ _ _ _ _ _ _ _ _ _ BO CK NE R) as (fill & FE & S & V).
    destruct (read_region _ _ _ _ _ _ _ _ _ _ BO' CK NE R1) as (fill1 & FE1 & S1 & V1).
    destruct (read_region _ _ _ _ _ _ _ _ _ _ BO' CK NE R2) as (fill2 & FE2 & S2 & V2).
    assert (fill1 = fill) as -> by congruence. assert (fill2 = fill) as -> by congruence.
    assert (EA : forall i, index_of (nd_shape a) i -> elt_ok t (nd_at a i)).
    { intros j J. rewrite S in J. by apply (read_elts flit C h H s t path m bb a BO CK NE FO R). }
    assert (BO2 : bok m (BBox (bb_off bb) (nd_shape a))) by (rewrite S; by destruct bb).
    assert (FM2 : fits_memory (nd_shape a)) by (by rewrite S).
    destruct (write_region _ _ _ _ _ _ _ _ _ _ _ _ BO2 CK NE FM2 W PB PP GS LC FE (FO _ FE) EA E) as (_ & _ & _ & Q).
    assert (G : grid_voxel m (zip_with Z.add (bb_off bb') i)).
    { pose proof CK as [CP _]. apply index_grid; [done| |done]. pose proof (bok_length m bb' BO'). lia. }
    destruct (V1 i I) as [V1' _]. destruct (V2 i I) as [V2' _]. specialize (V1' G). specialize (V2' G).
    destruct (Q _ G) as [Q1 Q2]. destruct (in_box_or (bb_off bb) (nd_shape a) (zip_with Z.add (bb_off bb') i)) as [IB|IB].
    - specialize (Q1 IB). apply in_box_unshift in IB as [J EQ]. rewrite S in J.
      destruct (V _ J) as [V' _]. rewrite EQ in V'. specialize (V' G). congruence.
    - specialize (Q2 IB). congruence.
  Qed.

  Lemma copied path m path' m' : plain path -> plain path' -> good_sep (am_sep m) -> good_sep (am_sep m') -> lossless C (am_comp m') ->
    chunk_shape_ok m -> am_shape m <> [] -> chunk_shape_ok m' -> am_shape m' <> [] ->
    (forall fill, effective_fill flit t m = Ok fill -> elt_ok t fill) ->
    (forall fill, effective_fill flit t m' = Ok fill -> elt_ok t fill) ->
    forall s bb a off s', wf_fs s -> bok m bb -> bok m' (BBox off (bb_shape bb)) -> fits_memory (bb_shape bb) ->
    (forall x, in_box off (bb_shape bb) x -> index_of (am_shape m') x) ->
    read_ndarray flit C h H s t path m bb = Ok a ->
    write_ndarray flit C h H s t path' m' off a = (s', Ok tt) ->
    (forall b, read_ndarray flit C h H s' t path' m' (BBox off (bb_shape bb)) = Ok b ->
       nd_shape b = bb_shape bb /\ forall i, index_of (bb_shape bb) i -> nd_at b i = nd_at a i)
    /\ (pieces path' <> pieces path -> forall bb' b b', bok m bb' ->
        read_ndarray flit C h H s t path m bb' = Ok b -> read_ndarray flit C h H s' t path m bb' = Ok b' ->
        forall i, index_of (bb_shape bb') i -> index_of (am_shape m) (zip_with Z.add (bb_off bb') i) -> nd_at b' i = nd_at b i).
  Proof.
    intros PP PP' GS GS' LC CK NE CK' NE' FO FO' s bb a off s' W BO BO' FM IN R E.
    destruct (read_region _ _ _ _ _ _ _ _ _ _ BO CK NE R) as (fill & FE & S & V).
    assert (EA : forall i, index_of (nd_shape a) i -> elt_ok t (nd_at a i)).
    { intros j J. rewrite S in J. by apply (read_elts flit C h H s t path m bb a BO CK NE FO R). }
    rewrite <- S in BO', IN, FM |- *. split.
    - intros b RB. by eapply write_read_back.
    - intros N bb' b b' BB R1 R2 i I X.
      destruct (read_region _ _ _ _ _ _ _ _ _ _ BB CK NE R1) as (fill1 & FE1 & S1 & V1).
      destruct (read_region _ _ _ _ _ _ _ _ _ _ BB CK NE R2) as (fill2 & FE2 & S2 & V2).
      assert (fill2 = fill1) as -> by congruence.
      assert (G : grid_voxel m (zip_with Z.add (bb_off bb') i)).
      { pose proof CK as [CP _]. apply index_grid; [done| |done]. pose proof (bok_length m bb' BB). lia. }
      destruct (V1 i I) as [V1' _]. destruct (V2 i I) as [V2' _]. specialize (V1' G). specialize (V2' G).
      enough (voxel C h H s' t path m fill1 (zip_with Z.add (bb_off bb') i) = voxel C h H s t path m fill1 (zip_with Z.add (bb_off bb') i)) by congruence.
      set (x := zip_with Z.add (bb_off bb') i) in *.
      assert (PS : plain (am_sep m)) by apply GS. assert (PS' : plain (am_sep m')) by apply GS'.
      pose proof CK as [CP _]. pose proof (chunk_of_pos_ok m bb' x BB G) as PX.
      pose proof (chunk_of_in_bounds (h_prof h) m x (bok_grid_ok m bb' BB) CP G) as IB.
      destruct (OpsFacts.write_ndarray_frame _ _ _ _ _ _ _ _ _ _ _ _ BO' PB PP' PS' W E) as (W' & _ & F).
      unfold voxel. fold (chunk_of m x). unfold read_chunk. rewrite IB, !bind_ok. cbn [assert_]. rewrite !bind_ok.
      rewrite !st_get_plain by first [done|by apply plain_chunk_key]. rewrite F; [done|].
      intros pos PO _ L. apply loc_chunk_inj in L as [L _]; done.
  Qed.
End copy.
