(** Region writes that fail part-way (C83). *)
From Verif Require Import BaseFacts ChunkFacts BBoxFacts CoordIterFacts FSFacts HierFacts NdFacts NdWrite OpsFacts VoxFacts.
From Verif Require Import Spec Nd.
Local Open Scope Z_scope.

Section failing.
Context (C : codec) (h : host) (H : hier) (t : rty) (path : bytes) (m : array_meta) (bb : bbox).
Context (arr : nd) (fill : Z).
Hypothesis BO : bok m bb.
Hypothesis F1 : fits (bb_shape bb).
Hypothesis CK : chunk_shape_ok m.
Hypothesis SH : nd_shape arr = bb_shape bb.
Hypothesis PB : plain (hy_base H).
Hypothesis PP : plain path.
Hypothesis GS : good_sep (am_sep m).
Hypothesis LL : lossless C (am_comp m).
Hypothesis EF : elt_ok t fill.
Hypothesis EA : forall i, index_of (bb_shape bb) i -> elt_ok t (nd_at arr i).

Lemma wstep_other s buf pos s' r : wf_fs s -> pos_ok pos ->
  write_step C h H t path m arr bb fill s buf pos = (s', r) ->
  forall x, grid_voxel m x -> chunk_of m x <> pos ->
  voxel C h H s' t path m fill x = voxel C h H s t path m fill x.
Proof.
  intros W PO E x Hx N. apply write_step_frame in E as [->|(data & r' & E)]; [done|].
  destruct (write_chunk_effect C h H s t path m (Chunk pos data) s' r' W PB PP (proj2 (proj2 (proj2 GS))) PO E) as (W' & SE & _ & _).
  cbn [ck_pos] in SE. unfold voxel. fold (chunk_of m x).
  rewrite (frame_chunks C h H s s' path m pos); try done.
  - by eapply chunk_of_pos_ok.
  - congruence.
Qed.
Lemma wloop_failed coords s buf s' r : wf_fs s ->
  (forall pos, pos ∈ coords -> in_ranges (branges m bb) pos) ->
  write_loop C h H t path m arr bb fill coords s buf = (s', r) ->
  exists torn, forall x, grid_voxel m x -> chunk_of m x <> torn ->
    voxel C h H s' t path m fill x = voxel C h H s t path m fill x
    \/ (in_box (bb_off bb) (bb_shape bb) x /\ voxel C h H s' t path m fill x = Ok (nd_at arr (zip_with Z.sub x (bb_off bb)))).
Proof.
  revert s buf. induction coords as [|pos coords IH]; intros s buf W Hr E; cbn [write_loop] in E.
  { injection E as <- <-. exists []. by left. }
  assert (PO : pos_ok pos) by (eapply ranges_pos; [exact BO|apply Hr; left]).
  destruct (write_step _ _ _ _ _ _ _ _ _ _ _ _) as [s1 [buf1|e|]] eqn:E1; cbn [andthen] in E.
  2-3: injection E as <- <-; exists pos; intros x Hx N; left;
       exact (wstep_other _ _ _ _ _ W PO E1 x Hx N).
  destruct (wstep_voxel C h H t path m bb arr fill BO F1 CK SH PB PP GS LL EF EA s buf pos s1 buf1 W (Hr pos (elem_of_list_here _ _)) E1)
    as (_ & W1 & _ & _ & V1).
  destruct (IH s1 buf1 W1 (fun q Hq => Hr q (elem_of_list_further _ _ _ Hq)) E) as (torn & T).
  exists torn. intros x Hx N. destruct (V1 x Hx) as [A1 A2]. destruct (T x Hx N) as [T1|T1]; [|by right].
  rewrite T1. destruct (in_box_or (bb_off bb) (bb_shape bb) x) as [IB|IB].
  - destruct (decide (chunk_of m x = pos)) as [CO|CO]; [right; split; [done|]; by apply A1|left; apply A2; tauto].
  - left. apply A2. tauto.
Qed.

(** A chunk of the right type and length that the codec accepts is not stored
    only when nothing is. *)
Context (d : data_type).
Hypothesis ED : effective m d.
Hypothesis KW : same_kind_width d t.
Hypothesis TC : total_codec C (am_comp m).

Lemma full_write_failed s pos data s' r : wf_fs s -> pos_ok pos -> full_chunk m data ->
  write_chunk C h H s t path m (Chunk pos data) = (s', r) -> r <> Ok tt -> s' = s.
Proof.
  intros W PO FC E N.
  destruct (write_chunk_effect C h H s t path m (Chunk pos data) s' r W PB PP (proj2 (proj2 (proj2 GS))) PO E) as (_ & _ & _ & [(_ & _ & ->)|(_ & -> & _)]); [|done].
  exfalso. apply N. rewrite (encode_chunk_ok C h t m d data pos ED KW CK FC). apply TC.
Qed.
Lemma wstep_failed s buf pos s' r : wf_fs s -> in_ranges (branges m bb) pos ->
  write_step C h H t path m arr bb fill s buf pos = (s', r) -> (forall b, r <> Ok b) -> s' = s.
Proof.
  intros W Hr E N. assert (PO : pos_ok pos) by (eapply ranges_pos; [exact BO|exact Hr]).
  destruct (dims_of m bb pos BO F1 (chunk_fits m CK) Hr) as (D & OK & E1 & E2 & E3 & ->).
  assert (bb = BBox (map d_o D) (map d_e D)) as BE by (destruct bb; cbn in *; congruence).
  rewrite BE in E. rewrite E3 in SH.
  rewrite (write_step_eq C h H t path m D arr fill OK E1 CK SH) in E.
  destruct (w_covers D) eqn:HC.
  - assert (nd_shape (w_view D arr) = am_chunk_shape m) as VS.
    { cbn. rewrite E1. apply NdFacts.map_eq_iff. eapply list.Forall_impl; [by apply w_covers_len|].
      intros x [_ Q]. exact Q. }
    destruct (write_chunk _ _ _ _ _ _ _ _) as [s1 r1] eqn:EW.
    assert (s1 = s \/ r1 = Ok tt) as X.
    { destruct r1 as [[]|e|]; [by right|left|left]; (eapply full_write_failed; [exact W|exact PO| |exact EW|done]);
      (unfold full_chunk, lenZ; rewrite flatten_length; rewrite VS;
        [pose proof (chunk_shape_prod_pos m CK); lia|rewrite E1; eapply d_s_nonneg; exact OK]). }
    destruct X as [X|X]; [subst s1|subst r1].
    + destruct r1 as [[]|e|]; cbn [andthen] in E; by injection E.
    + cbn [andthen] in E. injection E as <- <-. exfalso. by eapply N.
  - destruct (read_chunk _ _ _ _ _ _ _ _) as [o|e|] eqn:R; cbn [on] in E; [|by injection E..].
    destruct (write_chunk _ _ _ _ _ _ _ _) as [s1 r1] eqn:EW.
    assert (s1 = s \/ r1 = Ok tt) as X.
    { destruct r1 as [[]|e|]; [by right|left|left]; (eapply full_write_failed; [exact W|exact PO| |exact EW|done]);
      (unfold full_chunk, lenZ; rewrite flatten_length; cbn [w_merged nd_shape];
        [pose proof (chunk_shape_prod_pos m CK); lia|rewrite E1; eapply d_s_nonneg; exact OK]). }
    destruct X as [X|X]; [subst s1|subst r1].
    + destruct r1 as [[]|e|]; cbn [andthen] in E; by injection E.
    + cbn [andthen] in E. injection E as <- <-. exfalso. by eapply N.
Qed.
Lemma wloop_undamaged coords s buf s' r : wf_fs s ->
  (forall pos, pos ∈ coords -> in_ranges (branges m bb) pos) ->
  write_loop C h H t path m arr bb fill coords s buf = (s', r) ->
  forall x, grid_voxel m x ->
    voxel C h H s' t path m fill x = voxel C h H s t path m fill x
    \/ (in_box (bb_off bb) (bb_shape bb) x /\ voxel C h H s' t path m fill x = Ok (nd_at arr (zip_with Z.sub x (bb_off bb)))).
Proof.
  revert s buf. induction coords as [|pos coords IH]; intros s buf W Hr E x Hx; cbn [write_loop] in E.
  { injection E as <- <-. by left. }
  destruct (write_step _ _ _ _ _ _ _ _ _ _ _ _) as [s1 [buf1|e|]] eqn:E1; cbn [andthen] in E.
  2-3: injection E as <- <-; left; apply wstep_failed in E1; [by rewrite E1|done|apply Hr; left|done].
  destruct (wstep_voxel C h H t path m bb arr fill BO F1 CK SH PB PP GS LL EF EA s buf pos s1 buf1 W (Hr pos (elem_of_list_here _ _)) E1)
    as (_ & W1 & _ & _ & V1).
  destruct (V1 x Hx) as [A1 A2].
  destruct (IH s1 buf1 W1 (fun q Hq => Hr q (elem_of_list_further _ _ _ Hq)) E x Hx) as [T1|T1]; [|by right].
  rewrite T1. destruct (in_box_or (bb_off bb) (bb_shape bb) x) as [IB|IB].
  - destruct (decide (chunk_of m x = pos)) as [CO|CO]; [right; split; [done|]; by apply A1|left; apply A2; tauto].
  - left. apply A2. tauto.
Qed.
End failing.

Lemma failed_region flit C h H s t path m off arr s' r fill :
  bounded_ok (am_shape m) (am_chunk_shape m) off (nd_shape arr) -> chunk_shape_ok m -> am_shape m <> [] -> fits_memory (nd_shape arr) ->
  wf_fs s -> plain (hy_base H) -> plain path -> good_sep (am_sep m) ->
  lossless C (am_comp m) -> effective_fill flit t m = Ok fill -> elt_ok t fill ->
  (forall i, index_of (nd_shape arr) i -> elt_ok t (nd_at arr i)) ->
  write_ndarray flit C h H s t path m off arr = (s', r) ->
  exists torn, forall x, grid_voxel m x -> zip_with Z.div x (am_chunk_shape m) <> torn ->
    voxel C h H s' t path m fill x = voxel C h H s t path m fill x
    \/ (in_box off (nd_shape arr) x /\ voxel C h H s' t path m fill x = Ok (nd_at arr (zip_with Z.sub x off))).
Proof.
  intros BO CK NE FI W PB PP GS LL FE EF EA E. set (bb := BBox off (nd_shape arr)).
  assert (B : bok m bb) by exact BO. unfold write_ndarray in E. fold bb in E.
  destruct (negb _); [injection E as <- <-; exists []; by left|]. cbv zeta in E. rewrite FE in E. cbn [on] in E.
  rewrite (bounded_coords_eq (h_prof h) m bb B) in E.
  destruct (mbind _ _) as [coords|e|] eqn:Ec in E; cbn [on] in E; [|injection E as <- <-; exists []; by left..].
  apply bind_ok_inv in Ec as (n & _ & [= <-]).
  assert (fits (bb_shape bb)) as F1.
  { apply fits_of_prod; [exact (bok_shape_nonneg m bb B)|exact FI]. }
  exact (wloop_failed C h H t path m bb arr fill B F1 CK eq_refl PB PP GS LL EF EA
    (product_items (branges m bb)) s [] s' r W (fun pos => visited_ranges m bb pos) E).
Qed.
Lemma undamaged_region flit C h H s t path m off arr s' r fill d :
  bounded_ok (am_shape m) (am_chunk_shape m) off (nd_shape arr) -> chunk_shape_ok m -> am_shape m <> [] -> fits_memory (nd_shape arr) ->
  wf_fs s -> plain (hy_base H) -> plain path -> good_sep (am_sep m) ->
  lossless C (am_comp m) -> total_codec C (am_comp m) -> effective m d -> same_kind_width d t -> effective_fill flit t m = Ok fill -> elt_ok t fill ->
  (forall i, index_of (nd_shape arr) i -> elt_ok t (nd_at arr i)) ->
  write_ndarray flit C h H s t path m off arr = (s', r) ->
  forall x, grid_voxel m x ->
    voxel C h H s' t path m fill x = voxel C h H s t path m fill x
    \/ (in_box off (nd_shape arr) x /\ voxel C h H s' t path m fill x = Ok (nd_at arr (zip_with Z.sub x off))).
Proof.
  intros BO CK NE FI W PB PP GS LL TC ED KW FE EF EA E. set (bb := BBox off (nd_shape arr)).
  assert (B : bok m bb) by exact BO. unfold write_ndarray in E. fold bb in E.
  destruct (negb _); [injection E as <- <-; by left|]. cbv zeta in E. rewrite FE in E. cbn [on] in E.
  rewrite (bounded_coords_eq (h_prof h) m bb B) in E.
  destruct (mbind _ _) as [coords|e|] eqn:Ec in E; cbn [on] in E; [|injection E as <- <-; by left..].
  apply bind_ok_inv in Ec as (n & _ & [= <-]).
  assert (fits (bb_shape bb)) as F1.
  { apply fits_of_prod; [exact (bok_shape_nonneg m bb B)|exact FI]. }
  exact (wloop_undamaged C h H t path m bb arr fill B F1 CK eq_refl PB PP GS LL EF EA d ED KW TC
    (product_items (branges m bb)) s [] s' r W (fun pos => visited_ranges m bb pos) E).
Qed.

(** The same, as seen by region reads. *)
Lemma undamaged_reads flit C h H s t path m off arr s' r d :
  bounded_ok (am_shape m) (am_chunk_shape m) off (nd_shape arr) -> chunk_shape_ok m -> am_shape m <> [] -> fits_memory (nd_shape arr) ->
  wf_fs s -> plain (hy_base H) -> plain path -> good_sep (am_sep m) ->
  lossless C (am_comp m) -> total_codec C (am_comp m) -> effective m d -> same_kind_width d t ->
  (forall fill, effective_fill flit t m = Ok fill -> elt_ok t fill) ->
  (forall i, index_of (nd_shape arr) i -> elt_ok t (nd_at arr i)) ->
  write_ndarray flit C h H s t path m off arr = (s', r) ->
  forall bb b b', bounded_ok (am_shape m) (am_chunk_shape m) (bb_off bb) (bb_shape bb) ->
  read_ndarray flit C h H s t path m bb = Ok b -> read_ndarray flit C h H s' t path m bb = Ok b' ->
  forall i, index_of (bb_shape bb) i -> let x := zip_with Z.add (bb_off bb) i in index_of (am_shape m) x ->
    nd_at b' i = nd_at b i \/ (in_box off (nd_shape arr) x /\ nd_at b' i = nd_at arr (zip_with Z.sub x off)).
Proof.
  intros BO CK NE FM W PB PP GS LL TC ED KW FO EA E bb b b' BO' R1 R2 i I x X.
  destruct (read_region _ _ _ _ _ _ _ _ _ _ BO' CK NE R1) as (fill & FE1 & S1 & V1).
  destruct (read_region _ _ _ _ _ _ _ _ _ _ BO' CK NE R2) as (fill2 & FE2 & S2 & V2).
  assert (fill2 = fill) as -> by congruence.
  assert (G : grid_voxel m x).
  { pose proof CK as [CP _]. apply index_grid; [done| |done]. pose proof (bok_length m bb BO'). lia. }
  destruct (V1 i I) as [V1' _]. destruct (V2 i I) as [V2' _]. specialize (V1' G). specialize (V2' G).
  destruct (undamaged_region flit C h H s t path m off arr s' r fill d BO CK NE FM W PB PP GS LL TC ED KW FE1 (FO _ FE1) EA E x G) as [Q|[Q1 Q]].
  - left. unfold x in Q. congruence.
  - right. split; [done|]. unfold x in *. congruence.
Qed.
