(** Proofs about region operations on boxes whose far corner is not a u64. *)
From Verif Require Import Nd Spec SpecOver BaseFacts CoordIterFacts NdFacts.
Local Open Scope Z_scope.

(** ** Debug builds *)

Lemma zip_overflow_debug shape off oshape ooff i o e :
  length off = length shape -> length oshape = length shape -> length ooff = length shape ->
  ooff !! i = Some o -> oshape !! i = Some e -> two64 <= o + e ->
  forall r, zip_dims (intersect_dim Debug) shape off oshape ooff <> Ok r.
Proof.
  revert off oshape ooff i.
  induction shape as [|s shape IH]; intros [|o0 off] [|os oshape] [|oo ooff] i L1 L2 L3 Ho He Hs r E;
    try discriminate.
  cbn [zip_dims] in E. apply bind_ok_inv in E as ([o1 s1] & E1 & E).
  destruct i as [|i]; cbn in Ho, He.
  - injection Ho as ->. injection He as ->. unfold intersect_dim in E1.
    apply bind_ok_inv in E1 as (e1 & _ & E1). apply bind_ok_inv in E1 as (e2 & E2 & _).
    unfold add64, chk64 in E2.
    destruct (Z.ltb_spec (o + e) two64) as [Hlt|_]; [lia|].
    rewrite andb_false_r in E2. discriminate.
  - apply bind_ok_inv in E as ([ro rs] & E2 & _).
    cbn [length] in L1, L2, L3. injection L1 as L1. injection L2 as L2. injection L3 as L3.
    exact (IH _ _ _ _ L1 L2 L3 Ho He Hs _ E2).
Qed.
Lemma coords_overflow_debug m bb :
  length (bb_off bb) = length (am_shape m) -> length (bb_shape bb) = length (am_shape m) ->
  overflows (bb_off bb) (bb_shape bb) -> forall l, bounded_coords Debug m bb <> Ok l.
Proof.
  intros L1 L2 (i & o & e & Ho & He & Hs) l E. unfold bounded_coords in E.
  apply bind_ok_inv in E as ([f c] & E & _). unfold bounded_ranges in E.
  apply bind_ok_inv in E as (b & E & _). unfold intersect in E.
  apply bind_ok_inv in E as (? & _ & E). apply bind_ok_inv in E as ([ro rs] & E & _).
  cbn [get_bounds bb_shape bb_off] in E.
  eapply zip_overflow_debug; [..|exact E]; eauto. apply replicate_length.
Qed.

Lemma overflow_read_debug flit C h H s t path m bb :
  h_prof h = Debug -> overflows (bb_off bb) (bb_shape bb) ->
  forall a, read_ndarray flit C h H s t path m bb <> Ok a.
Proof.
  intros P O a E. unfold read_ndarray in E.
  apply bind_ok_inv in E as (fill & _ & E). apply bind_ok_inv in E as (arr & Ea & E).
  unfold from_elem in Ea. apply bind_ok_inv in Ea as (? & _ & [= <-]).
  unfold read_ndarray_into in E. apply bind_ok_inv in E as ([a' b'] & E & _).
  unfold read_ndarray_into_with_buffer in E. cbn [nd_shape] in E.
  destruct (bool_decide (length (bb_off bb) = ndim m)) eqn:L1; [|discriminate].
  destruct (bool_decide (ndim m = length (bb_shape bb))) eqn:L2; [|discriminate].
  cbn [negb orb] in E. apply bool_decide_eq_true_1 in L1, L2.
  rewrite bool_decide_eq_true_2 in E by done. cbn [negb] in E.
  apply bind_ok_inv in E as (l & E & _). rewrite P in E.
  eapply coords_overflow_debug; [..|exact E]; done.
Qed.

Lemma overflow_write_debug flit C h H s t path m off arr :
  h_prof h = Debug -> length off = length (am_shape m) -> overflows off (nd_shape arr) ->
  fst (write_ndarray flit C h H s t path m off arr) = s
  /\ snd (write_ndarray flit C h H s t path m off arr) <> Ok tt.
Proof.
  intros P L O. unfold write_ndarray.
  destruct (bool_decide (length (nd_shape arr) = ndim m)) eqn:L1; [|split; done].
  apply bool_decide_eq_true_1 in L1. cbn [negb].
  destruct (effective_fill flit t m) as [fill| |]; cbn [on]; [|split; done..].
  destruct (bounded_coords (h_prof h) m (BBox off (nd_shape arr))) as [l| |] eqn:E;
    cbn [on]; [|split; done..].
  exfalso. rewrite P in E. eapply coords_overflow_debug; [..|exact E]; done.
Qed.

(** ** Release builds *)

Lemma zip_overflow_release shape off oshape ooff i o e ro rs :
  length off = length shape -> length oshape = length shape -> length ooff = length shape ->
  Forall is_u64 shape ->
  off !! i = Some o -> shape !! i = Some e -> two64 <= o + e ->
  0 <= o < two64 ->
  zip_dims (intersect_dim Release) shape off oshape ooff = Ok (ro, rs) -> rs !! i = Some 0.
Proof.
  revert off oshape ooff i ro rs.
  induction shape as [|s shape IH]; intros [|o0 off] [|os oshape] [|oo ooff] i ro rs L1 L2 L3 U Ho He Hs Hr E;
    try discriminate.
  cbn [zip_dims] in E. apply bind_ok_inv in E as ([o1 s1] & E1 & E).
  apply bind_ok_inv in E as ([ro' rs'] & E2 & E). injection E as <- <-.
  inversion U as [|? ? U1 U2]; subst.
  destruct i as [|i]; cbn in Ho, He |- *.
  - injection Ho as ->. injection He as ->. unfold intersect_dim in E1.
    apply bind_ok_inv in E1 as (e1 & A1 & E1). apply bind_ok_inv in E1 as (e2 & _ & E1).
    injection E1 as <- <-. unfold add64, chk64 in A1. unfold is_u64 in U1.
    destruct (Z.ltb_spec (e + o) two64) as [Hlt|_]; [lia|]. rewrite andb_false_r in A1.
    injection A1 as <-.
    assert ((e + o) mod two64 = e + o - two64) as ->.
    { symmetry. apply (Z.mod_unique_pos _ _ 1); lia. }
    unfold sat_sub. f_equal. lia.
  - cbn [length] in L1, L2, L3. injection L1 as L1. injection L2 as L2. injection L3 as L3.
    exact (IH _ _ _ _ _ _ L1 L2 L3 U2 Ho He Hs Hr E2).
Qed.

Lemma mapM_res_length {A X} (f : A -> res X) l r : mapM_res f l = Ok r -> length r = length l.
Proof.
  revert r. induction l as [|a l IH]; cbn [mapM_res]; intros r E; [by injection E as <-|].
  apply bind_ok_inv in E as (b & _ & E). apply bind_ok_inv in E as (bs & E1 & E).
  injection E as <-. cbn. by rewrite (IH bs).
Qed.
Lemma in_ranges_length r x : in_ranges r x -> length x = length r.
Proof. unfold in_ranges. intros F. symmetry. by eapply Forall2_length. Qed.

Lemma zip_dims_length f shape off oshape ooff ro rs :
  length off = length shape -> length oshape = length shape -> length ooff = length shape ->
  zip_dims f shape off oshape ooff = Ok (ro, rs) ->
  length ro = length shape /\ length rs = length shape.
Proof.
  revert off oshape ooff ro rs.
  induction shape as [|s shape IH]; intros [|o0 off] [|os oshape] [|oo ooff] ro rs L1 L2 L3 E;
    try discriminate; cbn [zip_dims] in E.
  - by injection E as <- <-.
  - apply bind_ok_inv in E as ([o1 s1] & _ & E).
    apply bind_ok_inv in E as ([ro' rs'] & E2 & E). injection E as <- <-.
    cbn [length] in L1, L2, L3. injection L1 as L1. injection L2 as L2. injection L3 as L3.
    destruct (IH _ _ _ _ _ L1 L2 L3 E2). cbn. lia.
Qed.

Lemma coords_length p m bb l c :
  length (bb_off bb) = length (am_shape m) -> length (bb_shape bb) = length (am_shape m) ->
  length (am_chunk_shape m) = length (am_shape m) ->
  bounded_coords p m bb = Ok l -> c ∈ l -> length c = length (am_shape m).
Proof.
  intros L1 L2 L3 E Hc. unfold bounded_coords in E.
  apply bind_ok_inv in E as ([f e] & E & E1). apply bind_ok_inv in E1 as (? & _ & E1).
  injection E1 as <-. unfold bounded_ranges in E.
  apply bind_ok_inv in E as (b & Eb & E). apply bind_ok_inv in E as (f' & Ef & E).
  apply bind_ok_inv in E as (e' & Ee & E). injection E as <- <-.
  unfold intersect in Eb. apply bind_ok_inv in Eb as (? & _ & Eb).
  apply bind_ok_inv in Eb as ([ro rs] & Eb & [= <-]). cbn [bb_off bb_shape] in *.
  apply zip_dims_length in Eb as [Lo Ls]; [|cbn [get_bounds bb_shape bb_off]; rewrite ?replicate_length; done..].
  cbn [get_bounds bb_shape] in Lo, Ls.
  apply mapM_res_length in Ef, Ee. rewrite !zip_with_length in Ef. rewrite !zip_with_length in Ee.
  assert (c ∈ box_coords (zip f' e')) as Hb.
  { destruct (zip f' e') as [|z r] eqn:Z; [|done]. cbn in Hc. by apply elem_of_nil in Hc. }
  apply elem_of_box_coords, in_ranges_length in Hb. rewrite zip_with_length in Hb. lia.
Qed.

Lemma read_chunk_pos C h H s t path m pos ck :
  read_chunk C h H s t path m pos = Ok (Some ck) -> ck_pos ck = pos.
Proof.
  intros E. unfold read_chunk in E.
  apply bind_ok_inv in E as (b & _ & E). apply bind_ok_inv in E as (? & _ & E).
  apply bind_ok_inv in E as ([content|] & _ & E); [|done].
  apply bind_ok_inv in E as (c & Hc & [= <-]). unfold decode_chunk in Hc.
  repeat (apply bind_ok_inv in Hc as (? & _ & Hc)). by injection Hc as <-.
Qed.

Section release.
Context (C : codec) (h : host) (H : hier) (s : fs) (t : rty) (path : bytes) (m : array_meta) (bb : bbox).
Hypothesis P : h_prof h = Release.
Hypothesis L1 : length (bb_off bb) = length (am_shape m).
Hypothesis L2 : length (bb_shape bb) = length (am_shape m).
Hypothesis L3 : length (am_chunk_shape m) = length (am_shape m).
Hypothesis U1 : Forall is_u64 (bb_off bb).
Hypothesis U2 : Forall is_u64 (bb_shape bb).
Hypothesis O : overflows (bb_off bb) (bb_shape bb).

Lemma overflow_step arr buf c arr' buf' : length c = length (am_shape m) ->
  read_step C h H s t path m bb (arr, buf) c = Ok (arr', buf') -> arr' = arr.
Proof.
  intros Lc E. unfold read_step in E. cbv zeta in E. rewrite read_any in E.
  apply bind_ok_inv in E as ([ck|] & Er & E); [|by injection E as <- _].
  apply read_chunk_pos in Er. apply bind_ok_inv in E as (cb & Ec & E).
  apply bind_ok_inv in E as (rb & Ei & E).
  assert (is_empty rb = true) as Hemp.
  { destruct O as (i & o & e & Ho & He & Hs).
    unfold chunk_get_bounds, chunk_bounds in Ec. rewrite Er in Ec.
    apply bind_ok_inv in Ec as (off & Eo & [= <-]). apply mapM_res_length in Eo.
    rewrite zip_with_length in Eo.
    unfold intersect in Ei. apply bind_ok_inv in Ei as (? & _ & Ei).
    apply bind_ok_inv in Ei as ([ro rs] & Ei & [= <-]). cbn [bb_shape bb_off] in Ei.
    rewrite P in Ei.
    assert (0 <= o < two64) as Hou by (exact (proj1 (list.Forall_lookup _ _) U1 _ _ Ho)).
    eapply zip_overflow_release in Ei; [|lia..|done|exact Ho|exact He|done|done].
    unfold is_empty. cbn [bb_shape]. apply existsb_exists. exists 0. split; [|done].
    apply elem_of_list_In. by eapply elem_of_list_lookup_2. }
  rewrite Hemp in E. by injection E as <- _.
Qed.
Lemma overflow_fold l arr buf arr' buf' : (forall c, c ∈ l -> length c = length (am_shape m)) ->
  foldM_res (read_step C h H s t path m bb) l (arr, buf) = Ok (arr', buf') -> arr' = arr.
Proof.
  revert arr buf. induction l as [|c l IH]; intros arr buf Hl E; cbn [foldM_res] in E.
  - by injection E as <- _.
  - apply bind_ok_inv in E as ([a1 b1] & E1 & E).
    apply overflow_step in E1 as ->; [|apply Hl; left]. eapply IH; [|exact E].
    intros c' Hc'. apply Hl. by right.
Qed.
Lemma overflow_into arr buf arr' buf' :
  read_ndarray_into_with_buffer C h H s t path m bb arr buf = Ok (arr', buf') -> arr' = arr.
Proof.
  unfold read_ndarray_into_with_buffer. destruct (_ || _); [done|]. destruct (negb _); [done|].
  intros E. apply bind_ok_inv in E as (l & El & E). eapply overflow_fold; [|exact E].
  intros c Hc. by eapply coords_length.
Qed.
End release.

Lemma overflow_read_release flit C h H s t path m bb :
  h_prof h = Release -> length (am_chunk_shape m) = length (am_shape m) ->
  Forall is_u64 (bb_off bb) -> Forall is_u64 (bb_shape bb) ->
  overflows (bb_off bb) (bb_shape bb) ->
  forall a, read_ndarray flit C h H s t path m bb = Ok a ->
  exists fill, effective_fill flit t m = Ok fill /\ forall i, nd_at a i = fill.
Proof.
  intros P L3 U1 U2 O a E. unfold read_ndarray in E.
  apply bind_ok_inv in E as (fill & Ef & E). apply bind_ok_inv in E as (arr & Ea & E).
  unfold from_elem in Ea. apply bind_ok_inv in Ea as (? & _ & [= <-]).
  exists fill. split; [done|]. unfold read_ndarray_into in E.
  apply bind_ok_inv in E as ([a' b'] & E & [= <-]).
  assert (length (bb_off bb) = length (am_shape m) /\ length (bb_shape bb) = length (am_shape m)) as [L1 L2].
  { unfold read_ndarray_into_with_buffer in E. cbn [nd_shape] in E.
    destruct (bool_decide (length (bb_off bb) = ndim m)) eqn:B1; [|discriminate].
    destruct (bool_decide (ndim m = length (bb_shape bb))) eqn:B2; [|discriminate].
    apply bool_decide_eq_true_1 in B1, B2. done. }
  apply overflow_into in E as ->; done.
Qed.
