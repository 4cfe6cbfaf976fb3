(** Proofs about regions that end less than one chunk extent before 2^64. *)
From Verif Require Import Nd Spec SpecOver BaseFacts CoordIterFacts NdFacts OverflowFacts.
Local Open Scope Z_scope.

Lemma zip_dims_at p shape ooff oshape i d o e ro rs :
  shape !! i = Some d -> ooff !! i = Some o -> oshape !! i = Some e ->
  0 <= d < two64 -> 0 <= o -> 0 <= e -> o + e < two64 ->
  zip_dims (intersect_dim p) shape (replicate (length shape) 0) oshape ooff = Ok (ro, rs) ->
  ro !! i = Some o /\ rs !! i = Some (Z.max 0 (Z.min d (o + e) - o)).
Proof.
  intros E1 E2 E3 D O E X Z. revert shape ooff oshape ro rs E1 E2 E3 Z.
  induction i as [|i IH]; intros [|d0 shape] [|o0 ooff] [|e0 oshape] ro rs E1 E2 E3 Z; try discriminate;
    cbn [length replicate zip_dims] in Z; apply bind_ok_inv in Z as ([o1 s1] & Z1 & Z);
    apply bind_ok_inv in Z as ([ro' rs'] & Z2 & Z); injection Z as <- <-.
  - cbn in E1, E2, E3. injection E1 as ->. injection E2 as ->. injection E3 as ->.
    unfold intersect_dim in Z1.
    apply bind_ok_inv in Z1 as (e1 & Q1 & Z1). apply bind_ok_inv in Z1 as (e2 & Q2 & Z1).
    rewrite add64_ok in Q1, Q2 by (unfold is_u64; lia). injection Q1 as <-. injection Q2 as <-. injection Z1 as <- <-.
    cbn. unfold sat_sub. split; f_equal; lia.
  - cbn in E1, E2, E3 |- *. by eapply IH.
Qed.

(** The ceiling coordinate in that dimension. *)
Lemma ceil_at p m bb i d s o e f c : length (bb_off bb) = length (am_shape m) ->
  am_shape m !! i = Some d -> am_chunk_shape m !! i = Some s -> bb_off bb !! i = Some o -> bb_shape bb !! i = Some e ->
  0 <= d < two64 -> 0 <= o -> 0 <= e -> o + e < two64 ->
  bounded_ranges p m bb = Ok (f, c) ->
  exists x y, f !! i = Some x /\ c !! i = Some y /\ x = o / s /\
    (a ← add64 p (Z.max o (Z.min d (o + e))) s; b ← sub64 p a 1; div64 b s) = Ok y.
Proof.
  intros L E1 E2 E3 E4 D O E X R. unfold bounded_ranges in R.
  apply bind_ok_inv in R as (b & Rb & R). apply bind_ok_inv in R as (f' & Rf & R).
  apply bind_ok_inv in R as (c' & Rc & R). injection R as <- <-.
  unfold intersect in Rb. apply bind_ok_inv in Rb as (u0 & _ & Rb).
  apply bind_ok_inv in Rb as ([ro rs] & Rb & [= <-]). cbn [get_bounds bb_shape bb_off] in *.
  destruct (zip_dims_at p _ _ _ i d o e ro rs E1 E3 E4 D O E X Rb) as [Ro Rs].
  apply mapM_res_inv in Rf, Rc.
  assert (Zf : zip ro (am_chunk_shape m) !! i = Some (o, s)) by by rewrite lookup_zip_with, Ro, E2.
  assert (Zc : zip (zip ro rs) (am_chunk_shape m) !! i = Some (o, Z.max 0 (Z.min d (o + e) - o), s))
    by by rewrite lookup_zip_with, lookup_zip_with, Ro, Rs, E2.
  destruct (Forall2_lookup_l _ _ _ _ _ Rf Zf) as (x & Ex & Fx).
  destruct (Forall2_lookup_l _ _ _ _ _ Rc Zc) as (y & Ey & Fy). cbn in Fx, Fy.
  exists x, y. split; [done|]. split; [done|]. split.
  { unfold div64 in Fx. destruct (s =? 0); [discriminate|]. by injection Fx as <-. }
  rewrite add64_ok in Fy by (unfold is_u64; lia). rewrite bind_ok in Fy.
  replace (o + Z.max 0 (Z.min d (o + e) - o)) with (Z.max o (Z.min d (o + e))) in Fy by lia. exact Fy.
Qed.

Section Box.
  Context (m : array_meta) (bb : bbox).
  Context (L : length (bb_off bb) = length (am_shape m)).
  Context (U1 : Forall is_u64 (am_shape m)) (U2 : Forall (fun s => 0 < s) (am_chunk_shape m)).
  Context (U3 : Forall is_u64 (bb_off bb)) (U4 : Forall is_u64 (bb_shape bb)).
  Context (NO : ~ overflows (bb_off bb) (bb_shape bb)).

  Lemma late_dim lim : ends_late lim (am_shape m) (am_chunk_shape m) (bb_off bb) (bb_shape bb) ->
    exists i d s o e, am_shape m !! i = Some d /\ am_chunk_shape m !! i = Some s /\ bb_off bb !! i = Some o /\ bb_shape bb !! i = Some e
      /\ lim <= Z.max o (Z.min d (o + e)) + s /\ 0 <= d < two64 /\ 0 <= o /\ 0 <= e /\ o + e < two64 /\ 0 < s.
  Proof.
    intros (i & d & s & o & e & E1 & E2 & E3 & E4 & Z). exists i, d, s, o, e.
    pose proof (Forall_lookup_1 _ _ _ _ U1 E1) as D. pose proof (Forall_lookup_1 _ _ _ _ U2 E2) as S.
    pose proof (Forall_lookup_1 _ _ _ _ U3 E3) as O. pose proof (Forall_lookup_1 _ _ _ _ U4 E4) as E.
    unfold is_u64 in *. cbn beta in S.
    assert (o + e < two64).
    { destruct (Z.lt_ge_cases (o + e) two64); [done|]. destruct NO. by exists i, o, e. }
    repeat split; try done; lia.
  Qed.
  Lemma late_debug : ends_late two64 (am_shape m) (am_chunk_shape m) (bb_off bb) (bb_shape bb) ->
    forall l, bounded_coords Debug m bb <> Ok l.
  Proof.
    intros (i & d & s & o & e & E1 & E2 & E3 & E4 & Z & D & O & E & X & S)%late_dim l Y. unfold bounded_coords in Y.
    apply bind_ok_inv in Y as ([f c] & R & _).
    destruct (ceil_at Debug m bb i d s o e f c L E1 E2 E3 E4 D O E X R) as (x & y & _ & _ & _ & Q).
    unfold add64, chk64 in Q. destruct (Z.ltb_spec (Z.max o (Z.min d (o + e)) + s) two64) as [?|_]; [lia|].
    rewrite andb_false_r in Q. discriminate Q.
  Qed.
  Lemma box_coords_none rs i f c : rs !! i = Some (f, c) -> c <= f -> box_coords rs = [].
  Proof.
    intros E Q. destruct (box_coords rs) as [|x l] eqn:B; [done|]. exfalso.
    assert (x ∈ box_coords rs) as I by (rewrite B; left). apply elem_of_box_coords in I. unfold in_ranges in I.
    destruct (Forall2_lookup_l _ _ _ _ _ I E) as (v & _ & Hv). cbn in Hv. lia.
  Qed.
  Lemma late_release : Forall is_u32 (am_chunk_shape m) ->
    ends_late (two64 + 1) (am_shape m) (am_chunk_shape m) (bb_off bb) (bb_shape bb) ->
    forall l, bounded_coords Release m bb = Ok l -> l = [].
  Proof.
    intros U5 (i & d & s & o & e & E1 & E2 & E3 & E4 & Z & D & O & E & X & S)%late_dim l Y. unfold bounded_coords in Y.
    apply bind_ok_inv in Y as ([f c] & R & Y). apply bind_ok_inv in Y as (u0 & _ & [= <-]).
    destruct (ceil_at Release m bb i d s o e f c L E1 E2 E3 E4 D O E X R) as (x & y & F1 & F2 & -> & Q).
    pose proof (Forall_lookup_1 _ _ _ _ U5 E2) as S2. unfold is_u32, two32 in S2.
    assert (y = 0) as ->.
    { unfold add64, chk64 in Q. destruct (Z.ltb_spec (Z.max o (Z.min d (o + e)) + s) two64) as [?|_]; [lia|].
      rewrite andb_false_r, bind_ok in Q.
      assert ((Z.max o (Z.min d (o + e)) + s) mod two64 = Z.max o (Z.min d (o + e)) + s - two64) as M.
      { symmetry. apply (Z.mod_unique_pos _ _ 1); [|lia]. unfold two64 in *. lia. }
      rewrite M in Q. rewrite sub64_ok in Q by (unfold is_u64, two64 in *; lia). rewrite bind_ok in Q.
      rewrite div64_ok in Q by lia. injection Q as <-. apply Z.div_small. unfold two64 in *. lia. }
    assert (zip f c !! i = Some (o / s, 0)) as ZI by by rewrite lookup_zip_with, F1, F2.
    unfold product_items. destruct (zip f c) as [|r rs] eqn:ZZ; [done|]. rewrite <- ZZ in *.
    eapply box_coords_none; [exact ZI|]. apply Z.div_pos; lia.
  Qed.
End Box.

Lemma border_read_debug flit C h H s t path m bb :
  h_prof h = Debug -> Forall is_u64 (am_shape m) -> Forall (fun s => 0 < s) (am_chunk_shape m) ->
  Forall is_u64 (bb_off bb) -> Forall is_u64 (bb_shape bb) ->
  ends_late two64 (am_shape m) (am_chunk_shape m) (bb_off bb) (bb_shape bb) ->
  forall a, read_ndarray flit C h H s t path m bb <> Ok a.
Proof.
  intros P U1 U2 U3 U4 O a E.
  assert (~ overflows (bb_off bb) (bb_shape bb)) as NO.
  { intros X. by eapply overflow_read_debug. }
  unfold read_ndarray in E.
  apply bind_ok_inv in E as (fill & _ & E). apply bind_ok_inv in E as (arr & Ea & E).
  unfold from_elem in Ea. apply bind_ok_inv in Ea as (u0 & _ & [= <-]).
  unfold read_ndarray_into in E. apply bind_ok_inv in E as ([a' b'] & E & _).
  unfold read_ndarray_into_with_buffer in E. cbn [nd_shape] in E.
  destruct (bool_decide (length (bb_off bb) = ndim m)) eqn:L1; [|discriminate].
  apply bool_decide_eq_true_1 in L1.
  destruct (_ || _); [discriminate|]. destruct (negb _); [discriminate|].
  apply bind_ok_inv in E as (l & E & _). rewrite P in E.
  by eapply late_debug.
Qed.
Lemma border_read_release flit C h H s t path m bb :
  h_prof h = Release -> meta_typed m -> Forall (fun s => 0 < s) (am_chunk_shape m) ->
  Forall is_u64 (bb_off bb) -> Forall is_u64 (bb_shape bb) -> ~ overflows (bb_off bb) (bb_shape bb) ->
  ends_late (two64 + 1) (am_shape m) (am_chunk_shape m) (bb_off bb) (bb_shape bb) ->
  forall a, read_ndarray flit C h H s t path m bb = Ok a ->
  exists fill, effective_fill flit t m = Ok fill /\ forall i, nd_at a i = fill.
Proof.
  intros P [U1 U5] U2 U3 U4 NO O a E. unfold read_ndarray in E.
  apply bind_ok_inv in E as (fill & Ef & E). apply bind_ok_inv in E as (arr & Ea & E).
  unfold from_elem in Ea. apply bind_ok_inv in Ea as (u0 & _ & [= <-]).
  exists fill. split; [done|]. unfold read_ndarray_into in E.
  apply bind_ok_inv in E as ([a' b'] & E & [= <-]).
  unfold read_ndarray_into_with_buffer in E. cbn [nd_shape] in E.
  destruct (bool_decide (length (bb_off bb) = ndim m)) eqn:L1; [|discriminate].
  apply bool_decide_eq_true_1 in L1.
  destruct (_ || _); [discriminate|]. destruct (negb _); [discriminate|].
  apply bind_ok_inv in E as (l & El & E). rewrite P in El.
  rewrite (late_release m bb L1 U1 U2 U3 U4 NO U5 O l El) in E. cbn in E. by injection E as <- _.
Qed.
Lemma border_write_debug flit C h H s t path m off arr :
  h_prof h = Debug -> Forall is_u64 (am_shape m) -> Forall (fun s => 0 < s) (am_chunk_shape m) ->
  Forall is_u64 off -> Forall is_u64 (nd_shape arr) -> length off = length (am_shape m) ->
  ends_late two64 (am_shape m) (am_chunk_shape m) off (nd_shape arr) ->
  fst (write_ndarray flit C h H s t path m off arr) = s
  /\ snd (write_ndarray flit C h H s t path m off arr) <> Ok tt.
Proof.
  intros P U1 U2 U3 U4 L O.
  assert (overflows off (nd_shape arr) -> fst (write_ndarray flit C h H s t path m off arr) = s
    /\ snd (write_ndarray flit C h H s t path m off arr) <> Ok tt) as OV by by apply overflow_write_debug.
  unfold write_ndarray in *.
  destruct (bool_decide (length (nd_shape arr) = ndim m)) eqn:L1; [|split; done].
  apply bool_decide_eq_true_1 in L1. cbn [negb] in *.
  destruct (effective_fill flit t m) as [fill| |]; cbn [on] in *; [|split; done..].
  destruct (bounded_coords (h_prof h) m (BBox off (nd_shape arr))) as [l| |] eqn:E;
    cbn [on] in *; [|split; done..].
  exfalso. rewrite P in E.
  refine (late_debug m (BBox off (nd_shape arr)) L U1 U2 U3 U4 _ O l E).
  cbn [bb_off bb_shape]. intros X. by eapply coords_overflow_debug; [..|exact E].
Qed.
Lemma border_write_release flit C h H s t path m off arr :
  h_prof h = Release -> meta_typed m -> Forall (fun s => 0 < s) (am_chunk_shape m) ->
  Forall is_u64 off -> Forall is_u64 (nd_shape arr) -> length off = length (am_shape m) ->
  ~ overflows off (nd_shape arr) ->
  ends_late (two64 + 1) (am_shape m) (am_chunk_shape m) off (nd_shape arr) ->
  fst (write_ndarray flit C h H s t path m off arr) = s.
Proof.
  intros P [U1 U5] U2 U3 U4 L NO O. unfold write_ndarray.
  destruct (bool_decide (length (nd_shape arr) = ndim m)) eqn:L1; [|done]. cbn [negb].
  destruct (effective_fill flit t m) as [fill| |]; cbn [on]; [|done..].
  destruct (bounded_coords (h_prof h) m (BBox off (nd_shape arr))) as [l| |] eqn:E; cbn [on]; [|done..].
  rewrite P in E. by rewrite (late_release m (BBox off (nd_shape arr)) L U1 U2 U3 U4 NO U5 O l E).
Qed.
