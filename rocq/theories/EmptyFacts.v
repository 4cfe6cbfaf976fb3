(** Writes of regions without voxels (C84). *)
From Verif Require Import BaseFacts BBoxFacts CoordIterFacts FSFacts NdFacts FailFacts.
From Verif Require Import Spec Nd.
Local Open Scope Z_scope.

Lemma empty_box off shape x : 0 ∈ shape -> ~ in_box off shape x.
Proof.
  intros (i & E)%elem_of_list_lookup (L1 & L2 & B).
  assert (i < length shape)%nat by (by eapply lookup_lt_Some).
  destruct (lookup_lt_is_Some_2 x i ltac:(lia)) as [u U]. destruct (lookup_lt_is_Some_2 off i ltac:(lia)) as [o O].
  pose proof (B i u o 0 U O E). lia.
Qed.
Lemma empty_write flit C h H s t path m off arr s' r fill d :
  bounded_ok (am_shape m) (am_chunk_shape m) off (nd_shape arr) -> chunk_shape_ok m -> am_shape m <> [] -> fits_memory (nd_shape arr) ->
  wf_fs s -> plain (hy_base H) -> plain path -> good_sep (am_sep m) ->
  lossless C (am_comp m) -> total_codec C (am_comp m) -> effective m d -> same_kind_width d t -> effective_fill flit t m = Ok fill -> elt_ok t fill ->
  0 ∈ nd_shape arr ->
  write_ndarray flit C h H s t path m off arr = (s', r) ->
  forall x, grid_voxel m x -> voxel C h H s' t path m fill x = voxel C h H s t path m fill x.
Proof.
  intros BO CK NE FI W PB PP GS LL TC ED KW FE EF Z E x Hx.
  assert (EA : forall i, index_of (nd_shape arr) i -> elt_ok t (nd_at arr i)).
  { intros i Hi. exfalso. destruct Hi as (L1 & L2 & B). eapply (empty_box _ _ i Z). split; [exact L1|split; [exact L2|exact B]]. }
  destruct (undamaged_region flit C h H s t path m off arr s' r fill d BO CK NE FI W PB PP GS LL TC ED KW FE EF EA E x Hx) as [X|[X _]]; [done|].
  by apply empty_box in X.
Qed.

Lemma aligned_ranges shape chunks off oshape k o c : bounded_ok shape chunks off oshape ->
  off !! k = Some o -> chunks !! k = Some c -> oshape !! k = Some 0 -> (c | o) ->
  forall pos, ~ in_ranges (b_ranges shape chunks off oshape) pos.
Proof.
  intros B. revert k. induction B as [|d s o' e shape chunks off oshape H1 H2 H3 H4 H5 H6 H7 B IH]; intros k O Cc S D pos; [done|].
  cbn [b_ranges]. intros Q. apply Forall2_cons_inv_l in Q as (v & pos' & Hv & Q & ->). destruct k as [|k]; cbn in O, Cc, S.
  - injection O as ->. injection Cc as ->. injection S as ->. cbn beta iota in Hv. unfold b_floor, b_ceil, b_shape in Hv.
    destruct D as [q ->]. replace (q * c + _ + c - 1) with ((c - 1) + q * c) in Hv by lia.
    rewrite Z.div_add, Z.div_mul, (Z.div_small (c - 1) c) in Hv by lia. lia.
  - by apply (IH k O Cc S D pos').
Qed.
Lemma aligned_write flit C h H s t path m off arr s' r k o c :
  bounded_ok (am_shape m) (am_chunk_shape m) off (nd_shape arr) ->
  off !! k = Some o -> am_chunk_shape m !! k = Some c -> nd_shape arr !! k = Some 0 -> (c | o) ->
  write_ndarray flit C h H s t path m off arr = (s', r) -> s' = s.
Proof.
  intros BO O Cc S D. unfold write_ndarray. destruct (negb _); [by intros [= <- _]|]. cbv zeta.
  destruct (effective_fill flit t m) as [fill|e|]; cbn [on]; [|by intros [= <- _]..].
  assert (B : bok m (BBox off (nd_shape arr))) by exact BO.
  rewrite (bounded_coords_eq (h_prof h) m _ B).
  destruct (mbind _ _) as [coords|e|] eqn:Ec; cbn [on]; [|by intros [= <- _]..].
  apply bind_ok_inv in Ec as (n & _ & [= <-]).
  destruct (product_items (branges m (BBox off (nd_shape arr)))) as [|pos l] eqn:P; [by intros [= <- _]|].
  exfalso. eapply (aligned_ranges _ _ _ _ k o c BO O Cc S D pos).
  apply (visited_ranges m (BBox off (nd_shape arr)) pos). rewrite P. left.
Qed.
