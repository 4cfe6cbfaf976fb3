(** The view after a region read that failed. *)
From Coq Require Import Sorted.
From Verif Require Import BaseFacts ChunkFacts BBoxFacts CoordIterFacts NdFacts NdWrite NdSafe.
From Verif Require Import Spec Nd NdView.
Local Open Scope Z_scope.

Lemma read_loop_outcome C h H s t path m bb coords arr buf :
  foldM_res (read_step C h H s t path m bb) coords (arr, buf)
  = (let '(a, r) := read_loop C h H s t path m bb coords arr buf in b ← r; Ok (a, b)).
Proof.
  revert arr buf. induction coords as [|c r IH]; intros arr buf; [done|]. cbn [foldM_res read_loop].
  destruct (read_step _ _ _ _ _ _ _ _ _ _) as [[a b]| |]; [|done..]. rewrite bind_ok. apply IH.
Qed.
Lemma read_view_outcome C h H s t path m bb arr buf :
  read_ndarray_into_with_buffer C h H s t path m bb arr buf
  = (let '(a, r) := read_into_view C h H s t path m bb arr buf in b ← r; Ok (a, b)).
Proof.
  unfold read_ndarray_into_with_buffer, read_into_view. destruct (_ || _); [done|].
  destruct (negb _); [done|]. destruct (bounded_coords _ _ _); [|done..]. rewrite bind_ok. apply read_loop_outcome.
Qed.

(** A loop that stops: the chunks before the one that failed have been read. *)
Lemma read_loop_stop C h H s t path m bb coords arr buf arr' r :
  read_loop C h H s t path m bb coords arr buf = (arr', r) -> (forall b, r <> Ok b) ->
  exists pre pos post buf', coords = pre ++ pos :: post
  /\ foldM_res (read_step C h H s t path m bb) pre (arr, buf) = Ok (arr', buf')
  /\ match r with
     | Ok _ => False
     | Err e => read_step C h H s t path m bb (arr', buf') pos = Err e
     | Panic => read_step C h H s t path m bb (arr', buf') pos = Panic
     end.
Proof.
  revert arr buf. induction coords as [|c l IH]; intros arr buf; cbn [read_loop].
  { intros [= <- <-] N. by destruct (N buf). }
  destruct (read_step _ _ _ _ _ _ _ _ _ _) as [[a b]|e|] eqn:E.
  - intros R N. destruct (IH a b R N) as (pre & pos & post & buf' & -> & F & X).
    exists (c :: pre), pos, post, buf'. split; [done|]. split; [|done]. cbn [foldM_res]. by rewrite E, bind_ok.
  - intros [= <- <-] _. by exists [], c, l, buf.
  - intros [= <- <-] _. by exists [], c, l, buf.
Qed.

Lemma sorted_split pre pos post c : StronglySorted lex_lt (pre ++ pos :: post) ->
  c ∈ pre ++ pos :: post -> (c ∈ pre <-> lex_lt c pos).
Proof.
  induction pre as [|q pre IH]; cbn [app]; intros ST I.
  - apply StronglySorted_inv in ST as [ST F]. split; [by intros ?%elem_of_nil|]. intros L. exfalso.
    apply elem_of_cons in I as [->|I]; [by apply lex_lt_irrefl in L|].
    rewrite list.Forall_forall in F. apply (lex_lt_irrefl c). by eapply lex_lt_trans, F.
  - apply StronglySorted_inv in ST as [ST F]. rewrite elem_of_cons.
    rewrite list.Forall_forall in F. apply elem_of_cons in I as [->|I].
    + split; [|by left]. intros _. apply F. set_solver.
    + rewrite <- IH by done. split; [|by right]. intros [->|X]; [|done].
      exfalso. eapply lex_lt_irrefl, F, I.
Qed.

Lemma failed_view C h H s t path m bb arr buf arr' r :
  bok m bb -> chunk_shape_ok m -> fits_memory (nd_shape arr) ->
  read_into_view C h H s t path m bb arr buf = (arr', r) -> (forall b, r <> Ok b) ->
  arr' = arr
  \/ exists pos, (forall e, r = Err e -> read_chunk C h H s t path m pos = Err e)
     /\ (r = Panic -> read_chunk C h H s t path m pos = Panic)
     /\ nd_shape arr' = nd_shape arr
     /\ forall i, index_of (bb_shape bb) i ->
        let x := zip_with Z.add (bb_off bb) i in
        let c := zip_with Z.div x (am_chunk_shape m) in
        (grid_voxel m x -> lex_lt c pos -> voxel C h H s t path m (nd_at arr i) x = Ok (nd_at arr' i))
        /\ (grid_voxel m x -> ~ lex_lt c pos -> nd_at arr' i = nd_at arr i)
        /\ (nd_at arr' i = nd_at arr i \/ voxel C h H s t path m (nd_at arr i) x = Ok (nd_at arr' i)).
Proof.
  intros BO CK FI E NO. unfold read_into_view in E.
  destruct (_ || _); [injection E as <- _; by left|].
  destruct (negb (bool_decide _)) eqn:SH; [injection E as <- _; by left|].
  apply negb_false_iff, bool_decide_eq_true in SH.
  destruct (bounded_coords (h_prof h) m bb) as [coords| |] eqn:Ec; [|injection E as <- _; by left..].
  right. rewrite bounded_coords_eq in Ec by done. apply bind_ok_inv in Ec as (n & _ & [= <-]).
  assert (fits (bb_shape bb)) as FB.
  { apply fits_of_prod; [exact (bok_shape_nonneg m bb BO)|]. rewrite SH. exact FI. }
  destruct (read_loop_stop _ _ _ _ _ _ _ _ _ _ _ _ _ E NO) as (pre & pos & post & buf' & EC & F & X).
  assert (am_shape m <> []) as NE.
  { intros X0. pose proof BO as B0. unfold bok in B0. unfold branges in EC. rewrite X0 in B0, EC.
    inversion B0 as [Z1 Z2 Z3 Z4|]. rewrite <- Z2, <- Z3, <- Z4 in EC. by destruct pre. }
  assert (forall q, q ∈ pre ++ pos :: post -> in_ranges (branges m bb) q) as Hr.
  { intros q Hq. apply visited_ranges. by rewrite EC. }
  pose proof (read_fold C h H s t path m bb BO FB CK pre arr buf
    (fun q Hq => Hr q (proj2 (elem_of_app _ _ _) (or_introl Hq))) (eq_sym SH)) as RF.
  rewrite F in RF. destruct RF as (R1 & R2 & R3).
  pose proof (step_cases C h H s t path m bb BO FB CK arr' buf' pos
    (Hr pos ltac:(set_solver)) R2) as SC.
  exists pos.
  assert (StronglySorted lex_lt (pre ++ pos :: post)) as ST.
  { rewrite <- EC, (branges_nonnil m bb BO NE). apply box_coords_sorted. }
  split.
  { intros e ->. destruct (read_chunk C h H s t path m pos) as [o|e'|].
    - destruct SC as (a2 & b2 & Y & _). rewrite X in Y. done.
    - rewrite X in SC. by injection SC as ->.
    - rewrite X in SC. done. }
  split.
  { intros ->. destruct (read_chunk C h H s t path m pos) as [o|e'|]; [|by rewrite X in SC|done].
    destruct SC as (a2 & b2 & Y & _). rewrite X in Y. done. }
  split; [congruence|]. intros i Hi x c.
  specialize (R3 i (proj1 (inb_index _ _) Hi)). fold x in R3. change (chunk_of m x) with c in R3.
  assert (length x = length (am_chunk_shape m)) as Lx.
  { pose proof (bok_length m bb BO) as (L1 & L2 & L3). unfold x. rewrite zip_with_length.
    rewrite (index_length _ _ Hi). lia. }
  assert (grid_voxel m x -> c ∈ pre ++ pos :: post) as V.
  { intros HA. rewrite <- EC. apply NdFacts.visited; try done. apply in_box_shift; [|done].
    pose proof (bok_length m bb BO). lia. }
  split; [|split].
  - intros HA L. apply (sorted_split pre pos post) in L; [|done|by apply V].
    destruct (R1 _ L) as [o Eo]. rewrite Eo in R3. destruct o as [ck|]; rewrite R3; [|by apply voxel_none].
    rewrite decide_True by done. by apply voxel_some.
  - intros HA L. rewrite R3. destruct (read_chunk _ _ _ _ _ _ _ _) as [[ck|]| |]; [|done..].
    rewrite decide_False; [done|]. intros I. apply L. apply (sorted_split pre pos post); [done|by apply V|done].
  - destruct (read_chunk C h H s t path m c) as [[ck|]| |] eqn:Ek; [|by left..].
    rewrite R3. case_decide; [right|by left]. by apply voxel_some.
Qed.
Lemma read_view_done C h H s t path m bb arr buf arr' buf' :
  bok m bb -> chunk_shape_ok m -> am_shape m <> [] -> fits_memory (nd_shape arr) ->
  read_into_view C h H s t path m bb arr buf = (arr', Ok buf') ->
  nd_shape arr' = nd_shape arr
  /\ forall i, index_of (bb_shape bb) i ->
     let x := zip_with Z.add (bb_off bb) i in
     (grid_voxel m x -> voxel C h H s t path m (nd_at arr i) x = Ok (nd_at arr' i))
     /\ (nd_at arr' i = nd_at arr i \/ voxel C h H s t path m (nd_at arr i) x = Ok (nd_at arr' i)).
Proof.
  intros BO CK NE FI E.
  assert (read_ndarray_into_with_buffer C h H s t path m bb arr buf = Ok (arr', buf')) as Er
    by by rewrite read_view_outcome, E.
  assert (nd_shape arr = bb_shape bb) as SH.
  { unfold read_ndarray_into_with_buffer in Er. destruct (_ || _); [done|].
    destruct (negb (bool_decide _)) eqn:SH; [done|]. by apply negb_false_iff, bool_decide_eq_true in SH. }
  assert (fits (nd_shape arr)) as FB.
  { rewrite SH in *. apply fits_of_prod; [exact (bok_shape_nonneg m bb BO)|exact FI]. }
  destruct (read_into_spec _ _ _ _ _ _ _ _ _ _ _ _ BO CK NE FB Er) as (_ & S1 & V).
  split; [congruence|]. intros i Hi x. destruct (V i Hi) as [V1 V2]. fold x in V1, V2.
  assert (length x = length (am_chunk_shape m)) as Lx.
  { pose proof (bok_length m bb BO) as (L1 & L2 & L3). unfold x. rewrite zip_with_length.
    rewrite (index_length _ _ Hi). lia. }
  split.
  - intros HA. destruct (V1 HA) as ([ck|] & Eo & ->); [by apply voxel_some|by apply voxel_none].
  - destruct V2 as [->|(ck & Eo & ->)]; [by left|right]. by apply voxel_some.
Qed.
