(** Absence of panics, and region reads into existing views. *)
From Verif Require Import BaseFacts ChunkFacts BBoxFacts CoordIterFacts PathFacts FSFacts HierFacts
  NdWrite NdFacts.
From Verif Require Import Spec Nd.
Local Open Scope Z_scope.

Lemma bind_no_panic {A X} (r : res A) (k : A -> res X) :
  r <> Panic -> (forall a, r = Ok a -> k a <> Panic) -> (r ≫= k) <> Panic.
Proof. destruct r; cbn; auto. Qed.

Lemma get_path_no_panic base key : get_path base key <> Panic.
Proof. unfold get_path. by destruct (_ <? _). Qed.
Lemma key_comps_no_panic base key : key_comps base key <> Panic.
Proof. apply bind_no_panic; [apply get_path_no_panic|done]. Qed.
Lemma open_read_no_panic s cs : open_read s cs <> Panic.
Proof.
  apply bind_no_panic; [apply walk_no_panic|]. intros p _. by destruct (node_at s p) as [[]|].
Qed.
Lemma st_get_no_panic base s key : st_get base s key <> Panic.
Proof.
  apply bind_no_panic; [apply key_comps_no_panic|]. intros cs _. destruct (path_is_file _ _); [|done].
  apply bind_no_panic; [apply open_read_no_panic|done].
Qed.
Lemma mkdir_no_panic s cs : snd (mkdir s cs) <> Panic.
Proof.
  unfold mkdir. pose proof (walk_no_panic s cs []). destruct (walk s [] cs) as [p| |]; try done.
  destruct (node_at s p); [done|]. by destruct (is_dir_at _ _).
Qed.
Lemma mkdir_all_no_panic s cs n : snd (mkdir_all s cs n) <> Panic.
Proof.
  induction n as [|n IH]; [done|]. cbn [mkdir_all].
  pose proof (mkdir_no_panic s (take (S n) cs)) as M1.
  destruct (mkdir s _) as [s1 [|e|]]; cbn in M1; try done.
  assert (forall b (x y : fs * res unit), snd x <> Panic -> snd y <> Panic ->
    snd (if b : bool then x else y) <> Panic) as Hif by by intros [].
  destruct e; try by apply Hif.
  destruct (mkdir_all s cs n) as [s2 [|e|]]; cbn in IH; try done.
  pose proof (mkdir_no_panic s2 (take (S n) cs)) as M2.
  destruct (mkdir s2 _) as [s3 [|e|]]; cbn in M2; try done. by apply Hif.
Qed.
Lemma open_truncate_no_panic s cs : snd (open_truncate s cs) <> Panic.
Proof.
  unfold open_truncate. pose proof (walk_no_panic s cs []). destruct (walk s [] cs) as [p| |]; try done.
  destruct (node_at s p) as [[]|]; try done. by destruct (is_dir_at _ _).
Qed.
Lemma st_set_no_panic base s key v : snd v <> Panic -> snd (st_set base s key v) <> Panic.
Proof.
  intros Hv. unfold st_set. pose proof (key_comps_no_panic base key) as K.
  destruct (key_comps base key) as [cs| |]; try done.
  assert (snd (match cs with
        | [] => (s, Ok tt)
        | _ => if path_exists s (parent_comps cs) then (s, Ok tt)
               else create_dir_all s (parent_comps cs)
        end) <> Panic) as P.
  { destruct cs; [done|]. destruct (path_exists _ _); [done|]. apply mkdir_all_no_panic. }
  destruct (match cs with [] => _ | _ => _ end) as [s1 [[]| |]]; cbn in P; try done.
  pose proof (open_truncate_no_panic s1 cs) as O.
  destruct (open_truncate s1 cs) as [s2 [p| |]]; cbn in O; done.
Qed.

Lemma read_exact_no_panic n s : read_exact n s <> Panic.
Proof. unfold read_exact. destruct (_ <=? _)%nat; [done|]. by destruct (st_err s). Qed.
Lemma read_data_no_panic e t old s : read_data e t old s <> Panic.
Proof.
  assert (forall n, (('(b, _) ← read_exact n s; Ok (decode_elts e t (length old) b)) : res (list Z)) <> Panic).
  { intros n. apply bind_no_panic; [apply read_exact_no_panic|]. by intros [b s'] _. }
  destruct t; cbn [read_data]; try done.
  - generalize (chunks 256 old). intros l. revert s H. induction l as [|c l IH]; intros s H; [done|].
    cbn [read_pieces]. apply bind_no_panic; [apply read_exact_no_panic|]. intros [b s'] _.
    apply bind_no_panic; [|done]. apply IH. intros n.
    apply bind_no_panic; [apply read_exact_no_panic|]. by intros [b' s''] _.
  - clear H. revert s. induction old as [|c l IH]; intros s; [done|].
    cbn [read_each]. apply bind_no_panic; [apply read_exact_no_panic|]. intros [b s'] _.
    apply bind_no_panic; [|done]. apply IH.
Qed.
Lemma check_type_no_panic h m t d : effective m d -> check_array_type h m t <> Panic.
Proof.
  intros ED%effective_ok. unfold check_array_type. rewrite ED, bind_ok. by destruct (eq_modulo_endian _ _).
Qed.
Lemma decode_chunk_no_panic C h t m content pos d : effective m d ->
  chunk_shape_ok m -> decode_with C (am_comp m) content <> Panic ->
  decode_chunk C h t m content pos <> Panic.
Proof.
  intros ED CK CP. apply bind_no_panic; [by eapply check_type_no_panic|]. intros _ _.
  rewrite chunk_num_ok, bind_ok by done. apply bind_no_panic; [done|]. intros s _.
  unfold meta_endian. rewrite (effective_ok m d ED), !bind_ok.
  apply bind_no_panic; [apply read_data_no_panic|done].
Qed.
Lemma encode_chunk_no_panic C h t m ck d : effective m d ->
  chunk_shape_ok m -> (forall ws, snd (encode_with C (am_comp m) ws) <> Panic) ->
  snd (encode_chunk C h t m ck) <> Panic.
Proof.
  intros ED CK CP. unfold encode_chunk.
  assert ((check_array_type h m t ≫= (fun _ => chunk_num_elements (h_prof h) m ≫= (fun n =>
    if as_u32 (lenZ (ck_data ck)) =? n then meta_endian h m else Err InvalidData))) <> Panic) as N.
  { apply bind_no_panic; [by eapply check_type_no_panic|]. intros _ _.
    rewrite chunk_num_ok, bind_ok by done. destruct (_ =? _); [|done].
    unfold meta_endian. by rewrite (effective_ok m d ED), bind_ok. }
  destruct (_ ≫= _); try done.
Qed.

Lemma read_chunk_no_panic C h H s t path m pos d : effective m d ->
  chunk_shape_ok m -> codec_safe C (am_comp m) -> in_bounds (h_prof h) m pos = Ok true ->
  read_chunk C h H s t path m pos <> Panic.
Proof.
  intros ED CK [CP _] I. unfold read_chunk. rewrite I, bind_ok. cbn [assert_]. rewrite bind_ok.
  apply bind_no_panic; [apply st_get_no_panic|]. intros [content|] _; [|done].
  apply bind_no_panic; [by eapply decode_chunk_no_panic|done].
Qed.
Lemma write_chunk_no_panic C h H s t path m ck d : effective m d ->
  chunk_shape_ok m -> codec_safe C (am_comp m) -> snd (write_chunk C h H s t path m ck) <> Panic.
Proof. intros ED CK [_ CP]. eapply st_set_no_panic, encode_chunk_no_panic; done. Qed.

Lemma elt_of_json_no_panic flit t j : elt_of_json flit t j <> Panic.
Proof.
  destruct t, j; try done; cbn; try (by destruct (_ && _)).
Qed.
Lemma effective_fill_no_panic flit t m : effective_fill flit t m <> Panic.
Proof. unfold effective_fill. destruct (am_fill m); [apply elt_of_json_no_panic|done]. Qed.

(** ** The chunk count of an overlapping box *)
Lemma overlap_counts m bb : bok m bb -> overlaps m bb ->
  Forall2 (fun n e => 0 <= n <= e /\ 0 < e) (map (fun '(f, c) => sat_sub c f) (branges m bb)) (bb_shape bb).
Proof.
  unfold bok, overlaps, branges. intros H. revert H.
  generalize (am_shape m) (am_chunk_shape m) (bb_off bb) (bb_shape bb).
  induction 1 as [|d cs oo os shape chunks off oshape H1 H2 H3 H4 H5 H6 H7 H IH];
    intros (y & HA & HB); cbn [b_ranges map]; constructor.
  - cbn [length replicate] in HA. apply in_box_cons_inv in HA as (w & ys & -> & Hw & HA).
    apply in_box_cons in HB as [Hw2 HB].
    unfold b_floor, b_ceil, b_shape, sat_sub.
    pose proof (Z.mod_pos_bound oo cs H2). pose proof (Z_div_mod_eq_full oo cs).
    set (len := Z.max 0 (Z.min d (oo + os) - oo)) in *.
    assert (0 < len <= os) by lia.
    pose proof (ceil_div_spec (oo + len) cs H2) as Q. unfold is_ceil_div in Q.
    split; [|lia]. split; [lia|]. apply Z.max_lub; [lia|]. nia.
  - apply IH. cbn [length replicate] in HA. apply in_box_cons_inv in HA as (w & ys & -> & Hw & HA).
    apply in_box_cons in HB as [Hw2 HB]. by exists ys.
Qed.
Lemma prodZ_le ns es : Forall2 (fun n e => 0 <= n <= e /\ 0 < e) ns es -> 0 <= prodZ ns <= prodZ es.
Proof. induction 1; [cbn; lia|]. rewrite !prodZ_cons. nia. Qed.
Lemma overlap_product p m bb : bok m bb -> overlaps m bb ->
  prodZ (filter (fun s => s <> 0) (bb_shape bb)) < 2 ^ 63 ->
  exists n, product64 p (map (fun '(f, c) => sat_sub c f) (branges m bb)) = Ok n.
Proof.
  intros BO OV FI. pose proof (overlap_counts m bb BO OV) as F.
  assert (filter (fun s => s <> 0) (bb_shape bb) = bb_shape bb) as E.
  { clear -F. induction F as [|x y l k Q _ IH]; [done|]. rewrite filter_cons_True by lia. by rewrite IH. }
  rewrite E in FI. pose proof (prodZ_le _ _ F).
  assert (Forall (fun n => 0 < n) (map (fun '(f, c) => sat_sub c f) (branges m bb))) as P.
  { clear -BO OV. revert BO OV. unfold bok, overlaps, branges.
    generalize (am_shape m) (am_chunk_shape m) (bb_off bb) (bb_shape bb).
    induction 1 as [|d cs oo os shape chunks off oshape H1 H2 H3 H4 H5 H6 H7 H IH];
      intros (y & HA & HB); cbn [b_ranges map]; constructor.
    - cbn [length replicate] in HA. apply in_box_cons_inv in HA as (w & ys & -> & Hw & HA).
      apply in_box_cons in HB as [Hw2 HB].
      unfold b_floor, b_ceil, b_shape, sat_sub.
      pose proof (Z.mod_pos_bound oo cs H2). pose proof (Z_div_mod_eq_full oo cs).
      set (len := Z.max 0 (Z.min d (oo + os) - oo)) in *.
      pose proof (ceil_div_spec (oo + len) cs H2) as Q. unfold is_ceil_div in Q. nia.
    - apply IH. cbn [length replicate] in HA. apply in_box_cons_inv in HA as (w & ys & -> & Hw & HA).
      apply in_box_cons in HB as [Hw2 HB]. by exists ys. }
  eexists. apply product64_ok; [done|]. unfold two64. lia.
Qed.

Lemma overlap_in_bounds p m bb pos : bok m bb -> overlaps m bb ->
  in_ranges (branges m bb) pos -> in_bounds p m pos = Ok true.
Proof.
  intros BO OV Hr. destruct (branges_sound m bb pos BO OV Hr) as (x & C1 & XA & _).
  eapply in_bounds_covers; [by eapply bok_grid_ok|done|done].
Qed.

Lemma overlap_coords p m bb : bok m bb -> overlaps m bb ->
  prodZ (filter (fun s => s <> 0) (bb_shape bb)) < 2 ^ 63 ->
  bounded_coords p m bb = Ok (product_items (branges m bb)).
Proof.
  intros BO OV FI. rewrite bounded_coords_eq by done.
  destruct (overlap_product p m bb BO OV FI) as [n ->]. done.
Qed.

Section safe.
Context (flit : rty -> bytes -> Z) (C : codec) (h : host) (H : hier) (t : rty) (path : bytes) (m : array_meta) (bb : bbox).
Hypothesis BO : bok m bb.
Hypothesis OV : overlaps m bb.
Context (d : data_type).
Hypothesis ED : effective m d.
Hypothesis CK : chunk_shape_ok m.
Hypothesis CP : codec_safe C (am_comp m).
Hypothesis FI : prodZ (filter (fun s => s <> 0) (bb_shape bb)) < 2 ^ 63.

Lemma safe_fits : fits (bb_shape bb).
Proof. apply fits_of_prod; [exact (bok_shape_nonneg m bb BO)|exact FI]. Qed.

Lemma read_into_no_panic s arr buf :
  read_ndarray_into_with_buffer C h H s t path m bb arr buf <> Panic.
Proof.
  unfold read_ndarray_into_with_buffer. destruct (_ || _); [done|].
  destruct (negb (bool_decide _)) eqn:SH; [done|].
  apply negb_false_iff, bool_decide_eq_true in SH.
  rewrite overlap_coords, bind_ok by done.
  pose proof (read_fold C h H s t path m bb BO safe_fits CK (product_items (branges m bb)) arr buf
    (fun pos => visited_ranges m bb pos) (eq_sym SH)) as RF.
  destruct (foldM_res _ _ _) as [[]| |]; [done|done|]. destruct RF as (pos & Hp & E).
  exfalso. revert E. eapply read_chunk_no_panic; [done|done|done|].
  eapply overlap_in_bounds; [done|done|]. by apply visited_ranges.
Qed.
Lemma read_no_panic s : read_ndarray flit C h H s t path m bb <> Panic.
Proof.
  apply bind_no_panic; [apply effective_fill_no_panic|]. intros fill _. unfold from_elem.
  replace (_ <? _) with true by lia. cbn [assert_]. rewrite !bind_ok.
  apply bind_no_panic; [apply read_into_no_panic|]. by intros [] _.
Qed.

Lemma write_loop_no_panic arr fill coords s buf : nd_shape arr = bb_shape bb ->
  (forall pos, pos ∈ coords -> in_ranges (branges m bb) pos) ->
  snd (write_loop C h H t path m arr bb fill coords s buf) <> Panic.
Proof.
  intros SH. revert s buf. induction coords as [|pos coords IH]; intros s buf Hr; [done|].
  cbn [write_loop].
  assert (snd (write_step C h H t path m arr bb fill s buf pos) <> Panic) as N.
  { pose proof (Hr pos (elem_of_list_here _ _)) as Hp.
    pose proof (overlap_in_bounds (h_prof h) m bb pos BO OV Hp) as IB.
    destruct (dims_of m bb pos BO safe_fits (chunk_fits m CK) Hp) as (D & OK & E1 & E2 & E3 & ->).
    assert (bb = BBox (map d_o D) (map d_e D)) as BE by (destruct bb; cbn in *; congruence).
    rewrite BE. rewrite write_step_eq; [|done|done|done|congruence].
    assert (forall ck b, snd (andthen (write_chunk C h H s t path m ck) (fun s1 _ => (s1, Ok b : res (list Z)))) <> Panic) as W.
    { intros ck b. pose proof (write_chunk_no_panic C h H s t path m ck d ED CK CP).
      destruct (write_chunk _ _ _ _ _ _ _ _) as [s1 [| |]]; cbn in *; done. }
    destruct (w_covers D); [apply W|].
    pose proof (read_chunk_no_panic C h H s t path m (map d_c D) d ED CK CP IB).
    destruct (read_chunk _ _ _ _ _ _ _ _); cbn [on]; [apply W|done|done]. }
  destruct (write_step _ _ _ _ _ _ _ _ _ _ _ _) as [s1 [b| |]]; cbn in *; [|done|done].
  apply IH. intros q Hq. apply Hr. by right.
Qed.
End safe.

Lemma write_no_panic flit C h H s t path m off arr d :
  let bb := BBox off (nd_shape arr) in
  bok m bb -> overlaps m bb -> effective m d -> chunk_shape_ok m -> codec_safe C (am_comp m) ->
  prodZ (filter (fun s => s <> 0) (nd_shape arr)) < 2 ^ 63 ->
  snd (write_ndarray flit C h H s t path m off arr) <> Panic.
Proof.
  intros bb BO OV ED CK CP FI. unfold write_ndarray. fold bb. destruct (negb _); [done|]. cbv zeta.
  pose proof (effective_fill_no_panic flit t m). destruct (effective_fill _ _ _); cbn [on]; try done.
  rewrite overlap_coords by done. cbn [on].
  eapply write_loop_no_panic; try done. intros pos. apply visited_ranges.
Qed.

(** ** Views and buffers *)

Lemma read_fold_status C h H s t path m bb coords arr1 buf1 arr2 buf2 :
  bok m bb -> fits (bb_shape bb) -> chunk_shape_ok m ->
  (forall pos, pos ∈ coords -> in_ranges (branges m bb) pos) ->
  nd_shape arr1 = bb_shape bb -> nd_shape arr2 = bb_shape bb ->
  match foldM_res (read_step C h H s t path m bb) coords (arr1, buf1),
        foldM_res (read_step C h H s t path m bb) coords (arr2, buf2) with
  | Ok _, Ok _ => True
  | Err e, Err e' => e = e'
  | Panic, Panic => True
  | _, _ => False
  end.
Proof.
  intros BO FI CK. revert arr1 buf1 arr2 buf2.
  induction coords as [|pos coords IH]; intros arr1 buf1 arr2 buf2 Hr S1 S2; [done|].
  cbn [foldM_res].
  pose proof (step_cases C h H s t path m bb BO FI CK arr1 buf1 pos (Hr pos (elem_of_list_here _ _)) S1) as Q1.
  pose proof (step_cases C h H s t path m bb BO FI CK arr2 buf2 pos (Hr pos (elem_of_list_here _ _)) S2) as Q2.
  destruct (read_chunk C h H s t path m pos) as [o|e|].
  - destruct Q1 as (a1 & b1 & -> & T1 & _). destruct Q2 as (a2 & b2 & -> & T2 & _).
    rewrite !bind_ok. apply IH; try done. intros q Hq. apply Hr. by right.
  - rewrite Q1, Q2. done.
  - rewrite Q1, Q2. done.
Qed.

Lemma read_view C h H s t path m bb flit a arr buf :
  bok m bb -> chunk_shape_ok m -> am_shape m <> [] -> nd_shape arr = bb_shape bb ->
  read_ndarray flit C h H s t path m bb = Ok a ->
  exists arr' buf', read_ndarray_into_with_buffer C h H s t path m bb arr buf = Ok (arr', buf')
  /\ nd_shape arr' = nd_shape a
  /\ forall i, index_of (bb_shape bb) i ->
     let x := zip_with Z.add (bb_off bb) i in
     grid_voxel m x ->
     (forall ck, read_chunk C h H s t path m (zip_with Z.div x (am_chunk_shape m)) = Ok (Some ck) ->
        nd_at arr' i = nd_at a i)
     /\ (read_chunk C h H s t path m (zip_with Z.div x (am_chunk_shape m)) = Ok None ->
        nd_at arr' i = nd_at arr i).
Proof.
  intros BO CK NE SH E. pose proof E as E0. unfold read_ndarray in E.
  apply bind_ok_inv in E as (fill & Ef & E). apply bind_ok_inv in E as (arr0 & Ea & E).
  unfold read_ndarray_into in E. apply bind_ok_inv in E as ([a' b'] & Er & [= ->]).
  apply from_elem_inv in Ea as [-> FI]; [|by eapply bok_shape_nonneg].
  assert (exists arr' buf', read_ndarray_into_with_buffer C h H s t path m bb arr buf = Ok (arr', buf')) as X.
  { unfold read_ndarray_into_with_buffer in *. cbn [nd_shape] in *. rewrite SH.
    destruct (_ || _); [done|]. destruct (negb _); [done|].
    destruct (bounded_coords (h_prof h) m bb) as [coords| |] eqn:Ec; [|done..].
    rewrite bind_ok in Er |- *.
    assert (forall pos, pos ∈ coords -> in_ranges (branges m bb) pos) as Hr.
    { rewrite bounded_coords_eq in Ec by done. apply bind_ok_inv in Ec as (n & _ & [= <-]).
      intros pos. apply visited_ranges. }
    pose proof (read_fold_status C h H s t path m bb coords (Nd (bb_shape bb) (fun _ => fill)) None arr buf
      BO FI CK Hr eq_refl SH) as ST.
    rewrite Er in ST. destruct (foldM_res _ _ (arr, buf)) as [[u w]| |]; [|done..]. by exists u, w. }
  destruct X as (arr' & buf' & X). exists arr', buf'. split; [done|].
  assert (fits (nd_shape (Nd (bb_shape bb) (fun _ => fill)))) as F0 by done.
  assert (fits (nd_shape arr)) as F1 by by rewrite SH.
  destruct (read_into_spec _ _ _ _ _ _ _ _ _ _ _ _ BO CK NE F0 Er) as (_ & S1 & V1).
  destruct (read_into_spec _ _ _ _ _ _ _ _ _ _ _ _ BO CK NE F1 X) as (_ & S2 & V2).
  split; [congruence|]. intros i Hi x Hx.
  destruct (V1 i Hi) as [A _]. destruct (V2 i Hi) as [A' _]. fold x in A, A'.
  destruct (A Hx) as (o & R & ->). destruct (A' Hx) as (o' & R' & ->). unfold chunk_of in *.
  rewrite R in R'. injection R' as <-. rewrite R. split.
  - intros ck [= ->]. done.
  - intros [= ->]. done.
Qed.

(** ** Rank zero *)
Lemma rank_zero_read flit C h H s t path m bb fill :
  am_shape m = [] -> am_chunk_shape m = [] -> bb = BBox [] [] ->
  effective_fill flit t m = Ok fill ->
  exists a, read_ndarray flit C h H s t path m bb = Ok a /\ nd_shape a = [] /\ nd_at a [] = fill.
Proof.
  intros S1 S2 -> Ef. unfold read_ndarray. rewrite Ef, bind_ok. cbn [bb_shape].
  exists (Nd [] (fun _ => fill)). split; [|done]. unfold read_ndarray_into, read_ndarray_into_with_buffer.
  unfold from_elem. cbn [filter list_filter]. replace (prodZ [] <? 2 ^ 63) with true by done.
  cbn [assert_]. rewrite bind_ok, bind_ok. cbn [nd_shape bb_off bb_shape length].
  unfold ndim. rewrite S1. cbn [length]. rewrite !bool_decide_eq_true_2 by done. cbn [negb orb].
  unfold bounded_coords, bounded_ranges, get_bounds, intersect, ndim. rewrite S1, S2. cbn. done.
Qed.
Lemma rank_zero_write flit C h H s t path m fill v :
  am_shape m = [] -> am_chunk_shape m = [] -> effective_fill flit t m = Ok fill ->
  write_ndarray flit C h H s t path m [] (Nd [] (fun _ => v)) = (s, Ok tt).
Proof.
  intros S1 S2 Ef. unfold write_ndarray. cbn [nd_shape]. unfold ndim. rewrite S1.
  rewrite bool_decide_eq_true_2 by done. cbn [negb]. cbv zeta. rewrite Ef. cbn [on].
  unfold bounded_coords, bounded_ranges, get_bounds, intersect, ndim. rewrite S1, S2. cbn. done.
Qed.

(** ** Layout *)
Lemma lex_lt_trans x y z : lex_lt x y -> lex_lt y z -> lex_lt x z.
Proof.
  revert y z. induction x as [|a x IH]; intros [|b y] [|c z]; cbn; try done.
  intros [L|[-> L]] [M|[-> M]]; [left; lia|left; lia|left; lia|right]. split; [done|]. by eapply IH.
Qed.
Lemma layout_facts p m ck : chunk_shape_ok m -> full_chunk m (ck_data ck) ->
  length (ck_pos ck) = length (am_chunk_shape m) ->
  Forall2 (fun c s => 0 <= c /\ c * s < two64) (ck_pos ck) (am_chunk_shape m) ->
  exists a, as_ndarray p m ck = Ok a /\ into_ndarray p m ck = Ok a
  /\ nd_shape a = am_chunk_shape m
  /\ (forall i, index_of (am_chunk_shape m) i ->
        0 <= layout_rank (am_order m) (am_chunk_shape m) i < lenZ (ck_data ck)
        /\ ck_data ck !! Z.to_nat (layout_rank (am_order m) (am_chunk_shape m) i) = Some (nd_at a i))
  /\ (forall k, 0 <= k < lenZ (ck_data ck) -> exists i, index_of (am_chunk_shape m) i
        /\ layout_rank (am_order m) (am_chunk_shape m) i = k
        /\ forall j, index_of (am_chunk_shape m) j ->
           layout_rank (am_order m) (am_chunk_shape m) j = k -> j = i)
  /\ (forall i j, index_of (am_chunk_shape m) i -> index_of (am_chunk_shape m) j ->
        (layout_lt (am_order m) i j <->
         layout_rank (am_order m) (am_chunk_shape m) i < layout_rank (am_order m) (am_chunk_shape m) j))
  /\ flatten (am_order m) a = ck_data ck.
Proof.
  intros CK FC Lp Hp. pose proof (chunk_shape_prod_pos m CK) as PP.
  assert (Forall (fun s => 0 <= s) (am_chunk_shape m)) as NN.
  { eapply list.Forall_impl; [apply CK|]. cbn. lia. }
  unfold full_chunk in FC.
  assert (exists off, chunk_bounds p m (ck_pos ck) = Ok (BBox off (am_chunk_shape m))) as [off CB].
  { unfold chunk_bounds. destruct CK as [CP _]. 
    destruct (split_zip (am_chunk_shape m) (ck_pos ck) Lp) as (z & E1 & E2).
    rewrite E1, E2, zip_with_map in *. rewrite (mapM_res_map _ _ (fun x => snd x * fst x)); [by eexists|].
    apply Forall2_map_iff in Hp. eapply list.Forall_impl.
    { apply list.Forall_and. split; [exact Hp|]. rewrite Forall_map in CP. exact CP. }
    intros [u w] [Q1 Q2]. cbn in *. apply mul64_ok. unfold is_u64. nia. }
  exists (of_vec (am_order m) (am_chunk_shape m) (ck_data ck)).
  unfold as_ndarray, into_ndarray, chunk_get_bounds. rewrite CB, !bind_ok.
  unfold from_shape, from_shape_vec. cbn [bb_shape]. rewrite FC, Z.eqb_refl, Z.leb_refl.
  cbn [assert_]. rewrite !bind_ok. split; [done|]. split; [done|]. split; [done|].
  assert (forall k, 0 <= k < prodZ (am_chunk_shape m) -> exists i, index_of (am_chunk_shape m) i
    /\ layout_rank (am_order m) (am_chunk_shape m) i = k
    /\ layout_indices (am_order m) (am_chunk_shape m) !! Z.to_nat k = Some i) as ONTO.
  { intros k Hk. destruct (layout_indices (am_order m) (am_chunk_shape m) !! Z.to_nat k) as [i|] eqn:E.
    - exists i. destruct (layout_indices_rank _ _ _ _ NN E) as [Hi Hr]. split; [by apply inb_index|].
      split; [|done]. pose proof (layout_rank_range (am_order m) _ _ Hi). lia.
    - apply lookup_ge_None in E. rewrite layout_indices_length in E by done. lia. }
  split; [|split; [|split]].
  - intros i Hi%inb_index. split; [by apply layout_rank_range|]. apply of_vec_at; [done|lia].
  - intros k Hk. destruct (ONTO k Hk) as (i & Hi & Ri & Li). exists i. split; [done|]. split; [done|].
    intros j Hj%inb_index Rj. pose proof (layout_indices_lookup (am_order m) _ _ Hj) as Lj.
    rewrite Rj, Li in Lj. congruence.
  - intros i j Hi%inb_index Hj%inb_index.
    pose proof (layout_indices_lookup (am_order m) _ _ Hi) as Li.
    pose proof (layout_indices_lookup (am_order m) _ _ Hj) as Lj.
    pose proof (layout_rank_range (am_order m) _ _ Hi). pose proof (layout_rank_range (am_order m) _ _ Hj).
    pose proof (layout_indices_sorted (am_order m) (am_chunk_shape m)) as SO.
    assert (MONO : forall a b x y, layout_indices (am_order m) (am_chunk_shape m) !! a = Some x ->
      layout_indices (am_order m) (am_chunk_shape m) !! b = Some y -> (a < b)%nat -> layout_lt (am_order m) x y).
    { clear -SO. induction SO as [|z l SO IH Hz]; intros a b x y Ha Hb Hab; [done|].
      destruct b as [|b]; [lia|]. destruct a as [|a]; cbn in *.
      - injection Ha as ->. rewrite Forall_forall in Hz. apply Hz. apply elem_of_list_In, elem_of_list_lookup. eauto.
      - eapply IH; eauto. lia. }
    assert (IRR : forall x, ~ layout_lt (am_order m) x x).
    { intros x. destruct (am_order m); cbn; apply lex_lt_irrefl. }
    assert (TR : forall x y z, layout_lt (am_order m) x y -> layout_lt (am_order m) y z -> layout_lt (am_order m) x z).
    { intros x y z. destruct (am_order m); cbn; apply lex_lt_trans. }
    split.
    + intros LT. destruct (Z_lt_ge_dec (layout_rank (am_order m) (am_chunk_shape m) i)
        (layout_rank (am_order m) (am_chunk_shape m) j)) as [|G]; [done|]. exfalso.
      destruct (decide (layout_rank (am_order m) (am_chunk_shape m) i
        = layout_rank (am_order m) (am_chunk_shape m) j)) as [Q|Q].
      * rewrite Q, Lj in Li. injection Li as ->. by apply (IRR i).
      * apply (IRR i). eapply TR; [exact LT|]. eapply MONO; [exact Lj|exact Li|lia].
    + intros LT. eapply MONO; [exact Li|exact Lj|lia].
  - by apply flatten_of_vec.
Qed.

(** ** Consequences *)
Lemma absent_fill flit C h H s t path m bb a fill i :
  bok m bb -> chunk_shape_ok m -> am_shape m <> [] ->
  read_ndarray flit C h H s t path m bb = Ok a -> effective_fill flit t m = Ok fill ->
  index_of (bb_shape bb) i ->
  read_chunk C h H s t path m
    (zip_with Z.div (zip_with Z.add (bb_off bb) i) (am_chunk_shape m)) = Ok None ->
  nd_at a i = fill.
Proof.
  intros BO CK NE E Ef Hi R. destruct (read_region _ _ _ _ _ _ _ _ _ _ BO CK NE E) as (f & Ef' & _ & V).
  rewrite Ef in Ef'. injection Ef' as <-. destruct (V i Hi) as [_ [->|V2]]; [done|].
  unfold voxel in V2. rewrite R in V2. by injection V2.
Qed.
Lemma new_chunk_fill flit C h H s t path m off arr s' fill x :
  bok m (BBox off (nd_shape arr)) ->
  chunk_shape_ok m -> am_shape m <> [] -> fits_memory (nd_shape arr) ->
  wf_fs s -> plain (hy_base H) -> plain path -> good_sep (am_sep m) ->
  lossless C (am_comp m) -> effective_fill flit t m = Ok fill -> elt_ok t fill ->
  (forall i, index_of (nd_shape arr) i -> elt_ok t (nd_at arr i)) ->
  write_ndarray flit C h H s t path m off arr = (s', Ok tt) ->
  grid_voxel m x -> ~ in_box off (nd_shape arr) x ->
  read_chunk C h H s t path m (zip_with Z.div x (am_chunk_shape m)) = Ok None ->
  voxel C h H s' t path m fill x = Ok fill.
Proof.
  intros BO CK NE FM W PB PP GS LL Ef EO EA E G NB R.
  destruct (write_region _ _ _ _ _ _ _ _ _ _ _ _ BO CK NE FM W PB PP GS LL Ef EO EA E) as (_ & _ & _ & V).
  destruct (V x G) as [_ ->]; [|done]. unfold voxel. by rewrite R.
Qed.
Lemma write_read_back flit C h H s t path m off arr s' a :
  bok m (BBox off (nd_shape arr)) ->
  chunk_shape_ok m -> am_shape m <> [] -> fits_memory (nd_shape arr) ->
  wf_fs s -> plain (hy_base H) -> plain path -> good_sep (am_sep m) ->
  lossless C (am_comp m) -> (forall fill, effective_fill flit t m = Ok fill -> elt_ok t fill) ->
  (forall i, index_of (nd_shape arr) i -> elt_ok t (nd_at arr i)) ->
  (forall x, in_box off (nd_shape arr) x -> index_of (am_shape m) x) ->
  write_ndarray flit C h H s t path m off arr = (s', Ok tt) ->
  read_ndarray flit C h H s' t path m (BBox off (nd_shape arr)) = Ok a ->
  nd_shape a = nd_shape arr /\ forall i, index_of (nd_shape arr) i -> nd_at a i = nd_at arr i.
Proof.
  intros BO CK NE FM W PB PP GS LL EO EA IN E R.
  destruct (read_region _ _ _ _ _ _ _ _ _ _ BO CK NE R) as (fill & Ef & S1 & V).
  split; [done|]. intros i Hi.
  destruct (write_region _ _ _ _ _ _ _ _ _ _ _ _ BO CK NE FM W PB PP GS LL Ef (EO fill Ef) EA E)
    as (_ & _ & _ & V'). cbn [bb_off bb_shape] in *.
  pose proof (bok_length m _ BO) as (L1 & L2 & L3). cbn [bb_off bb_shape] in *.
  assert (in_box off (nd_shape arr) (zip_with Z.add off i)) as IB by (apply in_box_shift; [lia|done]).
  assert (grid_voxel m (zip_with Z.add off i)) as G.
  { apply index_grid; [by eapply bok_chunk_pos|lia|]. by apply IN. }
  destruct (V i Hi) as [V1 _]. destruct (V' _ G) as [V2 _].
  specialize (V1 G). rewrite (V2 IB) in V1. injection V1 as <-. f_equal.
  apply index_length in Hi. assert (length i = length off) as L by lia. clear -L.
  revert off L. induction i as [|x i IH]; intros [|o off]; cbn [length]; try done.
  intros [= L]. cbn. f_equal; [lia|]. by apply IH.
Qed.
