(** Facts about region reads and writes over any store: NdFacts.v and NdWrite.v
    with the operations of GenNd.v. *)
From Verif Require Import BaseFacts ChunkFacts BBoxFacts CoordIterFacts KeyFacts HierFacts NdFacts NdWrite NdSafe.
From Verif Require Import Spec SpecHier SpecStore GenNd SpecGenNd.
Local Open Scope Z_scope.

Section GenNdFacts.
Context {S : Type} (st : store S).

Lemma g_read_chunk_inv C h s t path m pos ck :
  chunk_shape_ok m -> g_read_chunk st C h s t path m pos = Ok (Some ck) ->
  ck_pos ck = pos /\ full_chunk m (ck_data ck) /\ Forall (elt_ok t) (ck_data ck).
Proof.
  intros Hs E. unfold g_read_chunk in E.
  apply bind_ok_inv in E as (b & _ & E). apply bind_ok_inv in E as (? & _ & E).
  apply bind_ok_inv in E as ([content|] & _ & E); [|done].
  apply bind_ok_inv in E as (c & Hc & [= <-]). by eapply decode_chunk_inv.
Qed.
Lemma g_read_into_eq C h s t path m pos old :
  g_read_chunk_into st C h s t path m pos old = g_read_chunk st C h s t path m pos.
Proof.
  unfold g_read_chunk_into, g_read_chunk.
  destruct (in_bounds (h_prof h) m pos) as [[]| |]; try done. rewrite !bind_ok. cbn [assert_].
  rewrite !bind_ok. destruct (ss_get _ _ _) as [[content|]| |]; try done. rewrite !bind_ok.
  by rewrite decode_into_eq.
Qed.

Lemma g_read_any C h s t path m pos buf :
  match buf with
  | None => g_read_chunk st C h s t path m pos
  | Some old => g_read_chunk_into st C h s t path m pos old
  end = g_read_chunk st C h s t path m pos.
Proof. destruct buf; [apply g_read_into_eq|done]. Qed.

Section step.
Context (C : codec) (h : host) (s : S) (t : rty) (path : bytes) (m : array_meta).
Context (D : list dim).
Hypothesis OK : Forall dim_ok D.
Hypothesis CS : am_chunk_shape m = map d_s D.
Hypothesis CK : chunk_shape_ok m.
Let bb := BBox (map d_o D) (map d_e D).
Let coord := map d_c D.
Let rd := g_read_chunk st C h s t path m coord.

Lemma g_read_step_none arr buf : rd = Ok None ->
  g_read_step st C h s t path m bb (arr, buf) coord = Ok (arr, buf).
Proof.
  intros E. unfold g_read_step. cbv zeta. rewrite g_read_any. fold rd. by rewrite E.
Qed.
Lemma g_read_step_fail arr buf :
  (forall e, rd = Err e -> g_read_step st C h s t path m bb (arr, buf) coord = Err e)
  /\ (rd = Panic -> g_read_step st C h s t path m bb (arr, buf) coord = Panic).
Proof.
  unfold g_read_step. cbv zeta. rewrite g_read_any. fold rd.
  split; [intros e E|intros E]; by rewrite E.
Qed.
Lemma g_read_step_some arr buf ck : rd = Ok (Some ck) -> nd_shape arr = map d_e D ->
  exists arr', g_read_step st C h s t path m bb (arr, buf) coord = Ok (arr', Some ck)
    /\ nd_shape arr' = map d_e D
    /\ forall i, inb (map d_e D) i ->
       nd_at arr' i =
       if decide (zip_with Z.div (zip_with Z.add (map d_o D) i) (am_chunk_shape m) = coord)
       then cell m ck (zip_with Z.add (map d_o D) i) else nd_at arr i.
Proof.
  intros E SH. destruct (g_read_chunk_inv C h s t path m coord ck CK E) as (P1 & P2 & _).
  unfold g_read_step. cbv zeta. rewrite g_read_any. fold rd. rewrite E.
  rewrite bind_ok. unfold chunk_get_bounds, bb in *. rewrite P1. unfold coord in *.
  rewrite (chunk_bounds_dim (h_prof h) m D OK CS), bind_ok.
  rewrite (intersect_dim_eq (h_prof h) D OK), bind_ok.
  destruct (is_empty _) eqn:EM.
  - exists arr. split; [done|]. split; [done|]. intros i Hi.
    rewrite decide_False; [done|]. intros X.
    destruct (in_chunk_box D i OK Hi) as (z & -> & -> & F).
    rewrite CS in X. apply on_axes_chunk in X; [|done].
    unfold is_empty in EM. cbn [bb_shape] in EM. apply existsb_exists in EM as (l & Hl & El).
    apply in_map_iff in Hl as (d & Hd & Hin).
    rewrite !map_map in X. apply on_axes_map in X.
    apply in_map_iff in Hin as (w & Hw & Hin).
    rewrite Forall_forall in X. specialize (X w Hin). cbn in X.
    rewrite Hw in X. lia.
  - rewrite (sub_off D OK), bind_ok.
    pose proof (sub_chunk D OK) as SC. cbn [bb_off] in SC |- *. rewrite SC, bind_ok.
    unfold as_ndarray, chunk_get_bounds. rewrite P1.
    rewrite (chunk_bounds_dim (h_prof h) m D OK CS), bind_ok.
    unfold from_shape. cbn [bb_shape]. rewrite <- CS.
    unfold full_chunk in P2. replace (prodZ (am_chunk_shape m) <=? lenZ (ck_data ck)) with true by lia.
    cbn [assert_]. rewrite bind_ok, bind_ok.
    unfold nd_slice. cbn [of_vec nd_shape]. rewrite CS, (axes_chunk (h_prof h) D OK), !bind_ok.
    unfold nd_assign. cbn [nd_shape nd_at]. rewrite SH, (axes_off (h_prof h) D OK), !bind_ok.
    rewrite !map_map. cbn [snd fst]. rewrite bool_decide_eq_true_2 by done. cbn [assert_].
    rewrite !bind_ok. eexists. split; [done|]. split; [done|].
    intros i Hi. cbn [nd_at].
    destruct (in_chunk_box D i OK Hi) as (z & EZ1 & EZ2 & F).
    destruct (on_axes _ i) eqn:ON.
    + rewrite EZ1, EZ2 in ON. assert (X := ON). apply on_axes_chunk in X; [|done].
      rewrite decide_True by (unfold coord; rewrite EZ1, EZ2; exact X).
      unfold cell. rewrite CS. cbn [of_vec nd_at]. f_equal. f_equal. f_equal.
      subst D i. rewrite !map_map, !zip_with_map. apply NdFacts.map_eq_iff.
      rewrite map_map in ON. apply on_axes_map in ON.
      eapply list.Forall_impl; [apply list.Forall_and; split; [exact F|exact ON]|].
      cbn. intros [x i] [[Hx Hi2] Hq]. cbn in *.
      rewrite (mod_eq _ _ (d_c x)); unfold dim_ok, d_len, d_lo in *; lia.
    + rewrite decide_False; [done|]. intros X. unfold coord in X. rewrite EZ1, EZ2 in X, ON.
      apply on_axes_chunk in X; [|done]. congruence.
Qed.
End step.

Lemma g_voxel_some C h s t path m fill x ck : chunk_shape_ok m ->
  length x = length (am_chunk_shape m) ->
  g_read_chunk st C h s t path m (chunk_of m x) = Ok (Some ck) ->
  g_voxel st C h s t path m fill x = Ok (cell m ck x).
Proof.
  intros CK Hl E. unfold g_voxel, chunk_of in *. rewrite E, bind_ok.
  destruct (g_read_chunk_inv _ _ _ _ _ _ _ _ CK E) as (_ & P2 & _). unfold cell.
  rewrite (of_vec_at (am_order m) _ (ck_data ck) (zip_with Z.modulo x (am_chunk_shape m))); [done| |].
  - destruct CK as [CK _]. unfold inb. revert Hl CK. clear. intros Hl CK. revert x Hl.
    induction CK as [|c cs Hc _ IH]; intros [|y x]; cbn [length]; try done; [constructor|].
    intros [= Hl]. cbn [zip_with]. constructor; [|by apply IH]. apply Z.mod_pos_bound. lia.
  - unfold full_chunk in P2. lia.
Qed.
Lemma g_voxel_none C h s t path m fill x :
  g_read_chunk st C h s t path m (chunk_of m x) = Ok None ->
  g_voxel st C h s t path m fill x = Ok fill.
Proof. intros E. unfold g_voxel, chunk_of in *. by rewrite E. Qed.


Section read.
Context (C : codec) (h : host) (s : S) (t : rty) (path : bytes) (m : array_meta) (bb : bbox).
Hypothesis BO : bok m bb.
Hypothesis F1 : fits (bb_shape bb).
Hypothesis CK : chunk_shape_ok m.
Let rd pos := g_read_chunk st C h s t path m pos.
Let step := g_read_step st C h s t path m bb.
Let vx (i : list Z) : list Z := zip_with Z.add (bb_off bb) i.

Lemma g_step_cases arr buf pos : in_ranges (branges m bb) pos -> nd_shape arr = bb_shape bb ->
  match rd pos with
  | Ok o => exists arr' buf', step (arr, buf) pos = Ok (arr', buf')
      /\ nd_shape arr' = bb_shape bb
      /\ forall i, inb (bb_shape bb) i ->
         nd_at arr' i = match o with
                        | Some ck => if decide (chunk_of m (vx i) = pos) then cell m ck (vx i)
                                     else nd_at arr i
                        | None => nd_at arr i
                        end
  | Err e => step (arr, buf) pos = Err e
  | Panic => step (arr, buf) pos = Panic
  end.
Proof.
  intros Hr SH. destruct (dims_of m bb pos BO F1 (chunk_fits m CK) Hr) as (D & OK & E1 & E2 & E3 & ->).
  assert (bb = BBox (map d_o D) (map d_e D)) as BE by (destruct bb; cbn in *; congruence).
  unfold step, vx, chunk_of. rewrite BE in SH |- *. cbn [bb_off bb_shape] in *.
  destruct (rd (map d_c D)) as [[ck|]|e|] eqn:E.
  - destruct (g_read_step_some C h s t path m D OK E1 CK arr buf ck E SH) as (arr' & Q1 & Q2 & Q3).
    exists arr', (Some ck). done.
  - exists arr, buf. split; [by apply g_read_step_none|]. done.
  - by apply g_read_step_fail.
  - by apply g_read_step_fail.
Qed.

Lemma g_read_fold coords arr buf : (forall pos, pos ∈ coords -> in_ranges (branges m bb) pos) ->
  nd_shape arr = bb_shape bb ->
  match foldM_res step coords (arr, buf) with
  | Ok (arr', buf') =>
      (forall pos, pos ∈ coords -> exists o, rd pos = Ok o)
      /\ nd_shape arr' = bb_shape bb
      /\ forall i, inb (bb_shape bb) i ->
         nd_at arr' i = match rd (chunk_of m (vx i)) with
                        | Ok (Some ck) => if decide (chunk_of m (vx i) ∈ coords)
                                          then cell m ck (vx i) else nd_at arr i
                        | _ => nd_at arr i
                        end
  | Err e => exists pos, pos ∈ coords /\ rd pos = Err e
  | Panic => exists pos, pos ∈ coords /\ rd pos = Panic
  end.
Proof.
  revert arr buf. induction coords as [|pos coords IH]; intros arr buf Hc SH; cbn [foldM_res].
  - split; [|split; [done|]].
    + intros pos Hp. by apply elem_of_nil in Hp.
    + intros i Hi. destruct (rd _) as [[ck|]| |]; done.
  - pose proof (g_step_cases arr buf pos (Hc pos (elem_of_list_here _ _)) SH) as HS.
    destruct (rd pos) as [o|e|] eqn:E.
    + destruct HS as (arr1 & buf1 & -> & SH1 & V1). rewrite bind_ok.
      specialize (IH arr1 buf1 (fun q Hq => Hc q (elem_of_list_further _ _ _ Hq)) SH1).
      destruct (foldM_res step coords (arr1, buf1)) as [[arr' buf']|e|].
      * destruct IH as (I1 & I2 & I3). split; [|split; [done|]].
        -- intros q [->|Hq]%elem_of_cons; [by exists o|]. by apply I1.
        -- intros i Hi. rewrite I3, V1 by done.
           destruct (rd (chunk_of m (vx i))) as [[ck|]|e|] eqn:E2.
           ++ destruct (decide (chunk_of m (vx i) ∈ coords)) as [Y|N].
              ** rewrite decide_True; [done|]. by right.
              ** destruct (decide (chunk_of m (vx i) = pos)) as [X|N2].
                 --- rewrite X, E in E2. injection E2 as ->. rewrite decide_True; [done|].
                     rewrite X. left.
                 --- rewrite decide_False.
                     +++ by destruct o.
                     +++ intros [X|X]%elem_of_cons; done.
           ++ destruct o as [ck|]; [|done]. rewrite decide_False; [done|]. intros X.
              rewrite X, E in E2. done.
           ++ destruct o as [ck|]; [|done]. rewrite decide_False; [done|]. intros X.
              rewrite X, E in E2. done.
           ++ destruct o as [ck|]; [|done]. rewrite decide_False; [done|]. intros X.
              rewrite X, E in E2. done.
      * destruct IH as (q & Hq & Eq). exists q. split; [by right|done].
      * destruct IH as (q & Hq & Eq). exists q. split; [by right|done].
    + rewrite HS. exists pos. split; [left|done].
    + rewrite HS. exists pos. split; [left|done].
Qed.
End read.

Lemma g_read_into_spec C h s t path m bb arr buf arr' buf' :
  bok m bb -> chunk_shape_ok m -> am_shape m <> [] -> fits (nd_shape arr) ->
  g_read_ndarray_into_with_buffer st C h s t path m bb arr buf = Ok (arr', buf') ->
  nd_shape arr = bb_shape bb /\ nd_shape arr' = bb_shape bb /\
  forall i, index_of (bb_shape bb) i ->
  let x := zip_with Z.add (bb_off bb) i in
  (grid_voxel m x -> exists o, g_read_chunk st C h s t path m (chunk_of m x) = Ok o /\
     nd_at arr' i = match o with Some ck => cell m ck x | None => nd_at arr i end)
  /\ (nd_at arr' i = nd_at arr i \/
      exists ck, g_read_chunk st C h s t path m (chunk_of m x) = Ok (Some ck)
                 /\ nd_at arr' i = cell m ck x).
Proof.
  intros BO CK NE FI E. unfold g_read_ndarray_into_with_buffer in E.
  destruct (_ || _); [done|]. destruct (negb (bool_decide _)) eqn:SH; [done|].
  apply negb_false_iff, bool_decide_eq_true in SH.
  rewrite (bounded_coords_eq (h_prof h) m bb BO) in E.
  apply bind_ok_inv in E as (coords & Ec & E). apply bind_ok_inv in Ec as (n & _ & [= <-]).
  rewrite <- SH in FI.
  pose proof (g_read_fold C h s t path m bb BO FI CK (product_items (branges m bb)) arr buf
    (fun pos => visited_ranges m bb pos) (eq_sym SH)) as RF.
  rewrite E in RF. destruct RF as (R1 & R2 & R3). split; [done|]. split; [done|].
  intros i Hi x. specialize (R3 i (proj1 (inb_index _ _) Hi)).
  fold x in R3. split.
  - intros HA. assert (chunk_of m x ∈ product_items (branges m bb)) as V.
    { apply NdFacts.visited; try done. apply in_box_shift; [|done].
      pose proof (bok_length m bb BO). lia. }
    destruct (R1 _ V) as [o Eo]. exists o. split; [done|].
    rewrite R3, Eo. destruct o as [ck|]; [|done]. by rewrite decide_True.
  - rewrite R3. destruct (g_read_chunk st _ _ _ _ _ _ _) as [[ck|]| |]; [|by left..].
    case_decide; [right|by left]. by exists ck.
Qed.


Lemma g_read_region flit C h s t path m bb a :
  bok m bb -> chunk_shape_ok m -> am_shape m <> [] ->
  g_read_ndarray st flit C h s t path m bb = Ok a ->
  exists fill, effective_fill flit t m = Ok fill
  /\ nd_shape a = bb_shape bb
  /\ forall i, index_of (bb_shape bb) i ->
     let x := zip_with Z.add (bb_off bb) i in
     (grid_voxel m x -> g_voxel st C h s t path m fill x = Ok (nd_at a i))
     /\ (nd_at a i = fill \/ g_voxel st C h s t path m fill x = Ok (nd_at a i)).
Proof.
  intros BO CK NE E. unfold g_read_ndarray in E.
  apply bind_ok_inv in E as (fill & Ef & E). apply bind_ok_inv in E as (arr & Ea & E).
  unfold g_read_ndarray_into in E. apply bind_ok_inv in E as ([a' b'] & Er & [= ->]).
  apply from_elem_inv in Ea as [-> FI]; [|by eapply bok_shape_nonneg].
  exists fill. split; [done|].
  assert (fits (nd_shape (Nd (bb_shape bb) (fun _ => fill)))) as FI' by done.
  destruct (g_read_into_spec _ _ _ _ _ _ _ _ _ _ _ BO CK NE FI' Er) as (_ & S1 & V).
  split; [done|]. intros i Hi x. destruct (V i Hi) as [V1 V2]. cbn [nd_at] in *. fold x in V1, V2.
  assert (length x = length (am_chunk_shape m)) as Lx.
  { pose proof (bok_length m bb BO) as (L1 & L2 & L3). unfold x. rewrite zip_with_length.
    rewrite (index_length _ _ Hi). lia. }
  split.
  - intros HA. destruct (V1 HA) as ([ck|] & Eo & ->); [by apply g_voxel_some|by apply g_voxel_none].
  - destruct V2 as [->|(ck & Eo & ->)]; [by left|right]. by apply g_voxel_some.
Qed.


Section wstep.
Context (C : codec) (h : host) (t : rty) (path : bytes) (m : array_meta).
Context (D : list dim) (arr : nd) (fill : Z).
Hypothesis OK : Forall dim_ok D.
Hypothesis CS : am_chunk_shape m = map d_s D.
Hypothesis CK : chunk_shape_ok m.
Hypothesis SH : nd_shape arr = map d_e D.
Let bb := BBox (map d_o D) (map d_e D).
Let coord := map d_c D.

Notation w_view := (w_view D arr).
Notation w_old := (w_old m fill).
Notation w_merged := (w_merged m D arr fill).
Notation w_mem := (w_mem m).
Notation w_covers := (w_covers D).
Notation w_in := (w_in D).
Notation w_new := (w_new D arr).

Lemma g_write_step_eq s buf :
  g_write_step st C h t path m arr bb fill s buf coord =
  if w_covers then
    gthen (g_write_chunk st C h s t path m (Chunk coord (flatten (am_order m) w_view)))
      (fun s1 _ => (s1, Ok buf))
  else
    gon s (g_read_chunk st C h s t path m coord) (fun o =>
    gthen (g_write_chunk st C h s t path m (Chunk coord (flatten (am_order m) (w_merged o))))
      (fun s1 _ => (s1, Ok (flatten (w_mem o) (w_merged o))))).
Proof.
  unfold g_write_step. cbv zeta. unfold coord, bb.
  rewrite (chunk_bounds_dim (h_prof h) m D OK CS). unfold gon at 1.
  rewrite (intersect_dim_eq' (h_prof h) D OK). unfold gon at 1.
  rewrite (sub_off D OK). unfold gon at 1.
  unfold nd_slice. rewrite SH, (axes_off (h_prof h) D OK), bind_ok. unfold gon at 1.
  rewrite !map_map. cbn [fst snd]. fold w_view. fold w_covers.
  destruct w_covers; [done|].
  rewrite g_read_into_eq.
  destruct (g_read_chunk st C h s t path m (map d_c D)) as [o|e|] eqn:E; [|done..]. cbn [gon].
  assert (X : (match o with
          | Some ck =>
              cb ← chunk_get_bounds (h_prof h) m ck;
              a ← into_ndarray (h_prof h) m ck;
              Ok (cb, a, am_order m)
          | None =>
              n ← product64 (h_prof h) (bb_shape (BBox (map (fun x => d_c x * d_s x) D) (map d_s D)));
              a ← from_shape_vec RowMajor (bb_shape (BBox (map (fun x => d_c x * d_s x) D) (map d_s D)))
                    (replicate (Z.to_nat n) fill);
              Ok (BBox (map (fun x => d_c x * d_s x) D) (map d_s D), a, RowMajor)
          end) = Ok (BBox (map (fun x => d_c x * d_s x) D) (map d_s D), w_old o, w_mem o)).
  { destruct o as [ck|].
    - destruct (g_read_chunk_inv C h s t path m _ ck CK E) as (P1 & P2 & _).
      unfold into_ndarray, chunk_get_bounds. rewrite P1.
      rewrite (chunk_bounds_dim (h_prof h) m D OK CS), !bind_ok.
      unfold from_shape_vec. cbn [bb_shape]. rewrite <- CS. unfold full_chunk in P2.
      rewrite P2, Z.eqb_refl. cbn [assert_]. by rewrite !bind_ok.
    - cbn [bb_shape]. rewrite <- CS.
      assert (P : product64 (h_prof h) (am_chunk_shape m) = Ok (prodZ (am_chunk_shape m))).
      { exact (chunk_num_ok (h_prof h) m CK). }
      rewrite P, bind_ok. unfold from_shape_vec.
      pose proof (chunk_shape_prod_pos m CK).
      replace (prodZ _ =? lenZ _) with true by (unfold lenZ; rewrite replicate_length; lia).
      cbn [assert_]. by rewrite !bind_ok. }
  rewrite X. cbn [gon]. rewrite (sub_chunk D OK). cbn [gon].
  unfold nd_assign. replace (nd_shape (w_old o)) with (map d_s D) by (rewrite <- CS; by destruct o).
  rewrite (axes_chunk (h_prof h) D OK), !bind_ok.
  match goal with |- context [bool_decide ?P] => rewrite (bool_decide_eq_true_2 P) end; cycle 1.
  { by rewrite map_map. }
  cbn [assert_]. rewrite bind_ok. cbn [gon].
  unfold NdWrite.w_merged. rewrite CS, !map_map. done.
Qed.

Lemma g_write_step_data s buf s' buf' :
  g_write_step st C h t path m arr bb fill s buf coord = (s', Ok buf') ->
  exists data, g_write_chunk st C h s t path m (Chunk coord data) = (s', Ok tt)
  /\ full_chunk m data
  /\ (forall v, v ∈ data -> exists k, inb (map d_s D) k
        /\ data !! Z.to_nat (layout_rank (am_order m) (am_chunk_shape m) k) = Some v)
  /\ forall k, inb (map d_s D) k -> exists v,
     data !! Z.to_nat (layout_rank (am_order m) (am_chunk_shape m) k) = Some v
     /\ ((w_in k /\ v = w_new k)
         \/ (~ w_in k /\ exists o, g_read_chunk st C h s t path m coord = Ok o
             /\ v = match o with
                    | Some ck => nd_at (of_vec (am_order m) (am_chunk_shape m) (ck_data ck)) k
                    | None => fill
                    end)).
Proof.
  rewrite g_write_step_eq. destruct w_covers eqn:HC.
  - assert (nd_shape w_view = am_chunk_shape m) as VS.
    { cbn. rewrite CS. apply NdFacts.map_eq_iff. eapply list.Forall_impl; [by apply w_covers_len|].
      intros x [_ Q]. exact Q. }
    destruct (g_write_chunk st _ _ _ _ _ _ _) as [s1 [[]|e|]] eqn:E; cbn [gthen]; [|done..].
    intros [= -> ->]. eexists. split; [exact E|]. split; [|split].
    + unfold full_chunk, lenZ. rewrite flatten_length; rewrite VS.
      * pose proof (chunk_shape_prod_pos m CK). lia.
      * rewrite CS. by apply d_s_nonneg.
    + intros v Hv. apply flatten_elem in Hv as (k & Hk & ->).
      2:{ rewrite VS, CS. by apply d_s_nonneg. }
      exists k. rewrite <- VS, <- CS at 1. split; [congruence|]. by apply flatten_at.
    + intros k Hk. exists (nd_at w_view k). split.
      * rewrite <- VS. apply flatten_at. by rewrite VS, CS.
      * left. by eapply (w_view_at m D arr).
  - destruct (g_read_chunk st _ _ _ _ _ _ _) as [o|e|] eqn:R; cbn [gon]; [|done..].
    destruct (g_write_chunk st _ _ _ _ _ _ _) as [s1 [[]|e|]] eqn:E; cbn [gthen]; [|done..].
    intros [= -> _]. eexists. split; [exact E|]. split; [|split].
    + unfold full_chunk, lenZ. rewrite flatten_length; cbn [NdWrite.w_merged nd_shape].
      * pose proof (chunk_shape_prod_pos m CK). lia.
      * rewrite CS. by apply d_s_nonneg.
    + intros v Hv. apply flatten_elem in Hv as (k & Hk & ->).
      2:{ cbn [NdWrite.w_merged nd_shape]. rewrite CS. by apply d_s_nonneg. }
      exists k. rewrite <- CS. split; [done|]. by apply (flatten_at (am_order m) (w_merged o)).
    + intros k Hk. exists (nd_at (w_merged o) k). split.
      * apply (flatten_at (am_order m) (w_merged o)). cbn. by rewrite CS.
      * rewrite w_merged_at by done. case_decide as Q.
        -- left. split; [|done]. by eapply (w_in_axes m D arr).
        -- right. rewrite (w_in_axes m D arr) by done. split; [done|]. exists o. split; [done|].
           by eapply (w_old_at m D).
Qed.
End wstep.

Section write.
Context (erased : bytes -> bytes -> Prop) (kv : S -> gmap bytes bytes).
Hypothesis ML : map_like st erased kv.

(** ** One chunk *)
Lemma g_write_chunk_effect C h s t path m pos data : type_ok C t m -> full_chunk m data ->
  exists c s', encode_chunk C h t m (Chunk pos data) = (c, Ok tt)
  /\ g_write_chunk st C h s t path m (Chunk pos data) = (s', Ok tt)
  /\ kv s' = <[get_chunk_key path m pos := c]> (kv s).
Proof.
  intros ((d & ED & KW) & CK & _ & TC) FC. unfold g_write_chunk. cbn [ck_pos].
  pose proof (TC (write_calls (dtype_endian h d) t data)) as X.
  rewrite (encode_chunk_ok C h t m d data pos ED KW CK FC).
  destruct (encode_with C (am_comp m) _) as [c r]. cbn [snd] in X. subst r.
  destruct (ml_set _ _ _ ML s (get_chunk_key path m pos) c) as (s' & -> & K). by exists c, s'.
Qed.
Lemma g_write_read C h s t path m pos data s' : type_ok C t m -> Forall (elt_ok t) data ->
  full_chunk m data -> in_bounds (h_prof h) m pos = Ok true ->
  g_write_chunk st C h s t path m (Chunk pos data) = (s', Ok tt) ->
  g_read_chunk st C h s' t path m pos = Ok (Some (Chunk pos data)).
Proof.
  intros TO EO FC IB E. destruct (g_write_chunk_effect C h s t path m pos data TO FC) as (c & s1 & EC & E1 & K).
  rewrite E1 in E. injection E as ->. destruct TO as (_ & CK & LL & _).
  assert (lenZ data < two64) as L64.
  { unfold full_chunk in FC. rewrite FC. destruct CK as [_ CK2]. unfold two32, two64 in *. lia. }
  unfold g_read_chunk. rewrite IB, (ml_get _ _ _ ML), K, lookup_insert. cbn [mbind res_bind assert_].
  by rewrite (chunk_roundtrip C h t m data c pos pos LL EO L64 FC EC).
Qed.
Lemma g_read_same C h s s' t path m pos :
  kv s' !! get_chunk_key path m pos = kv s !! get_chunk_key path m pos ->
  g_read_chunk st C h s' t path m pos = g_read_chunk st C h s t path m pos.
Proof. intros E. unfold g_read_chunk. by rewrite !(ml_get _ _ _ ML), E. Qed.

(** ** All chunks of a region *)
Section loop.
Context (C : codec) (h : host) (t : rty) (path : bytes) (m : array_meta) (bb : bbox).
Context (arr : nd) (fill : Z).
Hypothesis BO : bok m bb.
Hypothesis F1 : fits (bb_shape bb).
Hypothesis TO : type_ok C t m.
Hypothesis SH : nd_shape arr = bb_shape bb.
Hypothesis GC : "c"%char ∉ am_sep m.
Hypothesis GD : match am_sep m with b :: _ => is_digit b = false | [] => False end.
Hypothesis EF : elt_ok t fill.
Hypothesis EA : forall i, index_of (bb_shape bb) i -> elt_ok t (nd_at arr i).
Let CK : chunk_shape_ok m := proj1 (proj2 TO).

Lemma g_wstep_voxel s buf pos s' buf' : in_ranges (branges m bb) pos ->
  g_write_step st C h t path m arr bb fill s buf pos = (s', Ok buf') ->
  pos_ok pos
  /\ (forall k, k <> get_chunk_key path m pos -> kv s' !! k = kv s !! k)
  /\ (in_bounds (h_prof h) m pos = Ok true -> exists ck, g_read_chunk st C h s' t path m pos = Ok (Some ck))
  /\ (forall x, grid_voxel m x ->
      (chunk_of m x = pos -> in_box (bb_off bb) (bb_shape bb) x ->
         g_voxel st C h s' t path m fill x = Ok (nd_at arr (zip_with Z.sub x (bb_off bb))))
      /\ (~ (chunk_of m x = pos /\ in_box (bb_off bb) (bb_shape bb) x) ->
         g_voxel st C h s' t path m fill x = g_voxel st C h s t path m fill x)).
Proof.
  intros Hr E.
  destruct (dims_of m bb pos BO F1 (chunk_fits m CK) Hr) as (D & OK & E1 & E2 & E3 & ->).
  assert (bb = BBox (map d_o D) (map d_e D)) as BE by (destruct bb; cbn in *; congruence).
  rewrite BE in E. rewrite E3 in SH.
  destruct (g_write_step_data C h t path m D arr fill OK E1 CK SH s buf s' buf' E)
    as (data & EW & FC & VD & KD).
  assert (pos_ok (map d_c D)) as PO.
  { apply Forall_map. eapply list.Forall_impl; [exact OK|]. unfold dim_ok, is_u64. intros d Q. nia. }
  assert (Forall (elt_ok t) data) as ED.
  { apply Forall_forall. intros v Hv%elem_of_list_In. destruct (VD v Hv) as (k & Hk & Lk).
    destruct (KD k Hk) as (v' & Lk' & Q). rewrite Lk in Lk'. injection Lk' as <-.
    destruct Q as [[Q ->]|(_ & o & Ro & ->)].
    - apply EA. rewrite E3. exact (proj1 (in_box_unshift _ _ _ Q)).
    - destruct o as [ck|]; [|done].
      destruct (g_read_chunk_inv _ _ _ _ _ _ _ _ CK Ro) as (_ & P2 & P3).
      unfold full_chunk in P2. rewrite Forall_lookup in P3. eapply P3.
      apply of_vec_at; [by rewrite E1|lia]. }
  destruct (g_write_chunk_effect C h s t path m (map d_c D) data TO FC) as (c & s1 & EC & EW1 & K).
  rewrite EW in EW1. injection EW1 as <-.
  split; [done|]. split; [intros k Hk; by rewrite K, lookup_insert_ne|].
  split; [intros IB; eexists; by eapply g_write_read|].
  intros x Hx. assert (Forall (fun s => 0 < s) (am_chunk_shape m)) as CP by apply CK.
  assert (length x = length (am_chunk_shape m)) as Lx.
  { destruct Hx as (p & Hc & _). exact (proj2 (in_chunk_of m p x CP Hc)). }
  destruct (voxel_split m x CP Lx) as [VS VI].
  destruct (decide (chunk_of m x = map d_c D)) as [CO|CO].
  - assert (in_bounds (h_prof h) m (map d_c D) = Ok true) as IB.
    { rewrite <- CO. apply chunk_of_in_bounds; [by eapply bok_grid_ok|done|done]. }
    pose proof (g_write_read C h s t path m (map d_c D) data s' TO ED FC IB EW) as RD.
    assert (VX : g_voxel st C h s' t path m fill x
      = of_option InvalidData (data !! Z.to_nat (layout_rank (am_order m) (am_chunk_shape m)
                                   (zip_with Z.modulo x (am_chunk_shape m))))).
    { unfold g_voxel. fold (chunk_of m x). rewrite CO, RD, bind_ok. done. }
    rewrite CO, E1, zip_with_map in VS. rewrite E1 in VI.
    destruct (KD _ VI) as (v & Lv & Q). rewrite <- E1 in Lv, Q, VS. rewrite VX, Lv. cbn [of_option].
    unfold NdWrite.w_in, NdWrite.w_new in Q. rewrite VS in Q. rewrite <- E2, <- E3 in Q.
    destruct Q as [[Q ->]|(Q & o & Ro & ->)].
    + split; [done|]. intros N. exfalso. by apply N.
    + split; [done|]. intros _. rewrite <- CO in Ro. destruct o as [ck|].
      * symmetry. by rewrite (g_voxel_some C h s t path m fill x ck).
      * symmetry. by apply g_voxel_none.
  - split; [done|]. intros _. unfold g_voxel. fold (chunk_of m x).
    rewrite (g_read_same C h s s'); [done|]. rewrite K, lookup_insert_ne; [done|].
    intros Q. apply CO. symmetry. eapply (chunk_key_string_inj path path); [done| |done|done|exact Q].
    by eapply chunk_of_pos_ok.
Qed.

Lemma g_wloop_voxel coords s buf s' :
  (forall pos, pos ∈ coords -> in_ranges (branges m bb) pos) ->
  g_write_loop st C h t path m arr bb fill coords s buf = (s', Ok tt) ->
  (forall k, (forall pos, pos ∈ coords -> pos_ok pos -> k <> get_chunk_key path m pos) ->
        kv s' !! k = kv s !! k)
  /\ (forall x, grid_voxel m x ->
      (chunk_of m x ∈ coords -> in_box (bb_off bb) (bb_shape bb) x ->
         g_voxel st C h s' t path m fill x = Ok (nd_at arr (zip_with Z.sub x (bb_off bb))))
      /\ (~ (chunk_of m x ∈ coords /\ in_box (bb_off bb) (bb_shape bb) x) ->
         g_voxel st C h s' t path m fill x = g_voxel st C h s t path m fill x)).
Proof.
  revert s buf. induction coords as [|pos coords IH]; intros s buf Hr E; cbn [g_write_loop] in E.
  - injection E as <-. split; [done|].
    intros x Hx. split; [|done]. intros Q. by apply elem_of_nil in Q.
  - destruct (g_write_step st _ _ _ _ _ _ _ _ _ _ _) as [s1 [buf1|e|]] eqn:E1; cbn [gthen] in E; [|done..].
    destruct (g_wstep_voxel s buf pos s1 buf1 (Hr pos (elem_of_list_here _ _)) E1)
      as (PO & SE1 & _ & V1).
    destruct (IH s1 buf1 (fun q Hq => Hr q (elem_of_list_further _ _ _ Hq)) E) as (FR & V). split.
    + intros q Hq. rewrite FR; [apply SE1, Hq; [left|done]|].
      intros p Hp. apply Hq. by right.
    + intros x Hx. destruct (V1 x Hx) as [A1 A2]. destruct (V x Hx) as [B1 B2]. split.
      * intros [Q|Q]%elem_of_cons HB; [|by apply B1].
        destruct (decide (chunk_of m x ∈ coords)) as [Y|N]; [by apply B1|].
        rewrite B2 by tauto. by apply A1.
      * intros N. rewrite B2, A2; [done| |].
        -- intros [Q1 Q2]. apply N. split; [rewrite Q1; left|done].
        -- intros [Q1 Q2]. apply N. split; [by right|done].
Qed.

(** The write goes through when the box overlaps the array and every chunk that
    is stored can be read. *)
Hypothesis OV : overlaps m bb.
Lemma g_wstep_ok s buf pos : all_readable st C h s t path m -> in_ranges (branges m bb) pos ->
  exists s' buf', g_write_step st C h t path m arr bb fill s buf pos = (s', Ok buf').
Proof.
  intros AR Hp. pose proof (overlap_in_bounds (h_prof h) m bb pos BO OV Hp) as IB.
  destruct (dims_of m bb pos BO F1 (chunk_fits m CK) Hp) as (D & OK & E1 & E2 & E3 & ->).
  assert (bb = BBox (map d_o D) (map d_e D)) as BE by (destruct bb; cbn in *; congruence).
  assert (nd_shape arr = map d_e D) as SH' by congruence.
  assert (pos_ok (map d_c D)) as PO.
  { apply Forall_map. eapply list.Forall_impl; [exact OK|]. unfold dim_ok, is_u64. intros d Q. nia. }
  assert (Forall (fun s => 0 <= s) (am_chunk_shape m)) as NN by (rewrite E1; by apply d_s_nonneg).
  rewrite BE. rewrite (g_write_step_eq C h t path m D arr fill OK E1 CK SH').
  destruct (w_covers D) eqn:HC.
  - destruct (g_write_chunk_effect C h s t path m (map d_c D) (flatten (am_order m) (w_view D arr)) TO)
      as (c & s' & _ & -> & _); [|by eexists _, _].
    assert (nd_shape (w_view D arr) = am_chunk_shape m) as VS.
    { cbn. rewrite E1. apply NdFacts.map_eq_iff. eapply list.Forall_impl; [by apply w_covers_len|].
      intros x [_ Q]. exact Q. }
    unfold full_chunk, lenZ. rewrite flatten_length; rewrite VS; [|done].
    pose proof (chunk_shape_prod_pos m CK). lia.
  - destruct (AR _ PO IB) as [o ->]. cbn [gon].
    destruct (g_write_chunk_effect C h s t path m (map d_c D) (flatten (am_order m) (w_merged m D arr fill o)) TO)
      as (c & s' & _ & -> & _); [|by eexists _, _].
    unfold full_chunk, lenZ. rewrite flatten_length; cbn [w_merged nd_shape]; [|done].
    pose proof (chunk_shape_prod_pos m CK). lia.
Qed.
Lemma g_wstep_readable s buf pos s' buf' : all_readable st C h s t path m -> in_ranges (branges m bb) pos ->
  g_write_step st C h t path m arr bb fill s buf pos = (s', Ok buf') -> all_readable st C h s' t path m.
Proof.
  intros AR Hp E. destruct (g_wstep_voxel s buf pos s' buf' Hp E) as (PO & FR & RD & _).
  intros p Pp IB. destruct (decide (p = pos)) as [->|N].
  { destruct (RD IB) as [ck ->]. by eexists. }
  rewrite (g_read_same C h s s'); [by apply AR|]. apply FR. intros Q. apply N.
  by eapply (chunk_key_string_inj path path).
Qed.
Lemma g_wloop_ok coords s buf : all_readable st C h s t path m ->
  (forall pos, pos ∈ coords -> in_ranges (branges m bb) pos) ->
  exists s', g_write_loop st C h t path m arr bb fill coords s buf = (s', Ok tt)
  /\ all_readable st C h s' t path m.
Proof.
  revert s buf. induction coords as [|pos coords IH]; intros s buf AR Hr; cbn [g_write_loop].
  - by exists s.
  - pose proof (Hr pos (elem_of_list_here _ _)) as Hp.
    destruct (g_wstep_ok s buf pos AR Hp) as (s1 & buf1 & E). rewrite E. cbn [gthen].
    apply IH; [by eapply g_wstep_readable|]. intros q Hq. apply Hr. by right.
Qed.
End loop.

Lemma g_write_region flit C h s t path m off arr s' fill :
  let bb := BBox off (nd_shape arr) in
  bok m bb -> am_shape m <> [] -> fits_memory (nd_shape arr) ->
  "c"%char ∉ am_sep m -> match am_sep m with b :: _ => is_digit b = false | [] => False end ->
  type_ok C t m -> effective_fill flit t m = Ok fill -> elt_ok t fill ->
  (forall i, index_of (nd_shape arr) i -> elt_ok t (nd_at arr i)) ->
  g_write_ndarray st flit C h s t path m off arr = (s', Ok tt) ->
  (forall k, (forall pos, pos_ok pos -> k <> get_chunk_key path m pos) -> kv s' !! k = kv s !! k)
  /\ (forall x, grid_voxel m x ->
      (in_box off (nd_shape arr) x ->
         g_voxel st C h s' t path m fill x = Ok (nd_at arr (zip_with Z.sub x off)))
      /\ (~ in_box off (nd_shape arr) x ->
         g_voxel st C h s' t path m fill x = g_voxel st C h s t path m fill x)).
Proof.
  intros bb BO NE FI GC GD TO FE EF EA E. unfold g_write_ndarray in E. fold bb in E.
  destruct (negb _); [done|]. cbv zeta in E. rewrite FE in E. cbn [gon] in E.
  rewrite (bounded_coords_eq (h_prof h) m bb BO) in E.
  destruct (mbind _ _) as [coords|e|] eqn:Ec in E; cbn [gon] in E; [|done..].
  apply bind_ok_inv in Ec as (n & _ & [= <-]).
  assert (fits (bb_shape bb)) as F1.
  { apply fits_of_prod; [exact (bok_shape_nonneg m bb BO)|exact FI]. }
  destruct (g_wloop_voxel C h t path m bb arr fill BO F1 TO eq_refl GC GD EF EA
    (product_items (branges m bb)) s [] s' (fun pos => visited_ranges m bb pos) E) as (FR & V).
  split; [intros q Hq; apply FR; auto|].
  intros x Hx. destruct (V x Hx) as [A B]. cbn [bb bb_off bb_shape] in *. split.
  - intros HB. apply A; [|done]. by apply NdFacts.visited.
  - intros N. apply B. tauto.
Qed.
Lemma g_write_succeeds flit C h s t path m off arr fill :
  let bb := BBox off (nd_shape arr) in
  bok m bb -> overlaps m bb -> fits_memory (nd_shape arr) ->
  "c"%char ∉ am_sep m -> match am_sep m with b :: _ => is_digit b = false | [] => False end ->
  type_ok C t m -> effective_fill flit t m = Ok fill -> elt_ok t fill ->
  (forall i, index_of (nd_shape arr) i -> elt_ok t (nd_at arr i)) ->
  all_readable st C h s t path m ->
  exists s', g_write_ndarray st flit C h s t path m off arr = (s', Ok tt)
  /\ all_readable st C h s' t path m.
Proof.
  intros bb BO OV FI GC GD TO FE EF EA AR. unfold g_write_ndarray. fold bb.
  pose proof (bok_length m bb BO) as (L1 & L2 & L3). cbn [bb bb_off bb_shape] in L1, L2, L3.
  rewrite bool_decide_eq_true_2 by (unfold ndim; lia). cbn [negb]. cbv zeta. rewrite FE. cbn [gon].
  rewrite (overlap_coords (h_prof h) m bb BO OV FI). cbn [gon].
  assert (fits (bb_shape bb)) as F1.
  { apply fits_of_prod; [exact (bok_shape_nonneg m bb BO)|exact FI]. }
  apply (g_wloop_ok C h t path m bb arr fill BO F1 TO eq_refl GC GD EF EA OV); [done|].
  intros pos. apply visited_ranges.
Qed.
End write.

Lemma g_read_succeeds flit C h s t path m bb fill :
  bok m bb -> overlaps m bb -> fits_memory (bb_shape bb) -> chunk_shape_ok m ->
  effective_fill flit t m = Ok fill -> all_readable st C h s t path m ->
  exists a, g_read_ndarray st flit C h s t path m bb = Ok a.
Proof.
  intros BO OV FI CK FE AR. unfold g_read_ndarray. rewrite FE, bind_ok. unfold from_elem.
  unfold fits_memory in FI. replace (_ <? _) with true by lia. cbn [assert_]. rewrite !bind_ok.
  unfold g_read_ndarray_into, g_read_ndarray_into_with_buffer. cbn [nd_shape].
  pose proof (bok_length m bb BO) as (L1 & L2 & L3). unfold ndim.
  rewrite !bool_decide_eq_true_2 by first [done|lia]. cbn [negb orb].
  rewrite (overlap_coords (h_prof h) m bb BO OV FI), bind_ok.
  assert (fits (bb_shape bb)) as F1.
  { apply fits_of_prod; [exact (bok_shape_nonneg m bb BO)|exact FI]. }
  assert (forall pos, pos ∈ product_items (branges m bb) -> exists o, g_read_chunk st C h s t path m pos = Ok o) as RD.
  { intros pos Hp%visited_ranges. apply AR; [|by eapply overlap_in_bounds].
    destruct (dims_of m bb pos BO F1 (chunk_fits m CK) Hp) as (D & OK & _ & _ & _ & ->).
    apply Forall_map. eapply list.Forall_impl; [exact OK|]. unfold dim_ok, is_u64. intros d Q. nia. }
  pose proof (g_read_fold C h s t path m bb BO F1 CK (product_items (branges m bb))
    (Nd (bb_shape bb) (fun _ => fill)) None (fun pos => visited_ranges m bb pos) eq_refl) as RF.
  destruct (foldM_res _ _ _) as [[a b]|e|].
  - rewrite bind_ok. by eexists.
  - destruct RF as (pos & Hp & E). destruct (RD pos Hp) as [o E']. congruence.
  - destruct RF as (pos & Hp & E). destruct (RD pos Hp) as [o E']. congruence.
Qed.

Lemma g_read_back erased kv flit C h s t path m off arr fill : map_like st erased kv ->
  let bb := BBox off (nd_shape arr) in
  bok m bb -> overlaps m bb -> fits_memory (nd_shape arr) -> am_shape m <> [] ->
  "c"%char ∉ am_sep m -> match am_sep m with b :: _ => is_digit b = false | [] => False end ->
  type_ok C t m -> effective_fill flit t m = Ok fill -> elt_ok t fill ->
  (forall i, index_of (nd_shape arr) i -> elt_ok t (nd_at arr i)) ->
  (forall x, in_box off (nd_shape arr) x -> index_of (am_shape m) x) ->
  all_readable st C h s t path m ->
  exists s' a, g_write_ndarray st flit C h s t path m off arr = (s', Ok tt)
  /\ g_read_ndarray st flit C h s' t path m bb = Ok a
  /\ nd_shape a = nd_shape arr /\ forall i, index_of (nd_shape arr) i -> nd_at a i = nd_at arr i.
Proof.
  intros ML bb BO OV FI NE GC GD TO FE EF EA IN AR.
  destruct (g_write_succeeds erased kv ML flit C h s t path m off arr fill BO OV FI GC GD TO FE EF EA AR) as (s' & E & AR').
  destruct (g_read_succeeds flit C h s' t path m bb fill BO OV FI (proj1 (proj2 TO)) FE AR') as [a R].
  exists s', a. split; [done|]. split; [done|].
  destruct (g_read_region _ _ _ _ _ _ _ _ _ BO (proj1 (proj2 TO)) NE R) as (fill' & Ef & S1 & V).
  rewrite FE in Ef. injection Ef as <-.
  split; [done|]. intros i Hi.
  destruct (g_write_region erased kv ML flit C h s t path m off arr s' fill BO NE FI GC GD TO FE EF EA E)
    as (_ & V'). cbn [bb bb_off bb_shape] in *.
  pose proof (bok_length m _ BO) as (L1 & L2 & L3). unfold bb in L1, L2, L3, Hi, V. cbn [bb_off bb_shape] in L1, L2, L3, Hi, V.
  assert (in_box off (nd_shape arr) (zip_with Z.add off i)) as IB by (apply in_box_shift; [lia|done]).
  assert (grid_voxel m (zip_with Z.add off i)) as G.
  { apply index_grid; [by eapply bok_chunk_pos|lia|]. by apply IN. }
  destruct (V i Hi) as [V1 _]. destruct (V' _ G) as [V2 _].
  specialize (V1 G). rewrite (V2 IB) in V1. injection V1 as <-. f_equal.
  apply index_length in Hi. assert (length i = length off) as L by lia. clear -L.
  revert off L. induction i as [|x i IH]; intros [|o off]; cbn [length]; try done.
  intros [= L]. cbn. f_equal; [lia|]. by apply IH.
Qed.
End GenNdFacts.

(** ** The file-system instance *)
Lemma loop_filesystem H C h t path m arr bb fill coords : forall s buf,
  g_write_loop (fs_store (hy_base H)) C h t path m arr bb fill coords s buf
  = write_loop C h H t path m arr bb fill coords s buf.
Proof.
  induction coords as [|c coords IH]; intros s buf; [done|]. cbn [g_write_loop write_loop].
  change (g_write_step (fs_store (hy_base H)) C h t path m arr bb fill s buf c)
    with (write_step C h H t path m arr bb fill s buf c).
  destruct (write_step C h H t path m arr bb fill s buf c) as [s1 [b|e|]]; [|done..]. apply IH.
Qed.
Lemma nd_filesystem H flit C h : let st := fs_store (hy_base H) in
  g_read_ndarray_into_with_buffer st C h = read_ndarray_into_with_buffer C h H
  /\ g_read_ndarray_into st C h = read_ndarray_into C h H
  /\ g_read_ndarray st flit C h = read_ndarray flit C h H
  /\ (forall s t path m off arr,
        g_write_ndarray st flit C h s t path m off arr = write_ndarray flit C h H s t path m off arr)
  /\ g_voxel st C h = voxel C h H.
Proof.
  intros st. do 3 (split; [reflexivity|]). split; [|reflexivity].
  intros s t path m off arr. unfold g_write_ndarray, write_ndarray. destruct (negb _); [done|]. cbv zeta.
  destruct (effective_fill flit t m); [|done..]. cbn [on gon].
  destruct (bounded_coords (h_prof h) m _); [|done..]. apply loop_filesystem.
Qed.
