(** Facts about region writes. *)
From Verif Require Import BaseFacts ChunkFacts BBoxFacts CoordIterFacts FSFacts HierFacts NdFacts.
From Verif Require Import Spec Nd.
Local Open Scope Z_scope.

Lemma inb_box_map {A} (o e x : A -> Z) (D : list A) :
  in_box (map o D) (map e D) (map x D) <-> Forall (fun a => o a <= x a < o a + e a) D.
Proof.
  unfold in_box. rewrite !map_length. split.
  - intros (_ & _ & H). apply Forall_forall. intros a Ha.
    apply elem_of_list_In, elem_of_list_lookup in Ha as [k Hk].
    apply (H k); rewrite list_lookup_fmap, Hk; done.
  - intros H. split; [done|]. split; [done|]. intros k u v w Hu Hv Hw.
    rewrite list_lookup_fmap in Hu, Hv, Hw.
    destruct (D !! k) as [a|] eqn:E; [|done]. cbn in *.
    injection Hu as <-. injection Hv as <-. injection Hw as <-.
    rewrite Forall_forall in H. apply H, elem_of_list_In, elem_of_list_lookup. by exists k.
Qed.

Section wstep.
Context (C : codec) (h : host) (H : hier) (t : rty) (path : bytes) (m : array_meta).
Context (D : list dim) (arr : nd) (fill : Z).
Hypothesis OK : Forall dim_ok D.
Hypothesis CS : am_chunk_shape m = map d_s D.
Hypothesis CK : chunk_shape_ok m.
Hypothesis SH : nd_shape arr = map d_e D.
Let bb := BBox (map d_o D) (map d_e D).
Let coord := map d_c D.

Definition w_view : nd :=
  Nd (map d_len D) (fun i => nd_at arr (zip_with Z.add (map (fun x => d_lo x - d_o x) D) i)).
Definition w_old (o : option chunk) : nd :=
  match o with
  | Some ck => of_vec (am_order m) (am_chunk_shape m) (ck_data ck)
  | None => of_vec RowMajor (am_chunk_shape m) (replicate (Z.to_nat (prodZ (am_chunk_shape m))) fill)
  end.
Definition w_merged (o : option chunk) : nd :=
  Nd (am_chunk_shape m)
     (fun i => if on_axes (map (fun x => (d_lo x - d_c x * d_s x, d_len x)) D) i
               then nd_at w_view (zip_with Z.sub i (map (fun x => d_lo x - d_c x * d_s x) D))
               else nd_at (w_old o) i).
Definition w_mem (o : option chunk) : order := match o with Some _ => am_order m | None => RowMajor end.
Definition w_covers : bool :=
  bool_decide (BBox (map d_lo D) (map d_len D) = BBox (map (fun x => d_c x * d_s x) D) (map d_s D)).

Lemma write_step_eq s buf :
  write_step C h H t path m arr bb fill s buf coord =
  if w_covers then
    andthen (write_chunk C h H s t path m (Chunk coord (flatten (am_order m) w_view)))
      (fun s1 _ => (s1, Ok buf))
  else
    on s (read_chunk C h H s t path m coord) (fun o =>
    andthen (write_chunk C h H s t path m (Chunk coord (flatten (am_order m) (w_merged o))))
      (fun s1 _ => (s1, Ok (flatten (w_mem o) (w_merged o))))).
Proof.
  unfold write_step. cbv zeta. unfold coord, bb.
  rewrite (chunk_bounds_dim (h_prof h) m D OK CS). unfold on at 1.
  rewrite (intersect_dim_eq' (h_prof h) D OK). unfold on at 1.
  rewrite (sub_off D OK). unfold on at 1.
  unfold nd_slice. rewrite SH, (axes_off (h_prof h) D OK), bind_ok. unfold on at 1.
  rewrite !map_map. cbn [fst snd]. fold w_view w_covers.
  destruct w_covers; [done|].
  rewrite read_into_eq.
  destruct (read_chunk C h H s t path m (map d_c D)) as [o|e|] eqn:E; [|done..]. cbn [on].
  assert (X : (match o with
          | Some ck =>
              cb ← chunk_get_bounds (h_prof h) m ck;
              a ← into_ndarray (h_prof h) m ck;
              Ok (cb, a, am_order m)
          | None =>
              n ← product64 (h_prof h) (bb_shape (BBox (map (fun x => d_c x * d_s x) D) (map d_s D)));
              a ← from_shape_vec RowMajor (bb_shape (BBox (map (fun x => d_c x * d_s x) D) (map d_s D)))
                    (replicate (Z.to_nat n) fill);
              Ok (BBox (map (fun x => d_c x * d_s x) D) (map d_s D), a, RowMajor)
          end) = Ok (BBox (map (fun x => d_c x * d_s x) D) (map d_s D), w_old o, w_mem o)).
  { destruct o as [ck|].
    - destruct (read_chunk_inv C h H s t path m _ ck CK E) as (P1 & P2 & _).
      unfold into_ndarray, chunk_get_bounds. rewrite P1.
      rewrite (chunk_bounds_dim (h_prof h) m D OK CS), !bind_ok.
      unfold from_shape_vec. cbn [bb_shape]. rewrite <- CS. unfold full_chunk in P2.
      rewrite P2, Z.eqb_refl. cbn [assert_]. by rewrite !bind_ok.
    - cbn [bb_shape]. rewrite <- CS.
      assert (P : product64 (h_prof h) (am_chunk_shape m) = Ok (prodZ (am_chunk_shape m))).
      { exact (chunk_num_ok (h_prof h) m CK). }
      rewrite P, bind_ok. unfold from_shape_vec.
      pose proof (chunk_shape_prod_pos m CK).
      replace (prodZ _ =? lenZ _) with true by (unfold lenZ; rewrite replicate_length; lia).
      cbn [assert_]. by rewrite !bind_ok. }
  rewrite X. cbn [on]. rewrite (sub_chunk D OK). cbn [on].
  unfold nd_assign. replace (nd_shape (w_old o)) with (map d_s D) by (rewrite <- CS; by destruct o).
  rewrite (axes_chunk (h_prof h) D OK), !bind_ok.
  match goal with |- context [bool_decide ?P] => rewrite (bool_decide_eq_true_2 P) end; cycle 1.
  { by rewrite map_map. }
  cbn [assert_]. rewrite bind_ok. cbn [on].
  unfold w_merged. rewrite CS, !map_map. done.
Qed.

(** The elements the step writes. *)
Lemma w_covers_len : w_covers = true -> Forall (fun x => d_lo x = d_c x * d_s x /\ d_len x = d_s x) D.
Proof.
  intros E%bool_decide_eq_true. injection E as E1 E2. apply list.Forall_and.
  by rewrite <- !NdFacts.map_eq_iff.
Qed.
Definition w_in (k : list Z) : Prop :=
  in_box (map d_o D) (map d_e D) (zip_with Z.add (map (fun x => d_c x * d_s x) D) k).
Definition w_new (k : list Z) : Z :=
  nd_at arr (zip_with Z.sub (zip_with Z.add (map (fun x => d_c x * d_s x) D) k) (map d_o D)).
Lemma w_in_axes k : inb (map d_s D) k ->
  w_in k <-> on_axes (map (fun x => (d_lo x - d_c x * d_s x, d_len x)) D) k = true.
Proof.
  intros Hk. destruct (split_zip D k) as (z & EZ & ->).
  { apply inb_length in Hk. by rewrite map_length in Hk. }
  unfold w_in. rewrite EZ in *. unfold inb in Hk. rewrite !map_map in *.
  rewrite Forall2_map_iff in Hk. rewrite Forall_map in OK.
  rewrite zip_with_map, on_axes_map, inb_box_map.
  split; intros Q; (eapply list.Forall_impl;
    [apply list.Forall_and; split; [exact Q|apply list.Forall_and; split; [exact OK|exact Hk]]|]);
    intros [x i] (Q1 & Q2 & Q3); cbn in *; unfold dim_ok, d_len, d_lo in *; lia.
Qed.
Lemma w_merged_at o k : inb (map d_s D) k ->
  nd_at (w_merged o) k = if decide (on_axes (map (fun x => (d_lo x - d_c x * d_s x, d_len x)) D) k = true)
                         then w_new k else nd_at (w_old o) k.
Proof.
  intros Hk. cbn [w_merged nd_at]. destruct (on_axes _ k) eqn:ON.
  - rewrite decide_True by done. unfold w_new. cbn [w_view nd_at]. f_equal.
    destruct (split_zip D k) as (z & EZ & ->).
    { apply inb_length in Hk. by rewrite map_length in Hk. }
    rewrite EZ. rewrite !map_map, !zip_with_map. apply NdFacts.map_eq_iff. apply Forall_forall.
    intros [x i] _. cbn. lia.
  - by rewrite decide_False.
Qed.
Lemma w_view_at k : w_covers = true -> inb (map d_s D) k -> w_in k /\ nd_at w_view k = w_new k.
Proof.
  intros HC Hk. apply w_covers_len in HC. split.
  - apply w_in_axes; [done|]. destruct (split_zip D k) as (z & EZ & ->).
    { apply inb_length in Hk. by rewrite map_length in Hk. }
    rewrite EZ in *. unfold inb in Hk. rewrite !map_map in *. rewrite Forall2_map_iff in Hk.
    rewrite Forall_map in HC. apply on_axes_map.
    eapply list.Forall_impl; [apply list.Forall_and; split; [exact HC|exact Hk]|].
    intros [x i] (Q1 & Q2). cbn in *. lia.
  - unfold w_new. cbn [w_view nd_at]. f_equal.
    destruct (split_zip D k) as (z & EZ & ->).
    { apply inb_length in Hk. by rewrite map_length in Hk. }
    rewrite EZ in *. rewrite !map_map, !zip_with_map. apply NdFacts.map_eq_iff.
    rewrite Forall_map in HC. eapply list.Forall_impl; [exact HC|].
    intros [x i] Q. cbn in *. lia.
Qed.
Lemma w_old_at o k : inb (map d_s D) k ->
  nd_at (w_old o) k = match o with
                      | Some ck => nd_at (of_vec (am_order m) (am_chunk_shape m) (ck_data ck)) k
                      | None => fill
                      end.
Proof.
  intros Hk. destruct o as [ck|]; [done|]. cbn [w_old].
  rewrite <- CS in Hk.
  pose proof (of_vec_at RowMajor (am_chunk_shape m)
    (replicate (Z.to_nat (prodZ (am_chunk_shape m))) fill) k Hk) as E.
  apply lookup_replicate in E as [-> _]; [done|].
  unfold lenZ. rewrite replicate_length. lia.
Qed.

Lemma d_s_nonneg : Forall (fun s => 0 <= s) (map d_s D).
Proof. apply Forall_map. eapply list.Forall_impl; [exact OK|]. unfold dim_ok. intros x Hx. lia. Qed.

Lemma write_step_data s buf s' buf' :
  write_step C h H t path m arr bb fill s buf coord = (s', Ok buf') ->
  exists data, write_chunk C h H s t path m (Chunk coord data) = (s', Ok tt)
  /\ full_chunk m data
  /\ (forall v, v ∈ data -> exists k, inb (map d_s D) k
        /\ data !! Z.to_nat (layout_rank (am_order m) (am_chunk_shape m) k) = Some v)
  /\ forall k, inb (map d_s D) k -> exists v,
     data !! Z.to_nat (layout_rank (am_order m) (am_chunk_shape m) k) = Some v
     /\ ((w_in k /\ v = w_new k)
         \/ (~ w_in k /\ exists o, read_chunk C h H s t path m coord = Ok o
             /\ v = match o with
                    | Some ck => nd_at (of_vec (am_order m) (am_chunk_shape m) (ck_data ck)) k
                    | None => fill
                    end)).
Proof.
  rewrite write_step_eq. destruct w_covers eqn:HC.
  - assert (nd_shape w_view = am_chunk_shape m) as VS.
    { cbn. rewrite CS. apply NdFacts.map_eq_iff. eapply list.Forall_impl; [by apply w_covers_len|].
      intros x [_ Q]. exact Q. }
    destruct (write_chunk _ _ _ _ _ _ _ _) as [s1 [[]|e|]] eqn:E; cbn [andthen]; [|done..].
    intros [= -> ->]. eexists. split; [exact E|]. split; [|split].
    + unfold full_chunk, lenZ. rewrite flatten_length; rewrite VS.
      * pose proof (chunk_shape_prod_pos m CK). lia.
      * rewrite CS. apply d_s_nonneg.
    + intros v Hv. apply flatten_elem in Hv as (k & Hk & ->).
      2:{ rewrite VS, CS. apply d_s_nonneg. }
      exists k. rewrite <- VS, <- CS at 1. split; [congruence|]. by apply flatten_at.
    + intros k Hk. exists (nd_at w_view k). split.
      * rewrite <- VS. apply flatten_at. by rewrite VS, CS.
      * left. by apply w_view_at.
  - destruct (read_chunk _ _ _ _ _ _ _ _) as [o|e|] eqn:R; cbn [on]; [|done..].
    destruct (write_chunk _ _ _ _ _ _ _ _) as [s1 [[]|e|]] eqn:E; cbn [andthen]; [|done..].
    intros [= -> _]. eexists. split; [exact E|]. split; [|split].
    + unfold full_chunk, lenZ. rewrite flatten_length; cbn [w_merged nd_shape].
      * pose proof (chunk_shape_prod_pos m CK). lia.
      * rewrite CS. apply d_s_nonneg.
    + intros v Hv. apply flatten_elem in Hv as (k & Hk & ->).
      2:{ cbn [w_merged nd_shape]. rewrite CS. apply d_s_nonneg. }
      exists k. rewrite <- CS. split; [done|]. by apply (flatten_at (am_order m) (w_merged o)).
    + intros k Hk. exists (nd_at (w_merged o) k). split.
      * apply (flatten_at (am_order m) (w_merged o)). cbn. by rewrite CS.
      * rewrite w_merged_at by done. case_decide as Q.
        -- left. split; [|done]. by apply w_in_axes.
        -- right. rewrite w_in_axes by done. split; [done|]. exists o. split; [done|].
           by apply w_old_at.
Qed.
End wstep.

(** ** All chunks of a region *)

Lemma bok_grid_ok m bb : bok m bb -> grid_ok m.
Proof.
  intros BO%bok_dims. unfold grid_ok.
  eapply Forall2_impl; [exact BO|]. cbn. intros d s Q. lia.
Qed.
Lemma chunk_of_in_bounds p m x : grid_ok m -> Forall (fun s => 0 < s) (am_chunk_shape m) ->
  grid_voxel m x -> in_bounds p m (chunk_of m x) = Ok true.
Proof.
  intros G Hs (pos & Hc & y & Hy & HA). destruct (in_chunk_of m pos x Hs Hc) as [-> _].
  by eapply in_bounds_covers.
Qed.
Lemma chunk_of_pos_ok m bb x : bok m bb -> grid_voxel m x -> pos_ok (chunk_of m x).
Proof.
  intros BO (pos & Hc & y & Hy & HA). pose proof (bok_chunk_pos m bb BO) as Hs.
  destruct (in_chunk_of m pos x Hs Hc) as [-> _]. destruct (in_chunk_of m pos y Hs Hy) as [<- _].
  clear x Hc Hy. destruct HA as (_ & H2 & H3).
  apply bok_dims in BO.
  unfold pos_ok, chunk_of. apply Forall_lookup_2. intros i c Hc.
  rewrite lookup_zip_with in Hc. destruct (y !! i) as [xi|] eqn:E1; [|done].
  destruct (am_chunk_shape m !! i) as [si|] eqn:E2; [|done]. cbn in Hc. injection Hc as <-.
  destruct (Forall2_lookup_r _ _ _ _ _ BO E2) as (di & Ed & Q).
  assert (0 <= xi < 0 + di) as Hx.
  { apply (H3 i); [done| |done]. apply lookup_replicate_2. by eapply lookup_lt_Some. }
  unfold is_u64. split; [apply Z.div_pos; lia|].
  apply Z.le_lt_trans with xi; [|lia]. apply Z.div_le_upper_bound; [lia|]. nia.
Qed.
(** A voxel is its chunk's corner plus its in-chunk index. *)
Lemma voxel_split m x : Forall (fun s => 0 < s) (am_chunk_shape m) ->
  length x = length (am_chunk_shape m) ->
  zip_with Z.add (zip_with Z.mul (chunk_of m x) (am_chunk_shape m))
                 (zip_with Z.modulo x (am_chunk_shape m)) = x
  /\ inb (am_chunk_shape m) (zip_with Z.modulo x (am_chunk_shape m)).
Proof.
  unfold chunk_of, inb. intros Hs. revert x.
  induction Hs as [|s cs Hs _ IH]; intros [|y x]; cbn [length]; try done.
  - intros _. split; [done|constructor].
  - intros [= Hl]. destruct (IH x Hl) as [I1 I2]. cbn. split.
    + f_equal; [|exact I1]. pose proof (Z_div_mod_eq_full y s). lia.
    + constructor; [|exact I2]. apply Z.mod_pos_bound. lia.
Qed.

Section write.
Context (C : codec) (h : host) (H : hier) (t : rty) (path : bytes) (m : array_meta) (bb : bbox).
Context (arr : nd) (fill : Z).
Hypothesis BO : bok m bb.
Hypothesis F1 : fits (bb_shape bb).
Hypothesis CK : chunk_shape_ok m.
Hypothesis SH : nd_shape arr = bb_shape bb.
Hypothesis PB : plain (hy_base H).
Hypothesis PP : plain path.
Hypothesis GS : good_sep (am_sep m).
Hypothesis LL : lossless C (am_comp m).
Hypothesis EF : elt_ok t fill.
Hypothesis EA : forall i, index_of (bb_shape bb) i -> elt_ok t (nd_at arr i).

Lemma wstep_voxel s buf pos s' buf' : wf_fs s -> in_ranges (branges m bb) pos ->
  write_step C h H t path m arr bb fill s buf pos = (s', Ok buf') ->
  pos_ok pos /\ wf_fs s' /\ dirs_kept s s'
  /\ same_except s s' (loc (hy_base H) (get_chunk_key path m pos))
  /\ (forall x, grid_voxel m x ->
      (chunk_of m x = pos -> in_box (bb_off bb) (bb_shape bb) x ->
         voxel C h H s' t path m fill x = Ok (nd_at arr (zip_with Z.sub x (bb_off bb))))
      /\ (~ (chunk_of m x = pos /\ in_box (bb_off bb) (bb_shape bb) x) ->
         voxel C h H s' t path m fill x = voxel C h H s t path m fill x)).
Proof.
  intros W Hr E.
  destruct (dims_of m bb pos BO F1 (chunk_fits m CK) Hr) as (D & OK & E1 & E2 & E3 & ->).
  assert (bb = BBox (map d_o D) (map d_e D)) as BE by (destruct bb; cbn in *; congruence).
  rewrite BE in E. rewrite E3 in SH.
  destruct (write_step_data C h H t path m D arr fill OK E1 CK SH s buf s' buf' E)
    as (data & EW & FC & VD & KD).
  assert (pos_ok (map d_c D)) as PO.
  { apply Forall_map. eapply list.Forall_impl; [exact OK|]. unfold dim_ok, is_u64. intros d Q. nia. }
  assert (Forall (elt_ok t) data) as ED.
  { apply Forall_forall. intros v Hv%elem_of_list_In. destruct (VD v Hv) as (k & Hk & Lk).
    destruct (KD k Hk) as (v' & Lk' & Q). rewrite Lk in Lk'. injection Lk' as <-.
    destruct Q as [[Q ->]|(_ & o & Ro & ->)].
    - apply EA. rewrite E3. exact (proj1 (in_box_unshift _ _ _ Q)).
    - destruct o as [ck|]; [|done].
      destruct (read_chunk_inv _ _ _ _ _ _ _ _ _ CK Ro) as (_ & P2 & P3).
      unfold full_chunk in P2. rewrite Forall_lookup in P3. eapply P3.
      apply of_vec_at; [by rewrite E1|lia]. }
  destruct (write_chunk_effect _ _ _ _ _ _ _ (Chunk (map d_c D) data) _ _ W PB PP (proj2 (proj2 (proj2 GS))) PO EW)
    as (W' & SE & DK & _).
  cbn [ck_pos] in SE.
  split; [done|]. split; [done|]. split; [done|]. split; [done|].
  intros x Hx. assert (Forall (fun s => 0 < s) (am_chunk_shape m)) as CP by apply CK.
  assert (length x = length (am_chunk_shape m)) as Lx.
  { destruct Hx as (p & Hc & _). exact (proj2 (in_chunk_of m p x CP Hc)). }
  destruct (voxel_split m x CP Lx) as [VS VI].
  destruct (decide (chunk_of m x = map d_c D)) as [CO|CO].
  - assert (in_bounds (h_prof h) m (map d_c D) = Ok true) as IB.
    { rewrite <- CO. apply chunk_of_in_bounds; [by eapply bok_grid_ok|done|done]. }
    assert (lenZ data < two64) as L64.
    { unfold full_chunk in FC. rewrite FC. destruct CK as [_ CK2]. unfold two32, two64 in *. lia. }
    destruct (write_read C h H s t path m (map d_c D) data s' (Chunk [] []) LL ED L64 FC IB EW) as [RD _].
    assert (VX : voxel C h H s' t path m fill x
      = of_option InvalidData (data !! Z.to_nat (layout_rank (am_order m) (am_chunk_shape m)
                                   (zip_with Z.modulo x (am_chunk_shape m))))).
    { unfold voxel. fold (chunk_of m x). rewrite CO, RD, bind_ok. done. }
    rewrite CO, E1, zip_with_map in VS. rewrite E1 in VI.
    destruct (KD _ VI) as (v & Lv & Q). rewrite <- E1 in Lv, Q, VS. rewrite VX, Lv. cbn [of_option].
    unfold w_in, w_new in Q. rewrite VS in Q. rewrite <- E2, <- E3 in Q.
    destruct Q as [[Q ->]|(Q & o & Ro & ->)].
    + split; [done|]. intros N. exfalso. by apply N.
    + split; [done|]. intros _. rewrite <- CO in Ro. destruct o as [ck|].
      * symmetry. by rewrite (voxel_some C h H s t path m fill x ck).
      * symmetry. by apply voxel_none.
  - split; [done|]. intros _. unfold voxel. fold (chunk_of m x).
    rewrite (frame_chunks C h H s s' path m (map d_c D)); try done.
    + by eapply chunk_of_pos_ok.
    + congruence.
Qed.

Lemma wloop_voxel coords s buf s' : wf_fs s ->
  (forall pos, pos ∈ coords -> in_ranges (branges m bb) pos) ->
  write_loop C h H t path m arr bb fill coords s buf = (s', Ok tt) ->
  wf_fs s' /\ dirs_kept s s'
  /\ (forall q, (forall pos, pos ∈ coords -> pos_ok pos -> q <> loc (hy_base H) (get_chunk_key path m pos)) ->
        file_at s' q = file_at s q)
  /\ (forall x, grid_voxel m x ->
      (chunk_of m x ∈ coords -> in_box (bb_off bb) (bb_shape bb) x ->
         voxel C h H s' t path m fill x = Ok (nd_at arr (zip_with Z.sub x (bb_off bb))))
      /\ (~ (chunk_of m x ∈ coords /\ in_box (bb_off bb) (bb_shape bb) x) ->
         voxel C h H s' t path m fill x = voxel C h H s t path m fill x)).
Proof.
  revert s buf. induction coords as [|pos coords IH]; intros s buf W Hr E; cbn [write_loop] in E.
  - injection E as <-. split; [done|]. split; [by intros q|]. split; [done|].
    intros x Hx. split; [|done]. intros Q. by apply elem_of_nil in Q.
  - destruct (write_step _ _ _ _ _ _ _ _ _ _ _ _) as [s1 [buf1|e|]] eqn:E1; cbn [andthen] in E; [|done..].
    destruct (wstep_voxel s buf pos s1 buf1 W (Hr pos (elem_of_list_here _ _)) E1)
      as (PO & W1 & DK1 & SE1 & V1).
    destruct (IH s1 buf1 W1 (fun q Hq => Hr q (elem_of_list_further _ _ _ Hq)) E)
      as (W' & DK & FR & V).
    split; [done|]. split; [intros q Hq; auto|]. split.
    + intros q Hq. rewrite FR; [apply SE1, Hq; [left|done]|].
      intros p Hp. apply Hq. by right.
    + intros x Hx. destruct (V1 x Hx) as [A1 A2]. destruct (V x Hx) as [B1 B2]. split.
      * intros [Q|Q]%elem_of_cons HB; [|by apply B1].
        destruct (decide (chunk_of m x ∈ coords)) as [Y|N]; [by apply B1|].
        rewrite B2 by tauto. by apply A1.
      * intros N. rewrite B2, A2; [done| |].
        -- intros [Q1 Q2]. apply N. split; [rewrite Q1; left|done].
        -- intros [Q1 Q2]. apply N. split; [by right|done].
Qed.
End write.

Lemma fits_of_prod shape : Forall (fun s => 0 <= s) shape ->
  prodZ (filter (fun s => s <> 0) shape) < 2 ^ 63 -> fits shape.
Proof.
  intros Hs Q. eapply (from_elem_inv shape 0); [done|]. unfold from_elem.
  replace (_ <? _) with true by lia. done.
Qed.
Lemma write_region flit C h H s t path m off arr s' fill :
  let bb := BBox off (nd_shape arr) in
  bok m bb -> chunk_shape_ok m -> am_shape m <> [] ->
  prodZ (filter (fun s => s <> 0) (nd_shape arr)) < 2 ^ 63 ->
  wf_fs s -> plain (hy_base H) -> plain path -> good_sep (am_sep m) ->
  lossless C (am_comp m) -> effective_fill flit t m = Ok fill -> elt_ok t fill ->
  (forall i, index_of (nd_shape arr) i -> elt_ok t (nd_at arr i)) ->
  write_ndarray flit C h H s t path m off arr = (s', Ok tt) ->
  wf_fs s' /\ dirs_kept s s'
  /\ (forall q, (forall pos, pos_ok pos -> q <> loc (hy_base H) (get_chunk_key path m pos)) ->
        file_at s' q = file_at s q)
  /\ (forall x, grid_voxel m x ->
      (in_box off (nd_shape arr) x ->
         voxel C h H s' t path m fill x = Ok (nd_at arr (zip_with Z.sub x off)))
      /\ (~ in_box off (nd_shape arr) x ->
         voxel C h H s' t path m fill x = voxel C h H s t path m fill x)).
Proof.
  intros bb BO CK NE FI W PB PP GS LL FE EF EA E. unfold write_ndarray in E. fold bb in E.
  destruct (negb _); [done|]. cbv zeta in E. rewrite FE in E. cbn [on] in E.
  rewrite (bounded_coords_eq (h_prof h) m bb BO) in E.
  destruct (mbind _ _) as [coords|e|] eqn:Ec in E; cbn [on] in E; [|done..].
  apply bind_ok_inv in Ec as (n & _ & [= <-]).
  assert (fits (bb_shape bb)) as F1.
  { apply fits_of_prod; [exact (bok_shape_nonneg m bb BO)|exact FI]. }
  destruct (wloop_voxel C h H t path m bb arr fill BO F1 CK eq_refl PB PP GS LL EF EA
    (product_items (branges m bb)) s [] s' W (fun pos => visited_ranges m bb pos) E)
    as (W' & DK & FR & V).
  split; [done|]. split; [done|]. split; [intros q Hq; apply FR; auto|].
  intros x Hx. destruct (V x Hx) as [A B]. cbn [bb bb_off bb_shape] in *. split.
  - intros HB. apply A; [|done]. by apply NdFacts.visited.
  - intros N. apply B. tauto.
Qed.
