(** The pure parts of region reads and writes: what one chunk, whatever it
    holds, does to the result of a region read, and what a region write makes
    of one chunk. *)
From Verif Require Import BaseFacts ChunkFacts BBoxFacts CoordIterFacts FSFacts HierFacts NdFacts NdWrite.
From Verif Require Import Spec Nd Sys SysNd.
Local Open Scope Z_scope.

Section step.
  Context (C : codec) (h : host) (H : hier) (t : rty) (path : bytes) (m : array_meta).
  Context (rsf : list Z -> list nat) (sl : bytes -> list bytes).
  Context (D : list dim) (OK : Forall dim_ok D) (CS : am_chunk_shape m = map d_s D) (CK : chunk_shape_ok m).
  Let bb := BBox (map d_o D) (map d_e D).
  Let coord := map d_c D.

  Lemma merge_some_dim arr buf ck : ck_pos ck = coord -> full_chunk m (ck_data ck) -> nd_shape arr = map d_e D ->
    exists arr', read_merge h m bb (arr, buf) (Some ck) = Ok (arr', Some ck)
      /\ nd_shape arr' = map d_e D
      /\ forall i, inb (map d_e D) i ->
         nd_at arr' i =
         if decide (zip_with Z.div (zip_with Z.add (map d_o D) i) (am_chunk_shape m) = coord)
         then cell m ck (zip_with Z.add (map d_o D) i) else nd_at arr i.
  Proof.
    intros P1 P2 SH. unfold read_merge. cbv zeta. unfold chunk_get_bounds, bb in *. rewrite P1. unfold coord in *.
    rewrite (chunk_bounds_dim (h_prof h) m D OK CS), bind_ok.
    rewrite (intersect_dim_eq (h_prof h) D OK), bind_ok.
    destruct (is_empty _) eqn:EM.
    - exists arr. split; [done|]. split; [done|]. intros i Hi.
      rewrite decide_False; [done|]. intros X.
      destruct (in_chunk_box D i OK Hi) as (z & -> & -> & F).
      rewrite CS in X. apply on_axes_chunk in X; [|done].
      unfold is_empty in EM. cbn [bb_shape] in EM. apply existsb_exists in EM as (l & Hl & El).
      apply in_map_iff in Hl as (d & Hd & Hin).
      rewrite !map_map in X. apply on_axes_map in X.
      apply in_map_iff in Hin as (w & Hw & Hin).
      rewrite Forall_forall in X. specialize (X w Hin). cbn in X.
      rewrite Hw in X. lia.
    - rewrite (sub_off D OK), bind_ok.
      pose proof (sub_chunk D OK) as SC. cbn [bb_off] in SC |- *. rewrite SC, bind_ok.
      unfold as_ndarray, chunk_get_bounds. rewrite P1.
      rewrite (chunk_bounds_dim (h_prof h) m D OK CS), bind_ok.
      unfold from_shape. cbn [bb_shape]. rewrite <- CS.
      unfold full_chunk in P2. replace (prodZ (am_chunk_shape m) <=? lenZ (ck_data ck)) with true by lia.
      cbn [assert_]. rewrite bind_ok, bind_ok.
      unfold nd_slice. cbn [of_vec nd_shape]. rewrite CS, (axes_chunk (h_prof h) D OK), !bind_ok.
      unfold nd_assign. cbn [nd_shape nd_at]. rewrite SH, (axes_off (h_prof h) D OK), !bind_ok.
      rewrite !map_map. cbn [snd fst]. rewrite bool_decide_eq_true_2 by done. cbn [assert_].
      rewrite !bind_ok. eexists. split; [done|]. split; [done|].
      intros i Hi. cbn [nd_at].
      destruct (in_chunk_box D i OK Hi) as (z & EZ1 & EZ2 & F).
      destruct (on_axes _ i) eqn:ON.
      + rewrite EZ1, EZ2 in ON. assert (X := ON). apply on_axes_chunk in X; [|done].
        rewrite decide_True by (rewrite EZ1, EZ2; exact X).
        unfold cell. rewrite CS. cbn [of_vec nd_at]. f_equal. f_equal. f_equal.
        subst D i. rewrite !map_map, !zip_with_map. apply NdFacts.map_eq_iff.
        rewrite map_map in ON. apply on_axes_map in ON.
        eapply list.Forall_impl; [apply list.Forall_and; split; [exact F|exact ON]|].
        cbn. intros [x i] [[Hx Hi2] Hq]. cbn in *.
        rewrite (mod_eq _ _ (d_c x)); unfold dim_ok, d_len, d_lo in *; lia.
      + rewrite decide_False; [done|]. intros X. rewrite EZ1, EZ2 in X, ON.
        apply on_axes_chunk in X; [|done]. congruence.
  Qed.

  Context (arr : nd) (fill : Z) (SH : nd_shape arr = map d_e D).
  Local Notation covers := (w_covers D).
  Local Notation vw := (w_view D arr).
  Local Notation merged := (w_merged m D arr fill).

  Lemma p_write_step_covers buf : covers = true ->
    p_write_step H C h rsf sl t path m arr bb fill buf coord =
    ptry (p_put H C h sl t path m (Chunk coord (flatten (am_order m) vw))) (fun _ => Ret (Ok buf)).
  Proof.
    intros HC. unfold p_write_step. cbv zeta. unfold coord, bb.
    rewrite (chunk_bounds_dim (h_prof h) m D OK CS). cbn [pres].
    rewrite (intersect_dim_eq' (h_prof h) D OK). cbn [pres].
    rewrite (sub_off D OK). cbn [pres].
    unfold nd_slice. rewrite SH, (axes_off (h_prof h) D OK), bind_ok. cbn [pres].
    rewrite !map_map. cbn [fst snd]. fold (w_view D arr) (w_covers D). by rewrite HC.
  Qed.
  Lemma p_write_step_merges buf : covers = false ->
    exists k, p_write_step H C h rsf sl t path m arr bb fill buf coord =
      ptry (p_read_chunk_into H C h rsf t path m coord (Chunk coord buf)) k
    /\ forall o, (forall ck, o = Some ck -> ck_pos ck = coord /\ full_chunk m (ck_data ck)) ->
      k o = ptry (p_put H C h sl t path m (Chunk coord (flatten (am_order m) (merged o))))
              (fun _ => Ret (Ok (flatten (w_mem m o) (merged o)))).
  Proof.
    intros HC. unfold p_write_step. cbv zeta. unfold coord, bb.
    rewrite (chunk_bounds_dim (h_prof h) m D OK CS). cbn [pres].
    rewrite (intersect_dim_eq' (h_prof h) D OK). cbn [pres].
    rewrite (sub_off D OK). cbn [pres].
    unfold nd_slice. rewrite SH, (axes_off (h_prof h) D OK), bind_ok. cbn [pres].
    rewrite !map_map. cbn [fst snd]. fold (w_view D arr) (w_covers D). rewrite HC.
    eexists. split; [reflexivity|]. cbn beta. intros o Ho.
    assert (X : (match o with
          | Some ck =>
              cb ← chunk_get_bounds (h_prof h) m ck;
              a ← into_ndarray (h_prof h) m ck;
              Ok (cb, a, am_order m)
          | None =>
              n ← product64 (h_prof h) (bb_shape (BBox (map (fun x => d_c x * d_s x) D) (map d_s D)));
              a ← from_shape_vec RowMajor (bb_shape (BBox (map (fun x => d_c x * d_s x) D) (map d_s D)))
                    (replicate (Z.to_nat n) fill);
              Ok (BBox (map (fun x => d_c x * d_s x) D) (map d_s D), a, RowMajor)
          end) = Ok (BBox (map (fun x => d_c x * d_s x) D) (map d_s D), w_old m fill o, w_mem m o)).
    { destruct o as [ck|].
      - destruct (Ho ck eq_refl) as (P1 & P2).
        unfold into_ndarray, chunk_get_bounds. rewrite P1. unfold coord.
        rewrite (chunk_bounds_dim (h_prof h) m D OK CS), !bind_ok.
        unfold from_shape_vec. cbn [bb_shape]. rewrite <- CS. unfold full_chunk in P2.
        rewrite P2, Z.eqb_refl. cbn [assert_]. by rewrite !bind_ok.
      - cbn [bb_shape]. rewrite <- CS.
        assert (P : product64 (h_prof h) (am_chunk_shape m) = Ok (prodZ (am_chunk_shape m))).
        { exact (chunk_num_ok (h_prof h) m CK). }
        rewrite P, bind_ok. unfold from_shape_vec.
        pose proof (chunk_shape_prod_pos m CK).
        replace (prodZ _ =? lenZ _) with true by (unfold lenZ; rewrite replicate_length; lia).
        cbn [assert_]. by rewrite !bind_ok. }
    rewrite X. cbn [pres]. rewrite (sub_chunk D OK). cbn [pres].
    unfold nd_assign. replace (nd_shape (w_old m fill o)) with (map d_s D) by (rewrite <- CS; by destruct o).
    rewrite (axes_chunk (h_prof h) D OK), !bind_ok.
    match goal with |- context [bool_decide ?P] => rewrite (bool_decide_eq_true_2 P) end; cycle 1.
    { by rewrite map_map. }
    cbn [assert_]. rewrite bind_ok. cbn [pres].
    unfold w_merged. rewrite CS, !map_map. done.
  Qed.

  (** The elements the step writes. *)
  Definition fresh (o : option chunk) (x : list Z) : Z := match o with Some ck => cell m ck x | None => fill end.
  Context (EF : elt_ok t fill) (EA : forall i, index_of (map d_e D) i -> elt_ok t (nd_at arr i)).

  Lemma put_data o data : (forall ck, o = Some ck -> full_chunk m (ck_data ck) /\ Forall (elt_ok t) (ck_data ck)) ->
    (covers = true /\ data = flatten (am_order m) vw) \/ (covers = false /\ data = flatten (am_order m) (merged o)) ->
    full_chunk m data /\ Forall (elt_ok t) data
    /\ forall x, length x = length (am_chunk_shape m) -> chunk_of m x = coord ->
       (in_box (map d_o D) (map d_e D) x /\ cell m (Chunk coord data) x = nd_at arr (zip_with Z.sub x (map d_o D)))
       \/ (covers = false /\ ~ in_box (map d_o D) (map d_e D) x /\ cell m (Chunk coord data) x = fresh o x).
  Proof.
    intros Ho HD.
    assert (KD : full_chunk m data /\
      (forall v, v ∈ data -> exists k, inb (map d_s D) k
        /\ data !! Z.to_nat (layout_rank (am_order m) (am_chunk_shape m) k) = Some v)
      /\ forall k, inb (map d_s D) k -> exists v,
         data !! Z.to_nat (layout_rank (am_order m) (am_chunk_shape m) k) = Some v
         /\ ((w_in D k /\ v = w_new D arr k)
             \/ (covers = false /\ ~ w_in D k /\ v = match o with
                        | Some ck => nd_at (of_vec (am_order m) (am_chunk_shape m) (ck_data ck)) k
                        | None => fill
                        end))).
    { destruct HD as [[HC ->]|[HC ->]].
      - assert (nd_shape vw = am_chunk_shape m) as VS.
        { cbn. rewrite CS. apply NdFacts.map_eq_iff. eapply list.Forall_impl; [by apply w_covers_len|].
          intros x [_ Q]. exact Q. }
        split; [|split].
        + unfold full_chunk, lenZ. rewrite flatten_length; rewrite VS.
          * pose proof (chunk_shape_prod_pos m CK). lia.
          * rewrite CS. by apply d_s_nonneg.
        + intros v Hv. apply flatten_elem in Hv as (k & Hk & ->).
          2:{ rewrite VS, CS. by apply d_s_nonneg. }
          exists k. rewrite <- VS, <- CS at 1. split; [congruence|]. by apply flatten_at.
        + intros k Hk. exists (nd_at vw k). split.
          * rewrite <- VS. apply flatten_at. by rewrite VS, CS.
          * left. by apply (w_view_at m).
      - split; [|split].
        + unfold full_chunk, lenZ. rewrite flatten_length; cbn [w_merged nd_shape].
          * pose proof (chunk_shape_prod_pos m CK). lia.
          * rewrite CS. by apply d_s_nonneg.
        + intros v Hv. apply flatten_elem in Hv as (k & Hk & ->).
          2:{ cbn [w_merged nd_shape]. rewrite CS. by apply d_s_nonneg. }
          exists k. rewrite <- CS. split; [done|]. by apply (flatten_at (am_order m) (merged o)).
        + intros k Hk. exists (nd_at (merged o) k). split.
          * apply (flatten_at (am_order m) (merged o)). cbn. by rewrite CS.
          * rewrite w_merged_at by done. case_decide as Q.
            -- left. split; [|done]. by eapply w_in_axes.
            -- right. rewrite (w_in_axes m) by done. split; [done|]. split; [done|]. by apply (w_old_at m D). }
    destruct KD as (FC & VD & KD). split; [done|]. split.
    - apply Forall_forall. intros v Hv%elem_of_list_In. destruct (VD v Hv) as (k & Hk & Lk).
      destruct (KD k Hk) as (v' & Lk' & Q). rewrite Lk in Lk'. injection Lk' as <-.
      destruct Q as [[Q ->]|(_ & _ & ->)].
      + apply EA. exact (proj1 (in_box_unshift _ _ _ Q)).
      + destruct o as [ck|]; [|done]. destruct (Ho ck eq_refl) as [P2 P3].
        unfold full_chunk in P2. rewrite Forall_lookup in P3. eapply P3.
        apply of_vec_at; [by rewrite CS|lia].
    - intros x Lx CO. assert (Forall (fun s => 0 < s) (am_chunk_shape m)) as CP by apply CK.
      destruct (voxel_split m x CP Lx) as [VS VI].
      assert (CE : Some (cell m (Chunk coord data) x) =
        data !! Z.to_nat (layout_rank (am_order m) (am_chunk_shape m) (zip_with Z.modulo x (am_chunk_shape m)))).
      { symmetry. apply of_vec_at; [done|]. unfold full_chunk in FC. cbn [ck_data]. lia. }
      unfold coord in CO. rewrite CO, CS, zip_with_map in VS. rewrite CS in VI.
      destruct (KD _ VI) as (v & Lv & Q). rewrite <- CS in Lv, Q, VS. rewrite Lv in CE. injection CE as ->.
      unfold w_in, w_new in Q. by rewrite VS in Q.
  Qed.
End step.

Section region.
  Context (C : codec) (h : host) (H : hier) (t : rty) (path : bytes) (m : array_meta) (bb : bbox).
  Context (rsf : list Z -> list nat) (sl : bytes -> list bytes).
  Context (BO : bok m bb) (F1 : fits (bb_shape bb)) (CK : chunk_shape_ok m).

  Lemma merge_cases arr buf pos o : in_ranges (branges m bb) pos -> nd_shape arr = bb_shape bb ->
    (forall ck, o = Some ck -> ck_pos ck = pos /\ full_chunk m (ck_data ck)) ->
    exists arr' buf', read_merge h m bb (arr, buf) o = Ok (arr', buf') /\ nd_shape arr' = bb_shape bb
      /\ forall i, inb (bb_shape bb) i ->
         let x := zip_with Z.add (bb_off bb) i in
         nd_at arr' i = match o with
                        | Some ck => if decide (chunk_of m x = pos) then cell m ck x else nd_at arr i
                        | None => nd_at arr i
                        end.
  Proof.
    intros Hr SH Ho. destruct o as [ck|]; [|by exists arr, buf].
    destruct (Ho ck eq_refl) as [P1 P2]. clear Ho.
    destruct (dims_of m bb pos BO F1 (chunk_fits m CK) Hr) as (D & OK & E1 & E2 & E3 & ->).
    assert (bb = BBox (map d_o D) (map d_e D)) as BE by (destruct bb; cbn in *; congruence).
    unfold chunk_of. rewrite BE in SH |- *. cbn [bb_off bb_shape] in *.
    destruct (merge_some_dim h path m rsf sl D OK E1 arr buf ck P1 P2 SH) as (arr' & Q1 & Q2 & Q3).
    by exists arr', (Some ck).
  Qed.
End region.
