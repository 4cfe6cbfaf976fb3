(** Writes to regions of one array that share no chunk all take effect (C58). *)
From Verif Require Import BaseFacts PathFacts KeyFacts FSFacts Spec SpecMeta ChunkFacts HierFacts HistFacts.
From Verif Require Import CoordIterFacts NdFacts OpsFacts.
From Verif Require Import Sys SysNd SpecShare SysFacts SysOps SysNdOps ConcFacts ConcOps ConcOwn NdWrite ConcShare.
Local Open Scope Z_scope.

Section OneArray.
  Context (flit : rty -> bytes -> Z) (C : codec) (h : host) (H : hier).
  Context (sl : bytes -> list bytes) (SL : forall b, concat (sl b) = b).
  Context (PB : plain (hy_base H)) (GX : good_suffix (ep_suffix (hy_ep H))).
  Context (t : rty) (path : bytes) (m : array_meta) (rsf : list Z -> list nat) (fill : Z).
  Context (PP : plain path) (GS : good_sep (am_sep m)) (CK : chunk_shape_ok m) (NE : am_shape m <> []).
  Context (LL : lossless C (am_comp m)) (FE : effective_fill flit t m = Ok fill) (EF : elt_ok t fill).

  Lemma read_chunk_file s s' pos : wf_fs s -> wf_fs s' -> pos_ok pos ->
    file_at s (loc (hy_base H) (get_chunk_key path m pos)) = file_at s' (loc (hy_base H) (get_chunk_key path m pos)) ->
    read_chunk C h H s t path m pos = read_chunk C h H s' t path m pos.
  Proof.
    intros W W' P E. unfold read_chunk.
    assert (plain (get_chunk_key path m pos)) by by apply plain_chunk_key; [|apply GS|].
    by rewrite !st_get_plain, E by done.
  Qed.

  Theorem disjoint_writes o ws o' : calm o -> wf_fs (view o) ->
    (forall pos, meets_array m pos -> pos_ok pos -> can_hold_file (view o) (loc (hy_base H) (get_chunk_key path m pos))) ->
    (forall w, w ∈ ws ->
       bounded_ok (am_shape m) (am_chunk_shape m) (fst w) (nd_shape (snd w)) /\ overlaps m (box_of w)
       /\ fits_memory (nd_shape (snd w))
       /\ (forall i, index_of (nd_shape (snd w)) i -> elt_ok t (nd_at (snd w) i))) ->
    (forall i j w w', i <> j -> ws !! i = Some w -> ws !! j = Some w' -> ~ share_chunk m (box_of w) (box_of w')) ->
    csteps (o, map (fun w => p_rcall flit C h H sl (region_write t path m rsf w)) ws)
      (o', map (fun _ => Ret written_ok) ws) ->
    forall x, grid_voxel m x ->
      (forall w, w ∈ ws -> in_box (fst w) (nd_shape (snd w)) x ->
         voxel C h H (view o') t path m fill x = Ok (nd_at (snd w) (zip_with Z.sub x (fst w))))
      /\ ((forall w, w ∈ ws -> ~ in_box (fst w) (nd_shape (snd w)) x) ->
         voxel C h H (view o') t path m fill x = voxel C h H (view o) t path m fill x).
  Proof.
    intros K Wf HO OK DJ ST x GX'.
    set (calls := map (region_write t path m rsf) ws).
    assert (LK : forall i c, calls !! i = Some c -> exists w, ws !! i = Some w /\ c = region_write t path m rsf w).
    { intros i c E. unfold calls in E. rewrite list_lookup_fmap in E. destruct (ws !! i) as [w|]; [|done].
      exists w. split; [done|]. by injection E as <-. }
    assert (EL : forall c, c ∈ calls -> exists w, w ∈ ws /\ c = region_write t path m rsf w).
    { intros c E. apply elem_of_list_fmap in E as (w & -> & E). by exists w. }
    assert (OKC : Forall rcall_ok calls).
    { apply list.Forall_forall. intros c E. apply EL in E as (w & E & ->). destruct (OK w E) as (BO & OV & _).
      by split_and!. }
    assert (BN : Forall by_name calls).
    { apply list.Forall_forall. by intros c (w & _ & ->)%EL. }
    assert (INJ : forall pos pos', pos_ok pos -> pos_ok pos' ->
      loc (hy_base H) (get_chunk_key path m pos) = loc (hy_base H) (get_chunk_key path m pos') -> pos = pos').
    { intros pos pos' P P' E. by apply loc_chunk_inj in E as [_ ?]. }
    assert (IN : independent H calls).
    { intros i j c d N E1 E2 q M. apply LK in E1 as (w & E1 & ->), E2 as (w' & E2 & ->).
      destruct M as (pos & P1 & M1 & Q1). unfold chunk_file in Q1. subst q. assert (X : ~ meets_box m (box_of w') pos).
      { intros X. eapply (DJ i j w w'); [done..|]. by exists pos. }
      split.
      - intros (pos' & P2 & M2 & E). apply INJ in E; [|done..]. by subst pos'.
      - intros r (pos' & P2 & M2 & Q2) [k E]. unfold chunk_file in Q2. subst r. rewrite !loc_chunk, <- !app_assoc in E.
        do 3 apply app_inv_head in E. apply X.
        assert (pos = pos') as ->; [|done]. eapply cpieces_prefix; [done|done|done| |done].
        destruct M1 as (y & (L1 & _) & _), M2 as (y' & (L2 & _) & _). congruence. }
    assert (WR : writable H (view o) calls).
    { intros c E q M. apply EL in E as (w & E & ->). destruct M as (pos & P1 & (y & A1 & A2 & A3) & Q1). unfold chunk_file in Q1. subst q.
      apply HO; [|done]. by exists y. }
    assert (ST' : csteps (o, map (p_rcall flit C h H sl) calls) (o', map (fun _ => Ret written_ok) ws)).
    { unfold calls. by rewrite map_map. }
    destruct (independent_calls flit C h H sl SL PB GX o calls o' _ K Wf OKC BN IN WR ST') as (A1 & A2 & Wf').
    (* every region write by itself *)
    assert (SOLO : forall w, w ∈ ws -> exists s',
      write_ndarray flit C h H (view o) t path m (fst w) (snd w) = (s', Ok tt)
      /\ forall q, region_file H path m (box_of w) q -> file_at (view o') q = file_at s' q).
    { intros w E. apply elem_of_list_lookup in E as [i E].
      destruct (A1 i (region_write t path m rsf w) written_ok) as (oi & R & T).
      { unfold calls. by rewrite list_lookup_fmap, E. }
      { by rewrite list_lookup_fmap, E. }
      destruct (does_rcall flit C h H sl SL (region_write t path m rsf w) o I K) as (oj & R' & V & _).
      rewrite R' in R. cbn [region_write w_rcall fst snd] in R, V. unfold written_ok in R. injection R as -> R.
      exists (view oi). split; [|exact T]. rewrite V. cbn [region_write w_rcall fst snd].
      rewrite <- R. apply surjective_pairing. }
    destruct (decide (ws = [])) as [->|NW].
    { cbn [map] in ST. assert (o' = o) as -> by (inversion ST; subst; done). split; [|done].
      intros w E. by apply elem_of_nil in E. }
    assert (BO : exists w, w ∈ ws) by (destruct ws as [|w]; [done|exists w; left]).
    destruct BO as (w0 & IN0). destruct (OK w0 IN0) as (BO0 & _).
    assert (PO : pos_ok (chunk_of m x)) by by apply (chunk_of_pos_ok m (box_of w0)).
    assert (Hs : Forall (fun s => 0 < s) (am_chunk_shape m)) by by apply (bok_chunk_pos m (box_of w0)).
    assert (VOX : forall s s', wf_fs s -> wf_fs s' ->
      file_at s (loc (hy_base H) (get_chunk_key path m (chunk_of m x)))
        = file_at s' (loc (hy_base H) (get_chunk_key path m (chunk_of m x))) ->
      voxel C h H s t path m fill x = voxel C h H s' t path m fill x).
    { intros s s' W1 W2 E. unfold voxel. fold (chunk_of m x). by rewrite (read_chunk_file s s'). }
    assert (HIT : forall w, w ∈ ws -> meets_box m (box_of w) (chunk_of m x) ->
      (in_box (fst w) (nd_shape (snd w)) x ->
         voxel C h H (view o') t path m fill x = Ok (nd_at (snd w) (zip_with Z.sub x (fst w))))
      /\ (~ in_box (fst w) (nd_shape (snd w)) x ->
         voxel C h H (view o') t path m fill x = voxel C h H (view o) t path m fill x)).
    { intros w E M. destruct (OK w E) as (BO & OV & FI & EA). destruct (SOLO w E) as (s' & WR' & T).
      destruct (write_region flit C h H (view o) t path m (fst w) (snd w) s' fill) as (W' & _ & _ & V); try done.
      rewrite (VOX (view o') s'); [by apply V|done|done|]. apply T. by exists (chunk_of m x). }
    split.
    - intros w E IB. destruct (OK w E) as (BO & OV & _). apply (HIT w E); [|done].
      apply branges_sound; [done|done|]. by apply grid_visited.
    - intros OUT. destruct (decide (Exists (fun w => chunk_of m x ∈ box_coords (branges m (box_of w))) ws)) as [X|X].
      + apply list.Exists_exists in X as (w & E & X). apply elem_of_box_coords in X. destruct (OK w E) as (BO & OV & _).
        apply (HIT w E); [by apply branges_sound|by apply OUT].
      + apply VOX; [done|done|]. apply A2. intros c E M. apply EL in E as (w & E & ->). apply X.
        apply list.Exists_exists. exists w. split; [done|]. apply elem_of_box_coords.
        destruct M as (pos & P & M & Q). unfold chunk_file in Q. apply INJ in Q; [|done..]. subst pos.
        apply branges_complete; [|done]. by destruct (OK w E).
  Qed.
End OneArray.
