(** Property theorems: region reads that no write overlaps are snapshots (C77). *)
From Verif Require Import Hier Nd Sys SysNd Spec SpecMeta SpecSys SpecConc SpecShare SpecKeep BaseFacts FSFacts StoreFacts
  SysWit ConcWit SnapFacts ShareWit Props_Chunk Props_Store Props_Nd Props_Crash Props_Region Props_Share Props_Voxel.
Local Open Scope Z_scope.

(** C77: calls run in any order of their system calls, first those of [s1],
    which leads to the files of [o1], then those of [s2].  A region read [j]
    begins after [s1] and succeeds within [s2].  Every call that writes a chunk
    of the region has returned after [s1], or does not begin before the end of
    [s2].  The chunks of the region exist and no call takes them away.  Then the
    read returns the region as it is in [o1]: each voxel has the value it has
    in this one state of the files, whatever the other calls do meanwhile. *)
Theorem C77_region_read_snapshot :
  forall flit C h H sl, (forall b, concat (sl b) = b) ->
  plain (hy_base H) -> good_suffix (ep_suffix (hy_ep H)) ->
  forall t path m d fill, plain path -> good_sep (am_sep m) ->
  Forall2 (fun n s => 0 <= n /\ 0 < s /\ n + s < two64) (am_shape m) (am_chunk_shape m) ->
  chunk_shape_ok m -> am_shape m <> [] ->
  lossless C (am_comp m) -> total_codec C (am_comp m) -> effective m d -> same_kind_width d t ->
  effective_fill flit t m = Ok fill -> elt_ok t fill ->
  forall o calls s1 o1 ps1 s2 o2 ps2, calm o -> wf_fs (view o) -> Forall rcall_ok calls -> Forall (agrees C h t path m) calls ->
  crun o (map (p_rcall flit C h H sl) calls) s1 = Some (o1, ps1) -> crun o1 ps1 s2 = Some (o2, ps2) ->
  forall j path' bb arr, pieces path' = pieces path ->
  (exists rsf, calls !! j = Some (RRead t path' m bb rsf)) \/ (exists arr0 rsf, calls !! j = Some (RReadInto t path' m bb arr0 rsf)) ->
  j ∉ s1 -> returned ps2 j (YRegion (Ok arr)) ->
  (forall pos, meets_box m bb pos -> (exists ck, read_chunk C h H (view o) t path m pos = Ok (Some ck))
     /\ forall c, c ∈ calls -> ~ takes_away path pos c) ->
  (forall k e pos, calls !! k = Some e -> meets_box m bb pos -> writes_into path m pos e ->
     (exists a, returned ps1 k a) \/ k ∉ s1 ++ s2) ->
  forall i, index_of (bb_shape bb) i ->
  in_box (replicate (length (am_shape m)) 0) (am_shape m) (zip_with Z.add (bb_off bb) i) ->
  voxel C h H (view o1) t path m fill (zip_with Z.add (bb_off bb) i) = Ok (nd_at arr i).
Proof. exact region_read_snapshot. Qed.
Print Assumptions C77_region_read_snapshot.

(** A write of part of a chunk has returned; a write of another chunk goes on
    while the first chunk is read; another write of it has not begun. *)
Definition ex_snap : list rcall :=
  [RWrite RI16 ex_path ex_meta [2; 3] (ex_block 5) ex_rsf;
   RWrite RI16 ex_path ex_meta [0; 0] (ex_block 7) ex_rsf;
   RWrite RI16 ex_path ex_meta [3; 4] (ex_block 6) ex_rsf;
   RRead RI16 ex_path ex_meta (BBox [2; 3] [2; 3]) ex_rsf].
Definition ex_snap_ps := map (p_rcall ex_flit ex_codec ex_host ex_hier cuts) ex_snap.
Definition ex_snap_s1 : list nat := repeat 0%nat 12 ++ [1; 1; 1]%nat.
Definition ex_snap_s2 : list nat := [3; 3; 1; 1; 3; 1; 3; 3; 3]%nat.
Definition ex_snap_mid := crun ex_os ex_snap_ps ex_snap_s1.
Definition ex_snap_end := crun (end_os ex_snap_mid) (end_ps ex_snap_mid) ex_snap_s2.
Example C77_example :
  (forall b, concat (cuts b) = b) /\ plain (hy_base ex_hier) /\ good_suffix (ep_suffix (hy_ep ex_hier)) /\ plain ex_path
  /\ Forall2 (fun n s => 0 <= n /\ 0 < s /\ n + s < two64) (am_shape ex_meta) (am_chunk_shape ex_meta)
  /\ chunk_shape_ok ex_meta /\ lossless ex_codec (am_comp ex_meta) /\ total_codec ex_codec (am_comp ex_meta)
  /\ (exists d, effective ex_meta d /\ same_kind_width d RI16)
  /\ effective_fill ex_flit RI16 ex_meta = Ok 0
  /\ calm ex_os /\ wf_fs (view ex_os) /\ Forall rcall_ok ex_snap
  /\ Forall (agrees ex_codec ex_host RI16 ex_path ex_meta) ex_snap
  /\ crun ex_os ex_snap_ps ex_snap_s1 = Some (end_os ex_snap_mid, end_ps ex_snap_mid)
  /\ crun (end_os ex_snap_mid) (end_ps ex_snap_mid) ex_snap_s2 = Some (end_os ex_snap_end, end_ps ex_snap_end)
  /\ ex_snap !! 3%nat = Some (RRead RI16 ex_path ex_meta (BBox [2; 3] [2; 3]) ex_rsf)
  /\ 3%nat ∉ ex_snap_s1
  /\ (exists arr, returned (end_ps ex_snap_end) 3 (YRegion (Ok arr)))
  /\ (forall pos, meets_box ex_meta (BBox [2; 3] [2; 3]) pos ->
        (exists ck, read_chunk ex_codec ex_host ex_hier (view ex_os) RI16 ex_path ex_meta pos = Ok (Some ck))
        /\ forall c, c ∈ ex_snap -> ~ takes_away ex_path pos c)
  /\ (forall k e pos, ex_snap !! k = Some e -> meets_box ex_meta (BBox [2; 3] [2; 3]) pos -> writes_into ex_path ex_meta pos e ->
        (exists a, returned (end_ps ex_snap_mid) k a) \/ k ∉ ex_snap_s1 ++ ex_snap_s2)
  /\ map answer (end_ps ex_snap_mid) = [Some written_ok; None; None; None]
  /\ map (fun a => match a with Some (YRegion r) => nd_list r | _ => Panic end) (map answer (end_ps ex_snap_end))
     = [Panic; Panic; Panic; Ok ([2; 3], [5; 5; 32767; 5; 5; 0])].
Proof.
  destruct ex_state_ok as (_ & _ & X3 & X4 & _ & _ & X7 & _).
  assert (RT : forall o ps s, match crun o ps s with Some _ => true | None => false end = true ->
    crun o ps s = Some (end_os (crun o ps s), end_ps (crun (A := rreply) o ps s))).
  { intros o ps s E. destruct (crun o ps s) as [[]|]; done. }
  assert (AR : forall (ps : list (proc rreply)) i a, (p ← ps !! i; answer p) = Some a -> returned ps i a).
  { intros ps i a E. destruct (ps !! i) as [p|] eqn:EP; [|done]. cbn in E. apply answer_ret in E as ->. exact EP. }
  assert (RR : forall (ps : list (proc rreply)) i, match ps !! i with Some (Ret (YRegion (Ok _))) => true | _ => false end = true ->
    exists arr, returned ps i (YRegion (Ok arr))).
  { intros ps i E. unfold returned. destruct (ps !! i) as [[a|]|]; [|discriminate E..].
    destruct a as [|r]; [discriminate E|]. destruct r as [arr| |]; [by exists arr|discriminate E..]. }
  assert (ONE : forall pos, meets_box ex_meta (BBox [2; 3] [2; 3]) pos -> pos = [1; 1]).
  { intros pos (y & (C1 & C2 & C3) & _ & (_ & _ & B3)). cbn [bb_off bb_shape] in B3.
    destruct pos as [|p0 [|p1 [|]]]; try discriminate C1. destruct y as [|y0 [|y1 [|]]]; try discriminate C2.
    pose proof (C3 0%nat p0 2 y0 eq_refl eq_refl eq_refl). pose proof (B3 0%nat y0 2 2 eq_refl eq_refl eq_refl).
    pose proof (C3 1%nat p1 3 y1 eq_refl eq_refl eq_refl). pose proof (B3 1%nat y1 3 3 eq_refl eq_refl eq_refl).
    f_equal; [|f_equal]; lia. }
  split; [apply cuts_concat|]. split; [exact X3|]. split; [exact X7|]. split; [exact X4|].
  split; [repeat constructor; done|]. split; [split; repeat constructor; vm_compute; done|].
  split; [apply C01_raw_lossless|]. split; [by intros ws|]. split; [eexists; split; [by left|done]|]. split; [reflexivity|].
  split; [apply ex_os_calm|]. split; [apply ex_os_wf|]. split.
  { assert (R : forall a b c d x y, 0 <= x < 5 -> 0 <= y < 7 -> a <= x < a + c -> b <= y < b + d ->
      0 <= a < 10 -> 0 <= b < 10 -> c < 10 -> d < 10 -> region_ok ex_path ex_meta (BBox [a; b] [c; d])).
    { intros. split; [done|]. split; [apply ex_state_ok|]. split; [repeat constructor; cbn; unfold two64; lia|by apply (ex_box _ _ _ _ x y)]. }
    unfold ex_snap. repeat (apply list.Forall_cons; split); [..|done]; cbn [rcall_ok nd_shape ex_block].
    - apply (R _ _ _ _ 2 3); lia.
    - apply (R _ _ _ _ 0 0); lia.
    - apply (R _ _ _ _ 3 4); lia.
    - apply (R _ _ _ _ 2 3); lia. }
  split.
  { unfold ex_snap. repeat (apply list.Forall_cons; split); [..|done]; cbn [agrees nd_shape ex_block]; intros.
    1-3: split; [done|]; split; [done|]; split; [reflexivity|]; by intros i _.
    by split_and!. }
  split; [apply RT; vm_compute; reflexivity|]. split; [apply RT; vm_compute; reflexivity|]. split; [reflexivity|].
  split; [apply (bool_decide_eq_true_1 _); vm_compute; reflexivity|].
  split; [apply RR; vm_compute; reflexivity|]. split.
  { intros pos ->%ONE. split; [eexists; vm_compute; reflexivity|].
    intros c [->|[->|[->|[->|X]%elem_of_cons]%elem_of_cons]%elem_of_cons]%elem_of_cons; [intros []..|by apply elem_of_nil in X]. }
  split.
  { intros k e pos EK ->%ONE WK. destruct k as [|[|[|[|k]]]]; [| | | |discriminate EK]; injection EK as <-; cbn [writes_into] in WK.
    - left. exists written_ok. apply AR. vm_compute. reflexivity.
    - exfalso. destruct WK as (_ & y & (C1 & C2 & C3) & _ & (_ & _ & B3)).
      destruct y as [|y0 [|y1 [|]]]; try discriminate C2.
      specialize (C3 0%nat 1 2 y0 eq_refl eq_refl eq_refl). specialize (B3 0%nat y0 0 2 eq_refl eq_refl eq_refl). lia.
    - right. apply (bool_decide_eq_true_1 _). vm_compute. reflexivity.
    - destruct WK. }
  split; vm_compute; reflexivity.
Qed.
