(** Property theorems: region writes that do not overlap in time with other
    writes of the same chunks are kept (C76). *)
From Verif Require Import Hier Nd Sys SysNd Spec SpecMeta SpecSys SpecConc SpecShare SpecKeep BaseFacts FSFacts StoreFacts
  SysWit ConcWit KeepFacts ShareWit Props_Chunk Props_Store Props_Nd Props_Crash Props_Region Props_Share Props_Voxel.
Local Open Scope Z_scope.

(** C76: let a region write or chunk write [k], run together with any calls in
    any order of their system calls, give a voxel the value [v] and succeed.
    The chunk of the voxel exists and no call takes it away.  Every other call
    that writes this chunk either had returned before [k] began, or began after
    [k] had returned and gives the voxel no value.  Then reads that begin after
    [k] has returned see [v], and when all calls have returned the voxel is
    [v]: no later write of other voxels of the chunk undoes the write. *)
Theorem C76_region_write_kept :
  forall flit C h H sl, (forall b, concat (sl b) = b) ->
  plain (hy_base H) -> good_suffix (ep_suffix (hy_ep H)) ->
  forall t path m d fill, plain path -> good_sep (am_sep m) ->
  Forall2 (fun n s => 0 <= n /\ 0 < s /\ n + s < two64) (am_shape m) (am_chunk_shape m) ->
  chunk_shape_ok m -> am_shape m <> [] ->
  lossless C (am_comp m) -> total_codec C (am_comp m) -> effective m d -> same_kind_width d t ->
  effective_fill flit t m = Ok fill -> elt_ok t fill ->
  forall o calls sched o' ps, calm o -> wf_fs (view o) -> Forall rcall_ok calls -> Forall (agrees C h t path m) calls ->
  crun o (map (p_rcall flit C h H sl) calls) sched = Some (o', ps) ->
  forall x pos ck0, grid_voxel m x -> in_chunk (am_chunk_shape m) pos x ->
  read_chunk C h H (view o) t path m pos = Ok (Some ck0) -> (forall c, c ∈ calls -> ~ takes_away path pos c) ->
  let before := ended_before flit C h H sl o calls sched in
  forall k c v, calls !! k = Some c -> gives path m fill x c v -> returned ps k written_ok ->
  (forall j e, j <> k -> calls !! j = Some e -> writes_into path m pos e ->
     before j k \/ before k j /\ forall w, ~ gives path m fill x e w) ->
  (forall j path' bb rsf arr i, calls !! j = Some (RRead t path' m bb rsf) -> pieces path' = pieces path -> before k j ->
     returned ps j (YRegion (Ok arr)) -> index_of (bb_shape bb) i -> zip_with Z.add (bb_off bb) i = x -> nd_at arr i = v) /\
  (forall j path' bb arr0 rsf arr i, calls !! j = Some (RReadInto t path' m bb arr0 rsf) -> pieces path' = pieces path -> before k j ->
     returned ps j (YRegion (Ok arr)) -> index_of (bb_shape bb) i -> zip_with Z.add (bb_off bb) i = x -> nd_at arr i = v) /\
  (forall j path' rs r, calls !! j = Some (RCall (KReadChunk t path' m pos rs)) -> pieces path' = pieces path -> before k j ->
     returned ps j (YReply (YChunk (Ok r))) -> exists ck, r = Some ck /\ element m ck x = Some v) /\
  (all_returned ps -> voxel C h H (view o') t path m fill x = Ok v).
Proof. exact region_write_kept. Qed.
Print Assumptions C76_region_write_kept.

(** A write of part of a chunk, at the same time as a write of other chunks;
    then a write of another part of the chunk at the same time as a read. *)
Definition ex_keep : list rcall :=
  [RWrite RI16 ex_path ex_meta [2; 3] (ex_block 5) ex_rsf;
   RWrite RI16 ex_path ex_meta [0; 0] (ex_block 7) ex_rsf;
   RWrite RI16 ex_path ex_meta [3; 4] (ex_block 6) ex_rsf;
   RRead RI16 ex_path ex_meta (BBox [1; 2] [3; 3]) ex_rsf].
Definition ex_keep_ps := map (p_rcall ex_flit ex_codec ex_host ex_hier cuts) ex_keep.
Definition ex_keep_s1 := turns 500 (fun i => match i with O => 5 | S O => 3 | _ => 0 end)%nat ex_os ex_keep_ps 0 5.
Definition ex_keep_mid := crun ex_os ex_keep_ps ex_keep_s1.
Definition ex_keep_s2 := turns 500 (fun _ => 4%nat) (end_os ex_keep_mid) (end_ps ex_keep_mid) 2 7.
Definition ex_keep_end := crun ex_os ex_keep_ps (ex_keep_s1 ++ ex_keep_s2).
Definition ex_keep_before := ended_before ex_flit ex_codec ex_host ex_hier cuts ex_os ex_keep (ex_keep_s1 ++ ex_keep_s2).
Example C76_example :
  (forall b, concat (cuts b) = b) /\ plain (hy_base ex_hier) /\ good_suffix (ep_suffix (hy_ep ex_hier)) /\ plain ex_path
  /\ Forall2 (fun n s => 0 <= n /\ 0 < s /\ n + s < two64) (am_shape ex_meta) (am_chunk_shape ex_meta)
  /\ chunk_shape_ok ex_meta /\ lossless ex_codec (am_comp ex_meta) /\ total_codec ex_codec (am_comp ex_meta)
  /\ (exists d, effective ex_meta d /\ same_kind_width d RI16)
  /\ effective_fill ex_flit RI16 ex_meta = Ok 0
  /\ calm ex_os /\ wf_fs (view ex_os) /\ Forall rcall_ok ex_keep
  /\ Forall (agrees ex_codec ex_host RI16 ex_path ex_meta) ex_keep
  /\ crun ex_os ex_keep_ps (ex_keep_s1 ++ ex_keep_s2) = Some (end_os ex_keep_end, end_ps ex_keep_end)
  /\ grid_voxel ex_meta [2; 3] /\ in_chunk (am_chunk_shape ex_meta) [1; 1] [2; 3]
  /\ read_chunk ex_codec ex_host ex_hier (view ex_os) RI16 ex_path ex_meta [1; 1]
     = Ok (Some (Chunk [1; 1] [-1; 2; 300; -32768; 32767; 0]))
  /\ (forall c, c ∈ ex_keep -> ~ takes_away ex_path [1; 1] c)
  /\ (exists c, ex_keep !! 0%nat = Some c /\ gives ex_path ex_meta 0 [2; 3] c 5)
  /\ returned (end_ps ex_keep_end) 0 written_ok
  /\ (forall j e, j <> 0%nat -> ex_keep !! j = Some e -> writes_into ex_path ex_meta [1; 1] e ->
        ex_keep_before j 0%nat \/ ex_keep_before 0%nat j /\ forall w, ~ gives ex_path ex_meta 0 [2; 3] e w)
  /\ (exists e, ex_keep !! 2%nat = Some e /\ writes_into ex_path ex_meta [1; 1] e)
  /\ ex_keep_before 0%nat 3%nat
  /\ firstn 9 ex_keep_s1 = [0; 0; 0; 0; 0; 1; 1; 1; 0]%nat
  /\ all_returned (end_ps ex_keep_end)
  /\ map (fun a => match a with Some (YRegion r) => nd_list r | _ => Panic end) (map answer (end_ps ex_keep_end))
     = [Panic; Panic; Panic; Ok ([3; 3], [0; 0; 0; 0; 5; 5; 0; 5; 6])]
  /\ map (ex_vox (view ex_os)) [[2; 3]; [3; 4]; [3; 5]] = [Ok (-1); Ok (-32768); Ok 0]
  /\ map (ex_vox (view (end_os ex_keep_end))) [[2; 3]; [3; 4]; [3; 5]] = [Ok 5; Ok 6; Ok 6].
Proof.
  destruct ex_state_ok as (_ & _ & X3 & X4 & _ & _ & X7 & _).
  assert (GS : good_sep (am_sep ex_meta)) by apply ex_state_ok.
  assert (BX : forall a b c d y z, a <= y < a + c -> b <= z < b + d -> in_box [a; b] [c; d] [y; z]).
  { intros. split; [done|split; [done|]]. intros i xi oi si E1 E2 E3.
    destruct i as [|[|i]]; cbn in E1, E2, E3; try done; injection E1 as <-; injection E2 as <-; injection E3 as <-; lia. }
  assert (IC : in_chunk (am_chunk_shape ex_meta) [1; 1] [2; 3]).
  { split; [done|split; [done|]]. intros i xi oi si E1 E2 E3.
    destruct i as [|[|i]]; cbn in E1, E2, E3; try done; injection E1 as <-; injection E2 as <-; injection E3 as <-; lia. }
  assert (RT : forall o ps s, match crun o ps s with Some _ => true | None => false end = true ->
    crun o ps s = Some (end_os (crun o ps s), end_ps (crun (A := rreply) o ps s))).
  { intros o ps s E. destruct (crun o ps s) as [[]|]; done. }
  assert (AR : forall (ps : list (proc rreply)) i a, (p ← ps !! i; answer p) = Some a -> returned ps i a).
  { intros ps i a E. destruct (ps !! i) as [p|] eqn:EP; [|done]. cbn in E. apply answer_ret in E as ->. exact EP. }
  assert (AA : forall ps : list (proc rreply),
    forallb (fun p => match answer p with Some _ => true | None => false end) ps = true -> all_returned ps).
  { intros ps F i q Q. apply elem_of_list_lookup_2, elem_of_list_In in Q.
    pose proof (proj1 (forallb_forall _ _) F q Q) as A. cbn beta in A.
    destruct q as [a|]; [by exists a|discriminate A]. }
  assert (FB : forall j, (j = 2 \/ j = 3)%nat -> ex_keep_before 0%nat j).
  { intros j J. exists ex_keep_s1, ex_keep_s2, (end_os ex_keep_mid), (end_ps ex_keep_mid), written_ok.
    split; [reflexivity|]. split; [apply RT; vm_compute; reflexivity|]. split; [apply AR; vm_compute; reflexivity|].
    destruct J as [-> | ->]; apply (bool_decide_eq_true_1 _); vm_compute; reflexivity. }
  split; [apply cuts_concat|]. split; [exact X3|]. split; [exact X7|]. split; [exact X4|].
  split; [repeat constructor; done|]. split; [split; repeat constructor; vm_compute; done|].
  split; [apply C01_raw_lossless|]. split; [by intros ws|]. split; [eexists; split; [by left|done]|]. split; [reflexivity|].
  split; [apply ex_os_calm|]. split; [apply ex_os_wf|]. split.
  { assert (R : forall a b c d x y, 0 <= x < 5 -> 0 <= y < 7 -> a <= x < a + c -> b <= y < b + d ->
      0 <= a < 10 -> 0 <= b < 10 -> c < 10 -> d < 10 -> region_ok ex_path ex_meta (BBox [a; b] [c; d])).
    { intros. split; [done|]. split; [done|]. split; [repeat constructor; cbn; unfold two64; lia|by apply (ex_box _ _ _ _ x y)]. }
    unfold ex_keep. repeat (apply list.Forall_cons; split); [..|done]; cbn [rcall_ok nd_shape ex_block].
    - apply (R _ _ _ _ 2 3); lia.
    - apply (R _ _ _ _ 0 0); lia.
    - apply (R _ _ _ _ 3 4); lia.
    - apply (R _ _ _ _ 1 2); lia. }
  split.
  { unfold ex_keep. repeat (apply list.Forall_cons; split); [..|done]; cbn [agrees nd_shape ex_block]; intros.
    1-3: split; [done|]; split; [done|]; split; [reflexivity|]; by intros i _.
    by split_and!. }
  split; [apply RT; vm_compute; reflexivity|].
  split; [exists [1; 1]; split; [done|]; exists [2; 3]; split; [done|]; by apply BX|]. split; [exact IC|].
  split; [vm_compute; reflexivity|]. split.
  { intros c [->|[->|[->|[->|X]%elem_of_cons]%elem_of_cons]%elem_of_cons]%elem_of_cons; [intros []..|by apply elem_of_nil in X]. }
  split; [eexists; split; [reflexivity|]; split; [done|]; split; [by apply BX|reflexivity]|].
  split; [apply AR; vm_compute; reflexivity|]. split.
  { intros j e NJ EJ WJ. destruct j as [|[|[|[|j]]]]; [done|..|done]; injection EJ as <-; cbn [writes_into] in WJ; [| |done].
    - exfalso. destruct WJ as (_ & y & (C1 & C2 & C3) & _ & (_ & _ & B3)).
      destruct y as [|y0 [|y1 [|]]]; try done.
      specialize (C3 0%nat 1 2 y0 eq_refl eq_refl eq_refl). specialize (B3 0%nat y0 0 2 eq_refl eq_refl eq_refl). lia.
    - right. split; [apply FB; by left|]. intros w (_ & (_ & _ & B3) & _).
      specialize (B3 0%nat 2 3 2 eq_refl eq_refl eq_refl). lia. }
  split.
  { eexists. split; [reflexivity|]. split; [done|]. exists [3; 4]. split; [|split; by apply BX].
    split; [done|split; [done|]]. intros i xi oi si E1 E2 E3.
    destruct i as [|[|i]]; cbn in E1, E2, E3; try done; injection E1 as <-; injection E2 as <-; injection E3 as <-; lia. }
  split; [apply FB; by right|]. split; [vm_compute; reflexivity|]. split.
  { apply AA. vm_compute. reflexivity. }
  split; [vm_compute; reflexivity|]. split; vm_compute; reflexivity.
Qed.
