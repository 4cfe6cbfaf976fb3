(** Property theorems: what concurrent region reads, region writes and chunk
    accesses of one array can make of a voxel (C59). *)
From Verif Require Import Hier Nd Sys SysNd Spec SpecMeta SpecSys SpecConc SpecShare BaseFacts FSFacts StoreFacts
  SysWit ConcWit ConcVoxel ShareWit Props_Chunk Props_Store Props_Nd Props_Crash Props_Region Props_Share.
Local Open Scope Z_scope.

(** C59: whatever calls run at the same time, and in whatever order their
    system calls are executed, a read of a voxel returns the value it had at the
    start or one that some call gives it ([possible]), and so does the array at
    the end.  A read into a given buffer leaves the buffer's element as it was
    only if the voxel may have the fill value.  A voxel that was readable at the
    start is readable at the end.  No empty file may be a chunk: a file just
    created is empty. *)
Theorem C59_voxels_written :
  forall flit C h H sl, (forall b, concat (sl b) = b) ->
  plain (hy_base H) -> good_suffix (ep_suffix (hy_ep H)) ->
  forall t path m d fill, plain path -> good_sep (am_sep m) ->
  Forall2 (fun n s => 0 <= n /\ 0 < s /\ n + s < two64) (am_shape m) (am_chunk_shape m) ->
  chunk_shape_ok m -> am_shape m <> [] ->
  lossless C (am_comp m) -> total_codec C (am_comp m) -> effective m d -> same_kind_width d t ->
  effective_fill flit t m = Ok fill -> elt_ok t fill ->
  forall o calls o' ps, calm o -> wf_fs (view o) -> Forall rcall_ok calls -> Forall (agrees C h t path m) calls ->
  csteps (o, map (p_rcall flit C h H sl) calls) (o', ps) ->
  forall x, grid_voxel m x -> (forall pos ck, decode_chunk C h t m [] pos <> Ok ck) ->
  let may v := possible C h H (view o) t path m fill calls x v in
  (forall k path' bb rsf arr i, calls !! k = Some (RRead t path' m bb rsf) -> pieces path' = pieces path ->
     returned ps k (YRegion (Ok arr)) -> index_of (bb_shape bb) i -> zip_with Z.add (bb_off bb) i = x -> may (nd_at arr i)) /\
  (forall k path' bb arr0 rsf arr i, calls !! k = Some (RReadInto t path' m bb arr0 rsf) -> pieces path' = pieces path ->
     returned ps k (YRegion (Ok arr)) -> index_of (bb_shape bb) i -> zip_with Z.add (bb_off bb) i = x ->
     may (nd_at arr i) \/ nd_at arr i = nd_at arr0 i /\ may fill) /\
  (forall k path' pos rs r, calls !! k = Some (RCall (KReadChunk t path' m pos rs)) -> pieces path' = pieces path ->
     in_chunk (am_chunk_shape m) pos x -> returned ps k (YReply (YChunk (Ok r))) ->
     match r with Some ck => exists v, element m ck x = Some v /\ may v | None => may fill end) /\
  (all_returned ps ->
     (forall v, voxel C h H (view o') t path m fill x = Ok v -> may v) /\
     ((exists v, voxel C h H (view o) t path m fill x = Ok v) -> exists v, voxel C h H (view o') t path m fill x = Ok v)).
Proof. exact voxels_written. Qed.
Print Assumptions C59_voxels_written.

(** Two writes that share a voxel and a chunk, a region read, a chunk read and
    a chunk deletion.  Taking turns, all succeed, and the reads see the first
    write but not the second. *)
Definition ex_block (v : Z) : nd := Nd [2; 2] (fun _ => v).
Definition ex_mixed : list rcall :=
  [RWrite RI16 ex_path ex_meta [0; 0] (ex_block 5) ex_rsf;
   RWrite RI16 ex_path ex_meta [1; 1] (ex_block 6) ex_rsf;
   RRead RI16 ex_path ex_meta (BBox [0; 0] [3; 3]) ex_rsf;
   RCall (KReadChunk RI16 ex_path ex_meta [0; 0] [1%nat]);
   RCall (KDeleteChunk ex_path ex_meta [0; 0])].
Definition ex_mixed_ps := map (p_rcall ex_flit ex_codec ex_host ex_hier cuts) ex_mixed.
Definition ex_mixed_end := crun ex_os ex_mixed_ps
  (turns 1500 (fun i => match i with O => 12 | S O => 3 | _ => S (S i) end)%nat ex_os ex_mixed_ps 0 9).
Lemma ex_mixed_ok : Forall rcall_ok ex_mixed.
Proof.
  assert (plain ex_path) as P by (apply plain_check; vm_compute; reflexivity).
  assert (good_sep (am_sep ex_meta)) as G by apply ex_state_ok.
  assert (R : forall a b c d x y, 0 <= x < 5 -> 0 <= y < 7 -> a <= x < a + c -> b <= y < b + d ->
    0 <= a < 10 -> 0 <= b < 10 -> c < 10 -> d < 10 -> region_ok ex_path ex_meta (BBox [a; b] [c; d])).
  { intros. split; [done|]. split; [done|]. split; [repeat constructor; cbn; unfold two64; lia|by apply (ex_box _ _ _ _ x y)]. }
  unfold ex_mixed. repeat (apply list.Forall_cons; split); [..|done]; cbn [rcall_ok call_ok nd_shape ex_block].
  - apply (R _ _ _ _ 0 0); lia.
  - apply (R _ _ _ _ 1 1); lia.
  - apply (R _ _ _ _ 0 0); lia.
  - split; [done|]. split; [done|]. repeat constructor; unfold two64; lia.
  - split; [done|]. split; [done|]. repeat constructor; unfold two64; lia.
Qed.
Example C59_example :
  Forall2 (fun n s => 0 <= n /\ 0 < s /\ n + s < two64) (am_shape ex_meta) (am_chunk_shape ex_meta)
  /\ chunk_shape_ok ex_meta /\ lossless ex_codec (am_comp ex_meta) /\ total_codec ex_codec (am_comp ex_meta)
  /\ (exists d, effective ex_meta d /\ same_kind_width d RI16)
  /\ effective_fill ex_flit RI16 ex_meta = Ok 0
  /\ calm ex_os /\ wf_fs (view ex_os) /\ Forall rcall_ok ex_mixed
  /\ Forall (agrees ex_codec ex_host RI16 ex_path ex_meta) ex_mixed
  /\ csteps (ex_os, ex_mixed_ps) (end_os ex_mixed_end, end_ps ex_mixed_end)
  /\ grid_voxel ex_meta [1; 1]
  /\ (forall pos ck, decode_chunk ex_codec ex_host RI16 ex_meta [] pos <> Ok ck)
  /\ match map answer (end_ps ex_mixed_end) with
     | [a; b; Some (YRegion r); c; d] =>
         a = Some written_ok /\ b = Some written_ok /\ nd_list r = Ok ([3; 3], [5; 5; 0; 5; 5; 0; 0; 0; 0])
         /\ c = Some (YReply (YChunk (Ok (Some (Chunk [0; 0] [5; 5; 5; 5; 0; 0])))))
         /\ d = Some (YReply (YBool (Ok true)))
     | _ => False
     end
  /\ ex_vox (view ex_os) [1; 1] = Ok 0 /\ ex_vox (view (end_os ex_mixed_end)) [1; 1] = Ok 6
  /\ possible ex_codec ex_host ex_hier (view ex_os) RI16 ex_path ex_meta 0 ex_mixed [1; 1] 6
  /\ ~ possible ex_codec ex_host ex_hier (view ex_os) RI16 ex_path ex_meta 0 ex_mixed [1; 1] 7.
Proof.
  split; [repeat constructor; done|]. split; [split; repeat constructor; vm_compute; done|].
  split; [apply C01_raw_lossless|]. split; [by intros ws|]. split; [eexists; split; [by left|done]|]. split; [reflexivity|].
  split; [apply ex_os_calm|]. split; [apply ex_os_wf|]. split; [apply ex_mixed_ok|]. split.
  { unfold ex_mixed. repeat (apply list.Forall_cons; split); [..|done]; cbn [agrees nd_shape ex_block]; intros.
    - split; [done|]. split; [done|]. split; [reflexivity|]. by intros i _.
    - split; [done|]. split; [done|]. split; [reflexivity|]. by intros i _.
    - by split_and!.
    - done.
    - done. }
  split; [unfold ex_mixed_end; apply crun_check; vm_compute; reflexivity|].
  split.
  { exists [0; 0]. split; [|exists [1; 1]; split]; (split; [done|split; [done|]]); intros i xi oi si E1 E2 E3;
      destruct i as [|[|i]]; cbn in E1, E2, E3; try done;
      injection E1 as <-; injection E2 as <-; injection E3 as <-; lia. }
  split; [intros pos ck E; vm_compute in E; done|].
  split; [vm_compute; split_and!; reflexivity|]. split; [vm_compute; reflexivity|]. split; [vm_compute; reflexivity|].
  split.
  { right. eexists. split; [right; left|]. cbn. split; [done|]. split; [|done].
    split; [done|split; [done|]]. intros i xi oi si E1 E2 E3.
    destruct i as [|[|i]]; cbn in E1, E2, E3; try done;
      injection E1 as <-; injection E2 as <-; injection E3 as <-; lia. }
  intros [X|(c & I & G)].
  - assert (ex_vox (view ex_os) [1; 1] = Ok 0) as Y by (vm_compute; reflexivity). unfold ex_vox in Y. congruence.
  - unfold ex_mixed in I. rewrite !elem_of_cons in I. destruct I as [->|[->|[->|[->|[->|I]]]]]; cbn in G; try done.
    + by destruct G as (_ & _ & G).
    + by destruct G as (_ & _ & G).
    + by destruct G as (_ & _ & G).
    + by apply elem_of_nil in I.
Qed.

(** A region read is not a snapshot: while one call overwrites a region of
    zeros with nines, a read of that region returns zeros and nines. *)
Definition ex_row (v : Z) : nd := Nd [1; 6] (fun _ => v).
Definition ex_snap : list rcall :=
  [RRead RI16 ex_path ex_meta (BBox [0; 0] [1; 6]) ex_rsf; RWrite RI16 ex_path ex_meta [0; 0] (ex_row 9) ex_rsf].
Definition ex_snap_ps := map (p_rcall ex_flit ex_codec ex_host ex_hier cuts) ex_snap.
Definition ex_snap_end := crun ex_os ex_snap_ps (turns 500 (fun _ => 200%nat) ex_os ex_snap_ps 0 1).
Theorem C59_snapshot_refuted :
  csteps (ex_os, ex_snap_ps) (end_os ex_snap_end, end_ps ex_snap_end)
  /\ Forall (fun y => ex_vox (view ex_os) [0; y] = Ok 0 /\ ex_vox (view (end_os ex_snap_end)) [0; y] = Ok 9) [0; 1; 2; 3; 4; 5]
  /\ match map answer (end_ps ex_snap_end) with
     | [Some (YRegion r); w] => w = Some written_ok /\ nd_list r = Ok ([1; 6], [0; 0; 0; 9; 9; 9])
     | _ => False
     end.
Proof.
  split; [unfold ex_snap_end; apply crun_check; vm_compute; reflexivity|]. split.
  - repeat (apply list.Forall_cons; split); [..|done]; (split; vm_compute; reflexivity).
  - vm_compute. split; reflexivity.
Qed.
Print Assumptions C59_snapshot_refuted.
