(** Property theorems: concurrent calls of all kinds, region reads and writes
    included, that use different files (C57), and concurrent writes of regions
    of one array (C58).  [csteps (o, map (p_rcall ..) calls) (o', ps)]: from
    state [o] the calls, each in a process of its own, have made some of their
    system calls, in any order, which led to state [o']; [ps] is what remains
    of them. *)
From Verif Require Import Hier Nd Sys SysNd Spec SpecMeta SpecSys SpecConc SpecShare BaseFacts FSFacts StoreFacts
  SysWit ConcWit ConcShare ConcRegion ShareLive ShareWit Props_Chunk Props_Store Props_Nd Props_Crash Props_Region.
Local Open Scope Z_scope.

(** C57, for calls other than removing and listing nodes ([by_name]): if no call
    changes a file that another one looks at or changes, then
    every call returns what it returns alone, and leaves the files it looks at
    or changes as it does alone; files that no call may change are unchanged. *)
Theorem C57_independent_calls :
  forall flit C h H sl, (forall b, concat (sl b) = b) ->
  plain (hy_base H) -> good_suffix (ep_suffix (hy_ep H)) ->
  forall o calls o' ps,
  calm o -> wf_fs (view o) -> Forall rcall_ok calls -> Forall by_name calls ->
  independent H calls -> writable H (view o) calls ->
  csteps (o, map (p_rcall flit C h H sl) calls) (o', ps) ->
  (forall i c a, calls !! i = Some c -> returned ps i a ->
     exists oi, run o (p_rcall flit C h H sl c) = Some (oi, a)
       /\ forall q, may_touch H c q -> file_at (view o') q = file_at (view oi) q)
  /\ (forall q, (forall c, c ∈ calls -> ~ may_write H c q) -> file_at (view o') q = file_at (view o) q)
  /\ wf_fs (view o').
Proof. exact independent_calls. Qed.
Print Assumptions C57_independent_calls.

Definition ex_corner : nd := Nd [2; 2] (fun i => match i with [a; b] => 100 + 10 * a + b | _ => 0 end).
Definition ex_new_attrs : jmap := [(B "k", JStr (B "v"))].
Definition ex_share : list rcall :=
  [RWrite RI16 ex_path ex_meta [2; 2] ex_payload ex_rsf;
   RWrite RI16 ex_path ex_meta [0; 0] ex_corner ex_rsf;
   RCall (KSetAttributes ex_path ex_new_attrs [3%nat]);
   RRead RI16 ex_path ex_meta (BBox [0; 3] [2; 3]) ex_rsf;
   RCall (KReadChunk RI16 ex_path ex_meta [0; 1] [1%nat])].
Definition ex_share_ps := map (p_rcall ex_flit ex_codec ex_host ex_hier cuts) ex_share.
Definition ex_share_sched : list nat := turns 1000 (fun i => S i) ex_os ex_share_ps 0 1.
(** The five calls meet the premises; taking turns they all return, and so the
    theorem applies to the end of a real execution. *)
Lemma ex_box a b c d x y : 0 <= x < 5 -> 0 <= y < 7 -> a <= x < a + c -> b <= y < b + d ->
  overlaps ex_meta (BBox [a; b] [c; d]).
Proof.
  intros. exists [x; y]. split; (split; [done|split; [done|]]); intros i xi oi si E1 E2 E3;
    destruct i as [|[|i]]; cbn in E1, E2, E3; try done;
    injection E1 as <-; injection E2 as <-; injection E3 as <-; lia.
Qed.
Lemma ex_share_ok : Forall rcall_ok ex_share.
Proof.
  assert (plain ex_path) as P by (apply plain_check; vm_compute; reflexivity).
  assert (good_sep (am_sep ex_meta)) as G by apply ex_state_ok.
  assert (R : forall a b c d x y, 0 <= x < 5 -> 0 <= y < 7 -> a <= x < a + c -> b <= y < b + d ->
    0 <= a < 10 -> 0 <= b < 10 -> c < 10 -> d < 10 -> region_ok ex_path ex_meta (BBox [a; b] [c; d])).
  { intros. split; [done|]. split; [done|]. split; [repeat constructor; cbn; unfold two64; lia|by apply (ex_box _ _ _ _ x y)]. }
  unfold ex_share. repeat (apply list.Forall_cons; split); [..|done]; cbn [rcall_ok call_ok nd_shape ex_payload ex_corner].
  - apply (R _ _ _ _ 2 2); lia.
  - apply (R _ _ _ _ 0 0); lia.
  - done.
  - apply (R _ _ _ _ 0 3); lia.
  - split; [done|]. split; [done|]. repeat constructor; unfold two64; lia.
Qed.
Example C57_example :
  let c := crun ex_os ex_share_ps ex_share_sched in
  plain (hy_base ex_hier) /\ good_suffix (ep_suffix (hy_ep ex_hier))
  /\ calm ex_os /\ wf_fs (view ex_os) /\ Forall rcall_ok ex_share /\ Forall by_name ex_share
  /\ independent ex_hier ex_share /\ writable ex_hier (view ex_os) ex_share
  /\ csteps (ex_os, ex_share_ps) (end_os c, end_ps c)
  /\ map answer (take 3 (end_ps c)) = replicate 3 (Some written_ok)
  /\ map answer (drop 4 (end_ps c)) = [Some (YReply (YChunk (Ok None)))]
  /\ match map answer (end_ps c) with
     | [_; _; _; Some (YRegion r); _] => nd_list r = Ok ([2; 3], [0; 0; 0; 0; 0; 0])
     | _ => False
     end.
Proof.
  cbv zeta. split; [apply plain_check; vm_compute; reflexivity|]. split; [apply ex_state_ok|].
  split; [apply ex_os_calm|]. split; [apply ex_os_wf|]. split; [apply ex_share_ok|].
  split; [by repeat constructor|].
  split; [apply indep_check_sound; [apply ex_share_ok|vm_compute; reflexivity]|].
  split; [apply writable_check_sound; [apply ex_share_ok|vm_compute; reflexivity]|].
  split; [apply crun_check; vm_compute; reflexivity|].
  do 2 (split; [vm_compute; reflexivity|]). vm_compute; reflexivity.
Qed.

(** C58: writes of regions of one array that share no chunk, running at the
    same time: when all have succeeded, every voxel of a region has the value
    written there, and all others are as before.  The chunk files must be
    creatable.  [grid_voxel]: covered by a chunk of the array. *)
Theorem C58_disjoint_writes_partial :
  forall flit C h H sl, (forall b, concat (sl b) = b) ->
  plain (hy_base H) -> good_suffix (ep_suffix (hy_ep H)) ->
  forall t path m rsf fill,
  plain path -> good_sep (am_sep m) -> chunk_shape_ok m -> am_shape m <> [] ->
  lossless C (am_comp m) -> effective_fill flit t m = Ok fill -> elt_ok t fill ->
  forall o ws o', calm o -> wf_fs (view o) ->
  (forall pos, meets_array m pos -> pos_ok pos ->
     can_hold_file (view o) (loc (hy_base H) (get_chunk_key path m pos))) ->
  (forall w, w ∈ ws ->
     bounded_ok (am_shape m) (am_chunk_shape m) (fst w) (nd_shape (snd w)) /\ overlaps m (box_of w)
     /\ fits_memory (nd_shape (snd w))
     /\ (forall i, index_of (nd_shape (snd w)) i -> elt_ok t (nd_at (snd w) i))) ->
  (forall i j w w', i <> j -> ws !! i = Some w -> ws !! j = Some w' -> ~ share_chunk m (box_of w) (box_of w')) ->
  csteps (o, map (fun w => p_rcall flit C h H sl (region_write t path m rsf w)) ws)
    (o', map (fun _ => Ret written_ok) ws) ->
  forall x, grid_voxel m x ->
    (forall w, w ∈ ws -> in_box (fst w) (nd_shape (snd w)) x ->
       voxel C h H (view o') t path m fill x = Ok (nd_at (snd w) (zip_with Z.sub x (fst w))))
    /\ ((forall w, w ∈ ws -> ~ in_box (fst w) (nd_shape (snd w)) x) ->
       voxel C h H (view o') t path m fill x = voxel C h H (view o) t path m fill x).
Proof. exact disjoint_writes. Qed.
Print Assumptions C58_disjoint_writes_partial.

(** Regions that share a chunk but no voxel: one of the two writes, both
    reported successful, is lost. *)
Definition ex_one (v : Z) : nd := Nd [1; 1] (fun _ => v).
Definition ex_pair : list (list Z * nd) := [([0; 0], ex_one 5); ([0; 1], ex_one 6)].
Definition ex_pair_ps : list (proc rreply) :=
  map (fun w => p_rcall ex_flit ex_codec ex_host ex_hier cuts (region_write RI16 ex_path ex_meta ex_rsf w)) ex_pair.
Definition ex_vox (s : fs) (x : list Z) : res Z := voxel ex_codec ex_host ex_hier s RI16 ex_path ex_meta 0 x.
Definition ex_pair_end := crun ex_os ex_pair_ps (turns 500 (fun i => match i with O => 1%nat | _ => 100%nat end) ex_os ex_pair_ps 0 1).
Theorem C58_shared_chunk_refuted :
  csteps (ex_os, ex_pair_ps) (end_os ex_pair_end, end_ps ex_pair_end)
  /\ map answer (end_ps ex_pair_end) = [Some written_ok; Some written_ok]
  /\ ~ (exists x, in_box [0; 0] [1; 1] x /\ in_box [0; 1] [1; 1] x)
  /\ share_chunk ex_meta (BBox [0; 0] [1; 1]) (BBox [0; 1] [1; 1])
  /\ ex_vox (view ex_os) [0; 0] = Ok 0 /\ ex_vox (view ex_os) [0; 1] = Ok 0
  /\ ex_vox (view (end_os ex_pair_end)) [0; 0] = Ok 5
  /\ ex_vox (view (end_os ex_pair_end)) [0; 1] = Ok 0.
Proof.
  split; [apply crun_check; vm_compute; reflexivity|]. split; [vm_compute; reflexivity|]. split.
  { intros (x & X & Y). destruct x as [|a [|b [|]]]; try (by destruct X as (? & ? & _)).
    destruct X as (_ & _ & X), Y as (_ & _ & Y).
    specialize (X 1%nat b 0 1 eq_refl eq_refl eq_refl). specialize (Y 1%nat b 1 1 eq_refl eq_refl eq_refl). lia. }
  split.
  { exists [0; 0]. split; [exists [0; 0]|exists [0; 1]];
      (split; [|split]); (split; [done|split; [done|]]); intros i xi oi si E1 E2 E3;
      destruct i as [|[|i]]; cbn in E1, E2, E3; try done;
      injection E1 as <-; injection E2 as <-; injection E3 as <-; lia. }
  do 3 (split; [vm_compute; reflexivity|]). vm_compute. reflexivity.
Qed.
Print Assumptions C58_shared_chunk_refuted.

Definition ex_two : list (list Z * nd) := [([2; 2], ex_payload); ([0; 0], ex_corner)].
Definition ex_two_ps : list (proc rreply) :=
  map (fun w => p_rcall ex_flit ex_codec ex_host ex_hier cuts (region_write RI16 ex_path ex_meta ex_rsf w)) ex_two.
Definition ex_two_end := crun ex_os ex_two_ps (turns 1000 (fun i => S i) ex_os ex_two_ps 0 1).
Example C58_example :
  (forall pos, meets_array ex_meta pos -> pos_ok pos ->
     can_hold_file (view ex_os) (loc (hy_base ex_hier) (get_chunk_key ex_path ex_meta pos)))
  /\ chunk_shape_ok ex_meta /\ lossless ex_codec (am_comp ex_meta) /\ effective_fill ex_flit RI16 ex_meta = Ok 0
  /\ (forall w, w ∈ ex_two ->
     bounded_ok (am_shape ex_meta) (am_chunk_shape ex_meta) (fst w) (nd_shape (snd w)) /\ overlaps ex_meta (box_of w)
     /\ fits_memory (nd_shape (snd w))
     /\ (forall i, index_of (nd_shape (snd w)) i -> elt_ok RI16 (nd_at (snd w) i)))
  /\ (forall i j w w', i <> j -> ex_two !! i = Some w -> ex_two !! j = Some w' ->
       ~ share_chunk ex_meta (box_of w) (box_of w'))
  /\ csteps (ex_os, ex_two_ps) (end_os ex_two_end, map (fun _ => Ret written_ok) ex_two)
  /\ ex_vox (view (end_os ex_two_end)) [4; 4] = Ok 22 /\ ex_vox (view (end_os ex_two_end)) [1; 1] = Ok 111
  /\ ex_vox (view (end_os ex_two_end)) [2; 5] = Ok 32767.
Proof.
  split; [intros pos M _; revert pos M; apply grid_check; [repeat constructor; done|vm_compute; reflexivity]|].
  split; [split; repeat constructor; vm_compute; done|]. split; [apply C01_raw_lossless|]. split; [reflexivity|].
  split.
  { intros w W. apply elem_of_cons in W as [->|W]; [|apply elem_of_list_singleton in W as ->];
      cbn [fst snd nd_shape ex_payload ex_corner box_of]; (split; [repeat constructor; done|]).
    - split; [apply (ex_box _ _ _ _ 2 2); lia|]. split; [reflexivity|].
      intros i (L1 & L2 & Hi). destruct i as [|a [|b [|]]]; try done. cbn.
      pose proof (Hi 0%nat a 0 3 eq_refl eq_refl eq_refl). pose proof (Hi 1%nat b 0 3 eq_refl eq_refl eq_refl). lia.
    - split; [apply (ex_box _ _ _ _ 0 0); lia|]. split; [reflexivity|].
      intros i (L1 & L2 & Hi). destruct i as [|a [|b [|]]]; try done. cbn.
      pose proof (Hi 0%nat a 0 2 eq_refl eq_refl eq_refl). pose proof (Hi 1%nat b 0 2 eq_refl eq_refl eq_refl). lia. }
  split.
  { intros i j w w' N Ei Ej. destruct i as [|[|]], j as [|[|]]; try done; injection Ei as <-; injection Ej as <-;
      (apply no_share_check; [repeat constructor; done..|vm_compute; reflexivity]). }
  split.
  { replace (map (fun _ => Ret written_ok) ex_two) with (end_ps ex_two_end) by (vm_compute; reflexivity).
    apply crun_check. vm_compute. reflexivity. }
  do 2 (split; [vm_compute; reflexivity|]). vm_compute. reflexivity.
Qed.

(** C55 with region reads and writes among the calls: as long as some call has
    not returned, some call can go on ... *)
Theorem C55_regions_no_deadlock :
  forall flit C h H sl o calls o' ps, idle o ->
  csteps (o, map (p_rcall flit C h H sl) calls) (o', ps) -> all_returned ps \/ can_step o' ps.
Proof. exact regions_no_deadlock. Qed.
Print Assumptions C55_regions_no_deadlock.

(** ... and every execution can be continued to one in which all calls have
    returned. *)
Theorem C55_regions_complete :
  forall flit C h H sl o calls o' ps, idle o ->
  csteps (o, map (p_rcall flit C h H sl) calls) (o', ps) ->
  exists o2 ps2, csteps (o', ps) (o2, ps2) /\ all_returned ps2.
Proof. exact regions_complete. Qed.
Print Assumptions C55_regions_complete.

(** A state in which the second of the two writers has to wait. *)
Definition ex_wait := crun ex_os ex_pair_ps [0; 0; 0; 0; 0; 1; 1]%nat.
Example C55_regions_example :
  idle ex_os /\ csteps (ex_os, ex_pair_ps) (end_os ex_wait, end_ps ex_wait)
  /\ map (fun q => match pstep (end_os ex_wait) q, answer q with None, None => true | _, _ => false end) (end_ps ex_wait)
     = [false; true].
Proof.
  split; [exact (proj1 ex_os_calm)|]. split; [unfold ex_wait; apply crun_check; vm_compute; reflexivity|vm_compute; reflexivity].
Qed.
