(** Which region writes are kept (C76). *)
From Verif Require Import BaseFacts PathFacts KeyFacts FSFacts Spec SpecMeta ChunkFacts BBoxFacts HierFacts.
From Verif Require Import CoordIterFacts NdFacts OpsFacts NdWrite.
From Verif Require Import Sys SysNd SpecShare SysFacts SysOps SysNdOps CrashFacts CrashOps ConcFacts ConcOps ConcChunk.
From Verif Require Import RegionPure ConcVoxel ConcLin ConcLog SpecKeep VoxelLog.
Local Open Scope Z_scope.

Lemma crun_rest {A} s1 s2 : forall o (ps : list (proc A)) o1 ps1 o' ps', crun o ps s1 = Some (o1, ps1) ->
  crun o ps (s1 ++ s2) = Some (o', ps') -> crun o1 ps1 s2 = Some (o', ps').
Proof.
  induction s1 as [|i s1 IH]; intros o ps o1 ps1 o' ps' R1 R; cbn in R1, R; [by injection R1 as <- <-|].
  destruct (ps !! i) as [q|]; [|done]. destruct (pstep o q) as [[o2 q2]|]; [|done]. by eapply IH.
Qed.

Section Kept.
  Context (C : codec) (h : host) (t : rty) (path : bytes) (m : array_meta) (fill : Z).
  Context (CK : chunk_shape_ok m) (x : list Z) (GV : grid_voxel m x).
  Local Notation pos := (chunk_of m x).
  Local Notation dec c := (decode_chunk C h t m c pos).
  Context (calls : list rcall) (OK : Forall rcall_ok calls) (AG : Forall (agrees C h t path m) calls).
  Context (ND : forall c, c ∈ calls -> ~ takes_away path pos c).
  Local Notation kput := (kput C h t path m x).
  Definition okk (k : nat) (tr : list event) (e : event) : Prop :=
    match calls !! k with Some c => may_put (kput c) tr e | None => False end.
  Context (c0 : bytes) (log : list (nat * event)) (RL : right_log okk c0 log).
  Local Notation val := (val c0).
  Context (before : nat -> nat -> Prop).
  Context (BF : forall i j, before i j -> exists e1 e2, log = e1 ++ e2 /\ (forall e, (i, e) ∉ e2) /\ (forall e, (j, e) ∉ e1)).

  Lemma k_val_snoc l i e : val (l ++ [(i, e)]) = match e with Put w => w | Saw _ => val l end.
  Proof. unfold ConcLog.val. by rewrite foldl_snoc. Qed.
  Lemma split_pos {A} (l1 l2 e1 e2 : list A) y : l1 ++ y :: l2 = e1 ++ e2 ->
    (exists a, e1 = l1 ++ y :: a /\ l2 = a ++ e2) \/ (exists a, l1 = e1 ++ a /\ e2 = a ++ y :: l2).
  Proof.
    revert e1. induction l1 as [|z l1 IH]; intros [|z' e1] E; cbn in E.
    - right. exists []. done.
    - injection E as <- ->. left. by exists e1.
    - right. exists (z :: l1). done.
    - injection E as <- E. destruct (IH _ E) as [(a & -> & ->)|(a & -> & ->)]; [left; by exists a|right; by exists a].
  Qed.
  (** No event of the earlier call is after one of the later call. *)
  Lemma in_order i j l1 e l2 e' : before i j -> log = l1 ++ (j, e) :: l2 -> (i, e') ∉ l2.
  Proof.
    intros B E I. destruct (BF i j B) as (e1 & e2 & E' & X1 & X2). rewrite E in E'.
    destruct (split_pos _ _ _ _ _ E') as [(a & -> & ->)|(a & -> & ->)].
    - apply (X2 e). apply elem_of_app. right. by left.
    - apply (X1 e'). apply elem_of_app. right. by right.
  Qed.

  Lemma kput_writes c tr w : c ∈ calls -> kput c tr w -> writes_into path m pos c.
  Proof.
    intros IN. assert (rcall_ok c) as K by (rewrite list.Forall_forall in OK; by apply OK).
    assert (agrees C h t path m c) as A by (rewrite list.Forall_forall in AG; by apply AG).
    destruct c as [[]| | |]; cbn [VoxelLog.kput writes_into]; try done; cbn in K, A.
    - by intros (? & ? & _).
    - intros (E & R & _). split; [done|]. destruct (A E) as (_ & -> & _). destruct K as (_ & _ & K1 & K2).
      by apply branges_sound.
  Qed.
  (** What a call that gives the voxel a value puts. *)
  Lemma kput_gives c tr w v : c ∈ calls -> gives path m fill x c v -> kput c tr w -> exists ck, dec w = Ok ck /\ cell m ck x = v.
  Proof.
    intros IN G. pose proof (ND c IN) as N. destruct c as [[]| | |]; cbn [VoxelLog.kput gives takes_away] in *; try done.
    - intros (_ & E & D). destruct G as (_ & _ & G). eexists. split; [done|].
      apply decode_chunk_inv in D as (_ & FC & _); [|done].
      assert (element m ck x = Some (cell m ck x)) as E'.
      { destruct (voxel_split m x (proj1 CK) (vx_len m CK x GV)) as [_ VI]. apply of_vec_at; [done|]. unfold full_chunk in FC. lia. }
      congruence.
    - intros (_ & _ & ck & D & [(_ & E)|(N' & _)]); [|by destruct N', G as (_ & ? & _)].
      destruct G as (_ & _ & ->). by exists ck.
  Qed.
  Lemma kput_else c tr w : c ∈ calls -> kput c tr w -> (forall v, ~ gives path m fill x c v) ->
    exists ck b ck0, dec w = Ok ck /\ Saw b ∈ tr /\ dec b = Ok ck0 /\ cell m ck x = cell m ck0 x.
  Proof.
    intros IN K N. destruct c as [[]| | |]; cbn [VoxelLog.kput gives] in *; try done.
    - destruct K as (E1 & E2 & D). apply decode_chunk_inv in D as (_ & FC & _); [|done].
      destruct (N (cell m ck x)). split_and!; [done| |].
      + rewrite E2. by apply vx_covers.
      + destruct (voxel_split m x (proj1 CK) (vx_len m CK x GV)) as [_ VI]. apply of_vec_at; [done|]. unfold full_chunk in FC. lia.
    - destruct K as (E & _ & ck & D & [(IB & _)|(_ & b & ck0 & S & D0 & EC)]); [by destruct (N (nd_at arr (zip_with Z.sub x off)))|].
      by exists ck, b, ck0.
  Qed.

  Context (k : nat) (c : rcall) (v : Z) (EK : calls !! k = Some c) (GK : gives path m fill x c v).
  Context (OT : forall j d, j <> k -> calls !! j = Some d -> writes_into path m pos d ->
    before j k \/ before k j /\ forall w, ~ gives path m fill x d w).
  Lemma kept l1 w l2 : log = l1 ++ (k, Put w) :: l2 -> forall r1 r2, l2 = r1 ++ r2 ->
    exists ck, dec (val (l1 ++ (k, Put w) :: r1)) = Ok ck /\ cell m ck x = v.
  Proof.
    intros EL r1. induction r1 as [r1 IH] using (induction_ltof1 _ (@length _)). unfold ltof in IH. intros r2 ER.
    pose proof (elem_of_list_lookup_2 _ _ _ EK) as INK.
    destruct r1 as [|[j e] r1 _] using rev_ind.
    - rewrite k_val_snoc. destruct (RL l1 k (Put w) l2 EL) as [O _]. unfold okk in O. rewrite EK in O. by eapply kput_gives.
    - rewrite <- app_assoc in ER. cbn [app] in ER.
      replace (l1 ++ (k, Put w) :: r1 ++ [(j, e)]) with ((l1 ++ (k, Put w) :: r1) ++ [(j, e)]) by (by rewrite <- app_assoc).
      rewrite k_val_snoc. destruct e as [y|w'].
      { apply (IH r1) with (r2 := (j, Saw y) :: r2); [rewrite app_length; cbn; lia|done]. }
      assert (log = (l1 ++ (k, Put w) :: r1) ++ (j, Put w') :: r2) as EL' by (by rewrite EL, ER, <- app_assoc).
      destruct (RL _ _ _ _ EL') as [O _]. unfold okk in O. destruct (calls !! j) as [d|] eqn:EJ; [|done]. cbn [may_put] in O.
      pose proof (elem_of_list_lookup_2 _ _ _ EJ) as INJ.
      destruct (decide (j = k)) as [->|D].
      { rewrite EK in EJ. injection EJ as <-. by eapply kput_gives. }
      destruct (OT j d D EJ (kput_writes _ _ _ INJ O)) as [B|[B NG]].
      { exfalso. apply (in_order j k l1 (Put w) l2 (Put w') B EL). rewrite ER. apply elem_of_app. right. by left. }
      destruct (kput_else _ _ _ INJ O NG) as (ck & b & ck0 & D1 & SB & D0 & EC). exists ck. split; [done|]. rewrite EC.
      apply own_in in SB. apply elem_of_app in SB as [SB|SB].
      { exfalso. apply elem_of_list_split in SB as (a1 & a2 & ->). rewrite <- app_assoc in EL. cbn [app] in EL.
        apply (in_order k j _ _ _ (Put w) B EL). apply elem_of_app. right. by left. }
      apply elem_of_cons in SB as [SB|SB]; [done|]. apply elem_of_list_split in SB as (a1 & a2 & ->).
      assert (log = (l1 ++ (k, Put w) :: a1) ++ (j, Saw b) :: a2 ++ (j, Put w') :: r2) as EL2.
      { rewrite EL, ER. by rewrite <- !app_assoc; cbn; rewrite <- ?app_assoc. }
      destruct (RL _ _ _ _ EL2) as [_ SV]. rewrite (SV b eq_refl) in D0.
      destruct (IH a1) with (r2 := (j, Saw b) :: a2 ++ (j, Put w') :: r2) as (ck1 & D2 & E2).
      { rewrite !app_length. cbn. rewrite ?app_length. lia. }
      { rewrite ER. by rewrite <- app_assoc. }
      rewrite D0 in D2. by injection D2 as <-.
  Qed.
  (** Calls that begin after it has returned see its value. *)
  Lemma seen_kept l1 w l2 j u : log = l1 ++ (k, Put w) :: l2 -> before k j -> shown C h t m x (own j log) u -> u = v.
  Proof.
    intros EL B (b & ck & SB & D & ->). apply own_in in SB. rewrite EL in SB. apply elem_of_app in SB as [SB|SB].
    { exfalso. apply elem_of_list_split in SB as (a1 & a2 & ->). rewrite <- app_assoc in EL. cbn [app] in EL.
      apply (in_order k j _ _ _ (Put w) B EL). apply elem_of_app. right. by left. }
    apply elem_of_cons in SB as [SB|SB]; [done|]. apply elem_of_list_split in SB as (a1 & a2 & ->).
    assert (log = (l1 ++ (k, Put w) :: a1) ++ (j, Saw b) :: a2) as EL2 by (by rewrite EL, <- app_assoc).
    destruct (RL _ _ _ _ EL2) as [_ SV]. rewrite (SV b eq_refl) in D.
    destruct (kept l1 w _ EL a1 _ eq_refl) as (ck1 & D2 & E2). rewrite D in D2. by injection D2 as <-.
  Qed.
End Kept.

Theorem region_write_kept flit C h H sl : (forall b, concat (sl b) = b) ->
  plain (hy_base H) -> good_suffix (ep_suffix (hy_ep H)) ->
  forall t path m d fill, plain path -> good_sep (am_sep m) -> iter_ok m -> chunk_shape_ok m -> am_shape m <> [] ->
  lossless C (am_comp m) -> total_codec C (am_comp m) -> effective m d -> same_kind_width d t ->
  effective_fill flit t m = Ok fill -> elt_ok t fill ->
  forall o calls sched o' ps, calm o -> wf_fs (view o) -> Forall rcall_ok calls -> Forall (agrees C h t path m) calls ->
  crun o (map (p_rcall flit C h H sl) calls) sched = Some (o', ps) ->
  forall x pos ck0, grid_voxel m x -> in_chunk (am_chunk_shape m) pos x ->
  read_chunk C h H (view o) t path m pos = Ok (Some ck0) -> (forall c, c ∈ calls -> ~ takes_away path pos c) ->
  let before := ended_before flit C h H sl o calls sched in
  forall k c v, calls !! k = Some c -> gives path m fill x c v -> returned ps k written_ok ->
  (forall j e, j <> k -> calls !! j = Some e -> writes_into path m pos e ->
     before j k \/ before k j /\ forall w, ~ gives path m fill x e w) ->
  (forall j path' bb rsf arr i, calls !! j = Some (RRead t path' m bb rsf) -> pieces path' = pieces path -> before k j ->
     returned ps j (YRegion (Ok arr)) -> index_of (bb_shape bb) i -> zip_with Z.add (bb_off bb) i = x -> nd_at arr i = v) /\
  (forall j path' bb arr0 rsf arr i, calls !! j = Some (RReadInto t path' m bb arr0 rsf) -> pieces path' = pieces path -> before k j ->
     returned ps j (YRegion (Ok arr)) -> index_of (bb_shape bb) i -> zip_with Z.add (bb_off bb) i = x -> nd_at arr i = v) /\
  (forall j path' rs r, calls !! j = Some (RCall (KReadChunk t path' m pos rs)) -> pieces path' = pieces path -> before k j ->
     returned ps j (YReply (YChunk (Ok r))) -> exists ck, r = Some ck /\ element m ck x = Some v) /\
  (all_returned ps -> voxel C h H (view o') t path m fill x = Ok v).
Proof.
  intros SL PB GX t path m d fill PP GS IO CK NE LL TC ED KW FE EF o calls sched o' ps CA W OK AG EX x pos ck0 GV IC RC ND before
    k c v EK GK RK OT.
  assert (pos = chunk_of m x) as -> by (symmetry; by apply in_chunk_of; [apply CK|]).
  set (P := loc (hy_base H) (get_chunk_key path m (chunk_of m x))).
  rewrite (read_at C h H sl SL PB t path m PP GS IO CK x GV) in RC by done. fold P in RC.
  destruct (file_at (view o) P) as [c0|] eqn:F0; [|done].
  assert (NP : P <> []) by apply P_ne.
  set (fin := fun (i : list Z) (n : nat) (s : sess * list event) (a : rreply) =>
    match calls !! n with Some c => kfin C h t path m x i c s a | None => False end).
  assert (RUN : forall i, exists log,
    ginv P (fun _ => False) (okk C h t path m x calls) (fin i) c0 o' ps log /\ 
    forall a b, before a b -> exists e1 e2, log = e1 ++ e2 /\ (forall e, (a, e) ∉ e2) /\ (forall e, (b, e) ∉ e1)).
  { intros i. assert (ginv P (fun _ => False) (okk C h t path m x calls) (fin i) c0 o (map (p_rcall flit C h H sl) calls) []) as G0.
    { apply ginv_start; [done..|].
      intros n q E. rewrite list_lookup_fmap in E. unfold fin, okk. destruct (calls !! n) as [cc|] eqn:EC; [|done].
      injection E as <-. eapply rcall_logs; try done. by eapply elem_of_list_lookup_2. }
    destruct (ginv_run _ NP _ _ _ _ sched _ _ _ _ _ G0 EX) as (log & G & _ & SP). cbn [app] in G, SP.
    exists log. split; [done|]. intros a b (s1 & s2 & o1 & ps1 & r & ES & R1 & RT & NJ).
    destruct (SP s1 s2 o1 ps1 ES R1) as (e1 & e2 & -> & _ & I1 & I2). exists e1, e2. split; [done|]. split.
    - intros e I. apply I2 in I. cbn in I. rewrite ES in EX. pose proof (crun_rest _ _ _ _ _ _ _ _ R1 EX) as R2.
      by apply (ret_stays _ _ _ _ _ _ _ R2 RT).
    - intros e I. by apply I1 in I. }
  assert (PUTK : forall i log, ginv P (fun _ => False) (okk C h t path m x calls) (fin i) c0 o' ps log ->
    right_log (okk C h t path m x calls) c0 log /\ exists l1 w l2, log = l1 ++ (k, Put w) :: l2).
  { intros i log G. split; [by destruct G as (? & ? & _ & _ & ? & _)|].
    destruct (ginv_ret _ _ _ _ _ _ _ _ _ _ G RK) as [st F]. unfold fin in F. rewrite EK in F. destruct F as [_ F].
    assert (exists w, Put w ∈ own k log) as (w & I).
    { pose proof (ND c (elem_of_list_lookup_2 _ _ _ EK)) as N. destruct c as [[]| | |]; cbn in GK, F, N; try done.
      - destruct GK as (G1 & G2 & _). apply F; [done|]. by symmetry; apply in_chunk_of; [apply CK|].
      - destruct GK as (G1 & G2 & _). destruct N. split; [done|]. by symmetry; apply in_chunk_of; [apply CK|].
      - by destruct GK.
      - destruct GK as (G1 & G2 & _). by apply F. }
    apply own_in in I. apply elem_of_list_split in I as (l1 & l2 & ->). by exists l1, w, l2. }
  split_and!.
  - intros j path' bb rsf arr i EJ PE B R Hi Hx. destruct (RUN i) as (log & G & BF). destruct (PUTK _ _ G) as (RL & l1 & w & l2 & EL).
    destruct (ginv_ret _ _ _ _ _ _ _ _ _ _ G R) as [st F]. unfold fin in F. rewrite EJ in F. destruct F as [_ F].
    eapply (seen_kept C h t path m fill CK x GV calls OK AG ND c0 log RL before BF k c v EK GK OT l1 w l2 j); [done|done|]. by apply F.
  - intros j path' bb arr0 rsf arr i EJ PE B R Hi Hx. destruct (RUN i) as (log & G & BF). destruct (PUTK _ _ G) as (RL & l1 & w & l2 & EL).
    destruct (ginv_ret _ _ _ _ _ _ _ _ _ _ G R) as [st F]. unfold fin in F. rewrite EJ in F. destruct F as [_ F].
    eapply (seen_kept C h t path m fill CK x GV calls OK AG ND c0 log RL before BF k c v EK GK OT l1 w l2 j); [done|done|]. by apply F.
  - intros j path' rs r EJ PE B R. destruct (RUN []) as (log & G & BF). destruct (PUTK _ _ G) as (RL & l1 & w & l2 & EL).
    destruct (ginv_ret _ _ _ _ _ _ _ _ _ _ G R) as [st F]. unfold fin in F. rewrite EJ in F. destruct F as [_ F].
    destruct (F PE eq_refl r eq_refl) as (ck & u & -> & E & SH). exists ck. split; [done|]. rewrite E. f_equal.
    by eapply (seen_kept C h t path m fill CK x GV calls OK AG ND c0 log RL before BF k c v EK GK OT l1 w l2 j).
  - intros AR. destruct (RUN []) as (log & G & BF). destruct (PUTK _ _ G) as (RL & l1 & w & l2 & EL).
    destruct (ginv_done _ NP _ _ _ _ _ _ _ G) as (_ & W' & FA & _); [|exact AR|].
    { intros n s a F. unfold fin in F. destruct (calls !! n); [|done]. apply F. }
    destruct (kept C h t path m fill CK x GV calls OK AG ND c0 log RL before BF k c v EK GK OT l1 w l2 EL l2 []) as (ck & D & E).
    { by rewrite app_nil_r. }
    rewrite <- EL in D. rewrite <- E. apply voxel_some; [done|by apply vx_len|].
    rewrite (read_at C h H sl SL PB t path m PP GS IO CK x GV) by done. fold P. by rewrite FA, D.
Qed.
