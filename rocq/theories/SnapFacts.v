(** Region reads that overlap no write are snapshots (C77). *)
From Verif Require Import BaseFacts PathFacts KeyFacts FSFacts Spec SpecMeta ChunkFacts BBoxFacts HierFacts.
From Verif Require Import CoordIterFacts NdFacts OpsFacts NdWrite.
From Verif Require Import Sys SysNd SpecShare SysFacts SysOps SysNdOps CrashFacts CrashOps ConcFacts ConcOps ConcChunk.
From Verif Require Import RegionPure ConcVoxel ConcLin ConcLog SpecKeep VoxelLog KeepFacts.
Local Open Scope Z_scope.

(** Calls that have made no step do not matter for a run. *)
Lemma crun_agree {A} s : forall o (ps ps' : list (proc A)) o1 ps1,
  (forall i, i ∈ s -> ps' !! i = ps !! i) -> crun o ps s = Some (o1, ps1) ->
  exists ps1', crun o ps' s = Some (o1, ps1') /\ (forall i, i ∈ s -> ps1' !! i = ps1 !! i)
    /\ (forall i, i ∉ s -> ps1' !! i = ps' !! i) /\ (forall i, i ∉ s -> ps1 !! i = ps !! i).
Proof.
  induction s as [|k s IH]; intros o ps ps' o1 ps1 AG R; cbn in R.
  - injection R as <- <-. exists ps'. split_and!; [done| |done|done]. by intros i X%elem_of_nil.
  - cbn [crun]. rewrite (AG k) by by left. destruct (ps !! k) as [q|] eqn:EK; [|done].
    destruct (pstep o q) as [[o2 q2]|]; [|done].
    assert (LT : (k < length ps)%nat) by by eapply lookup_lt_Some.
    assert (LT' : (k < length ps')%nat).
    { eapply lookup_lt_Some. rewrite (AG k) by by left. exact EK. }
    destruct (IH o2 (<[k := q2]> ps) (<[k := q2]> ps') o1 ps1) as (ps1' & R' & E1 & E2 & E3); [|exact R|].
    { intros i I. destruct (decide (i = k)) as [->|D]; [by rewrite !list_lookup_insert|].
      rewrite !list_lookup_insert_ne by done. apply AG. by right. }
    exists ps1'. split; [exact R'|]. split_and!.
    + intros i I. destruct (decide (i ∈ s)) as [S|S]; [by apply E1|].
      apply elem_of_cons in I as [->|I]; [|done]. rewrite E2, E3 by done. by rewrite !list_lookup_insert.
    + intros i [N1 N2]%not_elem_of_cons. rewrite E2 by done. by rewrite list_lookup_insert_ne.
    + intros i [N1 N2]%not_elem_of_cons. rewrite E3 by done. by rewrite list_lookup_insert_ne.
Qed.

Section Quiet.
  Context (p : fpath) (NE : p <> []).
  Local Notation gone := (fun _ : fpath => False).
  Local Notation lfol ok := (follows (lpre p gone ok) (lnxt p gone)).

  (** Who has begun to write will put something. *)
  Lemma dirty_puts {A} (ok : list event -> event -> Prop) (fin : sess * list event -> A -> Prop) (q : proc A) :
    (forall s a, fin s a -> fst s = Free) -> forall fd c tr, lfol ok fin (Hold Dirty fd c, tr) q -> exists tr' w, ok tr' (Put w).
  Proof.
    intros FF. induction q as [a|T s k IH]; intros fd c tr F; cbn [follows] in F; [by apply FF in F|].
    destruct F as [[P1 P2] N]. cbn [fst snd] in P1, P2.
    assert (ST : forall x c', nxt p top True gone T (Hold Dirty fd c) s x (Hold Dirty fd c') ->
      ev s (Hold Dirty fd c) (Hold Dirty fd c') = [] -> exists tr' w, ok tr' (Put w)).
    { intros x c' X EV. apply (IH x fd c' tr). apply N. split; [exact X|]. cbn [fst snd]. by rewrite EV, app_nil_r. }
    destruct s; cbn [pre nxt] in *.
    - by apply (ST true c).
    - by apply (ST true c).
    - by apply (ST true c).
    - by apply (ST (Ok tt) c).
    - by destruct P1.
    - by destruct P1.
    - by destruct P1 as (? & ? & ? & _).
    - apply (ST tt []); [|done]. right. destruct P1 as [(? & ?)|(d & c1 & E & _)]; [done|]. injection E as <- <- <-. by eexists _, _.
    - apply (ST (Ok (length b)) (c ++ take (length b) b)); [|done]. exists (length b). split_and!; [done| |lia|].
      + destruct b; [done|cbn; lia].
      + right. destruct P1 as [(? & ?)|(d & c1 & E & _)]; [done|]. injection E as <- <- <-. by eexists _, _.
    - apply (ST (match n with Some k => take (Nat.max 1 k) (drop off c) | None => drop off c end) c); [|done].
      split; [done|]. intros d c1 E. by injection E as _ _ <-.
    - by exists tr, c.
    - by apply (ST (Ok tt) c).
    - by apply (ST None c).
    - by apply (ST (Ok []) c).
    - by apply (ST (Ok tt) c).
  Qed.

  Context {A : Type} (a0 : A) (ok : nat -> list event -> event -> Prop) (fin : nat -> sess * list event -> A -> Prop) (c0 : bytes).
  (** A moment at which every call that may write the file has returned or has
      not begun. *)
  Lemma quiet_moment o ps0 s1 o1 ps1 : calm o -> wf_fs (view o) -> file_at (view o) p = Some c0 ->
    (forall i q, ps0 !! i = Some q -> lfol (ok i) (fin i) (Free, []) q) ->
    (forall i s a, fin i s a -> fst s = Free) -> crun o ps0 s1 = Some (o1, ps1) ->
    (forall i, i ∈ s1 -> (exists a, ps1 !! i = Some (Ret a)) \/ forall tr w, ~ ok i tr (Put w)) ->
    exists log, ginv p gone ok fin c0 o1 ps1 log /\ wf_fs (view o1) /\ file_at (view o1) p = Some (val c0 log)
      /\ forall e, e ∈ log -> fst e ∈ s1.
  Proof.
    intros CA W F0 ST FF R QU.
    set (ps' := imap (fun i q => if decide (i ∈ s1) then q else Ret a0) ps0).
    set (fin' := fun i s a => if decide (i ∈ s1) then fin i s a else fst s = Free).
    assert (G0 : ginv p gone ok fin' c0 o ps' []).
    { apply ginv_start; [done..|]. intros i q E. unfold ps' in E. rewrite list_lookup_imap in E.
      destruct (ps0 !! i) as [q0|] eqn:E0; [|done]. cbn in E. injection E as <-.
      unfold fin'. destruct (decide (i ∈ s1)); [by apply ST|done]. }
    destruct (crun_agree s1 o ps0 ps' o1 ps1) as (ps1' & R' & E1 & E2 & E3); [|exact R|].
    { intros i I. unfold ps'. rewrite list_lookup_imap. destruct (ps0 !! i); [|done]. cbn. by rewrite decide_True. }
    destruct (ginv_run p NE gone ok fin' c0 s1 o ps' [] o1 ps1' G0 R') as (log & G & IN & _). cbn [app] in G.
    destruct G as (sts & j & AI & I & RL & PI).
    assert (FREE : forall i, i ∉ s1 -> sts i = Free).
    { intros i N. specialize (PI i). rewrite E2 in PI by done. unfold ps' in PI. rewrite list_lookup_imap in PI.
      destruct (ps0 !! i); cbn in PI; [|done]. rewrite decide_False in PI by done. cbn in PI. unfold fin' in PI.
      rewrite decide_False in PI by done. exact PI. }
    assert (G : forall i, match ps1 !! i with Some q => lfol (ok i) (fin i) (sts i, own i log) q | None => sts i = Free end).
    { intros i. destruct (decide (i ∈ s1)) as [Y|N].
      - specialize (PI i). rewrite E1 in PI by done. destruct (ps1 !! i); [|done].
        eapply follows_weaken; [exact PI|]. intros s a X. unfold fin' in X. by rewrite decide_True in X.
      - rewrite E3 by done. rewrite (FREE i N). destruct (ps0 !! i) as [q|] eqn:EQ; [|done].
        replace (own i log) with (@nil event); [by apply ST|]. symmetry. destruct (own i log) as [|e l] eqn:EO; [done|].
        destruct N. apply (IN (i, e)). apply own_in. rewrite EO. by left. }
    exists log. split; [exists sts, j; by split_and!|]. split; [apply I|]. split; [|exact IN].
    assert (ND : forall k fd c, sts k <> Hold Dirty fd c).
    { intros k fd c E. destruct (decide (k ∈ s1)) as [Y|N]; [|by rewrite FREE in E].
      specialize (G k). rewrite E in G. destruct (QU k Y) as [[a Ra]|NP].
      - rewrite Ra in G. cbn in G. by apply FF in G.
      - destruct (ps1 !! k); [|done]. apply dirty_puts in G as (tr & w & X); [|by apply FF]. by apply NP in X. }
    destruct (inv_stable _ _ _ _ NE _ _ _ I Logic.I) as [c E]. rewrite E. f_equal.
    apply file_at_some in E. destruct (view_file _ _ _ NE E) as (j' & T & D).
    destruct (i_vals _ _ _ _ _ _ _ I j') as (c' & D' & V).
    { by apply (i_at _ _ _ _ _ _ _ I p j' T). }
    { intros k fd c' S. by apply ND in S. }
    rewrite D' in D. cbn in D. subst c'. destruct V as [V|(V & _)]; [done|by destruct V].
  Qed.
End Quiet.

Theorem region_read_snapshot flit C h H sl : (forall b, concat (sl b) = b) ->
  plain (hy_base H) -> good_suffix (ep_suffix (hy_ep H)) ->
  forall t path m d fill, plain path -> good_sep (am_sep m) -> iter_ok m -> chunk_shape_ok m -> am_shape m <> [] ->
  lossless C (am_comp m) -> total_codec C (am_comp m) -> effective m d -> same_kind_width d t ->
  effective_fill flit t m = Ok fill -> elt_ok t fill ->
  forall o calls s1 o1 ps1 s2 o2 ps2, calm o -> wf_fs (view o) -> Forall rcall_ok calls -> Forall (agrees C h t path m) calls ->
  crun o (map (p_rcall flit C h H sl) calls) s1 = Some (o1, ps1) -> crun o1 ps1 s2 = Some (o2, ps2) ->
  forall j path' bb arr, pieces path' = pieces path ->
  (exists rsf, calls !! j = Some (RRead t path' m bb rsf)) \/ (exists arr0 rsf, calls !! j = Some (RReadInto t path' m bb arr0 rsf)) ->
  j ∉ s1 -> returned ps2 j (YRegion (Ok arr)) ->
  (forall pos, meets_box m bb pos -> (exists ck, read_chunk C h H (view o) t path m pos = Ok (Some ck))
     /\ forall c, c ∈ calls -> ~ takes_away path pos c) ->
  (forall k e pos, calls !! k = Some e -> meets_box m bb pos -> writes_into path m pos e ->
     (exists a, returned ps1 k a) \/ k ∉ s1 ++ s2) ->
  forall i, index_of (bb_shape bb) i ->
  in_box (replicate (length (am_shape m)) 0) (am_shape m) (zip_with Z.add (bb_off bb) i) ->
  voxel C h H (view o1) t path m fill (zip_with Z.add (bb_off bb) i) = Ok (nd_at arr i).
Proof.
  intros SL PB GX t path m d fill PP GS IO CK NE LL TC ED KW FE EF o calls s1 o1 ps1 s2 o2 ps2 CA W OK AG R1 R2
    j path' bb arr PE CJ NJ RJ HC HW i Hi IA.
  assert (BO : length (bb_off bb) = length (bb_shape bb)).
  { rewrite list.Forall_forall in OK. destruct CJ as [[rsf EJ]|(arr0 & rsf & EJ)]; apply elem_of_list_lookup_2, OK in EJ;
      destruct EJ as (_ & _ & B & _); apply bok_box_ok in B; by apply Forall2_length in B. }
  pose proof (in_box_shift _ _ _ BO Hi) as IB.
  set (x := zip_with Z.add (bb_off bb) i) in *.
  assert (LX : length x = length (am_chunk_shape m)).
  { destruct IA as (_ & E & _). rewrite E. by apply Forall2_length in IO. }
  pose proof (chunk_of_covers m x (proj1 CK) LX) as CV.
  assert (GV : grid_voxel m x) by (exists (chunk_of m x); split; [done|by exists x]).
  assert (MB : meets_box m bb (chunk_of m x)) by by exists x.
  destruct (HC _ MB) as [[ck0 RC] ND].
  set (P := loc (hy_base H) (get_chunk_key path m (chunk_of m x))).
  rewrite (read_at C h H sl SL PB t path m PP GS IO CK x GV) in RC by done. fold P in RC.
  destruct (file_at (view o) P) as [c0|] eqn:F0; [|done].
  assert (NP : P <> []) by apply P_ne.
  set (fin := fun (n : nat) (s : sess * list event) (a : rreply) =>
    match calls !! n with Some c => kfin C h t path m x i c s a | None => False end).
  assert (WR : forall k tr w, okk C h t path m x calls k tr (Put w) ->
    (exists a, returned ps1 k a) \/ k ∉ s1 ++ s2).
  { intros k tr w O. unfold okk in O. destruct (calls !! k) as [e|] eqn:EK; [|done]. cbn [may_put] in O.
    apply (HW k e (chunk_of m x) EK MB). eapply kput_writes; [exact OK|exact AG|by eapply elem_of_list_lookup_2|exact O]. }
  destruct (quiet_moment P NP written_ok (okk C h t path m x calls) fin c0 o (map (p_rcall flit C h H sl) calls) s1 o1 ps1)
    as (log & G & W1 & F1 & IN); [exact CA|exact W|exact F0| | |exact R1| |].
  { intros n q E. rewrite list_lookup_fmap in E. unfold fin, okk. destruct (calls !! n) as [cc|] eqn:EC; [|done].
    injection E as <-. eapply rcall_logs; try done. by eapply elem_of_list_lookup_2. }
  { intros n s a F. unfold fin in F. destruct (calls !! n); [|done]. apply F. }
  { intros k KI.
    destruct (ps1 !! k) as [[a|T c kk]|] eqn:E; [left; by exists a|right..]; intros tr w O; apply WR in O as [[a O]|O];
      try (unfold returned in O; congruence); apply O, elem_of_app; by left. }
  destruct (ginv_run P NP _ _ fin c0 s2 o1 ps1 log o2 ps2 G R2) as (ext & G2 & IN2 & _).
  destruct (ginv_ret _ _ _ _ _ _ _ _ _ _ G2 RJ) as [st F]. unfold fin in F.
  assert (SH : shown C h t m x (own j (log ++ ext)) (nd_at arr i)).
  { destruct CJ as [[rsf EJ]|(arr0 & rsf & EJ)]; rewrite EJ in F; destruct F as [_ F]; by apply F. }
  destruct SH as (b & ck & SB & D & ->). apply own_in in SB. apply elem_of_app in SB as [SB|SB]; [by apply IN in SB|].
  apply elem_of_list_split in SB as (a1 & a2 & ->). destruct G2 as (sts & jj & _ & _ & RL & _).
  destruct (RL (log ++ a1) j (Saw b) a2) as [_ SV]; [by rewrite <- app_assoc|].
  rewrite (SV b eq_refl) in D.
  assert (VE : val c0 (log ++ a1) = val c0 log).
  { assert (NPUT : forall k w, (k, Put w) ∉ a1).
    { intros k w Y. apply elem_of_list_split in Y as (y1 & y2 & ->).
      destruct (RL (log ++ y1) k (Put w) (y2 ++ (j, Saw b) :: a2)) as [O _]; [by rewrite <- !app_assoc|].
      assert (KS : k ∈ s2). { apply (IN2 (k, Put w)). apply elem_of_app. left. apply elem_of_app. right. by left. }
      apply WR in O as [[a O]|O].
      - by apply (ret_stays _ _ _ _ _ _ _ R2 O).
      - apply O, elem_of_app. by right. }
    rewrite val_app. revert NPUT. generalize (val c0 log). clear. induction a1 as [|[k [y|w]] l IH]; intros v NP; cbn; [done|..].
    - apply IH. intros k' w Y. apply (NP k' w). by right.
    - destruct (NP k w). by left. }
  rewrite VE in D. apply voxel_some; [done|done|].
  rewrite (read_at C h H sl SL PB t path m PP GS IO CK x GV) by done. fold P. by rewrite F1, D.
Qed.
