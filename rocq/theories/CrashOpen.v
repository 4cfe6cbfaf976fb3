(** Creating a hierarchy, stopped in the middle. *)
From Verif Require Import BaseFacts PathFacts FSFacts KeyFacts HierFacts Spec SpecMeta SpecHier.
From Verif Require Import JsonFacts JsonPrefix MetaJsonFacts NodeFacts OpenFacts.
From Verif Require Import Sys SpecSys SysFacts SysOps CrashFacts CrashOps CrashMeta.
Local Open Scope Z_scope.

Definition ep_text : bytes := print (enc_ep ep_default).
Lemma cut_ep n {A} (dec : json -> res A) : (n < length ep_text)%nat ->
  from_text dec (take n ep_text) = Err InvalidData.
Proof. intros L. apply cut_document; [by vm_compute|vm_compute; lia|done|done]. Qed.

Lemma sys_step_room {T} (c : sys T) o o' x : o_room o = None -> sys_step c o = Some (o', x) -> o_room o' = None.
Proof.
  intros R E. destruct c; cbn [sys_step] in E; repeat case_match; simplify_eq; try done; cbn; by rewrite R.
Qed.

Section OpenCrash.
  Context (V : bytes -> option bool) (base : bytes) (PB : plain base).
  Context (sl : bytes -> list bytes) (SL : forall b, concat (sl b) = b).
  Notation zloc := (pieces base ++ [ENTRY_POINT_KEY]).
  Notation create := (p_open_or_create V sl base).

  Lemma zloc_not_above : ~ zloc `prefix_of` pieces base.
  Proof. intros X%prefix_length. rewrite app_length in X. cbn in X. lia. Qed.

  (** The state after the directories are made. *)
  Lemma dirs_made o : os_ok o -> wf_fs (view o) ->
    (forall k, file_at (view o) (take k (pieces base)) = None) -> node_at (view o) zloc = None ->
    exists o1, run o (p_mkdir_all (comps base) (length (comps base))) = Some (o1, Ok tt) /\
      os_ok o1 /\ same_rest o o1 /\ wf_fs (view o1) /\ node_at (view o1) zloc = None /\
      node_at (view o1) (pieces base) = Some Dir.
  Proof.
    intros K W F N.
    destruct (run_mkdir_all (comps base) (length (comps base)) o K) as (o1 & E1 & V1 & K1 & R1).
    rewrite (comps_plain base PB), map_length in *.
    destruct (mkdir_all_plain (view o) (pieces base) (length (pieces base)) W) as (s1 & E & W1 & N1);
      [done|by intros k _|].
    rewrite E in E1, V1. cbn [fst snd] in *. subst s1. rewrite firstn_all in N1.
    exists o1. split_and!; try done.
    - rewrite N1, decide_False; [done|apply zloc_not_above].
    - by rewrite N1, decide_True.
  Qed.
  Lemma open_new o : os_ok o -> wf_fs (view o) -> node_at (view o) zloc = None ->
    node_at (view o) (pieces base) = Some Dir ->
    exists o2 i fd, sys_step (SOpenW (comps (path_join base ENTRY_POINT_KEY))) o = Some (o2, Ok fd) /\
      opened o o2 zloc i fd [].
  Proof.
    intros K W N D. rewrite entry_comps by done.
    assert (WK : walk (view o) [] (map Normal zloc) = Ok zloc).
    { rewrite map_app, walk_app. rewrite (walk_present (view o) (pieces base) [] _ W D).
      cbn [mbind res_bind app map walk]. by rewrite D. }
    assert (DP : is_dir_at (view o) (parent zloc) = true) by (rewrite parent_snoc; by apply is_dir_at_true).
    pose proof (run_openw o (map Normal zloc) K) as OW. unfold open_truncate in OW.
    rewrite WK, N, DP in OW. destruct OW as (o2 & i & fd & c & E2 & OP & _ & CC).
    assert (c = []) as ->.
    { destruct CC as [CC|[_ CC]]; [|done]. unfold file_at in CC. by rewrite N in CC. }
    exists o2, i, fd. done.
  Qed.

  Lemma create_stops rs o o' : idle o -> wf_fs (view o) ->
    (forall k, file_at (view o) (take k (pieces base)) = None) -> node_at (view o) zloc = None ->
    stops o (create rs) o' ->
    os_ok o' /\ (grown (pieces base) (view o) (view o') \/
      (wf_fs (view o') /\ exists n, file_at (view o') zloc = Some (take n ep_text))).
  Proof.
    intros (K & F0 & L0) W F N S. split; [by eapply stops_ok|].
    assert (HERE : grown (pieces base) (view o) (view o)) by by apply grown_refl.
    unfold p_open_or_create in S. cbv zeta in S.
    apply stops_call in S as [->|(o1 & b & E & S)]; [by left|].
    cbn [sys_step] in E. injection E as <- <-.
    assert (path_exists (view o) (comps (path_join base ENTRY_POINT_KEY)) = false) as X.
    { by rewrite entry_comps, path_exists_plain, N. }
    rewrite X in S.
    apply stops_bind in S as [S|(o1 & r & E & S)].
    { left. rewrite (comps_plain base PB), map_length in S. by eapply mkdir_all_stops. }
    destruct (dirs_made o K W F N) as (o1' & E1 & K1 & (F1 & L1 & _) & W1 & N1 & D1).
    rewrite E1 in E. injection E as <- <-.
    assert (G1 : grown (pieces base) (view o) (view o1')).
    { apply stops_run in E1. rewrite (comps_plain base PB), map_length in E1. by eapply mkdir_all_stops. }
    destruct (open_new o1' K1 W1 N1 D1) as (o2 & i & fd & E2 & OP).
    destruct OP as (NN & K2 & T2 & D2 & F2 & FN & L2 & _ & _ & V2).
    assert (Fd : o_fds o2 !! fd = Some i) by (rewrite F2; apply lookup_insert).
    assert (C2 : forall o3 n, view o3 = view (set_data o2 i (take n ep_text)) ->
      wf_fs (view o3) /\ exists n, file_at (view o3) zloc = Some (take n ep_text)).
    { intros o3 n ->. rewrite (view_set_data _ zloc) by done. rewrite V2, insert_insert. split.
      - apply wf_insert; [done|done|]. left. by rewrite N1.
      - exists n. unfold file_at. rewrite node_at_insert by done. by rewrite decide_True. }
    assert (S0 : view o2 = view (set_data o2 i (take 0 ep_text))).
    { rewrite (view_set_data _ zloc) by done. by rewrite V2, insert_insert. }
    apply stops_bind in S as [S|(o3 & r & E & S)].
    { apply stops_call in S as [->|(o3 & r & E & S)]; [by left|]. apply stops_ret in S as ->.
      rewrite E2 in E. injection E as <- <-. right. by eapply (C2 _ 0%nat). }
    cbn [run] in E. rewrite E2 in E. injection E as <- <-. right.
    apply stops_call in S as [->|(o3 & u & E & S)]; [by eapply (C2 _ 0%nat)|].
    cbn [sys_step] in E. rewrite Fd, no_conflict in E by congruence. injection E as <- _.
    assert (Y : stops (set_lock o2 fd true)
      (p_buffered fd 0 [] (sl (print (enc_ep ep_default))) (Ok tt)) o').
    { apply stops_bind in S as [S|(o3 & r & E & S)]; [done|].
      destruct r as [[]|e|]; apply stops_ret in S as ->; by eapply stops_run. }
    change 0%nat with (length (@nil ascii)) in Y.
    apply (buffered_stops fd i) in Y; [|done|done|done].
    rewrite !app_nil_l, SL in Y. destruct Y as (n & sh & room & Y). apply (C2 _ n).
    destruct Y as [-> | ->]; done.
  Qed.

  Lemma create_crash rs rs' o o' : V (B "3.0") = Some true -> calm o -> wf_fs (view o) ->
    (forall k, file_at (view o) (take k (pieces base)) = None) -> node_at (view o) zloc = None ->
    stops o (create rs) o' ->
    exists a, answers (released o') (create rs') a /\
      (a = Ok (Hier base ep_default) \/
       (a = Err InvalidData /\ exists n, (n < length ep_text)%nat /\ file_at (view o') zloc = Some (take n ep_text))).
  Proof.
    intros HV C W F N S. 
    assert (RN : forall (p : proc (res hier)) o o', stops o p o' -> o_room o = None -> o_room o' = None).
    { clear. intros p o o' S. induction S as [|o p o1 p1 o2 E S IH]; [done|]. intros R. apply IH. clear IH S.
      destruct p as [a|T c k]; [done|]. cbn [pstep] in E. destruct (sys_step c o) as [[o3 y]|] eqn:E1; [|done].
      injection E as <- _. by eapply sys_step_room. }
    destruct (create_stops rs o o' (proj1 C) W F N S) as [K' D].
    assert (C' : calm (released o')).
    { split; [by apply idle_released|]. cbn. apply (RN _ _ _ S), C. }
    destruct D as [G|(W' & n & FZ)].
    - destruct (grown_files _ _ _ G) as [GF _]. destruct G as [W' G].
      destruct (create_ok V base (view o') W' PB HV) as (s' & E & _).
      { intros k. by rewrite GF. }
      { destruct (G zloc) as [->|(X & _)]; [done|]. by apply zloc_not_above in X. }
      destruct (does_open_or_create V sl base rs' (released o') SL C') as (o2 & R & _); [by rewrite view_released|done|].
      rewrite view_released, E in R. eexists. split; [by exists o2|by left].
    - destruct (does_open_or_create V sl base rs' (released o') SL C') as (o2 & R & _); [by rewrite view_released|done|].
      rewrite view_released in R.
      rewrite open_existing in R.
      2:{ rewrite entry_comps, path_exists_plain by done. unfold file_at in FZ. by destruct (node_at (view o') zloc). }
      cbn [snd] in R. unfold open_hier, read_entry_point in R.
      rewrite entry_comps in R by done. rewrite (open_read_plain _ _ _ W' FZ), bind_ok in R.
      destruct (decide (n < length ep_text)%nat) as [L|L].
      + rewrite cut_ep in R by done. eexists. split; [by exists o2|]. right. split; [done|]. by exists n.
      + rewrite take_ge in R by lia. unfold ep_text in R. rewrite default_reads, bind_ok in R.
        change (check_exts (ep_exts ep_default)) with (@Ok unit tt) in R. rewrite !bind_ok in R.
        unfold check_version in R. change (version_str ep_default) with (B "3.0") in R. rewrite HV, bind_ok in R.
        eexists. split; [by exists o2|by left].
  Qed.

  (** Between the creation of the file and its first bytes. *)
  Lemma create_crash_bad rs o : calm o -> wf_fs (view o) ->
    (forall k, file_at (view o) (take k (pieces base)) = None) -> node_at (view o) zloc = None ->
    exists o', stops o (create rs) o' /\ file_at (view o') zloc = Some [] /\ wf_fs (view o') /\
      forall V' rs', answers (released o') (p_open_or_create V' sl base rs') (Err InvalidData).
  Proof.
    intros C W F N. pose proof C as [(K & F0 & L0) R0].
    destruct (dirs_made o K W F N) as (o1 & E1 & K1 & (F1 & L1 & R1) & W1 & N1 & D1).
    destruct (open_new o1 K1 W1 N1 D1) as (o2 & i & fd & E2 & OP).
    destruct OP as (NN & K2 & T2 & D2 & F2 & FN & L2 & R2 & _ & V2).
    assert (W2 : wf_fs (view o2)).
    { rewrite V2. apply wf_insert; [done|done|]. left. by rewrite N1. }
    assert (FZ : file_at (view o2) zloc = Some []).
    { rewrite V2. unfold file_at. rewrite node_at_insert by done. by rewrite decide_True. }
    exists o2. split_and!; try done.
    - unfold p_open_or_create. cbv zeta. eapply stops_step; [reflexivity|].
      assert (path_exists (view o) (comps (path_join base ENTRY_POINT_KEY)) = false) as ->.
      { by rewrite entry_comps, path_exists_plain, N. }
      eapply stops_bind_r; [exact E1|]. cbn beta iota.
      eapply stops_bind_l. eapply stops_step; [exact E2|]. constructor.
    - intros V' rs'. assert (C' : calm (released o2)).
      { split; [by apply idle_released|]. cbn. congruence. }
      destruct (does_open_or_create V' sl base rs' (released o2) SL C') as (o3 & R & _); [by rewrite view_released|done|].
      rewrite view_released in R. rewrite open_existing in R.
      2:{ rewrite entry_comps, path_exists_plain by done. unfold file_at in FZ. by destruct (node_at (view o2) zloc). }
      cbn [snd] in R. unfold open_hier, read_entry_point in R.
      rewrite entry_comps in R by done. rewrite (open_read_plain _ _ _ W2 FZ), bind_ok in R. by exists o3.
  Qed.
End OpenCrash.
