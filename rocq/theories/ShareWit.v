(** Deciding the premises of C57 and C58 for concrete calls, and concrete
    executions for the examples. *)
From Verif Require Import BaseFacts FSFacts StoreFacts Spec Sys SpecShare SysFacts CoordIterFacts SysWit ConcWit.
Local Open Scope Z_scope.

Definition chunk_at (H : hier) (path : bytes) (m : array_meta) (pos : list Z) : fpath :=
  loc (hy_base H) (get_chunk_key path m pos).
Definition region_files (H : hier) (path : bytes) (m : array_meta) (bb : bbox) : list fpath :=
  map (chunk_at H path m) (box_coords (branges m bb)).
Definition writes_of (H : hier) (c : rcall) : list fpath :=
  match c with
  | RCall (KSetAttributes path _ _) => [loc (hy_base H) (akey H path); loc (hy_base H) (gkey H path)]
  | RCall (KCreateGroup path) => [loc (hy_base H) (gkey H path)]
  | RCall (KCreateArray path _) => [loc (hy_base H) (akey H path)]
  | RCall (KWriteChunk _ path m ck _) => [chunk_at H path m (ck_pos ck)]
  | RCall (KDeleteChunk path m pos) => [chunk_at H path m pos]
  | RWrite _ path m off arr _ => region_files H path m (BBox off (nd_shape arr))
  | _ => []
  end.
Definition touches_of (H : hier) (c : rcall) : list fpath :=
  match c with
  | RCall (KGetMetadata path _) => [loc (hy_base H) (akey H path)]
  | RCall (KListAttributes path _) | RCall (KSetAttributes path _ _)
  | RCall (KCreateGroup path) | RCall (KCreateArray path _) =>
      [loc (hy_base H) (akey H path); loc (hy_base H) (gkey H path)]
  | RCall (KReadChunk _ path m pos _) | RCall (KDeleteChunk path m pos) => [chunk_at H path m pos]
  | RCall (KWriteChunk _ path m ck _) => [chunk_at H path m (ck_pos ck)]
  | RRead _ path m bb _ | RReadInto _ path m bb _ _ => region_files H path m bb
  | RWrite _ path m off arr _ => region_files H path m (BBox off (nd_shape arr))
  | _ => []
  end.
Lemma region_listed H path m bb q :
  bounded_ok (am_shape m) (am_chunk_shape m) (bb_off bb) (bb_shape bb) ->
  region_file H path m bb q -> q ∈ region_files H path m bb.
Proof.
  intros BO (pos & _ & M & E). apply elem_of_list_fmap. exists pos. split; [exact E|].
  by apply elem_of_box_coords, branges_complete.
Qed.
Lemma doc_listed H path q : doc H path q -> q ∈ [loc (hy_base H) (akey H path); loc (hy_base H) (gkey H path)].
Proof. intros [E|E]; unfold array_doc, group_doc in E; subst q; set_solver. Qed.
Lemma writes_listed H c q : rcall_ok c -> may_write H c q -> q ∈ writes_of H c.
Proof.
  destruct c as [[]| | |]; cbn [rcall_ok may_write writes_of]; intros OK M; try done;
    try (apply elem_of_list_singleton; exact M).
  - by apply doc_listed.
  - apply region_listed; [apply OK|done].
Qed.
Lemma touches_listed H c q : rcall_ok c -> may_touch H c q -> q ∈ touches_of H c.
Proof.
  destruct c as [[]| | |]; cbn [rcall_ok may_touch touches_of]; intros OK M; try done;
    try (apply elem_of_list_singleton; exact M); try (by apply doc_listed);
    (apply region_listed; [apply OK|done]).
Qed.

(** No file of [qs] is in [ts] or a prefix of one in [ws]. *)
Definition clear (qs ts ws : list fpath) : bool :=
  forallb (fun q => negb (bool_decide (q ∈ ts)) && forallb (fun r => negb (bool_decide (take (length q) r = q))) ws) qs.
Fixpoint indep_check (H : hier) (before calls : list rcall) : bool :=
  match calls with
  | [] => true
  | c :: r =>
      forallb (fun d => clear (writes_of H c) (touches_of H d) (writes_of H d)) (before ++ r)
      && indep_check H (before ++ [c]) r
  end.
Lemma clear_sound qs ts ws q : clear qs ts ws = true -> q ∈ qs -> q ∉ ts /\ forall r, r ∈ ws -> ~ q `prefix_of` r.
Proof.
  unfold clear. rewrite forallb_forall. intros E Q. apply elem_of_list_In, E in Q.
  apply andb_true_iff in Q as [Q1 Q2]. split.
  - apply negb_true_iff in Q1. by apply bool_decide_eq_false in Q1.
  - intros r R [k ->]. rewrite forallb_forall in Q2. apply elem_of_list_In, Q2 in R.
    apply negb_true_iff, bool_decide_eq_false in R. apply R. apply take_app.
Qed.
Lemma indep_check_sound H calls : Forall rcall_ok calls -> indep_check H [] calls = true -> independent H calls.
Proof.
  intros OK. cut (forall before, indep_check H before calls = true -> forall i c, calls !! i = Some c ->
    forall j d, j <> (length before + i)%nat -> (before ++ calls) !! j = Some d ->
    clear (writes_of H c) (touches_of H d) (writes_of H d) = true).
  { intros X E i j c d N Ei Ej q M. assert (rcall_ok c /\ rcall_ok d) as [Oc Od].
    { rewrite list.Forall_forall in OK. split; apply OK; by eapply elem_of_list_lookup_2. }
    destruct (clear_sound _ _ _ q (X [] E i c Ei j d (not_eq_sym N) Ej)) as [X1 X2]; [by apply writes_listed|].
    split; [intros T; by apply X1, touches_listed|]. intros r R. apply X2. by apply writes_listed. }
  clear OK. induction calls as [|c0 r IH]; intros before E i c Ei j d N Ej; [done|].
  cbn [indep_check] in E. apply andb_true_iff in E as [E1 E2]. destruct i as [|i].
  - injection Ei as ->. rewrite forallb_forall in E1. apply E1, elem_of_list_In.
    destruct (decide (j < length before)%nat) as [L|L].
    + rewrite lookup_app_l in Ej by done. apply elem_of_app. left. by eapply elem_of_list_lookup_2.
    + rewrite lookup_app_r in Ej by lia. destruct (j - length before)%nat as [|n] eqn:En; [lia|].
      apply elem_of_app. right. by eapply elem_of_list_lookup_2.
  - apply (IH _ E2 i c Ei j d); [rewrite app_length; cbn; lia|]. by rewrite <- app_assoc.
Qed.

(** A file exists, or neither does it nor does a file above it. *)
Definition hold_check (s : fs) (p : fpath) : bool :=
  forallb (fun n => negb (bool_decide (is_Some (file_at s (take n p))))) (seq 0 (length p))
  && match node_at s p with Some Dir => false | _ => true end.
Lemma hold_check_sound s p : hold_check s p = true -> can_hold_file s p.
Proof.
  unfold hold_check. intros E. apply andb_true_iff in E as [E1 E2]. split.
  - intros q [k ->] N c X. rewrite forallb_forall in E1.
    assert (length q < length (q ++ k))%nat as L.
    { rewrite app_length. destruct k; [by rewrite app_nil_r in N|]. cbn. lia. }
    specialize (E1 (length q)). rewrite in_seq in E1. specialize (E1 ltac:(lia)).
    apply negb_true_iff, bool_decide_eq_false in E1. apply E1. rewrite take_app. by exists c.
  - intros X. by rewrite X in E2.
Qed.
Definition writable_check (H : hier) (s : fs) (calls : list rcall) : bool :=
  forallb (fun c => forallb (hold_check s) (writes_of H c)) calls.
Lemma writable_check_sound H s calls : Forall rcall_ok calls -> writable_check H s calls = true -> writable H s calls.
Proof.
  intros OK E c Ec q M. unfold writable_check in E. rewrite forallb_forall in E.
  assert (rcall_ok c) as Oc by (rewrite list.Forall_forall in OK; by apply OK).
  apply elem_of_list_In, E in Ec. rewrite forallb_forall in Ec. apply hold_check_sound, Ec, elem_of_list_In.
  by apply writes_listed.
Qed.

(** Executions *)
Definition end_os {A} (c : option (os * list (proc A))) : os := match c with Some (o, _) => o | None => boot end.
Definition end_ps {A} (c : option (os * list (proc A))) : list (proc A) := match c with Some (_, ps) => ps | None => [] end.
Definition answer {A} (p : proc A) : option A := match p with Ret a => Some a | Call _ _ => None end.
Lemma crun_check {A} o (ps : list (proc A)) sched :
  match crun o ps sched with Some _ => true | None => false end = true ->
  csteps (o, ps) (end_os (crun o ps sched), end_ps (crun o ps sched)).
Proof. intros X. apply crun_steps with sched. by destruct (crun o ps sched) as [[]|]. Qed.
Lemma answer_ret {A} (p : proc A) a : answer p = Some a -> p = Ret a.
Proof. by destruct p; [intros [= ->]|]. Qed.
(** The processes take turns, [w i] system calls at a time for process [i]. *)
Fixpoint turns {A} (fuel : nat) (w : nat -> nat) (o : os) (ps : list (proc A)) (i left : nat) : list nat :=
  match fuel with
  | O => []
  | S n =>
      match left with
      | O => let i' := if bool_decide (S i < length ps)%nat then S i else O in turns n w o ps i' (w i')
      | S l =>
          match ps !! i with
          | Some p =>
              match pstep o p with
              | Some (o', p') => i :: turns n w o' (<[i := p']> ps) i l
              | None => turns n w o ps i O
              end
          | None => turns n w o ps i O
          end
      end
  end.
Lemma no_share_check m b b' :
  bounded_ok (am_shape m) (am_chunk_shape m) (bb_off b) (bb_shape b) ->
  bounded_ok (am_shape m) (am_chunk_shape m) (bb_off b') (bb_shape b') ->
  forallb (fun p => negb (bool_decide (p ∈ box_coords (branges m b')))) (box_coords (branges m b)) = true ->
  ~ share_chunk m b b'.
Proof.
  intros B1 B2 E (pos & M & M'). rewrite forallb_forall in E. specialize (E pos). rewrite <- elem_of_list_In in E.
  apply branges_complete in M, M'; [|done..].
  specialize (E (proj2 (elem_of_box_coords _ _) M)). apply negb_true_iff, bool_decide_eq_false in E.
  by apply E, elem_of_box_coords.
Qed.
(** Every chunk file of the array can be created. *)
Lemma grid_check H s path m :
  bounded_ok (am_shape m) (am_chunk_shape m) (replicate (length (am_shape m)) 0) (am_shape m) ->
  forallb (hold_check s) (region_files H path m (BBox (replicate (length (am_shape m)) 0) (am_shape m))) = true ->
  forall pos, meets_array m pos -> can_hold_file s (loc (hy_base H) (get_chunk_key path m pos)).
Proof.
  intros BO E pos (x & X1 & X2). rewrite forallb_forall in E. apply hold_check_sound, E, elem_of_list_In.
  apply elem_of_list_fmap. exists pos. split; [done|]. apply elem_of_box_coords, branges_complete; [done|].
  by exists x.
Qed.
