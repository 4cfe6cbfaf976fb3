(** Listing a directory one system call at a time, alone (C54). *)
From Verif Require Import BaseFacts PathFacts FSFacts KeyFacts ListFacts RefFacts OpsFacts HierFacts Hier JsonPrefix Spec SpecMeta.
From Verif Require Import Sys SpecSys SysFacts SysOps SysNdOps SpecRemove.
From Coq Require Import Sorting.Sorted.
From stdpp Require Import sorting.
Local Open Scope Z_scope.

(** ** The result does not depend on the order of the directory's entries *)

Lemma ble_antisymm a b : ble a b -> ble b a -> a = b.
Proof.
  rewrite !ble_cases. intros [->|X] [Y|Y]; try done. 
  pose proof (bcmp_lt_trans _ _ _ X Y) as Q. unfold blt in *. assert (bcmp a a = Eq) as Z by by apply bcmp_eq. congruence.
Qed.
Lemma sort_unique l l' : l ≡ₚ l' -> sort_strs l = sort_strs l'.
Proof.
  intros P. assert (AntiSymm eq ble) as AS by (intros a b; apply ble_antisymm).
  apply (StronglySorted_unique ble).
  - apply sort_ok.
  - apply sort_ok.
  - by rewrite !sort_perm.
Qed.
(** Results that are equal up to the order of a list. *)
Definition rperm {A : Type} (x y : res (list A)) : Prop :=
  match x, y with
  | Ok l, Ok l' => l ≡ₚ l'
  | Panic, Panic => True
  | _, _ => False
  end.
Lemma mapM_perm {A C : Type} (f : A -> res C) l l' :
  (forall a e, f a <> Err e) -> l ≡ₚ l' -> rperm (mapM_res f l) (mapM_res f l').
Proof.
  intros NE. induction 1 as [|x l l' P IH|x y l|l1 l2 l3 P IH P' IH']; cbn [mapM_res].
  - apply Permutation_refl.
  - destruct (f x) eqn:E; cbn; [|by apply NE in E|done].
    destruct (mapM_res f l), (mapM_res f l'); cbn in *; try done. by rewrite IH.
  - destruct (f x) eqn:E, (f y) eqn:E'; cbn; try (by apply NE in E); try (by apply NE in E'); try done.
    all: destruct (mapM_res f l) eqn:M; cbn; try done; try by apply perm_swap.
    all: exfalso; by eapply (mapM_res_not_err f l e).
  - destruct (mapM_res f l1), (mapM_res f l2), (mapM_res f l3); cbn in *; try done. exact (Permutation_trans IH IH').
Qed.
Lemma truncate_not_err p n k e : truncate_by p n k <> Err e.
Proof. unfold truncate_by, sub64, chk64. destruct (_ && _), p; done. Qed.

Lemma list_nodes_split H p s path :
  list_nodes p H s path = l ← st_list_dir (hy_base H) s (META_ROOT_PATH ++ slash :: canonicalize_path path); node_names H p path l.
Proof. unfold list_nodes, node_names. cbv zeta. destruct (st_list_dir _ _ _) as [[ks ps]| |]; done. Qed.
Lemma node_names_perm H p path ks ps ks' ps' : ks ≡ₚ ks' -> ps ≡ₚ ps' ->
  node_names H p path (ks, ps) = node_names H p path (ks', ps').
Proof.
  intros K P. unfold node_names. cbv zeta. cbn [fst snd].
  set (f1 := truncate_by p (lenZ (ep_suffix (hy_ep H)))).
  set (f2 := truncate_by p (lenZ (ep_suffix (hy_ep H)) + lenZ ARRAY_METADATA_KEY_EXT + 1)).
  assert (T1 : forall a e, f1 a <> Err e) by (intros a e; apply truncate_not_err).
  assert (T2 : forall a e, f2 a <> Err e) by (intros a e; apply truncate_not_err).
  clearbody f1 f2.
  match goal with |- context [filter ?Q ks] => set (F1 := Q) end.
  assert (R1 : rperm (mapM_res f1 (filter F1 ks)) (mapM_res f1 (filter F1 ks'))) by (apply mapM_perm; [done|by rewrite K]).
  destruct (mapM_res f1 (filter F1 ks)) as [x|e|], (mapM_res f1 (filter F1 ks')) as [x'|e'|]; cbn [rperm] in R1; try done.
  rewrite !bind_ok.
  match goal with |- context [filter ?Q x] => set (F2 := Q) end.
  assert (R2 : rperm (mapM_res f2 (filter F2 x)) (mapM_res f2 (filter F2 x'))) by (apply mapM_perm; [done|by rewrite R1]).
  destruct (mapM_res f2 (filter F2 x)) as [y|e|], (mapM_res f2 (filter F2 x')) as [y'|e'|]; cbn [rperm] in R2; try done.
  rewrite !bind_ok. f_equal. f_equal. apply sort_unique. by rewrite R2, P.
Qed.

(** ** Listing, alone *)

Section List.
  Context (ord : list comp -> list (bytes * bool) -> list (bytes * bool)) (ORD : any_order ord).

  Lemma run_stats q : forall l o, wf_fs (view o) -> 
    (forall e, e ∈ l -> exists nd, view o !! (q ++ [e.1]) = Some nd /\ is_dir_node nd = e.2) ->
    run o (p_stats (map Normal q) l) = Some (o, l).
  Proof.
    induction l as [|[x d] l IH]; intros o W E; [done|]. cbn [p_stats run sys_step fst].
    destruct (E (x, d)) as (nd & E1 & E2); [by left|]. cbn [fst snd] in E1, E2.
    rewrite <- node_at_ne in E1 by by destruct q.
    change (map Normal q ++ [Normal x]) with (map Normal q ++ map Normal [x]). rewrite <- map_app.
    unfold stat. rewrite (walk_present (view o) (q ++ [x]) [] nd W) by done. cbn [app]. rewrite E1.
    rewrite run_bind, IH; [|done|intros e He; apply E; by right]. cbn. by rewrite E2.
  Qed.

  Lemma run_list_dir base prefix o : wf_fs (view o) -> plain base -> plain prefix ->
    exists r, run o (p_list_dir ord base prefix) = Some (o, r) /\
      match r, st_list_dir base (view o) prefix with
      | Ok (ks, ps), Ok (ks', ps') => ks ≡ₚ ks' /\ ps ≡ₚ ps'
      | Err e, Err e' => e = e'
      | Panic, Panic => True
      | _, _ => False
      end.
  Proof.
    intros W PB PP. unfold p_list_dir, st_list_dir. rewrite key_comps_plain by done. cbn [pres mbind].
    rewrite run_try. cbn [run sys_step]. rewrite bind_ok.
    destruct (walk (view o) [] (map Normal (loc base prefix))) as [p|e|] eqn:WK; [|eexists; split; [done|]; cbn; done..].
    rewrite bind_ok. destruct (node_at (view o) p) as [[|c]|] eqn:E; [|eexists; split; [done|]; cbn; done..].
    assert (p = loc base prefix) as -> by by apply walk_normal_target in WK.
    set (q := loc base prefix) in *.
    set (es := map (fun e : bytes * node => (e.1, is_dir_node e.2)) (entries_of (view o) q)).
    assert (EE : forall e, e ∈ ord (map Normal q) es ->
      exists nd, view o !! (q ++ [e.1]) = Some nd /\ is_dir_node nd = e.2).
    { intros e. rewrite (ORD (map Normal q) es). unfold es. rewrite elem_of_list_fmap.
      intros ([x nd] & -> & Hx). exists nd. split; [by apply entries_elem|done]. }
    rewrite run_bind, (run_stats q) by done. cbn [run]. eexists. split; [done|].
    pose proof (ORD (map Normal q) es) as P.
    assert (forall b, map (fun e : bytes * bool => prefix ++ e.1) (filter (fun e => e.2 = b) es)
      = map (fun e : bytes * node => prefix ++ e.1) (filter (fun e => is_dir_node e.2 = b) (entries_of (view o) q))) as EF.
    { clear. intros b. unfold es. clear es. induction (entries_of (view o) q) as [|[x nd] l IH]; [done|]. cbn [map].
      rewrite !filter_cons. cbn [fst snd]. repeat case_decide; try done; cbn [map fst]. f_equal. exact IH. }
    split; rewrite <- EF; by rewrite P.
  Qed.

  Theorem does_list_nodes H p path o : calm o -> wf_fs (view o) -> plain (hy_base H) -> plain path ->
    does o (p_list_nodes H ord p path) (view o, list_nodes p H (view o) path).
  Proof.
    intros CA W PB PP. exists o. split_and!; [|done|done]. cbn [snd]. rewrite list_nodes_split.
    unfold p_list_nodes. rewrite run_try.
    destruct (run_list_dir (hy_base H) (META_ROOT_PATH ++ slash :: canonicalize_path path) o) as (r & R & X); [done|done|by apply plain_kp|].
    rewrite R. destruct r as [[ks ps]|e|], (st_list_dir _ _ _) as [[ks' ps']|e'|]; try done.
    - destruct X as [X1 X2]. cbn [run]. rewrite bind_ok. by rewrite (node_names_perm H p path ks ps ks' ps').
    - by subst.
  Qed.
End List.
