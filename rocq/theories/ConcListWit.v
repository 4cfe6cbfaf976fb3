(** Checks for the examples beside the theorems about concurrent listings. *)
From Verif Require Import BaseFacts FSFacts StoreFacts Hier Spec SpecMeta SpecHier SpecList Sys SpecConc SysFacts SysWit ConcLive ConcWit.
Local Open Scope Z_scope.

Lemma replies_check C h H sl o calls sched rs :
  rs <> [] -> outcome (crun o (map (p_call C h H sl) calls) sched) = rs ->
  exists o' ps, crun o (map (p_call C h H sl) calls) sched = Some (o', ps)
    /\ (forall i a, rs !! i = Some (Some a) -> returned ps i a)
    /\ (Forall (fun r => r <> None) rs -> all_returned ps).
Proof.
  destruct (crun o _ sched) as [[o' ps]|] eqn:E; cbn [outcome]; intros N R; [|by destruct N].
  exists o', ps. split_and!; [done|..].
  - intros i a X. rewrite <- R in X. rewrite list_lookup_fmap in X. unfold returned.
    destruct (ps !! i) as [q|]; [|done]. injection X as X. by destruct q; [injection X as ->|].
  - intros F i q X. rewrite list.Forall_forall in F. destruct q as [a|]; [by exists a|].
    exfalso. apply (F None); [|done]. rewrite <- R. apply elem_of_list_fmap. eexists. split; [|by eapply elem_of_list_lookup_2]. done.
Qed.
(** A test that fails in every state of an execution. *)
Lemma moments_check {A : Type} (test : fs -> bool) o (ps : list (proc A)) sched :
  forallb (fun k => match crun o ps (take k sched) with Some (o1, _) => negb (test (view o1)) | None => true end)
    (seq 0 (S (length sched))) = true ->
  forall k o1 ps1, crun o ps (take k sched) = Some (o1, ps1) -> test (view o1) = false.
Proof.
  intros F k o1 ps1 E. rewrite forallb_forall in F.
  assert (take k sched = take (k `min` length sched) sched) as T.
  { destruct (decide (k <= length sched)%nat); [by rewrite Nat.min_l|]. rewrite Nat.min_r by lia. by rewrite firstn_all, take_ge by lia. }
  specialize (F (k `min` length sched)%nat). rewrite <- T, E in F. apply negb_true_iff, F. apply in_seq. lia.
Qed.
Lemma docs_check H s paths : Forall plain paths ->
  forallb (fun kv : fpath * node =>
    is_dir_node kv.2 || negb (bool_decide ((pieces (hy_base H) ++ [B "meta"]) `prefix_of` kv.1))
    || existsb (fun path => bool_decide (kv.1 = loc (hy_base H) (array_metadata_key (ep_suffix (hy_ep H)) path))
         || bool_decide (kv.1 = loc (hy_base H) (group_metadata_key (ep_suffix (hy_ep H)) path))) paths)
    (map_to_list s) = true -> documents_only H s.
Proof.
  intros P F r c E. rewrite forallb_forall in F. unfold file_at in E.
  destruct (node_at s _) as [[|c']|] eqn:N; [done| |done].
  rewrite node_at_ne in N by (intros Y; by apply app_eq_nil in Y as [_ Y]).
  assert (In (pieces (hy_base H) ++ B "meta" :: r, File c') (map_to_list s)) as I by by apply elem_of_list_In, elem_of_map_to_list.
  specialize (F _ I). cbn [fst snd is_dir_node orb] in F.
  rewrite bool_decide_true in F by (exists r; by rewrite <- app_assoc). cbn [negb orb] in F.
  apply existsb_exists in F as (path & I' & F). exists path. rewrite list.Forall_forall in P.
  split; [by apply P, elem_of_list_In|]. by apply orb_true_iff in F as [F%bool_decide_eq_true|F%bool_decide_eq_true]; [left|right].
Qed.
