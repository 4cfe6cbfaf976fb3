(** Opening and creating hierarchies. *)
From Verif Require Import Hier Spec SpecMeta SpecHier BaseFacts PathFacts FSFacts JsonFacts MetaJsonFacts NodeFacts.
Local Open Scope Z_scope.

Lemma default_reads : from_text dec_ep (print (enc_ep ep_default)) = Ok ep_default.
Proof. vm_compute. reflexivity. Qed.

(** Opening an existing hierarchy, or what stands in its place. *)
Lemma open_existing V base s : path_exists s (comps (path_join base ENTRY_POINT_KEY)) = true ->
  open_or_create V base s = (s, open_hier V base s).
Proof.
  intros E. unfold open_or_create, open_hier. cbv zeta. rewrite E.
  destruct (read_entry_point base s) as [e|e|]; cbn [on]; done.
Qed.

Lemma mkdir_all_blocked s ns k c : wf_fs s -> file_at s (take k ns) = Some c ->
  exists e, mkdir_all s (map Normal ns) (length ns) = (s, Err e).
Proof.
  intros W X%file_at_some.
  assert (exists n, length ns = S n) as [n EN].
  { destruct ns; [by rewrite take_nil in X|]. by eexists. }
  rewrite EN. cbn [mkdir_all]. rewrite <- EN, firstn_all2 by by rewrite map_length.
  destruct (decide (k < length ns)%nat) as [L|L].
  - pose proof (walk_file s ns [] k c W L X) as WF.
    unfold mkdir, path_is_dir, stat. rewrite WF. by exists Other.
  - rewrite take_ge in X by lia.
    pose proof (walk_present s ns [] _ W X) as WP. cbn [app] in WP.
    unfold mkdir, path_is_dir, stat. rewrite WP, X. by eexists.
Qed.

Section plain_base.
Context (V : bytes -> option bool) (base : bytes) (s : fs).
Hypothesis W : wf_fs s.
Hypothesis PB : plain base.
Notation zloc := (pieces base ++ [ENTRY_POINT_KEY]).

Lemma entry_comps : comps (path_join base ENTRY_POINT_KEY) = map Normal zloc.
Proof.
  rewrite comps_plain; [by rewrite pieces_path_join|]. unfold plain. rewrite pieces_path_join by done.
  intros [I|I]%elem_of_app; [done|]. by apply elem_of_list_singleton in I.
Qed.
Lemma create_ok : V (B "3.0") = Some true ->
  (forall k, file_at s (take k (pieces base)) = None) -> node_at s zloc = None ->
  exists s', open_or_create V base s = (s', Ok (Hier base ep_default)) /\ wf_fs s'
  /\ forall q, node_at s' q =
       if decide (q = zloc) then Some (File (print (enc_ep ep_default)))
       else if decide (q `prefix_of` pieces base) then Some Dir
       else node_at s q.
Proof.
  intros HV F N. unfold open_or_create. cbv zeta. rewrite entry_comps, path_exists_plain, N by done.
  rewrite (comps_plain base PB). unfold create_dir_all. rewrite map_length.
  destruct (mkdir_all_plain s (pieces base) (length (pieces base)) W) as (s1 & -> & W1 & N1); [done|by intros k _|].
  rewrite firstn_all in N1. cbn [andthen].
  assert (NZ : ~ zloc `prefix_of` pieces base).
  { intros X%prefix_length. rewrite app_length in X. cbn in X. lia. }
  assert (N2 : node_at s1 zloc = None) by (rewrite N1, decide_False; done).
  assert (D2 : node_at s1 (pieces base) = Some Dir) by (by rewrite N1, decide_True).
  assert (WK : walk s1 [] (map Normal zloc) = Ok zloc).
  { rewrite map_app, walk_app. destruct (node_at s1 (pieces base)) as [n|] eqn:E; [|done].
    rewrite (walk_present s1 (pieces base) [] n W1 E). cbn [mbind res_bind app map walk].
    rewrite E. by injection D2 as ->. }
  unfold create_file, open_truncate. rewrite WK, N2, parent_snoc.
  assert (F2 : file_at s1 zloc = None) by (unfold file_at; by rewrite N2).
  assert (is_dir_at s1 (pieces base) = true) as -> by by apply is_dir_at_true.
  cbn [andthen]. unfold check_version. change (version_str ep_default) with (B "3.0"). rewrite HV.
  rewrite F2. cbn [default]. rewrite drop_nil, app_nil_r.
  rewrite insert_insert. eexists. split; [done|].
  assert (ZN : zloc <> []) by by destruct (pieces base).
  split.
  - intros p n x X. destruct (decide (p ++ [x] = zloc)) as [Y|Y].
    + apply app_inj_tail in Y as [-> _]. rewrite node_at_insert, decide_False; [done| |done].
      intros Z. apply (f_equal length) in Z. rewrite app_length in Z. cbn in Z. lia.
    + rewrite lookup_insert_ne in X by done. apply W1 in X. rewrite node_at_insert by done.
      case_decide; [|done]. subst. congruence.
  - intros q. rewrite node_at_insert by done. case_decide; [done|]. apply N1.
Qed.

Lemma create_open s' H : V (B "3.0") = Some true ->
  path_exists s (comps (path_join base ENTRY_POINT_KEY)) = false ->
  open_or_create V base s = (s', Ok H) ->
  H = Hier base ep_default /\ open_hier V base s' = Ok H /\ open_or_create V base s' = (s', Ok H).
Proof.
  intros HV NE E.
  assert (NZ : node_at s zloc = None).
  { rewrite entry_comps, path_exists_plain in NE by done. by destruct (node_at s zloc). }
  assert (F : forall k, file_at s (take k (pieces base)) = None).
  { intros k. destruct (file_at s (take k (pieces base))) as [c|] eqn:X; [|done]. exfalso.
    destruct (mkdir_all_blocked s (pieces base) k c W X) as [e M].
    unfold open_or_create in E. cbv zeta in E. rewrite NE in E.
    unfold create_dir_all in E. by rewrite (comps_plain base PB), map_length, M in E. }
  destruct (create_ok HV F NZ) as (s1 & E1 & W1 & N1). rewrite E1 in E. injection E as <- <-.
  assert (OH : open_hier V base s1 = Ok (Hier base ep_default)).
  { assert (RD : open_read s1 (comps (path_join base ENTRY_POINT_KEY)) = Ok (print (enc_ep ep_default))).
    { rewrite entry_comps. apply open_read_plain; [done|]. unfold file_at. by rewrite N1, decide_True. }
    assert (R : read_entry_point base s1 = Ok ep_default).
    { unfold read_entry_point. rewrite RD, bind_ok, default_reads, bind_ok. reflexivity. }
    unfold open_hier. rewrite R, bind_ok. unfold check_version.
    change (version_str ep_default) with (B "3.0"). by rewrite HV. }
  split; [done|]. split; [done|]. rewrite open_existing, OH; [done|].
  rewrite entry_comps, path_exists_plain by done. by rewrite N1, decide_True.
Qed.
End plain_base.

(** A hierarchy just created where there was nothing is a fresh hierarchy. *)
Lemma create_fresh V base s : wf_fs s -> plain base -> V (B "3.0") = Some true ->
  (forall k, file_at s (take k (pieces base)) = None) ->
  (forall x, node_at s (pieces base ++ [x]) = None) ->
  exists s', open_or_create V base s = (s', Ok (Hier base ep_default)) /\ fresh_hierarchy s' base.
Proof.
  intros W PB HV F N. destruct (create_ok V base s W PB HV F (N _)) as (s' & E & W' & N').
  exists s'. split; [done|]. split; [done|].
  assert (NX : forall x, ~ (pieces base ++ [x]) `prefix_of` pieces base).
  { intros x X%prefix_length. rewrite app_length in X. cbn in X. lia. }
  split; [|split].
  - intros k. unfold file_at. rewrite N'. rewrite decide_False.
    2: { intros X. apply (NX ENTRY_POINT_KEY). rewrite <- X. exists (drop k (pieces base)). by rewrite take_drop. }
    rewrite decide_True; [done|]. exists (drop k (pieces base)). by rewrite take_drop.
  - rewrite N', decide_False, decide_False; [apply N|apply NX|]. intros X. by apply app_inv_head in X.
  - rewrite N', decide_False, decide_False; [apply N|apply NX|]. intros X. by apply app_inv_head in X.
Qed.
