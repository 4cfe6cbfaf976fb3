(** Facts about the file system and the store. *)
From Verif Require Export FS PathFacts Spec.

(** ** Nodes *)

Lemma node_at_nil s : node_at s [] = Some Dir.
Proof. done. Qed.
Lemma node_at_ne s p : p <> [] -> node_at s p = s !! p.
Proof. by destruct p. Qed.
Lemma node_at_insert s p n q : p <> [] ->
  node_at (<[p := n]> s) q = if decide (q = p) then Some n else node_at s q.
Proof.
  intros N. case_decide.
  - subst. rewrite node_at_ne by done. apply lookup_insert.
  - destruct q; [done|]. simpl. by apply lookup_insert_ne.
Qed.
Lemma node_at_delete s p q : p <> [] ->
  node_at (delete p s) q = if decide (q = p) then None else node_at s q.
Proof.
  intros N. case_decide.
  - subst. rewrite node_at_ne by done. apply lookup_delete.
  - destruct q; [done|]. simpl. by apply lookup_delete_ne.
Qed.
Lemma file_at_nil s : file_at s [] = None.
Proof. done. Qed.
Lemma file_at_some s p c : file_at s p = Some c <-> node_at s p = Some (File c).
Proof. unfold file_at. destruct (node_at s p) as [[|]|]; naive_solver. Qed.
Lemma is_dir_at_true s p : is_dir_at s p = true <-> node_at s p = Some Dir.
Proof. unfold is_dir_at. destruct (node_at s p) as [[|]|]; naive_solver. Qed.

Lemma wf_prefix s p q n : wf_fs s -> node_at s (p ++ q) = Some n -> q <> [] ->
  node_at s p = Some Dir.
Proof.
  intros W. revert n. induction q as [|x q IH] using rev_ind; intros n E N; [done|].
  rewrite app_assoc in E.
  assert (D : node_at s (p ++ q) = Some Dir).
  { rewrite node_at_ne in E by (by destruct (p ++ q)). by eapply W. }
  destruct q as [|y q]; [by rewrite app_nil_r in D|]. eapply IH; done.
Qed.

Lemma wf_strict s p q n : wf_fs s -> node_at s q = Some n ->
  p `prefix_of` q -> p <> q -> node_at s p = Some Dir.
Proof.
  intros W E [k ->] N. eapply wf_prefix; [done..|]. intros ->. by rewrite app_nil_r in N.
Qed.

(** ** Walking *)

Lemma walk_app s cur a b : walk s cur (a ++ b) = (p ← walk s cur a; walk s p b).
Proof.
  revert cur. induction a as [|c a IH]; intros cur; [done|]. simpl.
  destruct (node_at s cur) as [[|]|]; [apply IH|done|done].
Qed.

Lemma walk_normal_target s ns : forall cur q,
  walk s cur (map Normal ns) = Ok q -> q = cur ++ ns.
Proof.
  induction ns as [|x ns IH]; intros cur q E; simpl in E.
  - injection E as <-. by rewrite app_nil_r.
  - destruct (node_at s cur) as [[|]|]; [|done|done]. apply IH in E as ->.
    by rewrite <- app_assoc.
Qed.

Lemma walk_no_panic s cs : forall cur, walk s cur cs <> Panic.
Proof.
  induction cs as [|c cs IH]; intros cur; [done|]. simpl.
  destruct (node_at s cur) as [[|]|]; [apply IH|done|done].
Qed.

Lemma walk_present s ns : forall cur n, wf_fs s ->
  node_at s (cur ++ ns) = Some n -> walk s cur (map Normal ns) = Ok (cur ++ ns).
Proof.
  induction ns as [|x ns IH]; intros cur n W E; simpl.
  - by rewrite app_nil_r.
  - rewrite (wf_prefix s cur (x :: ns) n W E) by done.
    change (cur ++ x :: ns) with (cur ++ ([x] ++ ns)) in E. rewrite app_assoc in E.
    rewrite (IH _ _ W E). by rewrite <- app_assoc.
Qed.

Lemma stat_plain s ns : wf_fs s ->
  stat s (map Normal ns) = match node_at s ns with Some n => Some (ns, n) | None => None end.
Proof.
  intros W. unfold stat. destruct (node_at s ns) as [n|] eqn:E.
  - rewrite (walk_present s ns [] n W E). simpl. by rewrite E.
  - destruct (walk s [] (map Normal ns)) as [q| |] eqn:Q; [|done|done].
    apply walk_normal_target in Q as ->. simpl. by rewrite E.
Qed.
Lemma path_exists_plain s ns : wf_fs s ->
  path_exists s (map Normal ns) = match node_at s ns with Some _ => true | None => false end.
Proof. intros W. unfold path_exists. rewrite stat_plain by done. by destruct (node_at s ns). Qed.
Lemma path_is_dir_plain s ns : wf_fs s -> path_is_dir s (map Normal ns) = is_dir_at s ns.
Proof. intros W. unfold path_is_dir, is_dir_at. rewrite stat_plain by done. by destruct (node_at s ns) as [[|]|]. Qed.
Lemma path_is_file_plain s ns : wf_fs s ->
  path_is_file s (map Normal ns) = match file_at s ns with Some _ => true | None => false end.
Proof. intros W. unfold path_is_file, file_at. rewrite stat_plain by done. by destruct (node_at s ns) as [[|]|]. Qed.
Lemma open_read_plain s ns c : wf_fs s -> file_at s ns = Some c ->
  open_read s (map Normal ns) = Ok c.
Proof.
  intros W E. apply file_at_some in E. unfold open_read.
  rewrite (walk_present s ns [] _ W E). simpl. by rewrite E.
Qed.

(** No proper prefix of [ns] below [cur] is a file. *)
Lemma walk_nofile s ns : forall cur, wf_fs s -> node_at s cur = Some Dir ->
  (forall k, (0 < k < length ns)%nat -> file_at s (cur ++ take k ns) = None) ->
  ns <> [] ->
  walk s cur (map Normal ns) =
    if is_dir_at s (cur ++ parent ns) then Ok (cur ++ ns) else Err NotFound.
Proof.
  induction ns as [|x ns IH]; intros cur W D F N; [done|].
  cbn [map walk]. rewrite D. cbn [step].
  destruct ns as [|y ns].
  - simpl. unfold parent. simpl. rewrite app_nil_r.
    by rewrite (proj2 (is_dir_at_true _ _) D).
  - assert (P : cur ++ parent (x :: y :: ns) = (cur ++ [x]) ++ parent (y :: ns)).
    { unfold parent. cbn [length]. rewrite !Nat.sub_succ, !Nat.sub_0_r. cbn [take].
      by rewrite <- app_assoc. }
    rewrite P. change (cur ++ x :: y :: ns) with (cur ++ [x] ++ y :: ns). rewrite app_assoc.
    destruct (node_at s (cur ++ [x])) as [[|c]|] eqn:E.
    + apply IH; [done..| |done]. intros k Hk. rewrite <- app_assoc.
      apply (F (S k)). simpl in *. lia.
    + specialize (F 1%nat). unfold file_at in F. simpl in F. rewrite E in F.
      discriminate F. lia.
    + cbn [map walk]. rewrite E.
      destruct (is_dir_at s ((cur ++ [x]) ++ parent (y :: ns))) eqn:Q; [|done].
      apply is_dir_at_true in Q. destruct (parent (y :: ns)) eqn:PP.
      * by rewrite app_nil_r, E in Q.
      * assert (node_at s (cur ++ [x]) = Some Dir) by (by eapply wf_prefix). congruence.
Qed.

(** Some proper prefix is a file. *)
Lemma walk_file s ns : forall cur k c, wf_fs s ->
  (k < length ns)%nat -> node_at s (cur ++ take k ns) = Some (File c) ->
  walk s cur (map Normal ns) = Err Other.
Proof.
  induction ns as [|x ns IH]; intros cur k c W L E; simpl in L; [lia|].
  cbn [map walk]. destruct k as [|k].
  - simpl in E. rewrite app_nil_r in E. by rewrite E.
  - cbn [take] in E. rewrite (wf_prefix s cur (x :: take k ns) _ W E) by done.
    cbn [step]. apply (IH _ k c); [done|lia|]. by rewrite <- app_assoc.
Qed.

Lemma parent_snoc p x : parent (p ++ [x]) = p.
Proof. unfold parent. rewrite app_length. simpl. rewrite Nat.add_sub. by rewrite take_app. Qed.

Lemma take_S_snoc {A} (l : list A) n : (n < length l)%nat ->
  exists x, take (S n) l = take n l ++ [x].
Proof.
  intros L. destruct (lookup_lt_is_Some_2 l n L) as [x E]. exists x. by apply take_S_r.
Qed.

Lemma prefix_of_snoc {A} (p q : list A) x :
  p `prefix_of` q ++ [x] <-> p = q ++ [x] \/ p `prefix_of` q.
Proof.
  split.
  - intros [k E]. destruct k as [|y k _] using rev_ind.
    + rewrite app_nil_r in E. by left.
    + rewrite app_assoc in E. apply app_inj_tail in E as [E _]. right. by exists k.
  - intros [->|[k ->]]; [done|]. exists (k ++ [x]). by rewrite app_assoc.
Qed.

Lemma wf_insert s p x n : wf_fs s -> node_at s p = Some Dir ->
  node_at s (p ++ [x]) <> Some Dir \/ n = Dir -> wf_fs (<[p ++ [x] := n]> s).
Proof.
  intros W D N q m y E.
  assert (NE : p ++ [x] <> []) by by destruct p.
  rewrite node_at_insert by done.
  rewrite lookup_insert_Some in E. destruct E as [[E <-]|[E1 E2]].
  - apply app_inj_tail in E as [<- <-]. case_decide as X; [|done].
    exfalso. apply (f_equal length) in X. rewrite app_length in X. simpl in X. lia.
  - pose proof (W _ _ _ E2) as Q. case_decide; [|done]. subst.
    destruct N as [N|N]; [done|by rewrite N].
Qed.

(** ** mkdir, create_dir_all *)

Lemma mkdir_all_plain s ns n : wf_fs s -> (n <= length ns)%nat ->
  (forall k, (k <= n)%nat -> file_at s (take k ns) = None) ->
  exists s', mkdir_all s (map Normal ns) n = (s', Ok tt) /\ wf_fs s' /\
    forall q, node_at s' q =
      if decide (q `prefix_of` take n ns) then Some Dir else node_at s q.
Proof.
  revert s. induction n as [|n IH]; intros s W L F.
  - exists s. split; [done|]. split; [done|]. intros q. case_decide as P; [|done].
    apply prefix_nil_inv in P. by subst.
  - destruct (take_S_snoc ns n) as [x X]; [lia|].
    cbn [mkdir_all]. rewrite <- fmap_take. change (Normal <$> take (S n) ns) with (map Normal (take (S n) ns)).
    assert (NE : take (S n) ns <> []) by (rewrite X; by destruct (take n ns)).
    assert (FS : forall k, (0 < k < length (take (S n) ns))%nat ->
                   file_at s ([] ++ take k (take (S n) ns)) = None).
    { intros k Hk. rewrite take_length in Hk. simpl. rewrite take_take. apply F. lia. }
    assert (PA : parent (take (S n) ns) = take n ns) by (rewrite X; apply parent_snoc).
    assert (W1 := walk_nofile s (take (S n) ns) [] W eq_refl FS NE).
    rewrite PA in W1. cbn [app] in W1.
    assert (FN := F (S n) (le_n _)). assert (FP := F n (le_S _ _ (le_n _))).
    unfold file_at in FN, FP.
    unfold mkdir at 1. rewrite W1.
    destruct (is_dir_at s (take n ns)) eqn:DP.
    + destruct (node_at s (take (S n) ns)) as [[|c]|] eqn:E; [|done|].
      * rewrite path_is_dir_plain by done.
        rewrite (proj2 (is_dir_at_true _ _) E).
        exists s. split; [done|]. split; [done|]. intros q. case_decide as P; [|done].
        destruct (decide (q = take (S n) ns)) as [->|Q]; [done|].
        by eapply wf_strict.
      * rewrite PA, DP. exists (<[take (S n) ns := Dir]> s). split; [done|].
        apply is_dir_at_true in DP. rewrite X in *. split; [apply wf_insert; auto|].
        intros q. rewrite node_at_insert by done.
        case_decide as P1.
        { subst. rewrite decide_True; done. }
        case_decide as P2; [|done]. apply prefix_of_snoc in P2 as [P2|P2]; [done|].
        destruct (decide (q = take n ns)) as [->|Q]; [done|]. by eapply wf_strict.
    + destruct (IH s W) as (s2 & E2 & W2 & N2); [lia|intros k Hk; apply F; lia|].
      rewrite E2.
      assert (EN : node_at s (take (S n) ns) = None).
      { destruct (node_at s (take (S n) ns)) as [[|c]|] eqn:E; [|done|done].
        rewrite X in E. rewrite node_at_ne in E by (by destruct (take n ns)).
        apply W in E. apply is_dir_at_true in E. congruence. }
      assert (E2N : node_at s2 (take (S n) ns) = None).
      { rewrite N2, decide_False; [done|]. intros P%prefix_length. rewrite !take_length in P. lia. }
      assert (D2 : node_at s2 (take n ns) = Some Dir) by (by rewrite N2, decide_True).
      assert (FS2 : forall k, (0 < k < length (take (S n) ns))%nat ->
                   file_at s2 ([] ++ take k (take (S n) ns)) = None).
      { intros k Hk. unfold file_at. rewrite N2. simpl. rewrite take_take.
        rewrite take_length in Hk. rewrite decide_True; [done|].
        rewrite Nat.min_l by lia. exists (drop k (take n ns)).
        rewrite <- (take_drop k (take n ns)) at 1. f_equal. rewrite take_take. f_equal; lia. }
      assert (W3 := walk_nofile s2 (take (S n) ns) [] W2 eq_refl FS2 NE).
      rewrite PA in W3. cbn [app] in W3. rewrite (proj2 (is_dir_at_true _ _) D2) in W3.
      unfold mkdir. rewrite W3, E2N, PA, (proj2 (is_dir_at_true _ _) D2).
      exists (<[take (S n) ns := Dir]> s2). split; [done|].
      rewrite X in *. split; [apply wf_insert; auto|].
      intros q. rewrite node_at_insert by done. rewrite N2.
      case_decide as P1.
      { subst. by rewrite decide_True. }
      destruct (decide (q `prefix_of` take n ns)) as [P|P].
      * rewrite decide_True; [done|]. apply prefix_of_snoc. by right.
      * rewrite decide_False; [done|]. intros [?|?]%prefix_of_snoc; done.
Qed.

(** ** Keys *)

Lemma comps_plain s : plain s -> comps s = map Normal (pieces s).
Proof.
  intros P. rewrite comps_pieces. unfold plain in P. apply map_ext_in. intros p Hp.
  unfold comp_of. rewrite (proj2 (beq_false _ _)); [done|]. intros ->.
  apply P. by apply elem_of_list_In.
Qed.
Lemma nest_normal ns : forall z, 0 <= z ->
  0 <= foldl (fun acc c => match c with Up => acc - 1 | Normal _ => acc + 1 end) z (map Normal ns).
Proof. induction ns as [|x ns IH]; intros z Hz; simpl; [done|]. apply IH. lia. Qed.

Lemma key_comps_ok base key : 0 <= nest (comps key) ->
  key_comps base key = Ok (comps base ++ comps key).
Proof.
  intros N. unfold key_comps. pose proof (get_path_spec base key) as G.
  destruct (get_path base key); [|lia|done]. destruct G as [_ E]. simpl. by rewrite E.
Qed.
Lemma key_comps_err base key : nest (comps key) < 0 -> key_comps base key = Err NotFound.
Proof.
  intros N. unfold key_comps. pose proof (get_path_spec base key) as G.
  destruct (get_path base key); [lia| |done]. by destruct G as [_ ->].
Qed.
Lemma key_comps_ext base k1 k2 : comps k1 = comps k2 -> key_comps base k1 = key_comps base k2.
Proof.
  intros E. destruct (Z.lt_ge_cases (nest (comps k1)) 0).
  - rewrite !key_comps_err; [done|congruence|done].
  - rewrite !key_comps_ok; [by rewrite E|congruence|done].
Qed.

Lemma key_comps_plain base key : plain base -> plain key ->
  key_comps base key = Ok (map Normal (loc base key)).
Proof.
  intros P Q. rewrite key_comps_ok.
  - rewrite !comps_plain by done. unfold loc. by rewrite map_app.
  - rewrite comps_plain by done. by apply nest_normal.
Qed.

Lemma parent_comps_map ns : parent_comps (map Normal ns) = map Normal (parent ns).
Proof. unfold parent_comps, parent. rewrite map_length. by rewrite <- fmap_take. Qed.

(** ** Store operations at '..'-free keys *)

Section plain.
Context (base : bytes) (s : fs) (key : bytes).
Hypothesis W : wf_fs s.
Hypothesis PB : plain base.
Hypothesis PK : plain key.
Notation ns := (loc base key).

Lemma st_exists_plain :
  st_exists base s key = Ok (match file_at s ns with Some _ => true | None => false end).
Proof. unfold st_exists. rewrite key_comps_plain by done. simpl. by rewrite path_is_file_plain. Qed.

Lemma st_get_plain : st_get base s key = Ok (file_at s ns).
Proof.
  unfold st_get. rewrite key_comps_plain by done. simpl. rewrite path_is_file_plain by done.
  destruct (file_at s ns) eqn:E; [|done]. by rewrite (open_read_plain _ _ _ W E).
Qed.

Lemma can_hold_dec : {can_hold_file s ns} + {~ can_hold_file s ns}.
Proof.
  destruct (is_dir_at s ns) eqn:D.
  - right. intros [_ N]. by apply is_dir_at_true in D.
  - destruct (forallb (fun k => match file_at s (take k ns) with Some _ => false | None => true end)
      (seq 0 (length ns))) eqn:F.
    + left. split.
      * intros p [k E] N c. rewrite forallb_forall in F.
        assert (L : (length p < length ns)%nat).
        { rewrite E, app_length. destruct k; [by rewrite app_nil_r in E|simpl; lia]. }
        specialize (F (length p)).
        assert (T : take (length p) ns = p) by (rewrite E; apply take_app).
        rewrite T in F. destruct (file_at s p); [|done].
        discriminate F. apply in_seq. lia.
      * intros E. apply is_dir_at_true in E. congruence.
    + right. intros [Fl _]. apply not_true_iff_false in F. apply F, forallb_forall.
      intros k Hk. apply in_seq in Hk. destruct (file_at s (take k ns)) eqn:Q; [|done].
      exfalso. eapply (Fl (take k ns)); [|intros X|exact Q].
      * exists (drop k ns). by rewrite take_drop.
      * apply (f_equal length) in X. rewrite take_length in X. lia.
Qed.

Lemma can_hold_take k : can_hold_file s ns -> (k < length ns)%nat -> file_at s (take k ns) = None.
Proof.
  intros [F _] L. destruct (file_at s (take k ns)) eqn:E; [|done]. exfalso.
  eapply (F (take k ns)); [|intros X|exact E].
  - exists (drop k ns). by rewrite take_drop.
  - apply (f_equal length) in X. rewrite take_length in X. lia.
Qed.

Lemma st_set_ok v : can_hold_file s ns ->
  exists s', st_set base s key v = (s', snd v) /\ wf_fs s' /\
    forall q, node_at s' q =
      if decide (q = ns) then Some (File (fst v))
      else if decide (q `prefix_of` ns) then Some Dir
      else node_at s q.
Proof.
  intros Hc. pose proof Hc as [Hf Hd].
  assert (NE : ns <> []) by (intros E; apply Hd; by rewrite E).
  destruct (exists_last NE) as (pa & x & X).
  assert (PA : parent ns = pa) by (rewrite X; apply parent_snoc).
  assert (LP : (length pa < length ns)%nat) by (rewrite X, app_length; simpl; lia).
  assert (TP : forall k, take k pa = take (min k (length pa)) ns).
  { intros k. rewrite <- PA. unfold parent. rewrite take_take. f_equal.
    rewrite take_length. rewrite X, app_length. simpl. lia. }
  unfold st_set. rewrite key_comps_plain by done.
  assert (Q : forall T (a b : T), match map Normal ns with [] => a | _ => b end = b).
  { intros. by destruct ns. }
  rewrite Q. rewrite parent_comps_map, PA.
  (* the parent exists afterwards *)
  assert (HP : exists s1,
    (if path_exists s (map Normal pa) then (s, Ok tt) else create_dir_all s (map Normal pa))
      = (s1, Ok tt) /\ wf_fs s1 /\
    forall q, node_at s1 q = if decide (q `prefix_of` pa) then Some Dir else node_at s q).
  { rewrite path_exists_plain by done. destruct (node_at s pa) as [n|] eqn:E.
    - exists s. split; [done|]. split; [done|]. intros q. case_decide as P; [|done].
      assert (D : node_at s pa = Some Dir).
      { destruct n as [|c]; [done|]. exfalso.
        assert (G := can_hold_take (length pa) Hc LP). rewrite X, take_app in G.
        unfold file_at in G. by rewrite E in G. }
      destruct (decide (q = pa)) as [->|]; [done|]. by eapply wf_strict.
    - unfold create_dir_all. rewrite map_length.
      destruct (mkdir_all_plain s pa (length pa) W) as (s1 & E1 & W1 & N1); [done| |].
      + intros k Hk. rewrite TP. apply can_hold_take; [done|lia].
      + rewrite firstn_all in N1. by exists s1. }
  destruct HP as (s1 & E1 & W1 & N1). rewrite E1.
  assert (D1 : node_at s1 pa = Some Dir) by (by rewrite N1, decide_True).
  assert (NP : ~ ns `prefix_of` pa).
  { intros P%prefix_length. lia. }
  assert (WK : walk s1 [] (map Normal ns) = Ok ns).
  { rewrite (walk_nofile s1 ns [] W1 eq_refl); [|  |done].
    - cbn [app]. by rewrite PA, (proj2 (is_dir_at_true _ _) D1).
    - intros k Hk. cbn [app]. unfold file_at. rewrite N1. case_decide as P; [done|].
      apply can_hold_take; [done|lia]. }
  unfold open_truncate. rewrite WK.
  assert (NS : node_at s1 ns = node_at s ns) by (by rewrite N1, decide_False).
  assert (R : forall s2 v2, s2 = <[ns := File v2]> s1 ->
     wf_fs (<[ns := File (fst v)]> s2) /\
     forall q, node_at (<[ns := File (fst v)]> s2) q =
      if decide (q = ns) then Some (File (fst v))
      else if decide (q `prefix_of` ns) then Some Dir
      else node_at s q).
  { intros s2 v2 ->. rewrite insert_insert. split.
    - rewrite X in *. apply wf_insert; [done|done|]. left. by rewrite NS.
    - intros q. rewrite node_at_insert by done. case_decide as P1; [done|].
      rewrite N1. destruct (decide (q `prefix_of` pa)) as [P2|P2].
      + rewrite decide_True; [done|]. rewrite X. apply prefix_of_snoc. by right.
      + rewrite decide_False; [done|]. rewrite X in *. intros [?|?]%prefix_of_snoc; done. }
  rewrite NS. destruct (node_at s ns) as [[|c]|] eqn:E.
  - done.
  - eexists. split; [done|]. by eapply R.
  - rewrite PA, (proj2 (is_dir_at_true _ _) D1). eexists. split; [done|]. by eapply R.
Qed.

Lemma st_set_blocked v : ~ can_hold_file s ns -> exists e, st_set base s key v = (s, Err e).
Proof.
  intros Hn. unfold st_set. rewrite key_comps_plain by done.
  destruct (decide (is_dir_at s ns = true)) as [D|D].
  - (* a directory *)
    apply is_dir_at_true in D.
    assert (WK := walk_present s ns [] _ W D). cbn [app] in WK.
    assert (PE : (match map Normal ns with
         | [] => (s, Ok tt)
         | _ :: _ => if path_exists s (parent_comps (map Normal ns)) then (s, Ok tt)
             else create_dir_all s (parent_comps (map Normal ns)) end) = (s, Ok tt)).
    { destruct (map Normal ns) eqn:M; [done|]. rewrite <- M.
      rewrite parent_comps_map, path_exists_plain by done.
      assert (exists n, node_at s (parent ns) = Some n) as [n ->]; [|done].
      destruct ns as [|y r] using rev_ind; [by eexists|]. rewrite parent_snoc.
      exists Dir. by eapply wf_prefix. }
    rewrite PE. unfold open_truncate. rewrite WK, D. by exists Other.
  - (* a proper prefix is a file *)
    destruct (existsb (fun k => match file_at s (take k ns) with Some _ => true | None => false end)
      (seq 0 (length ns))) eqn:F.
    + apply existsb_exists in F as (k & Hk & F). apply in_seq in Hk.
      destruct (file_at s (take k ns)) as [c|] eqn:E; [|done]. apply file_at_some in E.
      assert (NE : ns <> []) by (intros X; rewrite X in Hk; simpl in Hk; lia).
      destruct (exists_last NE) as (pa & x & X).
      assert (PA : parent ns = pa) by (rewrite X; apply parent_snoc).
      assert (Q : forall T (a b : T), match map Normal ns with [] => a | _ => b end = b).
      { intros. by destruct ns. }
      rewrite Q. rewrite parent_comps_map, PA.
      assert (LN : length ns = S (length pa)) by (rewrite X, app_length; simpl; lia).
      assert (TK : take k ns = take k pa).
      { rewrite X. rewrite take_app_le by lia. done. }
      rewrite TK in E.
      destruct (decide (k = length pa)) as [->|NK].
      * (* the parent itself is a file *)
        rewrite firstn_all in E. rewrite path_exists_plain, E by done.
        unfold open_truncate.
        rewrite (walk_file s ns [] (length pa) c); [by exists Other|done|lia|].
        cbn [app]. by rewrite X, take_app.
      * assert (NP : node_at s pa = None).
        { destruct (node_at s pa) eqn:G; [|done]. exfalso.
          assert (node_at s (take k pa) = Some Dir); [|congruence].
          eapply wf_strict; [done|exact G|exists (drop k pa); by rewrite take_drop|].
          intros Y. apply (f_equal length) in Y. rewrite take_length in Y. lia. }
        rewrite path_exists_plain, NP by done.
        unfold create_dir_all. rewrite map_length.
        destruct (length pa) as [|n] eqn:LPA; [lia|]. cbn [mkdir_all].
        rewrite <- fmap_take. rewrite <- LPA, firstn_all.
        change (Normal <$> pa) with (map Normal pa). unfold mkdir at 1.
        rewrite (walk_file s pa [] k c); [|done|lia|done].
        rewrite path_is_dir_plain by done. unfold is_dir_at. rewrite NP. by exists Other.
    + exfalso. apply Hn. split.
      * intros p [k E] N c Hc. apply not_true_iff_false in F. apply F, existsb_exists.
        exists (length p).
        assert (L : (length p < length ns)%nat).
        { rewrite E, app_length. destruct k; [by rewrite app_nil_r in E|simpl; lia]. }
        split; [apply in_seq; lia|]. assert (T : take (length p) ns = p) by (rewrite E; apply take_app).
        by rewrite T, Hc.
      * intros E. by apply D, is_dir_at_true.
Qed.

Lemma st_erase_plain :
  st_erase base s key =
    match node_at s ns with
    | Some (File _) => (delete ns s, Ok true)
    | Some Dir => (s, Err Other)
    | None => (s, Ok true)
    end.
Proof.
  unfold st_erase. rewrite key_comps_plain, path_exists_plain by done.
  destruct (node_at s ns) as [n|] eqn:E.
  - unfold remove_file. rewrite (walk_present s ns [] _ W E). cbn [app]. rewrite E.
    destruct n; [done|]. f_equal. f_equal. unfold path_exists, stat.
    assert (NE : ns <> []) by (intros X; rewrite X in E; done).
    destruct (walk (delete ns s) [] (map Normal ns)) as [q| |] eqn:Q; [|done|done].
    apply walk_normal_target in Q as ->. cbn [app].
    rewrite node_at_delete by done. by rewrite decide_True.
  - done.
Qed.

Lemma wf_delete_file c : node_at s ns = Some (File c) -> wf_fs (delete ns s).
Proof.
  intros E p n x Hx. assert (NE : ns <> []) by (intros X; rewrite X in E; done).
  apply lookup_delete_Some in Hx as [N Hx]. rewrite node_at_delete by done.
  apply W in Hx. case_decide; [|done]. subst. congruence.
Qed.
End plain.

(** ** set/get at arbitrary keys *)

Lemma walk_insert_file s p c cs : node_at s p <> Some Dir -> forall cur q,
  walk s cur cs = Ok q -> walk (<[p := File c]> s) cur cs = Ok q.
Proof.
  intros N. assert (NE : p <> []) by (intros ->; done).
  induction cs as [|x cs IH]; intros cur q E; simpl in *; [done|].
  rewrite node_at_insert by done.
  destruct (node_at s cur) as [[|]|] eqn:D; [|done|done].
  rewrite decide_False by congruence. apply IH, E.
Qed.

Lemma st_set_get base s key v s' r : st_set base s key v = (s', r) ->
  (r = Ok tt -> st_get base s' key = Ok (Some (fst v))).
Proof.
  unfold st_set, st_get. destruct (key_comps base key) as [cs| |]; [|naive_solver..].
  destruct (match cs with [] => _ | _ => _ end) as [s1 [[]| |]]; [|naive_solver..].
  unfold open_truncate. destruct (walk s1 [] cs) as [p| |] eqn:E; [|naive_solver..].
  assert (K : node_at s1 p <> Some Dir ->
    (if path_is_file (<[p:=File (fst v)]> s1) cs
       then c ← open_read (<[p:=File (fst v)]> s1) cs; Ok (Some c) else Ok None)
      = Ok (Some (fst v))).
  { intros N. assert (NE : p <> []) by (intros ->; done).
    unfold path_is_file, stat, open_read.
    rewrite (walk_insert_file _ _ _ _ N _ _ E). simpl.
    rewrite node_at_insert, decide_True by done. done. }
  cbn [mbind res_bind].
  destruct (node_at s1 p) as [[|c]|] eqn:D; [naive_solver| |].
  - intros [= <- <-] _. rewrite insert_insert. by apply K.
  - destruct (is_dir_at s1 (parent p)); [|naive_solver].
    intros [= <- <-] _. rewrite insert_insert. by apply K.
Qed.
