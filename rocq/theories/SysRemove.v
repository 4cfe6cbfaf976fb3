(** Removing a tree one system call at a time, alone (C54). *)
From Verif Require Import BaseFacts PathFacts FSFacts KeyFacts ListFacts RefFacts ContainFacts OpsFacts HierFacts Spec SpecMeta.
From Verif Require Import Sys SpecSys SysFacts SysOps SysNdOps SpecRemove ConcFacts.
Local Open Scope Z_scope.

(** [s'] is [s] without the files and directories in [P]. *)
Definition gone (P : fpath -> Prop) (s s' : fs) : Prop :=
  (forall r, P r -> s' !! r = None) /\ (forall r, ~ P r -> s' !! r = s !! r).

Lemma view_none_data o r : o_tree o !! r = None <-> view o !! r = None.
Proof. rewrite view_lookup. by destruct (o_tree o !! r). Qed.

Lemma classic_loop_dec {A} (l : list (bytes * A)) q r :
  (exists e, e ∈ l /\ (q ++ [e.1]) `prefix_of` r) \/ ~ (exists e, e ∈ l /\ (q ++ [e.1]) `prefix_of` r).
Proof.
  destruct (decide (Exists (fun e => (q ++ [e.1]) `prefix_of` r) l)) as [X|X].
  - left. by apply list.Exists_exists in X.
  - right. intros Y. apply X. by apply list.Exists_exists.
Qed.

Section RmTree.
  Context (ord : list comp -> list (bytes * bool) -> list (bytes * bool)) (ORD : any_order ord).

  Lemma run_unlink_file o q c : idle o -> wf_fs (view o) -> view o !! q = Some (File c) -> q <> [] ->
    exists o', run o (ptry (Call (SOpenR true (map Normal q)) (fun r => Ret r)) (fun fd =>
        Call (SLock fd true) (fun _ =>
        Call (SUnlink (map Normal q)) (fun r =>
        Call (SClose fd) (fun _ => Ret r))))) = Some (o', Ok tt) /\ idle o' /\ o_room o' = o_room o /\
      view o' = delete q (view o).
  Proof.
    intros (K & F & L) W E QN. rewrite <- node_at_ne in E by done.
    assert (walk (view o) [] (map Normal q) = Ok q) as WK by by apply (walk_present (view o) q [] _ W E).
    destruct (run_openr o (map Normal q) q c true K WK E) as (i & T & D & S).
    rewrite run_try. cbn [run]. rewrite S. cbn [run].
    cbn [sys_step]. cbn [o_fds open_fd]. rewrite lookup_insert. rewrite no_conflict by done. cbn [run sys_step].
    assert (view (set_lock (open_fd o i) (o_next o) true) = view o) as EV by done.
    rewrite EV, WK, E. cbn [run sys_step].
    eexists. split; [done|]. split_and!.
    - assert (idle (close_fd (set_lock (open_fd o i) (o_next o) true) (o_next o))) as (I1 & I2 & I3) by by apply close_open.
      split_and!; [by apply (ok_unlink _ q) in I1|exact I2|exact I3].
    - done.
    - by rewrite view_close, view_unlink, EV.
  Qed.

  Definition deep (fuel : nat) (s : fs) (q : fpath) : Prop :=
    forall r, is_Some (s !! (q ++ r)) -> (length r < fuel)%nat.

  Theorem run_rm_tree fuel : forall q n o, idle o -> wf_fs (view o) -> q <> [] -> view o !! q = Some n ->
    deep fuel (view o) q ->
    exists o', run o (p_rm_tree ord fuel (map Normal q) (is_dir_node n)) = Some (o', Ok tt) /\ idle o' /\
      o_room o' = o_room o /\ wf_fs (view o') /\ gone (fun r => q `prefix_of` r) (view o) (view o').
  Proof.
    induction fuel as [|fuel IH]; intros q n o I W QN E DP.
    { specialize (DP []). rewrite app_nil_r, E in DP. assert (0 < 0)%nat; [|lia]. by apply DP. }
    cbn [p_rm_tree]. destruct n as [|c]; cbn [is_dir_node].
    - (* a directory *)
      assert (node_at (view o) q = Some Dir) as EN by by rewrite node_at_ne.
      assert (walk (view o) [] (map Normal q) = Ok q) as WK by by apply (walk_present (view o) q [] _ W EN).
      rewrite run_try. cbn [run sys_step]. rewrite WK, EN.
      set (es := map (fun e : bytes * node => (e.1, is_dir_node e.2)) (entries_of (view o) q)).
      assert (EE : forall e, e ∈ ord (map Normal q) es <->
        exists nd, view o !! (q ++ [e.1]) = Some nd /\ is_dir_node nd = e.2).
      { intros e. rewrite (ORD (map Normal q) es). unfold es. rewrite elem_of_list_fmap. split.
        - intros ([x nd] & -> & Hx). exists nd. split; [by apply entries_elem|done].
        - intros (nd & H1 & H2). exists (e.1, nd). split; [by destruct e; cbn in *; subst|by apply entries_elem]. }
      assert (ND : NoDup (ord (map Normal q) es).*1).
      { rewrite (ORD (map Normal q) es). unfold es. rewrite <- list_fmap_compose. apply entries_nodup. }
      set (l := ord (map Normal q) es) in *. clearbody l. clear es.
      rewrite run_try.
      assert (LOOP : forall l o1, idle o1 -> wf_fs (view o1) -> deep (S fuel) (view o1) q -> NoDup l.*1 ->
        (forall e, e ∈ l -> exists nd, view o1 !! (q ++ [e.1]) = Some nd /\ is_dir_node nd = e.2) ->
        exists o', run o1 (p_each (fun e => p_rm_tree ord fuel (map Normal q ++ [Normal e.1]) e.2) l) = Some (o', Ok tt) /\
          idle o' /\ o_room o' = o_room o1 /\ wf_fs (view o') /\
          gone (fun r => exists e, e ∈ l /\ (q ++ [e.1]) `prefix_of` r) (view o1) (view o')).
      { clear - IH QN. induction l as [|e l IHl]; intros o1 I1 W1 DP1 ND EE.
        - exists o1. split_and!; [done..|]. split; [|done]. intros r (e & He & _). by apply elem_of_nil in He.
        - cbn [p_each]. rewrite run_try. cbn [fmap list_fmap] in ND. apply list.NoDup_cons in ND as [NI ND].
          destruct (EE e) as (nd & H1 & H2); [by left|].
          change (map Normal q ++ [Normal e.1]) with (map Normal q ++ map Normal [e.1]). rewrite <- map_app, <- H2.
          destruct (IH (q ++ [e.1]) nd o1) as (o2 & R2 & I2 & RM2 & W2 & G2 & G2'); [done|done|by destruct q|done|..].
          { intros r Hr. specialize (DP1 ([e.1] ++ r)). rewrite app_assoc in DP1. apply DP1 in Hr. cbn in Hr. lia. }
          rewrite R2. assert (FR : forall x, x <> e.1 -> forall r, ~ (q ++ [e.1]) `prefix_of` (q ++ [x] ++ r)).
          { intros x Nx r P. apply prefix_app_inv in P. cbn in P. apply prefix_cons_inv_1 in P. done. }
          destruct (IHl o2) as (o3 & R3 & I3 & RM3 & W3 & G3 & G3'); [done|done| |done| |].
          + intros r Hr. destruct (decide ((q ++ [e.1]) `prefix_of` (q ++ r))) as [P|P].
            * rewrite G2 in Hr by done. by destruct Hr.
            * rewrite G2' in Hr by done. by apply DP1.
          + intros e' He'. rewrite G2'; [apply EE; by right|]. specialize (FR e'.1). cbn in FR. apply FR.
            intros X. apply NI. rewrite <- X. apply elem_of_list_fmap. by exists e'.
          + exists o3. split_and!; [done|done|congruence|done|].
            split.
            * intros r (e' & [->|He']%elem_of_cons & P).
              -- destruct (classic_loop_dec l q r) as [X|X]; [by apply G3|]. rewrite G3' by done. by apply G2.
              -- apply G3. by exists e'.
            * intros r NP. rewrite G3', G2'; [done| |].
              -- intros P. apply NP. exists e. split; [by left|done].
              -- intros (e' & He' & P). apply NP. exists e'. split; [by right|done]. }
      destruct (LOOP l o I W DP ND) as (o1 & R1 & I1 & RM1 & W1 & G1 & G1'); [by intros e ?%EE|].
      rewrite R1. cbn [run sys_step].
      assert (view o1 !! q = Some Dir) as E1.
      { rewrite G1'; [done|]. intros (e & _ & P%prefix_length). rewrite app_length in P. cbn in P. lia. }
      assert (node_at (view o1) q = Some Dir) as EN1 by by rewrite node_at_ne.
      assert (walk (view o1) [] (map Normal q) = Ok q) as WK1 by by apply (walk_present (view o1) q [] _ W1 EN1).
      assert (BELOW : forall x r, view o1 !! (q ++ x :: r) = None).
      { intros x r. destruct (view o !! (q ++ x :: r)) as [n|] eqn:Ex.
        - apply G1. assert (exists nd, view o !! (q ++ [x]) = Some nd) as [nd Hn].
          { destruct r as [|y r]; [by exists n|]. exists Dir. rewrite <- node_at_ne by by destruct q.
            eapply (wf_prefix _ _ (y :: r)); [done| |done]. rewrite node_at_ne by by destruct q.
            rewrite <- app_assoc. exact Ex. }
          exists (x, is_dir_node nd). split; [apply EE; by exists nd|]. exists r. by rewrite <- app_assoc.
        - destruct (classic_loop_dec l q (q ++ x :: r)) as [X|X]; [by apply G1|by rewrite G1']. }
      assert (entries_of (view o1) q = []) as ES.
      { destruct (entries_of (view o1) q) as [|[x nd] t] eqn:EQ; [done|].
        assert ((x, nd) ∈ entries_of (view o1) q) as X by (rewrite EQ; by left).
        apply entries_elem in X. by rewrite BELOW in X. }
      rewrite WK1, EN1, ES. rewrite bool_decide_eq_false_2, bool_decide_eq_true_2 by done. cbn [orb negb run].
      eexists. split; [done|]. rewrite view_unlink. split_and!.
      + destruct I1 as (I1 & I2 & I3). split_and!; [by apply ok_unlink|exact I2|exact I3].
      + done.
      + by apply wf_rmdir.
      + split.
        * intros r [[|x k] ->]; [rewrite app_nil_r; apply lookup_delete|].
          rewrite lookup_delete_ne; [apply BELOW|]. intros X%(f_equal length). rewrite app_length in X. cbn in X. lia.
        * intros r NP. rewrite lookup_delete_ne by (intros ->; by apply NP). apply G1'.
          intros (e & _ & P). apply NP. etransitivity; [|exact P]. by exists [e.1].
    - destruct (run_unlink_file o q c) as (o' & R & I' & RM & V); [done..|].
      exists o'. split; [exact R|]. rewrite V. split_and!; [done|done| |].
      + eapply ConcFacts.wf_delete; [done|]. by rewrite node_at_ne.
      + split.
        * intros r [[|x k] ->]; [rewrite app_nil_r; apply lookup_delete|].
          rewrite lookup_delete_ne by (intros X%(f_equal length); rewrite app_length in X; cbn in X; lia).
          destruct (view o !! (q ++ x :: k)) as [n|] eqn:Ex; [|done].
          rewrite <- node_at_ne in Ex by by destruct q.
          apply wf_prefix in Ex; [|done|done]. rewrite node_at_ne in Ex by done. congruence.
        * intros r NP. rewrite lookup_delete_ne; [done|]. intros ->. by apply NP.
  Qed.
End RmTree.

Lemma st_erase_prefix_cut base s key n : wf_fs s -> plain base -> plain key -> loc base key <> [] ->
  node_at s (loc base key) = Some n ->
  st_erase_prefix base s key = (filter (fun kv => is_prefix (loc base key) kv.1 = false) s, Ok true).
Proof.
  intros W PB PK NE E. destruct (st_erase_prefix_plain base s key W PB PK NE) as (s' & ES & _).
  revert ES. unfold st_erase_prefix. rewrite key_comps_plain by done. rewrite stat_plain by done. rewrite E.
  destruct (existsb _ _); [done|]. cbv zeta. intros ES. rewrite ES. f_equal. by injection ES.
Qed.
Lemma gone_filter q s s' : gone (fun r => q `prefix_of` r) s s' -> s' = filter (fun kv => is_prefix q kv.1 = false) s.
Proof.
  intros [G1 G2]. apply map_eq. intros r. symmetry. destruct (decide (q `prefix_of` r)) as [P|P].
  - rewrite G1 by done. apply map_filter_lookup_None. right. intros n _. cbn. rewrite is_prefix_false. tauto.
  - rewrite G2 by done. destruct (s !! r) as [n|] eqn:E.
    + apply map_filter_lookup_Some. split; [done|]. cbn. by rewrite is_prefix_false.
    + apply map_filter_lookup_None. by left.
Qed.

Section Remove.
  Context (ord : list comp -> list (bytes * bool) -> list (bytes * bool)) (ORD : any_order ord).

  Lemma does_erase_prefix fuel base key o : calm o -> wf_fs (view o) -> plain base -> plain key ->
    loc base key <> [] -> not_deeper fuel (view o) ->
    does o (p_erase_prefix ord fuel base key) (st_erase_prefix base (view o) key).
  Proof.
    intros [I R] W PB PK NE ND. unfold p_erase_prefix, does. rewrite key_comps_plain by done.
    cbn [pres run sys_step]. rewrite path_exists_plain by done.
    destruct (node_at (view o) (loc base key)) as [n|] eqn:E.
    - cbn [run sys_step]. rewrite stat_plain, E by done. cbn [fmap option_fmap option_map].
      rewrite run_try. rewrite node_at_ne in E by done.
      destruct (run_rm_tree ord ORD fuel (loc base key) n o) as (o' & RN & I' & RM & W' & G); [done|done|done|done|..].
      { intros r Hr. apply ND in Hr. rewrite app_length in Hr. lia. }
      cbn [snd]. rewrite RN. cbn [run sys_step]. rewrite path_exists_plain by done.
      rewrite (st_erase_prefix_cut base (view o) key n) by (done || by rewrite node_at_ne).
      exists o'. cbn [fst snd]. split_and!.
      + rewrite node_at_ne by done. by rewrite (proj1 G) by done.
      + by apply gone_filter.
      + split; [done|congruence].
    - cbn [run sys_step]. exists o. rewrite path_exists_plain by done. rewrite E.
      unfold st_erase_prefix. rewrite key_comps_plain by done.
      rewrite stat_plain, path_exists_plain by done. by rewrite E.
  Qed.

  Theorem does_remove fuel H path o : calm o -> wf_fs (view o) -> plain (hy_base H) -> plain path ->
    good_suffix (ep_suffix (hy_ep H)) -> not_deeper fuel (view o) ->
    does o (p_remove H ord fuel path) (Hier.remove H (view o) path).
  Proof.
    intros CA W PB PP GS ND. unfold p_remove, Hier.remove.
    assert (ER : forall k o, calm o -> wf_fs (view o) -> not_deeper fuel (view o) -> plain k ->
      does o (p_erase (hy_base H) k) (st_erase (hy_base H) (view o) k) /\
      wf_fs (fst (st_erase (hy_base H) (view o) k)) /\ not_deeper fuel (fst (st_erase (hy_base H) (view o) k))).
    { intros k o1 C1 W1 N1 PK. split; [by apply does_erase|]. rewrite st_erase_plain by done.
      destruct (node_at (view o1) (loc (hy_base H) k)) as [[|c]|] eqn:E; cbn [fst]; try done.
      split; [by eapply wf_delete_file|]. intros q [x Hq]. apply lookup_delete_Some in Hq as [_ Hq]. apply N1. by rewrite Hq. }
    destruct (ER (gkey H path) o CA W ND) as (D1 & W1 & N1); [apply (nloc_plain H GS); [by right|done]|].
    apply does_andthen; [done|]. intros o1 [] C1 V1 _. 
    all: rewrite <- V1 in W1, N1.
    all: destruct (ER (akey H path) o1 C1 W1 N1) as (D2 & W2 & N2); [apply (nloc_plain H GS); [by left|done]|].
    all: apply does_andthen; [done|]; intros o2 b C2 V2 _.
    all: rewrite <- V2 in W2, N2.
    all: apply does_andthen; [|intros o3 b3 C3 V3 _; by apply does_ret].
    all: apply does_erase_prefix; [done|done|done|by apply data_key_plain| |done].
    all: rewrite data_key_loc; by destruct (pieces (hy_base H)).
  Qed.
End Remove.
