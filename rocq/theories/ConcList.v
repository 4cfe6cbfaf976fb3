(** Listing while other calls run (C62). *)
From Verif Require Import BaseFacts PathFacts KeyFacts FSFacts ListFacts Spec SpecMeta SpecHier SpecList HierFacts OpsFacts.
From Verif Require Import Sys SpecConc SpecConcList SpecRemove SysFacts SysOps SysList CrashFacts ConcFacts ConcOps ConcChunk ConcMeta ConcKeep ConcGone.
From Coq Require Import Sorting.Sorted.
Local Open Scope Z_scope.

(** ** One directory of the metadata tree *)

Section OneDir.
  (** With [free], processes may make the directory. *)
  Context (d : fpath) (NE : d <> []) (free : bool).

  (** The session state: the process has seen a file below [d]. *)
  Definition below (cs : list comp) : bool :=
    bool_decide (map Normal d `prefix_of` cs) && negb (bool_decide (cs = map Normal d)).
  Definition epre (T : Type) (st : bool) (c : sys T) : Prop :=
    match c with
    | SRmdir cs => exists q, cs = map Normal q /\ q <> d
    | SMkdir cs => exists q, cs = map Normal q /\ (q = d -> free = true \/ st = true)
    | _ => True
    end.
  Definition enxt (T : Type) (st : bool) (c : sys T) : T -> bool -> Prop :=
    match c in sys T return T -> bool -> Prop with
    | SIsFile cs => fun x st' => st' = st || (x && below cs)
    | SIsDir _ | SExists _ => fun _ st' => st' = st
    | SMkdir _ | SUnlink _ | SRmdir _ => fun _ st' => st' = st
    | SOpenW _ => fun _ st' => st' = st
    | SOpenR _ _ => fun _ st' => st' = st
    | SLock _ _ | STrunc _ | SClose _ => fun _ st' => st' = st
    | SWrite _ _ _ => fun _ st' => st' = st
    | SRead _ _ _ => fun _ st' => st' = st
    | SStat _ | SReadDir _ => fun _ st' => st' = st
    end.
  Local Notation fol := (follows epre enxt).

  Definition has_dir (o : os) : Prop := o_tree o !! d = Some DDir.
  Lemma has_dir_view o : has_dir o <-> node_at (view o) d = Some Dir.
  Proof. unfold has_dir. rewrite node_at_ne, view_lookup by done. by destruct (o_tree o !! d) as [[|j]|]. Qed.
  Definition einv (o : os) (sts : nat -> bool) : Prop :=
    wf_fs (view o) /\ if free then has_dir o else ~ has_dir o /\ forall i, sts i = false.

  Lemma dir_step {T} (c : sys T) o o' x sts k : einv o sts -> epre T (sts k) c -> sys_step c o = Some (o', x) ->
    exists st', enxt T (sts k) c x st' /\ einv o' (put sts k st').
  Proof.
    intros [W I] P E. assert (wf_fs (view o')) as W' by by eapply step_wf. pose proof E as E1. apply step_tree in E.
    assert (SEE : forall st', (free = false -> st' = false) -> o_tree o' = o_tree o -> einv o' (put sts k st')).
    { intros st' S X. split; [done|]. unfold has_dir. rewrite X. destruct free; [done|]. split; [apply I|].
      intros i. unfold put. case_decide; [by apply S|apply I]. }
    assert (SK : free = false -> sts k = false) by (intros Y; rewrite Y in I; apply I).
    assert (PUT : (if free then has_dir o' else ~ has_dir o') -> einv o' (put sts k (sts k))).
    { intros X. split; [done|]. destruct free; [done|]. split; [done|]. intros i. unfold put. case_decide; [by apply SK|apply I]. }
    destruct c; cbn [tree_after] in E; cbn [enxt]; cbn [epre] in P;
      try (eexists; split; [reflexivity|]; by apply SEE).
    - eexists. split; [reflexivity|]. apply SEE; [|done]. intros TH. rewrite (SK TH). cbn [orb].
      cbn [sys_step] in E1. injection E1 as <- <-. unfold below.
      destruct (bool_decide (map Normal d `prefix_of` cs)) eqn:B1; [|by rewrite andb_false_r].
      destruct (bool_decide (cs = map Normal d)) eqn:B2; [by rewrite andb_false_r|]. cbn. rewrite andb_true_r.
      apply bool_decide_eq_true in B1 as [k' ->]. apply bool_decide_eq_false in B2.
      destruct (path_is_file (view o) (map Normal d ++ k')) eqn:F; [|done]. exfalso.
      apply path_is_file_walk in F as (p & c & F1 & F2). rewrite TH in I. destruct I as [I _]. apply I.
      destruct k' as [|a k']; [by rewrite app_nil_r in B2|]. apply has_dir_view.
      rewrite walk_app in F1. destruct (walk (view o) [] (map Normal d)) as [r| |] eqn:WK; [|done..].
      apply walk_normal_target in WK as ->. rewrite bind_ok in F1. cbn [app walk] in F1.
      by destruct (node_at (view o) d) as [[|]|].
    - eexists. split; [reflexivity|]. destruct E as [E|(q & WK & QN & QF & PD & E)]; [by apply SEE|]. apply PUT.
      destruct P as (r & -> & P). apply walk_normal_target in WK as ->. cbn [app] in *.
      unfold has_dir. rewrite E. destruct (decide (r = d)) as [->|D].
      + rewrite lookup_insert. destruct free; [done|]. destruct (P eq_refl) as [P1|P1]; [done|by rewrite SK in P1].
      + rewrite lookup_insert_ne by done. destruct free; [done|apply I].
    - eexists. split; [reflexivity|]. destruct E as [E|(q & i & WK & QN & QF & PD & E)]; [by apply SEE|]. apply PUT.
      unfold has_dir. rewrite E. destruct (decide (q = d)) as [->|D].
      + rewrite lookup_insert. destruct free; [|done]. unfold has_dir in I. congruence.
      + rewrite lookup_insert_ne by done. destruct free; [done|apply I].
    - eexists. split; [reflexivity|]. destruct E as [[E _]|(q & c & _ & N & E)]; [by apply SEE|]. apply PUT.
      unfold has_dir. rewrite E. destruct (decide (q = d)) as [->|D].
      + rewrite lookup_delete. destruct free; [|done]. apply has_dir_view in I. congruence.
      + rewrite lookup_delete_ne by done. destruct free; [done|apply I].
    - eexists. split; [reflexivity|]. destruct E as [[E _]|(q & WK & QN & N & EE & E)]; [by apply SEE|]. apply PUT.
      destruct P as (r & -> & P). apply walk_normal_target in WK as ->. cbn [app] in *.
      unfold has_dir. rewrite E, lookup_delete_ne by done. destruct free; [done|apply I].
  Qed.

  Definition eany {A} : bool -> A -> Prop := fun _ _ => True.
  Definition ekeeps {A} (st : bool) : bool -> A -> Prop := fun st' _ => st' = st.
  Lemma e_try {A D} (Q : bool -> res D -> Prop) (q : proc (res A)) (f : A -> proc (res D)) st :
    fol eany st q -> (forall st a, fol Q st (f a)) -> (forall st e, Q st (Err e)) -> (forall st, Q st Panic) ->
    fol Q st (ptry q f).
  Proof. intros F N N1 N2. eapply follows_try; [exact F| |done|done]. intros st' a _. apply N. Qed.
  Lemma e_mkdir_all q n : forall st, (d `prefix_of` q -> free = true \/ st = true) ->
    fol (ekeeps st) st (p_mkdir_all (map Normal q) n).
  Proof.
    induction n as [|n IH]; intros st SN; [done|]. cbn [p_mkdir_all].
    assert (take (S n) (map Normal q) = map Normal (take (S n) q)) as ->.
    { change (map Normal) with (fmap (M:=list) Normal). by rewrite fmap_take. }
    assert (take (S n) q = d -> free = true \/ st = true) as S1.
    { intros <-. apply SN. exists (drop (S n) q). by rewrite take_drop. }
    cbn [follows epre enxt]. split; [by eexists|]. intros r st' ->.
    assert (forall here e, fol (ekeeps st) st (Call (SIsDir here) (fun d => Ret (if d : bool then Ok tt else e)))) as OR by done.
    destruct r as [[]|e|]; [done| |done]. destruct e; try apply OR. eapply follows_try; [by apply IH| |done|done].
    intros st2 [] ->. cbn [follows epre enxt]. split; [by eexists|]. intros r st3 ->. by destruct r.
  Qed.
  Lemma e_write_all fuel fd : forall st off b, fol (ekeeps st) st (p_write_all fuel fd off b).
  Proof.
    induction fuel as [|f IH]; intros st off b; [by destruct b|]. destruct b as [|a b]; [done|].
    cbn [p_write_all follows epre enxt]. split; [done|]. intros x st' ->. by destruct x as [[|n]|e|].
  Qed.
  Lemma e_drop fd off buf r st : fol (ekeeps st) st (p_drop fd off buf r).
  Proof.
    unfold p_drop. eapply follows_bind; [apply e_write_all|]. intros st' x ->. cbn. split; [done|]. by intros _ st' ->.
  Qed.
  Lemma e_buffered fd r ws : forall st off buf, fol (ekeeps st) st (p_buffered fd off buf ws r).
  Proof.
    induction ws as [|w ws IH]; intros st off buf; cbn [p_buffered]; [apply e_drop|].
    assert (forall off buf, fol (ekeeps st) st
        (if lenZ w >=? BUF_CAP
        then pbind (p_write_all (length w) fd off w) (fun x =>
               let '(off', _, rw) := x in
               match rw with
               | Ok _ => p_buffered fd off' buf ws r
               | e => p_drop fd off' buf e
               end)
        else p_buffered fd off (buf ++ w) ws r)) as PUT.
    { intros off' buf'. destruct (lenZ w >=? BUF_CAP); [|apply IH]. eapply follows_bind; [apply e_write_all|].
      intros st' [[off2 rest] rw] ->. destruct rw; [apply IH|apply e_drop..]. }
    cbv zeta. destruct (lenZ w >? BUF_CAP - lenZ buf); [|apply PUT].
    eapply follows_bind; [apply e_write_all|]. intros st' [[off2 rest] rf] ->. destruct rf; [apply PUT|apply e_drop..].
  Qed.
  Lemma e_read_all fd rs : forall st off acc, fol (ekeeps st) st (p_read_all fd off rs acc).
  Proof.
    induction rs as [|n rs IH]; intros st off acc; cbn [p_read_all follows epre enxt]; (split; [done|]); intros x st' ->; [done|].
    case_bool_decide; [done|]. apply IH.
  Qed.

  Context (base : bytes) (PB : plain base).
  (** Strictly below. *)
  Definition inside (q : fpath) : Prop := d `prefix_of` q /\ q <> d.
  Lemma below_intro q : inside q -> below (map Normal q) = true.
  Proof.
    intros [[k ->] N]. unfold below. rewrite map_app. apply andb_true_iff. split.
    - apply bool_decide_eq_true. by eexists.
    - apply negb_true_iff, bool_decide_eq_false. intros E. apply N. rewrite <- map_app in E. by apply normal_inj in E.
  Qed.
  Lemma e_exists key st : plain key ->
    fol (fun st' r => r = Ok true -> inside (loc base key) -> st' = true) st (p_exists base key).
  Proof.
    intros PK. unfold p_exists. rewrite key_comps_plain by done. cbn [pres follows epre enxt]. split; [done|].
    intros b st' ->. intros [= ->] I. by rewrite below_intro, orb_true_r.
  Qed.
  Lemma e_get key rs st : plain key -> fol (fun st' _ => st = true -> st' = true) st (p_get base key rs).
  Proof.
    intros PK. unfold p_get. rewrite key_comps_plain by done. cbn [pres follows epre enxt]. split; [done|].
    intros b st' ->.
    assert (st = true -> (st || b && below (map Normal (loc base key))) = true) as S1 by by intros ->.
    destruct b; [|exact S1]. unfold ptry. cbn [pbind follows epre enxt]. split; [done|].
    intros r st2 ->. destruct r as [fd|e|]; [|exact S1..]. cbn [follows epre enxt]. split; [done|]. intros _ st3 ->.
    eapply follows_bind; [apply e_read_all|]. intros st4 c ->. cbn [follows epre enxt]. split; [done|]. intros _ st5 ->. exact S1.
  Qed.
  Lemma e_any_exists key st : plain key -> fol eany st (p_exists base key).
  Proof. intros PK. eapply follows_weaken; [by apply e_exists|done]. Qed.
  Lemma e_any_get key rs st : plain key -> fol eany st (p_get base key rs).
  Proof. intros PK. eapply follows_weaken; [by apply e_get|done]. Qed.
  Lemma e_set key ws r st : plain key -> (inside (loc base key) -> free = true \/ st = true) ->
    fol eany st (p_set base key ws r).
  Proof.
    intros PK S. unfold p_set. rewrite key_comps_plain by done. cbn [pres].
    eapply (follows_try _ _ eany); [| |done|done].
    { destruct (map Normal (loc base key)) as [|a l] eqn:EL; [done|]. rewrite <- EL.
      cbn [follows epre enxt]. split; [done|]. intros b st' ->.
      destruct b; [done|].
      assert (parent_comps (map Normal (loc base key)) = map Normal (parent (loc base key))) as ->.
      { unfold parent_comps, parent. rewrite map_length. change (map Normal) with (fmap (M:=list) Normal). by rewrite fmap_take. }
      eapply follows_weaken; [apply e_mkdir_all|done]. intros PR. apply S.
      destruct (snoc_parent (loc base key)) as [y Y]; [intros Y; by rewrite Y in EL|]. split.
      - etrans; [exact PR|]. exists [y]. exact Y.
      - intros Z. apply prefix_length in PR. rewrite <- Z in PR. apply (f_equal length) in Y.
        rewrite app_length in Y. cbn in Y. lia. }
    intros st1 u S1. unfold ptry. cbn [pbind follows epre enxt]. split; [done|].
    intros x st2 ->.
    destruct x as [fd|e|]; [|done|done]. cbn [follows epre enxt]. split; [done|]. intros _ st3 ->. split; [done|].
    intros _ st3 ->. eapply follows_weaken; [apply e_buffered|done].
  Qed.
  Lemma e_erase key st : plain key -> fol eany st (p_erase base key).
  Proof.
    intros PK. unfold p_erase. rewrite key_comps_plain by done. cbn [pres follows epre enxt]. split; [done|].
    intros b st' ->. destruct b; [|done]. unfold ptry. cbn [pbind follows epre enxt]. split; [done|].
    intros x st2 ->. destruct x as [fd|e|]; [|done..]. cbn [follows epre enxt]. split; [done|].
    intros _ st3 ->. split; [done|]. intros r st3 ->. split; [done|]. intros _ st4 ->. by destruct r.
  Qed.
  Lemma e_each {A} (f : A -> proc (res unit)) es :
    (forall e st, fol eany st (f e)) -> forall st, fol eany st (p_each f es).
  Proof.
    intros F. induction es as [|e es IH]; intros st; [done|]. cbn [p_each]. apply e_try; [apply F|done..].
  Qed.
  Lemma e_rm_tree ord : forall fuel q dir st, ~ q `prefix_of` d -> fol eany st (p_rm_tree ord fuel (map Normal q) dir).
  Proof.
    intros fuel. induction fuel as [|fuel IH]; intros q dir st N; [done|]. cbn [p_rm_tree]. destruct dir.
    - apply e_try; [done| |done|done]. intros st1 es. apply e_try; [| |done|done].
      + apply e_each. intros e st2. change [Normal e.1] with (map Normal [e.1]). rewrite <- map_app.
        apply IH. intros X. apply N. etrans; [|exact X]. by apply prefix_app_r.
      + intros st2 u. cbn [follows epre enxt]. split; [|done]. exists q. split; [done|]. by intros ->.
    - apply e_try; [done| |done|done]. intros st1 fd. cbn [follows epre enxt]. split; [done|]. intros _ st2 ->.
      split; [done|]. intros x st2 ->. split; [done|]. by intros _ st3 ->.
  Qed.
  Lemma e_erase_prefix ord fuel key st : plain key -> ~ loc base key `prefix_of` d -> fol eany st (p_erase_prefix ord fuel base key).
  Proof.
    intros PK N. unfold p_erase_prefix. rewrite key_comps_plain by done. cbn [pres follows epre enxt]. split; [done|].
    intros b st' ->. destruct b; [|done]. cbn [follows epre enxt]. split; [done|]. intros [dir|] st1 ->; [|done].
    by apply e_try; [apply e_rm_tree|..].
  Qed.
  Lemma e_stats cs es : forall st, fol eany st (p_stats cs es).
  Proof.
    induction es as [|e es IH]; intros st; [done|]. cbn [p_stats follows epre enxt]. split; [done|]. intros x st' ->.
    eapply follows_bind; [apply IH|]. done.
  Qed.
End OneDir.

Section DirCalls.
  Context (r : fpath) (free : bool) (C : codec) (h : host) (H : hier) (sl : bytes -> list bytes).
  Context (PB : plain (hy_base H)) (GS : good_suffix (ep_suffix (hy_ep H))).
  Local Notation base := (hy_base H).
  Local Notation d := (pieces base ++ B "meta" :: r).
  Local Notation fol := (follows (epre d free) (enxt d)).

  (** The call creates a document below the directory. *)
  Definition fills (c : call) : Prop :=
    match c with
    | KCreateArray path _ => inside d (loc base (akey H path))
    | KCreateGroup path => inside d (loc base (gkey H path))
    | _ => False
    end.
  Lemma e_reply {A} (f : A -> reply) q st : fol eany st q -> fol eany st (map_reply f q).
  Proof. intros F. eapply follows_bind; [exact F|]. done. Qed.
  Lemma e_node_key path st : plain path ->
    fol (fun st' x => forall k, x = Ok k -> (k = akey H path \/ k = gkey H path) /\ (inside d (loc base k) -> st' = true))
      st (p_node_key H path).
  Proof.
    intros P. unfold p_node_key. eapply follows_try; [apply e_exists; first [done|apply h_key; [done|by left|done]]| |done|done].
    intros st1 a X. destruct a; [cbn; intros k [= <-]; auto|].
    eapply follows_try; [apply e_exists; first [done|apply h_key; [done|by right|done]]| |done|done].
    intros st2 a Y. destruct a; [cbn; intros k [= <-]; auto|done].
  Qed.
  Lemma not_data q : ~ (pieces base ++ B "data" :: q) `prefix_of` d.
  Proof. intros [k E]. rewrite <- app_assoc in E. apply app_inv_head in E. done. Qed.
  Lemma not_in_data q : ~ inside d (pieces base ++ B "data" :: q).
  Proof. intros [[k E] _]. rewrite <- app_assoc in E. apply app_inv_head in E. done. Qed.

  Lemma e_call c st : call_ok c -> free = true \/ ~ fills c -> fol eany st (p_call C h H sl c).
  Proof.
    intros K R. assert (d <> []) as NE by (intros Y; by apply app_eq_nil in Y as [_ Y]). assert (is_node_ext AX) as IA by by left. assert (is_node_ext GX) as IG by by right.
    assert (forall path k, plain path -> k = akey H path \/ k = gkey H path -> plain k) as PK.
    { intros path k P [->| ->]; [by apply (h_key H GS AX)|by apply (h_key H GS GX)]. }
    destruct c; cbn [call_ok] in K; cbn [p_call]; apply e_reply; cbn [fills] in R.
    - apply e_try; [apply e_any_get; first [done|by apply h_key]|done..].
    - eapply follows_try; [by apply e_node_key| |done|done].
      intros st1 k X. apply e_try; [|done..]. apply e_any_get; first [done|eapply PK; [done|by apply X]].
    - eapply follows_try; [by apply e_node_key| |done|done].
      intros st1 k X. destruct (X k eq_refl) as [X1 X2]. assert (plain k) as PK' by by eapply PK.
      eapply follows_try; [by apply e_get| |done|done].
      intros st2 x S. destruct (of_option NotFound x) as [text| |]; cbn [pres]; [|done..].
      destruct (from_text as_map text) as [m| |]; cbn [pres]; [|done..]. cbv zeta.
      destruct (json_eqb (JObj (merge_doc m attrs)) (JObj m)); [done|]. apply e_set; [done..|]. auto.
    - unfold p_create_group.
      apply e_try; [apply e_any_exists; first [done|by apply h_key]| |done|done].
      intros st1 [|]; [done|]. apply e_try; [apply e_any_exists; first [done|by apply h_key]| |done|done].
      intros st2 [|]; [done|]. apply e_set; [done|done|by apply h_key|]. intros I. destruct R as [R|R]; [by left|by destruct R].
    - unfold p_create_array.
      apply e_try; [apply e_any_exists; first [done|by apply h_key]| |done|done].
      intros st1 [|]; [done|]. apply e_try; [apply e_any_exists; first [done|by apply h_key]| |done|done].
      intros st2 [|]; [done|]. apply e_set; [done|done|by apply h_key|]. intros I. destruct R as [R|R]; [by left|by destruct R].
    - destruct K as (K1 & K2 & K3). unfold p_read_chunk.
      destruct (in_bounds _ _ _ ≫= _) as [x| |]; cbn [pres]; [|done..].
      apply e_try; [|done..]. apply e_any_get; first [done|apply plain_chunk_key; [done|apply K2|done]].
    - destruct K as (K1 & K2 & K3). unfold p_write_chunk.
      apply e_set; [done|done|apply plain_chunk_key; [done|apply K2|done]|]. rewrite loc_chunk. intros I. by apply not_in_data in I.
    - destruct K as (K1 & K2 & K3). apply e_erase; first [done|apply plain_chunk_key; [done|apply K2|done]].
    - destruct K as (K1 & K2). unfold p_remove.
      apply e_try; [apply e_erase; first [done|by apply (h_key H GS GX)]| |done|done]. intros st1 b1.
      apply e_try; [apply e_erase; first [done|by apply (h_key H GS AX)]| |done|done]. intros st2 b2.
      apply e_try; [apply e_erase_prefix; [done|by apply data_key_plain|]|done..].
      rewrite data_key_loc by done. apply not_data.
    - unfold p_list_nodes. apply e_try; [|done..]. unfold p_list_dir.
      destruct (key_comps _ _) as [cs| |]; cbn [pres]; [|done..]. apply e_try; [done| |done|done]. intros st1 es.
      eapply follows_bind; [apply e_stats|done].
  Qed.

  Context (o : os) (W : wf_fs (view o)) (calls : list call) (OK : forall c, c ∈ calls -> call_ok c).
  Lemma execute_dir o' ps : executes C h H sl o calls o' ps ->
    (free = false -> forall c, c ∈ calls -> ~ fills c) ->
    (if free then node_at (view o) d = Some Dir else node_at (view o) d <> Some Dir) ->
    if free then node_at (view o') d = Some Dir else node_at (view o') d <> Some Dir.
  Proof.
    intros X NF I. assert (d <> []) as NE by (intros Y; by apply app_eq_nil in Y as [_ Y]).
    destruct (csteps_protocol (epre d free) (enxt d) (einv d free) (fun _ _ _ => True)
      ltac:(intros; by eapply dir_step) _ _ X (fun _ => false)) as (sts & [W' I'] & _).
    - split; [done|]. cbn [fst]. destruct free.
      + by apply has_dir_view.
      + split; [|done]. by rewrite has_dir_view.
    - cbn [snd]. intros i q E. rewrite list_lookup_fmap in E.
      destruct (calls !! i) as [c|] eqn:EC; [|done]. injection E as <-.
      apply elem_of_list_lookup_2 in EC. eapply follows_weaken; [apply e_call; [by apply OK|]|done].
      destruct free; [by left|right]. by apply NF.
    - cbn [fst] in *. destruct free; rewrite has_dir_view in I' by done; [done|apply I'].
  Qed.
End DirCalls.

(** ** What one process sees *)

(** [o1] is a state on the way. *)
Definition on_the_way C h H sl o calls (o1 : os) : Prop := exists ps, executes C h H sl o calls o1 ps.
Definition wpre (T : Type) (st : unit) (c : sys T) : Prop := True.
Definition wnxt (R : os -> Prop) (T : Type) (st : unit) (c : sys T) (x : T) (st' : unit) : Prop :=
  exists o1 o2, R o1 /\ sys_step c o1 = Some (o2, x).
Lemma csteps_trans {A} (a b c : os * list (proc A)) : csteps a b -> csteps b c -> csteps a c.
Proof. induction 1; [done|]. intros X. econstructor; eauto. Qed.
Lemma csteps_sees {A} (c0 c c' : os * list (proc A)) i q fin :
  csteps c c' -> csteps c0 c -> snd c !! i = Some q ->
  follows wpre (wnxt (fun o => exists ps, csteps c0 (o, ps))) fin tt q ->
  forall q', snd c' !! i = Some q' -> follows wpre (wnxt (fun o => exists ps, csteps c0 (o, ps))) fin tt q'.
Proof.
  intros X. revert q. induction X as [c|o ps j p o1 p1 c E P S IH]; intros q R EQ F q' E'; cbn [fst snd] in *.
  - congruence.
  - destruct p as [a|T call k]; cbn in P; [done|]. destruct (sys_step call o) as [[o2 x]|] eqn:SS; [|done].
    injection P as <- <-.
    assert (csteps c0 (o2, <[j := k x]> ps)) as R'.
    { eapply csteps_trans; [exact R|]. econstructor; [exact E| |constructor]. cbn. by rewrite SS. }
    destruct (decide (j = i)) as [->|D].
    + rewrite E in EQ. injection EQ as <-. apply (IH (k x)); [done| | |done].
      * apply list_lookup_insert. by eapply lookup_lt_Some.
      * apply F. exists o, o2. split; [by exists ps|done].
    + apply (IH q); [done| |done|done]. by rewrite list_lookup_insert_ne.
Qed.
Lemma execute_sees C h H sl o calls o' ps i c a fin : executes C h H sl o calls o' ps -> calls !! i = Some c ->
  follows wpre (wnxt (on_the_way C h H sl o calls)) fin tt (p_call C h H sl c) -> returned ps i a -> fin tt a.
Proof.
  intros X E F R.
  exact (csteps_sees (o, map (p_call C h H sl) calls) _ _ i (p_call C h H sl c) fin X ltac:(constructor)
    ltac:(cbn [snd]; by rewrite list_lookup_fmap, E) F (Ret a) R).
Qed.

(** Reading a directory and asking for the kind of each entry, with states
    changing in between. *)
Section Sees.
  Context (R : os -> Prop) (W : forall o, R o -> wf_fs (view o)).
  Local Notation fol := (follows wpre (wnxt R)).
  Lemma sees_stats q es : NoDup (map fst es) -> 
    fol (fun _ l => NoDup (map fst l)
       /\ (forall x b, (x, b) ∈ l -> x ∈ map fst es /\ exists o nd, R o /\ node_at (view o) (q ++ [x]) = Some nd /\ is_dir_node nd = b)
       /\ (forall x b, x ∈ map fst es -> (forall o, R o -> exists nd, node_at (view o) (q ++ [x]) = Some nd /\ is_dir_node nd = b) -> (x, b) ∈ l))
      tt (p_stats (map Normal q) es).
  Proof.
    induction es as [|[x0 b0] es IH]; intros ND; cbn [p_stats map fst] in *.
    - cbn. split_and!; [constructor|by intros x b X%elem_of_nil|by intros x b X%elem_of_nil].
    - apply list.NoDup_cons in ND as [NI ND]. split; [done|]. intros dd [] (o & o2 & RO & SS).
      eapply follows_bind; [by apply IH|]. intros [] l (L1 & L2 & L3). cbn [follows].
      cbn [sys_step] in SS. injection SS as <- <-.
      change (map Normal q ++ [Normal x0]) with (map Normal q ++ map Normal [x0]). rewrite <- map_app.
      assert (forall nd, node_at (view o) (q ++ [x0]) = Some nd -> stat (view o) (map Normal (q ++ [x0])) = Some (q ++ [x0], nd)) as S1.
      { intros nd E. unfold stat. rewrite (walk_present (view o) (q ++ [x0]) [] nd (W o RO)) by done. cbn [app]. by rewrite E. }
      assert (node_at (view o) (q ++ [x0]) = None -> stat (view o) (map Normal (q ++ [x0])) = None) as S2.
      { intros E. unfold stat. destruct (walk _ _ _) as [r| |] eqn:WK; [|done..]. apply walk_normal_target in WK as ->.
        cbn [app]. by rewrite E. }
      assert (x0 ∉ map fst l) as NL.
      { intros ([x b] & -> & Y)%elem_of_list_fmap. apply L2 in Y as [Y _]. done. }
      destruct (node_at (view o) (q ++ [x0])) as [nd|] eqn:E.
      + rewrite (S1 nd) by done. 
        split_and!.
        * cbn [map fst]. by apply list.NoDup_cons.
        * intros x b [Y|Y]%elem_of_cons.
          -- injection Y as -> ->. split; [by left|]. exists o, nd. split_and!; [done|done|by destruct nd].
          -- apply L2 in Y as [Y1 Y2]. split; [by right|done].
        * intros x b [->|Y]%elem_of_cons Z.
          -- destruct (Z o RO) as (nd' & Z1 & <-). rewrite E in Z1. injection Z1 as <-. by left.
          -- right. by apply L3.
      + rewrite S2 by done. split_and!; [done| |].
        * intros x b Y. apply L2 in Y as [Y1 Y2]. split; [by right|done].
        * intros x b [->|Y]%elem_of_cons Z; [|by apply L3]. destruct (Z o RO) as (nd' & Z1 & Z2). congruence.
  Qed.
End Sees.

Section SeesDir.
  Context (R : os -> Prop) (W : forall o, R o -> wf_fs (view o)).
  Local Notation fol := (follows wpre (wnxt R)).
  Context (ord : list comp -> list (bytes * bool) -> list (bytes * bool)) (ORD : any_order ord).
  Context (base prefix : bytes) (PB : plain base) (PP : plain prefix).
  Local Notation q := (loc base prefix).
  Context (DQ : forall o, R o -> node_at (view o) q = Some Dir).

  Lemma sees_list_dir :
    fol (fun _ r => exists L : list (bytes * bool),
       r = Ok (map (fun e => prefix ++ e.1) (filter (fun e => e.2 = false) L),
               map (fun e => prefix ++ e.1) (filter (fun e => e.2 = true) L))
       /\ NoDup (map fst L)
       /\ (forall x b, (x, b) ∈ L -> exists o nd, R o /\ node_at (view o) (q ++ [x]) = Some nd /\ is_dir_node nd = b)
       /\ (forall x b, (forall o, R o -> exists nd, node_at (view o) (q ++ [x]) = Some nd /\ is_dir_node nd = b) -> (x, b) ∈ L))
      tt (p_list_dir ord base prefix).
  Proof.
    unfold p_list_dir. rewrite key_comps_plain by done. cbn [pres].
    eapply (follows_try _ _ (fun _ r => exists o, R o
      /\ r = Ok (map (fun e : bytes * node => (e.1, is_dir_node e.2)) (entries_of (view o) q)))).
    - cbn [follows]. split; [done|]. intros x [] (o & o2 & RO & SS). cbn [sys_step] in SS. injection SS as <- <-.
      exists o. split; [done|]. rewrite (walk_present (view o) q [] Dir (W o RO)) by by apply DQ. cbn [app]. by rewrite DQ.
    - intros [] es (o & RO & E). injection E as ->.
      set (es := map (fun e : bytes * node => (e.1, is_dir_node e.2)) (entries_of (view o) q)).
      pose proof (ORD (map Normal q) es) as P.
      assert (map fst es = (entries_of (view o) q).*1) as FE.
      { unfold es. rewrite map_map. by apply map_ext. }
      eapply follows_bind; [apply (sees_stats R W q)|].
      + rewrite P, FE. apply entries_nodup.
      + intros [] l (L1 & L2 & L3). cbn [follows]. exists l. split_and!; [done|done| |].
        * intros x b I. by apply L2.
        * intros x b A. apply L3; [|done]. rewrite P, FE. destruct (A o RO) as (nd & A1 & _).
          rewrite node_at_ne in A1 by by destruct q. apply elem_of_list_fmap. exists (x, nd). split; [done|]. by apply entries_elem.
    - intros [] e (o & _ & E). done.
    - intros [] (o & _ & E). done.
  Qed.
End SeesDir.

(** ** The names made of a list of entries *)

Section Names.
  Context (p : profile) (H : hier) (path t : bytes).
  Context (PB : plain (hy_base H)) (GS : good_suffix (ep_suffix (hy_ep H))) (SX : ep_suffix (hy_ep H) = dot :: t).
  Context (PP : plain path) (PL : lenZ path < two32).
  Local Notation base := (hy_base H).
  Local Notation sfx := (ep_suffix (hy_ep H)).
  Local Notation kp := (META_ROOT_PATH ++ slash :: canonicalize_path path).
  Local Notation D := (meta_dir H path).
  Context (s0 : fs) (W0 : wf_fs s0) (R0 : real_names s0) (D0 : node_at s0 D = Some Dir).
  Context (L : list (bytes * bool)) (ND : NoDup (map fst L)).
  Context (LF : forall f, (f, false) ∈ L -> lenZ f < two32 /\
    exists n path' ext, is_node_ext ext /\ plain path' /\ pieces path' = pieces path ++ [n] /\ f = doc H n ext /\ lenZ sfx <= lenZ n).
  Context (LD : forall x, (x, true) ∈ L -> x <> [] /\ slash ∉ x /\ lenZ x < two32).

  (** A state with these entries. *)
  Definition entry (e : bytes * bool) : fpath * node := (D ++ [e.1], if e.2 then Dir else File []).
  Definition pseudo : fs := list_to_map (map entry L) ∪ filter (fun kv => kv.1 `prefix_of` D) s0.

  Lemma D_ne : D <> [].
  Proof. intros Y. unfold meta_dir in Y. by apply app_eq_nil in Y as [_ Y]. Qed.
  Lemma entry_some q nd : list_to_map (M:=fs) (map entry L) !! q = Some nd <-> exists e, e ∈ L /\ entry e = (q, nd).
  Proof.
    rewrite <- elem_of_list_to_map.
    - rewrite elem_of_list_fmap. split; intros (e & A & B); exists e; done.
    - assert ((map entry L).*1 = (fun x => D ++ [x]) <$> map fst L) as ->.
      { clear. induction L as [|e l IH]; [done|]. cbn. f_equal. exact IH. }
      apply NoDup_fmap_2; [|done]. intros x y E. by apply app_inj_tail in E as [_ ->].
  Qed.
  Lemma pseudo_child x nd : pseudo !! (D ++ [x]) = Some nd <-> exists b, (x, b) ∈ L /\ nd = if b : bool then Dir else File [].
  Proof.
    unfold pseudo. rewrite lookup_union_Some_raw, entry_some. split.
    - intros [([y b] & I & [= E1 <-])|[_ F]].
      + apply app_inj_tail in E1 as [_ ->]. by exists b.
      + apply map_filter_lookup_Some in F as [_ F]. cbn in F. apply prefix_length in F. rewrite app_length in F. cbn in F. lia.
    - intros (b & I & ->). left. by exists (x, b).
  Qed.
  Lemma pseudo_up q : q `prefix_of` D -> pseudo !! q = s0 !! q.
  Proof.
    intros P. unfold pseudo. destruct (list_to_map (M:=fs) (map entry L) !! q) as [nd|] eqn:E.
    - apply entry_some in E as ([y b] & I & [= <- <-]). apply prefix_length in P. rewrite app_length in P. cbn in P. lia.
    - rewrite lookup_union_r by done. destruct (s0 !! q) as [nd|] eqn:E0.
      + by apply map_filter_lookup_Some.
      + apply map_filter_lookup_None. by left.
  Qed.
  Lemma pseudo_cases q nd : pseudo !! q = Some nd -> (exists x, q = D ++ [x]) \/ (q `prefix_of` D /\ s0 !! q = Some nd).
  Proof.
    unfold pseudo. rewrite lookup_union_Some_raw. intros [E|[_ E]].
    - apply entry_some in E as ([y b] & I & [= <- <-]). left. by exists y.
    - apply map_filter_lookup_Some in E as [E1 E2]. by right.
  Qed.
  Lemma pseudo_dir q : q `prefix_of` D -> node_at pseudo q = Some Dir.
  Proof.
    intros P. assert (node_at s0 q = Some Dir) as E.
    { destruct (decide (q = D)) as [->|N]; [done|]. by eapply wf_strict. }
    destruct q as [|a q]; [done|]. rewrite node_at_ne in E |- * by done. by rewrite pseudo_up.
  Qed.
  Lemma pseudo_wf : wf_fs pseudo.
  Proof.
    intros q m y E. apply pseudo_dir. apply pseudo_cases in E as [[x E]|[E _]].
    - by apply app_inj_tail in E as [-> _].
    - etrans; [|exact E]. by apply prefix_app_r.
  Qed.
  Lemma doc_name n path' ext : is_node_ext ext -> plain path' -> pieces path' = pieces path ++ [n] ->
    doc H n ext <> [] /\ slash ∉ doc H n ext.
  Proof.
    intros E P1 P2. assert (doc H n ext ∈ pieces (metadata_key ext sfx path')) as I.
    { pose proof (child_loc H path t GS SX n path' ext E P1 P2) as X. unfold nloc, loc, meta_dir in X.
      rewrite <- app_assoc in X. apply app_inv_head in X. rewrite X, elem_of_app. right. by left. }
    split.
    - intros E'. pose proof (pieces_nj (metadata_key ext sfx path')) as F. rewrite list.Forall_forall in F.
      apply F in I. by rewrite E' in I.
    - pose proof (pieces_noslash (metadata_key ext sfx path')) as F. rewrite list.Forall_forall in F. by apply F.
  Qed.
  Lemma pseudo_real : real_names pseudo.
  Proof.
    intros q x nd E. pose proof E as E'. apply pseudo_cases in E as [[y E]|[_ E]].
    - rewrite E in E'. apply app_inj_tail in E as [-> ->]. apply pseudo_child in E' as ([] & I & ->); [by apply LD|].
      destruct (LF _ I) as (LX & n & path' & ext & X1 & X2 & X3 & -> & X4).
      destruct (doc_name n path' ext X1 X2 X3). done.
    - by eapply R0.
  Qed.
  Lemma pseudo_docs : documents_only H pseudo.
  Proof.
    intros q c F. unfold file_at in F. destruct (node_at pseudo _) as [[|c']|] eqn:N; [done| |done].
    pose proof N as E. rewrite node_at_ne in E by (intros Y; by apply app_eq_nil in Y as [_ Y]).
    pose proof E as E'. apply pseudo_cases in E as [[x E]|[E _]].
    - rewrite E in E' |- *. apply pseudo_child in E' as ([] & I & Y); [done|].
      destruct (LF _ I) as (LX & n & path' & ext & X1 & X2 & X3 & -> & X4). exists path'. split; [done|].
      rewrite <- (child_loc H path t GS SX n path' ext) by done. destruct X1 as [->| ->]; [by left|by right].
    - by rewrite pseudo_dir in N.
  Qed.
  Lemma pseudo_explicit n : explicit_child H pseudo path n <->
    exists path' ext, is_node_ext ext /\ plain path' /\ pieces path' = pieces path ++ [n] /\ (doc H n ext, false) ∈ L.
  Proof.
    rewrite (explicit_iff H pseudo path t PB GS SX pseudo_wf).
    assert (forall ext, file_at pseudo (D ++ [doc H n ext]) <> None <-> (doc H n ext, false) ∈ L) as X.
    { intros ext. unfold file_at. rewrite node_at_ne by by destruct D. split.
      - intros F. destruct (pseudo !! _) as [nd|] eqn:E; [|done]. apply pseudo_child in E as ([] & I & ->); done.
      - intros I. assert (pseudo !! (D ++ [doc H n ext]) = Some (File [])) as ->; [|done]. apply pseudo_child. by exists false. }
    split; intros (path' & ext & X1 & X2 & X3 & X4); exists path', ext; by rewrite X in *.
  Qed.
  Lemma pseudo_child_dir x : child_dir H pseudo path x <-> (x, true) ∈ L.
  Proof.
    unfold child_dir. rewrite node_at_ne by by destruct D. rewrite pseudo_child. split.
    - intros ([] & I & Y); done.
    - intros I. by exists true.
  Qed.
  Lemma pseudo_entries b : map (fun e : bytes * node => kp ++ e.1) (filter (fun e => is_dir_node e.2 = b) (entries_of pseudo D))
    ≡ₚ map (fun e : bytes * bool => kp ++ e.1) (filter (fun e => e.2 = b) L).
  Proof.
    assert (entries_of pseudo D ≡ₚ map (fun e : bytes * bool => (e.1, if e.2 then Dir else File [])) L) as ->.
    { apply NoDup_Permutation.
      - eapply (NoDup_fmap_1 fst), entries_nodup.
      - eapply (NoDup_fmap_1 fst). change (fst <$> ?l) with (map fst l). rewrite map_map. by cbn [fst].
      - intros [x nd]. rewrite entries_elem, pseudo_child, elem_of_list_fmap. split.
        + intros (c & I & ->). by exists (x, c).
        + intros ([y c] & [= -> ->] & I). by exists c. }
    clear. induction L as [|[x c] l IH]; [done|]. cbn [map]. rewrite !filter_cons. cbn [fst snd].
    destruct c, b; cbn [is_dir_node]; repeat case_decide; try done; cbn [map fst]; by rewrite IH.
  Qed.
  Lemma names_ok : exists l,
    node_names H p path (map (fun e => kp ++ e.1) (filter (fun e => e.2 = false) L),
                         map (fun e => kp ++ e.1) (filter (fun e => e.2 = true) L)) = Ok l
    /\ StronglySorted string_lt l
    /\ forall x, x ∈ l <-> (x, true) ∈ L \/
         exists n ext path', is_node_ext ext /\ plain path' /\ pieces path' = pieces path ++ [n]
           /\ (doc H n ext, false) ∈ L /\ x = take (length n - length sfx)%nat n.
  Proof.
    destruct (list_nodes_ok p H pseudo path t PB GS SX pseudo_wf pseudo_real pseudo_docs PP PL) as (l & E & S & X).
    - by apply pseudo_dir.
    - intros n (path' & ext & X1 & X2 & X3 & X4)%pseudo_explicit.
      destruct (LF _ X4) as (_ & n' & path2 & ext' & Y1 & Y2 & Y3 & Y4 & Y5).
      apply (f_equal lenZ) in Y4. rewrite !doc_len in Y4 by done. lia.
    - exists l. split; [|split; [done|]].
      + rewrite <- E, list_nodes_split, list_dir_plain by first [done|apply pseudo_wf|by apply plain_kp|rewrite loc_kp; by apply pseudo_dir].
        rewrite bind_ok, loc_kp. apply node_names_perm; symmetry; apply pseudo_entries.
      + intros x. rewrite X, pseudo_child_dir. split.
        * intros [Y|(n & (path' & ext & X1 & X2 & X3 & X4)%pseudo_explicit & ->)]; [by left|right]. by exists n, ext, path'.
        * intros [Y|(n & ext & path' & X1 & X2 & X3 & X4 & ->)]; [by left|right]. exists n. split; [|done].
          apply pseudo_explicit. by exists path', ext.
  Qed.
End Names.

(** ** The listing *)

Section Listing.
  Context (C : codec) (h : host) (H : hier) (sl : bytes -> list bytes) (t : bytes).
  Context (PB : plain (hy_base H)) (GS : good_suffix (ep_suffix (hy_ep H))) (SX : ep_suffix (hy_ep H) = dot :: t).
  Local Notation base := (hy_base H).
  Local Notation sfx := (ep_suffix (hy_ep H)).
  Context (path : bytes) (PP : plain path) (PL : lenZ path < two32).
  Local Notation D := (meta_dir H path).
  Local Notation kp := (META_ROOT_PATH ++ slash :: canonicalize_path path).

  Lemma child_meta f : D ++ [f] = pieces base ++ B "meta" :: (B "root" :: pieces path ++ [f]).
  Proof. unfold meta_dir. by rewrite <- !app_assoc. Qed.
  (** Documents in the directory are those of children. *)
  Lemma nloc_child e path' f : is_node_ext e -> plain path' -> nloc H e path' = D ++ [f] ->
    exists n, pieces path' = pieces path ++ [n] /\ f = doc H n e.
  Proof.
    intros E P N. unfold nloc, loc in N. rewrite pieces_node_key in N by (done || apply GS). unfold meta_dir in N.
    rewrite <- app_assoc in N. apply app_inv_head in N.
    destruct (meta_pieces_cases e (strip_dot sfx) (pieces path') P) as [[Z M]|(l1 & n1 & Z & M)]; rewrite M in N.
    - cbn [app] in N. injection N as N. destruct (pieces path); discriminate.
    - rewrite <- !app_assoc in N. apply app_inv_head in N. apply app_inj_tail in N as [-> <-]. exists n1. split; [done|].
      unfold doc. by rewrite (strip_sfx H t SX), SX.
  Qed.
  (** Documents below a child directory. *)
  Lemma nloc_inside e path' x : is_node_ext e -> plain path' -> inside (D ++ [x]) (nloc H e path') ->
    exists n k, pieces path' = pieces path ++ x :: n :: k.
  Proof.
    intros E P [[k N] NE]. unfold nloc, loc in N. rewrite pieces_node_key in N by (done || apply GS). unfold meta_dir in N.
    rewrite <- !app_assoc in N. apply app_inv_head in N.
    destruct (meta_pieces_cases e (strip_dot sfx) (pieces path') P) as [[Z M]|(l1 & n1 & Z & M)]; rewrite M in N.
    - cbn [app] in N. injection N as N. destruct (pieces path); discriminate.
    - rewrite <- ?app_assoc in N. apply app_inv_head in N. destruct k as [|y k _] using rev_ind.
      + exfalso. rewrite app_nil_r in N. apply NE. unfold nloc, loc. rewrite pieces_node_key by (done || apply GS).
        rewrite M, N. unfold meta_dir. by rewrite <- !app_assoc.
      + rewrite !app_assoc in N. apply app_inj_tail in N as [-> _]. rewrite Z.
        destruct k as [|z k]; [exists n1, []|exists z, (k ++ [n1])]; by rewrite <- !app_assoc.
  Qed.

  Context (o : os) (W : wf_fs (view o)) (RN : real_names (view o)) (DO : documents_only H (view o)).
  Context (DD : node_at (view o) D = Some Dir).
  Context (calls : list call) (OK : forall c, c ∈ calls -> call_ok c) (SN : forall c, c ∈ calls -> short_names H c).
  Context (L1 : forall n, explicit_child H (view o) path n -> lenZ sfx <= lenZ n).
  Context (L2 : forall c n, c ∈ calls -> creates_child c path n -> lenZ sfx <= lenZ n).
  Local Notation R := (on_the_way C h H sl o calls).

  Lemma way_wf o1 : R o1 -> wf_fs (view o1).
  Proof. intros [ps X]. by eapply execute_wf. Qed.
  Lemma way_dir q o1 : R o1 -> node_at (view o) (pieces base ++ B "meta" :: q) = Some Dir ->
    node_at (view o1) (pieces base ++ B "meta" :: q) = Some Dir.
  Proof. intros [ps X] E. by apply (execute_dir q true C h H sl PB GS o W calls OK o1 ps X). Qed.
  Lemma way_D o1 : R o1 -> node_at (view o1) D = Some Dir.
  Proof. intros X. by apply (way_dir (B "root" :: pieces path)). Qed.

  (** A directory found on the way. *)
  Local Instance fills_dec q c : Decision (fills q H c).
  Proof. destruct c; cbn [fills]; unfold inside; apply _. Qed.
  Lemma way_new_dir x o1 : R o1 -> node_at (view o1) (D ++ [x]) = Some Dir ->
    child_dir H (view o) path x \/ exists c, c ∈ calls /\ creates_below c path x.
  Proof.
    intros [ps X] E. unfold child_dir. rewrite child_meta in *. set (q := B "root" :: pieces path ++ [x]) in *.
    assert (forall n : option node, n = Some Dir \/ n <> Some Dir) as DN by (intros [[|]|]; auto).
    destruct (DN (node_at (view o) (pieces base ++ B "meta" :: q))) as [Y|Y]; [left; exact Y|right].
    destruct (decide (Exists (fills q H) calls)) as [F|F].
    - apply list.Exists_exists in F as (c & I & F). exists c. split; [done|].
      pose proof (OK c I) as K. unfold q in F. destruct c; cbn [fills] in F; try done; rewrite <- child_meta in F; cbn [creates_below].
      + by apply (nloc_inside GX) in F; [|by right|].
      + by apply (nloc_inside AX) in F; [|by left|].
    - exfalso. apply (execute_dir q false C h H sl PB GS o W calls OK o1 ps X) in E; [done| |done].
      intros _ c I Z. apply F, list.Exists_exists. by exists c.
  Qed.
  (** A file found on the way. *)
  Lemma way_file f o1 x : R o1 -> file_at (view o1) (D ++ [f]) = Some x ->
    exists n path' e, is_node_ext e /\ plain path' /\ pieces path' = pieces path ++ [n] /\ f = doc H n e /\ lenZ f < two32
      /\ (explicit_child H (view o) path n \/ exists c, c ∈ calls /\ creates_child c path n).
  Proof.
    intros [ps X] E. set (p := D ++ [f]) in *. assert (p <> []) as NE by (unfold p; by destruct D).
    assert (forall c, Decision (match c with
      | KCreateArray path' _ => loc base (akey H path') = p
      | KCreateGroup path' => loc base (gkey H path') = p
      | _ => False end)) as DEC by (intros []; apply _).
    destruct (decide (Exists (fun c => match c with
      | KCreateArray path' _ => loc base (akey H path') = p
      | KCreateGroup path' => loc base (gkey H path') = p
      | _ => False end) calls)) as [F|F].
    - apply list.Exists_exists in F as (c & I & F). pose proof (OK c I) as K. pose proof (SN c I) as S.
      assert (forall e path', is_node_ext e -> plain path' -> (forall n, n ∈ pieces path' -> lenZ n + lenZ sfx + 6 < two32) ->
        nloc H e path' = p -> (forall n, pieces path' = pieces path ++ [n] -> creates_child c path n) ->
        exists n path' e, is_node_ext e /\ plain path' /\ pieces path' = pieces path ++ [n] /\ f = doc H n e /\ lenZ f < two32
          /\ (explicit_child H (view o) path n \/ exists c, c ∈ calls /\ creates_child c path n)) as G.
      { intros e path' IE P' S' N CC. apply nloc_child in N as (n & N1 & ->); [|done..]. exists n, path', e. split_and!; try done.
        - rewrite doc_len by done. specialize (S' n). rewrite N1, elem_of_app in S'. specialize (S' ltac:(right; by left)). lia.
        - right. exists c. split; [done|]. by apply CC. }
      destruct c; try done; cbn [call_ok short_names] in K, S.
      + by apply (G GX path0); [right|..].
      + by apply (G AX path0); [left|..].
    - destruct (file_at (view o) p) as [c0|] eqn:E0.
      + destruct (child_file H (view o) path t GS SX DO f c0 E0) as (n & path' & e & X1 & X2 & X3 & ->).
        exists n, path', e. split_and!; try done.
        * unfold file_at in E0. destruct (node_at (view o) p) as [nd|] eqn:N; [|done]. rewrite node_at_ne in N by done.
          by apply RN in N as (_ & _ & N).
        * left. apply (explicit_iff H (view o) path t PB GS SX W). exists path', e. split_and!; try done.
          unfold p in E0. by rewrite E0.
      + exfalso. destruct (execute_gone C h H sl PB GS o W calls OK o1 ps X p true) as (_ & Y & _); [done| | |].
        * intros c I. pose proof (OK c I) as K. destruct c; cbn [spares]; try done.
          -- by left.
          -- intros Y. apply F, list.Exists_exists. by eexists.
          -- intros Y. apply F, list.Exists_exists. by eexists.
          -- rewrite loc_chunk. unfold p. rewrite child_meta. intros Y. apply app_inv_head in Y. discriminate.
        * intros _. by apply lacks_view.
        * rewrite Y in E; done.
  Qed.
  (** A document that nobody removes. *)
  Lemma way_kept n o1 : R o1 -> lasting_child H (view o) calls path n ->
    forall path' e, is_node_ext e -> plain path' -> pieces path' = pieces path ++ [n] ->
    file_at (view o) (D ++ [doc H n e]) <> None -> file_at (view o1) (D ++ [doc H n e]) <> None.
  Proof.
    intros [ps X] [_ NR] path' e IE P' E F. rewrite <- (child_loc H path t GS SX n path' e) in * by done.
    destruct (file_at (view o) (nloc H e path')) as [c0|] eqn:E0; [|done].
    destruct (kept _ (nloc_ne H GS path' e IE) C h H sl PB GS o calls o1 ps OK) as [_ K]; [| |done|].
    - intros path2 m pos I Y. symmetry in Y. revert Y. rewrite loc_chunk. destruct (nloc_meta H GS e path' IE) as [r ->].
      intros Y. apply app_inv_head in Y. discriminate.
    - intros path2 ord fuel I. pose proof (OK _ I) as (O1 & O2).
      assert (forall e', is_node_ext e' -> nloc H e' path2 <> nloc H e path') as NN.
      { intros e' IE' Y. apply loc_node_inj in Y as [Y _]; [|first [done|by apply GS]..]. apply (NR _ path2 I); [by rewrite Y|done]. }
      split_and!; [apply (NN GX); by right|apply (NN AX); by left|].
      intros [k Y]. destruct (nloc_meta H GS e path' IE) as [r Z]. rewrite Z, <- app_assoc in Y. apply app_inv_head in Y. discriminate.
    - destruct (K c0 E0) as [x ->]. done.
  Qed.

  Theorem listing_way o' ps : executes C h H sl o calls o' ps ->
    forall i ord a, calls !! i = Some (KListNodes path ord) -> any_order ord -> returned ps i a ->
    exists l, a = YNames (Ok l) /\ StronglySorted string_lt l
    /\ (forall x, child_dir H (view o) path x -> x ∈ l)
    /\ (forall n, lasting_child H (view o) calls path n -> take (length n - length sfx)%nat n ∈ l)
    /\ (forall x, x ∈ l ->
          child_dir H (view o) path x \/ (exists c, c ∈ calls /\ creates_below c path x)
          \/ exists n, x = take (length n - length sfx)%nat n
               /\ (explicit_child H (view o) path n \/ exists c, c ∈ calls /\ creates_child c path n)).
  Proof.
    intros X i ord a E ORD RT.
    assert (forall fin : unit -> reply -> Prop,
      follows wpre (wnxt R) fin tt (p_call C h H sl (KListNodes path ord)) -> fin tt a) as G.
    { intros fin F. by eapply execute_sees. }
    apply (G (fun _ a => exists l, a = YNames (Ok l) /\ StronglySorted string_lt l
    /\ (forall x, child_dir H (view o) path x -> x ∈ l)
    /\ (forall n, lasting_child H (view o) calls path n -> take (length n - length sfx)%nat n ∈ l)
    /\ (forall x, x ∈ l ->
          child_dir H (view o) path x \/ (exists c, c ∈ calls /\ creates_below c path x)
          \/ exists n, x = take (length n - length sfx)%nat n
               /\ (explicit_child H (view o) path n \/ exists c, c ∈ calls /\ creates_child c path n)))). clear G.
    cbn [p_call]. unfold map_reply, p_list_nodes.
    pose proof (sees_list_dir R way_wf ord ORD base kp PB (plain_kp path PP)) as SL. rewrite (loc_kp H path) in SL.
    specialize (SL way_D).
    unfold ptry. eapply (follows_bind _ _ (fun _ r => exists L, r = node_names H (h_prof h) path
        (map (fun e => kp ++ e.1) (filter (fun e => e.2 = false) L), map (fun e => kp ++ e.1) (filter (fun e => e.2 = true) L))
      /\ NoDup (map fst L)
      /\ (forall x b, (x, b) ∈ L -> exists o nd, R o /\ node_at (view o) (D ++ [x]) = Some nd /\ is_dir_node nd = b)
      /\ (forall x b, (forall o, R o -> exists nd, node_at (view o) (D ++ [x]) = Some nd /\ is_dir_node nd = b) -> (x, b) ∈ L))).
    { eapply follows_bind; [exact SL|]. intros [] r (L & -> & A). cbn [follows]. by exists L. }
    clear SL. intros [] r (L & -> & ND & SO & CO). cbn [follows].
    destruct (names_ok (h_prof h) H path t PB GS SX PP PL (view o) W RN DD L ND) as (l & EN & SS & EL).
    - intros f I. destruct (SO f false I) as (o1 & nd & RO & N & B). destruct nd as [|c]; [discriminate B|].
      destruct (way_file f o1 c RO) as (n & path' & e & Y1 & Y2 & Y3 & Y4 & Y5 & Y6); [unfold file_at; by rewrite N|].
      split; [exact Y5|]. exists n, path', e. do 4 (split; [assumption|]). destruct Y6 as [Y6|(c' & Y6 & Y7)]; [exact (L1 n Y6)|exact (L2 c' n Y6 Y7)].
    - intros x I. destruct (SO x true I) as (o1 & nd & RO & N & B). destruct nd as [|c]; [|discriminate B].
      destruct (way_new_dir x o1 RO N) as [Y|(c & Y1 & Y2)].
      + unfold child_dir in Y. rewrite node_at_ne in Y by by destruct D. by apply RN in Y.
      + pose proof (SN c Y1) as S. destruct c; cbn [creates_below short_names] in Y2, S; try (exfalso; exact Y2).
        all: destruct Y2 as (n & k & Y2); rewrite Y2 in S.
        all: assert (x ∈ pieces path0) as XI by (rewrite Y2, elem_of_app; right; by left).
        all: pose proof (pieces_nj path0) as F1; pose proof (pieces_noslash path0) as F2;
             rewrite list.Forall_forall in F1, F2; specialize (F1 x XI); specialize (F2 x XI).
        all: rewrite <- Y2 in S; specialize (S _ XI); pose proof (lenZ_nonneg sfx).
        all: split; [intros Z; rewrite Z in F1; discriminate F1|split; [exact F2|lia]].
    - exists l. split; [by rewrite EN|]. split; [exact SS|]. split; [|split].
      + intros x Y. apply EL. left. apply CO. intros o1 RO. exists Dir. split; [|reflexivity].
        unfold child_dir in Y. rewrite child_meta in *. by apply way_dir.
      + intros n Y. apply EL. right. pose proof Y as [Y1 _].
        apply (explicit_iff H (view o) path t PB GS SX W) in Y1 as (path' & e & Z1 & Z2 & Z3 & Z4).
        exists n, e, path'. do 3 (split; [assumption|]). split; [|reflexivity]. apply CO. intros o1 RO.
        pose proof (way_kept n o1 RO Y path' e Z1 Z2 Z3 Z4) as F. unfold file_at in F.
        destruct (node_at (view o1) (D ++ [doc H n e])) as [[|c]|]; [by destruct F| |by destruct F]. exists (File c). split; reflexivity.
      + intros x [Y|(n & e & path' & Z1 & Z2 & Z3 & Z4 & ->)]%EL.
        * destruct (SO x true Y) as (o1 & nd & RO & N & B). destruct nd as [|c]; [|discriminate B].
          destruct (way_new_dir x o1 RO N) as [Q|Q]; auto.
        * right. right. exists n. split; [reflexivity|]. destruct (SO _ false Z4) as (o1 & nd & RO & N & B). destruct nd as [|c]; [discriminate B|].
          destruct (way_file (doc H n e) o1 c RO) as (n' & path2 & e' & Y1 & Y2 & Y3 & Y4 & Y5 & Y6); [unfold file_at; by rewrite N|].
          assert (n = n') as ->; [|exact Y6]. unfold doc in Y4.
          assert ((n ++ dot :: e) ++ sfx = (n' ++ dot :: e') ++ sfx) as Y7 by (rewrite <- !app_assoc; exact Y4).
          apply app_inv_tail in Y7. clear Y4. rename Y7 into Y4. apply app_inj_2 in Y4 as [-> _]; [reflexivity|]. cbn [length]. by rewrite !node_ext_len.
  Qed.
End Listing.

Lemma group_stays C h H sl : plain (hy_base H) -> good_suffix (ep_suffix (hy_ep H)) ->
  forall path o, wf_fs (view o) -> node_at (view o) (meta_dir H path) = Some Dir ->
  forall calls, (forall c, c ∈ calls -> call_ok c) ->
  forall o' ps, executes C h H sl o calls o' ps -> node_at (view o') (meta_dir H path) = Some Dir.
Proof.
  intros PB GS path o W E calls OK o' ps X.
  by apply (execute_dir (B "root" :: pieces path) true C h H sl PB GS o W calls OK o' ps X).
Qed.
