(** Files that no process removes stay (C43, C45). *)
From Verif Require Import BaseFacts PathFacts KeyFacts FSFacts Spec SpecMeta SpecHier HierFacts OpsFacts.
From Verif Require Import Sys SpecConc SysFacts CrashFacts ConcFacts ConcOps ConcChunk ConcMeta.
Local Open Scope Z_scope.

Section Keep.
  Context (p : fpath) (NE : p <> []).

  (** The session state: has the process seen the file? *)
  Definition hpre (T : Type) (st : bool) (c : sys T) : Prop :=
    match c with
    | SUnlink cs => exists q, cs = map Normal q /\ q <> p
    | _ => True
    end.
  Definition hnxt (T : Type) (st : bool) (c : sys T) : T -> bool -> Prop :=
    match c in sys T return T -> bool -> Prop with
    | SIsFile cs => fun x st' => st' = st || (x && bool_decide (cs = map Normal p))
    | SOpenW cs => fun x st' =>
        st' = st || match x with Ok _ => bool_decide (cs = map Normal p) | _ => false end
    | SIsDir _ | SExists _ => fun _ st' => st' = st
    | SMkdir _ | SUnlink _ => fun _ st' => st' = st
    | SOpenR _ _ => fun _ st' => st' = st
    | SLock _ _ | STrunc _ | SClose _ => fun _ st' => st' = st
    | SWrite _ _ _ => fun _ st' => st' = st
    | SRead _ _ _ => fun _ st' => st' = st
    | SStat _ | SReadDir _ | SRmdir _ => fun _ st' => st' = st
    end.
  Local Notation fol := (follows hpre hnxt).

  Definition has (o : os) : Prop := exists j, o_tree o !! p = Some (DFile j).
  Lemma has_link o q e : has o -> o_tree o !! q = None -> has (link o q e).
  Proof.
    intros [j E] N. exists j. cbn. rewrite lookup_insert_ne; [done|]. intros ->. congruence.
  Qed.
  Lemma tree_none o q : node_at (view o) q = None -> o_tree o !! q = None.
  Proof.
    intros E. assert (q <> []) as Q by by intros ->. rewrite node_at_ne, view_lookup in E by done.
    by destruct (o_tree o !! q).
  Qed.

  Lemma has_step {T} (c : sys T) o o' x st : (st = true -> has o) -> hpre T st c -> sys_step c o = Some (o', x) ->
    exists st', hnxt T st c x st' /\ (st' = true -> has o') /\ (has o -> has o').
  Proof.
    intros I P E. destruct c; cbn [sys_step] in E; cbn [hpre] in P; cbn [hnxt].
    - injection E as <- <-. eexists. split; [reflexivity|]. split; [|done].
      intros [X|[X1 X2]%andb_true_iff]%orb_true_iff; [by apply I|]. apply bool_decide_eq_true in X2 as ->.
      unfold path_is_file, stat in X1. destruct (walk (view o) [] (map Normal p)) as [r|e|] eqn:W; [|done..].
      apply walk_normal_target in W as ->. cbn [app] in X1.
      rewrite node_at_ne, view_lookup in X1 by done. unfold has. destruct (o_tree o !! p) as [[|j]|]; try done. by exists j.
    - injection E as <- <-. by exists st.
    - injection E as <- <-. by exists st.
    - exists st. split; [done|]. injection E as E.
      assert (has o -> has o'); [|naive_solver]. intros HO.
      destruct (walk _ _ _) as [q|e|]; [|by injection E as <- <-..].
      destruct (node_at (view o) q) eqn:N; [by injection E as <- <-|].
      destruct (is_dir_at _ _); injection E as <- <-; [|done]. apply has_link; [done|by apply tree_none].
    - eexists. split; [reflexivity|]. injection E as E.
      destruct (walk (view o) [] cs) as [q|e|] eqn:W.
      2-3: injection E as <- <-; rewrite orb_false_r; auto.
      destruct (decide (q = [])) as [->|Q].
      { injection E as <- <-. rewrite orb_false_r. auto. }
      assert ((o_tree o !! q = Some DDir /\ o' = o /\ x = Err Other) \/
              (exists i, o_tree o !! q = Some (DFile i) /\ o' = open_fd o i) \/
              (o_tree o !! q = None /\ exists i, o' = open_fd (link (new_inode o) q (DFile i)) i) \/
              (o' = o /\ x = Err NotFound)) as CS.
      { destruct q as [|a q']; [done|]. destruct (o_tree o !! (a :: q')) as [[|j]|] eqn:ET.
        - injection E as <- <-. auto.
        - injection E as <- <-. right. left. by exists j.
        - destruct (is_dir_at _ _); injection E as <- <-; [|by auto]. right. right. left. split; [done|]. by eexists. }
      assert (has o -> has o') as MO.
      { intros [j HO]. destruct CS as [(_ & -> & _)|[(i & _ & ->)|[(N & i & ->)|(-> & _)]]]; try by exists j.
        exists j. cbn. rewrite lookup_insert_ne; [done|]. intros ->. congruence. }
      split; [|done]. intros [X|X]%orb_true_iff; [by apply MO, I|].
      destruct x as [fd|e|]; try done. apply bool_decide_eq_true in X as ->. apply walk_normal_target in W as ->.
      cbn [app] in *. destruct CS as [(_ & _ & ?)|[(i & HO & ->)|[(N & i & ->)|(_ & ?)]]]; [done| | |done].
      + by exists i.
      + exists i. cbn. by rewrite lookup_insert.
    - exists st. split; [done|]. injection E as E. assert (o_tree o' = o_tree o) as X.
      { destruct (walk _ _ _) as [q|e|]; [|by injection E as <- <-..].
        destruct (node_at _ _) as [[|c]|].
        - destruct dir_ok; by injection E as <- <-.
        - destruct (o_tree o !! q) as [[|j]|]; by injection E as <- <-.
        - by injection E as <- <-. }
      unfold has. by rewrite X.
    - exists st. split; [done|]. destruct (o_fds o !! fd); [|done]. destruct (lock_conflict _ _ _); [done|]. by injection E as <- <-.
    - exists st. split; [done|]. destruct (o_fds o !! fd); [|done]. by injection E as <- <-.
    - exists st. split; [done|]. destruct (o_fds o !! fd); [|done]. injection E as E.
      destruct (bool_decide _ && _); by injection E as <- <-.
    - exists st. split; [done|]. destruct (o_fds o !! fd); [|done]. by injection E as <- <-.
    - exists st. split; [done|]. by injection E as <- <-.
    - exists st. split; [done|]. destruct P as (q & -> & N). injection E as E.
      assert (has o -> has o'); [|naive_solver]. intros [j HO].
      destruct (walk (view o) [] (map Normal q)) as [r|e|] eqn:W; [|injection E as <- <-; by exists j..].
      apply walk_normal_target in W as ->. cbn [app] in *.
      destruct (node_at _ _) as [[|]|]; injection E as <- <-; [by exists j| |by exists j].
      exists j. cbn. by rewrite lookup_delete_ne.
    - injection E as <- <-. by exists st.
    - injection E as <- <-. by exists st.
    - exists st. split; [done|]. injection E as E.
      assert (has o -> has o'); [|naive_solver]. intros [j HO].
      destruct (walk (view o) [] cs) as [r|e|] eqn:W; [|injection E as <- <-; by exists j..].
      destruct (node_at (view o) r) as [[|]|] eqn:N; [|injection E as <- <-; by exists j..].
      destruct (_ || _) eqn:EE; injection E as <- <-; [by exists j|].
      apply orb_false_iff in EE as [E1%bool_decide_eq_false _].
      exists j. cbn. rewrite lookup_delete_ne; [done|]. intros ->.
      by rewrite node_at_ne, view_lookup, HO in N by done.
  Qed.

  Definition hkeeps {A} (fin : nat -> bool -> A -> Prop) (c : os * list (proc A)) (sts : nat -> bool) : Prop :=
    (forall i, sts i = true -> has (fst c)) /\ (forall i q, snd c !! i = Some q -> fol (fin i) (sts i) q).
  Lemma csteps_has {A} (fin : nat -> bool -> A -> Prop) c c' : csteps c c' -> forall sts,
    hkeeps fin c sts -> exists sts', hkeeps fin c' sts' /\ (has (fst c) -> has (fst c')).
  Proof.
    induction 1 as [c|o ps i q o1 q1 c E P S IH]; intros sts [I F]; [by exists sts|]. cbn [fst snd] in *.
    pose proof (F i q E) as Fi. destruct q as [a|T call k]; cbn in P; [done|].
    destruct (sys_step call o) as [[o2 x]|] eqn:X; [|done]. injection P as <- <-. destruct Fi as [P1 P2].
    destruct (has_step call o o2 x (sts i) (I i) P1 X) as (st' & N1 & N2 & N3).
    destruct (IH (fun j => if decide (j = i) then st' else sts j)) as (sts' & K & M).
    - split; cbn [fst snd].
      + intros j. destruct (decide (j = i)) as [->|D]; [done|]. intros Y. by apply N3, (I j).
      + intros j q' E'. destruct (decide (j = i)) as [->|D].
        * rewrite list_lookup_insert in E' by by eapply lookup_lt_Some. injection E' as <-. by apply P2.
        * rewrite list_lookup_insert_ne in E' by done. by apply F.
    - exists sts'. split; [done|]. intros Y. by apply M, N3.
  Qed.

  (** ** The calls *)

  Definition hany {A} : bool -> A -> Prop := fun _ _ => True.
  Lemma h_try {A D} (Q : bool -> res D -> Prop) (q : proc (res A)) (f : A -> proc (res D)) st :
    fol hany st q -> (forall st a, fol Q st (f a)) -> (forall st e, Q st (Err e)) -> (forall st, Q st Panic) ->
    fol Q st (ptry q f).
  Proof. intros F N N1 N2. eapply follows_try; [exact F| |done|done]. intros st' a _. apply N. Qed.
  Lemma h_mkdir_all cs n : forall st, fol hany st (p_mkdir_all cs n).
  Proof.
    induction n as [|n IH]; intros st; [done|]. cbn [p_mkdir_all follows hpre hnxt]. split; [done|].
    intros r st' ->.
    assert (forall st here e, fol hany st (Call (SIsDir here) (fun d => Ret (if d : bool then Ok tt else e)))) as OR by done.
    destruct r as [[]|e|]; [done| |done]. destruct e; try apply OR. apply h_try; [apply IH| |done|done].
    intros st2 []. cbn [follows hpre hnxt]. split; [done|]. intros r st3 ->. by destruct r.
  Qed.
  Lemma h_write_all fuel fd : forall st off b, fol (fun st' _ => st' = st) st (p_write_all fuel fd off b).
  Proof.
    induction fuel as [|f IH]; intros st off b; [by destruct b|]. destruct b as [|a b]; [done|].
    cbn [p_write_all follows hpre hnxt]. split; [done|]. intros x st' ->. by destruct x as [[|n]|e|].
  Qed.
  Lemma h_drop fd off buf r st : fol (fun st' _ => st' = st) st (p_drop fd off buf r).
  Proof.
    unfold p_drop. eapply follows_bind; [apply h_write_all|]. intros st' x ->. cbn. split; [done|]. by intros _ st' ->.
  Qed.
  Lemma h_buffered fd r ws : forall st off buf, fol (fun st' _ => st' = st) st (p_buffered fd off buf ws r).
  Proof.
    induction ws as [|w ws IH]; intros st off buf; cbn [p_buffered]; [apply h_drop|].
    assert (forall off buf, fol (fun st' _ => st' = st) st
        (if lenZ w >=? BUF_CAP
        then pbind (p_write_all (length w) fd off w) (fun x =>
               let '(off', _, rw) := x in
               match rw with
               | Ok _ => p_buffered fd off' buf ws r
               | e => p_drop fd off' buf e
               end)
        else p_buffered fd off (buf ++ w) ws r)) as PUT.
    { intros off' buf'. destruct (lenZ w >=? BUF_CAP); [|apply IH]. eapply follows_bind; [apply h_write_all|].
      intros st' [[off2 rest] rw] ->. destruct rw; [apply IH|apply h_drop..]. }
    cbv zeta. destruct (lenZ w >? BUF_CAP - lenZ buf); [|apply PUT].
    eapply follows_bind; [apply h_write_all|]. intros st' [[off2 rest] rf] ->. destruct rf; [apply PUT|apply h_drop..].
  Qed.
  Lemma h_read_all fd rs : forall st off acc, fol hany st (p_read_all fd off rs acc).
  Proof.
    induction rs as [|n rs IH]; intros st off acc; cbn [p_read_all follows hpre hnxt]; (split; [done|]); intros x st' ->; [done|].
    case_bool_decide; [done|]. apply IH.
  Qed.

  Context (base : bytes) (PB : plain base).
  Lemma h_exists key st : plain key ->
    fol (fun st' r => r = Ok true -> loc base key = p -> st' = true) st (p_exists base key).
  Proof.
    intros PK. unfold p_exists. rewrite key_comps_plain by done. cbn [pres follows hpre hnxt]. split; [done|].
    intros b st' ->. intros [= ->] <-. by rewrite bool_decide_true, orb_true_r.
  Qed.
  Lemma h_any_exists key st : plain key -> fol hany st (p_exists base key).
  Proof. intros PK. eapply follows_weaken; [by apply h_exists|done]. Qed.
  Lemma h_get key rs st : plain key -> fol hany st (p_get base key rs).
  Proof.
    intros PK. unfold p_get. rewrite key_comps_plain by done. cbn [pres follows hpre hnxt]. split; [done|].
    intros b st' _. destruct b; [|done]. unfold ptry. cbn [pbind follows hpre hnxt]. split; [done|].
    intros r st2 ->. destruct r as [fd|e|]; [|done|done]. cbn [follows hpre hnxt]. split; [done|]. intros _ st3 ->.
    eapply follows_bind; [apply h_read_all|]. intros st4 c _. cbn. done.
  Qed.
  Lemma h_set key ws r st : plain key ->
    fol (fun st' x => x = Ok tt -> loc base key = p -> st' = true) st (p_set base key ws r).
  Proof.
    intros PK. unfold p_set. rewrite key_comps_plain by done. cbn [pres]. apply h_try; [| |done|done].
    { destruct (map Normal (loc base key)); [done|]. cbn [follows hpre hnxt]. split; [done|]. intros b st' ->.
      destruct b; [done|]. apply h_mkdir_all. }
    intros st1 _. unfold ptry. cbn [pbind follows hpre hnxt]. split; [done|]. intros x st2 ->.
    destruct x as [fd|e|]; [|done|done]. cbn [follows hpre hnxt]. split; [done|]. intros _ st3 ->. split; [done|].
    intros _ st3 ->. eapply follows_weaken; [apply h_buffered|]. intros st4 x -> _ <-.
    by rewrite bool_decide_true, orb_true_r.
  Qed.
  Lemma h_any_set key ws r st : plain key -> fol hany st (p_set base key ws r).
  Proof. intros PK. eapply follows_weaken; [by apply h_set|done]. Qed.
  Lemma h_erase key st : plain key -> loc base key <> p -> fol hany st (p_erase base key).
  Proof.
    intros PK N. unfold p_erase. rewrite key_comps_plain by done. cbn [pres follows hpre hnxt]. split; [done|].
    intros b st' ->.
    assert (forall st, fol hany st (Call (SExists (map Normal (loc base key))) (fun b => Ret (Ok (negb b))))) as FI by done.
    destruct b; [|apply FI]. unfold ptry. cbn [pbind follows hpre hnxt]. split; [done|].
    intros x st2 ->. destruct x as [fd|e|]; [|done|done]. cbn [follows hpre hnxt]. split; [done|].
    intros _ st3 ->. split; [by eexists|]. intros r st3 ->. split; [done|]. intros _ st4 ->. destruct r; cbn [pres]; [apply FI|done|done].
  Qed.
  Lemma h_each {A} (f : A -> proc (res unit)) es : (forall e st, fol hany st (f e)) -> forall st, fol hany st (p_each f es).
  Proof. intros F. induction es as [|e es IH]; intros st; [done|]. by apply h_try. Qed.
  Lemma h_rm_tree ord (q0 : fpath) : ~ q0 `prefix_of` p -> forall fuel q dir st, q0 `prefix_of` q ->
    fol hany st (p_rm_tree ord fuel (map Normal q) dir).
  Proof.
    intros N fuel. induction fuel as [|fuel IH]; intros q dir st Q; [done|]. cbn [p_rm_tree]. destruct dir.
    - apply h_try; [done| |done|done]. intros st1 es. apply h_try; [|done|done|done].
      apply h_each. intros e st2. change [Normal e.1] with (map Normal [e.1]). rewrite <- map_app.
      apply IH. by apply prefix_app_r.
    - apply h_try; [done| |done|done]. intros st1 fd. cbn [follows hpre hnxt]. split; [done|]. intros _ st2 ->.
      split; [|done]. exists q. split; [done|]. by intros ->.
  Qed.
  Lemma h_erase_prefix ord fuel key st : plain key -> ~ loc base key `prefix_of` p ->
    fol hany st (p_erase_prefix ord fuel base key).
  Proof.
    intros PK N. unfold p_erase_prefix. rewrite key_comps_plain by done. cbn [pres follows hpre hnxt]. split; [done|].
    intros b st' ->. destruct b; [|done]. cbn [follows hpre hnxt]. split; [done|]. intros [dir|] st1 ->; [|done].
    apply h_try; [by apply (h_rm_tree ord (loc base key))|done..].
  Qed.
  Lemma h_stats cs es : forall st, fol hany st (p_stats cs es).
  Proof.
    induction es as [|e es IH]; intros st; [done|]. cbn [p_stats follows hpre hnxt]. split; [done|]. intros d st' ->.
    eapply follows_bind; [apply IH|]. done.
  Qed.
End Keep.

Section Calls.
  Context (p : fpath) (NE : p <> []) (C : codec) (h : host) (H : hier) (sl : bytes -> list bytes).
  Context (PB : plain (hy_base H)) (GS : good_suffix (ep_suffix (hy_ep H))).
  Local Notation base := (hy_base H).
  Local Notation fol := (follows (hpre p) (hnxt p)).

  (** A successful call that creates or writes the file leaves it there. *)
  Definition makes (c : call) : Prop :=
    match c with
    | KCreateArray path _ => loc base (akey H path) = p
    | KCreateGroup path => loc base (gkey H path) = p
    | KWriteChunk _ path m ck _ => loc base (get_chunk_key path m (ck_pos ck)) = p
    | _ => False
    end.
  Definition hfin (c : call) (st : bool) (a : reply) : Prop := a = YUnit (Ok tt) -> makes c -> st = true.
  Lemma h_reply {A} c (f : A -> reply) q st : ~ makes c -> fol hany st q -> fol (hfin c) st (map_reply f q).
  Proof. intros N F. eapply follows_bind; [exact F|]. by intros st' a _ _ ?. Qed.
  Lemma h_unit c q st : fol (fun st' x => x = Ok tt -> makes c -> st' = true) st q -> fol (hfin c) st (map_reply YUnit q).
  Proof. intros F. eapply follows_bind; [exact F|]. intros st' a X [= ->] M. by apply X. Qed.
  Lemma h_key e path : is_node_ext e -> plain path -> plain (metadata_key e (ep_suffix (hy_ep H)) path).
  Proof. intros E P. by apply (nloc_plain H GS). Qed.
  Lemma h_node_key path st : plain path ->
    fol (fun _ r => forall k, r = Ok k -> k = akey H path \/ k = gkey H path) st (p_node_key H path).
  Proof.
    intros P. unfold p_node_key. apply h_try; [apply h_any_exists; first [done|apply h_key; [by left|done]]| |done|done].
    intros st1 [|]; [cbn; naive_solver|]. apply h_try; [apply h_any_exists; first [done|apply h_key; [by right|done]]| |done|done].
    intros st2 [|]; cbn; naive_solver.
  Qed.

  Lemma h_call c st : call_ok c -> (forall path m pos, c = KDeleteChunk path m pos -> loc base (get_chunk_key path m pos) <> p) ->
    (forall path ord fuel, c = KRemove path ord fuel -> loc base (gkey H path) <> p /\ loc base (akey H path) <> p
       /\ ~ (pieces base ++ B "data" :: B "root" :: pieces path) `prefix_of` p) ->
    fol (hfin c) st (p_call C h H sl c).
  Proof.
    intros K D R. assert (is_node_ext AX) as IA by by left. assert (is_node_ext GX) as IG by by right.
    assert (forall path k, plain path -> k = akey H path \/ k = gkey H path -> plain k) as PK.
    { intros path k P [->| ->]; [by apply (h_key AX)|by apply (h_key GX)]. }
    destruct c; cbn [call_ok] in K; cbn [p_call].
    - apply h_reply; [by intros []|]. apply h_try; [apply h_get; first [done|by apply h_key]|done..].
    - apply h_reply; [by intros []|]. eapply follows_try; [by apply h_node_key| |done|done].
      intros st1 k X. apply h_try; [|done..]. apply h_get; first [done|eapply PK; [done|by apply X]].
    - apply h_reply; [by intros []|]. eapply follows_try; [by apply h_node_key| |done|done].
      intros st1 k X. assert (plain k) as PK' by (eapply PK; [done|by apply X]). apply h_try; [by apply h_get| |done|done].
      intros st2 x. destruct (of_option NotFound x) as [text| |]; cbn [pres]; [|done..].
      destruct (from_text as_map text) as [d| |]; cbn [pres]; [|done..]. cbv zeta.
      destruct (json_eqb (JObj (merge_doc d attrs)) (JObj d)); [done|]. by apply h_any_set.
    - apply h_unit. unfold p_create_group. apply h_try; [apply h_any_exists; first [done|by apply h_key]| |done|done].
      intros st1 [|]; [done|]. eapply follows_try; [apply h_exists; first [done|by apply h_key]| |done|done].
      intros st2 a X. destruct a; [cbn; by auto|]. eapply follows_weaken; [apply h_set; first [done|by apply h_key]|]. done.
    - apply h_unit. unfold p_create_array. apply h_try; [apply h_any_exists; first [done|by apply h_key]| |done|done].
      intros st1 [|]; [done|]. apply h_try; [apply h_any_exists; first [done|by apply h_key]| |done|done].
      intros st2 [|]; [done|]. eapply follows_weaken; [apply h_set; first [done|by apply h_key]|]. done.
    - destruct K as (K1 & K2 & K3). apply h_reply; [by intros []|]. unfold p_read_chunk.
      destruct (in_bounds _ _ _ ≫= _) as [x| |]; cbn [pres]; [|done..].
      apply h_try; [|done..]. apply h_get; first [done|apply plain_chunk_key; [done|apply K2|done]].
    - destruct K as (K1 & K2 & K3). apply h_unit. unfold p_write_chunk.
      eapply follows_weaken; [apply h_set; first [done|apply plain_chunk_key; [done|apply K2|done]]|]. done.
    - destruct K as (K1 & K2 & K3). apply h_reply; [by intros []|].
      apply h_erase; first [done|apply plain_chunk_key; [done|apply K2|done]|by eapply D].
    - destruct K as (K1 & K2). destruct (R _ _ _ eq_refl) as (R1 & R2 & R3). apply h_reply; [by intros []|].
      unfold p_remove. apply h_try; [by apply h_erase; first [done|by apply (h_key GX)]| |done|done]. intros st1 _.
      apply h_try; [by apply h_erase; first [done|by apply (h_key AX)]| |done|done]. intros st2 _.
      apply h_try; [apply h_erase_prefix; [done|by apply data_key_plain|by rewrite data_key_loc]|done..].
    - apply h_reply; [by intros []|]. unfold p_list_nodes. apply h_try; [|done..]. unfold p_list_dir.
      destruct (key_comps _ _) as [cs| |]; cbn [pres]; [|done..]. apply h_try; [done| |done|done]. intros st1 es.
      eapply follows_bind; [apply h_stats|done].
  Qed.

  Theorem kept o calls o' ps : (forall c, c ∈ calls -> call_ok c) ->
    (forall path m pos, KDeleteChunk path m pos ∈ calls -> loc base (get_chunk_key path m pos) <> p) ->
    (forall path ord fuel, KRemove path ord fuel ∈ calls -> loc base (gkey H path) <> p /\ loc base (akey H path) <> p
       /\ ~ (pieces base ++ B "data" :: B "root" :: pieces path) `prefix_of` p) ->
    executes C h H sl o calls o' ps ->
    (forall i c, calls !! i = Some c -> returned ps i (YUnit (Ok tt)) -> makes c ->
      exists x, file_at (view o') p = Some x) /\
    (forall x, file_at (view o) p = Some x -> exists x, file_at (view o') p = Some x).
  Proof.
    intros OK D DR X. assert (has p o' -> exists x, file_at (view o') p = Some x) as V.
    { intros [j E]. unfold file_at. rewrite (view_of_tree o' p j) by done. by eexists. }
    destruct (csteps_has p NE (fun i st a => forall c, calls !! i = Some c -> hfin c st a) _ _ X (fun _ => false)) as (sts & [I F] & M).
    - split; [done|]. cbn [snd]. intros i q E. rewrite list_lookup_fmap in E.
      destruct (calls !! i) as [c|] eqn:EC; [|done]. injection E as <-.
      apply elem_of_list_lookup_2 in EC. eapply follows_weaken; [apply h_call|].
      + by apply OK.
      + intros path m pos ->. by eapply D.
      + intros path ord fuel ->. by eapply DR.
      + intros st a Y c' [= <-]. done.
    - cbn [fst snd] in *. split.
      + intros i c E R MK. apply V, (I i). pose proof (F i _ R c E) as Y. cbn in Y. by apply Y.
      + intros x E. apply V, M. unfold file_at in E. destruct (node_at (view o) p) as [[]|] eqn:N; try done.
        rewrite node_at_ne, view_lookup in N by done. unfold has. destruct (o_tree o !! p) as [[|j]|]; try done. by exists j.
  Qed.
End Calls.

(** A chunk that was written and that nobody deletes is there at the end. *)
Lemma write_stays C h H sl t path m pos o calls o' ps :
  plain (hy_base H) -> good_suffix (ep_suffix (hy_ep H)) -> plain path -> good_sep (am_sep m) -> pos_ok pos ->
  in_bounds (h_prof h) m pos = Ok true -> lossless C (am_comp m) -> calm o -> wf_fs (view o) ->
  (forall c, c ∈ calls -> call_ok c) -> writers_agree C h calls t path m pos ->
  executes C h H sl o calls o' ps ->
  (forall c, c ∈ calls -> ~ deletes_chunk c path pos) ->
  forall i c, calls !! i = Some c -> writes_chunk c path pos -> returned ps i (YUnit (Ok tt)) -> all_returned ps ->
  forall rs, exists r, answers o' (p_read_chunk H C h t path m pos rs) r /\ r <> Ok None /\
    whole_chunk C h H t path m pos o calls r.
Proof.
  intros PB GX PP GS Q IB LL CA W OK AG X ND i c E WC R AR rs.
  destruct (chunk_interleave C h H sl t path m pos o calls PB GX PP GS Q IB LL CA W OK AG o' ps X) as (_ & W' & Y).
  destruct (Y AR) as (CA' & V & _).
  pose proof (P_ne H path m pos) as NE.
  destruct (kept _ NE C h H sl PB GX o calls o' ps OK) as [K _]; [| |done|].
  { intros path' m' pos' I E'. pose proof (OK _ I) as (O1 & O2 & O3). apply (ND _ I). cbn.
    by apply loc_chunk_inj in E'. }
  { intros path' ord fuel I. pose proof (OK _ I) as (O1 & O2). split_and!.
    - apply loc_node_chunk; [by right|apply GX].
    - apply loc_node_chunk; [by left|apply GX].
    - intros Z. apply below_chunk in Z; [|done..]. by apply (ND _ I). }
  destruct (K i c E R) as [x F].
  { destruct c; try done. cbn in WC |- *. destruct WC as [E1 E2].
    destruct (AG _ ltac:(by eapply elem_of_list_lookup_2) (conj E1 E2)) as (path' & data & ws' & E' & _).
    injection E' as -> -> -> -> ->. cbn [ck_pos]. by apply loc_chunk_pieces. }
  eexists. split; [by apply (read_after C h H t path m pos); [..|done|done]|]. rewrite F. split.
  - by destruct (decode_chunk C h t m x pos).
  - apply (cvals_whole C h H t path m pos o calls); try done. by apply V.
Qed.
