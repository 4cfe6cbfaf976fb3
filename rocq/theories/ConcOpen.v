(** Several processes open or create a hierarchy at the same time. *)
From Verif Require Import BaseFacts PathFacts KeyFacts FSFacts ListFacts Spec SpecMeta SpecHier ChunkFacts HierFacts OpsFacts.
From Verif Require Import JsonFacts MetaJsonFacts NodeFacts OpenFacts.
From Verif Require Import Sys SpecSys SpecConc SpecOpen SysFacts SysOps CrashFacts CrashOps CrashMeta CrashOpen ConcFacts ConcOps ConcChunk ConcWit.
Local Open Scope Z_scope.

(** What a process knows: how many of the directories exist; whether the file
    exists; what it has open ([true]: the file); how long the file at least is;
    whether it has opened the file to write it. *)
Record es := ES { e_k : nat; e_ex : bool; e_fd : option (bool * nat); e_n : nat; e_w : bool }.
Definition with_k (s : es) (k : nat) : es := ES k (e_ex s) (e_fd s) (e_n s) (e_w s).
Definition with_ex (s : es) (b : bool) : es := ES (e_k s) (e_ex s || b) (e_fd s) (e_n s) (e_w s).
Definition with_fd (s : es) (f : option (bool * nat)) (w : bool) : es := ES (e_k s) (e_ex s) f (e_n s) w.
Definition with_n (s : es) (n : nat) : es := ES (e_k s) (e_ex s) (e_fd s) (Nat.max (e_n s) n) (e_w s).

Lemma fresh_next o : os_ok o -> o_fds o !! o_next o = None /\ o_locks o !! o_next o = None /\ o_data o !! o_next o = None.
Proof. by apply (next_fresh [] (fun _ => True) (fun _ => True)). Qed.

Section Entry.
  (** The directory, the name of the file in it, and the content the file gets. *)
  Context (bs : fpath) (z T : bytes).
  Local Notation p := (bs ++ [z]).
  Local Notation P := (map Normal (bs ++ [z])).

  Lemma p_ne : p <> [].
  Proof. by destruct bs. Qed.

  Definition epre (X : Type) (st : es) (c : sys X) : Prop :=
    match c with
    | SIsFile _ | SIsDir _ | SExists _ | SStat _ | SReadDir _ => True
    | SMkdir cs => exists q, cs = map Normal q /\ q <> p
    | SOpenW cs => e_fd st = None /\ exists q, cs = map Normal q /\ ~ q `prefix_of` bs
    | SOpenR _ cs => e_fd st = None /\ exists q, cs = map Normal q
    | SLock fd _ | SRead fd _ _ => exists m, e_fd st = Some (m, fd)
    | STrunc fd => e_fd st = Some (false, fd)
    | SWrite fd off b => e_fd st = Some (false, fd) \/
        e_fd st = Some (true, fd) /\ (off <= e_n st)%nat /\ b `prefix_of` drop off T /\ (off <= length T)%nat
    | SClose fd => (exists m, e_fd st = Some (m, fd)) /\ (e_w st = true -> (length T <= e_n st)%nat)
    | SUnlink cs => exists q, cs = map Normal q /\ q <> p
    | SRmdir cs => exists q, cs = map Normal q /\ ~ q `prefix_of` bs
    end.
  Definition enxt (X : Type) (st : es) (c : sys X) : X -> es -> Prop :=
    match c in sys X return X -> es -> Prop with
    | SIsFile _ => fun _ st' => st' = st
    | SStat _ => fun _ st' => st' = st
    | SReadDir _ => fun _ st' => st' = st
    | SUnlink _ => fun _ st' => st' = st
    | SRmdir _ => fun _ st' => st' = st
    | SIsDir cs => fun x st' => st' = st /\
        forall i, (i <= e_k st)%nat -> (i <= length bs)%nat -> cs = map Normal (take i bs) -> x = true
    | SExists cs => fun x st' => (e_ex st = true -> cs = P -> x = true) /\
        st' = with_ex st (x && bool_decide (cs = P))
    | SMkdir cs => fun x st' => exists k, st' = with_k st k /\ (e_k st <= k)%nat /\
        forall i, (i <= length bs)%nat -> cs = map Normal (take i bs) ->
          match x with
          | Ok _ | Err AlreadyExists => (i <= k)%nat
          | Err NotFound => (S (e_k st) < i)%nat
          | _ => False
          end
    | SOpenW cs => fun x st' =>
        match x with
        | Ok fd => st' = with_ex (with_fd st (Some (bool_decide (cs = P), fd)) (bool_decide (cs = P))) (bool_decide (cs = P))
        | Err _ => st' = st /\ ~ (cs = P /\ (length bs <= e_k st)%nat)
        | Panic => False
        end
    | SOpenR dir_ok cs => fun x st' =>
        match x with
        | Ok fd => st' = with_ex (with_fd st (Some (bool_decide (cs = P), fd)) false) (bool_decide (cs = P))
        | Err e => st' = st /\ (cs = P -> dir_ok = false -> e_ex st = false /\ e = NotFound)
        | Panic => False
        end
    | SLock _ _ => fun _ st' => st' = st
    | STrunc _ => fun _ st' => st' = st
    | SWrite fd off b => fun x st' => exists n, x = Ok n /\ (b <> [] -> (0 < n)%nat) /\ (n <= length b)%nat /\
        (e_fd st = Some (false, fd) /\ st' = st \/ e_fd st = Some (true, fd) /\ st' = with_n st (off + n))
    | SRead fd off n => fun x st' =>
        e_fd st = Some (false, fd) /\ st' = st \/
        e_fd st = Some (true, fd) /\ exists c, c `prefix_of` T /\ (e_n st <= length c)%nat /\
          st' = with_n st (length c) /\
          x = match n with Some k => take (Nat.max 1 k) (drop off c) | None => drop off c end
    | SClose _ => fun _ st' => st' = with_fd st None false
    end.

  Record einv (o : os) (sts : nat -> es) : Prop := {
    v_ok : os_ok o;
    v_wf : wf_fs (view o);
    v_room : o_room o = None;
    v_up : forall i, file_at (view o) (take i bs) = None;
    v_k : forall k i, (i <= e_k (sts k))%nat -> (i <= length bs)%nat -> node_at (view o) (take i bs) = Some Dir;
    v_z : match o_tree o !! p with
          | None => forall k, e_ex (sts k) = false /\ e_n (sts k) = 0%nat
          | Some DDir => False
          | Some (DFile j) => exists c, o_data o !! j = Some c /\ c `prefix_of` T /\
              forall k, (e_n (sts k) <= length c)%nat
          end;
    v_fd : forall k m fd, e_fd (sts k) = Some (m, fd) -> exists i, o_fds o !! fd = Some i /\
              (m = true <-> o_tree o !! p = Some (DFile i));
    v_inj : forall k k' m m' fd, e_fd (sts k) = Some (m, fd) -> e_fd (sts k') = Some (m', fd) -> k = k';
    v_own : forall fd i, o_fds o !! fd = Some i -> exists k m, e_fd (sts k) = Some (m, fd)
  }.

  Definition eupd (sts : nat -> es) (k : nat) (st : es) : nat -> es :=
    fun k' => if decide (k' = k) then st else sts k'.
  Lemma eupd_same sts k st : eupd sts k st k = st.
  Proof. unfold eupd. by rewrite decide_True. Qed.
  Lemma eupd_ne sts k st k' : k' <> k -> eupd sts k st k' = sts k'.
  Proof. intros N. unfold eupd. by rewrite decide_False. Qed.

  (** The machine changes. *)
  Lemma einv_frame o o' sts : einv o sts -> os_ok o' -> wf_fs (view o') -> o_room o' = None ->
    o_tree o' !! p = o_tree o !! p -> (forall j, o_tree o !! p = Some (DFile j) -> o_data o' !! j = o_data o !! j) ->
    o_fds o' = o_fds o ->
    (forall i, file_at (view o') (take i bs) = None) ->
    (forall i, node_at (view o) (take i bs) = Some Dir -> node_at (view o') (take i bs) = Some Dir) ->
    einv o' sts.
  Proof.
    intros I K W R ET ED EF U N. split; try done.
    - intros k i L1 L2. by eapply N, v_k.
    - rewrite ET. pose proof (v_z _ _ I) as VZ. destruct (o_tree o !! p) as [[|j]|] eqn:E; [done| |done].
      by rewrite (ED j).
    - rewrite EF, ET. apply I.
    - apply I.
    - rewrite EF. apply I.
  Qed.
  (** A process learns something. *)
  Lemma einv_learn o sts k st : einv o sts -> e_fd st = e_fd (sts k) ->
    (forall i, (i <= e_k st)%nat -> (i <= length bs)%nat -> node_at (view o) (take i bs) = Some Dir) ->
    match o_tree o !! p with
    | Some (DFile j) => forall c, o_data o !! j = Some c -> (e_n st <= length c)%nat
    | _ => e_ex st = false /\ e_n st = 0%nat
    end -> einv o (eupd sts k st).
  Proof.
    intros I EF EK EZ. split; try apply I.
    - intros k'. unfold eupd. case_decide; [done|]. by apply I.
    - pose proof (v_z _ _ I) as VZ. destruct (o_tree o !! p) as [[|j]|]; [done| |].
      + destruct VZ as (c & D & PR & L). exists c. split_and!; [done..|]. intros k'. unfold eupd.
        case_decide; [by apply EZ|done].
      + intros k'. unfold eupd. case_decide; [done|done].
    - intros k' m fd. unfold eupd. case_decide; [subst|by apply I]. rewrite EF. apply I.
    - intros k1 k2 m1 m2 fd. unfold eupd. repeat case_decide; subst; rewrite ?EF; try done; apply I.
    - intros fd i F. destruct (v_own _ _ I fd i F) as (k' & m & E). exists k', m. unfold eupd.
      case_decide; [by subst; rewrite EF|done].
  Qed.
  Lemma einv_same o sts k : einv o sts -> einv o (eupd sts k (sts k)).
  Proof.
    intros I. apply einv_learn; [done|done|apply I|]. pose proof (v_z _ _ I) as VZ.
    destruct (o_tree o !! p) as [[|j]|]; [done| |done]. destruct VZ as (c & D & _ & L). intros c' D'.
    replace c' with c by congruence. done.
  Qed.
  (** A descriptor is opened. *)
  Lemma einv_open o sts k i m w : einv o sts -> e_fd (sts k) = None -> is_Some (o_data o !! i) ->
    (m = true <-> o_tree o !! p = Some (DFile i)) ->
    einv (open_fd o i) (eupd sts k (with_ex (with_fd (sts k) (Some (m, o_next o)) w) m)).
  Proof.
    intros I SF D M. pose proof (v_ok _ _ I) as K. destruct (fresh_next _ K) as (N1 & _ & _).
    assert (forall k' m', e_fd (sts k') <> Some (m', o_next o)) as NF.
    { intros k' m' E. destruct (v_fd _ _ I _ _ _ E) as (i' & F & _). congruence. }
    split.
    - by apply ok_open_fd.
    - rewrite view_open. apply I.
    - apply I.
    - rewrite view_open. apply I.
    - intros k' i'. rewrite view_open. unfold eupd. case_decide; [|apply I]. cbn. apply I.
    - cbn. pose proof (v_z _ _ I) as VZ. destruct (o_tree o !! p) as [[|j]|] eqn:E; [done| |].
      + destruct VZ as (c & D' & PR & L). exists c. split_and!; [done..|]. intros k'. unfold eupd.
        case_decide; [apply (L k)|done].
      + intros k'. unfold eupd. case_decide; [|done]. cbn. destruct (VZ k) as [-> ->]. split; [|done].
        destruct m; [|done]. exfalso. by pose proof (proj1 M eq_refl).
    - intros k' m' fd. unfold eupd. case_decide as X.
      + cbn. intros E. injection E as <- <-. exists i. by rewrite lookup_insert.
      + intros E. destruct (v_fd _ _ I _ _ _ E) as (i' & F & M'). exists i'. cbn.
        rewrite lookup_insert_ne; [done|]. intros <-. by apply NF in E.
    - intros k1 k2 m1 m2 fd. unfold eupd. repeat case_decide; subst; try done; cbn.
      + intros E E2. injection E as <- <-. by apply NF in E2.
      + intros E2 E. injection E as <- <-. by apply NF in E2.
      + apply I.
    - intros fd i' F. cbn in F. apply lookup_insert_Some in F as [[<- <-]|[N F]].
      + exists k, m. by rewrite eupd_same.
      + destruct (v_own _ _ I fd i' F) as (k' & m' & E). exists k', m'. rewrite eupd_ne; [done|].
        intros ->. congruence.
  Qed.
  Lemma einv_close o sts k m fd : einv o sts -> e_fd (sts k) = Some (m, fd) ->
    einv (close_fd o fd) (eupd sts k (with_fd (sts k) None false)).
  Proof.
    intros I E. split.
    - apply ok_close, I.
    - rewrite view_close. apply I.
    - apply I.
    - rewrite view_close. apply I.
    - intros k' i'. rewrite view_close. unfold eupd. case_decide; [|apply I]. cbn. apply I.
    - cbn. pose proof (v_z _ _ I) as VZ. destruct (o_tree o !! p) as [[|j]|]; [done| |].
      + destruct VZ as (c & D' & PR & L). exists c. split_and!; [done..|]. intros k'. unfold eupd.
        case_decide; [apply (L k)|done].
      + intros k'. unfold eupd. case_decide; [apply (VZ k)|done].
    - intros k' m' fd' E'. unfold eupd in E'. case_decide as X; [done|].
      destruct (v_fd _ _ I _ _ _ E') as (i' & F & M'). exists i'. cbn. split; [|done].
      rewrite lookup_delete_ne; [done|]. intros <-. by rewrite (v_inj _ _ I _ _ _ _ _ E' E) in X.
    - intros k1 k2 m1 m2 fd'. unfold eupd. repeat case_decide; subst; try done. apply I.
    - intros fd' i' F. cbn in F. apply lookup_delete_Some in F as [N F].
      destruct (v_own _ _ I fd' i' F) as (k' & m' & E'). exists k', m'. rewrite eupd_ne; [done|].
      intros ->. congruence.
  Qed.
  (** The file appears. *)
  Lemma einv_create o sts : einv o sts -> o_tree o !! p = None -> node_at (view o) bs = Some Dir ->
    einv (link (new_inode o) p (DFile (o_next o))) sts.
  Proof.
    intros I ET ND. pose proof (v_ok _ _ I) as K. destruct (fresh_next _ K) as (N1 & N2 & N3).
    assert (view (link (new_inode o) p (DFile (o_next o))) = <[p := File []]> (view o)) as EV by by apply view_create.
    assert (forall i, take i bs <> p) as NP.
    { intros i X. apply (f_equal length) in X. rewrite take_length, app_length in X. cbn in X. lia. }
    pose proof p_ne as NE. pose proof (v_z _ _ I) as VZ. rewrite ET in VZ. split.
    - by apply ok_create.
    - rewrite EV. apply wf_insert; [apply I|done|]. left. by rewrite node_at_ne, view_lookup, ET.
    - apply I.
    - intros i. rewrite EV. unfold file_at. rewrite node_at_insert, decide_False by done. apply (v_up _ _ I i).
    - intros k i L1 L2. rewrite EV, node_at_insert, decide_False by done. by eapply v_k.
    - cbn. rewrite lookup_insert. exists []. rewrite lookup_insert. split_and!; [done|apply prefix_nil|].
      intros k. by destruct (VZ k) as [_ ->].
    - intros k m fd E. destruct (v_fd _ _ I _ _ _ E) as (i & F & M). exists i. cbn. rewrite lookup_insert.
      split; [done|]. rewrite M, ET. split; [done|]. intros X. injection X as <-.
      apply (fds_lt _ _ _ K) in F as [_ F]. lia.
    - apply I.
    - apply I.
  Qed.
  (** The file grows. *)
  Lemma einv_write o sts k fd j c c' n : einv o sts -> e_fd (sts k) = Some (true, fd) -> o_fds o !! fd = Some j ->
    o_data o !! j = Some c -> c `prefix_of` c' -> c' `prefix_of` T -> (n <= length c')%nat ->
    einv (set_data o j c') (eupd sts k (with_n (sts k) n)).
  Proof.
    intros I E F D PC PT LN. destruct (v_fd _ _ I _ _ _ E) as (j' & F' & M).
    replace j' with j in M by congruence. clear F' j'. destruct M as [M _]. specialize (M eq_refl).
    pose proof (prefix_length _ _ PC) as LC.
    pose proof (v_z _ _ I) as VZ. rewrite M in VZ. destruct VZ as (c0 & D0 & _ & L).
    replace c0 with c in L by congruence. clear D0 c0.
    assert (wf_fs (view (set_data o j c'))) as W'.
    { eapply same_kind_wf; [|apply I]. intros q. apply kinds_set_data. }
    assert (forall i, node_at (view o) (take i bs) = Some Dir -> node_at (view (set_data o j c')) (take i bs) = Some Dir) as ND.
    { intros i X. destruct (decide (take i bs = [])) as [Y|Y]; [by rewrite Y|].
      rewrite node_at_ne, view_lookup in X |- * by done. cbn. by destruct (o_tree o !! take i bs) as [[|]|]. }
    split; try apply I.
    - apply ok_set_data; [apply I|by rewrite D].
    - done.
    - intros i. eapply same_kind_absent; [|by apply I]. intros r. apply kinds_set_data.
    - intros k' i L1 L2. apply ND. unfold eupd in L1. case_decide; [subst; cbn in L1|]; by eapply v_k.
    - cbn. rewrite M. exists c'. rewrite lookup_insert. split_and!; [done..|]. intros k'. unfold eupd.
      pose proof (L k'). case_decide; [subst; cbn|]; lia.
    - intros k' m fd'. unfold eupd. case_decide; [subst; cbn|]; apply I.
    - intros k1 k2 m1 m2 fd'. unfold eupd. repeat case_decide; subst; cbn; try done; apply I.
    - intros fd' i F'. destruct (v_own _ _ I fd' i F') as (k' & m' & E'). exists k', m'. unfold eupd.
      case_decide; [by subst|done].
  Qed.
  Lemma einv_other o sts k fd j c : einv o sts -> e_fd (sts k) = Some (false, fd) -> o_fds o !! fd = Some j ->
    einv (set_data o j c) sts.
  Proof.
    intros I E F. destruct (v_fd _ _ I _ _ _ E) as (j' & F' & M). replace j' with j in M by congruence.
    assert (o_tree o !! p <> Some (DFile j)) as NJ by (intros Y; by apply M in Y).
    eapply einv_frame; [done| | |apply I|done| |done| |].
    - apply ok_set_data; [apply I|]. by apply (ok_fds _ (v_ok _ _ I)) in F as [_ ?].
    - eapply same_kind_wf; [|apply I]. intros q. apply kinds_set_data.
    - intros i T0. cbn. apply lookup_insert_ne. intros <-. done.
    - intros i. eapply same_kind_absent; [|by apply I]. intros r. apply kinds_set_data.
    - intros i X. destruct (decide (take i bs = [])) as [Y|Y]; [by rewrite Y|].
      rewrite node_at_ne, view_lookup in X |- * by done. cbn. by destruct (o_tree o !! take i bs) as [[|]|].
  Qed.

  Lemma v_dir o sts : einv o sts -> forall i, o_tree o !! p = Some (DFile i) -> exists c, node_at (view o) p = Some (File c).
  Proof. intros I i E. eexists. apply view_of_tree; [apply p_ne|done]. Qed.
  Lemma take_not_p i : take i bs <> p.
  Proof. intros X. apply (f_equal length) in X. rewrite take_length, app_length in X. cbn in X. lia. Qed.
  Lemma p_not_up : ~ p `prefix_of` bs.
  Proof. intros X%prefix_length. rewrite app_length in X. cbn in X. lia. Qed.
  Lemma take_prefix i : take i bs `prefix_of` bs.
  Proof. exists (drop i bs). by rewrite take_drop. Qed.
  Lemma write_prefix (c b : bytes) off n : c `prefix_of` T -> (off <= length c)%nat -> b `prefix_of` drop off T ->
    (n <= length b)%nat ->
    c `prefix_of` write_at c off (take n b) /\ write_at c off (take n b) `prefix_of` T
    /\ (off + n <= length (write_at c off (take n b)))%nat.
  Proof.
    intros [r E] L [s E2] LN. unfold write_at. replace (off - length c)%nat with 0%nat by lia.
    cbn [replicate]. rewrite app_nil_r. rewrite E, drop_app_le in E2 by lia.
    assert (take off c ++ take n b ++ drop (off + length (take n b)) c = c \/
            exists r', take off c ++ take n b ++ drop (off + length (take n b)) c = c ++ take (off + n - length c) r
              /\ r' = r) as X.
    { rewrite take_length, (Nat.min_l n) by lia.
      assert (take n b = take n (drop off c ++ r)) as ->.
      { rewrite E2, take_app_le; [done|lia]. }
      destruct (decide (off + n <= length c)%nat) as [D|D].
      - left. rewrite take_app_le by (rewrite drop_length; lia).
        rewrite <- (drop_drop c n off). rewrite (take_drop n (drop off c)). apply take_drop.
      - right. exists r. split; [|done]. rewrite (drop_ge c (off + n)) by lia. rewrite app_nil_r, take_app_ge by (rewrite drop_length; lia).
        rewrite app_assoc, take_drop, drop_length. do 2 f_equal. lia. }
    assert (length (take off c ++ take n b ++ drop (off + length (take n b)) c) >= off + n)%nat as LL.
    { rewrite !app_length, !take_length. lia. }
    destruct X as [X|(r' & X & _)]; rewrite X in LL |- *; split_and!; try lia.
    - done.
    - rewrite E. by apply prefix_app_r.
    - by apply prefix_app_r.
    - rewrite E. apply prefix_app. exists (drop (off + n - length c) r). by rewrite take_drop.
  Qed.

  Theorem estep {X} (c : sys X) o o' x sts k : einv o sts -> epre X (sts k) c -> sys_step c o = Some (o', x) ->
    exists st', enxt X (sts k) c x st' /\ einv o' (eupd sts k st').
  Proof.
    intros I PR E. pose proof (v_ok _ _ I) as K. pose proof (v_wf _ _ I) as W. pose proof p_ne as NE.
    pose proof (einv_same _ _ k I) as SAME.
    destruct c; cbn [sys_step] in E; cbn [epre] in PR; cbn [enxt].
    - injection E as <- <-. by exists (sts k).
    - injection E as <- <-. exists (sts k). split; [|done]. split; [done|]. intros i L1 L2 ->.
      rewrite path_is_dir_plain by done. apply is_dir_at_true. by eapply (v_k _ _ I).
    - injection E as <- <-. eexists. split; [split; [|reflexivity]|].
      + intros EX ->. rewrite path_exists_plain by done. pose proof (v_z _ _ I) as VZ.
        destruct (o_tree o !! p) as [[|j]|] eqn:ET; [done| |].
        * destruct (v_dir _ _ I j ET) as [c ->]. done.
        * destruct (VZ k) as [Y _]. congruence.
      + apply einv_learn; [done|done|apply I|]. pose proof (v_z _ _ I) as VZ.
        destruct (o_tree o !! p) as [[|j]|] eqn:ET; [done| |].
        * destruct VZ as (c & D & _ & L). intros c' D'. replace c' with c by congruence. apply L.
        * destruct (VZ k) as [Y1 Y2]. cbn. rewrite Y1. split; [|done]. cbn.
          apply andb_false_iff. destruct (decide (cs = P)) as [->|N]; [left|right; by apply bool_decide_false].
          rewrite path_exists_plain by done. by rewrite node_at_ne, view_lookup, ET.
    - injection E as E. destruct PR as (q & -> & NP).
      assert (forall i, (i <= length bs)%nat -> q = take i bs -> walk (view o) [] (map Normal q) =
        if decide (q = []) then Ok [] else if is_dir_at (view o) (parent q) then Ok q else Err NotFound) as WK.
      { intros i L ->. case_decide as D; [by rewrite D|]. rewrite walk_nofile; [done|done|done| |done].
        intros j LJ. cbn [app]. rewrite take_take. apply (v_up _ _ I). }
      assert (forall e, (forall i, (i <= length bs)%nat -> q = take i bs -> e = NotFound /\ is_dir_at (view o) (parent q) = false) ->
        (o, Err e) = (o', x) -> exists st', (exists k0, st' = with_k (sts k) k0 /\ (e_k (sts k) <= k0)%nat /\
         (forall i, (i <= length bs)%nat -> map Normal q = map Normal (take i bs) ->
            match x with Ok _ | Err AlreadyExists => (i <= k0)%nat | Err NotFound => (S (e_k (sts k)) < i)%nat | _ => False end))
         /\ einv o' (eupd sts k st')) as ERR.
      { intros e NN EQ. injection EQ as <- <-. exists (sts k). split; [|done]. exists (e_k (sts k)).
        split; [by destruct (sts k)|]. split; [done|]. intros i L Y%normal_inj.
        destruct (NN i L Y) as [-> ND]. apply Nat.nle_gt. intros LE.
        apply not_true_iff_false in ND. apply ND. apply is_dir_at_true. rewrite Y. unfold parent.
        rewrite take_take. eapply (v_k _ _ I k); [|lia]. rewrite take_length. lia. }
      destruct (walk (view o) [] (map Normal q)) as [r|e|] eqn:EW; [| |by apply walk_no_panic in EW].
      2:{ eapply ERR; [|exact E]. intros i L Y. specialize (WK i L Y). case_decide; [done|].
          destruct (is_dir_at (view o) (parent q)); [done|]. by injection WK as ->. }
      apply walk_normal_target in EW as ->. cbn [app] in *.
      destruct (node_at (view o) q) as [n|] eqn:EN.
      + injection E as <- <-.
        destruct (decide (q `prefix_of` bs)) as [D|D].
        * assert (exists i, (i <= length bs)%nat /\ q = take i bs) as (i & L & ->).
          { destruct D as [r ->]. exists (length q). rewrite app_length, take_app. split; [lia|done]. }
          pose proof (v_up _ _ I i) as U. unfold file_at in U. rewrite EN in U. destruct n; [|done].
          eexists. split; [exists (Nat.max (e_k (sts k)) i); split; [reflexivity|]; split; [lia|]|].
          { intros i' L' Y%normal_inj. apply (f_equal length) in Y. rewrite !take_length in Y. lia. }
          apply einv_learn; [done|done| |].
          { cbn. intros i' L' LB. destruct (decide (i' <= e_k (sts k))%nat) as [D1|D1]; [by eapply (v_k _ _ I)|].
            replace (take i' bs) with (take i' (take i bs)) by (rewrite take_take; f_equal; lia).
            destruct (decide (take i' (take i bs) = take i bs)) as [->|D2]; [done|].
            eapply wf_strict; [done|exact EN| |done]. exists (drop i' (take i bs)). by rewrite take_drop. }
          pose proof (v_z _ _ SAME) as VZ. destruct (o_tree o !! p) as [[|j]|]; [done| |].
          -- destruct VZ as (c & D' & _ & L'). intros c' D2. replace c' with c by congruence.
             specialize (L' k). by rewrite eupd_same in L'.
          -- specialize (VZ k). by rewrite eupd_same in VZ.
        * exists (sts k). split; [|done]. exists (e_k (sts k)). split; [by destruct (sts k)|]. split; [done|].
          intros i' L' Y%normal_inj. exfalso. apply D. rewrite Y. apply take_prefix.
      + destruct (is_dir_at (view o) (parent q)) eqn:EP.
        2:{ eapply ERR; [|exact E]. intros i L Y. specialize (WK i L Y). case_decide; [by subst|done]. }
        injection E as <- <-. assert (q <> []) as QN by by intros ->.
        assert (einv (link o q DDir) sts) as I'.
        { eapply einv_frame; [done|by apply ok_link_dir| |apply I| | |done| |].
          - rewrite view_link_dir. destruct (snoc_parent q QN) as [y Y]. rewrite Y.
            apply wf_insert; [done|by apply is_dir_at_true|by right].
          - cbn. by rewrite lookup_insert_ne.
          - done.
          - intros i. rewrite view_link_dir, file_at_insert_dir by done. apply I.
          - intros i Y. rewrite view_link_dir, node_at_insert by done. by destruct (decide (take i bs = q)). }
        destruct (decide (q `prefix_of` bs)) as [D|D].
        * assert (exists i, (i <= length bs)%nat /\ q = take i bs) as (i & L & EQ).
          { destruct D as [r ->]. exists (length q). rewrite app_length, take_app. split; [lia|done]. }
          eexists. split; [exists (Nat.max (e_k (sts k)) i); split; [reflexivity|]; split; [lia|]|].
          { intros i' L' Y%normal_inj. apply (f_equal length) in Y. rewrite EQ, !take_length in Y. lia. }
          assert (node_at (view (link o q DDir)) (take i bs) = Some Dir) as ND.
          { rewrite view_link_dir, node_at_insert, decide_True by done. done. }
          apply einv_learn; [done|done| |].
          { cbn. intros i' L' LB. destruct (decide (i' <= e_k (sts k))%nat) as [D1|D1]; [by eapply (v_k _ _ I')|].
            replace (take i' bs) with (take i' (take i bs)) by (rewrite take_take; f_equal; lia).
            destruct (decide (take i' (take i bs) = take i bs)) as [->|D2]; [done|].
            eapply wf_strict; [apply I'|exact ND| |done]. exists (drop i' (take i bs)). by rewrite take_drop. }
          pose proof (v_z _ _ I') as VZ. destruct (o_tree (link o q DDir) !! p) as [[|j]|]; [done| |].
          -- destruct VZ as (c & D' & _ & L'). intros c' D2. replace c' with c by congruence. apply (L' k).
          -- apply (VZ k).
        * exists (sts k). split; [|by apply einv_same]. exists (e_k (sts k)). split; [by destruct (sts k)|]. split; [done|].
          intros i' L' Y%normal_inj. exfalso. apply D. rewrite Y. apply take_prefix.
    - injection E as E. destruct PR as (SF & q & -> & NQ).
      assert (forall e, ~ (q = p /\ (length bs <= e_k (sts k))%nat) -> (o, Err e) = (o', x) ->
        exists st', match x with
          | Ok fd => st' = with_ex (with_fd (sts k) (Some (bool_decide (map Normal q = P), fd)) (bool_decide (map Normal q = P))) (bool_decide (map Normal q = P))
          | Err _ => st' = sts k /\ ~ (map Normal q = P /\ (length bs <= e_k (sts k))%nat) | Panic => False end
          /\ einv o' (eupd sts k st')) as ERR.
      { intros e N EQ. injection EQ as <- <-. exists (sts k). split; [|done]. split; [done|].
        intros [Y%normal_inj Z]. by apply N. }
      assert (q <> []) as QN by (intros ->; apply NQ, prefix_nil).
      assert (q = p /\ (length bs <= e_k (sts k))%nat -> node_at (view o) bs = Some Dir) as ND.
      { intros [_ L]. rewrite <- (firstn_all bs). by eapply (v_k _ _ I k). }
      destruct (walk (view o) [] (map Normal q)) as [r|e|] eqn:EW; [| |by apply walk_no_panic in EW].
      2:{ eapply ERR; [|exact E]. intros Y. pose proof (ND Y) as D. destruct Y as [-> _].
          rewrite map_app, walk_app, (walk_present (view o) bs [] Dir W D) in EW.
          cbn [mbind res_bind app map walk] in EW. by rewrite D in EW. }
      apply walk_normal_target in EW as ->. cbn [app] in *.
      destruct q as [|a q'] eqn:EQ; [done|]. rewrite <- EQ in *. clear EQ a q'.
      assert (bool_decide (map Normal q = P) = bool_decide (q = p)) as EB.
      { apply bool_decide_ext. split; [apply normal_inj|by intros ->]. }
      destruct (o_tree o !! q) as [[|j]|] eqn:ET.
      + eapply ERR; [|exact E]. intros [-> _]. pose proof (v_z _ _ I) as VZ. by rewrite ET in VZ.
      + injection E as <- <-. eexists. split; [reflexivity|]. rewrite EB. apply einv_open; [done|done| |].
        * by apply (ok_tree _ K) in ET.
        * rewrite bool_decide_eq_true. split; [by intros <-|]. intros Y. by eapply ok_one.
      + destruct (is_dir_at (view o) (parent q)) eqn:EP.
        2:{ eapply ERR; [|exact E]. intros Y. pose proof (ND Y) as D. destruct Y as [-> _].
            rewrite parent_snoc in EP. apply is_dir_at_true in D. congruence. }
        injection E as <- <-. destruct (fresh_next _ K) as (N1 & N2 & N3).
        eexists. split; [reflexivity|]. rewrite EB.
        apply (einv_open (link (new_inode o) q (DFile (o_next o))) sts k (o_next o) _ _).
        * destruct (decide (q = p)) as [->|NP].
          -- apply einv_create; [done|done|]. rewrite parent_snoc in EP. by apply is_dir_at_true.
          -- assert (view (link (new_inode o) q (DFile (o_next o))) = <[q := File []]> (view o)) as EV by by apply view_create.
             eapply einv_frame; [done|by apply ok_create| |apply I| | |done| |].
             ++ rewrite EV. destruct (snoc_parent q QN) as [y Y]. rewrite Y.
                apply wf_insert; [done|by apply is_dir_at_true|]. left. by rewrite <- Y, node_at_ne, view_lookup, ET.
             ++ cbn. by rewrite lookup_insert_ne.
             ++ intros j TJ. cbn. apply lookup_insert_ne. intros <-. apply (ok_tree _ K) in TJ. rewrite N3 in TJ. by destruct TJ.
             ++ intros i. rewrite EV. unfold file_at. rewrite node_at_insert, decide_False; [apply (v_up _ _ I i)| |done].
                intros Y. apply NQ. rewrite <- Y. apply take_prefix.
             ++ intros i Y. rewrite EV, node_at_insert, decide_False; [done| |done].
                intros Z. apply NQ. rewrite <- Z. apply take_prefix.
        * done.
        * cbn. by rewrite lookup_insert.
        * rewrite bool_decide_eq_true. cbn. split.
          -- intros <-. by rewrite lookup_insert.
          -- intros Y. destruct (decide (q = p)) as [|NP]; [done|]. rewrite lookup_insert_ne in Y by done.
             apply (ok_tree _ K) in Y. rewrite N3 in Y. by destruct Y.
    - injection E as E. destruct PR as (SF & q & ->).
      assert (bool_decide (map Normal q = P) = bool_decide (q = p)) as EB.
      { apply bool_decide_ext. split; [apply normal_inj|by intros ->]. }
      assert (forall e, (q = p -> dir_ok = false -> e_ex (sts k) = false /\ e = NotFound) -> (o, Err e) = (o', x) ->
        exists st', match x with
          | Ok fd => st' = with_ex (with_fd (sts k) (Some (bool_decide (map Normal q = P), fd)) false) (bool_decide (map Normal q = P))
          | Err e => st' = sts k /\ (map Normal q = P -> dir_ok = false -> e_ex (sts k) = false /\ e = NotFound) | Panic => False end
          /\ einv o' (eupd sts k st')) as ERR.
      { intros e N EQ. injection EQ as <- <-. exists (sts k). split; [|done]. split; [done|].
        intros Y%normal_inj. by apply N. }
      assert (q = p -> (exists c, node_at (view o) q = Some (File c)) \/
                       (node_at (view o) q = None /\ e_ex (sts k) = false)) as CZ.
      { intros ->. pose proof (v_z _ _ I) as VZ. destruct (o_tree o !! p) as [[|j]|] eqn:ET; [done| |].
        - left. by eapply v_dir.
        - right. rewrite node_at_ne, view_lookup, ET by done. split; [done|]. apply VZ. }
      destruct (walk (view o) [] (map Normal q)) as [r|e|] eqn:EW; [| |by apply walk_no_panic in EW].
      2:{ eapply ERR; [|exact E]. intros Y _. destruct (CZ Y) as [[c D]|[D EX]].
          - rewrite (walk_present (view o) q [] _ W D) in EW. done.
          - split; [done|]. subst q. rewrite walk_nofile in EW; [|done|done| |done].
            + destruct (is_dir_at (view o) ([] ++ parent p)); [done|]. by injection EW as ->.
            + intros i L. cbn [app]. rewrite app_length in L. cbn in L. rewrite take_app_le by lia. apply I. }
      apply walk_normal_target in EW as ->. cbn [app] in *.
      destruct (node_at (view o) q) as [[|c]|] eqn:EN.
      + assert (q <> p) as NQ. { intros Y. by destruct (CZ Y) as [[? ?]|[? ?]]. }
        destruct dir_ok.
        * injection E as <- <-. destruct (fresh_next _ K) as (N1 & N2 & N3).
          eexists. split; [reflexivity|]. rewrite EB, bool_decide_false by done.
          apply (einv_open (new_inode o) sts k (o_next o) false false); [|done|cbn; by rewrite lookup_insert|].
          -- eapply einv_frame; [done|by apply ok_new_inode| |apply I|done| |done| |];
               rewrite ?view_new_inode by done; [done| |apply I|done].
             intros j TJ. cbn. apply lookup_insert_ne. intros <-. apply (ok_tree _ K) in TJ. rewrite N3 in TJ. by destruct TJ.
          -- split; [done|]. cbn. intros TJ. apply (ok_tree _ K) in TJ. rewrite N3 in TJ. by destruct TJ.
        * eapply ERR; [|exact E]. done.
      + pose proof (view_file_ne _ _ _ EN) as QN.
        destruct (view_file _ _ _ QN EN) as (j & ET & D). rewrite ET in E. injection E as <- <-.
        eexists. split; [reflexivity|]. rewrite EB. apply einv_open; [done|done| |].
        * by apply (ok_tree _ K) in ET.
        * rewrite bool_decide_eq_true. split; [by intros <-|]. intros Y. by eapply ok_one.
      + eapply ERR; [|exact E]. intros Y _. destruct (CZ Y) as [[? ?]|[_ ?]]; [done|done].
    - destruct PR as [m PR]. destruct (o_fds o !! fd) as [j|] eqn:F; [|done].
      destruct (lock_conflict o fd ex); [done|]. injection E as <- <-. exists (sts k). split; [done|].
      apply einv_same. eapply einv_frame; [done|apply ok_set_lock; [done|by rewrite F]| |apply I|done|done|done| |];
        rewrite view_lock; [done|apply I|done].
    - destruct (o_fds o !! fd) as [j|] eqn:F; [|done]. injection E as <- <-. exists (sts k). split; [done|].
      apply einv_same. by eapply einv_other.
    - destruct (o_fds o !! fd) as [j|] eqn:F; [|done]. injection E as E.
      assert (b <> [] -> (0 < accept o (length b))%nat) as AP.
      { intros NB. unfold accept. rewrite (v_room _ _ I). destruct b; [done|]. destruct (o_short o); cbn; lia. }
      assert (accept o (length b) <= length b)%nat as AL.
      { unfold accept. rewrite (v_room _ _ I). destruct (o_short o); lia. }
      replace (bool_decide (accept o (length b) = 0%nat) && negb (bool_decide (b = []))) with false in E.
      2:{ symmetry. apply andb_false_iff. destruct (decide (b = [])) as [->|NB]; [by right|].
          left. apply bool_decide_false. apply AP in NB. lia. }
      injection E as <- <-. set (n := accept o (length b)) in *.
      assert (einv (accepted o n) sts) as I'.
      { eapply einv_frame; [done|by apply ok_accepted| | |done|done|done| |]; rewrite ?view_accepted; [done| |apply I|done].
        cbn. by rewrite (v_room _ _ I). }
      destruct PR as [PR|(PR & L & PB & LT)].
      + exists (sts k). split; [exists n; split_and!; try done; by left|]. apply einv_same. by eapply einv_other.
      + destruct (v_fd _ _ I _ _ _ PR) as (j' & F' & M). replace j' with j in M by congruence. clear F' j'.
        destruct M as [M _]. specialize (M eq_refl). pose proof (v_z _ _ I) as VZ. rewrite M in VZ.
        destruct VZ as (c & D & PC & LC). specialize (LC k). rewrite D. cbn [default from_option id].
        destruct (write_prefix c b off n PC) as (X1 & X2 & X3); [lia|done|done|].
        eexists. split; [exists n; split_and!; try done; by right|]. by eapply (einv_write _ _ _ _ _ c).
    - destruct (o_fds o !! fd) as [j|] eqn:F; [|done]. injection E as <- <-. destruct PR as [m PR].
      destruct (v_fd _ _ I _ _ _ PR) as (j' & F' & M). replace j' with j in M by congruence. clear F' j'. destruct m.
      + destruct M as [M _]. specialize (M eq_refl). pose proof (v_z _ _ I) as VZ. rewrite M in VZ.
        destruct VZ as (c & D & PC & LC). eexists. split.
        * right. split; [done|]. exists c. split_and!; [done|apply LC|reflexivity|]. by rewrite D.
        * apply einv_learn; [done|done|apply I|]. rewrite M. intros c' D'. replace c' with c by congruence.
          specialize (LC k). cbn. lia.
      + exists (sts k). split; [by left|done].
    - injection E as <- <-. destruct PR as [[m PR] _]. eexists. split; [reflexivity|]. by eapply einv_close.
    - injection E as E. destruct PR as (q & -> & NP). exists (sts k). split; [done|].
      destruct (walk (view o) [] (map Normal q)) as [r|e|] eqn:EW; [| |by apply walk_no_panic in EW].
      2:{ by injection E as <- <-. }
      apply walk_normal_target in EW as ->. cbn [app] in *.
      destruct (node_at (view o) q) as [[|c]|] eqn:EN; injection E as <- <-; [done| |done].
      assert (q <> []) as QN by by intros ->.
      apply einv_same. eapply einv_frame; [done|by apply ok_unlink| |apply I| |done|done| |].
      + rewrite view_unlink. by eapply wf_delete.
      + cbn. by rewrite lookup_delete_ne.
      + intros i. rewrite view_unlink. unfold file_at. rewrite node_at_delete by done.
        case_decide; [done|]. apply (v_up _ _ I i).
      + intros i Y. rewrite view_unlink, node_at_delete by done. case_decide; [|done]. subst. congruence.
    - injection E as <- <-. by exists (sts k).
    - injection E as <- <-. by exists (sts k).
    - injection E as E. destruct PR as (q & -> & NP). exists (sts k). split; [done|].
      destruct (walk (view o) [] (map Normal q)) as [r|e|] eqn:EW; [| |by apply walk_no_panic in EW].
      2:{ by injection E as <- <-. }
      apply walk_normal_target in EW as ->. cbn [app] in *.
      destruct (node_at (view o) q) as [[|c]|] eqn:EN.
      2-3: by injection E as <- <-.
      destruct (_ || _) eqn:EE; injection E as <- <-; [done|].
      apply orb_false_iff in EE as [QN%bool_decide_eq_false E2%negb_false_iff%bool_decide_eq_true].
      apply einv_same. eapply einv_frame; [done|by apply ok_unlink| |apply I| |done|done| |].
      + rewrite view_unlink. by eapply wf_rmdir.
      + cbn. rewrite lookup_delete_ne; [done|]. intros ->. pose proof (v_z _ _ I) as VZ.
        rewrite node_at_ne, view_lookup in EN by done. by destruct (o_tree o !! p) as [[|]|].
      + intros i. rewrite view_unlink. unfold file_at. rewrite node_at_delete by done.
        case_decide; [done|]. apply (v_up _ _ I i).
      + intros i Y. rewrite view_unlink, node_at_delete by done. case_decide; [|done]. subst.
        exfalso. apply NP, take_prefix.
  Qed.

  (** Who has begun to write the file goes on until it is complete. *)
  Definition pend (o : os) (sts : nat -> es) : Prop :=
    (forall k, e_w (sts k) = true -> e_fd (sts k) <> None) /\
    forall j, o_tree o !! p = Some (DFile j) -> exists k, e_w (sts k) = true \/ (length T <= e_n (sts k))%nat.
  Lemma enxt_grows X st (c : sys X) x st' : epre X st c -> enxt X st c x st' -> (e_w st = true -> e_fd st <> None) ->
    (e_n st <= e_n st')%nat /\ (e_ex st = true -> e_ex st' = true) /\ (e_k st <= e_k st')%nat /\
    (e_w st = true -> e_w st' = true \/ (length T <= e_n st')%nat) /\
    (e_w st' = true -> e_fd st' <> None).
  Proof.
    intros PR N WF. destruct c; cbn in *.
    1, 2, 7, 8, 12, 13, 14, 15 : naive_solver.
    - destruct N as [_ ->]. cbn. split_and!; [done| |done|by left|done]. by intros ->.
    - destruct N as (k & -> & ? & _). cbn. split_and!; [done|done|done|by left|done].
    - destruct PR as [PR _]. destruct x; [subst st'; cbn; split_and!; [done|by intros ->|done| |done]|naive_solver|done].
      intros Y. by apply WF in Y.
    - destruct PR as [PR _]. destruct x; [subst st'; cbn; split_and!; [done|by intros ->|done| |done]|naive_solver|done].
      intros Y. by apply WF in Y.
    - destruct N as (n & _ & _ & _ & [[_ ->]|[_ ->]]); [naive_solver|]. cbn. split_and!; [lia|done|done|by left|done].
    - destruct N as [[_ ->]|(_ & c & _ & _ & -> & _)]; [naive_solver|]. cbn. split_and!; [lia|done|done|by left|done].
    - destruct PR as [_ PR]. subst st'. cbn. split_and!; [done|done|done| |done]. intros Y. right. by apply PR.
  Qed.
  Lemma tree_new {X} (c : sys X) o o' x j st st' : os_ok o -> epre X st c -> enxt X st c x st' ->
    sys_step c o = Some (o', x) ->
    o_tree o' !! p = Some (DFile j) -> (exists j', o_tree o !! p = Some (DFile j')) \/ e_w st' = true.
  Proof.
    intros K PR N E TP.
    assert (o_tree o' = o_tree o -> (exists j', o_tree o !! p = Some (DFile j')) \/ e_w st' = true) as OLD.
    { intros Y. rewrite Y in TP. left. by exists j. }
    destruct c; cbn [sys_step] in E; cbn [epre] in PR; cbn [enxt] in N.
    - injection E as <- <-. by apply OLD.
    - injection E as <- <-. by apply OLD.
    - injection E as <- <-. by apply OLD.
    - injection E as E. destruct (walk (view o) [] cs) as [q|e|]; [|by injection E as <- <-; apply OLD..].
      destruct (node_at (view o) q); [by injection E as <- <-; apply OLD|].
      destruct (is_dir_at (view o) (parent q)); injection E as <- <-; [|by apply OLD].
      cbn in TP. destruct (decide (q = p)) as [->|D]; [by rewrite lookup_insert in TP|].
      rewrite lookup_insert_ne in TP by done. left. by exists j.
    - injection E as E. destruct PR as (_ & q & -> & _).
      destruct (walk (view o) [] (map Normal q)) as [r|e|] eqn:EW; [|by injection E as <- <-; apply OLD..].
      apply walk_normal_target in EW as ->. cbn [app] in *.
      destruct q as [|a q'] eqn:EQ; [by injection E as <- <-; apply OLD|]. rewrite <- EQ in *. clear EQ a q'.
      destruct (o_tree o !! q) as [[|i]|] eqn:ET; [by injection E as <- <-; apply OLD..|].
      destruct (is_dir_at (view o) (parent q)); [|by injection E as <- <-; apply OLD].
      injection E as <- <-. cbn in TP. destruct (decide (q = p)) as [->|D].
      + right. subst st'. cbn. by apply bool_decide_true.
      + rewrite lookup_insert_ne in TP by done. left. by exists j.
    - injection E as E. destruct (walk (view o) [] cs) as [r|e|] eqn:EW; [|by injection E as <- <-; apply OLD..].
      apply OLD. repeat case_match; by simplify_eq.
    - repeat case_match; try done. injection E as <- <-. by apply OLD.
    - repeat case_match; try done. injection E as <- <-. by apply OLD.
    - apply OLD. repeat case_match; by simplify_eq.
    - repeat case_match; try done; injection E as <- <-; by apply OLD.
    - injection E as <- <-. by apply OLD.
    - injection E as E. left. destruct (walk (view o) [] cs) as [r|e|] eqn:EW; [|by injection E as <- <-; exists j..].
      repeat case_match; injection E as <- <-; try (by exists j). cbn in TP. apply lookup_delete_Some in TP as [_ TP]. by exists j.
    - injection E as <- <-. by apply OLD.
    - injection E as <- <-. by apply OLD.
    - injection E as E. left. destruct (walk (view o) [] cs) as [r|e|] eqn:EW; [|by injection E as <- <-; exists j..].
      repeat case_match; injection E as <- <-; try (by exists j). cbn in TP. apply lookup_delete_Some in TP as [_ TP]. by exists j.
  Qed.
  Lemma pend_step {X} (c : sys X) o o' x sts k st' : os_ok o -> pend o sts -> epre X (sts k) c -> enxt X (sts k) c x st' ->
    sys_step c o = Some (o', x) -> pend o' (eupd sts k st').
  Proof.
    intros K [PF PD] PR N E. destruct (enxt_grows _ _ _ _ _ PR N (PF k)) as (G1 & _ & _ & G2 & G3). split.
    - intros k'. unfold eupd. case_decide; [done|apply PF].
    - intros j TP. destruct (tree_new c o o' x j _ _ K PR N E TP) as [[j' TJ]|WT].
      + destruct (PD j' TJ) as [k' Y]. exists k'. unfold eupd. case_decide; [subst|done].
        destruct Y as [Y|Y]; [by apply G2|right; lia].
      + exists k. rewrite eupd_same. by left.
  Qed.

  Local Notation efol := (follows epre enxt).
  Definition quiet (st : es) : Prop := e_fd st = None.
  Lemma eruns {A} (fin : nat -> es -> A -> Prop) c c' : csteps c c' -> forall sts,
    einv (fst c) sts -> pend (fst c) sts ->
    (forall i q, snd c !! i = Some q -> efol (fin i) (sts i) q) ->
    exists sts', einv (fst c') sts' /\ pend (fst c') sts' /\
      length (snd c') = length (snd c) /\
      (forall i, snd c' !! i = None -> sts' i = sts i) /\
      (forall i q, snd c' !! i = Some q -> efol (fin i) (sts' i) q).
  Proof.
    induction 1 as [c|o ps i q o1 q1 c E PS S IH]; intros sts I PD F.
    - by exists sts.
    - cbn [fst snd] in *. pose proof (F i q E) as Fi. destruct q as [a|X call k]; cbn in PS; [done|].
      destruct (sys_step call o) as [[o2 x]|] eqn:EX; [|done]. injection PS as <- <-. destruct Fi as [P1 P2].
      destruct (estep call o o2 x sts i I P1 EX) as (st' & N1 & I').
      pose proof (pend_step call o o2 x sts i st' (v_ok _ _ I) PD P1 N1 EX) as PD'.
      destruct (IH _ I' PD') as (sts' & J1 & J2 & J3 & J4 & J5).
      + intros i' q' E'. destruct (decide (i' = i)) as [->|D].
        * rewrite list_lookup_insert in E' by by eapply lookup_lt_Some. injection E' as <-.
          rewrite eupd_same. by apply P2.
        * rewrite list_lookup_insert_ne in E' by done. rewrite eupd_ne by done. by apply F.
      + rewrite insert_length in J3. exists sts'. split_and!; try done.
        intros i' E'. rewrite J4 by done. apply eupd_ne. intros ->.
        apply lookup_ge_None in E'. apply lookup_lt_Some in E. lia.
  Qed.

  (** The end: nothing is open. *)
  Lemma einv_calm o sts : einv o sts -> (forall k, quiet (sts k)) -> calm o.
  Proof.
    intros I Q. assert (o_fds o = ∅) as F.
    { apply map_empty. intros fd. destruct (o_fds o !! fd) as [j|] eqn:E; [|done].
      destruct (v_own _ _ I fd j E) as (k & m & X). by rewrite Q in X. }
    split; [|apply I]. split_and!; [apply I|done|]. apply map_empty. intros fd.
    destruct (o_locks o !! fd) as [j|] eqn:E; [|done].
    apply (ok_locks _ (v_ok _ _ I)) in E as [x E]. by rewrite F, lookup_empty in E.
  Qed.
  Lemma einv_end o sts k : einv o sts -> pend o sts -> (forall k, quiet (sts k)) -> e_ex (sts k) = true ->
    file_at (view o) p = Some T.
  Proof.
    intros I [PF PD] Q EX. pose proof (v_z _ _ I) as VZ. destruct (o_tree o !! p) as [[|j]|] eqn:E; [done| |].
    - destruct VZ as (c & D & PC & L). destruct (PD j eq_refl) as [k' [Y|Y]]; [by apply PF in Y; rewrite Q in Y|].
      assert (c = T) as <-.
      { destruct PC as [r X]. specialize (L k'). rewrite X, app_length in Y. destruct r; [by rewrite X, app_nil_r|].
        cbn in Y. lia. }
      apply file_at_some. rewrite (view_of_tree _ _ j p_ne E), D. done.
    - destruct (VZ k) as [Y _]. congruence.
  Qed.
  Lemma einv_start o sts : calm o -> wf_fs (view o) -> (forall i, file_at (view o) (take i bs) = None) ->
    (forall k, e_fd (sts k) = None /\ e_k (sts k) = 0%nat /\ e_w (sts k) = false) ->
    (file_at (view o) p = Some T /\ (forall k, e_n (sts k) = length T)
     \/ node_at (view o) p = None /\ forall k, e_ex (sts k) = false /\ e_n (sts k) = 0%nat) ->
    einv o sts /\ pend o sts.
  Proof.
    intros ((K & F & L) & R) W U S Z.
    assert (match o_tree o !! p with
          | None => forall k, e_ex (sts k) = false /\ e_n (sts k) = 0%nat
          | Some DDir => False
          | Some (DFile j) => o_data o !! j = Some T /\ forall k, e_n (sts k) = length T
          end) as TZ.
    { destruct Z as [[Z1 Z2]|[Z1 Z2]].
      - apply file_at_some in Z1. pose proof Z1 as Z3. rewrite node_at_ne, view_lookup in Z3 by apply p_ne.
        destruct (o_tree o !! p) as [[|j]|] eqn:E; [done| |done]. split; [|done].
        destruct (ok_tree _ K _ _ E) as [c D]. cbn in Z3. rewrite D in Z3. cbn in Z3. congruence.
      - rewrite node_at_ne, view_lookup in Z1 by apply p_ne. by destruct (o_tree o !! p). }
    split; [split; try done|split].
    - intros k i. destruct (S k) as (_ & -> & _). intros Y _. replace i with 0%nat by lia. done.
    - destruct (o_tree o !! p) as [[|j]|]; [done| |done]. destruct TZ as [D E]. exists T. split_and!; [done..|].
      intros k. by rewrite E.
    - intros k m fd E. destruct (S k) as (Y & _). congruence.
    - intros k k' m m' fd E. destruct (S k) as (Y & _). congruence.
    - intros fd i E. by rewrite F, lookup_empty in E.
    - intros k E. destruct (S k) as (_ & _ & Y). congruence.
    - intros j E. rewrite E in TZ. destruct TZ as [_ TZ]. exists 0%nat. right. by rewrite TZ.
  Qed.
End Entry.

(** ** The calls follow the protocol *)

Section Programs.
  Context (base T : bytes) (PB : plain base).
  Local Notation bs := (pieces base).
  Local Notation z := ENTRY_POINT_KEY.
  Local Notation p := (bs ++ [z]).
  Local Notation P := (map Normal (bs ++ [z])).
  Local Notation efol := (follows (epre bs z T) (enxt bs z T)).
  Definition calmly {A : Type} (st : es) (_ : A) : Prop := quiet st.

  (** Paths of nodes and chunks. *)
  Definition away (q : fpath) : Prop := exists x r, q = bs ++ x :: r /\ x <> z.
  Lemma away_take q i : away q -> take i q <> p.
  Proof.
    intros (x & r & -> & N) E.
    assert (p `prefix_of` bs ++ x :: r) as Y. { rewrite <- E. exists (drop i (bs ++ x :: r)). by rewrite take_drop. }
    apply prefix_app_inv in Y. destruct Y as [k Y]. cbn in Y. injection Y as -> _. done.
  Qed.
  Lemma away_ne q : away q -> q <> p.
  Proof. intros A E. apply (away_take q (length q) A). by rewrite firstn_all. Qed.
  Lemma away_cs q : away q -> map Normal q <> P.
  Proof. intros A E%normal_inj. by apply away_ne in A. Qed.
  Lemma away_up q : away q -> ~ q `prefix_of` bs.
  Proof. intros (x & r & -> & N) Y%prefix_length. rewrite app_length in Y. cbn in Y. lia. Qed.
  Lemma away_app q r : away q -> away (q ++ r).
  Proof. intros (x & s & -> & N). exists x, (s ++ r). split; [|done]. by rewrite <- app_assoc. Qed.

  Lemma e_try {A D} (q : proc (res A)) (f : A -> proc (res D)) st :
    efol calmly st q -> (forall a st, quiet st -> efol calmly st (f a)) -> efol calmly st (ptry q f).
  Proof. intros F N. eapply follows_try; [exact F|intros; by apply N|done|done]. Qed.
  Lemma e_pres {A D} (r : res A) (f : A -> proc (res D)) st : quiet st ->
    (forall a, efol calmly st (f a)) -> efol calmly st (pres r f).
  Proof. intros Q F. by destruct r; [apply F|..]. Qed.
  Lemma e_reply {A D} (f : A -> D) q st : efol calmly st q -> efol calmly st (pbind q (fun x => Ret (f x))).
  Proof. intros F. eapply follows_bind; [exact F|]. done. Qed.

  Lemma e_mkdir_all q n st : (forall i, take i q <> p) -> quiet st -> efol calmly st (p_mkdir_all (map Normal q) n).
  Proof.
    intros A. revert st.
    assert (forall here (e : res unit) st, quiet st -> efol calmly st
              (Call (SIsDir here) (fun d => Ret (if d : bool then Ok tt else e)))) as OR.
    { intros here e st Q. cbn. split; [done|]. intros x st' [-> _]. done. }
    assert (forall i, exists r, take i (map Normal q) = map Normal r /\ r <> p) as HR.
    { intros i. exists (take i q). split; [apply firstn_map|apply A]. }
    induction n as [|n IH]; intros st Q; [done|]. cbn [p_mkdir_all follows epre enxt]. split; [apply HR|].
    intros r st' (k & -> & _ & _). destruct r as [[]|e|]; [done| |by apply OR].
    destruct e; try by apply OR. apply e_try; [by apply IH|]. intros _ st2 Q2. cbn [follows epre enxt]. split; [apply HR|].
    intros r st3 (k' & -> & _ & _). destruct r as [[]|e|]; [done|by apply OR..].
  Qed.

  (** Another file, open. *)
  Definition other (fd : nat) (st : es) : Prop := e_fd st = Some (false, fd) /\ e_w st = false.
  Lemma e_write_all_other fuel fd : forall b off st, other fd st ->
    efol (fun st' _ => other fd st') st (p_write_all fuel fd off b).
  Proof.
    induction fuel as [|f IH]; intros b off st O; [by destruct b|]. destruct b as [|a b]; [done|].
    cbn [p_write_all follows epre enxt]. split; [left; apply O|].
    intros x st' (n & -> & _ & _ & [[_ ->]|[Y _]]); [|destruct O; congruence].
    destruct n; [done|]. by apply IH.
  Qed.
  Lemma e_drop_other fd off buf r st : other fd st -> efol calmly st (p_drop fd off buf r).
  Proof.
    intros O. eapply follows_bind; [by apply e_write_all_other|]. intros st' x O'. cbn.
    destruct O' as [O1 O2]. split; [split; [by eexists|by rewrite O2]|]. by intros _ st2 ->.
  Qed.
  Lemma e_buffered_other fd r ws : forall off buf st, other fd st -> efol calmly st (p_buffered fd off buf ws r).
  Proof.
    induction ws as [|w ws IH]; intros off buf st O; cbn [p_buffered]; [by apply e_drop_other|].
    assert (forall off buf st, other fd st ->
      efol calmly st (if lenZ w >=? BUF_CAP
        then pbind (p_write_all (length w) fd off w) (fun x =>
               let '(off', _, rw) := x in
               match rw with
               | Ok _ => p_buffered fd off' buf ws r
               | e => p_drop fd off' buf e
               end)
        else p_buffered fd off (buf ++ w) ws r)) as PUT.
    { intros off1 buf1 st1 O1. destruct (lenZ w >=? BUF_CAP); [|by apply IH].
      eapply follows_bind; [by apply e_write_all_other|]. intros st2 [[off2 b2] [u|e|]] O2; [by apply IH|by apply e_drop_other..]. }
    destruct (lenZ w >? BUF_CAP - lenZ buf); [|by apply PUT].
    eapply follows_bind; [by apply e_write_all_other|]. intros st2 [[off2 b2] [u|e|]] O2; [by apply PUT|by apply e_drop_other..].
  Qed.
  Lemma e_read_all_other fd rs : forall off acc st, other fd st ->
    efol (fun st' _ => other fd st') st (p_read_all fd off rs acc).
  Proof.
    induction rs as [|n rs IH]; intros off acc st O; cbn [p_read_all follows epre enxt].
    - split; [destruct O; by eexists|]. intros x st' [[_ ->]|[Y _]]; [done|destruct O; congruence].
    - split; [destruct O; by eexists|]. intros x st' [[_ ->]|[Y _]]; [|destruct O; congruence].
      case_bool_decide; [done|]. by apply IH.
  Qed.
  Lemma e_open_other {A} dir_ok q (f : nat -> proc (res A)) st : away q -> quiet st ->
    (forall fd st, other fd st -> efol calmly st (f fd)) ->
    efol calmly st (ptry (Call (SOpenR dir_ok (map Normal q)) (fun r => Ret r)) f).
  Proof.
    intros AW Q F. unfold ptry. cbn [pbind follows epre enxt]. split; [split; [done|by eexists]|].
    intros x st' X. destruct x as [fd|e|]; [|destruct X as [-> _]; done|done].
    apply F. subst st'. rewrite bool_decide_false by by apply away_cs. done.
  Qed.

  Context (key : bytes) (PK : plain key) (AK : away (loc base key)).
  Lemma e_exists st : quiet st -> efol calmly st (p_exists base key).
  Proof. intros Q. unfold p_exists. rewrite key_comps_plain by done. cbn. split; [done|]. by intros b st' ->. Qed.
  Lemma e_close_other {A} fd st (f : proc (res A)) : other fd st -> (forall st, quiet st -> efol calmly st f) ->
    efol calmly st (Call (SClose fd) (fun _ => f)).
  Proof.
    intros [O1 O2] F. cbn. split; [split; [by eexists|by rewrite O2]|]. intros _ st' ->. by apply F.
  Qed.
  Lemma e_get rs st : quiet st -> efol calmly st (p_get base key rs).
  Proof.
    intros Q. unfold p_get. rewrite key_comps_plain by done. cbn [pres follows epre enxt]. split; [done|].
    intros b st' ->. destruct b; [|done]. apply e_open_other; [done|done|]. intros fd st1 O.
    cbn [follows epre enxt]. split; [destruct O; by eexists|]. intros _ st' ->.
    eapply follows_bind; [by apply e_read_all_other|]. intros st2 c O2. by apply e_close_other.
  Qed.
  Lemma e_set ws r st : quiet st -> efol calmly st (p_set base key ws r).
  Proof.
    intros Q. unfold p_set. rewrite key_comps_plain by done. cbn [pres]. apply e_try.
    { destruct (map Normal (loc base key)) eqn:E; [done|]. rewrite <- E. cbn [follows epre enxt]. split; [done|].
      intros b st' [_ ->]. destruct b; [done|]. rewrite parent_comps_map.
      apply e_mkdir_all; [|done]. intros i. unfold parent. rewrite take_take. by apply away_take. }
    intros _ st1 Q1. unfold ptry. cbn [pbind follows epre enxt].
    split; [split; [done|]; eexists; split; [done|by apply away_up]|].
    intros x st' X. destruct x as [fd|e|]; [|destruct X as [-> _]; done|done].
    rewrite bool_decide_false in X by by apply away_cs. subst st'. cbn [follows epre enxt]. split; [by eexists|].
    intros _ st' ->. split; [done|]. intros _ st' ->. by apply e_buffered_other.
  Qed.
  Lemma e_erase st : quiet st -> efol calmly st (p_erase base key).
  Proof.
    intros Q. unfold p_erase. rewrite key_comps_plain by done. cbn [pres follows epre enxt]. split; [done|].
    assert (forall st, quiet st -> efol calmly st (Call (SExists (map Normal (loc base key))) (fun b => Ret (Ok (negb b))))) as FI.
    { intros st1 Q1. cbn. split; [done|]. by intros b st' [_ ->]. }
    intros b st' [_ ->]. destruct b; [|by apply FI]. apply e_open_other; [done|done|]. intros fd st1 O.
    cbn [follows epre enxt]. split; [destruct O; by eexists|]. intros _ st' ->.
    split; [eexists; split; [done|by apply away_ne]|]. intros r st' ->.
    apply (e_close_other fd); [done|]. intros st2 Q2. apply e_pres; [done|]. intros _. by apply FI.
  Qed.
End Programs.

Section NodeCalls.
  Context (C : codec) (h : host) (H : hier) (sl : bytes -> list bytes) (T : bytes).
  Context (PB : plain (hy_base H)) (GX : good_suffix (ep_suffix (hy_ep H))).
  Local Notation base := (hy_base H).
  Local Notation bs := (pieces base).
  Local Notation z := ENTRY_POINT_KEY.
  Local Notation efol := (follows (epre bs z T) (enxt bs z T)).

  Lemma away_meta ext path : is_node_ext ext -> away base (loc base (metadata_key ext (ep_suffix (hy_ep H)) path)).
  Proof. intros E. destruct (loc_node_head H GX ext path E) as [r ->]. by exists (B "meta"), r. Qed.
  Lemma away_akey path : away base (loc base (akey H path)).
  Proof. apply away_meta. by left. Qed.
  Lemma away_gkey path : away base (loc base (gkey H path)).
  Proof. apply away_meta. by right. Qed.
  Lemma away_chunk path m pos : away base (loc base (get_chunk_key path m pos)).
  Proof. rewrite loc_chunk. eexists (B "data"), _. split; [cbn [app]; reflexivity|done]. Qed.
  Lemma away_data path : away base (loc base (data_path_key path)).
  Proof. rewrite data_key_loc. eexists (B "data"), _. split; [reflexivity|done]. Qed.

  Lemma e_node_key path st : plain path -> quiet st ->
    efol (fun st r => quiet st /\ forall k, r = Ok k -> k = akey H path \/ k = gkey H path) st (p_node_key H path).
  Proof.
    intros PP Q. unfold p_node_key. eapply follows_try; [apply e_exists; [done|by apply plain_akey|done]| |done|done].
    intros st1 b Q1. destruct b; [cbn; naive_solver|].
    eapply follows_try; [apply e_exists; [done|by apply plain_gkey|done]| |done|done].
    intros st' b Q2. destruct b; cbn; naive_solver.
  Qed.
  Lemma key_facts path k : plain path -> k = akey H path \/ k = gkey H path -> plain k /\ away base (loc base k).
  Proof. intros PP [->| ->]; (split; [|apply away_akey || apply away_gkey]); [by apply plain_akey|by apply plain_gkey]. Qed.
  Lemma e_get_array_metadata path rs st : plain path -> quiet st -> efol calmly st (p_get_array_metadata H path rs).
  Proof. intros PP Q. apply e_try; [apply e_get; [done|by apply plain_akey|apply away_akey|done]|]. done. Qed.
  Lemma e_list_attributes path rs st : plain path -> quiet st -> efol calmly st (p_list_attributes H path rs).
  Proof.
    intros PP Q. eapply follows_try; [by apply e_node_key| |by intros st1 e [? _]|by intros st1 [? _]].
    intros st1 k [Q1 K]. destruct (key_facts path k PP (K k eq_refl)) as [K1 K2].
    apply e_try; [by apply e_get|]. done.
  Qed.
  Lemma e_set_attributes path attrs rs st : plain path -> quiet st -> efol calmly st (p_set_attributes H sl path attrs rs).
  Proof.
    intros PP Q. unfold p_set_attributes. eapply follows_try; [by apply e_node_key| |by intros st1 e [? _]|by intros st1 [? _]].
    intros st1 k [Q1 K]. destruct (key_facts path k PP (K k eq_refl)) as [K1 K2].
    apply e_try; [by apply e_get|]. intros x st2 Q2. apply e_pres; [done|]. intros text. apply e_pres; [done|]. intros ex.
    destruct (json_eqb _ _); [done|]. by apply e_set.
  Qed.
  Lemma e_create_group path st : plain path -> quiet st -> efol calmly st (p_create_group H sl path).
  Proof.
    intros PP Q. apply e_try; [apply e_exists; [done|by apply plain_akey|done]|]. intros [|] st1 Q1; [done|].
    apply e_try; [apply e_exists; [done|by apply plain_gkey|done]|]. intros [|] st2 Q2; [done|].
    apply e_set; [done|by apply plain_gkey|apply away_gkey|done].
  Qed.
  Lemma e_create_array path m st : plain path -> quiet st -> efol calmly st (p_create_array H sl path m).
  Proof.
    intros PP Q. apply e_try; [apply e_exists; [done|by apply plain_gkey|done]|]. intros [|] st1 Q1; [done|].
    apply e_try; [apply e_exists; [done|by apply plain_akey|done]|]. intros [|] st2 Q2; [done|].
    apply e_set; [done|by apply plain_akey|apply away_akey|done].
  Qed.
  Lemma e_each {A} (f : A -> proc (res unit)) es : (forall e st, quiet st -> efol calmly st (f e)) ->
    forall st, quiet st -> efol calmly st (p_each f es).
  Proof. intros F. induction es as [|e es IH]; intros st Q; [done|]. apply e_try; [by apply F|]. intros _ st1 Q1. by apply IH. Qed.
  Lemma e_rm_tree ord fuel : forall q dir st, away base q -> quiet st ->
    efol calmly st (p_rm_tree ord fuel (map Normal q) dir).
  Proof.
    induction fuel as [|fuel IH]; intros q dir st AQ Q; [done|]. cbn [p_rm_tree]. destruct dir.
    - apply e_try; [cbn; split; [done|]; by intros x st' ->|]. intros es st1 Q1. apply e_try.
      + apply e_each; [|done]. intros e st2 Q2. change [Normal e.1] with (map Normal [e.1]). rewrite <- map_app.
        apply IH; [by apply away_app|done].
      + intros _ st2 Q2. cbn. split; [eexists; split; [done|by apply away_up]|]. by intros x st' ->.
    - apply e_open_other; [done|done|]. intros fd st1 O. cbn [follows epre enxt]. split; [destruct O; by eexists|].
      intros _ st' ->. split; [eexists; split; [done|by apply away_ne]|]. intros r st' ->.
      destruct O as [O1 O2]. split; [split; [by eexists|by rewrite O2]|]. by intros _ st' ->.
  Qed.
  Lemma e_remove ord fuel path st : plain path -> quiet st -> efol calmly st (p_remove H ord fuel path).
  Proof.
    intros PP Q.
    apply e_try; [apply e_erase; [done|by apply plain_gkey|apply away_gkey|done]|]. intros _ st1 Q1.
    apply e_try; [apply e_erase; [done|by apply plain_akey|apply away_akey|done]|]. intros _ st2 Q2.
    apply e_try; [|done]. unfold p_erase_prefix. rewrite key_comps_plain by (done || by apply data_key_plain).
    cbn [pres follows epre enxt]. split; [done|].
    assert (forall st, quiet st -> efol calmly st (Call (SExists (map Normal (loc base (data_path_key path)))) (fun b => Ret (Ok (negb b))))) as FI.
    { intros st3 Q3. cbn. split; [done|]. by intros b st' [_ ->]. }
    intros b st' [_ ->]. destruct b; [|by apply FI]. cbn [follows epre enxt]. split; [done|].
    intros d st' ->. destruct d as [dir|]; [|done]. apply e_try; [apply e_rm_tree; [apply away_data|done]|].
    intros _ st3 Q3. by apply FI.
  Qed.
  Lemma e_stats cs es : forall st, quiet st -> efol calmly st (p_stats cs es).
  Proof.
    induction es as [|e es IH]; intros st Q; [done|]. cbn [p_stats follows epre enxt]. split; [done|]. intros d st' ->.
    eapply follows_bind; [by apply IH|]. done.
  Qed.
  Lemma e_list_nodes ord pr path st : quiet st -> efol calmly st (p_list_nodes H ord pr path).
  Proof.
    intros Q. apply e_try; [|done]. apply e_pres; [done|]. intros cs.
    apply e_try; [cbn; split; [done|]; by intros x st' ->|].
    intros es st1 Q1. eapply follows_bind; [by apply e_stats|]. done.
  Qed.
  Lemma e_call c st : call_ok c -> quiet st -> efol calmly st (p_call C h H sl c).
  Proof.
    intros K Q. destruct c; cbn in K; apply e_reply.
    - by apply e_get_array_metadata.
    - by apply e_list_attributes.
    - by apply e_set_attributes.
    - by apply e_create_group.
    - by apply e_create_array.
    - destruct K as (K1 & K2 & K3). apply e_pres; [done|]. intros _.
      apply e_try; [apply e_get; [done|apply plain_chunk_key; [done|apply K2|done]|apply away_chunk|done]|]. done.
    - destruct K as (K1 & K2 & K3). apply e_set; [done|apply plain_chunk_key; [done|apply K2|done]|apply away_chunk|done].
    - destruct K as (K1 & K2 & K3). apply e_erase; [done|apply plain_chunk_key; [done|apply K2|done]|apply away_chunk|done].
    - destruct K as (K1 & _). by apply e_remove.
    - by apply e_list_nodes.
  Qed.
End NodeCalls.

(** ** Opening and creating *)

Section OpenCalls.
  Context (V : bytes -> option bool) (base T : bytes) (PB : plain base) (sl : bytes -> list bytes).
  Local Notation bs := (pieces base).
  Local Notation z := ENTRY_POINT_KEY.
  Local Notation p := (bs ++ [z]).
  Local Notation P := (map Normal (bs ++ [z])).
  Local Notation efol := (follows (epre bs z T) (enxt bs z T)).

  Definition entry_of (c : bytes) : res entry_point :=
    e ← from_text dec_ep c; _ ← check_exts (ep_exts e); Ok e.
  Definition hier_of (r : res entry_point) : res hier :=
    e ← r; _ ← check_version V e; Ok (Hier base e).

  Lemma e_mkdir_bs n : (n <= length bs)%nat -> forall st, quiet st ->
    efol (fun st' r => quiet st' /\ (n <= e_k st')%nat /\ r = Ok tt) st (p_mkdir_all (map Normal bs) n).
  Proof.
    assert (forall i, take i (map Normal bs) = map Normal (take i bs)) as HT by (intros i; apply firstn_map).
    assert (forall i, exists r, take i (map Normal bs) = map Normal r /\ r <> p) as HR.
    { intros i. exists (take i bs). split; [apply HT|apply take_not_p]. }
    assert (forall i (e : res unit) st, quiet st -> (i <= e_k st)%nat -> (i <= length bs)%nat ->
      efol (fun st' r => quiet st' /\ (i <= e_k st')%nat /\ r = Ok tt) st
              (Call (SIsDir (take i (map Normal bs))) (fun d => Ret (if d : bool then Ok tt else e)))) as OR.
    { intros i e st Q L1 L2. cbn. split; [done|]. intros x st' [-> X]. by rewrite (X i L1 L2 (HT i)). }
    induction n as [|n IH]; intros L st Q; [cbn; split_and!; [done|lia|done]|]. cbn [p_mkdir_all follows epre enxt].
    split; [apply HR|].
    intros r st' (k & -> & LK & X). specialize (X (S n) L (HT (S n))). destruct r as [[]|e|]; [done| |done].
    destruct e; try done; [|by apply OR].
    eapply follows_try; [apply IH; [lia|done]| |naive_solver|naive_solver].
    intros st2 [] (Q2 & K2 & _). cbn [follows epre enxt]. split; [apply HR|].
    intros r st3 (k' & -> & LK' & X'). specialize (X' (S n) L (HT (S n))). destruct r as [[]|e|]; [done| |done].
    destruct e; try done; [exfalso; lia|by apply OR].
  Qed.

  Definition mine (fd : nat) (st : es) : Prop := e_fd st = Some (true, fd).
  Lemma e_write_all fuel fd : forall b off st, mine fd st -> (length b <= fuel)%nat -> (off <= e_n st)%nat ->
    (off <= length T)%nat -> b `prefix_of` drop off T ->
    efol (fun st' x => mine fd st' /\ (off + length b <= e_n st')%nat /\ e_ex st' = e_ex st /\
      x = ((off + length b)%nat, [], Ok tt)) st (p_write_all fuel fd off b).
  Proof.
    induction fuel as [|f IH]; intros b off st M L LN LT PX.
    - destruct b; [|cbn in L; lia]. cbn. rewrite Nat.add_0_r. done.
    - destruct b as [|a b]; [cbn; by rewrite Nat.add_0_r|].
      cbn [p_write_all follows epre enxt]. split; [by right|].
      intros x st' (n & -> & PO & LE & [[Y _]|[_ ->]]); [congruence|].
      specialize (PO ltac:(done)). destruct n as [|n]; [lia|].
      pose proof (prefix_length _ _ PX) as LP. rewrite drop_length in LP.
      eapply follows_weaken; [apply IH|].
      + done.
      + rewrite drop_length. cbn in *. lia.
      + cbn. lia.
      + cbn [length] in *. lia.
      + destruct PX as [r PX]. exists r. rewrite <- drop_drop, PX. apply drop_app_le. cbn in *. lia.
      + intros st2 x (Y1 & Y2 & Y3 & ->). rewrite drop_length in *.
        replace (off + S n + (length (a :: b) - S n))%nat with (off + length (a :: b))%nat in * by (cbn in *; lia).
        split_and!; done.
  Qed.
  Definition complete (st0 st : es) (r0 r : res unit) : Prop :=
    quiet st /\ (length T <= e_n st)%nat /\ e_ex st = e_ex st0 /\ r = r0.
  Lemma e_drop fd off buf r st : mine fd st -> (off <= e_n st)%nat -> drop off T = buf -> (off <= length T)%nat ->
    efol (fun st' x => complete st st' r x) st (p_drop fd off buf r).
  Proof.
    intros M LN E LT. eapply follows_bind; [apply e_write_all; try done; by rewrite E|].
    intros st1 x (M1 & L1 & X1 & _). cbn in M1, L1, X1. cbn.
    assert (length T <= e_n st1)%nat as L2. { rewrite <- E, drop_length in L1. lia. }
    split; [split; [by eexists|done]|]. by intros _ st2 ->.
  Qed.
  Lemma e_buffered fd r ws : forall off buf st, mine fd st -> (off <= e_n st)%nat -> (off <= length T)%nat ->
    drop off T = buf ++ concat ws ->
    efol (fun st' x => complete st st' r x) st (p_buffered fd off buf ws r).
  Proof.
    induction ws as [|w ws IH]; intros off buf st M LN LT E; cbn [p_buffered].
    { apply e_drop; try done. by rewrite E, app_nil_r. }
    assert (forall (st1 st2 : es) (x : res unit), e_ex st1 = e_ex st -> complete st1 st2 r x -> complete st st2 r x) as CM.
    { intros st1 st2 x Y (Y1 & Y2 & Y3 & ->). split_and!; [done|done|congruence|done]. }
    assert (forall off buf st1, e_ex st1 = e_ex st -> mine fd st1 -> (off <= e_n st1)%nat -> (off <= length T)%nat ->
      drop off T = buf ++ w ++ concat ws -> (lenZ w >=? BUF_CAP = true -> buf = []) ->
      efol (fun st' x => complete st st' r x) st1 (if lenZ w >=? BUF_CAP
        then pbind (p_write_all (length w) fd off w) (fun x =>
               let '(off', _, rw) := x in
               match rw with
               | Ok _ => p_buffered fd off' buf ws r
               | e => p_drop fd off' buf e
               end)
        else p_buffered fd off (buf ++ w) ws r)) as PUT.
    { clear E LN LT M. intros off1 buf1 st1 EX1 M1 LN1 LT1 E1 BE.
      destruct (lenZ w >=? BUF_CAP).
      - rewrite (BE eq_refl) in *. cbn [app] in E1.
        pose proof (f_equal length E1) as LL. rewrite drop_length, !app_length in LL.
        eapply follows_bind; [apply (e_write_all (length w) fd w off1 st1); try done; rewrite E1; by apply prefix_app_r|].
        intros st2 x (M2 & L2 & X2 & ->). cbn in M2, L2, X2. cbn.
        eapply follows_weaken; [apply IH; [done|done|lia|]|].
        + cbn [app]. rewrite <- drop_drop, E1. by rewrite drop_app.
        + intros st3 x. apply CM. congruence.
      - eapply follows_weaken; [apply IH; [done|done|done|]|].
        + by rewrite <- app_assoc.
        + intros st3 x. by apply CM. }
    destruct (lenZ w >? BUF_CAP - lenZ buf) eqn:EB.
    - cbn [concat] in E. pose proof (f_equal length E) as LL. rewrite drop_length, !app_length in LL.
      eapply follows_bind; [apply (e_write_all (length buf) fd buf off st); try done; rewrite E; by apply prefix_app_r|].
      intros st2 x (M2 & L2 & X2 & ->). cbn in M2, L2, X2. cbn.
      apply PUT; [done|done|done|lia| |done]. cbn [app]. rewrite <- drop_drop, E. by rewrite drop_app.
    - apply PUT; [done..|]. intros Y. apply Z.geb_le in Y. rewrite Z.gtb_ltb in EB. apply Z.ltb_ge in EB.
      destruct buf; [done|]. unfold lenZ in *. cbn [length] in EB. lia.
  Qed.

  Lemma e_read_all fd rs : forall off acc st n0, mine fd st -> (off <= e_n st)%nat -> (n0 <= e_n st)%nat ->
    acc = take off T -> (off <= length T)%nat ->
    efol (fun st' c => mine fd st' /\ e_w st' = e_w st /\ e_ex st' = e_ex st /\ c `prefix_of` T /\ (n0 <= length c <= e_n st')%nat)
      st (p_read_all fd off rs acc).
  Proof.
    assert (forall off c, c `prefix_of` T -> (off <= length c)%nat -> take off T ++ drop off c = c) as AP.
    { intros off c [r ->] L. rewrite take_app_le by done. apply take_drop. }
    induction rs as [|n rs IH]; intros off acc st n0 M LN LN0 EA LT; cbn [p_read_all follows epre enxt].
    - split; [by eexists|]. intros x st' [[Y _]|(_ & c & PC & LC & -> & ->)]; [congruence|].
      rewrite EA, AP by (done || lia). split_and!; try done; cbn; lia.
    - split; [by eexists|]. intros x st' [[Y _]|(_ & c & PC & LC & -> & ->)]; [congruence|].
      pose proof (prefix_length _ _ PC) as LCT.
      case_bool_decide as D.
      + assert (drop off c = []) as DE.
        { destruct (drop off c) eqn:Y; [done|]. by destruct (Nat.max 1 n) eqn:Z; [lia|]. }
        pose proof (AP off c PC ltac:(lia)) as Y. rewrite DE, app_nil_r in Y. subst acc. rewrite Y.
        split_and!; try done; cbn; lia.
      + eapply follows_weaken; [apply (IH _ _ _ n0)|].
        * done.
        * cbn. rewrite take_length, drop_length. lia.
        * cbn. lia.
        * rewrite EA, <- take_take_drop. f_equal. destruct PC as [r ->]. rewrite drop_app_le by lia.
          rewrite take_app_le by (rewrite take_length; lia). set (l := drop off c). rewrite take_length.
          destruct (decide (Nat.max 1 n <= length l)%nat) as [Y|Y]; [by rewrite Nat.min_l by done|].
          rewrite Nat.min_r by lia. rewrite !take_ge by lia. done.
        * rewrite take_length, drop_length. lia.
        * done.
  Qed.

  (** What reading the entry point may give. *)
  Definition reads_entry (st0 st : es) (r : res entry_point) : Prop :=
    quiet st /\ ((exists c, c `prefix_of` T /\ (e_n st0 <= length c <= e_n st)%nat /\ r = entry_of c)
                \/ e_ex st0 = false /\ r = Err NotFound).
  Lemma e_read_entry rs st : quiet st ->
    efol (fun st' r => reads_entry st st' r /\ (e_ex st = true -> e_ex st' = true)) st (p_read_entry_point base rs).
  Proof.
    intros Q. unfold p_read_entry_point. rewrite entry_comps by done.
    unfold ptry. cbn [pbind follows epre enxt]. split; [split; [done|by eexists]|].
    intros x st' X. destruct x as [fd|e|]; [| |done].
    2:{ destruct X as [-> X]. destruct (X eq_refl eq_refl) as [EX ->]. split; [|done]. split; [done|]. by right. }
    rewrite bool_decide_true in X by done.
    eapply follows_bind; [apply (e_read_all fd rs 0 [] st' (e_n st)); subst st'; cbn; done || lia|].
    subst st'. intros st2 c (M2 & W2 & X2 & PC & LC). cbn in M2, W2, X2. cbn.
    split; [split; [by eexists|by rewrite W2]|]. intros _ st3 ->. split; [|by rewrite orb_true_r in X2].
    split; [done|]. left. exists c. done.
  Qed.

  (** What opening, and opening or creating, may give. *)
  Definition opened_as (st0 st : es) (r : res hier) : Prop :=
    quiet st /\ exists e, r = hier_of e /\
      ((exists c, c `prefix_of` T /\ (e_n st0 <= length c <= e_n st)%nat /\ e = entry_of c) \/ e_ex st0 = false /\ e = Err NotFound).
  Lemma e_open rs st : quiet st -> efol (opened_as st) st (p_open V base rs).
  Proof.
    intros Q. unfold p_open. eapply follows_try; [by apply e_read_entry|..].
    - intros st1 e [[Q1 R] _]. cbn. split; [done|]. by exists (Ok e).
    - intros st1 e [[Q1 R] _]. split; [done|]. by exists (Err e).
    - intros st1 [[Q1 R] _]. split; [done|]. by exists Panic.
  Qed.
  Definition created_as (st0 st : es) (r : res hier) : Prop :=
    quiet st /\ e_ex st = true /\ ((exists c, c `prefix_of` T /\ (e_n st0 <= length c <= e_n st)%nat /\ r = hier_of (entry_of c))
      \/ e_ex st0 = false /\ (length T <= e_n st)%nat /\ r = hier_of (Ok ep_default)).
  Lemma e_open_or_create rs st : quiet st -> (e_ex st = false -> T = concat (sl (print (enc_ep ep_default)))) ->
    efol (created_as st) st (p_open_or_create V sl base rs).
  Proof.
    intros Q ET. unfold p_open_or_create. cbv zeta. rewrite entry_comps, (comps_plain base PB) by done.
    cbn [follows epre enxt]. split; [done|]. intros b st' [EX ->]. destruct b.
    - rewrite bool_decide_true by done.
      eapply follows_try; [by apply e_read_entry|..].
      + intros st1 e [[Q1 R] X1]. cbn. split; [done|]. split; [apply X1; cbn; by rewrite orb_true_r|].
        destruct R as [(c & R1 & R2 & R3)|[R _]]; [|cbn in R; by rewrite orb_true_r in R].
        left. exists c. split; [done|]. split; [done|]. by rewrite <- R3.
      + intros st1 e [[Q1 R] X1]. cbn. split; [done|]. split; [apply X1; cbn; by rewrite orb_true_r|].
        destruct R as [(c & R1 & R2 & R3)|[R _]]; [|cbn in R; by rewrite orb_true_r in R].
        left. exists c. split; [done|]. split; [done|]. by rewrite <- R3.
      + intros st1 [[Q1 R] X1]. cbn. split; [done|]. split; [apply X1; cbn; by rewrite orb_true_r|].
        destruct R as [(c & R1 & R2 & R3)|[R _]]; [|cbn in R; by rewrite orb_true_r in R].
        left. exists c. split; [done|]. split; [done|]. by rewrite <- R3.
    - assert (e_ex st = false) as EF.
      { destruct (e_ex st); [|done]. by specialize (EX eq_refl eq_refl). }
      specialize (ET EF). rewrite map_length.
      eapply follows_try; [by apply e_mkdir_bs| |by intros ? ? (_ & _ & ?)|by intros ? (_ & _ & ?)].
      intros st1 [] (Q1 & K1 & _). unfold ptry at 1. cbn [pbind follows epre enxt].
      split; [split; [done|]; eexists; split; [done|apply p_not_up]|].
      intros x st' X. destruct x as [fd|e|]; [|by destruct X as [_ []]|done].
      rewrite bool_decide_true in X by done. cbn [follows epre enxt].
      split; [subst st'; by eexists|]. intros _ st2 ->.
      eapply follows_try; [apply (e_buffered fd (Ok tt) _ 0 [] st'); subst st'; cbn; [done|lia|lia|by rewrite ET]|..].
      + subst st'. intros st3 [] (Q3 & L3 & X3 & _). cbn in X3. rewrite orb_true_r in X3. cbn. split; [done|]. split; [done|].
        right. done.
      + intros st3 e (_ & _ & _ & ?). done.
      + intros st3 (_ & _ & _ & ?). done.
  Qed.
End OpenCalls.

(** ** All of them together *)

Lemma prefix_full (c t : bytes) : c `prefix_of` t -> (length t <= length c)%nat -> c = t.
Proof.
  intros [r ->] L. rewrite app_length in L. destruct r; [by rewrite app_nil_r|]. cbn in L. lia.
Qed.

Section Together.
  Context (V : bytes -> option bool) (C : codec) (h : host) (H : hier) (sl : bytes -> list bytes).
  Context (SL : forall b, concat (sl b) = b) (PB : plain (hy_base H)) (GX : good_suffix (ep_suffix (hy_ep H))).
  Context (o : os) (calls : list ocall) (CA : calm o) (W : wf_fs (view o)) (OK : forall c, c ∈ calls -> ocall_ok c).
  Context (T : bytes) (x0 : bool) (n0 : nat).
  Local Notation base := (hy_base H).
  Local Notation bs := (pieces base).
  Local Notation z := ENTRY_POINT_KEY.
  Local Notation p := (bs ++ [z]).
  Context (U : forall i, file_at (view o) (take i bs) = None).
  Context (XT : x0 = false -> T = print (enc_ep ep_default)).
  Context (START : file_at (view o) p = Some T /\ n0 = length T \/ node_at (view o) p = None /\ x0 = false /\ n0 = 0%nat).

  Definition st0 : es := ES 0 x0 None n0 false.
  Definition ofin (i : nat) (st : es) (a : oreply) : Prop :=
    match calls !! i with
    | Some (OOpen _) => exists r, a = ZOpened r /\ opened_as V base T st0 st r
    | Some (OOpenOrCreate _) => exists r, a = ZOpened r /\ created_as V base T st0 st r
    | _ => quiet st
    end.
  Lemma ofin_quiet i st a : ofin i st a -> quiet st.
  Proof.
    unfold ofin. destruct (calls !! i) as [[]|]; [|..|done|done].
    - by intros (r & _ & ? & _).
    - by intros (r & _ & ? & _).
  Qed.
  Lemma ocalls_follow i q : map (p_ocall V C h H sl) calls !! i = Some q ->
    follows (epre bs z T) (enxt bs z T) (ofin i) st0 q.
  Proof.
    intros E. rewrite list_lookup_fmap in E. unfold ofin. destruct (calls !! i) as [c|] eqn:EC; [|done].
    injection E as <-. pose proof (OK c (elem_of_list_lookup_2 _ _ _ EC)) as K. destruct c; cbn [p_ocall].
    - eapply follows_bind; [by apply e_open|]. intros st r X. cbn. by exists r.
    - eapply follows_bind; [apply e_open_or_create; [done|done|]|].
      + cbn. intros Y. rewrite SL. by apply XT.
      + intros st r X. cbn. by exists r.
    - eapply follows_bind; [by apply e_call|]. done.
  Qed.
  Lemma together o' ps : oexecutes V C h H sl o calls o' ps ->
    (forall i a, returned ps i a -> exists st, ofin i st a /\
       ((length T <= e_n st)%nat -> (0 < length T)%nat -> file_at (view o') p = Some T)) /\ wf_fs (view o') /\
    (forall i, file_at (view o') (take i bs) = None) /\
    (x0 = false /\ node_at (view o') p = None \/
     exists c, file_at (view o') p = Some c /\ c `prefix_of` T /\ (n0 <= length c)%nat) /\
    (all_returned ps -> calm o' /\
       ((exists c, c ∈ calls /\ creates c) \/ x0 = true -> file_at (view o') p = Some T)).
  Proof.
    intros S. destruct (einv_start bs z T o (fun _ => st0)) as [I0 P0].
    { done. } { done. } { done. } { done. }
    { destruct START as [[S1 S2]|(S1 & S2 & S3)]; [left|right]; done. }
    destruct (eruns bs z T ofin _ _ S (fun _ => st0) I0 P0) as (sts & I & PD & LN & N & F).
    { cbn [snd]. intros i q. apply ocalls_follow. }
    cbn [fst snd] in *. rewrite fmap_length in LN.
    assert (sts (length calls) = st0) as NL by (apply N, lookup_ge_None; lia).
    split_and!.
    - intros i a R. exists (sts i). split; [by apply (F i (Ret a))|]. intros L LP.
      pose proof (v_z _ _ _ _ _ I) as VZ. destruct (o_tree o' !! p) as [[|j]|] eqn:E; [done| |].
      + destruct VZ as (c & D & PC & LC). specialize (LC i). assert (c = T) as -> by (apply prefix_full; [done|lia]).
        apply file_at_some. rewrite (view_of_tree _ _ j (p_ne _ _) E), D. done.
      + destruct (VZ i) as [_ Y]. lia.
    - apply I.
    - apply I.
    - pose proof (v_z _ _ _ _ _ I) as VZ. rewrite node_at_ne, view_lookup by apply p_ne.
      destruct (o_tree o' !! p) as [[|j]|] eqn:E; [done| |].
      + right. destruct VZ as (c & D & PC & L). exists c. split; [|split; [done|]].
        * apply file_at_some. rewrite (view_of_tree _ _ j (p_ne _ _) E), D. done.
        * specialize (L (length calls)). by rewrite NL in L.
      + left. split; [|done]. destruct (VZ (length calls)) as [Y _]. by rewrite NL in Y.
    - intros R. assert (forall k, quiet (sts k)) as Q.
      { intros k. destruct (ps !! k) as [q|] eqn:E; [|by rewrite N].
        destruct (R _ _ E) as [a ->]. specialize (F _ _ E). cbn in F. by eapply ofin_quiet. }
      split; [by eapply einv_calm|]. intros [(c & IN & CR)|X].
      + apply elem_of_list_lookup in IN as [i IN].
        destruct (ps !! i) as [q|] eqn:E; [|apply lookup_ge_None in E; apply lookup_lt_Some in IN; lia].
        destruct (R _ _ E) as [a ->]. specialize (F _ _ E). cbn in F. unfold ofin in F. rewrite IN in F.
        destruct c; [done| |done]. destruct F as (r & _ & _ & EX & _). by eapply einv_end.
      + eapply (einv_end _ _ _ _ _ (length calls)); [done..|]. by rewrite NL.
  Qed.
End Together.

(** ** What the openers are told *)

Lemma does_open V base rs o : calm o -> does o (p_open V base rs) (view o, open_hier V base (view o)).
Proof.
  intros CA. unfold p_open, open_hier.
  destruct (does_on o (p_read_entry_point base rs) (fun e => Ret (_ ← check_version V e; Ok (Hier base e)))
    (read_entry_point base (view o)) (fun e => (view o, _ ← check_version V e; Ok (Hier base e)))) as (o' & R & X).
  - by apply does_read_entry_point.
  - intros o1 e C1 V1 _. rewrite <- V1. by apply does_ret.
  - exists o'. destruct (read_entry_point base (view o)); done.
Qed.

Section Openers.
  Context (V : bytes -> option bool) (C : codec) (h : host) (H : hier) (sl : bytes -> list bytes).
  Context (SL : forall b, concat (sl b) = b) (PB : plain (hy_base H)) (GX : good_suffix (ep_suffix (hy_ep H))).
  Context (o : os) (calls : list ocall) (CA : calm o) (W : wf_fs (view o)) (OK : forall c, c ∈ calls -> ocall_ok c).
  Local Notation base := (hy_base H).
  Local Notation bs := (pieces base).
  Local Notation z := ENTRY_POINT_KEY.
  Local Notation p := (bs ++ [z]).

  Lemma open_with s T : wf_fs s -> file_at s p = Some T -> open_hier V base s = hier_of V base (entry_of T).
  Proof.
    intros W1 F. apply file_at_some in F. unfold open_hier, read_entry_point, open_read.
    rewrite entry_comps by done. rewrite (walk_present s p [] _ W1 F). cbn [mbind res_bind app]. by rewrite F.
  Qed.
  Lemma openers_after o' T r : calm o' -> wf_fs (view o') -> file_at (view o') p = Some T ->
    r = hier_of V base (entry_of T) ->
    forall rs, answers o' (p_open V base rs) r /\ answers o' (p_open_or_create V sl base rs) r.
  Proof.
    intros C1 W1 F -> rs. rewrite <- (open_with (view o')) by done. split.
    - destruct (does_open V base rs o' C1) as (o2 & R & _). by exists o2.
    - destruct (does_open_or_create V sl base rs o' SL C1 W1 PB) as (o2 & R & _). exists o2.
      rewrite open_existing in R; [done|]. rewrite entry_comps, path_exists_plain by done.
      apply file_at_some in F. by rewrite F.
  Qed.

  Theorem openers_of_existing o' ps T r : file_at (view o) p = Some T ->
    answers o (p_open V base []) r -> oexecutes V C h H sl o calls o' ps ->
    (forall i k a, calls !! i = Some k -> opens k -> returned ps i a -> a = ZOpened r) /\
    file_at (view o') p = Some T /\
    (all_returned ps -> calm o' /\
       forall rs, answers o' (p_open V base rs) r /\ answers o' (p_open_or_create V sl base rs) r).
  Proof.
    intros F [o1 A] S.
    assert (r = hier_of V base (entry_of T)) as ->.
    { destruct (does_open V base [] o CA) as (o2 & R & _). rewrite R in A. injection A as _ <-. by apply open_with. }
    destruct (together V C h H sl SL PB GX o calls CA W OK T true (length T)) with (o' := o') (ps := ps)
      as (RT & W' & _ & FT & ED); [|done|by left|done|].
    { intros i. destruct (file_at (view o) (take i bs)) as [x|] eqn:E; [|done].
      apply file_at_some in E, F. rewrite <- (take_drop i bs), <- app_assoc in F.
      apply wf_prefix in F; [congruence|done|]. by destruct (drop i bs). }
    assert (forall c : bytes, c `prefix_of` T -> (length T <= length c)%nat -> c = T) as FULL by (intros c; apply prefix_full).
    split_and!.
    - intros i k a EC OP R. destruct (RT i a R) as (st & X & _). unfold ofin in X. rewrite EC in X.
      destruct k as [rs|rs|k]; [| |done].
      + destruct X as (r & -> & _ & e & -> & [(c & PC & LC & ->)|[[=] _]]). cbn in LC.
        by rewrite (FULL c) by (done || lia).
      + destruct X as (r & -> & _ & _ & [(c & PC & LC & ->)|[[=] _]]). cbn in LC.
        by rewrite (FULL c) by (done || lia).
    - destruct FT as [[[=] _]|(c & F' & PC & LC)]. by rewrite (FULL c) in F' by (done || lia).
    - intros AR. destruct (ED AR) as [C' F']. split; [done|]. apply (openers_after o' T); [done|done|auto|done].
  Qed.

  Theorem openers_of_fresh o' ps : V (B "3.0") = Some true ->
    (forall i, file_at (view o) (take i bs) = None) -> node_at (view o) p = None ->
    oexecutes V C h H sl o calls o' ps ->
    (forall i k a, calls !! i = Some k -> opens k -> returned ps i a ->
       a = ZOpened (Ok (Hier base ep_default)) \/ a = ZOpened (Err InvalidData) \/
       a = ZOpened (Err NotFound) /\ ~ creates k) /\
    (node_at (view o') p = None \/ exists c, file_at (view o') p = Some c /\ c `prefix_of` print (enc_ep ep_default)) /\
    ((exists i k a, calls !! i = Some k /\ opens k /\ returned ps i (ZOpened (Ok a))) ->
       file_at (view o') p = Some (print (enc_ep ep_default))) /\
    (all_returned ps -> calm o' /\
       ((exists c, c ∈ calls /\ creates c) -> forall rs,
         answers o' (p_open V base rs) (Ok (Hier base ep_default)) /\
         answers o' (p_open_or_create V sl base rs) (Ok (Hier base ep_default)))).
  Proof.
    intros HV U N S. set (T := print (enc_ep ep_default)).
    destruct (together V C h H sl SL PB GX o calls CA W OK T false 0) with (o' := o') (ps := ps)
      as (RT & W' & _ & FT & ED); [done|done|by right|done|].
    assert (hier_of V base (Ok ep_default) = Ok (Hier base ep_default)) as HD.
    { unfold hier_of. cbn [mbind res_bind]. unfold check_version.
      change (version_str ep_default) with (B "3.0"). by rewrite HV. }
    assert (entry_of T = Ok ep_default) as HT.
    { unfold entry_of, T. by rewrite default_reads. }
    assert (forall c : bytes, c `prefix_of` T ->
      c = T \/ (length c < length T)%nat /\ hier_of V base (entry_of c) = Err InvalidData) as CUT.
    { intros c PC. destruct (decide (length c < length T)%nat) as [L|L]; [right|left; apply prefix_full; [done|lia]].
      split; [done|]. destruct PC as [x PC]. unfold hier_of, entry_of.
      replace c with (take (length c) T) by (by rewrite PC, take_app). by rewrite cut_ep. }
    assert (0 < length T)%nat as LT by (vm_compute; lia).
    split_and!.
    - intros i k a EC OP R. destruct (RT i a R) as (st & X & _). unfold ofin in X. rewrite EC in X.
      destruct k as [rs|rs|k]; [| |done].
      + destruct X as (r & -> & _ & e & -> & [(c & PC & LC & ->)|[_ ->]]).
        * destruct (CUT c PC) as [->|[_ ->]]; [left; by rewrite HT, HD|by right; left].
        * right; right. split; [done|by intros []].
      + destruct X as (r & -> & _ & _ & [(c & PC & LC & ->)|(_ & _ & ->)]).
        * destruct (CUT c PC) as [->|[_ ->]]; [left; by rewrite HT, HD|by right; left].
        * left. by rewrite HD.
    - destruct FT as [[_ FT]|(c & F' & PC & _)]; [by left|right; by exists c].
    - intros (i & k & a & EC & OP & R). destruct (RT i _ R) as (st & X & FF). apply FF; [|done].
      unfold ofin in X. rewrite EC in X. destruct k as [rs|rs|k]; [| |done].
      + destruct X as (r & [= <-] & _ & e & E & [(c & PC & LC & ->)|[_ ->]]); [|done].
        destruct (CUT c PC) as [->|[_ Y]]; [lia|congruence].
      + destruct X as (r & [= <-] & _ & _ & [(c & PC & LC & E)|(_ & L & E)]); [|done].
        destruct (CUT c PC) as [->|[_ Y]]; [lia|congruence].
    - intros AR. destruct (ED AR) as [C' F']. split; [done|]. intros CR.
      apply (openers_after o' T); [done|done|auto|by rewrite HT].
  Qed.
End Openers.

(** For the examples. *)
Lemma orun_check V C h H sl o calls sched rs :
  rs <> [] -> match crun o (map (p_ocall V C h H sl) calls) sched with
    | Some (_, ps) => map (fun p => match p with Ret a => Some a | Call _ _ => None end) ps
    | None => [] end = rs ->
  exists o' ps, oexecutes V C h H sl o calls o' ps
    /\ (forall i a, rs !! i = Some (Some a) -> returned ps i a)
    /\ (Forall (fun r => r <> None) rs -> all_returned ps).
Proof.
  destruct (crun o _ sched) as [[o' ps]|] eqn:E; intros N R; [|by destruct N].
  exists o', ps. split_and!; [by eapply crun_steps|..].
  - intros i a. rewrite <- R. rewrite list_lookup_fmap. unfold returned. intros X.
    destruct (ps !! i) as [q|]; [|done]. injection X as X. by destruct q; [injection X as ->|].
  - intros F i q X. rewrite list.Forall_forall in F. destruct q as [a|]; [by exists a|].
    exfalso. apply (F None); [|done]. rewrite <- R. apply elem_of_list_fmap. eexists. split; [|by eapply elem_of_list_lookup_2]. done.
Qed.
