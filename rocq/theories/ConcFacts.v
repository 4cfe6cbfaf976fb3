(** Concurrent processes: sessions, and what holds of one file under any
    interleaving. *)
From Verif Require Import BaseFacts PathFacts FSFacts ListFacts Spec.
From Verif Require Import Sys SpecSys SysFacts CrashFacts.
Local Open Scope Z_scope.

(** ** Processes that follow a protocol *)

(** [pre st c]: call [c] is allowed in session state [st]; [nxt st c x st']:
    it may return [x] and lead to [st']. *)
Fixpoint follows {St A : Type} (pre : forall T, St -> sys T -> Prop)
    (nxt : forall T, St -> sys T -> T -> St -> Prop) (fin : St -> A -> Prop)
    (st : St) (p : proc A) : Prop :=
  match p with
  | Ret a => fin st a
  | @Call _ T c k => pre T st c /\ forall x st', nxt T st c x st' -> follows pre nxt fin st' (k x)
  end.
Lemma follows_bind {St A C} pre nxt (P : St -> A -> Prop) (Q : St -> C -> Prop) (f : A -> proc C) p : forall st,
  follows pre nxt P st p -> (forall st a, P st a -> follows pre nxt Q st (f a)) ->
  follows pre nxt Q st (pbind p f).
Proof.
  induction p as [a|T c k IH]; intros st F N; cbn in *; [by apply N|].
  destruct F as [F1 F2]. split; [done|]. intros x st' X. apply IH; [by apply F2|done].
Qed.
Lemma follows_weaken {St A} pre nxt (P Q : St -> A -> Prop) p : forall st,
  follows pre nxt P st p -> (forall st a, P st a -> Q st a) -> follows pre nxt Q st p.
Proof.
  induction p as [a|T c k IH]; intros st F N; cbn in *; [by apply N|].
  destruct F as [F1 F2]. split; [done|]. intros x st' X. apply IH; [by apply F2|done].
Qed.
Lemma follows_try {St A C} pre nxt (P : St -> res A -> Prop) (Q : St -> res C -> Prop) (f : A -> proc (res C)) p st :
  follows pre nxt P st p ->
  (forall st a, P st (Ok a) -> follows pre nxt Q st (f a)) ->
  (forall st e, P st (Err e) -> Q st (Err e)) ->
  (forall st, P st Panic -> Q st Panic) ->
  follows pre nxt Q st (ptry p f).
Proof.
  intros F N1 N2 N3. eapply follows_bind; [exact F|]. intros st' [a|e|] H; cbn; [by apply N1|by apply N2|by apply N3].
Qed.

(** ** One file *)

(** A lock is shared; exclusive, held by a process that does not change the
    content; or exclusive, held by a writer. *)
Inductive mode := Shared | Excl | Dirty.
Definition ex_of (d : mode) : bool := match d with Shared => false | _ => true end.
(** What a process has open: nothing; a file opened ([w]: for writing) but not
    locked, [mine] if it is the file considered; that file, locked, with its
    present content. *)
Inductive sess :=
  | Free
  | Open (w mine : bool) (fd : nat)
  | Hold (d : mode) (fd : nat) (c : bytes).
Definition fd_of (st : sess) : option nat :=
  match st with Free => None | Open _ _ fd | Hold _ fd _ => Some fd end.

Section OneFile.
  (** The file; what it may contain while nobody writes to it; whether it is
      there all the time; paths at which there is no file all the time. *)
  Context (p : fpath) (Vals : bytes -> Prop) (stable : Prop) (absent : fpath -> Prop).
  Hypothesis NE : p <> [].

  Definition pre (T : Type) (st : sess) (c : sys T) : Prop :=
    match c with
    | SIsFile _ | SIsDir _ | SExists _ | SMkdir _ => True
    | SOpenW cs => st = Free /\ exists q, cs = map Normal q /\ ~ absent q
    | SOpenR _ cs => st = Free /\ exists q, cs = map Normal q
    | SLock fd ex => exists w m, st = Open w m fd /\ (w = true -> ex = true)
    | STrunc fd => (exists w, st = Open w false fd) \/ exists d c, st = Hold d fd c /\ ex_of d = true
    | SWrite fd off b => (exists w, st = Open w false fd) \/
        exists d c, st = Hold d fd c /\ ex_of d = true /\ off = length c
    | SRead fd _ _ => (exists w, st = Open w false fd) \/ exists d c, st = Hold d fd c
    | SClose fd => (exists w m, st = Open w m fd /\ (w = true -> m = true -> Vals [])) \/
        exists d c, st = Hold d fd c /\ (d = Dirty -> Vals c)
    | SUnlink cs => exists q, cs = map Normal q /\ (stable -> q <> p)
    | SStat _ | SReadDir _ | SRmdir _ => True
    end.
  Definition nxt (T : Type) (st : sess) (c : sys T) : T -> sess -> Prop :=
    match c in sys T return T -> sess -> Prop with
    | SIsFile cs => fun x st' => st' = st /\ (stable -> cs = map Normal p -> x = true)
                     /\ (forall q, absent q -> cs = map Normal q -> x = false)
    | SIsDir _ => fun _ st' => st' = st
    | SExists cs => fun x st' => st' = st /\ (stable -> forall k, cs = map Normal (take k p) -> x = true)
    | SMkdir _ => fun x st' => st' = st /\ x <> Panic
    | SOpenW cs => fun x st' =>
        match x with
        | Ok fd => st' = Open true (bool_decide (cs = map Normal p)) fd
        | Err _ => st' = Free /\ ~ (stable /\ cs = map Normal p)
        | Panic => False
        end
    | SOpenR dir_ok cs => fun x st' =>
        match x with
        | Ok fd => exists m, st' = Open false m fd /\ (m = true -> cs = map Normal p)
                     /\ (cs = map Normal p -> dir_ok = false \/ stable -> m = true)
        | Err _ => st' = Free /\ ~ (stable /\ cs = map Normal p)
        | Panic => False
        end
    | SLock fd ex => fun _ st' =>
        (exists w, st = Open w false fd /\ st' = st) \/
        (exists w c, st = Open w true fd /\ (Vals c \/ ~ stable /\ c = [])
           /\ st' = Hold (if w then Dirty else if ex : bool then Excl else Shared) fd c)
    | STrunc fd => fun _ st' =>
        (exists w, st = Open w false fd /\ st' = st) \/
        exists d c, st = Hold d fd c /\ st' = Hold Dirty fd []
    | SWrite fd off b => fun x st' =>
        exists n, x = Ok n /\ (b <> [] -> (0 < n)%nat) /\ (n <= length b)%nat /\
          ((exists w, st = Open w false fd /\ st' = st) \/
           exists d c, st = Hold d fd c /\ st' = Hold Dirty fd (c ++ take n b))
    | SRead fd off n => fun x st' => st' = st /\
        forall d c, st = Hold d fd c ->
          x = match n with Some k => take (Nat.max 1 k) (drop off c) | None => drop off c end
    | SClose _ => fun _ st' => st' = Free
    | SUnlink _ => fun x st' => st' = st /\ x <> Panic
    | SStat _ => fun _ st' => st' = st
    | SReadDir _ => fun x st' => st' = st /\ x <> Panic
    | SRmdir _ => fun x st' => st' = st /\ x <> Panic
    end.

  Definition sess_ok (o : os) (Is : nat -> Prop) (st : sess) : Prop :=
    match st with
    | Free => True
    | Open _ true fd => exists j, o_fds o !! fd = Some j /\ Is j /\ o_locks o !! fd = None
    | Open _ false fd => exists j, o_fds o !! fd = Some j /\ ~ Is j
    | Hold d fd c => exists j, o_fds o !! fd = Some j /\ Is j /\ o_locks o !! fd = Some (ex_of d)
                               /\ o_data o !! j = Some c
    end.
  (** A writer has opened inode [j] and not yet locked it. *)
  Definition pending (o : os) (sts : nat -> sess) (j : nat) : Prop :=
    exists k fd, sts k = Open true true fd /\ o_fds o !! fd = Some j.
  (** [Is]: the inodes that have been at [p]. *)
  Record inv (o : os) (sts : nat -> sess) (Is : nat -> Prop) : Prop := {
    i_ok : os_ok o;
    i_wf : wf_fs (view o);
    i_room : o_room o = None;
    i_at : forall q j, o_tree o !! q = Some (DFile j) -> Is j <-> q = p;
    i_dom : forall j, Is j -> is_Some (o_data o !! j);
    i_stable : stable -> exists j, o_tree o !! p = Some (DFile j);
    i_absent : forall q, absent q -> file_at (view o) q = None;
    i_sess : forall k, sess_ok o Is (sts k);
    i_fd : forall k k' fd, fd_of (sts k) = Some fd -> fd_of (sts k') = Some fd -> k = k';
    i_own : forall fd j, o_fds o !! fd = Some j -> exists k, fd_of (sts k) = Some fd;
    i_lock : forall fd ex j, o_locks o !! fd = Some ex -> o_fds o !! fd = Some j -> Is j ->
      exists k d c, sts k = Hold d fd c /\ ex_of d = ex;
    i_compat : forall fd fd' j ex ex', fd <> fd' -> o_locks o !! fd = Some ex -> o_locks o !! fd' = Some ex' ->
      o_fds o !! fd = Some j -> o_fds o !! fd' = Some j -> Is j -> ex = false /\ ex' = false;
    i_vals : forall j, Is j -> (forall k fd c, sts k = Hold Dirty fd c -> o_fds o !! fd <> Some j) ->
      exists c, o_data o !! j = Some c /\ (Vals c \/ ~ stable /\ c = [] /\ pending o sts j)
  }.
  Definition upd (sts : nat -> sess) (k : nat) (st : sess) : nat -> sess :=
    fun k' => if decide (k' = k) then st else sts k'.
  Lemma upd_same sts k st : upd sts k st k = st.
  Proof. unfold upd. by rewrite decide_True. Qed.
  Lemma upd_ne sts k st k' : k' <> k -> upd sts k st k' = sts k'.
  Proof. intros N. unfold upd. by rewrite decide_False. Qed.

  Lemma inv_sess_ext o sts sts' Is : (forall k, sts' k = sts k) -> inv o sts Is -> inv o sts' Is.
  Proof.
    intros X I. destruct I. split; try done.
    - intros k. by rewrite X.
    - intros k k' fd. rewrite !X. by apply i_fd0.
    - intros fd j A1. destruct (i_own0 fd j A1) as [k E]. exists k. by rewrite X.
    - intros fd ex j A1 A2 A3. destruct (i_lock0 fd ex j A1 A2 A3) as (k & d & c & E). exists k, d, c. by rewrite X.
    - intros j A1 A2. destruct (i_vals0 j A1) as (c & D & V).
      { intros k fd c S. apply (A2 k fd c). by rewrite X. }
      exists c. split; [done|]. destruct V as [V|(V1 & V2 & k & fd & V3)]; [by left|].
      right. split_and!; [done..|]. exists k, fd. by rewrite X.
  Qed.
  Lemma upd_id sts k st : sts k = st -> forall k', upd sts k st k' = sts k'.
  Proof. intros E k'. unfold upd. case_decide; [by subst|done]. Qed.

  (** Which nodes are files does not depend on contents. *)
  Definition same_kind (a b : option node) : Prop :=
    match a, b with
    | None, None | Some Dir, Some Dir | Some (File _), Some (File _) => True
    | _, _ => False
    end.
  Lemma same_kind_wf s s' : (forall q, same_kind (s' !! q) (s !! q)) -> wf_fs s -> wf_fs s'.
  Proof.
    intros X W q n x E. pose proof (X (q ++ [x])) as Y. rewrite E in Y.
    destruct (s !! (q ++ [x])) as [n'|] eqn:E'; [|by destruct n]. apply W in E'.
    destruct q as [|a q]; [done|]. cbn in E' |- *. specialize (X (a :: q)). rewrite E' in X.
    by destruct (s' !! (a :: q)) as [[]|].
  Qed.
  Lemma same_kind_absent s s' q : (forall q, same_kind (s' !! q) (s !! q)) -> file_at s q = None -> file_at s' q = None.
  Proof.
    intros X E. unfold file_at in *. destruct q as [|a q]; [done|]. cbn in *. specialize (X (a :: q)).
    destruct (s' !! (a :: q)) as [[]|], (s !! (a :: q)) as [[]|]; done.
  Qed.
  Lemma kinds_set_data o i c q : same_kind (view (set_data o i c) !! q) (view o !! q).
  Proof. rewrite !view_lookup. cbn. by destruct (o_tree o !! q) as [[]|]. Qed.

  Lemma next_fresh o : os_ok o -> o_fds o !! o_next o = None /\ o_locks o !! o_next o = None /\ o_data o !! o_next o = None.
  Proof.
    intros K. assert (o_fds o !! o_next o = None) as F.
    { destruct (o_fds o !! o_next o) eqn:E; [|done]. apply (ok_fds _ K) in E as [? _]. lia. }
    split_and!; [done| |].
    - destruct (o_locks o !! o_next o) eqn:E; [|done]. apply (ok_locks _ K) in E as [? E]. congruence.
    - destruct (o_data o !! o_next o) eqn:E; [|done].
      assert (o_next o < o_next o)%nat; [|lia]. apply (ok_data _ K). by rewrite E.
  Qed.

  Lemma normal_inj (a b : fpath) : map Normal a = map Normal b -> a = b.
  Proof.
    revert b. induction a as [|x a IH]; intros [|y b] E; try done.
    cbn in E. injection E as -> E. f_equal. by apply IH.
  Qed.
  Lemma snoc_parent (q : fpath) : q <> [] -> exists x, q = parent q ++ [x].
  Proof.
    destruct q as [|x q _] using rev_ind; [done|]. intros _. exists x. by rewrite parent_snoc.
  Qed.

  Lemma inv_same o sts Is k st : inv o sts Is -> sts k = st -> inv o (upd sts k st) Is.
  Proof. intros I E. eapply inv_sess_ext; [|exact I]. by apply upd_id. Qed.

  (** A fact about a session state carried to another machine state. *)
  Lemma sess_ok_other o o' (Is Is' : nat -> Prop) st fd0 : sess_ok o Is st -> fd_of st <> Some fd0 ->
    (forall fd, fd <> fd0 -> forall j, o_fds o !! fd = Some j -> o_fds o' !! fd = Some j /\ (Is' j <-> Is j)) ->
    (forall fd, fd <> fd0 -> is_Some (o_fds o !! fd) -> o_locks o' !! fd = o_locks o !! fd) ->
    (forall d fd c j, st = Hold d fd c -> o_fds o !! fd = Some j -> Is j -> o_locks o !! fd = Some (ex_of d) ->
       o_data o !! j = Some c -> o_data o' !! j = Some c) ->
    sess_ok o' Is' st.
  Proof.
    intros S N F L D. destruct st as [|w [] fd|d fd c]; cbn in *; [done|..].
    - destruct S as (j & S1 & S2 & S3). assert (fd <> fd0) as N' by congruence.
      destruct (F fd N' j S1) as [F1 F2]. exists j. rewrite L by (done || by rewrite S1). by rewrite F2.
    - destruct S as (j & S1 & S2). assert (fd <> fd0) as N' by congruence.
      destruct (F fd N' j S1) as [F1 F2]. exists j. by rewrite F2.
    - destruct S as (j & S1 & S2 & S3 & S4). assert (fd <> fd0) as N' by congruence.
      destruct (F fd N' j S1) as [F1 F2]. exists j. rewrite L by (done || by rewrite S1).
      split_and!; [done|by rewrite F2|done|by eapply D].
  Qed.

  Lemma fds_lt o fd j : os_ok o -> o_fds o !! fd = Some j -> (fd < o_next o)%nat /\ (j < o_next o)%nat.
  Proof. intros K F. apply (ok_fds _ K) in F as [F D]. split; [done|]. by apply (ok_data _ K). Qed.
  Lemma sess_fd o Is st fd : os_ok o -> sess_ok o Is st -> fd_of st = Some fd -> (fd < o_next o)%nat.
  Proof.
    intros K S E. destruct st as [|? [] ?|? ? ?]; cbn in *; [done|..]; injection E as ->;
      destruct S as (j & S & _); by apply (fds_lt _ _ _ K) in S as [? _].
  Qed.
  Lemma fd_of_upd o Is sts k st fd k1 k2 fd1 : inv o sts Is -> fd_of st = Some fd ->
    (forall k', k' <> k -> fd_of (sts k') <> Some fd) ->
    fd_of (upd sts k st k1) = Some fd1 -> fd_of (upd sts k st k2) = Some fd1 -> k1 = k2.
  Proof.
    intros I E N E1 E2.
    destruct (decide (k1 = k)) as [->|D1], (decide (k2 = k)) as [->|D2]; [done|..].
    - rewrite upd_same in E1. rewrite upd_ne in E2 by done. exfalso. apply (N k2 D2). congruence.
    - rewrite upd_same in E2. rewrite upd_ne in E1 by done. exfalso. apply (N k1 D1). congruence.
    - rewrite upd_ne in E1, E2 by done. by eapply i_fd.
  Qed.

  Lemma pending_open o o' sts k st j : sts k = Free -> pending o sts j ->
    (forall fd i, o_fds o !! fd = Some i -> o_fds o' !! fd = Some i) -> pending o' (upd sts k st) j.
  Proof.
    intros SF (k' & fd & S & F) X. exists k', fd. split; [|by apply X].
    rewrite upd_ne; [done|]. intros ->. congruence.
  Qed.
  Lemma own_open o o' sts Is k st fd0 : inv o sts Is -> sts k = Free -> fd_of st = Some fd0 ->
    (forall fd i, o_fds o' !! fd = Some i -> fd0 = fd /\ i = i \/ o_fds o !! fd = Some i) ->
    forall fd j, o_fds o' !! fd = Some j -> exists k', fd_of (upd sts k st k') = Some fd.
  Proof.
    intros I SF E X fd j F. apply X in F as [[<- _]|F]; [exists k; by rewrite upd_same|].
    destruct (i_own _ _ _ I fd j F) as [k' E']. exists k'. rewrite upd_ne; [done|]. intros ->. by rewrite SF in E'.
  Qed.
  Lemma own_same o o' sts Is k st fd0 : inv o sts Is -> fd_of (sts k) = Some fd0 -> fd_of st = Some fd0 ->
    o_fds o' = o_fds o ->
    forall fd j, o_fds o' !! fd = Some j -> exists k', fd_of (upd sts k st k') = Some fd.
  Proof.
    intros I E E' -> fd j F. destruct (i_own _ _ _ I fd j F) as [k' E1]. exists k'. unfold upd.
    case_decide; [|done]. congruence.
  Qed.
  (** Opening an existing file. *)
  Lemma inv_open o sts Is k q j w : inv o sts Is -> sts k = Free -> o_tree o !! q = Some (DFile j) ->
    inv (open_fd o j) (upd sts k (Open w (bool_decide (q = p)) (o_next o))) Is.
  Proof.
    intros I SF T. pose proof (i_ok _ _ _ I) as K.
    destruct (next_fresh _ K) as (N1 & N2 & N3).
    assert (forall k', fd_of (sts k') <> Some (o_next o)) as NF.
    { intros k' X. pose proof (sess_fd o Is _ _ K (i_sess _ _ _ I k') X). lia. }
    split.
    - apply ok_open_fd; [done|by eapply ok_tree].
    - rewrite view_open. apply I.
    - apply I.
    - apply I.
    - apply I.
    - apply I.
    - rewrite view_open. apply I.
    - intros k'. unfold upd. case_decide as X.
      + subst k'. destruct (i_at _ _ _ I q j T) as [A1 A2]. case_bool_decide; cbn.
        * exists j. rewrite lookup_insert. split_and!; [done|by apply A2|done].
        * exists j. rewrite lookup_insert. split; [done|]. intros Y. by apply A1 in Y.
      + eapply sess_ok_other; [apply I|apply NF| | |]; cbn.
        * intros fd D i F. by rewrite lookup_insert_ne.
        * done.
        * done.
    - intros k1 k2 fd. eapply fd_of_upd; [done|done|]. intros; apply NF.
    - eapply own_open; [done|done|done|]. intros fd i F; cbn in F. apply lookup_insert_Some in F as [[? ?]|[? ?]]; auto.
    - intros fd ex i L F II. cbn in L, F.
      assert (fd <> o_next o) as D by congruence. rewrite lookup_insert_ne in F by done.
      destruct (i_lock _ _ _ I fd ex i L F II) as (k' & d & c & E & E'). exists k', d, c.
      rewrite upd_ne; [done|]. intros ->. congruence.
    - intros fd fd' i ex ex' D L L' F F'. cbn in *.
      rewrite lookup_insert_ne in F by congruence. rewrite lookup_insert_ne in F' by congruence.
      by eapply i_compat.
    - intros i II X. destruct (i_vals _ _ _ I i II) as (c & D & V).
      { intros k' fd c S F. apply (X k' fd c).
        - rewrite upd_ne; [done|]. intros ->. congruence.
        - cbn. rewrite lookup_insert_ne; [done|]. intros <-. apply (NF k'). by rewrite S. }
      exists c. split; [done|]. destruct V as [V|(V1 & V2 & V3)]; [by left|right].
      split_and!; [done..|]. eapply pending_open; [done|done|]. intros fd' i' F'. cbn.
      rewrite lookup_insert_ne; [done|]. intros <-. congruence.
  Qed.

  (** Creating a file. *)
  Lemma file_at_insert_dir s q r : q <> [] -> node_at s q = None -> file_at (<[q := Dir]> s) r = file_at s r.
  Proof.
    intros N E. unfold file_at. rewrite node_at_insert by done. case_decide; [|done]. subst. by rewrite E.
  Qed.
  Lemma inv_create o sts Is k q : inv o sts Is -> sts k = Free -> q <> [] -> o_tree o !! q = None ->
    is_dir_at (view o) (parent q) = true -> ~ absent q ->
    let o1 := link (new_inode o) q (DFile (o_next o)) in
    inv (open_fd o1 (o_next o)) (upd sts k (Open true (bool_decide (q = p)) (o_next o1)))
        (fun j => Is j \/ (q = p /\ j = o_next o)).
  Proof.
    intros I SF QN T PD NA o1. pose proof (i_ok _ _ _ I) as K.
    destruct (next_fresh _ K) as (N1 & N2 & N3).
    assert (os_ok o1) as K1 by by apply ok_create.
    assert (forall k', fd_of (sts k') <> Some (S (o_next o))) as NF.
    { intros k' X. pose proof (sess_fd o Is _ _ K (i_sess _ _ _ I k') X). lia. }
    assert (forall j, Is j -> j <> o_next o) as NI.
    { intros j II ->. apply (i_dom _ _ _ I) in II as [? II]. congruence. }
    assert (forall fd, fd = S (o_next o) -> o_fds o !! fd = None /\ o_locks o !! fd = None) as NS.
    { intros fd ->. assert (o_fds o !! S (o_next o) = None) as A.
      { destruct (o_fds o !! S (o_next o)) eqn:X; [|done]. apply (fds_lt _ _ _ K) in X as [? _]. lia. }
      split; [done|]. destruct (o_locks o !! S (o_next o)) eqn:X; [|done].
      apply (ok_locks _ K) in X as [? X]. congruence. }
    assert (forall fd i, o_fds o !! fd = Some i -> i <> o_next o) as NJ.
    { intros fd i F ->. apply (fds_lt _ _ _ K) in F as [_ F]. lia. }
    assert (view (open_fd o1 (o_next o)) = <[q := File []]> (view o)) as EV.
    { rewrite view_open. by apply view_create. }
    split.
    - apply ok_open_fd; [done|]. cbn. by rewrite lookup_insert.
    - rewrite EV. destruct (snoc_parent q QN) as [x E]. rewrite E. apply wf_insert; [apply I| |].
      + by apply is_dir_at_true.
      + left. rewrite <- E, node_at_ne, view_lookup, T by done. done.
    - cbn. apply I.
    - intros r j Tr. cbn in Tr. destruct (decide (r = q)) as [->|D].
      + rewrite lookup_insert in Tr. injection Tr as <-. split; [intros [Y|[-> _]]; [|done]|intros ->; by right].
        by apply NI in Y.
      + rewrite lookup_insert_ne in Tr by done. rewrite <- (i_at _ _ _ I r j Tr).
        split; [intros [Y|[-> ->]]; [done|]|by left].
        apply (ok_tree _ K) in Tr. rewrite N3 in Tr. by destruct Tr.
    - intros j [II|[_ ->]]; cbn.
      + rewrite lookup_insert_ne by (intros <-; by apply NI in II). by apply I.
      + by rewrite lookup_insert.
    - intros ST. destruct (i_stable _ _ _ I ST) as [j Tj]. exists j. cbn.
      rewrite lookup_insert_ne; [done|]. intros ->. congruence.
    - intros r A. rewrite EV. unfold file_at. rewrite node_at_insert by done.
      case_decide; [by subst|]. by apply (i_absent _ _ _ I) in A.
    - intros k'. unfold upd. case_decide as X.
      + subst k'. case_bool_decide; cbn; exists (o_next o); rewrite lookup_insert.
        * split_and!; [done|by right|]. by apply NS.
        * split; [done|]. intros [Y|[Y _]]; [by apply NI in Y|done].
      + eapply (sess_ok_other o); [apply I|apply NF| | |]; cbn.
        * intros fd D i F. rewrite lookup_insert_ne by done. split; [done|].
          split; [intros [Y|[_ ->]]; [done|by apply NJ in F]|by left].
        * done.
        * intros _ fd c j _ F II _ E. by rewrite lookup_insert_ne by (intros <-; by apply NI in II).
    - intros k1 k2 fd. eapply fd_of_upd; [done|done|]. intros; apply NF.
    - eapply own_open; [done|done|done|]. intros fd i F; cbn in F. apply lookup_insert_Some in F as [[? ?]|[? ?]]; auto.
    - intros fd ex i L F II. cbn in L, F.
      assert (fd <> S (o_next o)) as D. { intros Y. apply NS in Y as [_ Y]. congruence. }
      rewrite lookup_insert_ne in F by done.
      assert (Is i) as II' by (destruct II as [?|[_ ->]]; [done|by apply NJ in F]).
      destruct (i_lock _ _ _ I fd ex i L F II') as (k' & d & c & E & E'). exists k', d, c.
      rewrite upd_ne; [done|]. intros ->. congruence.
    - intros fd fd' i ex ex' D L L' F F' II. cbn in *.
      rewrite lookup_insert_ne in F by (intros Y; symmetry in Y; apply NS in Y as [_ Y]; congruence).
      rewrite lookup_insert_ne in F' by (intros Y; symmetry in Y; apply NS in Y as [_ Y]; congruence).
      assert (Is i) as II' by (destruct II as [?|[_ ->]]; [done|by apply NJ in F]).
      eapply (i_compat _ _ _ I fd fd' i); done.
    - intros i II X. destruct II as [II|[-> ->]].
      + destruct (i_vals _ _ _ I i II) as (c & E & V).
        { intros k' fd c S F. apply (X k' fd c).
          - rewrite upd_ne; [done|]. intros ->. congruence.
          - cbn. rewrite lookup_insert_ne; [done|]. intros <-. apply (NF k'). by rewrite S. }
        exists c. cbn. rewrite lookup_insert_ne by (intros <-; by apply NI in II). split; [done|].
        destruct V as [V|(V1 & V2 & V3)]; [by left|right].
        split_and!; [done..|]. eapply pending_open; [done|done|]. intros fd' i' F'. cbn.
        rewrite lookup_insert_ne; [done|]. intros Y; symmetry in Y; apply NS in Y as [Y _]. congruence.
      + exists []. cbn. rewrite lookup_insert. split; [done|]. right. split_and!; [|done|].
        * intros ST. destruct (i_stable _ _ _ I ST) as [j Tj]. congruence.
        * exists k, (S (o_next o)). rewrite upd_same, bool_decide_true by done. cbn. by rewrite lookup_insert.
  Qed.

  (** Opening a directory. *)
  Lemma inv_open_dir o sts Is k : inv o sts Is -> sts k = Free ->
    let o1 := new_inode o in
    inv (open_fd o1 (o_next o)) (upd sts k (Open false false (o_next o1))) Is.
  Proof.
    intros I SF o1. pose proof (i_ok _ _ _ I) as K.
    destruct (next_fresh _ K) as (N1 & N2 & N3).
    assert (os_ok o1) as K1 by by apply ok_new_inode.
    assert (forall k', fd_of (sts k') <> Some (S (o_next o))) as NF.
    { intros k' X. pose proof (sess_fd o Is _ _ K (i_sess _ _ _ I k') X). lia. }
    assert (forall j, Is j -> j <> o_next o) as NI.
    { intros j II ->. apply (i_dom _ _ _ I) in II as [? II]. congruence. }
    assert (forall fd, fd = S (o_next o) -> o_fds o !! fd = None /\ o_locks o !! fd = None) as NS.
    { intros fd ->. assert (o_fds o !! S (o_next o) = None) as A.
      { destruct (o_fds o !! S (o_next o)) eqn:X; [|done]. apply (fds_lt _ _ _ K) in X as [? _]. lia. }
      split; [done|]. destruct (o_locks o !! S (o_next o)) eqn:X; [|done].
      apply (ok_locks _ K) in X as [? X]. congruence. }
    assert (view (open_fd o1 (o_next o)) = view o) as EV.
    { rewrite view_open. by apply view_new_inode. }
    split.
    - apply ok_open_fd; [done|]. cbn. by rewrite lookup_insert.
    - rewrite EV. apply I.
    - cbn. apply I.
    - apply I.
    - intros j II; cbn. rewrite lookup_insert_ne by (intros <-; by apply NI in II). by apply I.
    - apply I.
    - rewrite EV. apply I.
    - intros k'. unfold upd. case_decide as X.
      + subst k'. cbn; exists (o_next o); rewrite lookup_insert. split; [done|]. intros Y. by apply NI in Y.
      + eapply (sess_ok_other o); [apply I|apply NF| | |]; cbn.
        * intros fd D i F. by rewrite lookup_insert_ne.
        * done.
        * intros _ fd c j _ F II _ E. by rewrite lookup_insert_ne by (intros <-; by apply NI in II).
    - intros k1 k2 fd. eapply fd_of_upd; [done|done|]. intros; apply NF.
    - eapply own_open; [done|done|done|]. intros fd i F; cbn in F. apply lookup_insert_Some in F as [[? ?]|[? ?]]; auto.
    - intros fd ex i L F II. cbn in L, F.
      assert (fd <> S (o_next o)) as D. { intros Y. apply NS in Y as [_ Y]. congruence. }
      rewrite lookup_insert_ne in F by done.
      destruct (i_lock _ _ _ I fd ex i L F II) as (k' & d & c & E & E'). exists k', d, c.
      rewrite upd_ne; [done|]. intros ->. congruence.
    - intros fd fd' i ex ex' D L L' F F' II. cbn in *.
      rewrite lookup_insert_ne in F by (intros Y; symmetry in Y; apply NS in Y as [_ Y]; congruence).
      rewrite lookup_insert_ne in F' by (intros Y; symmetry in Y; apply NS in Y as [_ Y]; congruence).
      eapply (i_compat _ _ _ I fd fd' i); done.
    - intros i II X.
      destruct (i_vals _ _ _ I i II) as (c & E & V).
      { intros k' fd c S F. apply (X k' fd c).
        - rewrite upd_ne; [done|]. intros ->. congruence.
        - cbn. rewrite lookup_insert_ne; [done|]. intros <-. apply (NF k'). by rewrite S. }
      exists c. cbn. rewrite lookup_insert_ne by (intros <-; by apply NI in II). split; [done|].
      destruct V as [V|(V1 & V2 & V3)]; [by left|right].
      split_and!; [done..|]. eapply pending_open; [done|done|]. intros fd' i' F'. cbn.
      rewrite lookup_insert_ne; [done|]. intros Y; symmetry in Y; apply NS in Y as [Y _]. congruence.
  Qed.

  Lemma lock_conflict_false o fd ex : lock_conflict o fd ex = false ->
    forall fd' ex', o_locks o !! fd' = Some ex' -> fd' <> fd -> o_fds o !! fd' = o_fds o !! fd -> ex = false /\ ex' = false.
  Proof.
    intros C fd' ex' L N F. unfold lock_conflict in C.
    assert ((ex || ex') = false) as E.
    { destruct (ex || ex') eqn:E; [|done]. exfalso.
      rewrite <- not_true_iff_false in C. apply C. apply existsb_exists. exists (fd', ex').
      split; [apply elem_of_list_In; by apply elem_of_map_to_list|]. cbn.
      rewrite E. rewrite (proj2 (Nat.eqb_neq _ _)) by done. by rewrite bool_decide_true. }
    by apply orb_false_iff.
  Qed.
  Lemma fd_same sts k st fd o Is : inv o sts Is -> fd_of (sts k) = Some fd ->
    fd_of st = Some fd -> forall k1 k2 fd1,
    fd_of (upd sts k st k1) = Some fd1 -> fd_of (upd sts k st k2) = Some fd1 -> k1 = k2.
  Proof.
    intros I E E' k1 k2 fd1. eapply fd_of_upd; [done|done|]. intros k' N Y.
    by rewrite (i_fd _ _ _ I k' k fd Y E) in N.
  Qed.
  Lemma fd_other o sts Is k k' fd : inv o sts Is -> fd_of (sts k) = Some fd -> k' <> k -> fd_of (sts k') <> Some fd.
  Proof. intros I E N Y. by rewrite (i_fd _ _ _ I k' k fd Y E) in N. Qed.

  (** Locking. *)
  Lemma pending_upd o o' sts k st j : (forall fd, sts k = Open true true fd -> o_fds o !! fd <> Some j) -> pending o sts j ->
    (forall k' fd i, k' <> k -> sts k' = Open true true fd -> o_fds o !! fd = Some i -> o_fds o' !! fd = Some i) ->
    pending o' (upd sts k st) j.
  Proof.
    intros SF (k' & fd & S & F) X. assert (k' <> k) as N.
    { intros ->. by apply (SF fd S). }
    exists k', fd. split; [|by eapply X]. by rewrite upd_ne.
  Qed.
  Lemma inv_lock o sts Is k fd ex w : inv o sts Is -> sts k = Open w true fd -> lock_conflict o fd ex = false ->
    (w = true -> ex = true) ->
    exists c, (Vals c \/ ~ stable /\ c = []) /\
      inv (set_lock o fd ex) (upd sts k (Hold (if w then Dirty else if ex then Excl else Shared) fd c)) Is.
  Proof.
    intros I S C WE. pose proof (i_ok _ _ _ I) as K.
    pose proof (i_sess _ _ _ I k) as SK. rewrite S in SK. destruct SK as (j & F & II & L).
    assert (fd_of (sts k) = Some fd) as EF by by rewrite S.
    set (d := if w then Dirty else if ex then Excl else Shared).
    assert (ex_of d = ex) as ED by (destruct w; [rewrite WE by done|destruct ex]; done).
    destruct (i_vals _ _ _ I j II) as (c & D & V).
    { intros k' fd' c' S' F'. pose proof (i_sess _ _ _ I k') as SK'. rewrite S' in SK'.
      destruct SK' as (j' & F1 & _ & L1 & _).
      edestruct (lock_conflict_false _ _ _ C fd' true L1) as [_ Y]; [congruence|congruence|done]. }
    exists c. split; [destruct V as [V|(V & V' & _)]; auto|]. split.
    - apply ok_set_lock; [done|by rewrite F].
    - rewrite view_lock. apply I.
    - apply I.
    - apply I.
    - apply I.
    - apply I.
    - rewrite view_lock. apply I.
    - intros k'. unfold upd. case_decide as X.
      + subst k'. cbn. exists j. by rewrite lookup_insert, ED.
      + eapply sess_ok_other; [apply I|by eapply fd_other| | |]; cbn; try done.
        intros fd' N _. by rewrite lookup_insert_ne.
    - by eapply fd_same.
    - by eapply own_same.
    - intros fd' ex' i L' F' II'. cbn in *. destruct (decide (fd' = fd)) as [->|N].
      + rewrite lookup_insert in L'. injection L' as <-. exists k, d, c. by rewrite upd_same.
      + rewrite lookup_insert_ne in L' by done.
        destruct (i_lock _ _ _ I fd' ex' i L' F' II') as (k' & d' & c' & E & E'). exists k', d', c'.
        rewrite upd_ne; [done|]. intros ->. congruence.
    - intros fd1 fd2 i e1 e2 N L1 L2 F1 F2 II'. cbn in *.
      destruct (decide (fd1 = fd)) as [->|M1], (decide (fd2 = fd)) as [->|M2]; [done|..].
      + rewrite lookup_insert in L1. injection L1 as <-. rewrite lookup_insert_ne in L2 by done.
        by apply (lock_conflict_false _ _ _ C fd2 e2 L2); [|congruence].
      + rewrite lookup_insert in L2. injection L2 as <-. rewrite lookup_insert_ne in L1 by done.
        destruct (lock_conflict_false _ _ _ C fd1 e1 L1); [done|congruence|done].
      + rewrite lookup_insert_ne in L1, L2 by done. by eapply (i_compat _ _ _ I fd1 fd2).
    - intros i II' X. destruct (i_vals _ _ _ I i II') as (c' & D' & V').
      { intros k' fd' c' S' F'. apply (X k' fd' c'); [|done]. rewrite upd_ne; [done|]. intros ->. congruence. }
      exists c'. split; [done|]. destruct V' as [V'|(V1 & V2 & V3)]; [by left|right]. split_and!; [done..|].
      eapply pending_upd; [|done|done]. intros fd' S' F'.
      assert (w = true) as -> by congruence. assert (fd' = fd) as -> by congruence.
      eapply (X k fd c); [by rewrite upd_same|done].
  Qed.
  Lemma inv_lock_foreign o sts Is k fd ex w : inv o sts Is -> sts k = Open w false fd ->
    inv (set_lock o fd ex) (upd sts k (Open w false fd)) Is.
  Proof.
    intros I S. apply inv_same; [|done]. pose proof (i_ok _ _ _ I) as K.
    pose proof (i_sess _ _ _ I k) as SK. rewrite S in SK. destruct SK as (j & F & II).
    assert (forall fd' i, o_fds o !! fd' = Some i -> Is i -> fd' <> fd) as NN.
    { intros fd' i F' II' ->. congruence. }
    split.
    - apply ok_set_lock; [done|by rewrite F].
    - rewrite view_lock. apply I.
    - apply I.
    - apply I.
    - apply I.
    - apply I.
    - rewrite view_lock. apply I.
    - intros k'. destruct (decide (k' = k)) as [->|X].
      + rewrite S. cbn. by exists j.
      + eapply sess_ok_other; [apply I|eapply fd_other; [done|by rewrite S|done]| | |]; cbn; try done.
        intros fd' N _. by rewrite lookup_insert_ne.
    - apply I.
    - apply I.
    - intros fd' ex' i L' F' II'. cbn in *.
      rewrite lookup_insert_ne in L' by (intros Y; symmetry in Y; by eapply NN). by eapply i_lock.
    - intros fd1 fd2 i e1 e2 N L1 L2 F1 F2 II'. cbn in *.
      rewrite lookup_insert_ne in L1 by (intros Y; symmetry in Y; by eapply (NN fd1)).
      rewrite lookup_insert_ne in L2 by (intros Y; symmetry in Y; by eapply (NN fd2)).
      by eapply (i_compat _ _ _ I fd1 fd2).
    - apply I.
  Qed.

  (** Changing contents. *)
  Lemma inv_data o sts Is k fd j c c' d : inv o sts Is -> sts k = Hold d fd c -> ex_of d = true -> o_fds o !! fd = Some j ->
    inv (set_data o j c') (upd sts k (Hold Dirty fd c')) Is.
  Proof.
    intros I S ED F. pose proof (i_ok _ _ _ I) as K.
    pose proof (i_sess _ _ _ I k) as SK. rewrite S in SK. destruct SK as (j' & F' & II & L & D).
    rewrite ED in L. replace j' with j in * by congruence. clear F' j'.
    assert (fd_of (sts k) = Some fd) as EF by by rewrite S.
    split.
    - apply ok_set_data; [done|by rewrite D].
    - eapply same_kind_wf; [|apply I]. intros q. apply kinds_set_data.
    - apply I.
    - apply I.
    - intros i II'. cbn. destruct (decide (i = j)) as [->|N]; [by rewrite lookup_insert|].
      rewrite lookup_insert_ne by done. by apply I.
    - apply I.
    - intros q A. eapply same_kind_absent; [|by apply I]. intros r. apply kinds_set_data.
    - intros k'. unfold upd. case_decide as X.
      + subst k'. cbn. exists j. by rewrite lookup_insert.
      + eapply sess_ok_other; [apply I|by eapply fd_other| | |]; cbn; try done.
        intros ex fd' c1 i E F1 II1 L1 D1. destruct (decide (i = j)) as [->|N]; [|by rewrite lookup_insert_ne].
        exfalso. assert (fd <> fd') as NF.
        { intros <-. eapply fd_other; [done|exact EF|exact X|]. by rewrite E. }
        by destruct (i_compat _ _ _ I fd fd' j true _ NF L L1 F F1 II).
    - by eapply fd_same.
    - by eapply own_same.
    - intros fd' ex' i L' F' II'. cbn in *.
      destruct (i_lock _ _ _ I fd' ex' i L' F' II') as (k' & d1 & c1 & E & E').
      destruct (decide (k' = k)) as [->|N].
      + rewrite S in E. injection E as <- <- <-. exists k, Dirty, c'. rewrite upd_same. split; [done|]. cbn. congruence.
      + exists k', d1, c1. by rewrite upd_ne.
    - apply I.
    - intros i II' X. destruct (decide (i = j)) as [->|N].
      { exfalso. eapply (X k fd c'); [by rewrite upd_same|done]. }
      destruct (i_vals _ _ _ I i II') as (c1 & D1 & V1).
      { intros k' fd' c1 S' F'. destruct (decide (k' = k)) as [->|NK]; [congruence|].
        apply (X k' fd' c1); [by rewrite upd_ne|done]. }
      exists c1. cbn. rewrite lookup_insert_ne by done. split; [done|].
      destruct V1 as [V1|(V1 & V2 & V3)]; [by left|right]. split_and!; [done..|].
      eapply pending_upd; [|done|done]. congruence.
  Qed.
  Lemma inv_data_foreign o sts Is k fd j c' w : inv o sts Is -> sts k = Open w false fd -> o_fds o !! fd = Some j ->
    inv (set_data o j c') (upd sts k (Open w false fd)) Is.
  Proof.
    intros I S F. apply inv_same; [|done]. pose proof (i_ok _ _ _ I) as K.
    pose proof (i_sess _ _ _ I k) as SK. rewrite S in SK. destruct SK as (j' & F' & II).
    replace j' with j in * by congruence. clear F' j'.
    assert (forall i, Is i -> i <> j) as NN by congruence.
    split.
    - apply ok_set_data; [done|]. by apply (ok_fds _ K) in F as [_ ?].
    - eapply same_kind_wf; [|apply I]. intros q. apply kinds_set_data.
    - apply I.
    - apply I.
    - intros i II'. cbn. rewrite lookup_insert_ne by (intros <-; by apply NN in II'). by apply I.
    - apply I.
    - intros q A. eapply same_kind_absent; [|by apply I]. intros r. apply kinds_set_data.
    - intros k'. destruct (decide (k' = k)) as [->|X].
      + rewrite S. cbn. by exists j.
      + eapply sess_ok_other; [apply I|eapply fd_other; [done|by rewrite S|done]| | |]; cbn; try done.
        intros ex fd' c1 i E F1 II1 L1 D1. by rewrite lookup_insert_ne by (intros <-; by apply NN in II1).
    - apply I.
    - apply I.
    - apply I.
    - apply I.
    - intros i II' X. cbn in *. rewrite lookup_insert_ne by (intros <-; by apply NN in II'). by apply I.
  Qed.

  (** Closing. *)
  Lemma inv_close o sts Is k fd : inv o sts Is -> fd_of (sts k) = Some fd ->
    (forall c, sts k = Hold Dirty fd c -> Vals c) -> (sts k = Open true true fd -> Vals []) ->
    inv (close_fd o fd) (upd sts k Free) Is.
  Proof.
    intros I EF V NP. pose proof (i_ok _ _ _ I) as K.
    split.
    - by apply ok_close.
    - rewrite view_close. apply I.
    - apply I.
    - apply I.
    - apply I.
    - apply I.
    - rewrite view_close. apply I.
    - intros k'. unfold upd. case_decide as X; [done|].
      eapply sess_ok_other; [apply I|by eapply fd_other| | |]; cbn; try done.
      + intros fd' N i F. by rewrite lookup_delete_ne.
      + intros fd' N _. by rewrite lookup_delete_ne.
    - intros k1 k2 fd1. unfold upd. repeat case_decide; try done. apply I.
    - intros fd' i F'. cbn in F'. apply lookup_delete_Some in F' as [N F'].
      destruct (i_own _ _ _ I fd' i F') as [k' E']. exists k'. rewrite upd_ne; [done|]. intros ->. congruence.
    - intros fd' ex' i L' F' II'. cbn in *.
      apply lookup_delete_Some in L' as [N L']. apply lookup_delete_Some in F' as [_ F'].
      destruct (i_lock _ _ _ I fd' ex' i L' F' II') as (k' & d1 & c1 & E & E').
      exists k', d1, c1. rewrite upd_ne; [done|]. intros ->. rewrite E in EF. cbn in EF. congruence.
    - intros fd1 fd2 i e1 e2 N L1 L2 F1 F2 II'. cbn in *.
      apply lookup_delete_Some in L1 as [_ L1], L2 as [_ L2], F1 as [_ F1], F2 as [_ F2].
      by eapply (i_compat _ _ _ I fd1 fd2).
    - intros i II' X. cbn in *.
      assert ((exists c, sts k = Hold Dirty fd c /\ o_fds o !! fd = Some i) \/
              (forall c, sts k = Hold Dirty fd c -> o_fds o !! fd <> Some i)) as [(c & S & F)|N].
      { destruct (sts k) as [|w m fd'|d fd' c]; [by right|by right|].
        destruct (decide (o_fds o !! fd = Some i)) as [F|F]; [|by right].
        destruct d; [by right|by right|]. left. exists c. split; [|done]. cbn in EF. congruence. }
      + pose proof (i_sess _ _ _ I k) as SK. rewrite S in SK. destruct SK as (j & F' & _ & _ & D).
        exists c. split; [congruence|]. left. by apply V.
      + destruct (i_vals _ _ _ I i II') as (c1 & D1 & V1).
        { intros k' fd' c1 S' F'. destruct (decide (k' = k)) as [->|NK].
          - rewrite S' in EF. cbn in EF. injection EF as ->. by apply (N c1).
          - apply (X k' fd' c1); [by rewrite upd_ne|]. rewrite lookup_delete_ne; [done|].
            intros <-. eapply (fd_other _ _ _ k k'); [done|exact EF|done|]. by rewrite S'. }
        exists c1. split; [done|]. destruct V1 as [V1|(V1 & V2 & V3)]; [by left|].
        assert (sts k = Open true true fd \/ sts k <> Open true true fd) as [SO|NO].
        { destruct (sts k) as [|[] [] fd'|]; try (by right). cbn in EF. injection EF as ->. by left. }
        { left. subst c1. by apply NP. }
        right. split_and!; [done..|]. eapply pending_upd; [|done|].
        * intros fd' S' F'. rewrite S' in EF. cbn in EF. injection EF as ->. done.
        * intros k' fd' i' NK S' F'. cbn. rewrite lookup_delete_ne; [done|]. intros <-.
          eapply (fd_other _ _ _ k k'); [done|exact EF|done|]. by rewrite S'.
  Qed.

  (** The tree without the file at another path, or with a new directory. *)
  Lemma wf_delete s q c : wf_fs s -> node_at s q = Some (File c) -> wf_fs (delete q s).
  Proof.
    intros W E r n x Hx. assert (q <> []) as QN by (intros X; rewrite X in E; done).
    apply lookup_delete_Some in Hx as [N Hx]. rewrite node_at_delete by done.
    apply W in Hx. case_decide; [|done]. subst. congruence.
  Qed.
  Lemma wf_rmdir s q : wf_fs s -> q <> [] -> entries_of s q = [] -> wf_fs (delete q s).
  Proof.
    intros W QN EE r n x Hx. apply lookup_delete_Some in Hx as [N Hx]. rewrite node_at_delete by done.
    case_decide as D; [|by eapply W]. subst r. apply entries_elem in Hx. rewrite EE in Hx. by apply elem_of_nil in Hx.
  Qed.
  Lemma inv_unlink o sts Is q c : inv o sts Is -> node_at (view o) q = Some (File c) -> (stable -> q <> p) ->
    inv (unlink o q) sts Is.
  Proof.
    intros I E N. split; try apply I.
    - apply ok_unlink. apply I.
    - rewrite view_unlink. by eapply wf_delete; [apply I|].
    - intros r j T. cbn in T. apply lookup_delete_Some in T as [_ T]. by apply I.
    - intros ST. destruct (i_stable _ _ _ I ST) as [j T]. exists j. cbn.
      rewrite lookup_delete_ne; [done|]. by apply N.
    - intros r A. rewrite view_unlink. unfold file_at. rewrite node_at_delete.
      + case_decide; [done|]. by apply (i_absent _ _ _ I) in A.
      + intros ->. done.
  Qed.
  Lemma inv_rmdir o sts Is q : inv o sts Is -> node_at (view o) q = Some Dir -> q <> [] ->
    entries_of (view o) q = [] -> inv (unlink o q) sts Is.
  Proof.
    intros I E QN EE.
    assert (o_tree o !! q = Some DDir) as T.
    { rewrite node_at_ne, view_lookup in E by done. by destruct (o_tree o !! q) as [[|]|]. }
    split; try apply I.
    - apply ok_unlink. apply I.
    - rewrite view_unlink. by eapply wf_rmdir; [apply I| |].
    - intros r j Tr. cbn in Tr. apply lookup_delete_Some in Tr as [_ Tr]. by apply I.
    - intros ST. destruct (i_stable _ _ _ I ST) as [j Tj]. exists j. cbn.
      rewrite lookup_delete_ne; [done|]. intros ->. congruence.
    - intros r A. rewrite view_unlink. unfold file_at. rewrite node_at_delete by done.
      case_decide; [done|]. by apply (i_absent _ _ _ I) in A.
  Qed.
  Lemma inv_mkdir o sts Is q : inv o sts Is -> node_at (view o) q = None -> is_dir_at (view o) (parent q) = true ->
    inv (link o q DDir) sts Is.
  Proof.
    intros I E PD. assert (q <> []) as QN by by intros ->.
    assert (o_tree o !! q = None) as T.
    { rewrite node_at_ne, view_lookup in E by done. by destruct (o_tree o !! q). }
    split; try apply I.
    - apply ok_link_dir. apply I.
    - rewrite view_link_dir. destruct (snoc_parent q QN) as [x X]. rewrite X.
      apply wf_insert; [apply I|by apply is_dir_at_true|by right].
    - intros r j Tr. cbn in Tr. destruct (decide (r = q)) as [->|D]; [by rewrite lookup_insert in Tr|].
      rewrite lookup_insert_ne in Tr by done. by apply I.
    - intros ST. destruct (i_stable _ _ _ I ST) as [j Tj]. exists j. cbn.
      rewrite lookup_insert_ne; [done|]. intros ->. congruence.
    - intros r A. rewrite view_link_dir, file_at_insert_dir by done. by apply I.
  Qed.
  Lemma inv_accepted o sts Is n : inv o sts Is -> inv (accepted o n) sts Is.
  Proof.
    intros I. split; try apply I.
    - apply ok_accepted. apply I.
    - cbn. by rewrite (i_room _ _ _ I).
  Qed.

  Theorem sys_step_inv {T} (c : sys T) o o' x sts Is k : inv o sts Is -> pre T (sts k) c ->
    sys_step c o = Some (o', x) ->
    exists st' Is', nxt T (sts k) c x st' /\ inv o' (upd sts k st') Is'.
  Proof.
    intros I P E. pose proof (i_ok _ _ _ I) as K. pose proof (i_wf _ _ _ I) as W.
    destruct c; cbn [sys_step] in E; cbn [pre] in P; cbn [nxt].
    - injection E as <- <-. exists (sts k), Is. split; [|by apply inv_same]. split_and!; [done|..].
      + intros ST ->. rewrite path_is_file_plain by done. destruct (i_stable _ _ _ I ST) as [j Tj].
        unfold file_at. by rewrite node_at_ne, view_lookup, Tj.
      + intros q A ->. rewrite path_is_file_plain by done. by rewrite (i_absent _ _ _ I q A).
    - injection E as <- <-. exists (sts k), Is. split; [done|by apply inv_same].
    - injection E as <- <-. exists (sts k), Is. split; [|by apply inv_same]. split; [done|].
      intros ST n ->. rewrite path_exists_plain by done. destruct (i_stable _ _ _ I ST) as [j Tj].
      assert (exists c, node_at (view o) p = Some (File c)) as [c EN].
      { eexists. by apply view_of_tree. }
      destruct (decide (take n p = p)) as [->|NP]; [by rewrite EN|].
      erewrite wf_strict; [done|done|exact EN| |done]. exists (drop n p). by rewrite take_drop.
    - injection E as E. exists (sts k), Is.
      destruct (walk (view o) [] cs) as [q|e|] eqn:EW; [| |by apply walk_no_panic in EW].
      2:{ injection E as <- <-. split; [done|by apply inv_same]. }
      destruct (node_at (view o) q) as [n|] eqn:EN.
      { injection E as <- <-. split; [done|by apply inv_same]. }
      destruct (is_dir_at (view o) (parent q)) eqn:EP; injection E as <- <-.
      + split; [done|]. apply inv_same; [|done]. by apply inv_mkdir.
      + split; [done|by apply inv_same].
    - injection E as E. destruct P as (SF & q & -> & NA).
      assert (forall o1 e, (o, Err e) = (o1, x) -> ~ (stable /\ q = p) ->
        exists st' Is', match x with Ok fd => st' = Open true (bool_decide (map Normal q = map Normal p)) fd
          | Err _ => st' = Free /\ ~ (stable /\ map Normal q = map Normal p) | Panic => False end /\
          inv o1 (upd sts k st') Is') as ERR.
      { intros o1 e E1 NN. injection E1 as <- <-. exists Free, Is. split; [|by apply inv_same].
        split; [done|]. intros [S1 S2]. apply NN. split; [done|by apply normal_inj]. }
      assert (stable /\ q = p -> walk (view o) [] (map Normal q) = Ok q /\ exists j, o_tree o !! q = Some (DFile j)) as ST.
      { intros [S1 ->]. destruct (i_stable _ _ _ I S1) as [j Tj]. split; [|by exists j].
        eapply (walk_present (view o) p [] (File _)); [done|]. by apply view_of_tree. }
      destruct (walk (view o) [] (map Normal q)) as [r|e|] eqn:EW; [| |by apply walk_no_panic in EW].
      2:{ eapply ERR; [exact E|]. intros Y. by apply ST in Y as [? _]. }
      apply walk_normal_target in EW as ->. cbn [app] in *.
      destruct (decide (q = [])) as [->|QN].
      { eapply ERR; [exact E|]. intros [_ Y]. congruence. }
      destruct q as [|a q'] eqn:EQ; [done|]. rewrite <- EQ in *. clear EQ a q'.
      destruct (o_tree o !! q) as [[|j]|] eqn:ET.
      + eapply ERR; [exact E|]. intros Y. apply ST in Y as [_ [? ?]]. congruence.
      + injection E as <- <-. eexists _, Is. split; [reflexivity|].
        erewrite bool_decide_ext; [by eapply inv_open|].
        split; [apply normal_inj|by intros ->].
      + destruct (is_dir_at (view o) (parent q)) eqn:EP.
        * injection E as <- <-. eexists _, _. split; [reflexivity|].
          erewrite bool_decide_ext; [by apply inv_create|].
          split; [apply normal_inj|by intros ->].
        * eapply ERR; [exact E|]. intros Y. apply ST in Y as [_ [? ?]]. congruence.
    - injection E as E. destruct P as (SF & q & ->).
      assert (forall o1 e, (o, Err e) = (o1, x) -> ~ (stable /\ q = p) ->
        exists st' Is', match x with Ok fd => exists m, st' = Open false m fd /\ (m = true -> map Normal q = map Normal p)
                     /\ (map Normal q = map Normal p -> dir_ok = false \/ stable -> m = true)
          | Err _ => st' = Free /\ ~ (stable /\ map Normal q = map Normal p) | Panic => False end /\
          inv o1 (upd sts k st') Is') as ERR.
      { intros o1 e E1 NN. injection E1 as <- <-. exists Free, Is. split; [|by apply inv_same].
        split; [done|]. intros [S1 S2]. apply NN. split; [done|by apply normal_inj]. }
      assert (stable /\ q = p -> walk (view o) [] (map Normal q) = Ok q /\ exists j, o_tree o !! q = Some (DFile j)) as ST.
      { intros [S1 ->]. destruct (i_stable _ _ _ I S1) as [j Tj]. split; [|by exists j].
        eapply (walk_present (view o) p [] (File _)); [done|]. by apply view_of_tree. }
      assert (stable /\ q = p -> exists c, node_at (view o) q = Some (File c)) as SN.
      { intros [S1 ->]. destruct (i_stable _ _ _ I S1) as [j Tj]. eexists. by apply view_of_tree. }
      destruct (walk (view o) [] (map Normal q)) as [r|e|] eqn:EW; [| |by apply walk_no_panic in EW].
      2:{ eapply ERR; [exact E|]. intros Y. by apply ST in Y as [? _]. }
      apply walk_normal_target in EW as ->. cbn [app] in *.
      destruct (node_at (view o) q) as [[|c]|] eqn:EN.
      + destruct dir_ok.
        * injection E as <- <-. eexists _, Is. split; [|by apply inv_open_dir].
          exists false. split_and!; [done|done|]. intros Y [Z|Z]; [done|].
          destruct SN as [? ?]; [split; [done|by apply normal_inj]|done].
        * eapply ERR; [exact E|]. intros Y. by apply SN in Y as [? ?].
      + pose proof (view_file_ne _ _ _ EN) as QN.
        destruct (view_file _ _ _ QN EN) as (j & ET & D). rewrite ET in E. injection E as <- <-.
        eexists _, Is. split; [|by eapply inv_open]. eexists. split_and!; [reflexivity|..].
        * intros Y%bool_decide_eq_true. by subst.
        * intros Y%normal_inj _. by apply bool_decide_true.
      + eapply ERR; [exact E|]. intros Y. by apply SN in Y as [? ?].
    - destruct P as (w & m & P & WE). destruct (o_fds o !! fd) as [j|] eqn:F; [|done].
      destruct (lock_conflict o fd ex) eqn:C; [done|]. injection E as <- <-. destruct m.
      + destruct (inv_lock _ _ _ _ _ _ _ I P C WE) as (c & V & I'). eexists _, Is. split; [|exact I'].
        right. by exists w, c.
      + eexists _, Is. split; [|by apply inv_lock_foreign]. left. by exists w.
    - destruct (o_fds o !! fd) as [j|] eqn:F; [|done]. injection E as <- <-. destruct P as [[w P]|(d & c & P & ED)].
      + eexists _, Is. split; [|by apply inv_data_foreign]. left. by exists w.
      + eexists _, Is. split; [|by eapply inv_data]. right. by exists d, c.
    - destruct (o_fds o !! fd) as [j|] eqn:F; [|done]. injection E as E.
      assert (b <> [] -> (0 < accept o (length b))%nat) as AP.
      { intros NB. unfold accept. rewrite (i_room _ _ _ I). destruct b; [done|]. destruct (o_short o); cbn; lia. }
      assert (accept o (length b) <= length b)%nat as AL.
      { unfold accept. rewrite (i_room _ _ _ I). destruct (o_short o); lia. }
      replace (bool_decide (accept o (length b) = 0%nat) && negb (bool_decide (b = []))) with false in E.
      2:{ symmetry. apply andb_false_iff. destruct (decide (b = [])) as [->|NB]; [by right|].
          left. apply bool_decide_false. apply AP in NB. lia. }
      injection E as <- <-. set (n := accept o (length b)) in *.
      assert (inv (accepted o n) sts Is) as I' by by apply inv_accepted.
      destruct P as [[w P]|(d & c & P & ED & ->)].
      + eexists _, Is. split; [|by apply inv_data_foreign]. exists n. split_and!; try done. left. by exists w.
      + assert (o_data o !! j = Some c) as D.
        { pose proof (i_sess _ _ _ I k) as SK. rewrite P in SK. destruct SK as (j' & F' & _ & _ & D). congruence. }
        rewrite D. cbn [default]. unfold from_option, id. rewrite write_at_end.
        eexists _, Is. split; [|by eapply inv_data]. exists n. split_and!; try done. right. by exists d, c.
    - destruct (o_fds o !! fd) as [j|] eqn:F; [|done]. injection E as <- <-.
      exists (sts k), Is. split; [|by apply inv_same]. split; [done|]. intros ex c S.
      pose proof (i_sess _ _ _ I k) as SK. rewrite S in SK. destruct SK as (j' & F' & _ & _ & D).
      replace j' with j in * by congruence. by rewrite D.
    - injection E as <- <-. exists Free, Is. split; [done|]. destruct P as [(w & m & P & WM)|(d & c & P & V)].
      + apply inv_close; [done|by rewrite P| |].
        * intros c Y. congruence.
        * intros Y. rewrite P in Y. injection Y as -> ->. by apply WM.
      + apply inv_close; [done|by rewrite P| |congruence]. intros c' Y. rewrite P in Y. injection Y as -> ->. by apply V.
    - injection E as E. destruct P as (q & -> & NP). exists (sts k), Is.
      destruct (walk (view o) [] (map Normal q)) as [r|e|] eqn:EW; [| |by apply walk_no_panic in EW].
      2:{ injection E as <- <-. split; [done|by apply inv_same]. }
      apply walk_normal_target in EW as ->. cbn [app] in *.
      destruct (node_at (view o) q) as [[|c]|] eqn:EN; injection E as <- <-.
      + split; [done|by apply inv_same].
      + split; [done|]. apply inv_same; [|done]. by eapply inv_unlink.
      + split; [done|by apply inv_same].
    - injection E as <- <-. exists (sts k), Is. split; [done|by apply inv_same].
    - injection E as <- <-. exists (sts k), Is. split; [|by apply inv_same]. split; [done|].
      destruct (walk (view o) [] cs) as [r|e|] eqn:EW; [|done|by apply walk_no_panic in EW].
      by destruct (node_at (view o) r) as [[|]|].
    - injection E as E. exists (sts k), Is.
      destruct (walk (view o) [] cs) as [q|e|] eqn:EW; [| |by apply walk_no_panic in EW].
      2:{ injection E as <- <-. split; [done|by apply inv_same]. }
      destruct (node_at (view o) q) as [[|c]|] eqn:EN.
      2-3: injection E as <- <-; split; [done|by apply inv_same].
      destruct (_ || _) eqn:EE; injection E as <- <-; [split; [done|by apply inv_same]|].
      apply orb_false_iff in EE as [E1%bool_decide_eq_false E2%negb_false_iff%bool_decide_eq_true].
      split; [done|]. apply inv_same; [|done]. by apply inv_rmdir.
  Qed.

  (** ** Any interleaving *)
  Lemma inv_start o : calm o -> wf_fs (view o) ->
    (forall c, file_at (view o) p = Some c -> Vals c) ->
    (stable -> exists c, file_at (view o) p = Some c) ->
    (forall q, absent q -> file_at (view o) q = None) ->
    inv o (fun _ => Free) (fun j => o_tree o !! p = Some (DFile j)).
  Proof.
    intros ((K & F & L) & R) W V ST A.
    assert (forall j, o_tree o !! p = Some (DFile j) -> exists c, o_data o !! j = Some c /\ file_at (view o) p = Some c) as D.
    { intros j T. destruct (ok_tree _ K _ _ T) as [c D]. exists c. split; [done|].
      unfold file_at. by rewrite node_at_ne, view_lookup, T by done; cbn; rewrite D. }
    split; try done.
    - intros q j T. split; [intros T'; by eapply ok_one|by intros ->].
    - intros j T. destruct (D j T) as (c & -> & _). by exists c.
    - intros S. destruct (ST S) as [c E]. unfold file_at in E.
      rewrite node_at_ne, view_lookup in E by done. destruct (o_tree o !! p) as [[|j]|]; [done| |done]. by exists j.
    - intros fd j X. by rewrite F, lookup_empty in X.
    - intros fd ex j X. by rewrite L, lookup_empty in X.
    - intros fd fd' j ex ex' _ X. by rewrite L, lookup_empty in X.
    - intros j T _. destruct (D j T) as (c & E1 & E2). exists c. split; [done|left]. by apply V.
  Qed.

  Lemma csteps_follows {A} (fin : nat -> sess -> A -> Prop) c c' : csteps c c' -> forall sts Is,
    inv (fst c) sts Is ->
    (forall i, snd c !! i = None -> sts i = Free) ->
    (forall i q, snd c !! i = Some q -> follows pre nxt (fin i) (sts i) q) ->
    exists sts' Is', inv (fst c') sts' Is' /\
      (forall i, snd c' !! i = None -> sts' i = Free) /\
      (forall i q, snd c' !! i = Some q -> follows pre nxt (fin i) (sts' i) q).
  Proof.
    induction 1 as [c|o ps i q o1 q1 c E P S IH]; intros sts Is I N F.
    - by exists sts, Is.
    - cbn [fst snd] in *. pose proof (F i q E) as Fi. destruct q as [a|T call k]; cbn in P; [done|].
      destruct (sys_step call o) as [[o2 x]|] eqn:X; [|done]. injection P as <- <-. destruct Fi as [P1 P2].
      destruct (sys_step_inv call o o2 x sts Is i I P1 X) as (st' & Is' & N1 & I').
      eapply IH; [exact I'| |].
      + intros i' E'. assert (i' <> i) as D.
        { intros ->. rewrite list_lookup_insert in E' by by eapply lookup_lt_Some. done. }
        rewrite list_lookup_insert_ne in E' by done. rewrite upd_ne by done. by apply N.
      + intros i' q' E'. destruct (decide (i' = i)) as [->|D].
        * rewrite list_lookup_insert in E' by by eapply lookup_lt_Some. injection E' as <-.
          rewrite upd_same. by apply P2.
        * rewrite list_lookup_insert_ne in E' by done. rewrite upd_ne by done. by apply F.
  Qed.

  (** Nothing open: the file is absent or has one of the values. *)
  Lemma inv_done o sts Is : inv o sts Is -> (forall k, sts k = Free) ->
    forall c, file_at (view o) p = Some c -> Vals c.
  Proof.
    intros I FR c E. apply file_at_some in E. destruct (view_file _ _ _ NE E) as (j & T & D).
    destruct (i_vals _ _ _ I j) as (c' & D' & V).
    - by apply (i_at _ _ _ I p j T).
    - intros k fd c' S. by rewrite FR in S.
    - rewrite D' in D. cbn in D. subst c'. destruct V as [V|(_ & _ & k & fd & S & _)]; [done|].
      by rewrite FR in S.
  Qed.
  Lemma inv_calm o sts Is : inv o sts Is -> (forall k, sts k = Free) -> calm o.
  Proof.
    intros I FR. assert (o_fds o = ∅) as F.
    { apply map_empty. intros fd. destruct (o_fds o !! fd) as [j|] eqn:E; [|done].
      destruct (i_own _ _ _ I fd j E) as [k X]. by rewrite FR in X. }
    split; [|apply I]. split_and!; [apply I|done|]. apply map_empty. intros fd.
    destruct (o_locks o !! fd) as [j|] eqn:E; [|done].
    apply (ok_locks _ (i_ok _ _ _ I)) in E as [x E]. by rewrite F, lookup_empty in E.
  Qed.
  Lemma inv_stable o sts Is : inv o sts Is -> stable -> exists c, file_at (view o) p = Some c.
  Proof.
    intros I ST. destruct (i_stable _ _ _ I ST) as [j T]. eexists. apply file_at_some. by apply view_of_tree.
  Qed.

  Theorem interleave {A} (fin : nat -> sess -> A -> Prop) o ps o' ps' : calm o -> wf_fs (view o) ->
    (forall c, file_at (view o) p = Some c -> Vals c) ->
    (stable -> exists c, file_at (view o) p = Some c) ->
    (forall q, absent q -> file_at (view o) q = None) ->
    (forall i q, ps !! i = Some q -> follows pre nxt (fin i) Free q) ->
    csteps (o, ps) (o', ps') ->
    (forall i a, ps' !! i = Some (Ret a) -> exists st, fin i st a) /\
    wf_fs (view o') /\
    ((forall i st a, fin i st a -> st = Free) -> (forall i q, ps' !! i = Some q -> exists a, q = Ret a) ->
       calm o' /\ (forall c, file_at (view o') p = Some c -> Vals c) /\
       (stable -> exists c, file_at (view o') p = Some c) /\
       (forall q, absent q -> file_at (view o') q = None)).
  Proof.
    intros CA W V ST AB F S.
    destruct (csteps_follows fin _ _ S (fun _ => Free) (fun j => o_tree o !! p = Some (DFile j)))
      as (sts & Is & I & N & F'); [by apply inv_start|done|done|]. cbn [fst snd] in *.
    split_and!.
    - intros i a E. exists (sts i). by apply (F' i (Ret a)).
    - apply I.
    - intros FF R. assert (forall k, sts k = Free) as FR.
      { intros k. destruct (ps' !! k) as [q|] eqn:E; [|by apply N].
        destruct (R _ _ E) as [a ->]. specialize (F' _ _ E). cbn in F'. by eapply FF. }
      split_and!.
      + by eapply inv_calm.
      + by eapply inv_done.
      + by eapply inv_stable.
      + apply I.
  Qed.
End OneFile.
