(** Processes of which none writes a file another one touches (C57). *)
From Verif Require Import BaseFacts PathFacts FSFacts Spec.
From Verif Require Import Sys SpecSys SysFacts CrashFacts ConcFacts.
Local Open Scope Z_scope.

(** The open file of a process: being read, being written, or unlinked. *)
Inductive rmode := MRead | MWrite | MGone.
(** The open file with its path and content; directories known to exist; the
    changes made so far. *)
Record rsess := RS {
  r_fd : option (rmode * nat * fpath * bytes);
  r_dirs : gset fpath;
  r_delta : gmap fpath (option bytes)
}.

Section Protocol.
  (** The file system at the start, what the process may write, and what it may
      read or write. *)
  Context (s0 : fs) (W S : fpath -> Prop).
  Definition now (d : gmap fpath (option bytes)) (q : fpath) : option bytes :=
    match d !! q with Some x => x | None => file_at s0 q end.
  Definition with_fd (st : rsess) x := RS x (r_dirs st) (r_delta st).
  Definition with_dir (st : rsess) q := RS (r_fd st) ({[q]} ∪ r_dirs st) (r_delta st).
  Definition is_some (x : option bytes) : bool := match x with Some _ => true | None => false end.

  Definition rpre (T : Type) (st : rsess) (c : sys T) : Prop :=
    match c with
    | SIsFile cs => r_fd st = None /\ exists q, cs = map Normal q /\ S q
    | SIsDir cs => exists q, cs = map Normal q
    | SExists cs => r_fd st = None /\ exists q, cs = map Normal q
    | SMkdir cs => exists q w, cs = map Normal q /\ W w /\ q `prefix_of` w /\ q <> w /\ q <> []
    | SOpenW cs => r_fd st = None /\ exists q, cs = map Normal q /\ W q /\
        (parent q = [] \/ parent q ∈ r_dirs st)
    | SOpenR _ cs => r_fd st = None /\ exists q, cs = map Normal q /\ S q /\ is_Some (now (r_delta st) q)
    | SLock fd _ => exists md q c, r_fd st = Some (md, fd, q, c)
    | STrunc fd => exists q c, r_fd st = Some (MWrite, fd, q, c)
    | SWrite fd off _ => exists q c, r_fd st = Some (MWrite, fd, q, c) /\ off = length c
    | SRead fd _ _ => exists q c, r_fd st = Some (MRead, fd, q, c)
    | SClose fd => exists md q c, r_fd st = Some (md, fd, q, c)
    | SUnlink cs => exists fd q c, r_fd st = Some (MRead, fd, q, c) /\ W q /\ cs = map Normal q
    | SStat _ | SReadDir _ | SRmdir _ => False
    end.
  Definition rnxt (T : Type) (st : rsess) (c : sys T) : T -> rsess -> Prop :=
    match c in sys T return T -> rsess -> Prop with
    | SIsFile cs => fun x st' => st' = st /\
        forall q, cs = map Normal q -> x = is_some (now (r_delta st) q)
    | SIsDir cs => fun x st' => st' = st /\ forall q, cs = map Normal q -> q ∈ r_dirs st -> x = true
    | SExists cs => fun x st' => r_fd st' = None /\ r_delta st' = r_delta st /\ r_dirs st ⊆ r_dirs st' /\
        (forall q, cs = map Normal q -> W q -> x = is_some (now (r_delta st) q)) /\
        (x = true -> forall q w, cs = map Normal q -> W w -> q `prefix_of` w -> q <> w -> q ∈ r_dirs st')
    | SMkdir cs => fun x st' => exists q, cs = map Normal q /\
        match x with
        | Ok _ | Err AlreadyExists => st' = with_dir st q
        | Err NotFound => st' = st /\ parent q <> [] /\ parent q ∉ r_dirs st
        | _ => False
        end
    | SOpenW cs => fun x st' => exists fd q, cs = map Normal q /\ x = Ok fd /\
        st' = with_fd st (Some (MWrite, fd, q, default [] (now (r_delta st) q)))
    | SOpenR _ cs => fun x st' => exists fd q c, cs = map Normal q /\ x = Ok fd /\ now (r_delta st) q = Some c /\
        st' = with_fd st (Some (MRead, fd, q, c))
    | SLock _ _ => fun _ st' => st' = st
    | STrunc fd => fun _ st' => exists q c, r_fd st = Some (MWrite, fd, q, c) /\
        st' = with_fd st (Some (MWrite, fd, q, []))
    | SWrite fd _ b => fun x st' => exists n q c, r_fd st = Some (MWrite, fd, q, c) /\ x = Ok n /\
        (b <> [] -> (0 < n)%nat) /\ (n <= length b)%nat /\
        st' = with_fd st (Some (MWrite, fd, q, c ++ take n b))
    | SRead fd off n => fun x st' => st' = st /\ forall md q c, r_fd st = Some (md, fd, q, c) ->
        x = match n with Some k => take (Nat.max 1 k) (drop off c) | None => drop off c end
    | SClose fd => fun _ st' => exists md q c, r_fd st = Some (md, fd, q, c) /\
        st' = RS None (r_dirs st) (match md with MWrite => <[q := Some c]> (r_delta st) | _ => r_delta st end)
    | SUnlink _ => fun x st' => exists fd q c, r_fd st = Some (MRead, fd, q, c) /\ x = Ok tt /\
        st' = RS (Some (MGone, fd, q, c)) (r_dirs st) (<[q := None]> (r_delta st))
    | SStat _ | SReadDir _ | SRmdir _ => fun _ _ => False
    end.
End Protocol.

Section Several.
  Context (s0 : fs) (W S : nat -> fpath -> Prop).
  Hypothesis WS : forall k q, W k q -> S k q.
  Hypothesis DJ : forall j k q, j <> k -> W k q -> S j q -> False.
  Hypothesis PF : forall j k q r, W j q -> W k r -> q `prefix_of` r -> q = r.
  Hypothesis HO : forall k q, W k q -> can_hold_file s0 q.

  Definition fd_ok (o : os) (k : nat) (x : rmode * nat * fpath * bytes) : Prop :=
    let '(md, fd, q, c) := x in
    exists i, o_fds o !! fd = Some i /\ S k q /\ (md <> MRead -> W k q) /\
      (md <> MGone -> o_tree o !! q = Some (DFile i) /\ o_data o !! i = Some c).
  Definition writing (st : rsess) (q : fpath) : Prop := exists fd c, r_fd st = Some (MWrite, fd, q, c).
  Record rinv (o : os) (sts : nat -> rsess) : Prop := {
    ri_ok : os_ok o;
    ri_wf : wf_fs (view o);
    ri_room : o_room o = None;
    ri_hold : forall k q, W k q -> can_hold_file (view o) q;
    ri_see : forall k q, S k q -> ~ writing (sts k) q -> file_at (view o) q = now s0 (r_delta (sts k)) q;
    ri_rest : forall q, (forall k, ~ W k q) -> file_at (view o) q = file_at s0 q;
    ri_fd : forall k x, r_fd (sts k) = Some x -> fd_ok o k x;
    ri_one : forall j k md fd q c md' q' c', r_fd (sts j) = Some (md, fd, q, c) ->
      r_fd (sts k) = Some (md', fd, q', c') -> j = k;
    ri_dirs : forall k q, q ∈ r_dirs (sts k) -> node_at (view o) q = Some Dir
  }.
  Definition rupd (sts : nat -> rsess) (k : nat) (st : rsess) : nat -> rsess :=
    fun k' => if decide (k' = k) then st else sts k'.
  Lemma rupd_same sts k st : rupd sts k st k = st.
  Proof. unfold rupd. by rewrite decide_True. Qed.
  Lemma rupd_ne sts k st k' : k' <> k -> rupd sts k st k' = sts k'.
  Proof. intros N. unfold rupd. by rewrite decide_False. Qed.

  Lemma no_file_in_root s : file_at s [] = None.
  Proof. done. Qed.
  Lemma hold_ne s q : can_hold_file s q -> q <> [].
  Proof. intros [_ N] ->. by apply N. Qed.

  (** What a step of process [k] must satisfy. *)
  Lemma rinv_step o o' sts k st' : rinv o sts ->
    os_ok o' -> wf_fs (view o') -> o_room o' = None ->
    (forall j q, W j q -> can_hold_file (view o') q) ->
    (forall q, ~ W k q -> file_at (view o') q = file_at (view o) q) ->
    (forall q, S k q -> ~ writing st' q -> file_at (view o') q = now s0 (r_delta st') q) ->
    (forall q, node_at (view o) q = Some Dir -> node_at (view o') q = Some Dir) ->
    (forall q, q ∈ r_dirs st' -> node_at (view o') q = Some Dir) ->
    (forall x, r_fd st' = Some x -> fd_ok o' k x) ->
    (forall j x, j <> k -> r_fd (sts j) = Some x -> fd_ok o j x -> fd_ok o' j x) ->
    (forall j md fd q c md' q' c', j <> k -> r_fd (sts j) = Some (md, fd, q, c) ->
       r_fd st' <> Some (md', fd, q', c')) ->
    rinv o' (rupd sts k st').
  Proof.
    intros I K' W' R' H' F' O' D' DD X' Y' Z'. split; try done.
    - intros j q Sj N. destruct (decide (j = k)) as [->|NE].
      + rewrite rupd_same in N |- *. by apply O'.
      + rewrite rupd_ne in N |- * by done. rewrite F'; [by apply I|]. intros Wk. by eapply (DJ j k).
    - intros q N. rewrite F' by apply N. by apply I.
    - intros j x E. destruct (decide (j = k)) as [->|NE].
      + rewrite rupd_same in E. by apply X'.
      + rewrite rupd_ne in E by done. apply Y'; [done|done|]. by apply I.
    - intros i j md fd q c md' q' c' E1 E2.
      destruct (decide (i = k)) as [->|N1], (decide (j = k)) as [->|N2]; [done|..].
      + rewrite rupd_same in E1. rewrite rupd_ne in E2 by done. by destruct (Z' j _ _ _ _ _ _ _ N2 E2 E1).
      + rewrite rupd_same in E2. rewrite rupd_ne in E1 by done. by destruct (Z' i _ _ _ _ _ _ _ N1 E1 E2).
      + rewrite rupd_ne in E1, E2 by done. by eapply (ri_one _ _ I i j).
    - intros j q E. destruct (decide (j = k)) as [->|NE].
      + rewrite rupd_same in E. by apply DD.
      + rewrite rupd_ne in E by done. apply D'. by eapply ri_dirs.
  Qed.
  (** Nothing changes in the file system or for other processes. *)
  Lemma rinv_quiet o o' sts k st' : rinv o sts ->
    os_ok o' -> view o' = view o -> o_room o' = None ->
    (forall q, S k q -> ~ writing st' q -> file_at (view o) q = now s0 (r_delta st') q) ->
    (forall q, q ∈ r_dirs st' -> node_at (view o) q = Some Dir) ->
    (forall x, r_fd st' = Some x -> fd_ok o' k x) ->
    (forall j x, j <> k -> r_fd (sts j) = Some x -> fd_ok o j x -> fd_ok o' j x) ->
    (forall j md fd q c md' q' c', j <> k -> r_fd (sts j) = Some (md, fd, q, c) ->
       r_fd st' <> Some (md', fd, q', c')) ->
    rinv o' (rupd sts k st').
  Proof.
    intros I K' V R' O' DD X' Y' Z'. apply (rinv_step o); try done; rewrite ?V; try done; apply I.
  Qed.
  Lemma rinv_same o sts k st' : rinv o sts -> r_fd st' = r_fd (sts k) -> r_delta st' = r_delta (sts k) ->
    (forall q, q ∈ r_dirs st' -> node_at (view o) q = Some Dir) ->
    rinv o (rupd sts k st').
  Proof.
    intros I E1 E2 DD. apply (rinv_quiet o); try done; try apply I.
    - intros q Sq N. rewrite E2. apply I; [done|]. unfold writing. by rewrite <- E1.
    - intros x. rewrite E1. apply I.
    - intros j md fd q c md' q' c' N E. rewrite E1. intros E3. by apply N, (ri_one _ _ I j k _ _ _ _ _ _ _ E E3).
  Qed.
  Lemma rinv_id o sts k : rinv o sts -> rinv o (rupd sts k (sts k)).
  Proof. intros I. apply rinv_same; try done. intros q. by apply I. Qed.
  Lemma not_written st q : r_fd st = None -> ~ writing st q.
  Proof. intros E (fd & c & E'). congruence. Qed.
  Lemma not_written_read st fd q c r : r_fd st = Some (MRead, fd, q, c) -> ~ writing st r.
  Proof. intros E (fd' & c' & E'). congruence. Qed.

  Lemma hold_file s k w c : w <> [] -> W k w -> (forall k q, W k q -> can_hold_file s q) ->
    forall j q, W j q -> can_hold_file (<[w := File c]> s) q.
  Proof.
    intros NE Ww HH j q Wq. destruct (HH j q Wq) as [H1 H2]. split.
    - intros r P N d. unfold file_at. rewrite node_at_insert by done. case_decide as E.
      + subst r. exfalso. apply N. by eapply PF.
      + by apply H1.
    - rewrite node_at_insert by done. by case_decide.
  Qed.
  Lemma hold_dir s k w d : d <> [] -> d `prefix_of` w -> d <> w -> W k w -> (forall k q, W k q -> can_hold_file s q) ->
    forall j q, W j q -> can_hold_file (<[d := Dir]> s) q.
  Proof.
    intros NE P N Ww HH j q Wq. destruct (HH j q Wq) as [H1 H2]. split.
    - intros r P' N' e. unfold file_at. rewrite node_at_insert by done. case_decide; [done|]. by apply H1.
    - rewrite node_at_insert by done. case_decide as E; [|done]. subst d. exfalso. apply N. by eapply PF.
  Qed.
  Lemma hold_delete s w : w <> [] -> (forall k q, W k q -> can_hold_file s q) ->
    forall j q, W j q -> can_hold_file (delete w s) q.
  Proof.
    intros NE HH j q Wq. destruct (HH j q Wq) as [H1 H2]. split.
    - intros r P N d. unfold file_at. rewrite node_at_delete by done. case_decide; [done|]. by apply H1.
    - rewrite node_at_delete by done. by case_decide.
  Qed.
  Lemma fd_ok_frame o o' j x : fd_ok o j x ->
    (forall md fd q c i, x = (md, fd, q, c) -> o_fds o !! fd = Some i -> o_fds o' !! fd = Some i) ->
    (forall md fd q c i, x = (md, fd, q, c) -> o_tree o !! q = Some (DFile i) -> o_data o !! i = Some c -> S j q ->
       o_tree o' !! q = Some (DFile i) /\ o_data o' !! i = Some c) ->
    fd_ok o' j x.
  Proof.
    destruct x as [[[md fd] q] c]. intros (i & F & Sq & Wq & T) N1 N2. exists i. split_and!; [by eapply N1|done|done|].
    intros G. destruct (T G) as [T1 T2]. by eapply N2.
  Qed.
  Lemma fd_lt o fd j : os_ok o -> o_fds o !! fd = Some j -> (fd < o_next o)%nat /\ (j < o_next o)%nat.
  Proof. intros K F. apply (ok_fds _ K) in F as [F D]. split; [done|]. by apply (ok_data _ K). Qed.
  Lemma fd_known o j md fd q c : fd_ok o j (md, fd, q, c) -> os_ok o -> (fd < o_next o)%nat.
  Proof. intros (i & F & _) K. by apply (fd_lt _ _ _ K) in F as [? _]. Qed.

  Lemma fresh_next o : os_ok o -> o_fds o !! o_next o = None /\ o_locks o !! o_next o = None /\ o_data o !! o_next o = None.
  Proof.
    intros K. split_and!.
    - destruct (o_fds o !! o_next o) eqn:E; [|done]. apply (ok_fds _ K) in E as [? _]. lia.
    - destruct (o_locks o !! o_next o) eqn:E; [|done]. apply (ok_locks _ K) in E as [? E].
      apply (ok_fds _ K) in E as [? _]. lia.
    - destruct (o_data o !! o_next o) eqn:E; [|done]. assert (o_next o < o_next o)%nat; [|lia].
      apply (ok_data _ K). by rewrite E.
  Qed.
  Lemma walk_hold o w d k : wf_fs (view o) -> (forall k q, W k q -> can_hold_file (view o) q) -> W k w ->
    d `prefix_of` w -> d <> [] ->
    walk (view o) [] (map Normal d) = if is_dir_at (view o) (parent d) then Ok d else Err NotFound.
  Proof.
    intros Wf HH Ww P NE. rewrite (walk_nofile (view o) d []); [done|done|done| |done].
    intros n L. cbn [app]. destruct (file_at (view o) (take n d)) as [c|] eqn:E; [|done]. exfalso.
    destruct (HH k w Ww) as [H1 _]. apply (H1 (take n d)) with (c := c); [|intros X|done].
    - etransitivity; [|exact P]. exists (drop n d). by rewrite take_drop.
    - destruct P as [r ->]. apply (f_equal length) in X. rewrite take_length, app_length in X. lia.
  Qed.

  (** The content of the file being written changes. *)
  Lemma rinv_data o sts k fd q c c' i : rinv o sts -> r_fd (sts k) = Some (MWrite, fd, q, c) -> o_fds o !! fd = Some i ->
    rinv (set_data o i c') (rupd sts k (with_fd (sts k) (Some (MWrite, fd, q, c')))).
  Proof.
    intros I P F. pose proof (ri_ok _ _ I) as K. pose proof (ri_fd _ _ I k _ P) as (i' & F' & Sq & Wq & T).
    replace i' with i in * by congruence. destruct T as [T D]; [done|]. specialize (Wq ltac:(done)).
    assert (NE : q <> []) by by eapply hold_ne, I.
    pose proof (view_set_data o q i c' K T) as EV.
    assert (EN : node_at (view o) q = Some (File c)).
    { rewrite (view_of_tree _ _ _ NE T), D. done. }
    apply (rinv_step o); try done.
    - apply ok_set_data; [done|]. by rewrite D.
    - rewrite EV. destruct (snoc_parent q NE) as [y Y]. rewrite Y. apply wf_insert; [apply I| |].
      + eapply wf_strict; [apply I|exact EN| |].
        * exists [y]. exact Y.
        * intros X. rewrite Y in X at 2. apply (f_equal length) in X. rewrite app_length in X. cbn in X. lia.
      + left. rewrite <- Y, EN. done.
    - apply I.
    - rewrite EV. eapply hold_file; [done|exact Wq|apply I].
    - intros r NWr. rewrite EV. unfold file_at. rewrite node_at_insert by done. case_decide; [by subst|done].
    - intros r Sr NW. rewrite EV. unfold file_at. rewrite node_at_insert by done. case_decide as DD.
      { subst r. exfalso. apply NW. by eexists _, _. }
      apply (ri_see _ _ I k r Sr). intros (fd1 & c1 & E1). rewrite P in E1. injection E1 as _ E1 _. by apply DD.
    - intros r Er. rewrite EV, node_at_insert by done. case_decide; [subst; congruence|done].
    - intros r Hr. cbn [with_fd r_dirs] in Hr. rewrite EV, node_at_insert by done.
      apply (ri_dirs _ _ I) in Hr. case_decide; [subst; congruence|done].
    - intros y Ey. cbn [with_fd r_fd] in Ey. injection Ey as <-. exists i. cbn. rewrite lookup_insert.
      split_and!; done.
    - intros j y Nj Ej Fy. eapply fd_ok_frame; [done|by intros|]. intros md fd1 r c1 i1 -> T1 D1 Sr. cbn.
      split; [done|]. rewrite lookup_insert_ne; [done|]. intros <-.
      assert (r = q) as -> by by eapply ok_one. by eapply (DJ j k).
    - intros j md fd1 r c1 md' r' c2 Nj Ej Ek. cbn in Ek. injection Ek as _ <- _ _.
      by apply Nj, (ri_one _ _ I j k _ _ _ _ _ _ _ Ej P).
  Qed.
  Lemma rinv_accepted o sts n : rinv o sts -> rinv (accepted o n) sts.
  Proof.
    intros I. split; try apply I.
    - apply ok_accepted, I.
    - cbn. by rewrite (ri_room _ _ I).
  Qed.
  Lemma rinv_close o sts k md fd q c : rinv o sts -> r_fd (sts k) = Some (md, fd, q, c) ->
    rinv (close_fd o fd) (rupd sts k (RS None (r_dirs (sts k))
      (match md with MWrite => <[q := Some c]> (r_delta (sts k)) | _ => r_delta (sts k) end))).
  Proof.
    intros I P. pose proof (ri_ok _ _ I) as K. pose proof (ri_fd _ _ I k _ P) as (i & F & Sq & Wq & T).
    apply (rinv_quiet o); try done.
    - by apply ok_close.
    - apply I.
    - intros r Sr _. cbn [r_delta]. destruct md.
      + apply I; [done|by eapply not_written_read].
      + destruct T as [T D]; [done|]. specialize (Wq ltac:(done)).
        assert (NE : q <> []) by by eapply hold_ne, I.
        unfold now. destruct (decide (q = r)) as [<-|N].
        * rewrite lookup_insert. apply file_at_some. rewrite (view_of_tree _ _ _ NE T), D. done.
        * rewrite lookup_insert_ne by done. apply (ri_see _ _ I k r Sr). intros (fd1 & c1 & E1). congruence.
      + apply I; [done|]. intros (fd1 & c1 & E1). congruence.
    - intros r. cbn. by apply I.
    - intros j y Nj Ej Fy. eapply fd_ok_frame; [done| |by intros]. intros md1 fd1 r c1 i1 -> F1. cbn.
      rewrite lookup_delete_ne; [done|]. intros <-. by apply Nj, (ri_one _ _ I j k _ _ _ _ _ _ _ Ej P).
  Qed.
  Lemma rinv_unlink o sts k fd q c : rinv o sts -> r_fd (sts k) = Some (MRead, fd, q, c) -> W k q ->
    node_at (view o) q = Some (File c) /\
    rinv (unlink o q) (rupd sts k (RS (Some (MGone, fd, q, c)) (r_dirs (sts k)) (<[q := None]> (r_delta (sts k))))).
  Proof.
    intros I P Wq. pose proof (ri_ok _ _ I) as K. pose proof (ri_fd _ _ I k _ P) as (i & F & Sq & _ & T).
    destruct T as [T D]; [done|]. assert (NE : q <> []) by by eapply hold_ne, I.
    assert (EN : node_at (view o) q = Some (File c)).
    { rewrite (view_of_tree _ _ _ NE T), D. done. }
    split; [done|]. apply (rinv_step o); try done.
    - by apply ok_unlink.
    - rewrite view_unlink. eapply wf_delete; [apply I|done].
    - apply I.
    - rewrite view_unlink. apply hold_delete; [done|apply I].
    - intros r NWr. rewrite view_unlink. unfold file_at. rewrite node_at_delete by done. case_decide; [by subst|done].
    - intros r Sr _. rewrite view_unlink. unfold file_at. rewrite node_at_delete by done. cbn [r_delta].
      unfold now. case_decide as DD.
      + subst r. by rewrite lookup_insert.
      + rewrite lookup_insert_ne by done. apply (ri_see _ _ I k r Sr). by eapply not_written_read.
    - intros r Er. rewrite view_unlink, node_at_delete by done. case_decide; [subst; congruence|done].
    - intros r Hr. cbn [r_dirs] in Hr. rewrite view_unlink, node_at_delete by done.
      apply (ri_dirs _ _ I) in Hr. case_decide; [subst; congruence|done].
    - intros y Ey. cbn [r_fd] in Ey. injection Ey as <-. exists i. split_and!; done.
    - intros j y Nj Ej Fy. eapply fd_ok_frame; [done|by intros|]. intros md1 fd1 r c1 i1 -> T1 D1 Sr. cbn.
      split; [|done]. rewrite lookup_delete_ne; [done|]. intros <-. by eapply (DJ j k).
    - intros j md fd1 r c1 md' r' c2 Nj Ej Ek. cbn in Ek. injection Ek as _ <- _ _.
      by apply Nj, (ri_one _ _ I j k _ _ _ _ _ _ _ Ej P).
  Qed.

  Theorem sys_step_own {T} (c : sys T) o o' x sts k : rinv o sts -> rpre s0 (W k) (S k) T (sts k) c ->
    sys_step c o = Some (o', x) ->
    exists st', rnxt s0 (W k) T (sts k) c x st' /\ rinv o' (rupd sts k st').
  Proof.
    intros I P E. pose proof (ri_ok _ _ I) as K. pose proof (ri_wf _ _ I) as Wf.
    destruct c; cbn [sys_step] in E; cbn [rpre] in P; cbn [rnxt].
    - (* is_file *)
      injection E as <- <-. destruct P as (NF & q & -> & Sq). exists (sts k). split; [|by apply rinv_id].
      split; [done|]. intros r Er%normal_inj. subst r. rewrite path_is_file_plain by done.
      rewrite (ri_see _ _ I k q Sq) by by apply not_written. done.
    - (* is_dir *)
      injection E as <- <-. exists (sts k). split; [|by apply rinv_id]. split; [done|].
      intros r -> Hr. rewrite path_is_dir_plain by done. apply is_dir_at_true. by eapply ri_dirs.
    - (* exists *)
      injection E as <- <-. destruct P as (NF & q & ->).
      assert (forall r, map Normal q = map Normal r -> W k r ->
        path_exists (view o) (map Normal q) = is_some (now s0 (r_delta (sts k)) r)) as A.
      { intros r Er%normal_inj Wr. subst r. rewrite path_exists_plain by done.
        rewrite <- (ri_see _ _ I k q) by (by apply WS || by apply not_written).
        destruct (ri_hold _ _ I k q Wr) as [_ ND]. unfold file_at.
        destruct (node_at (view o) q) as [[]|]; done. }
      destruct (is_dir_at (view o) q) eqn:ED.
      + apply is_dir_at_true in ED. exists (with_dir (sts k) q). split.
        * split_and!; [done|done|apply union_subseteq_r|done|]. intros _ r w Er%normal_inj _ _ _. subst r.
          apply elem_of_union_l. by apply elem_of_singleton.
        * apply rinv_same; [done|done|done|]. intros r. cbn. rewrite elem_of_union, elem_of_singleton.
          intros [->|Hr]; [done|by eapply ri_dirs].
      + exists (sts k). split; [|by apply rinv_id]. split_and!; [done|done|done|done|].
        intros Ex r w Er%normal_inj Ww Pr Nr. subst r. exfalso. rewrite path_exists_plain in Ex by done.
        unfold is_dir_at in ED. destruct (node_at (view o) q) as [[|c]|] eqn:EN; [done| |done].
        destruct (ri_hold _ _ I k w Ww) as [H1 _]. eapply (H1 q Pr Nr c). by apply file_at_some.
    - (* mkdir *)
      injection E as E. destruct P as (q & w & -> & Ww & Pq & Nq & NE).
      rewrite (walk_hold o w q k) in E by (done || apply I).
      destruct (is_dir_at (view o) (parent q)) eqn:EP.
      2:{ injection E as <- <-. exists (sts k). split; [|by apply rinv_id]. exists q. split_and!; [done|done|..].
          - intros Z. by rewrite Z in EP.
          - intros Z. apply (ri_dirs _ _ I) in Z. apply is_dir_at_true in Z. congruence. }
      assert (ND : forall c, node_at (view o) q <> Some (File c)).
      { intros c EN. destruct (ri_hold _ _ I k w Ww) as [H1 _]. eapply (H1 q Pq Nq c). by apply file_at_some. }
      destruct (node_at (view o) q) as [[|c]|] eqn:EN; [| by destruct (ND c)|].
      + injection E as <- <-. exists (with_dir (sts k) q). split; [by exists q|].
        apply rinv_same; [done|done|done|]. intros r. cbn. rewrite elem_of_union, elem_of_singleton.
        intros [->|Hr]; [done|by eapply ri_dirs].
      + rewrite EP in E. injection E as <- <-. exists (with_dir (sts k) q). split; [by exists q|].
        assert (ET : o_tree o !! q = None).
        { rewrite node_at_ne, view_lookup in EN by done. by destruct (o_tree o !! q). }
        apply (rinv_step o); try done.
        * by apply ok_link_dir.
        * rewrite view_link_dir. destruct (snoc_parent q NE) as [y Y]. rewrite Y.
          apply wf_insert; [done|by apply is_dir_at_true|by right].
        * apply I.
        * rewrite view_link_dir. eapply hold_dir; try done. apply I.
        * intros r _. by rewrite view_link_dir, file_at_insert_dir.
        * intros r Sr NW. rewrite view_link_dir, file_at_insert_dir by done. by apply I.
        * intros r Er. rewrite view_link_dir, node_at_insert by done. by case_decide.
        * intros r. cbn [with_dir r_dirs]. rewrite elem_of_union, elem_of_singleton, view_link_dir, node_at_insert by done.
          intros Hr. case_decide; [done|]. destruct Hr as [->|Hr]; [done|by eapply ri_dirs].
        * intros y Ey. eapply fd_ok_frame; [by apply I|by intros|]. intros md fd r c i -> T D Sr.
          split; [|done]. cbn. rewrite lookup_insert_ne; [done|]. intros ->. congruence.
        * intros j y Nj _ Fy. eapply fd_ok_frame; [done|by intros|]. intros md fd r c i -> T D Sr.
          split; [|done]. cbn. rewrite lookup_insert_ne; [done|]. intros ->. congruence.
        * intros j md fd r c md' r' c' Nj Ej Ek. by apply Nj, (ri_one _ _ I j k _ _ _ _ _ _ _ Ej Ek).
    - (* open for writing *)
      injection E as E. destruct P as (NF & q & -> & Wq & PD).
      pose proof (ri_hold _ _ I k q Wq) as [HF HD]. assert (NE : q <> []) by by eapply hold_ne, I.
      assert (PDir : is_dir_at (view o) (parent q) = true).
      { destruct PD as [->|PD]; [done|]. apply is_dir_at_true. by eapply ri_dirs. }
      rewrite (walk_hold o q q k), PDir in E by (done || apply I).
      assert (SW : file_at (view o) q = now s0 (r_delta (sts k)) q).
      { apply I; [by apply WS|by apply not_written]. }
      destruct q as [|a q'] eqn:EQ; [done|]. rewrite <- EQ in *. clear EQ a q'.
      assert (NEXT : forall j md fd r c, j <> k -> r_fd (sts j) = Some (md, fd, r, c) -> (fd < o_next o)%nat).
      { intros j md fd r c _ Ej. eapply fd_known; [by apply I|done]. }
      destruct (fresh_next _ K) as (N1 & N2 & N3).
      destruct (o_tree o !! q) as [[|i]|] eqn:ET.
      + exfalso. apply HD. by rewrite node_at_ne, view_lookup, ET.
      + injection E as <- <-. destruct (ok_tree _ K _ _ ET) as [c0 Dc].
        assert (SW' : now s0 (r_delta (sts k)) q = Some c0).
        { rewrite <- SW. apply file_at_some. rewrite (view_of_tree _ _ _ NE ET), Dc. done. }
        exists (with_fd (sts k) (Some (MWrite, o_next o, q, c0))). split.
        { exists (o_next o), q. split_and!; [done|done|]. by rewrite SW'. }
        apply (rinv_quiet o); try done.
        * by apply ok_open_fd; [|eapply ok_tree].
        * apply I.
        * intros r Sr NW. cbn [with_fd r_delta]. apply I; [done|by apply not_written].
        * intros r. cbn [with_fd r_dirs]. by apply I.
        * intros y Ey. cbn [with_fd r_fd] in Ey. injection Ey as <-. exists i. cbn. rewrite lookup_insert.
          split_and!; [done|by apply WS|done|done].
        * intros j y Nj Ej Fy. eapply fd_ok_frame; [done| |by intros]. intros md fd r c i' -> F'. cbn.
          rewrite lookup_insert_ne; [done|]. intros <-. congruence.
        * intros j md fd r c md' r' c' Nj Ej Ek. cbn in Ek. injection Ek as _ <- _ _.
          apply NEXT in Ej; [lia|done].
      + rewrite PDir in E. injection E as <- <-. set (o1 := link (new_inode o) q (DFile (o_next o))) in *.
        assert (EV : view (open_fd o1 (o_next o)) = <[q := File []]> (view o)).
        { rewrite view_open. by apply view_create. }
        assert (SW' : now s0 (r_delta (sts k)) q = None).
        { rewrite <- SW. unfold file_at. by rewrite node_at_ne, view_lookup, ET. }
        exists (with_fd (sts k) (Some (MWrite, Datatypes.S (o_next o), q, []))). split.
        { exists (Datatypes.S (o_next o)), q. split_and!; [done|done|]. by rewrite SW'. }
        assert (FR : forall j y, r_fd (sts j) = Some y -> fd_ok o j y -> fd_ok (open_fd o1 (o_next o)) j y).
        { intros j y Ej Fy. eapply fd_ok_frame; [done|..].
          - intros md fd r c i' -> F'. cbn. rewrite lookup_insert_ne; [done|]. intros <-.
            apply (fd_lt _ _ _ K) in F' as [? _]. lia.
          - intros md fd r c i' -> T D Sr. cbn. rewrite !lookup_insert_ne; [done|..].
            + intros <-. congruence.
            + intros ->. congruence. }
        apply (rinv_step o); try done.
        * apply ok_open_fd; [by apply ok_create|]. cbn. by rewrite lookup_insert.
        * rewrite EV. destruct (snoc_parent q NE) as [y Y]. rewrite Y.
          apply wf_insert; [done|by apply is_dir_at_true|]. left. rewrite <- Y. by rewrite node_at_ne, view_lookup, ET.
        * apply I.
        * rewrite EV. eapply hold_file; [done|exact Wq|apply I].
        * intros r NWr. rewrite EV. unfold file_at. rewrite node_at_insert by done. case_decide; [by subst|done].
        * intros r Sr NW. rewrite EV. unfold file_at. rewrite node_at_insert by done. case_decide as D.
          { subst r. exfalso. apply NW. by eexists _, _. }
          apply (ri_see _ _ I k r Sr). by apply not_written.
        * intros r Er. rewrite EV, node_at_insert by done. case_decide; [by subst|done].
        * intros r Hr. cbn [with_fd r_dirs] in Hr. rewrite EV, node_at_insert by done.
          apply (ri_dirs _ _ I) in Hr. case_decide; [by subst|done].
        * intros y Ey. cbn [with_fd r_fd] in Ey. injection Ey as <-. exists (o_next o). cbn. rewrite !lookup_insert.
          split_and!; [done|by apply WS|done|done].
        * intros j y Nj Ej Fy. by apply FR.
        * intros j md fd r c md' r' c' Nj Ej Ek. cbn in Ek. injection Ek as _ <- _ _.
          apply NEXT in Ej; [lia|done].
    - (* open for reading *)
      injection E as E. destruct P as (NF & q & -> & Sq & [c0 NW]).
      assert (SW : file_at (view o) q = Some c0).
      { rewrite <- NW. apply I; [done|by apply not_written]. }
      apply file_at_some in SW. pose proof (view_file_ne _ _ _ SW) as NE.
      pose proof (walk_present (view o) q [] _ Wf SW) as WK. cbn [app] in WK. rewrite WK in E.
      destruct (view_file _ _ _ NE SW) as (i & ET & D). rewrite SW, ET in E. injection E as <- <-.
      assert (D' : o_data o !! i = Some c0).
      { destruct (ok_tree _ K _ _ ET) as [c1 D1]. rewrite D1 in D |- *. cbn in D. by subst. }
      destruct (fresh_next _ K) as (N1 & N2 & N3).
      exists (with_fd (sts k) (Some (MRead, o_next o, q, c0))). split.
      { by exists (o_next o), q, c0. }
      apply (rinv_quiet o); try done.
      + by apply ok_open_fd; [|eapply ok_tree].
      + apply I.
      + intros r Sr _. cbn [with_fd r_delta]. apply I; [done|by apply not_written].
      + intros r. cbn [with_fd r_dirs]. by apply I.
      + intros y Ey. cbn [with_fd r_fd] in Ey. injection Ey as <-. exists i. cbn. rewrite lookup_insert.
        split_and!; done.
      + intros j y Nj Ej Fy. eapply fd_ok_frame; [done| |by intros]. intros md fd r c i' -> F'. cbn.
        rewrite lookup_insert_ne; [done|]. intros <-. congruence.
      + intros j md fd r c md' r' c' Nj Ej Ek. cbn in Ek. injection Ek as _ <- _ _.
        assert (o_next o < o_next o)%nat; [|lia]. eapply fd_known; [by apply I|done].
    - (* lock *)
      destruct P as (md & q & c & P). destruct (o_fds o !! fd) as [i|] eqn:F; [|done].
      destruct (lock_conflict o fd ex); [done|]. injection E as <- <-. exists (sts k). split; [done|].
      apply (rinv_quiet o); try done; try apply I.
      + apply ok_set_lock; [done|by rewrite F].
      + intros j md' fd' r c' md2 r' c2 Nj Ej Ek. by apply Nj, (ri_one _ _ I j k _ _ _ _ _ _ _ Ej Ek).
    - (* truncate *)
      destruct P as (q & c & P). destruct (o_fds o !! fd) as [i|] eqn:F; [|done]. injection E as <- <-.
      exists (with_fd (sts k) (Some (MWrite, fd, q, []))). split; [by exists q, c|]. by eapply rinv_data.
    - (* write *)
      destruct P as (q & c & P & ->). destruct (o_fds o !! fd) as [i|] eqn:F; [|done]. injection E as E.
      assert (b <> [] -> (0 < accept o (length b))%nat) as AP.
      { intros NB. unfold accept. rewrite (ri_room _ _ I). destruct b; [done|]. destruct (o_short o); cbn; lia. }
      assert (accept o (length b) <= length b)%nat as AL.
      { unfold accept. rewrite (ri_room _ _ I). destruct (o_short o); lia. }
      replace (bool_decide (accept o (length b) = 0%nat) && negb (bool_decide (b = []))) with false in E.
      2:{ symmetry. apply andb_false_iff. destruct (decide (b = [])) as [->|NB]; [by right|].
          left. apply bool_decide_false. apply AP in NB. lia. }
      injection E as <- <-. set (n := accept o (length b)) in *.
      destruct (ri_fd _ _ I k _ P) as (i' & F' & _ & _ & T). replace i' with i in * by congruence.
      destruct T as [T D]; [done|]. rewrite D. cbn [default]. unfold from_option, id. rewrite write_at_end.
      exists (with_fd (sts k) (Some (MWrite, fd, q, c ++ take n b))). split; [by exists n, q, c|].
      eapply rinv_data; [by apply rinv_accepted|done|done].
    - (* read *)
      destruct P as (q & c & P). destruct (o_fds o !! fd) as [i|] eqn:F; [|done]. injection E as <- <-.
      exists (sts k). split; [|by apply rinv_id]. split; [done|]. intros md q' c' Ek. rewrite Ek in P.
      injection P as -> -> ->. destruct (ri_fd _ _ I k _ Ek) as (i' & F' & _ & _ & T).
      destruct T as [T D]; [done|]. replace i' with i in * by congruence. by rewrite D.
    - (* close *)
      destruct P as (md & q & c & P). injection E as <- <-. eexists. split; [by exists md, q, c|].
      by apply rinv_close.
    - (* unlink *)
      injection E as E. destruct P as (fd & q & c & P & Wq & ->).
      destruct (rinv_unlink _ _ _ _ _ _ I P Wq) as [EN I'].
      pose proof (walk_present (view o) q [] _ Wf EN) as WK. cbn [app] in WK. rewrite WK, EN in E.
      injection E as <- <-. eexists. split; [by exists fd, q, c|done].
    - done.
    - done.
    - done.
  Qed.
End Several.

Section Chain.
  Context (s0 : fs) (W S : nat -> fpath -> Prop).
  Hypothesis WS : forall k q, W k q -> S k q.
  Hypothesis DJ : forall j k q, j <> k -> W k q -> S j q -> False.
  Hypothesis PF : forall j k q r, W j q -> W k r -> q `prefix_of` r -> q = r.
  Hypothesis HO : forall k q, W k q -> can_hold_file s0 q.

  Definition rstart : rsess := RS None ∅ ∅.
  Lemma rinv_start o : calm o -> wf_fs (view o) -> view o = s0 -> rinv s0 W S o (fun _ => rstart).
  Proof.
    intros [(K & F & L) R] Wf V. split; try done.
    - intros k q. rewrite V. apply HO.
    - intros k q Sq _. by rewrite V.
    - intros q _. by rewrite V.
  Qed.

  Lemma csteps_own {A : Type} (fin : nat -> rsess -> A -> Prop) c c' : csteps c c' -> forall sts,
    rinv s0 W S (fst c) sts ->
    (forall i, snd c !! i = None -> sts i = rstart) ->
    (forall i q, snd c !! i = Some q -> follows (rpre s0 (W i) (S i)) (rnxt s0 (W i)) (fin i) (sts i) q) ->
    exists sts', rinv s0 W S (fst c') sts' /\
      (forall i, snd c' !! i = None -> sts' i = rstart) /\
      (forall i q, snd c' !! i = Some q -> follows (rpre s0 (W i) (S i)) (rnxt s0 (W i)) (fin i) (sts' i) q).
  Proof.
    induction 1 as [c|o ps i q o1 q1 c E P SS IH]; intros sts I N F.
    - by exists sts.
    - cbn [fst snd] in *. pose proof (F i q E) as Fi. destruct q as [a|T call k]; cbn in P; [done|].
      destruct (sys_step call o) as [[o2 x]|] eqn:X; [|done]. injection P as <- <-. destruct Fi as [P1 P2].
      destruct (sys_step_own s0 W S WS DJ PF HO call o o2 x sts i I P1 X) as (st' & N1 & I').
      eapply IH; [exact I'| |].
      + intros i' E'. assert (i' <> i) as D.
        { intros ->. rewrite list_lookup_insert in E' by by eapply lookup_lt_Some. done. }
        rewrite list_lookup_insert_ne in E' by done. rewrite rupd_ne by done. by apply N.
      + intros i' q' E'. destruct (decide (i' = i)) as [->|D].
        * rewrite list_lookup_insert in E' by by eapply lookup_lt_Some. injection E' as <-.
          rewrite rupd_same. by apply P2.
        * rewrite list_lookup_insert_ne in E' by done. rewrite rupd_ne by done. by apply F.
  Qed.
End Chain.

(** ** One process *)
Section One.
  Context (s0 : fs) (W S : fpath -> Prop).
  Hypothesis WS : forall q, W q -> S q.
  Hypothesis PF : forall q r, W q -> W r -> q `prefix_of` r -> q = r.
  Local Notation fol := (follows (rpre s0 W S) (rnxt s0 W)).
  Local Notation now := (now s0).

  Lemma r_mkdir_all w n st : W w -> (n <= length (parent w))%nat -> r_fd st = None ->
    fol (fun st' r => r = Ok tt /\ r_fd st' = None /\ r_delta st' = r_delta st /\ r_dirs st ⊆ r_dirs st' /\
           (take n (parent w) = [] \/ take n (parent w) ∈ r_dirs st')) st (p_mkdir_all (map Normal (parent w)) n).
  Proof.
    intros Ww. induction n as [|n IH]; intros L NF; [cbn; split_and!; try done; by left|].
    set (q := take (Datatypes.S n) (parent w)).
    assert (QW : q `prefix_of` w /\ q <> w /\ q <> []).
    { destruct (decide (w = [])) as [->|NE]; [by cbn in L; lia|].
      destruct (snoc_parent w NE) as [y Y]. unfold q. split_and!.
      - rewrite Y at 2. exists (drop (Datatypes.S n) (parent w) ++ [y]).
        by rewrite app_assoc, take_drop.
      - intros X. apply (f_equal length) in X, Y. rewrite take_length in X. rewrite app_length in Y. cbn in Y. lia.
      - destruct (parent w); [cbn in L; lia|done]. }
    destruct QW as (Q1 & Q2 & Q3).
    assert (ET : take (Datatypes.S n) (map Normal (parent w)) = map Normal q) by by rewrite firstn_map.
    assert (PM : forall st, rpre s0 W S _ st (SMkdir (map Normal q))) by (intros; by exists q, w).
    assert (PQ : parent q = take n (parent w)).
    { unfold parent at 1. unfold q. rewrite take_length, take_take. f_equal. lia. }
    assert (forall st1 e, r_fd st1 = None -> r_delta st1 = r_delta st -> r_dirs st ⊆ r_dirs st1 -> q ∈ r_dirs st1 ->
      fol (fun st' r => r = Ok tt /\ r_fd st' = None /\ r_delta st' = r_delta st /\ r_dirs st ⊆ r_dirs st' /\
        (q = [] \/ q ∈ r_dirs st')) st1 (Call (SIsDir (map Normal q)) (fun d => Ret (if d : bool then Ok tt else e)))) as OR.
    { intros st1 e A1 A2 A3 A4. cbn. split; [by exists q|]. intros x st' (-> & X). rewrite (X q eq_refl A4).
      split_and!; try done. by right. }
    cbn [p_mkdir_all]. rewrite ET. cbn [follows]. split; [apply PM|].
    intros r st1 (q1 & E1%(normal_inj) & X). subst q1.
    assert (st1 = with_dir st q -> r_fd st1 = None /\ r_delta st1 = r_delta st /\ r_dirs st ⊆ r_dirs st1 /\ q ∈ r_dirs st1) as WD.
    { intros ->. cbn. split_and!; [done|done|apply union_subseteq_r|]. apply elem_of_union_l. by apply elem_of_singleton. }
    destruct r as [[]|[]|]; try done.
    - destruct (WD X) as (A1 & A2 & A3 & A4). cbn. split_and!; try done. by right.
    - destruct X as (-> & P1 & P2). eapply follows_try; [apply IH; [lia|done]| |naive_solver|naive_solver].
      intros st2 [] (_ & B1 & B2 & B3 & B4). cbn [follows]. split; [apply PM|].
      intros r st3 (q1 & E1%normal_inj & X). subst q1.
      assert (st3 = with_dir st2 q -> r_fd st3 = None /\ r_delta st3 = r_delta st /\ r_dirs st ⊆ r_dirs st3 /\ q ∈ r_dirs st3) as WD2.
      { intros ->. cbn. split_and!; [done|done| |].
        - etransitivity; [exact B3|apply union_subseteq_r].
        - apply elem_of_union_l. by apply elem_of_singleton. }
      destruct r as [[]|[]|]; try done.
      + destruct (WD2 X) as (A1 & A2 & A3 & A4). cbn. split_and!; try done. by right.
      + destruct X as (-> & Y1 & Y2). rewrite PQ in *. exfalso. naive_solver.
      + destruct (WD2 X) as (A1 & A2 & A3 & A4). by apply OR.
    - destruct (WD X) as (A1 & A2 & A3 & A4). by apply OR.
  Qed.

  Lemma r_write_all D d fd q fuel : forall b c, (length b <= fuel)%nat ->
    fol (fun st' x => st' = RS (Some (MWrite, fd, q, c ++ b)) D d /\ x = (length (c ++ b), [], Ok tt))
        (RS (Some (MWrite, fd, q, c)) D d) (p_write_all fuel fd (length c) b).
  Proof.
    induction fuel as [|f IH]; intros b c L.
    - destruct b; [|cbn in L; lia]. cbn. by rewrite app_nil_r.
    - destruct b as [|a b]; [cbn; by rewrite app_nil_r|].
      cbn [p_write_all follows]. split; [by exists q, c|].
      intros x st' (n & q' & c' & E & -> & P & LE & ->).
      injection E as <- <-. specialize (P ltac:(done)). destruct n as [|n]; [lia|].
      replace (length c + Datatypes.S n)%nat with (length (c ++ take (Datatypes.S n) (a :: b))).
      2:{ rewrite app_length, take_length. lia. }
      pose proof (IH (drop (Datatypes.S n) (a :: b)) (c ++ take (Datatypes.S n) (a :: b))) as X.
      rewrite <- app_assoc, take_drop in X. apply X.
      rewrite drop_length. cbn in *. lia.
  Qed.
  Definition wrote (D : gset fpath) (d : gmap fpath (option bytes)) (q : fpath) (v : bytes) (r : res unit) (st : rsess) (x : res unit) : Prop :=
    st = RS None D (<[q := Some v]> d) /\ x = r.
  Lemma r_drop D d fd q c buf r :
    fol (wrote D d q (c ++ buf) r) (RS (Some (MWrite, fd, q, c)) D d) (p_drop fd (length c) buf r).
  Proof.
    unfold p_drop. eapply follows_bind; [by apply r_write_all|].
    intros st x [-> _]. cbn. split; [by eexists _, _, _|].
    intros _ st' (md & q' & c' & E & ->). by injection E as <- <- <-.
  Qed.
  Lemma r_buffered D d fd q r ws : forall c buf,
    fol (wrote D d q (c ++ buf ++ concat ws) r) (RS (Some (MWrite, fd, q, c)) D d) (p_buffered fd (length c) buf ws r).
  Proof.
    induction ws as [|w ws IH]; intros c buf; cbn [p_buffered].
    { cbn. rewrite app_nil_r. by apply r_drop. }
    cbn [concat].
    assert (forall c buf, (buf = [] \/ (lenZ w <? BUF_CAP) = true) ->
      fol (wrote D d q (c ++ buf ++ w ++ concat ws) r) (RS (Some (MWrite, fd, q, c)) D d)
        (if lenZ w >=? BUF_CAP
        then pbind (p_write_all (length w) fd (length c) w) (fun x =>
               let '(off', _, rw) := x in
               match rw with
               | Ok _ => p_buffered fd off' buf ws r
               | e => p_drop fd off' buf e
               end)
        else p_buffered fd (length c) (buf ++ w) ws r)) as PUT.
    { clear c buf. intros c buf O. destruct (lenZ w >=? BUF_CAP) eqn:G.
      - destruct O as [->|O]; [|lia]. eapply follows_bind; [by apply r_write_all|].
        intros st x [-> ->]. pose proof (IH (c ++ w) []) as X. by rewrite <- app_assoc in X.
      - pose proof (IH c (buf ++ w)) as X. by rewrite <- app_assoc in X. }
    destruct (lenZ w >? BUF_CAP - lenZ buf) eqn:G.
    - eapply follows_bind; [by apply r_write_all|]. intros st x [-> ->].
      pose proof (PUT (c ++ buf) [] (or_introl eq_refl)) as X. by rewrite <- app_assoc in X.
    - apply PUT. destruct buf as [|a buf]; [by left|right]. unfold lenZ in *. cbn [length] in G. lia.
  Qed.
  Lemma r_read_all st fd q c rs : r_fd st = Some (MRead, fd, q, c) -> forall off acc,
    fol (fun st' x => st' = st /\ x = acc ++ drop off c) st (p_read_all fd off rs acc).
  Proof.
    intros F. induction rs as [|n rs IH]; intros off acc; cbn [p_read_all follows].
    - split; [by exists q, c|]. intros x st' [-> X]. by rewrite (X _ q c F).
    - split; [by exists q, c|]. intros x st' [-> X]. rewrite (X _ q c F). clear X x.
      case_bool_decide as Z.
      + cbn. split; [done|]. destruct (drop off c) as [|a t]; [by rewrite app_nil_r|].
        destruct n; cbn in Z; done.
      + eapply follows_weaken; [apply IH|]. intros st' x [-> ->]. split; [done|].
        rewrite <- app_assoc. f_equal. rewrite <- drop_drop.
        set (t := drop off c). rewrite take_length.
        rewrite <- (take_drop (Nat.max 1 n) t) at 4. f_equal.
        destruct (Nat.le_ge_cases (Nat.max 1 n) (length t)).
        * by rewrite Nat.min_l.
        * rewrite Nat.min_r by done. rewrite drop_all. by rewrite drop_ge.
  Qed.

  (** The process sees the files of [s], and can write its own. *)
  Definition agree (s : fs) (d : gmap fpath (option bytes)) : Prop :=
    wf_fs s /\ (forall q, S q -> file_at s q = now d q) /\ (forall q, W q -> can_hold_file s q).
  (** Among the others the process has the effect and the answer that the atomic
      call has, as far as its own files go. *)
  Definition rdoes {A : Type} (s : fs) (p : proc A) (want : fs * A) : Prop :=
    forall st, r_fd st = None -> agree s (r_delta st) ->
    fol (fun st' a => r_fd st' = None /\ a = snd want /\ agree (fst want) (r_delta st')) st p.

  Lemma rdoes_ret {A : Type} s (a : A) : rdoes s (Ret a) (s, a).
  Proof. intros st NF AG. by cbn. Qed.
  Lemma rdoes_try {A D : Type} s (p : proc (res A)) w (f : A -> proc (res D)) want :
    rdoes s p w ->
    match w with
    | (s1, Ok a) => wf_fs s1 -> rdoes s1 (f a) want
    | (s1, Err e) => want = (s1, Err e)
    | (s1, Panic) => want = (s1, Panic)
    end -> rdoes s (ptry p f) want.
  Proof.
    intros R N st NF AG. destruct w as [s1 r]. eapply follows_try; [by apply R|..]; cbn [fst snd].
    - intros st1 a (NF1 & <- & AG1). apply N; [apply AG1|done|done].
    - intros st1 e (NF1 & <- & AG1). by subst want.
    - intros st1 (NF1 & <- & AG1). by subst want.
  Qed.
  Lemma rdoes_on {A D : Type} s (p : proc (res A)) r (f : A -> proc (res D)) g :
    rdoes s p (s, r) -> (forall a, r = Ok a -> rdoes s (f a) (g a)) -> rdoes s (ptry p f) (on s r g).
  Proof.
    intros R N. eapply rdoes_try; [exact R|]. destruct r as [a|e|]; cbn [on]; [|done|done].
    intros _. by apply N.
  Qed.
  Lemma rdoes_pres {A D : Type} s (r : res A) (f : A -> proc (res D)) g :
    (forall a, r = Ok a -> rdoes s (f a) (g a)) -> rdoes s (pres r f) (on s r g).
  Proof. intros N. destruct r as [a|e|]; cbn [pres on]; [by apply N|apply rdoes_ret|apply rdoes_ret]. Qed.
  Lemma rdoes_andthen {A D : Type} s (p : proc (res A)) w (f : A -> proc (res D)) g :
    rdoes s p w -> (forall a, snd w = Ok a -> wf_fs (fst w) -> rdoes (fst w) (f a) (g (fst w) a)) ->
    rdoes s (ptry p f) (andthen w g).
  Proof.
    intros R N. eapply rdoes_try; [exact R|]. destruct w as [s1 [a|e|]]; cbn [andthen fst snd] in *; [|done|done].
    by apply N.
  Qed.
  Lemma rdoes_bind_pure {A D : Type} s (p : proc (res A)) r (g : A -> res D) :
    rdoes s p (s, r) -> rdoes s (ptry p (fun a => Ret (g a))) (s, r ≫= g).
  Proof.
    intros R. eapply rdoes_try; [exact R|]. destruct r as [a|e|]; [|done|done]. intros _. apply rdoes_ret.
  Qed.
  Lemma rdoes_bind_read {A D : Type} s (p : proc (res A)) r (f : A -> proc (res D)) (g : A -> res D) :
    rdoes s p (s, r) -> (forall a, r = Ok a -> rdoes s (f a) (s, g a)) ->
    rdoes s (ptry p f) (s, r ≫= g).
  Proof.
    intros R N. eapply rdoes_try; [exact R|]. destruct r as [a|e|]; [|done|done]. intros _. by apply N.
  Qed.

  Context (base key : bytes) (PB : plain base) (PK : plain key).
  Local Notation q := (loc base key).

  Lemma r_exists s : S q -> rdoes s (p_exists base key) (s, st_exists base s key).
  Proof.
    intros Sq st NF AG. pose proof AG as (Wf & SE & CH). unfold p_exists. rewrite key_comps_plain by done.
    cbn [pres follows]. split; [split; [done|by exists q]|]. intros x st' (-> & X). cbn. split_and!; [done| |done].
    rewrite (X q eq_refl). rewrite st_exists_plain by done. rewrite <- SE by done. done.
  Qed.
  Lemma r_get s rs : S q -> rdoes s (p_get base key rs) (s, st_get base s key).
  Proof.
    intros Sq st NF AG. pose proof AG as (Wf & SE & CH). unfold p_get. rewrite key_comps_plain by done.
    cbn [pres follows]. split; [split; [done|by exists q]|]. intros x st' (-> & X).
    rewrite (X q eq_refl). rewrite st_get_plain by done. rewrite SE by done.
    destruct (now (r_delta st) q) as [c|] eqn:EN; cbn [is_some]; [|by cbn].
    unfold ptry. cbn [pbind follows]. split.
    { split; [done|]. exists q. by rewrite EN. }
    intros r st1 (fd & q1 & c1 & E%normal_inj & -> & E2 & ->). subst q1. rewrite E2 in EN. injection EN as ->.
    cbn [follows]. split; [by eexists _, _, _|]. intros _ st2 ->.
    eapply follows_bind; [by apply (r_read_all _ fd q c)|]. intros st2 b [-> ->]. cbn [follows].
    split; [by eexists _, _, _|]. intros _ st3 (md & q1 & c1 & E & ->). injection E as <- <- <-.
    cbn. split_and!; [done|by rewrite drop_0|done].
  Qed.
  Lemma agree_set s d v : W q -> agree s d ->
    exists s', st_set base s key v = (s', snd v) /\ agree s' (<[q := Some (fst v)]> d).
  Proof.
    intros Wq (Wf & SE & CH). destruct (st_set_ok base s key Wf PB PK v (CH q Wq)) as (s' & E & Wf' & N).
    exists s'. split; [done|]. split_and!; [done|..].
    - intros r Sr. unfold ConcOwn.now. destruct (decide (q = r)) as [<-|NE].
      + rewrite lookup_insert. apply file_at_some. rewrite N. by rewrite decide_True.
      + rewrite lookup_insert_ne by done. unfold file_at. rewrite N. rewrite decide_False by done.
        case_decide as P; [|by apply SE].
        assert (X : file_at s r = None).
        { destruct (file_at s r) as [c|] eqn:X; [|done]. exfalso.
          destruct (CH q Wq) as [H1 _]. by apply (H1 r P (not_eq_sym NE) c). }
        rewrite SE in X by done. symmetry. exact X.
    - intros r Wr. destruct (CH r Wr) as [H1 H2]. split.
      + intros r' P N' c. unfold file_at. rewrite N. case_decide as D.
        * subst r'. exfalso. apply N'. by apply PF.
        * case_decide; [done|]. by apply H1.
      + rewrite N. case_decide; [done|]. case_decide as P; [|done]. exfalso.
        assert (r = q) by by apply PF. done.
  Qed.
  Lemma r_set s ws r : W q -> rdoes s (p_set base key ws r) (st_set base s key (concat ws, r)).
  Proof.
    intros Wq st NF AG. pose proof AG as (Wf & SE & CH). unfold p_set. rewrite key_comps_plain by done. cbn [pres].
    destruct (agree_set s (r_delta st) (concat ws, r) Wq AG) as (s' & -> & AG').
    assert (NE : q <> []) by by eapply hold_ne, CH.
    eapply follows_try with (P := fun st' x => x = Ok tt /\ r_fd st' = None /\ r_delta st' = r_delta st /\
      (parent q = [] \/ parent q ∈ r_dirs st')); [| |naive_solver|naive_solver].
    { destruct (map Normal q) eqn:E.
      { apply (f_equal length) in E. rewrite map_length in E. by destruct q. }
      rewrite <- E. rewrite parent_comps_map. cbn [follows].
      split; [split; [done|by exists (parent q)]|].
      intros b st1 (A1 & A2 & A3 & A4 & A5). destruct b.
      - cbn. split_and!; try done. right. destruct (snoc_parent q NE) as [y Y].
        apply (A5 eq_refl (parent q) q); try done.
        + exists [y]. exact Y.
        + intros X. rewrite Y in X at 2. apply (f_equal length) in X. rewrite app_length in X. cbn in X. lia.
      - eapply follows_weaken; [apply r_mkdir_all; [done|by rewrite map_length|done]|].
        rewrite map_length, firstn_all. cbn. intros st2 x (-> & B1 & B2 & B3 & B4). split_and!; try done.
        congruence. }
    intros st1 [] (_ & A1 & A2 & A3). unfold ptry. cbn [pbind follows]. split; [split; [done|by exists q]|].
    intros x st2 (fd & q1 & E%normal_inj & -> & ->). subst q1. cbn [follows].
    split; [by eexists _, _, _|]. intros u3 st3 X3. cbn [rnxt] in X3. subst st3. cbn [follows]. split; [by eexists _, _|].
    intros u3' st3 (q1 & c1 & E & ->). injection E as <- <-.
    eapply follows_weaken; [apply (r_buffered (r_dirs st1) (r_delta st1) fd q r ws [] [])|].
    intros st4 x [-> ->]. cbn. split_and!; [done|done|]. by rewrite A2.
  Qed.
  Lemma r_erase s : W q -> rdoes s (p_erase base key) (st_erase base s key).
  Proof.
    intros Wq st NF AG. pose proof AG as (Wf & SE & CH). unfold p_erase. rewrite key_comps_plain by done. cbn [pres].
    rewrite st_erase_plain by done. destruct (CH q Wq) as [H1 H2].
    assert (NE : q <> []) by by eapply hold_ne, CH.
    cbn [follows]. split; [split; [done|by exists q]|].
    intros b st1 (A1 & A2 & A3 & A4 & A5). rewrite (A4 q eq_refl Wq). rewrite <- SE by by apply WS.
    assert (forall st2 d, r_fd st2 = None -> r_delta st2 = d -> now d q = None -> forall s', agree s' d ->
      fol (fun st' a => r_fd st' = None /\ a = Ok true /\ agree s' (r_delta st')) st2
        (Call (SExists (map Normal q)) (fun b => Ret (Ok (negb b))))) as FIN.
    { intros st2 d B1 B2 B3 s' AG'. cbn. split; [split; [done|by exists q]|].
      intros x st3 (C1 & C2 & C3 & C4 & C5). rewrite (C4 q eq_refl Wq), B2, B3. cbn. split_and!; [done|done|].
      by rewrite C2, B2. }
    assert (NQ : file_at s q = now (r_delta st) q) by by apply SE, WS.
    destruct (node_at s q) as [[|c]|] eqn:EN; [done| |].
    - assert (EF : file_at s q = Some c) by by apply file_at_some. rewrite EF in *. cbn [is_some].
      unfold ptry. cbn [pbind follows]. split.
      { split; [done|]. exists q. split_and!; [done|by apply WS|]. by rewrite A2, <- NQ. }
      intros r st2 (fd & q1 & c1 & E%normal_inj & -> & E2 & ->). subst q1. cbn [follows].
      split; [by eexists _, _, _|]. intros u3 st3 X3. cbn [rnxt] in X3. subst st3. cbn [follows]. split; [by eexists _, _, _|].
      intros r st3 (fd' & q1 & c2 & E & -> & ->). injection E as <- <- <-. cbn [follows].
      split; [by eexists _, _, _|]. intros u4 st4 (md & q1 & c2 & E & ->). injection E as <- <- <-.
      cbn [pres fst snd with_fd r_dirs r_delta]. rewrite A2. eapply FIN; [done|reflexivity| |].
      { cbn [r_delta]. unfold ConcOwn.now. by rewrite lookup_insert. }
      cbn [r_delta]. split_and!.
      + by eapply wf_delete.
      + intros r Sr. unfold file_at. rewrite node_at_delete by done. unfold ConcOwn.now. case_decide as D.
        * subst r. by rewrite lookup_insert.
        * rewrite lookup_insert_ne by done. by apply SE.
      + intros r Wr. destruct (CH r Wr) as [G1 G2]. split.
        * intros r' P N' c'. unfold file_at. rewrite node_at_delete by done. case_decide; [done|]. by apply G1.
        * rewrite node_at_delete by done. by case_decide.
    - assert (EF : file_at s q = None) by (unfold file_at; by rewrite EN). rewrite EF in *. cbn [is_some].
      eapply (FIN st1 (r_delta st)); done.
  Qed.
End One.
