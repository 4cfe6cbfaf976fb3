(** Atomicity of concurrent accesses to one file that is there all the time:
    the order in which the processes lock it (C64). *)
From Verif Require Import BaseFacts PathFacts KeyFacts FSFacts Spec SpecMeta ChunkFacts HierFacts RefFacts OpsFacts.
From Verif Require Import Sys SpecConc SysFacts SysOps CrashFacts CrashOps ConcFacts ConcOps ConcChunk SpecLin.
Local Open Scope Z_scope.

(** ** Structural protocols *)

Section Structure.
  Context (p : fpath).
  Local Notation P := (map Normal p).

  (** Processes that do not write the file: which description of it is open. *)
  Definition npre (T : Type) (a : option nat) (c : sys T) : Prop :=
    match c with
    | SOpenW cs => cs <> P
    | SLock fd ex => a = Some fd -> ex = false
    | _ => True
    end.
  Definition nnxt (T : Type) (a : option nat) (c : sys T) : T -> option nat -> Prop :=
    match c in sys T return T -> option nat -> Prop with
    | SOpenR _ cs => fun x a' => match x with
                                 | Ok fd => (cs = P -> a' = Some fd) /\ (cs <> P -> a' = None)
                                 | _ => a' = None
                                 end
    | SOpenW _ | SClose _ => fun _ a' => a' = None
    | _ => fun _ a' => a' = a
    end.

  (** A process that reads the file once: before opening it; before locking it;
      afterwards. *)
  Inductive rstate := R0 | RO (fd : nat) | RD.
  Definition rpre (T : Type) (a : rstate) (c : sys T) : Prop :=
    match a, c with
    | R0, SIsFile cs => cs = P
    | R0, SOpenR d cs => d = false /\ cs = P
    | RO fd, SLock fd' ex => fd' = fd /\ ex = false
    | RD, SOpenR _ _ | RD, SOpenW _ => False
    | RD, _ => True
    | _, _ => False
    end.
  Definition rnxt (T : Type) (a : rstate) (c : sys T) : T -> rstate -> Prop :=
    match c in sys T return T -> rstate -> Prop with
    | SIsFile _ => fun x a' => a' = a /\ (a = R0 -> x = true)
    | SOpenR _ _ => fun x a' => exists fd, x = Ok fd /\ a' = RO fd
    | SLock _ _ => fun _ a' => a' = RD
    | _ => fun _ a' => a' = a
    end.

  (** A process that writes it once: before opening it; before locking it;
      before emptying it; afterwards. *)
  Inductive wstate := W0 | WO (fd : nat) | WL (fd : nat) | WD.
  Definition wpre (T : Type) (a : wstate) (c : sys T) : Prop :=
    match a, c with
    | W0, SExists cs => cs = parent_comps P
    | W0, SOpenW cs => cs = P
    | WO fd, SLock fd' ex => fd' = fd /\ ex = true
    | WL fd, STrunc fd' => fd' = fd
    | WD, SOpenR _ _ | WD, SOpenW _ | WD, SLock _ _ => False
    | WD, _ => True
    | _, _ => False
    end.
  Definition wnxt (T : Type) (a : wstate) (c : sys T) : T -> wstate -> Prop :=
    match c in sys T return T -> wstate -> Prop with
    | SExists _ => fun x a' => a' = a /\ (a = W0 -> x = true)
    | SOpenW _ => fun x a' => exists fd, x = Ok fd /\ a' = WO fd
    | SLock fd _ => fun _ a' => a' = WL fd
    | STrunc _ => fun _ a' => a' = WD
    | _ => fun _ a' => a' = a
    end.
  Local Notation nfol := (follows npre nnxt).
  Local Notation rfol := (follows rpre rnxt).
  Local Notation wfol := (follows wpre wnxt).
  Definition any {St A : Type} : St -> A -> Prop := fun _ _ => True.

  (** *** The store *)
  Lemma n_mkdir_all cs n a : nfol any a (p_mkdir_all cs n).
  Proof.
    assert (forall here (e : res unit) a, nfol any a
              (Call (SIsDir here) (fun d => Ret (if d : bool then Ok tt else e)))) as OR.
    { intros here e a'. cbn. split; [done|]. done. }
    revert a. induction n as [|n IH]; intros a; [done|]. cbn [p_mkdir_all follows npre nnxt]. split; [done|].
    intros r st' ->. destruct r as [[]|e|]; [done| |apply OR]. destruct e; try by apply OR.
    eapply follows_try; [apply IH| |done|done].
    intros st2 [] _. cbn [follows npre nnxt]. split; [done|]. intros r st3 ->. destruct r as [[]|e|]; [done|apply OR..].
  Qed.
  Lemma n_write_all fuel fd : forall off b a, nfol any a (p_write_all fuel fd off b).
  Proof.
    induction fuel as [|f IH]; intros off b a; destruct b; try done. cbn [p_write_all follows npre nnxt].
    split; [done|]. intros x st' ->. destruct x as [[|n]|e|]; try done.
  Qed.
  Lemma n_drop fd off buf r a : nfol any a (p_drop fd off buf r).
  Proof. eapply follows_bind; [apply n_write_all|]. intros st x _. cbn. split; [done|]. done. Qed.
  Lemma n_buffered fd r ws : forall off buf a, nfol any a (p_buffered fd off buf ws r).
  Proof.
    induction ws as [|w ws IH]; intros off buf a; cbn [p_buffered]; [apply n_drop|].
    assert (forall off buf a, nfol any a
        (if lenZ w >=? BUF_CAP
        then pbind (p_write_all (length w) fd off w) (fun x =>
               let '(off', _, rw) := x in
               match rw with
               | Ok _ => p_buffered fd off' buf ws r
               | e => p_drop fd off' buf e
               end)
        else p_buffered fd off (buf ++ w) ws r)) as PUT.
    { clear off buf a. intros off buf a. destruct (lenZ w >=? BUF_CAP); [|apply IH].
      eapply follows_bind; [apply n_write_all|]. intros st [[? ?] []] _; [apply IH|apply n_drop..]. }
    destruct (lenZ w >? BUF_CAP - lenZ buf); [|apply PUT].
    eapply follows_bind; [apply n_write_all|]. intros st [[? ?] []] _; [apply PUT|apply n_drop..].
  Qed.
  Lemma n_read_all fd rs : forall off acc a, nfol any a (p_read_all fd off rs acc).
  Proof.
    induction rs as [|n rs IH]; intros off acc a; cbn [p_read_all follows npre nnxt]; [done|].
    split; [done|]. intros x st' ->. case_bool_decide; [done|]. apply IH.
  Qed.
  Lemma n_try {A D} (q : proc (res A)) (f : A -> proc (res D)) a :
    nfol any a q -> (forall x a, nfol any a (f x)) -> nfol any a (ptry q f).
  Proof. intros F N. eapply follows_try; [exact F| |done|done]. intros st x _. apply N. Qed.
  Lemma n_pres {A D} (r : res A) (f : A -> proc (res D)) a :
    (forall x, nfol any a (f x)) -> nfol any a (pres r f).
  Proof. intros N. by destruct r; cbn; [apply N|..]. Qed.
  Lemma n_reply {A D} (f : A -> D) q a : nfol any a q -> nfol any a (pbind q (fun x => Ret (f x))).
  Proof. intros F. eapply follows_bind; [exact F|]. done. Qed.

  Lemma n_exists base key a : nfol any a (p_exists base key).
  Proof. apply n_pres. intros cs. cbn. split; [done|]. done. Qed.
  Lemma n_get base key rs a : nfol any a (p_get base key rs).
  Proof.
    apply n_pres. intros cs. cbn [follows npre nnxt]. split; [done|]. intros b st' ->. destruct b; [|done].
    apply n_try.
    { cbn. split; [done|]. done. }
    intros fd a'. cbn [follows npre nnxt]. split; [done|]. intros _ st' ->.
    eapply follows_bind; [apply n_read_all|]. intros st c _. cbn. split; [done|]. done.
  Qed.
  Context (base key : bytes) (PB : plain base) (PK : plain key) (NE : loc base key <> p).
  Lemma key_ne : map Normal (loc base key) <> P.
  Proof. intros E. by apply normal_inj in E. Qed.
  Lemma n_set ws r a : nfol any a (p_set base key ws r).
  Proof.
    unfold p_set. rewrite key_comps_plain by done. cbn [pres]. apply n_try.
    { destruct (map Normal (loc base key)); [done|]. cbn [follows npre nnxt]. split; [done|].
      intros b st' ->. destruct b; [done|]. apply n_mkdir_all. }
    intros _ a'. unfold ptry. cbn [pbind follows npre nnxt]. split; [apply key_ne|].
    intros x st' ->. destruct x as [fd|e|]; [|done|done]. cbn [follows npre nnxt]. split; [done|].
    intros _ st' ->. split; [done|]. intros _ st' ->. apply n_buffered.
  Qed.
  Lemma n_open_other {A} dir_ok cs (f : nat -> proc (res A)) a : cs <> P ->
    (forall fd, nfol any None (f fd)) -> nfol any a (ptry (Call (SOpenR dir_ok cs) (fun r => Ret r)) f).
  Proof.
    intros N F. unfold ptry. cbn [pbind follows npre nnxt]. split; [done|]. intros x st' X.
    destruct x as [fd|e|]; [|done|done]. destruct X as [_ X]. rewrite (X N). apply F.
  Qed.
  Lemma n_erase a : nfol any a (p_erase base key).
  Proof.
    unfold p_erase. rewrite key_comps_plain by done. cbn [pres follows npre nnxt]. split; [done|].
    assert (forall a, nfol any a (Call (SExists (map Normal (loc base key))) (fun b => Ret (Ok (negb b))))) as FI by done.
    intros b st' ->. destruct b; [|apply FI].
    apply n_open_other; [apply key_ne|]. intros fd. cbn [follows npre nnxt]. split; [done|].
    intros _ st' ->. split; [done|]. intros r st' ->. split; [done|]. intros _ st' ->. by apply n_pres.
  Qed.
End Structure.

Section Access.
  Context (p : fpath).
  Local Notation P := (map Normal p).
  Local Notation rfol := (follows (rpre p) (rnxt)).
  Local Notation wfol := (follows (wpre p) (wnxt)).

  (** *** Reading it *)
  Lemma r_read_all fd rs : forall off acc, rfol (fun a _ => a = RD) RD (p_read_all fd off rs acc).
  Proof.
    induction rs as [|n rs IH]; intros off acc; cbn [p_read_all follows rpre rnxt].
    - split; [done|]. intros x st' ->. done.
    - split; [done|]. intros x st' ->. case_bool_decide; [done|]. apply IH.
  Qed.
  Lemma r_get base key rs : plain base -> plain key -> loc base key = p ->
    rfol (fun a _ => a = RD) R0 (p_get base key rs).
  Proof.
    intros PB PK E. unfold p_get. rewrite key_comps_plain, E by done. cbn [pres follows rpre rnxt]. split; [done|].
    intros b st' [-> X]. rewrite (X eq_refl). unfold ptry. cbn [pbind follows rpre rnxt]. split; [done|].
    intros x st' (fd & -> & ->). cbn [follows rpre rnxt]. split; [done|]. intros _ st' ->.
    eapply follows_bind; [apply r_read_all|]. intros st c ->. cbn [follows rpre rnxt]. split; [done|].
    by intros _ st' ->.
  Qed.

  (** *** Writing it *)
  Lemma w_write_all fuel fd : forall off b, wfol (fun a _ => a = WD) WD (p_write_all fuel fd off b).
  Proof.
    induction fuel as [|f IH]; intros off b; destruct b; try done. cbn [p_write_all follows wpre wnxt].
    split; [done|]. intros x st' ->. destruct x as [[|n]|e|]; done.
  Qed.
  Lemma w_drop fd off buf r : wfol (fun a _ => a = WD) WD (p_drop fd off buf r).
  Proof.
    eapply follows_bind; [apply w_write_all|]. intros st x ->. cbn [follows wpre wnxt]. split; [done|].
    by intros _ st' ->.
  Qed.
  Lemma w_buffered fd r ws : forall off buf, wfol (fun a _ => a = WD) WD (p_buffered fd off buf ws r).
  Proof.
    induction ws as [|w ws IH]; intros off buf; cbn [p_buffered]; [apply w_drop|].
    assert (forall off buf, wfol (fun a _ => a = WD) WD
        (if lenZ w >=? BUF_CAP
        then pbind (p_write_all (length w) fd off w) (fun x =>
               let '(off', _, rw) := x in
               match rw with
               | Ok _ => p_buffered fd off' buf ws r
               | e => p_drop fd off' buf e
               end)
        else p_buffered fd off (buf ++ w) ws r)) as PUT.
    { clear off buf. intros off buf. destruct (lenZ w >=? BUF_CAP); [|apply IH].
      eapply follows_bind; [apply w_write_all|]. intros st [[? ?] []] ->; [apply IH|apply w_drop..]. }
    destruct (lenZ w >? BUF_CAP - lenZ buf); [|apply PUT].
    eapply follows_bind; [apply w_write_all|]. intros st [[? ?] []] ->; [apply PUT|apply w_drop..].
  Qed.
  Lemma w_set base key ws r : plain base -> plain key -> loc base key = p -> p <> [] ->
    wfol (fun a _ => a = WD) W0 (p_set base key ws r).
  Proof.
    intros PB PK E NE. unfold p_set. rewrite key_comps_plain, E by done. cbn [pres].
    eapply follows_try with (P := fun a x => a = W0 /\ x = Ok tt); [| |naive_solver|naive_solver].
    { destruct P eqn:EP; [by destruct p|]. rewrite <- EP. cbn [follows wpre wnxt]. split; [done|].
      intros b st' [-> X]. by rewrite (X eq_refl). }
    intros st [] [-> _]. unfold ptry. cbn [pbind follows wpre wnxt]. split; [done|].
    intros x st' (fd & -> & ->). cbn [follows wpre wnxt]. split; [done|]. intros _ st' ->.
    split; [done|]. intros _ st' ->. apply w_buffered.
  Qed.
End Access.

(** ** The calls that do not write the file *)
Section Others.
  Context (p : fpath) (C : codec) (h : host) (H : hier) (sl : bytes -> list bytes).
  Context (PB : plain (hy_base H)) (GX : good_suffix (ep_suffix (hy_ep H))).
  Local Notation base := (hy_base H).
  Local Notation nfol := (follows (npre p) (nnxt p)).

  Lemma n_node_key path a :
    nfol (fun _ r => forall k, r = Ok k -> k = akey H path \/ k = gkey H path) a (p_node_key H path).
  Proof.
    unfold p_node_key. eapply follows_try; [apply n_exists| |done|done].
    intros st b _. destruct b; [cbn; naive_solver|].
    eapply follows_try; [apply n_exists| |done|done].
    intros st' b _. destruct b; cbn; naive_solver.
  Qed.
  Lemma n_get_array_metadata path rs a : nfol any a (p_get_array_metadata H path rs).
  Proof. apply n_try; [apply n_get|]. done. Qed.
  Lemma n_list_attributes path rs a : nfol any a (p_list_attributes H path rs).
  Proof.
    eapply follows_try; [apply n_node_key| |done|done]. intros st k _. apply n_try; [apply n_get|]. done.
  Qed.
  Lemma n_set_attributes path attrs rs a : plain path -> loc base (akey H path) <> p -> loc base (gkey H path) <> p ->
    nfol any a (p_set_attributes H sl path attrs rs).
  Proof.
    intros PP N1 N2. unfold p_set_attributes.
    eapply follows_try; [apply n_node_key| |done|done]. intros st k K. specialize (K k eq_refl).
    assert (plain k /\ loc base k <> p) as [K1 K2].
    { destruct K as [->| ->]; (split; [|done]); [by apply plain_akey|by apply plain_gkey]. }
    apply n_try; [apply n_get|]. intros x a'. apply n_pres. intros text. apply n_pres. intros ex.
    destruct (json_eqb _ _); [done|]. by apply n_set.
  Qed.
  Lemma n_create_group path a : plain path -> loc base (gkey H path) <> p -> nfol any a (p_create_group H sl path).
  Proof.
    intros PP N. apply n_try; [apply n_exists|]. intros [|] a1; [done|].
    apply n_try; [apply n_exists|]. intros [|] a2; [done|]. apply n_set; [done|by apply plain_gkey|done].
  Qed.
  Lemma n_create_array path m a : plain path -> loc base (akey H path) <> p -> nfol any a (p_create_array H sl path m).
  Proof.
    intros PP N. apply n_try; [apply n_exists|]. intros [|] a1; [done|].
    apply n_try; [apply n_exists|]. intros [|] a2; [done|]. apply n_set; [done|by apply plain_akey|done].
  Qed.
  Lemma n_read_chunk t path m pos rs a : nfol any a (p_read_chunk H C h t path m pos rs).
  Proof. apply n_pres. intros _. apply n_try; [apply n_get|]. done. Qed.
  Lemma n_each {A} (f : A -> proc (res unit)) es : (forall e a, nfol any a (f e)) -> forall a, nfol any a (p_each f es).
  Proof. intros F. induction es as [|e es IH]; intros a; [done|]. by apply n_try. Qed.
  Lemma n_rm_tree ord (q0 : fpath) : ~ q0 `prefix_of` p -> forall fuel q dir a, q0 `prefix_of` q ->
    nfol any a (p_rm_tree ord fuel (map Normal q) dir).
  Proof.
    intros N fuel. induction fuel as [|fuel IH]; intros q dir a Q; [done|]. cbn [p_rm_tree]. destruct dir.
    - apply n_try; [done|]. intros es a1. apply n_try; [|done].
      apply n_each. intros e a2. change [Normal e.1] with (map Normal [e.1]). rewrite <- map_app.
      apply IH. by apply prefix_app_r.
    - apply n_open_other; [intros E%normal_inj; by subst|]. intros fd. cbn [follows npre nnxt]. split; [done|].
      intros _ st' ->. done.
  Qed.
  Lemma n_remove ord fuel path a : plain path -> loc base (gkey H path) <> p -> loc base (akey H path) <> p ->
    ~ (pieces base ++ B "data" :: B "root" :: pieces path) `prefix_of` p ->
    nfol any a (p_remove H ord fuel path).
  Proof.
    intros PP N1 N2 N3.
    apply n_try; [apply n_erase; [done|by apply plain_gkey|done]|]. intros _ a1.
    apply n_try; [apply n_erase; [done|by apply plain_akey|done]|]. intros _ a2.
    apply n_try; [|done]. unfold p_erase_prefix. rewrite key_comps_plain by (done || by apply data_key_plain).
    cbn [pres follows npre nnxt]. split; [done|].
    intros b st' ->. destruct b; [|done]. cbn [follows npre nnxt]. split; [done|].
    intros d st' ->. destruct d as [dir|]; [|done]. apply n_try; [|done].
    apply (n_rm_tree ord (loc base (data_path_key path))); [|done]. by rewrite data_key_loc.
  Qed.
  Lemma n_stats cs es : forall a, nfol any a (p_stats cs es).
  Proof.
    induction es as [|e es IH]; intros a; [done|]. cbn [p_stats follows npre nnxt]. split; [done|]. intros d st' ->.
    by eapply follows_bind.
  Qed.
  Lemma n_list_nodes ord pr path a : nfol any a (p_list_nodes H ord pr path).
  Proof.
    apply n_try; [|done]. apply n_pres. intros cs. apply n_try; [done|].
    intros es a1. eapply follows_bind; [apply n_stats|]. done.
  Qed.
End Others.

(** ** The order in which the processes lock the file *)
Section Inode.
  Context (p : fpath) (NE : p <> []) (gone : fpath -> Prop).
  Local Notation pre0 V := (pre p V True gone).
  Local Notation nxt0 V := (nxt p V True gone).
  Local Notation inv0 V := (inv p V True gone).

  (** The inode stays the same. *)
  Definition mine (st : sess) (fd : nat) : Prop := (exists w, st = Open w true fd) \/ exists d c, st = Hold d fd c.
  Definition at_inode (o : os) (sts : nat -> sess) (j : nat) : Prop :=
    o_tree o !! p = Some (DFile j) /\ forall k fd, mine (sts k) fd -> o_fds o !! fd = Some j.
  Lemma mine_fd st fd : mine st fd -> fd_of st = Some fd.
  Proof. by intros [[? ->]|(? & ? & ->)]. Qed.
  Lemma mine_free fd : ~ mine Free fd.
  Proof. by intros [[? ?]|(? & ? & ?)]. Qed.

  Lemma step_inode V {T} (c : sys T) o o' x sts Is i st' j : inv0 V o sts Is -> at_inode o sts j ->
    pre0 V T (sts i) c -> sys_step c o = Some (o', x) -> nxt0 V T (sts i) c x st' -> at_inode o' (upd sts i st') j.
  Proof.
    intros I [TJ MI] PR E N. pose proof (i_ok _ _ _ _ _ _ _ I) as K.
    assert (o_fds o !! o_next o = None) as F1.
    { destruct (o_fds o !! o_next o) eqn:F; [|done]. apply (ok_fds _ K) in F as [? _]. lia. }
    assert (forall k fd, mine (sts k) fd -> fd <> o_next o) as NF.
    { intros k fd M. apply MI in M. intros ->. congruence. }
    assert (forall q k, o_tree o !! q = None -> o_tree (link o q k) !! p = Some (DFile j)) as LK.
    { intros q k Q. cbn. rewrite lookup_insert_ne; [done|]. intros ->. congruence. }
    assert (o_tree o' !! p = Some (DFile j) -> (forall fd, mine st' fd -> mine (sts i) fd) ->
            (forall fd, o_fds o' !! fd = o_fds o !! fd) -> at_inode o' (upd sts i st') j) as SAME.
    { intros T' S' F'. split; [done|]. intros k fd M. rewrite F'. apply (MI k). destruct (decide (k = i)) as [->|D].
      - rewrite upd_same in M. by apply S'.
      - by rewrite upd_ne in M. }
    destruct c; cbn [sys_step] in E; cbn [pre] in PR; cbn [nxt] in N.
    - injection E as <- <-. destruct N as [-> _]. by apply SAME.
    - injection E as <- <-. subst st'. by apply SAME.
    - injection E as <- <-. destruct N as [-> _]. by apply SAME.
    - destruct N as [-> _]. injection E as E.
      destruct (walk (view o) [] cs) as [q|e|]; [|by injection E as <- <-; apply SAME|by injection E as <- <-; apply SAME].
      destruct (node_at (view o) q) as [n|] eqn:EN; [by injection E as <- <-; apply SAME|].
      destruct (is_dir_at (view o) (parent q)); injection E as <- <-; apply SAME; try done.
      apply LK. destruct (o_tree o !! q) as [[|jj]|] eqn:ET; [..|done].
      all: destruct q as [|b q]; [done|]; rewrite node_at_ne, view_lookup, ET in EN by done; done.
    - destruct PR as (SF & q & -> & _). injection E as E.
      assert (forall o1 e, (o, Err e) = (o1, x) -> o1 = o' -> at_inode o' (upd sts i st') j) as ERR.
      { intros o1 e E1 <-. injection E1 as <- <-. destruct N as [-> _]. apply SAME; [done| |done].
        by intros fd M%mine_free. }
      assert (forall o1 q1 jj, o_tree o1 !! p = Some (DFile j) -> o_fds o1 = o_fds o -> (q1 = p -> jj = j) ->
          (open_fd o1 jj, Ok (o_next o1)) = (o', x) -> q1 = q -> (o_next o <= o_next o1)%nat -> at_inode o' (upd sts i st') j) as OPEN.
      { intros o1 q1 jj T1 FD QJ E1 -> LE. injection E1 as <- <-. cbn in N. split; [done|]. intros k fd M. cbn. rewrite FD.
        destruct (decide (k = i)) as [->|D].
        - rewrite upd_same, N in M. destruct M as [[w M]|(d & c & M)]; [|done]. injection M as _ B ->.
          apply bool_decide_eq_true, normal_inj in B. rewrite lookup_insert. by rewrite QJ.
        - rewrite upd_ne in M by done. apply MI in M. rewrite lookup_insert_ne; [done|].
          apply (ok_fds _ K) in M as [? _]. lia. }
      destruct (walk (view o) [] (map Normal q)) as [r|e|] eqn:EW; [| |by apply walk_no_panic in EW].
      2:{ by eapply ERR. }
      apply walk_normal_target in EW as ->. cbn [app] in *.
      destruct q as [|b q'] eqn:EQ; [by eapply ERR|]. rewrite <- EQ in *.
      destruct (o_tree o !! q) as [[|jj]|] eqn:ET.
      + by eapply ERR.
      + eapply (OPEN o q jj); [done|done| |done|done|lia]. intros ->. congruence.
      + destruct (is_dir_at (view o) (parent q)) eqn:EP; [|by eapply ERR].
        eapply (OPEN (link (new_inode o) q (DFile (o_next o))) q (o_next o)); [|done| |done|done|cbn; lia].
        * cbn. rewrite lookup_insert_ne; [done|]. intros X. rewrite X in ET. congruence.
        * intros X. rewrite X in ET. congruence.
    - destruct PR as (SF & q & ->). injection E as E.
      assert (forall o1 e, (o, Err e) = (o1, x) -> o1 = o' -> at_inode o' (upd sts i st') j) as ERR.
      { intros o1 e E1 <-. injection E1 as <- <-. destruct N as [-> _]. apply SAME; [done| |done].
        by intros fd M%mine_free. }
      assert (forall o1 jj, o_tree o1 !! p = Some (DFile j) -> o_fds o1 = o_fds o -> (q = p -> jj = j) ->
          (open_fd o1 jj, Ok (o_next o1)) = (o', x) -> (o_next o <= o_next o1)%nat -> at_inode o' (upd sts i st') j) as OPEN.
      { intros o1 jj T1 FD QJ E1 LE. injection E1 as <- <-. cbn in N. destruct N as (m & N & N1 & N2).
        split; [done|]. intros k fd M. cbn. rewrite FD.
        destruct (decide (k = i)) as [->|D].
        - rewrite upd_same, N in M. destruct M as [[w M]|(d & c & M)]; [|done]. injection M as _ -> ->.
          rewrite lookup_insert. rewrite QJ; [done|]. by apply normal_inj, N1.
        - rewrite upd_ne in M by done. apply MI in M. rewrite lookup_insert_ne; [done|].
          apply (ok_fds _ K) in M as [? _]. lia. }
      destruct (walk (view o) [] (map Normal q)) as [r|e|] eqn:EW; [| |by apply walk_no_panic in EW].
      2:{ by eapply ERR. }
      apply walk_normal_target in EW as ->. cbn [app] in *.
      destruct (node_at (view o) q) as [[|c]|] eqn:EN; [| |by eapply ERR].
      + destruct dir_ok; [|by eapply ERR].
        eapply (OPEN (new_inode o) (o_next o)); [done|done| |done|cbn; lia]. intros ->.
        rewrite node_at_ne, view_lookup, TJ in EN by done. done.
      + destruct (o_tree o !! q) as [[|jj]|] eqn:ET; [by eapply ERR| |by eapply ERR].
        eapply (OPEN o jj); [done|done| |done|lia]. intros ->. congruence.
    - destruct (o_fds o !! fd) as [jj|] eqn:F; [|done]. destruct (lock_conflict o fd ex); [done|].
      injection E as <- <-. apply SAME; [done| |done]. intros fd' M.
      destruct N as [(w & SI & ->)|(w & c & SI & _ & ->)]; rewrite SI in *; [done|].
      apply mine_fd in M. injection M as <-. left. by exists w.
    - destruct (o_fds o !! fd) as [jj|] eqn:F; [|done].
      injection E as <- <-. apply SAME; [done| |done]. intros fd' M.
      destruct N as [(w & SI & ->)|(d & c & SI & ->)]; rewrite SI in *; [done|].
      apply mine_fd in M. injection M as <-. right. by exists d, c.
    - destruct (o_fds o !! fd) as [jj|] eqn:F; [|done]. destruct N as (n & -> & _ & _ & N).
      injection E as E. assert (o_tree o' = o_tree o /\ o_fds o' = o_fds o) as [E1 E2].
      { destruct (_ && _); injection E as <- _; done. }
      apply SAME; [by rewrite E1| |by rewrite E2]. intros fd' M.
      destruct N as [(w & SI & ->)|(d & c & SI & ->)]; rewrite SI in *; [done|].
      apply mine_fd in M. injection M as <-. right. by exists d, c.
    - destruct (o_fds o !! fd) as [jj|] eqn:F; [|done]. injection E as <- <-. destruct N as [-> _]. by apply SAME.
    - injection E as <- <-. subst st'. split; [done|]. intros k fd' M.
      destruct (decide (k = i)) as [->|D]; [rewrite upd_same in M; by apply mine_free in M|].
      rewrite upd_ne in M by done. cbn. rewrite lookup_delete_ne; [by apply (MI k)|]. intros <-. apply D.
      apply (i_fd _ _ _ _ _ _ _ I k i fd); [by apply mine_fd|].
      destruct PR as [(? & ? & -> & _)|(? & ? & -> & _)]; done.
    - destruct PR as (q & -> & NP). destruct N as [-> _]. injection E as E.
      destruct (walk (view o) [] (map Normal q)) as [r|e|] eqn:EW; [| |by apply walk_no_panic in EW].
      2:{ injection E as <- <-. by apply SAME. }
      apply walk_normal_target in EW as ->. cbn [app] in *.
      destruct (node_at (view o) q) as [[|c]|] eqn:EN; injection E as <- <-; apply SAME; try done.
      cbn. rewrite lookup_delete_ne; [done|]. by apply NP.
    - injection E as <- <-. subst st'. by apply SAME.
    - injection E as <- <-. destruct N as [-> _]. by apply SAME.
    - destruct N as [-> _]. injection E as E.
      destruct (walk (view o) [] cs) as [q|e|] eqn:EW; [| |by apply walk_no_panic in EW].
      2:{ injection E as <- <-. by apply SAME. }
      destruct (node_at (view o) q) as [[|c]|] eqn:EN; [|by injection E as <- <-; apply SAME..].
      destruct (_ || _) eqn:EE; injection E as <- <-; apply SAME; try done.
      cbn. rewrite lookup_delete_ne; [done|]. intros ->. rewrite node_at_ne, view_lookup, TJ in EN by done. done.
  Qed.

  (** Only that inode matters. *)
  Lemma inv_restrict V o sts Is j : inv0 V o sts Is -> at_inode o sts j -> inv0 V o sts (eq j).
  Proof.
    intros I [TJ MI]. assert (Is j) as IJ by (by apply (i_at _ _ _ _ _ _ _ I p j TJ)).
    pose proof (i_ok _ _ _ _ _ _ _ I) as K. split; try apply I.
    - intros q jj T. split; [intros <-; by eapply ok_one|]. intros ->. congruence.
    - intros jj <-. by apply I.
    - intros k. pose proof (i_sess _ _ _ _ _ _ _ I k) as S. specialize (MI k).
      destruct (sts k) as [|w [] fd|d fd c]; cbn in S |- *; [done|..].
      + destruct S as (jj & S1 & S2 & S3). exists jj. split_and!; [done| |done].
        specialize (MI fd ltac:(left; by exists w)). congruence.
      + destruct S as (jj & S1 & S2). exists jj. split; [done|]. by intros <-.
      + destruct S as (jj & S1 & S2 & S3 & S4). exists jj. split_and!; [done| |done..].
        specialize (MI fd ltac:(right; by exists d, c)). congruence.
    - intros fd ex jj L F <-. by apply (i_lock _ _ _ _ _ _ _ I fd ex j).
    - intros fd fd' jj ex ex' D L L' F F' <-. by apply (i_compat _ _ _ _ _ _ _ I fd fd' j).
    - intros jj <-. by apply I.
  Qed.
  (** While the file is being written, any content may be required later. *)
  Lemma inv_revalue V V' o sts j k fd c : inv0 V o sts (eq j) -> at_inode o sts j -> sts k = Hold Dirty fd c ->
    inv0 V' o sts (eq j).
  Proof.
    intros I [TJ MI] S. destruct I. split; try done. intros jj <- X. exfalso. apply (X k fd c S).
    apply (MI k). rewrite S. right. by exists Dirty, c.
  Qed.

  Lemma pre_any (V V' : bytes -> Prop) T st (c : sys T) : (forall fd c', st = Hold Dirty fd c' -> V c' -> V' c') ->
    (forall fd, st = Open true true fd -> V [] -> V' []) -> pre0 V T st c -> pre0 V' T st c.
  Proof.
    intros X X' PR. destruct c; cbn [pre] in *; try done. destruct PR as [(w & m & -> & PR)|(d & c & -> & PR)].
    { left. exists w, m. split; [done|]. intros -> ->. eapply X'; [done|]. by apply PR. }
    right.
    exists d, c. split; [done|]. intros ->. eapply X; [done|]. by apply PR.
  Qed.
  Lemma nxt_any (V V' : bytes -> Prop) T st (c : sys T) x st' :
    (forall w fd d c', st = Open w true fd -> st' = Hold d fd c' -> V c' -> V' c') ->
    nxt0 V T st c x st' -> nxt0 V' T st c x st'.
  Proof.
    intros X N. destruct c; cbn [nxt] in *; try done. destruct N as [N|(w & c & -> & [N|[[] _]] & ->)]; [tauto| |done].
    right. exists w, c. split_and!; [done|left; by eapply X|done].
  Qed.

  Definition nlink (a : option nat) (st : sess) : Prop :=
    match st with
    | Free | Open _ false _ => True
    | Open w true fd => w = false /\ a = Some fd
    | Hold d fd _ => d = Shared /\ a = Some fd
    end.
  Lemma nlink_step V a st T (c : sys T) x st' : nlink a st -> npre p T a c -> pre0 V T st c -> nxt0 V T st c x st' ->
    exists a', nlink a' st' /\ nnxt p T a c x a'.
  Proof.
    intros L NP PR N. destruct c; cbn [npre pre nxt nnxt] in *.
    - destruct N as [-> _]. by exists a.
    - subst st'. by exists a.
    - destruct N as [-> _]. by exists a.
    - destruct N as [-> _]. by exists a.
    - exists None. destruct x as [fd|e|]; [|by destruct N as [-> _]|done]. subst st'. by rewrite bool_decide_false.
    - destruct x as [fd|e|]; [|exists None; by destruct N as [-> _]|done]. destruct N as (m & -> & N & _).
      destruct (decide (cs = map Normal p)) as [E|NE'].
      + exists (Some fd). split; [by destruct m|]. done.
      + exists None. split; [|done]. destruct m; [by specialize (N eq_refl)|done].
    - exists a. split; [|done]. destruct N as [(w & -> & ->)|(w & c & -> & _ & ->)]; [done|]. destruct L as [-> ->].
      rewrite NP by done. done.
    - exists a. split; [|done]. destruct N as [(w & -> & ->)|(d & c & -> & ->)]; [done|]. destruct L as [-> ->].
      destruct PR as [[w PR]|(d & c' & PR & EX)]; [done|]. by injection PR as <- _.
    - exists a. split; [|done]. destruct N as (n & _ & _ & _ & [(w & -> & ->)|(d & c & -> & ->)]); [done|].
      destruct L as [-> ->]. destruct PR as [[w PR]|(d & c' & PR & EX & _)]; [done|]. by injection PR as <- _.
    - destruct N as [-> _]. by exists a.
    - subst st'. by exists None.
    - destruct N as [-> _]. by exists a.
    - subst st'. by exists a.
    - destruct N as [-> _]. by exists a.
    - destruct N as [-> _]. by exists a.
  Qed.

End Inode.

Section Order.
  Context (p : fpath) (NE : p <> []).
  Local Notation pre0 V := (pre p V True (fun _ => False)).
  Local Notation nxt0 V := (nxt p V True (fun _ => False)).
  Local Notation inv0 V := (inv p V True (fun _ => False)).
  Local Notation fol V := (follows (pre0 V) (nxt0 V)).
  Local Notation nfol := (follows (npre p) (nnxt p)).
  Local Notation rfol := (follows (rpre p) rnxt).
  Local Notation wfol := (follows (wpre p) wnxt).

  (** What a process does with the file, and what it returns, if the file
      holds what is given. *)
  Inductive role (A : Type) : Type :=
    | Neither
    | Reads (Q : bytes -> A -> Prop)
    | Writes (w : bytes) (Q : A -> Prop).
  Global Arguments Neither {A}.
  Global Arguments Reads {A} Q.
  Global Arguments Writes {A} w Q.
  Context {A : Type} (kind : nat -> role A) (c0 : bytes).
  Fixpoint val_from (c : bytes) (log : list nat) : bytes :=
    match log with
    | [] => c
    | i :: l => val_from match kind i with Writes w _ => w | _ => c end l
    end.
  Definition val := val_from c0.
  Lemma val_snoc log i : val (log ++ [i]) = match kind i with Writes w _ => w | _ => val log end.
  Proof.
    unfold val. generalize c0. induction log as [|k l IH]; intros c; cbn; [done|]. apply IH.
  Qed.

  Definition rfin (Q : bytes -> A -> Prop) (V : bytes -> Prop) (st : sess) (a : A) : Prop :=
    st = Free /\ exists c, V c /\ Q c a.
  Definition wfin (Q : A -> Prop) (st : sess) (a : A) : Prop := st = Free /\ Q a.
  Definition isR (a : rstate) (_ : A) : Prop := a = RD.
  Definition isW (a : wstate) (_ : A) : Prop := a = WD.
  Definition top (_ : bytes) : Prop := True.

  Definition early_r (i : nat) (st : sess) (log : list nat) (q : proc A) Q :=
    i ∉ log /\ ((st = Free /\ rfol isR R0 q) \/ exists fd, st = Open false true fd /\ rfol isR (RO fd) q)
    /\ forall V, fol V (rfin Q V) st q.
  Definition late_r (i : nat) (st : sess) (log : list nat) (q : proc A) Q :=
    exists l1 l2, log = l1 ++ i :: l2 /\ rfol isR RD q /\ fol (eq (val l1)) (rfin Q (eq (val l1))) st q
      /\ (st = Free \/ exists fd, st = Hold Shared fd (val l1) /\ val log = val l1).
  Definition early_w (i : nat) (st : sess) (log : list nat) (q : proc A) w Q :=
    i ∉ log /\ ((st = Free /\ wfol isW W0 q) \/ exists fd, st = Open true true fd /\ wfol isW (WO fd) q)
    /\ forall V : bytes -> Prop, V w -> fol V (wfin Q) st q.
  Definition late_w (i : nat) (st : sess) (log : list nat) (q : proc A) w Q :=
    i ∈ log /\
    ((exists fd c, st = Hold Dirty fd c /\ wfol isW (WL fd) q /\ fol (eq w) (wfin Q) (Hold Dirty fd w) q /\ val log = w)
     \/ wfol isW WD q /\ fol (eq w) (wfin Q) st q /\
        (st = Free \/ exists fd c, st = Hold Dirty fd c /\ val log = w)).
  Definition pinv (i : nat) (st : sess) (log : list nat) (q : proc A) : Prop :=
    match kind i with
    | Neither => i ∉ log /\ (exists a, nlink a st /\ nfol any a q) /\ fol top free st q
    | Reads Q => early_r i st log q Q \/ late_r i st log q Q
    | Writes w Q => early_w i st log q w Q \/ late_w i st log q w Q
    end.

  (** Somebody else locks the file. *)
  Lemma pinv_other i i' st log q : i' <> i ->
    (val (log ++ [i]) = val log \/ forall d fd c, st <> Hold d fd c) ->
    pinv i' st log q -> pinv i' st (log ++ [i]) q.
  Proof.
    intros D X PI.
    assert (i' ∉ log -> i' ∉ log ++ [i]) as NI.
    { intros NI [?|E%elem_of_list_singleton]%elem_of_app; congruence. }
    unfold pinv in *. destruct (kind i') as [|Q|w Q].
    - destruct PI as (P1 & P2). split; [by apply NI|done].
    - destruct PI as [(P1 & P2)|(l1 & l2 & -> & P2 & P3 & P4)].
      + left. split; [by apply NI|done].
      + right. exists l1, (l2 ++ [i]). split_and!; [by rewrite <- app_assoc|done..|].
        destruct P4 as [P4|(fd & P4 & P5)]; [by left|right]. exists fd. split; [done|].
        destruct X as [X|X]; [by rewrite X|by apply X in P4].
    - destruct PI as [(P1 & P2)|(P1 & P2)].
      + left. split; [by apply NI|done].
      + right. split; [apply elem_of_app; by left|]. destruct P2 as [(fd & c & P2 & P3 & P4 & P5)|(P2 & P3 & P4)].
        * left. exists fd, c. split_and!; [done..|]. destruct X as [X|X]; [by rewrite X|by apply X in P2].
        * right. split_and!; [done..|]. destruct P4 as [P4|(fd & c & P4 & P5)]; [by left|right]. exists fd, c.
          split; [done|]. destruct X as [X|X]; [by rewrite X|by apply X in P4].
  Qed.

  (** One step. *)
  Lemma pinv_pre i st log T (c : sys T) k : pinv i st log (Call c k) -> pre0 (eq (val log)) T st c.
  Proof.
    unfold pinv. destruct (kind i) as [|Q|w Q].
    - intros (_ & (a & L & _) & F & _). eapply pre_any; [| |exact F].
      + intros fd c' -> _. by destruct L.
      + intros fd -> _. by destruct L.
    - intros [(_ & S & F)|(l1 & l2 & _ & _ & F & S)].
      + destruct (F (fun _ => False)) as [F1 _]. eapply pre_any; [| |exact F1]; done.
      + destruct F as [F1 _]. eapply pre_any; [| |exact F1]; intros fd; [intros c'|]; intros -> _;
          by destruct S as [S|(? & S & _)].
    - intros [(_ & S & F)|(_ & [(fd & c1 & -> & F & _)|(_ & F & S)])].
      + destruct (F (fun _ => True) I) as [F1 _]. destruct S as [[-> _]|(fd & -> & [WP _])].
        * by eapply pre_any; [| |exact F1].
        * destruct c; try done.
      + destruct F as [F _]. destruct c; try done. cbn in F. subst. cbn. right. by exists Dirty, c1.
      + destruct F as [F1 _]. eapply pre_any; [| |exact F1].
        * intros fd c' -> <-. destruct S as [S|(? & ? & _ & S)]; [done|]. by symmetry.
        * intros fd -> _. by destruct S as [S|(? & ? & S & _)].
  Qed.

  Lemma pinv_step i st log T (c : sys T) k x st' : pinv i st log (Call c k) ->
    nxt0 (eq (val log)) T st c x st' ->
    pinv i st' log (k x) \/
    (i ∉ log /\ pinv i st' (log ++ [i]) (k x) /\ forall w Q, kind i = Writes w Q -> exists fd c', st' = Hold Dirty fd c').
  Proof.
    intros PI N. pose proof (pinv_pre _ _ _ _ _ _ PI) as PR. unfold pinv in *. destruct (kind i) as [|Q|w Q] eqn:KI.
    - left. destruct PI as (NI & (a & L & NP & NF) & _ & F). split; [done|].
      destruct (nlink_step _ _ _ _ _ _ _ _ _ L NP PR N) as (a' & L' & N'). split.
      + exists a'. split; [done|]. by apply NF.
      + apply F. eapply nxt_any; [|exact N]. done.
    - destruct PI as [(NI & S & F)|(l1 & l2 & E & RP & F & S)].
      + assert (forall V : bytes -> Prop, nxt0 V T st c x st' -> fol V (rfin Q V) st' (k x)) as F' by (intros V; apply F).
        destruct S as [[-> RP]|(fd & -> & RP)]; destruct RP as [RP RN]; destruct c; try done; cbn [rpre] in RP.
        * left. left. subst cs. destruct N as (-> & N & _). specialize (N Logic.I eq_refl). subst x. split_and!; [done| |].
          -- left. split; [done|]. by apply RN.
          -- intros V. apply F'. done.
        * left. left. destruct RP as [-> ->]. cbn [nxt] in N. destruct x as [fd|e|]; [|by destruct N as [_ []]|done].
          pose proof N as N0. destruct N as (m & -> & N1 & N2). rewrite (N2 eq_refl ltac:(by left)) in *. split_and!; [done| |].
          -- right. exists fd. split; [done|]. apply RN. by exists fd.
          -- intros V. by apply F'.
        * right. split; [done|]. split; [|done]. right. destruct RP as [-> ->]. pose proof N as N0.
          destruct N as [(? & ? & _)|(w & c & E & [<-|[[] _]] & ->)]; [done| |done]. injection E as <-.
          exists log, []. split_and!; [done| | |].
          -- by apply RN.
          -- by apply F'.
          -- right. exists fd. split; [done|]. by rewrite val_snoc, KI.
      + left. right. exists l1, l2. destruct RP as [RP RN]. destruct F as [_ F]. split_and!; [done| | |].
        * apply RN. by destruct c.
        * apply F. eapply nxt_any; [|exact N]. intros w fd d c' ->. by destruct S as [S|(? & S & _)].
        * destruct c; cbn [pre nxt rpre] in *; try (apply proj1 in N; subst st'; exact S); try (subst st'; exact S); try done.
          -- destruct PR as (? & ? & -> & _). by destruct S as [S|(? & S & _)].
          -- destruct PR as [[? ->]|(? & ? & -> & EX)]; destruct S as [S|(? & S & _)]; try done. by injection S as -> _.
          -- destruct PR as [[? ->]|(? & ? & -> & EX & _)]; destruct S as [S|(? & S & _)]; try done. by injection S as -> _.
          -- left. done.
    - destruct PI as [(NI & S & F)|(NI & [(fd & c1 & -> & WP & F & VL)|(WP & F & S)])].
      + assert (forall V : bytes -> Prop, V w -> nxt0 V T st c x st' -> fol V (wfin Q) st' (k x)) as F'
          by (intros V VW; by apply F).
        destruct S as [[-> WP]|(fd & -> & WP)]; destruct WP as [WP WN]; destruct c; try done; cbn [wpre] in WP.
        * left. left. subst cs. pose proof N as N0. destruct N as (-> & N). rewrite parent_comps_map in N.
          specialize (N Logic.I _ eq_refl). subst x. split_and!; [done| |].
          -- left. split; [done|]. by apply WN.
          -- intros V VW. by apply F'.
        * left. left. subst cs. cbn [nxt] in N. destruct x as [fd|e|]; [|by destruct N as [_ []]|done].
          pose proof N as N0. rewrite bool_decide_true in N by done. split_and!; [done| |].
          -- right. exists fd. split; [done|]. apply WN. by exists fd.
          -- intros V VW. by apply F'.
        * right. split; [done|]. destruct WP as [-> ->].
          destruct N as [(? & ? & _)|(w' & c & E & [<-|[[] _]] & ->)]; [done| |done]. injection E as <-.
          split; [|intros ? ? _; by eexists _, _]. right. split; [apply elem_of_app; right; by apply elem_of_list_singleton|].
          left. exists fd, (val log). split_and!; [done| | |].
          -- by apply WN.
          -- apply (F (eq w) eq_refl). cbn. right. exists true, w. split_and!; [done|by left|done].
          -- by rewrite val_snoc, KI.
      + left. right. split; [done|]. right. destruct WP as [WP WN]. destruct c; try done. cbn [wpre] in WP. subst fd0.
        destruct N as [(? & ? & _)|(d & c & E & ->)]; [done|]. injection E as <- <-. split_and!.
        * by apply WN.
        * apply F. cbn. right. by exists Dirty, w.
        * right. by exists fd, [].
      + left. right. split; [done|]. right. destruct WP as [WP WN]. destruct F as [_ F]. split_and!.
        * apply WN. by destruct c.
        * apply F. eapply nxt_any; [|exact N]. intros w' fd d c' ->. by destruct S as [S|(? & ? & S & _)].
        * destruct c; cbn [pre nxt wpre] in *; try (apply proj1 in N; subst st'; exact S); try (subst st'; exact S); try done.
          -- destruct N as [(? & -> & _)|(? & ? & -> & ->)]; destruct S as [S|(fd' & c' & S & V)]; try done.
             right. by eexists _, _.
          -- destruct N as (n & _ & _ & _ & [(? & -> & _)|(? & ? & -> & ->)]); destruct S as [S|(fd' & c' & S & V)]; try done.
             right. by eexists _, _.
          -- left. done.
  Qed.

  (** All processes. *)
  Definition ginv (o : os) (ps : list (proc A)) (log : list nat) : Prop :=
    exists sts j, at_inode p o sts j /\ inv0 (eq (val log)) o sts (eq j) /\ NoDup log /\
      (forall i, i ∈ log -> kind i <> Neither) /\
      forall i, match ps !! i with Some q => pinv i (sts i) log q | None => sts i = Free end.

  Lemma ginv_step o ps log i q o1 q1 : ginv o ps log -> ps !! i = Some q -> pstep o q = Some (o1, q1) ->
    exists e, ginv o1 (<[i := q1]> ps) (log ++ e) /\ (e = [] \/ e = [i]).
  Proof.
    intros (sts & j & AI & I & ND & NN & PI) E PS. destruct q as [a|T c k]; [done|]. cbn in PS.
    destruct (sys_step c o) as [[o2 x]|] eqn:X; [|done]. injection PS as <- <-.
    pose proof (PI i) as PI0. rewrite E in PI0. pose proof (pinv_pre _ _ _ _ _ _ PI0) as PR.
    destruct (sys_step_inv p _ _ _ NE c o o2 x sts (eq j) i I PR X) as (st' & Is' & N & I').
    pose proof (step_inode p NE _ _ _ _ _ _ _ _ _ _ _ I AI PR X N) as AI'.
    apply (inv_restrict _ _ _ _ _ _ _ I') in AI' as I2. clear I' Is'.
    pose proof (lookup_lt_Some _ _ _ E) as LT.
    destruct (pinv_step _ _ _ _ _ _ _ _ PI0 N) as [PI'|(NI & PI' & HW)].
    - exists []. rewrite app_nil_r. split; [|by left]. exists (upd sts i st'), j. split_and!; try done.
      intros i'. destruct (decide (i' = i)) as [->|D].
      + by rewrite list_lookup_insert, upd_same.
      + rewrite list_lookup_insert_ne, upd_ne by done. apply PI.
    - exists [i]. split; [|by right]. exists (upd sts i st'), j. split_and!; try done.
      + rewrite val_snoc. destruct (kind i) as [|Q|w Q] eqn:KI; [done..|].
        destruct (HW w Q eq_refl) as (fd & c' & SE). eapply inv_revalue; [exact I2|done|]. by rewrite upd_same.
      + apply NoDup_app. split_and!; [done| |apply NoDup_singleton]. by intros y Y ->%elem_of_list_singleton.
      + intros y [Y|Y]%elem_of_app; [by apply NN|]. apply elem_of_list_singleton in Y as ->. intros KI.
        unfold pinv in PI'. rewrite KI in PI'. destruct PI' as [PI' _]. apply PI'. apply elem_of_app. right.
        by apply elem_of_list_singleton.
      + intros i'. destruct (decide (i' = i)) as [->|D].
        { by rewrite list_lookup_insert, upd_same. }
        rewrite list_lookup_insert_ne, upd_ne by done. specialize (PI i'). destruct (ps !! i') as [q'|]; [|done].
        apply pinv_other; [done| |done]. rewrite val_snoc. destruct (kind i) as [|Q|w Q] eqn:KI; [by left..|].
        right. intros d fd' c2 S2. destruct (HW w Q eq_refl) as (fd & c' & SE).
        pose proof (i_sess _ _ _ _ _ _ _ I2 i) as S3. rewrite upd_same, SE in S3. destruct S3 as (j1 & F1 & <- & L1 & _).
        pose proof (i_sess _ _ _ _ _ _ _ I2 i') as S4. rewrite upd_ne, S2 in S4 by done. destruct S4 as (j2 & F2 & <- & L2 & _).
        assert (fd <> fd') as DF.
        { intros <-. apply D. apply (i_fd _ _ _ _ _ _ _ I2 i' i fd); [by rewrite upd_ne, S2|by rewrite upd_same, SE]. }
        by destruct (i_compat _ _ _ _ _ _ _ I2 fd fd' j _ _ DF L1 L2 F1 F2 eq_refl) as [? _].
  Qed.

  Lemma ginv_run sched : forall o ps log o' ps', ginv o ps log -> crun o ps sched = Some (o', ps') ->
    exists ext, ginv o' ps' (log ++ ext) /\
      forall s1 s2 o1 ps1, sched = s1 ++ s2 -> crun o ps s1 = Some (o1, ps1) ->
      exists e1 e2, ext = e1 ++ e2 /\ ginv o1 ps1 (log ++ e1) /\ forall i, i ∈ e1 -> i ∈ s1.
  Proof.
    induction sched as [|i sched IH]; intros o ps log o' ps' G R; cbn in R.
    - injection R as <- <-. exists []. rewrite app_nil_r. split; [done|]. intros s1 s2 o1 ps1 E R1.
      symmetry in E. apply app_eq_nil in E as [-> ->]. cbn in R1. injection R1 as <- <-.
      exists [], []. split_and!; [done|by rewrite app_nil_r|]. by intros i X%elem_of_nil.
    - destruct (ps !! i) as [q|] eqn:E; [|done]. destruct (pstep o q) as [[o2 q2]|] eqn:PS; [|done].
      destruct (ginv_step _ _ _ _ _ _ _ G E PS) as (e & G2 & EE).
      destruct (IH _ _ _ _ _ G2 R) as (ext & G' & SP). exists (e ++ ext). rewrite app_assoc. split; [done|].
      intros s1 s2 o1 ps1 ES R1. destruct s1 as [|i1 s1].
      + cbn in R1. injection R1 as <- <-. exists [], (e ++ ext). split_and!; [done|by rewrite app_nil_r|].
        by intros y X%elem_of_nil.
      + cbn in ES. injection ES as <- ES. cbn in R1. rewrite E, PS in R1.
        destruct (SP s1 s2 o1 ps1 ES R1) as (e1 & e2 & -> & G1 & IN). exists (e ++ e1), e2.
        split_and!; [by rewrite app_assoc|by rewrite app_assoc|].
        intros y [Y|Y]%elem_of_app; apply elem_of_cons; [left|right; by apply IN].
        destruct EE as [->| ->]; [by apply elem_of_nil in Y|by apply elem_of_list_singleton in Y].
  Qed.

  (** A process that accesses the file and has returned is in the list. *)
  Lemma pinv_ret i st log a : pinv i st log (Ret a) ->
    st = Free /\
    match kind i with
    | Neither => True
    | Reads Q => exists l1 l2, log = l1 ++ i :: l2 /\ Q (val l1) a
    | Writes w Q => i ∈ log /\ Q a
    end.
  Proof.
    unfold pinv. destruct (kind i) as [|Q|w Q].
    - by intros (_ & _ & F).
    - intros [(_ & S & _)|(l1 & l2 & E & _ & (-> & c & <- & F) & _)].
      + by destruct S as [[_ S]|(fd & _ & S)].
      + split; [done|]. by exists l1, l2.
    - intros [(_ & S & _)|(IN & [(fd & c & -> & S & _)|(_ & F & _)])].
      + by destruct S as [[_ S]|(fd & _ & S)].
      + done.
      + destruct F as [-> F]. done.
  Qed.
  Lemma ginv_ret o ps log i a : ginv o ps log -> ps !! i = Some (Ret a) ->
    match kind i with
    | Neither => True
    | Reads Q => exists l1 l2, log = l1 ++ i :: l2 /\ Q (val l1) a
    | Writes w Q => i ∈ log /\ Q a
    end.
  Proof.
    intros (sts & j & AI & I & ND & NN & PI) E. specialize (PI i). rewrite E in PI. by apply pinv_ret in PI as [_ ?].
  Qed.
  Lemma ginv_ret_in o ps log i a : ginv o ps log -> ps !! i = Some (Ret a) -> kind i <> Neither -> i ∈ log.
  Proof.
    intros G E N. pose proof (ginv_ret _ _ _ _ _ G E) as R. destruct (kind i) as [|Q|w Q]; [done| |apply R].
    destruct R as (l1 & l2 & -> & _). apply elem_of_app. right. by left.
  Qed.
  Lemma ginv_done o ps log : ginv o ps log -> (forall i q, ps !! i = Some q -> exists a, q = Ret a) ->
    calm o /\ wf_fs (view o) /\ file_at (view o) p = Some (val log).
  Proof.
    intros (sts & j & AI & I & ND & NN & PI) AR.
    assert (forall k, sts k = Free) as FR.
    { intros k. specialize (PI k). destruct (ps !! k) as [q|] eqn:E; [|done]. destruct (AR _ _ E) as [a ->].
      by apply pinv_ret in PI as [? _]. }
    split_and!; [by eapply inv_calm|apply I|].
    destruct (inv_stable _ _ _ _ NE _ _ _ I Logic.I) as [c E]. rewrite E. f_equal. symmetry.
    by eapply (inv_done p).
  Qed.
  Lemma ginv_start o ps : calm o -> wf_fs (view o) -> file_at (view o) p = Some c0 ->
    (forall i q, ps !! i = Some q ->
       match kind i with
       | Neither => nfol any None q /\ fol top free Free q
       | Reads Q => rfol isR R0 q /\ forall V, fol V (rfin Q V) Free q
       | Writes w Q => wfol isW W0 q /\ forall V : bytes -> Prop, V w -> fol V (wfin Q) Free q
       end) -> ginv o ps [].
  Proof.
    intros CA W E F. assert (inv0 (eq c0) o (fun _ => Free) (fun j => o_tree o !! p = Some (DFile j))) as I.
    { apply inv_start; [done|done|done| |by exists c0|done]. intros c E'. congruence. }
    destruct (i_stable _ _ _ _ _ _ _ I Logic.I) as [j T].
    assert (at_inode p o (fun _ => Free) j) as AI.
    { split; [done|]. by intros k fd M%mine_free. }
    exists (fun _ => Free), j. split_and!; [done|by eapply inv_restrict|constructor|by intros i X%elem_of_nil|].
    intros i. destruct (ps !! i) as [q|] eqn:EQ; [|done]. specialize (F i q EQ). unfold pinv.
    assert (i ∉ []) as NI by apply not_elem_of_nil.
    destruct (kind i) as [|Q|w Q].
    - destruct F as [F1 F2]. split_and!; [done| |done]. by exists None.
    - left. destruct F as [F1 F2]. split_and!; [done| |done]. by left.
    - left. destruct F as [F1 F2]. split_and!; [done| |done]. by left.
  Qed.
End Order.

(** ** One chunk *)
Lemma NoDup_split_unique {A} (x : A) l1 l2 k1 k2 : NoDup (l1 ++ x :: l2) -> l1 ++ x :: l2 = k1 ++ x :: k2 -> l1 = k1.
Proof.
  revert k1. induction l1 as [|a l1 IH]; intros [|b k1] ND E; cbn in *; [done|..].
  - injection E as -> E. apply list.NoDup_cons in ND as [ND _]. exfalso. apply ND. rewrite E. apply elem_of_app. right. by left.
  - injection E as -> E. apply list.NoDup_cons in ND as [ND _]. exfalso. apply ND. apply elem_of_app. right. by left.
  - injection E as -> E. f_equal. apply list.NoDup_cons in ND as [_ ND]. by apply (IH k1).
Qed.
Section Chunk.
  Context (C : codec) (h : host) (H : hier) (sl : bytes -> list bytes).
  Context (t : rty) (path : bytes) (m : array_meta) (pos : list Z) (o : os) (calls : list call).
  Context (PB : plain (hy_base H)) (GX : good_suffix (ep_suffix (hy_ep H))).
  Context (PP : plain path) (GS : good_sep (am_sep m)) (Q : pos_ok pos).
  Context (IB : in_bounds (h_prof h) m pos = Ok true) (LL : lossless C (am_comp m)).
  Context (CA : calm o) (W : wf_fs (view o)).
  Context (OK : forall c, c ∈ calls -> call_ok c) (AG : writers_agree C h calls t path m pos).
  Context (ND : forall c, c ∈ calls -> ~ deletes_chunk c path pos).
  Context (c0 : bytes).
  Local Notation P := (loc (hy_base H) (get_chunk_key path m pos)).
  Local Notation read := (p_read_chunk H C h t path m pos).
  Context (C0 : file_at (view o) P = Some c0).

  Definition ckind (i : nat) : role reply :=
    match calls !! i with
    | Some (KReadChunk t' path' m' pos' _) =>
        if decide (loc (hy_base H) (get_chunk_key path' m' pos') = P) then
          match in_bounds (h_prof h) m' pos' with
          | Ok true => Reads (fun c a => a = YChunk (x ← decode_chunk C h t' m' c pos'; Ok (Some x)))
          | _ => Neither
          end
        else Neither
    | Some (KWriteChunk t' path' m' ck ws) =>
        if decide (pieces path' = pieces path /\ ck_pos ck = pos)
        then Writes (concat ws) (fun a => a = YUnit (Ok tt)) else Neither
    | _ => Neither
    end.
  Local Notation fol V := (follows (pre P V True (fun _ => False)) (nxt P V True (fun _ => False))).
  Local Notation nfol := (follows (npre P) (nnxt P)).

  Lemma not_meta ext path' : is_node_ext ext ->
    loc (hy_base H) (metadata_key ext (ep_suffix (hy_ep H)) path') <> P.
  Proof. intros E. apply loc_node_chunk; [done|apply GX]. Qed.

  Lemma kinds i q : map (p_call C h H sl) calls !! i = Some q ->
    match ckind i with
    | Neither => nfol any None q /\ fol top free Free q
    | Reads Q => follows (rpre P) rnxt isR R0 q /\ forall V, fol V (rfin Q V) Free q
    | Writes w Q => follows (wpre P) wnxt isW W0 q /\ forall V : bytes -> Prop, V w -> fol V (wfin Q) Free q
    end.
  Proof.
    intros E. rewrite list_lookup_fmap in E. unfold ckind. destruct (calls !! i) as [c|] eqn:EC; [|done].
    injection E as <-. pose proof (elem_of_list_lookup_2 _ _ _ EC) as IN. pose proof (OK c IN) as K.
    assert (plain_node : forall path', plain path' ->
      (loc (hy_base H) (akey H path') <> P /\ loc (hy_base H) (gkey H path') <> P)).
    { intros path' _. split; apply not_meta; [by left|by right]. }
    destruct c; cbn [p_call] in *; cbn in K.
    - split; [apply n_reply, n_get_array_metadata|]. by apply free_reply, free_get_array_metadata.
    - split; [by apply n_reply, n_list_attributes|]. by apply free_reply, free_list_attributes.
    - destruct (plain_node path0 K) as [N1 N2].
      split; [by apply n_reply, n_set_attributes|]. apply free_reply, free_set_attributes; (done || by split; [|tauto]).
    - destruct (plain_node path0 K) as [N1 N2].
      split; [by apply n_reply, n_create_group|]. apply free_reply, free_create_group; (done || by split; [|tauto]).
    - destruct (plain_node path0 K) as [N1 N2].
      split; [by apply n_reply, n_create_array|]. apply free_reply, free_create_array; (done || by split; [|tauto]).
    - destruct K as (K1 & K2 & K3).
      assert (nfol any None (map_reply YChunk (p_read_chunk H C h t0 path0 m0 pos0 rs)) /\
              fol top free Free (map_reply YChunk (p_read_chunk H C h t0 path0 m0 pos0 rs))) as N.
      { split; [apply n_reply, n_read_chunk|]. apply free_reply, free_read_chunk; [done|done|apply K2|done]. }
      case_decide as D1; [|exact N]. destruct (in_bounds (h_prof h) m0 pos0) as [[]|e|] eqn:D2; [|exact N..]. clear N.
      split.
      + unfold p_read_chunk. rewrite D2. cbn [mbind res_bind assert_ pres].
          eapply follows_bind; [|by intros st r F; exact F].
          eapply follows_try; [apply r_get; [done|apply plain_chunk_key; [done|apply K2|done]|done]|done|done|done].
      + intros V. eapply follows_bind; [apply fol_read_chunk; [done|done|apply K2|done]|].
          intros st r (-> & X). cbn. split; [done|].
          destruct (X D2 D1) as [(c & [SC|[[] _]] & ->)|([] & _)]; [|done..]. by exists c.
    - destruct K as (K1 & K2 & K3). case_decide as D.
      + destruct (AG _ IN D) as (path' & data & ws' & E & A1 & A2 & A3 & A4).
        injection E as -> -> -> -> ->. destruct D as [D1 _]. cbn [ck_pos] in *.
        assert (loc (hy_base H) (get_chunk_key path' m pos) = P) as LP by by apply loc_chunk_pieces.
        split.
        * eapply follows_bind; [|by intros st r F; exact F].
          apply w_set; [done|apply plain_chunk_key; [done|apply K2|done]|done|]. by apply P_ne.
        * intros V VW. eapply follows_bind; [apply fol_write_chunk; [done|done|apply K2|done|exact VW|done|tauto]|].
          intros st r (-> & X). cbn. rewrite A4 in X. cbn in X. split; [done|]. destruct X as [->|[[] _]]; done.
      + assert (loc (hy_base H) (get_chunk_key path0 m0 (ck_pos ck)) <> P) as N by by apply other_chunk.
        split.
        * apply n_reply. apply n_set; [done|apply plain_chunk_key; [done|apply K2|done]|done].
        * apply free_reply, free_write_chunk; [done|done|apply K2|done|]. by split; [|tauto].
    - destruct K as (K1 & K2 & K3).
      assert (loc (hy_base H) (get_chunk_key path0 m0 pos0) <> P) as N.
      { apply other_chunk; [done..|]. intros D. by apply (ND _ IN). }
      split.
      + apply n_reply. apply n_erase; [done|apply plain_chunk_key; [done|apply K2|done]|done].
      + apply free_reply, free_delete_chunk; [done|done|apply K2|done|]. done.
    - destruct K as (K1 & K2). destruct (plain_node path0 K1) as [N1 N2].
      assert (~ (pieces (hy_base H) ++ B "data" :: B "root" :: pieces path0) `prefix_of` P) as N3.
      { intros X. apply below_chunk in X; [|done..]. by apply (ND _ IN). }
      split; [by apply n_reply, n_remove|]. apply free_reply, free_remove; done.
    - split; [apply n_reply, n_list_nodes|]. apply free_reply, free_list_nodes.
  Qed.

  Local Notation D c := (x ← decode_chunk C h t m c pos; Ok (Some x)).
  Lemma val_decodes l : forall c, (forall i, i ∈ l -> ckind i <> Neither) ->
    D (val_from ckind c l) = one_by_one calls l (D c).
  Proof.
    induction l as [|i l IH]; intros c N; [done|]. cbn [val_from one_by_one].
    rewrite IH by (intros i' I'; apply N, elem_of_cons; by right). f_equal.
    assert (ckind i <> Neither) as NI by (apply N, elem_of_cons; by left). revert NI. unfold ckind.
    destruct (calls !! i) as [[]|] eqn:E; try done.
    - case_decide; [|done]. destruct (in_bounds (h_prof h) m0 pos0) as [[]|e|]; intros NI; [reflexivity|by destruct NI..].
    - case_decide as DE; [|done]. intros _. apply elem_of_list_lookup_2 in E.
      destruct (AG _ E DE) as (path' & data & ws' & E' & A1 & A2 & A3 & A4). injection E' as -> -> -> -> ->.
      destruct (chunk_roundtrip_both C h t m data (concat ws') pos pos (Chunk pos []) LL A1 A2 A3 A4) as [R _].
      by rewrite R.
  Qed.
  Lemma ckind_reads i c : calls !! i = Some c -> reads_as c t path m pos ->
    ckind i = Reads (fun c a => a = YChunk (D c)).
  Proof.
    intros E (path' & rs & -> & PE). unfold ckind. rewrite E, decide_True by (by apply loc_chunk_pieces). by rewrite IB.
  Qed.
  Lemma ckind_writes i c : calls !! i = Some c -> writes_chunk c path pos ->
    exists w, ckind i = Writes w (fun a => a = YUnit (Ok tt)).
  Proof.
    intros E WC. unfold ckind. rewrite E. destruct c; try done. rewrite decide_True by done. by eexists.
  Qed.
  Lemma ckind_access i : ckind i <> Neither ->
    exists c, calls !! i = Some c /\ (reads_at c path pos \/ writes_chunk c path pos).
  Proof.
    unfold ckind. destruct (calls !! i) as [c|] eqn:E; [|done]. intros N. exists c. split; [done|].
    pose proof (OK c (elem_of_list_lookup_2 _ _ _ E)) as K.
    destruct c; try done.
    - case_decide as DE; [|done]. left. destruct K as (K1 & K2 & K3). by apply loc_chunk_inj in DE.
    - case_decide as DE; [|done]. by right.
  Qed.

  Context (o' : os) (ps : list (proc reply)) (sched : list nat).
  Context (EX : crun o (map (p_call C h H sl) calls) sched = Some (o', ps)).
  Lemma linear r0 : answers o (read []) r0 ->
    exists order, NoDup order
      /\ (forall i, i ∈ order -> exists c, calls !! i = Some c /\ (reads_at c path pos \/ writes_chunk c path pos))
      /\ (forall i c a, calls !! i = Some c -> reads_as c t path m pos \/ writes_chunk c path pos ->
            returned ps i a -> i ∈ order)
      /\ (forall i j, i ∈ order -> j ∈ order -> finished_before C h H sl o calls sched i j -> comes_before order i j)
      /\ (forall i c a l1 l2, calls !! i = Some c -> reads_as c t path m pos -> returned ps i a ->
            order = l1 ++ i :: l2 -> a = YChunk (one_by_one calls l1 r0))
      /\ (forall i c a, calls !! i = Some c -> writes_chunk c path pos -> returned ps i a -> a = YUnit (Ok tt))
      /\ (all_returned ps -> calm o' /\ forall rs, answers o' (read rs) (one_by_one calls order r0)).
  Proof.
    intros R0. apply read_now in R0; [|done..]. rewrite C0 in R0.
    assert (P <> []) as NE by by apply P_ne.
    assert (ginv P ckind c0 o (map (p_call C h H sl) calls) []) as G.
    { apply ginv_start; [done..|]. apply kinds. }
    destruct (ginv_run P NE ckind c0 sched _ _ _ _ _ G EX) as (order & G' & SP). cbn [app] in G'.
    assert (NoDup order) as NO by (by destruct G' as (_ & _ & _ & _ & ? & _)).
    assert (forall i, i ∈ order -> ckind i <> Neither) as NN by (by destruct G' as (_ & _ & _ & _ & _ & ? & _)).
    exists order. split_and!; [done|..].
    - intros i I. by apply ckind_access, NN.
    - intros i c a E A R. eapply ginv_ret_in; [exact G'|exact R|].
      destruct A as [A|A]; [by rewrite (ckind_reads _ _ E A)|]. destruct (ckind_writes _ _ E A) as [w ->]. done.
    - intros i j II JJ (s1 & s2 & o1 & ps1 & a & ES & R1 & RT & NJ).
      destruct (SP s1 s2 o1 ps1 ES R1) as (e1 & e2 & -> & G1 & IN).
      assert (i ∈ e1) as I1.
      { eapply (ginv_ret_in P ckind c0 _ _ _ _ _ G1); [exact RT|]. by apply NN. }
      apply elem_of_app in JJ as [JJ|JJ]; [by apply IN in JJ|].
      apply elem_of_list_split in I1 as (x1 & x2 & ->). apply elem_of_list_split in JJ as (y1 & y2 & ->).
      exists x1, (x2 ++ y1), y2. by rewrite <- !app_assoc.
    - intros i c a l1 l2 E A R EO. pose proof (ginv_ret P ckind c0 _ _ _ _ _ G' R) as X.
      rewrite (ckind_reads _ _ E A) in X. destruct X as (k1 & k2 & EK & ->). f_equal.
      assert (k1 = l1) as <-.
      { rewrite EK in EO. rewrite EK in NO. by eapply NoDup_split_unique. }
      unfold val. rewrite val_decodes, R0; [done|]. intros i' I'. apply NN. rewrite EO. apply elem_of_app. by left.
    - intros i c a E A R. pose proof (ginv_ret P ckind c0 _ _ _ _ _ G' R) as X.
      destruct (ckind_writes _ _ E A) as [w KW]. rewrite KW in X. apply X.
    - intros AR. destruct (ginv_done P NE ckind c0 _ _ _ G' AR) as (CA' & W' & F). split; [done|]. intros rs.
      replace (one_by_one calls order r0) with (match file_at (view o') P with
        | None => Ok None | Some c => D c end); [by apply read_after|].
      rewrite F, R0. unfold val. by rewrite val_decodes.
  Qed.
End Chunk.

Lemma linearizable C h H sl t path m pos o calls :
  plain (hy_base H) -> good_suffix (ep_suffix (hy_ep H)) -> plain path -> good_sep (am_sep m) -> pos_ok pos ->
  in_bounds (h_prof h) m pos = Ok true -> lossless C (am_comp m) -> calm o -> wf_fs (view o) ->
  (forall c, c ∈ calls -> call_ok c) -> writers_agree C h calls t path m pos ->
  (forall c, c ∈ calls -> ~ deletes_chunk c path pos) ->
  forall r0, answers o (p_read_chunk H C h t path m pos []) r0 -> r0 <> Ok None ->
  forall sched o' ps, crun o (map (p_call C h H sl) calls) sched = Some (o', ps) ->
  exists order, NoDup order
    /\ (forall i, i ∈ order -> exists c, calls !! i = Some c /\ (reads_at c path pos \/ writes_chunk c path pos))
    /\ (forall i c a, calls !! i = Some c -> reads_as c t path m pos \/ writes_chunk c path pos ->
          returned ps i a -> i ∈ order)
    /\ (forall i j, i ∈ order -> j ∈ order -> finished_before C h H sl o calls sched i j -> comes_before order i j)
    /\ (forall i c a l1 l2, calls !! i = Some c -> reads_as c t path m pos -> returned ps i a ->
          order = l1 ++ i :: l2 -> a = YChunk (one_by_one calls l1 r0))
    /\ (forall i c a, calls !! i = Some c -> writes_chunk c path pos -> returned ps i a -> a = YUnit (Ok tt))
    /\ (all_returned ps -> calm o' /\ forall rs, answers o' (p_read_chunk H C h t path m pos rs) (one_by_one calls order r0)).
Proof.
  intros PB GX PP GS Q IB LL CA W OK AG ND r0 A0 NN sched o' ps EX.
  destruct (file_at (view o) (loc (hy_base H) (get_chunk_key path m pos))) as [c0|] eqn:C0.
  - by eapply (linear C h H sl t path m pos o calls).
  - exfalso. apply NN. apply read_now in A0; [|done..]. by rewrite C0 in A0.
Qed.

(** For the example. *)
Lemma run_check C h H sl o calls sched rs :
  rs <> [] -> (fun c => match c with Some (_, ps) => map (fun p => match p with Ret a => Some a | Call _ _ => None end) ps | None => [] end)
    (crun o (map (p_call C h H sl) calls) sched) = rs ->
  exists o' ps, crun o (map (p_call C h H sl) calls) sched = Some (o', ps)
    /\ (forall i a, rs !! i = Some (Some a) <-> returned ps i a)
    /\ (Forall (fun r => r <> None) rs -> all_returned ps).
Proof.
  destruct (crun o _ sched) as [[o' ps]|] eqn:E; intros N R; [|by destruct N].
  exists o', ps. split_and!; [done|..].
  - intros i a. rewrite <- R. rewrite list_lookup_fmap. unfold returned. split; intros X.
    + destruct (ps !! i) as [q|]; [|done]. injection X as X. by destruct q; [injection X as ->|].
    + by rewrite X.
  - intros F i q X. rewrite list.Forall_forall in F. destruct q as [a|]; [by exists a|].
    exfalso. apply (F None); [|done]. rewrite <- R. apply elem_of_list_fmap. eexists. split; [|by eapply elem_of_list_lookup_2]. done.
Qed.
