(** Processes that run alone do what the sequential model says. *)
From Verif Require Import BaseFacts PathFacts FSFacts.
From Verif Require Import Sys SpecSys.
Local Open Scope Z_scope.

Lemma fd_lt o fd i : os_ok o -> o_fds o !! fd = Some i -> (fd < o_next o)%nat.
Proof. intros K E. by apply (ok_fds _ K) in E as [? _]. Qed.

(** ** The view *)

Lemma view_lookup o p : view o !! p = node_of (o_data o) <$> o_tree o !! p.
Proof. unfold view. by rewrite lookup_fmap. Qed.
Lemma view_open o i : view (open_fd o i) = view o.
Proof. done. Qed.
Lemma view_close o fd : view (close_fd o fd) = view o.
Proof. done. Qed.
Lemma view_lock o fd ex : view (set_lock o fd ex) = view o.
Proof. done. Qed.
Lemma view_accepted o n : view (accepted o n) = view o.
Proof. done. Qed.
Lemma view_released o : view (released o) = view o.
Proof. done. Qed.
Lemma view_unlink o p : view (unlink o p) = delete p (view o).
Proof. unfold view, unlink. cbn. by rewrite fmap_delete. Qed.
Lemma view_link_dir o p : view (link o p DDir) = <[p := Dir]> (view o).
Proof. unfold view, link. cbn. by rewrite fmap_insert. Qed.
Lemma view_new_inode o : os_ok o -> view (new_inode o) = view o.
Proof.
  intros K. apply map_eq. intros p. rewrite !view_lookup. cbn.
  destruct (o_tree o !! p) as [[|i]|] eqn:E; cbn; try done.
  rewrite lookup_insert_ne; [done|]. intros <-.
  pose proof (ok_data _ K _ (ok_tree _ K _ _ E)). lia.
Qed.
Lemma view_link_file o p i : view (link o p (DFile i)) = <[p := File (default [] (o_data o !! i))]> (view o).
Proof. unfold view, link. cbn. by rewrite fmap_insert. Qed.
Lemma view_create o p : os_ok o ->
  view (link (new_inode o) p (DFile (o_next o))) = <[p := File []]> (view o).
Proof.
  intros K. rewrite view_link_file, view_new_inode by done. cbn. by rewrite lookup_insert.
Qed.
Lemma view_set_data o p i c : os_ok o -> o_tree o !! p = Some (DFile i) ->
  view (set_data o i c) = <[p := File c]> (view o).
Proof.
  intros K E. apply map_eq. intros q. rewrite view_lookup. cbn.
  destruct (decide (p = q)) as [<-|N].
  - rewrite lookup_insert, E. cbn. by rewrite lookup_insert.
  - rewrite lookup_insert_ne, view_lookup by done.
    destruct (o_tree o !! q) as [[|j]|] eqn:Eq; cbn; try done.
    rewrite lookup_insert_ne; [done|]. intros <-. by eapply N, ok_one.
Qed.
(** An inode that no path leads to. *)
Lemma view_set_orphan o i c : (forall p, o_tree o !! p <> Some (DFile i)) ->
  view (set_data o i c) = view o.
Proof.
  intros N. apply map_eq. intros q. rewrite !view_lookup. cbn.
  destruct (o_tree o !! q) as [[|j]|] eqn:Eq; cbn; try done.
  rewrite lookup_insert_ne; [done|]. intros <-. by eapply N.
Qed.
Lemma view_file o p c : p <> [] -> node_at (view o) p = Some (File c) ->
  exists i, o_tree o !! p = Some (DFile i) /\ default [] (o_data o !! i) = c.
Proof.
  intros N. rewrite node_at_ne, view_lookup by done.
  destruct (o_tree o !! p) as [[|i]|]; cbn; try done. intros [= <-]. by exists i.
Qed.
Lemma view_file_ne o p c : node_at (view o) p = Some (File c) -> p <> [].
Proof. by intros E ->. Qed.
Lemma view_of_tree o p i : p <> [] -> o_tree o !! p = Some (DFile i) ->
  node_at (view o) p = Some (File (default [] (o_data o !! i))).
Proof. intros N E. by rewrite node_at_ne, view_lookup, E. Qed.

(** ** Every system call keeps the state well formed *)

Lemma ok_open_fd o i : os_ok o -> is_Some (o_data o !! i) -> os_ok (open_fd o i).
Proof.
  intros [A1 A2 A3 A4 A5] D. split; cbn; try done.
  - intros j J. apply A3 in J. lia.
  - intros fd j. rewrite lookup_insert_Some. intros [[<- <-]|[N E]].
    + split; [lia|done].
    + apply A4 in E as [? ?]. split; [lia|done].
  - intros fd b E. apply A5 in E. destruct (decide (fd = o_next o)) as [->|N].
    + by rewrite lookup_insert.
    + by rewrite lookup_insert_ne.
Qed.
Lemma ok_new_inode o : os_ok o -> os_ok (new_inode o).
Proof.
  intros [A1 A2 A3 A4 A5]. split; cbn; try done.
  - intros p i E. apply A1 in E. rewrite lookup_insert_is_Some. destruct (decide (o_next o = i)); auto.
  - intros i. rewrite lookup_insert_is_Some. intros [->|[_ E]]; [lia|]. apply A3 in E. lia.
  - intros fd i E. apply A4 in E as [? ?]. split; [lia|].
    rewrite lookup_insert_is_Some. destruct (decide (o_next o = i)); auto.
Qed.
Lemma ok_link_dir o p : os_ok o -> os_ok (link o p DDir).
Proof.
  intros [A1 A2 A3 A4 A5]. split; cbn; try done.
  - intros q i. rewrite lookup_insert_Some. intros [[_ ?]|[_ E]]; [done|]. by eapply A1.
  - intros q q' i. rewrite !lookup_insert_Some. intros [[_ ?]|[_ E]]; [done|].
    intros [[_ ?]|[_ E']]; [done|]. by eapply A2.
Qed.
Lemma ok_create o p : os_ok o -> os_ok (link (new_inode o) p (DFile (o_next o))).
Proof.
  intros K. pose proof (ok_new_inode _ K) as [A1 A2 A3 A4 A5].
  assert (forall q, o_tree o !! q <> Some (DFile (o_next o))) as N.
  { intros q E. pose proof (ok_data _ K _ (ok_tree _ K _ _ E)). lia. }
  split; cbn; try done.
  - intros q i. rewrite lookup_insert_Some. intros [[_ [= <-]]|[_ E]].
    + by rewrite lookup_insert.
    + by eapply A1.
  - intros q q' i. rewrite !lookup_insert_Some. intros [[<- [= <-]]|[N1 E]].
    + intros [[<- _]|[_ E']]; [done|]. by destruct (N q').
    + intros [[<- [= <-]]|[_ E']]; [by destruct (N q)|]. by eapply A2.
Qed.
Lemma ok_unlink o p : os_ok o -> os_ok (unlink o p).
Proof.
  intros [A1 A2 A3 A4 A5]. split; cbn; try done.
  - intros q i. rewrite lookup_delete_Some. intros [_ E]. by eapply A1.
  - intros q q' i. rewrite !lookup_delete_Some. intros [_ E] [_ E']. by eapply A2.
Qed.
Lemma ok_set_data o i c : os_ok o -> is_Some (o_data o !! i) -> os_ok (set_data o i c).
Proof.
  intros [A1 A2 A3 A4 A5] D. split; cbn; try done.
  - intros p j E. apply A1 in E. rewrite lookup_insert_is_Some. destruct (decide (i = j)); auto.
  - intros j. rewrite lookup_insert_is_Some. intros [<-|[_ E]]; by apply A3.
  - intros fd j E. apply A4 in E as [? ?]. split; [lia|].
    rewrite lookup_insert_is_Some. destruct (decide (i = j)); auto.
Qed.
Lemma ok_set_lock o fd ex : os_ok o -> is_Some (o_fds o !! fd) -> os_ok (set_lock o fd ex).
Proof.
  intros [A1 A2 A3 A4 A5] D. split; cbn; try done.
  intros fd' b. rewrite lookup_insert_Some. intros [[<- _]|[_ E]]; [done|]. by eapply A5.
Qed.
Lemma ok_close o fd : os_ok o -> os_ok (close_fd o fd).
Proof.
  intros [A1 A2 A3 A4 A5]. split; cbn; try done.
  - intros fd' i. rewrite lookup_delete_Some. intros [_ E]. by apply A4.
  - intros fd' b. rewrite lookup_delete_Some. intros [N E]. rewrite lookup_delete_ne by done. by eapply A5.
Qed.
Lemma ok_accepted o n : os_ok o -> os_ok (accepted o n).
Proof. intros [A1 A2 A3 A4 A5]. by split. Qed.
Lemma ok_released o : os_ok o -> os_ok (released o).
Proof. intros [A1 A2 A3 A4 A5]. by split. Qed.

Lemma sys_step_ok {T} (c : sys T) o o' x : os_ok o ->
  sys_step c o = Some (o', x) -> os_ok o'.
Proof.
  intros K E. destruct c; cbn in E.
  - by injection E as <- _.
  - by injection E as <- _.
  - by injection E as <- _.
  - injection E as E1. destruct (walk _ _ _) as [p|e|]; [|by injection E1 as <- _|by injection E1 as <- _].
    destruct (node_at _ p); [by injection E1 as <- _|].
    destruct (is_dir_at _ _); injection E1 as <- _; [by apply ok_link_dir|done].
  - injection E as E1. destruct (walk _ _ _) as [p|e|]; [|by injection E1 as <- _|by injection E1 as <- _].
    destruct p as [|a p]; [by injection E1 as <- _|].
    destruct (o_tree o !! (a :: p)) as [[|i]|] eqn:Et.
    + by injection E1 as <- _.
    + injection E1 as <- _. apply ok_open_fd; [done|]. by eapply ok_tree.
    + destruct (is_dir_at _ _); injection E1 as <- _; [|done].
      apply ok_open_fd; [by apply ok_create|]. cbn. by rewrite lookup_insert.
  - injection E as E1. destruct (walk _ _ _) as [p|e|]; [|by injection E1 as <- _|by injection E1 as <- _].
    destruct (node_at _ p) as [[|b]|].
    + destruct dir_ok; injection E1 as <- _; [|done].
      apply ok_open_fd; [by apply ok_new_inode|]. cbn. by rewrite lookup_insert.
    + destruct (o_tree o !! p) as [[|i]|] eqn:Et; injection E1 as <- _; try done.
      apply ok_open_fd; [done|]. by eapply ok_tree.
    + by injection E1 as <- _.
  - destruct (o_fds o !! fd) as [i|] eqn:F; [|done].
    destruct (lock_conflict _ _ _); [done|]. injection E as <- _. by apply ok_set_lock.
  - destruct (o_fds o !! fd) as [i|] eqn:F; [|done]. injection E as <- _.
    apply ok_set_data; [done|]. by apply (ok_fds _ K) in F as [_ ?].
  - destruct (o_fds o !! fd) as [i|] eqn:F; [|done]. injection E as E1.
    destruct (_ && _); injection E1 as <- _; [done|].
    apply ok_set_data; [by apply ok_accepted|]. by apply (ok_fds _ K) in F as [_ ?].
  - destruct (o_fds o !! fd) as [i|] eqn:F; [|done]. by injection E as <- _.
  - injection E as <- _. by apply ok_close.
  - injection E as E1. destruct (walk _ _ _) as [p|e|]; [|by injection E1 as <- _|by injection E1 as <- _].
    destruct (node_at _ p) as [[|b]|]; injection E1 as <- _; try done. by apply ok_unlink.
  - by injection E as <- _.
  - by injection E as <- _.
  - injection E as E1. destruct (walk _ _ _) as [p|e|]; [|by injection E1 as <- _|by injection E1 as <- _].
    destruct (node_at _ p) as [[|b]|]; [|by injection E1 as <- _|by injection E1 as <- _].
    destruct (_ || _); injection E1 as <- _; [done|by apply ok_unlink].
Qed.

(** ** Running *)

Lemma run_bind {A C} (p : proc A) (f : A -> proc C) : forall o,
  run o (pbind p f) = match run o p with Some (o', a) => run o' (f a) | None => None end.
Proof.
  induction p as [a|T c k IH]; intros o; cbn; [done|].
  destruct (sys_step c o) as [[o' x]|]; [|done]. apply IH.
Qed.
Lemma run_try {A C} (p : proc (res A)) (f : A -> proc (res C)) o :
  run o (ptry p f) = match run o p with
                     | Some (o', Ok a) => run o' (f a)
                     | Some (o', Err e) => Some (o', Err e)
                     | Some (o', Panic) => Some (o', Panic)
                     | None => None
                     end.
Proof. unfold ptry. rewrite run_bind. by destruct (run o p) as [[o' [a|e|]]|]. Qed.

(** Everything except directory entries and inode contents. *)
Definition same_rest (o o' : os) : Prop :=
  o_fds o' = o_fds o /\ o_locks o' = o_locks o /\ o_room o' = o_room o.
Lemma same_rest_refl o : same_rest o o.
Proof. done. Qed.
Lemma same_rest_trans o1 o2 o3 : same_rest o1 o2 -> same_rest o2 o3 -> same_rest o1 o3.
Proof. unfold same_rest. intros (-> & -> & ->) (-> & -> & ->). done. Qed.

Lemma run_mkdir o cs : os_ok o -> exists o',
  sys_step (SMkdir cs) o = Some (o', snd (mkdir (view o) cs)) /\
  view o' = fst (mkdir (view o) cs) /\ os_ok o' /\ same_rest o o' /\
  (snd (mkdir (view o) cs) <> Ok tt -> o' = o).
Proof.
  intros K. unfold mkdir. cbn.
  destruct (walk (view o) [] cs) as [p|e|].
  - destruct (node_at (view o) p) as [n|] eqn:E.
    + by exists o.
    + destruct (is_dir_at (view o) (parent p)).
      * exists (link o p DDir). split_and!; [done|apply view_link_dir|by apply ok_link_dir|done|done].
      * by exists o.
  - by exists o.
  - by exists o.
Qed.
Lemma run_mkdir_all cs n : forall o, os_ok o -> exists o',
  run o (p_mkdir_all cs n) = Some (o', snd (mkdir_all (view o) cs n)) /\
  view o' = fst (mkdir_all (view o) cs n) /\ os_ok o' /\ same_rest o o'.
Proof.
  induction n as [|n IH]; intros o K; [by exists o|].
  cbn [p_mkdir_all run mkdir_all].
  destruct (run_mkdir o (take (S n) cs) K) as (o1 & E1 & V1 & K1 & R1 & N1).
  rewrite E1. destruct (mkdir (view o) (take (S n) cs)) as [s1 r1]. cbn [fst snd] in V1, N1 |- *.
  assert (forall e o2, run o2 (Call (SIsDir (take (S n) cs)) (fun d : bool => Ret (if d then Ok tt else e)))
            = Some (o2, if path_is_dir (view o2) (take (S n) cs) then Ok tt else e)) as D by done.
  destruct r1 as [[]|e|].
  - exists o1. by cbn.
  - assert (o1 = o) as -> by by apply N1.
    assert (forall e', exists o', run o (Call (SIsDir (take (S n) cs)) (fun d : bool => Ret (if d then Ok tt else e')))
        = Some (o', snd (if path_is_dir (view o) (take (S n) cs) then (view o, Ok tt) else (view o, e'))) /\
        view o' = fst (if path_is_dir (view o) (take (S n) cs) then (view o, Ok tt) else (view o, e')) /\
        os_ok o' /\ same_rest o o') as D2.
    { intros e'. exists o. rewrite D. by destruct (path_is_dir _ _). }
    destruct e; try exact (D2 _).
    rewrite run_try. destruct (IH o K) as (o2 & E2 & V2 & K2 & R2). rewrite E2.
    destruct (mkdir_all (view o) cs n) as [s2 r2]. cbn [fst snd] in V2 |- *.
    destruct r2 as [[]|e2|]; [|by exists o2|by exists o2].
    cbn [run].
    destruct (run_mkdir o2 (take (S n) cs) K2) as (o3 & E3 & V3 & K3 & R3 & N3).
    rewrite E3. rewrite V2 in *. destruct (mkdir s2 (take (S n) cs)) as [s3 r3]. cbn [fst snd] in V3, N3 |- *.
    destruct r3 as [[]|e3|].
    + exists o3. split_and!; try done. by eapply same_rest_trans.
    + assert (o3 = o2) as -> by by apply N3. exists o2. cbn [run sys_step]. rewrite V2.
      by destruct (path_is_dir s2 _).
    + assert (o3 = o2) as -> by by apply N3. exists o2. cbn [run sys_step]. rewrite V2.
      by destruct (path_is_dir s2 _).
  - assert (o1 = o) as -> by by apply N1. exists o. rewrite D. by destruct (path_is_dir _ _).
Qed.

(** ** Buffered writing *)

(** How many of [n] bytes are accepted in the end. *)
Definition fits (room : option nat) (n : nat) : nat :=
  match room with None => n | Some r => Nat.min r n end.
Definition less_room (room : option nat) (n : nat) : option nat :=
  (fun r => (r - n)%nat) <$> room.
(** The state with other contents of inode [i] and other script and room. *)
Definition wrote (o : os) (i : nat) (c : bytes) (sh : list nat) (room : option nat) : os :=
  OS (o_tree o) (<[i := c]> (o_data o)) (o_fds o) (o_locks o) (o_next o) sh room.
Lemma wrote_id o i c : o_data o !! i = Some c -> wrote o i c (o_short o) (o_room o) = o.
Proof. intros E. unfold wrote. rewrite insert_id by done. by destruct o. Qed.
Lemma wrote_wrote o i c sh r c' sh' r' :
  wrote (wrote o i c sh r) i c' sh' r' = wrote o i c' sh' r'.
Proof. unfold wrote. cbn. by rewrite insert_insert. Qed.
Lemma wrote_data o i c sh r : o_data (wrote o i c sh r) !! i = Some c.
Proof. cbn. by rewrite lookup_insert. Qed.

Lemma write_at_end c b : write_at c (length c) b = c ++ b.
Proof.
  unfold write_at. rewrite Nat.sub_diag. cbn. rewrite app_nil_r, firstn_all.
  by rewrite drop_ge, app_nil_r by lia.
Qed.
Lemma fits_le room n : (fits room n <= n)%nat.
Proof. destruct room; cbn; lia. Qed.

Lemma run_write_all fuel fd i : forall b o c, (length b <= fuel)%nat ->
  o_fds o !! fd = Some i -> o_data o !! i = Some c ->
  let k := fits (o_room o) (length b) in
  exists sh, run o (p_write_all fuel fd (length c) b) =
    Some (wrote o i (c ++ take k b) sh (less_room (o_room o) k),
          ((length c + k)%nat, drop k b, if bool_decide (k = length b) then Ok tt else Err Other)).
Proof.
  induction fuel as [|fuel IH]; intros b o c L F D k.
  - destruct b; [|cbn in L; lia]. exists (o_short o). cbn.
    assert (k = 0%nat) as -> by (subst k; destruct (o_room o); cbn; lia).
    cbn. rewrite app_nil_r, Nat.add_0_r. f_equal. f_equal.
    replace (less_room (o_room o) 0) with (o_room o); [symmetry; by apply wrote_id|].
    destruct (o_room o); cbn; [|done]. f_equal. lia.
  - destruct b as [|x b0].
    + exists (o_short o). cbn.
      assert (k = 0%nat) as -> by (subst k; destruct (o_room o); cbn; lia).
      cbn. rewrite app_nil_r, Nat.add_0_r. f_equal. f_equal.
      replace (less_room (o_room o) 0) with (o_room o); [symmetry; by apply wrote_id|].
      destruct (o_room o); cbn; [|done]. f_equal. lia.
    + cbn [p_write_all run]. remember (x :: b0) as b eqn:Eb.
      assert (length b <> 0)%nat as NZ by (subst b; cbn; lia).
      assert (b <> []) as NE by (by subst b).
      cbn [sys_step]. rewrite F.
      assert (accept o (length b) <= length b)%nat as AL.
      { unfold accept. destruct (o_short o), (o_room o); lia. }
      assert (accept o (length b) = 0%nat <-> o_room o = Some 0%nat) as AZ.
      { unfold accept. destruct (o_short o), (o_room o) as [[|]|]; split; intros; try done; lia. }
      set (n := accept o (length b)) in *.
      destruct (bool_decide (n = 0%nat)) eqn:Z0.
      * apply bool_decide_eq_true in Z0. rewrite (bool_decide_eq_false_2 (b = [])) by done. cbn.
        apply AZ in Z0. subst k. rewrite Z0. cbn. exists (o_short o).
        rewrite app_nil_r, Nat.add_0_r. rewrite bool_decide_eq_false_2 by lia.
        f_equal. f_equal. rewrite <- (wrote_id o i c) at 1 by done. by rewrite Z0.
      * apply bool_decide_eq_false in Z0. cbn [andb negb].
        rewrite D. cbn [default].
        assert (n <= k)%nat as NK.
        { subst k n. unfold accept, fits in *. destruct (o_short o), (o_room o); lia. }
        assert (k <= length b)%nat as KL by apply fits_le.
        rewrite write_at_end.
        set (o1 := set_data (accepted o n) i (c ++ take n b)).
        destruct (IH (drop n b) o1 (c ++ take n b)) as (sh & E).
        { rewrite drop_length. lia. }
        { done. }
        { cbn. by rewrite lookup_insert. }
        exists sh. destruct n as [|n'] eqn:En; [done|]. rewrite <- En in *.
        rewrite app_length, take_length_le in E by lia. rewrite E. clear E.
        assert (fits (o_room o1) (length (drop n b)) = (k - n)%nat) as Ek.
        { subst k. cbn. rewrite drop_length. destruct (o_room o); cbn; lia. }
        rewrite Ek. f_equal. f_equal.
        -- rewrite <- (app_assoc c).
           replace (take n b ++ take (k - n) (drop n b)) with (take k b).
           2:{ replace k with (n + (k - n))%nat at 1 by lia. by rewrite take_take_drop. }
           unfold wrote. cbn. rewrite insert_insert. f_equal.
           destruct (o_room o); cbn; [|done]. f_equal. lia.
        -- rewrite drop_drop. rewrite drop_length. f_equal.
           ++ f_equal; [lia|]. f_equal. lia.
           ++ destruct (decide (k = length b)).
              ** rewrite !bool_decide_eq_true_2 by lia. done.
              ** rewrite !bool_decide_eq_false_2 by lia. done.
Qed.

(** What is still in the buffer when the closure ends. *)
Fixpoint final_buf (buf : bytes) (ws : list bytes) : bytes :=
  match ws with
  | [] => buf
  | w :: ws' =>
      let buf1 := if lenZ w >? BUF_CAP - lenZ buf then [] else buf in
      if lenZ w >=? BUF_CAP then final_buf buf1 ws' else final_buf (buf1 ++ w) ws'
  end.
Lemma final_buf_bound ws : forall buf, lenZ buf <= BUF_CAP -> lenZ (final_buf buf ws) <= BUF_CAP.
Proof.
  induction ws as [|w ws IH]; intros buf L; cbn; [done|].
  assert (0 <= lenZ w) as LW by (unfold lenZ; lia).
  destruct (lenZ w >? BUF_CAP - lenZ buf) eqn:E1; destruct (lenZ w >=? BUF_CAP) eqn:E2; apply IH.
  - done.
  - rewrite app_nil_l. lia.
  - done.
  - unfold lenZ in *. rewrite app_length. lia.
Qed.
Lemma final_buf_suffix ws : forall buf, lenZ buf <= BUF_CAP ->
  exists p, buf ++ concat ws = p ++ final_buf buf ws.
Proof.
  induction ws as [|w ws IH]; intros buf L; cbn.
  - exists []. by rewrite app_nil_r.
  - assert (0 <= lenZ w) as LW by (unfold lenZ; lia).
    destruct (lenZ w >? BUF_CAP - lenZ buf) eqn:E1; destruct (lenZ w >=? BUF_CAP) eqn:E2.
    + destruct (IH []) as [p E]; [done|]. exists (buf ++ w ++ p). rewrite <- !app_assoc, <- E. done.
    + destruct (IH w) as [p E]; [lia|]. exists (buf ++ p). rewrite <- app_assoc. f_equal. exact E.
    + assert (buf = []) as -> by (destruct buf; [done|unfold lenZ in *; cbn [length] in *; lia]).
      destruct (IH []) as [p E]; [done|]. exists (w ++ p). by rewrite <- !app_assoc, <- E.
    + destruct (IH (buf ++ w)) as [p E]; [unfold lenZ in *; rewrite app_length; lia|].
      exists p. by rewrite <- E, <- app_assoc.
Qed.
Lemma final_buf_le ws buf : lenZ buf <= BUF_CAP ->
  (length (final_buf buf ws) <= length (buf ++ concat ws))%nat.
Proof. intros L. destruct (final_buf_suffix ws buf L) as [p ->]. rewrite (app_length p). lia. Qed.

Lemma run_drop fd i o c buf r :
  o_fds o !! fd = Some i -> o_data o !! i = Some c ->
  let k := fits (o_room o) (length buf) in
  exists sh, run o (p_drop fd (length c) buf r) =
    Some (close_fd (wrote o i (c ++ take k buf) sh (less_room (o_room o) k)) fd, r).
Proof.
  intros F D k. unfold p_drop. rewrite run_bind.
  destruct (run_write_all (length buf) fd i buf o c) as [sh E]; [lia|done|done|].
  exists sh. rewrite E. done.
Qed.

Lemma fits_less room a b : fits (less_room room (fits room a)) b = (fits room (a + b) - fits room a)%nat.
Proof. destruct room; cbn; lia. Qed.
Lemma less_less room a b : less_room (less_room room a) b = less_room room (a + b).
Proof. destruct room; cbn; [|done]. f_equal. lia. Qed.
Lemma fits_full room a b : fits room a = a -> fits room (a + b) = (a + fits (less_room room a) b)%nat.
Proof. destruct room; cbn; lia. Qed.
Lemma fits_short room a b : fits room a <> a -> fits room (a + b) = fits room a.
Proof. destruct room; cbn; lia. Qed.
Lemma fits_none room a : fits room a <> a -> less_room room (fits room a) = Some 0%nat.
Proof. destruct room; cbn; [|done]. intros. f_equal. lia. Qed.
Lemma take_app_le' {A} (l k : list A) n : (n <= length l)%nat -> take n (l ++ k) = take n l.
Proof. apply take_app_le. Qed.

Lemma take_add_app' {A} (l t : list A) k j : k = length l ->
  take (k + j) (l ++ t) = take k l ++ take j t.
Proof. intros ->. rewrite take_add_app by done. by rewrite (take_ge l) by lia. Qed.
Lemma bool_decide_ext_if {A : Type} (P Q : Prop) `{Decision P, Decision Q} (x y : A) :
  (P <-> Q) -> (if bool_decide P then x else y) = (if bool_decide Q then x else y).
Proof. intros E. by rewrite (bool_decide_ext _ _ E). Qed.
Lemma run_buffered fd i r ws : forall buf o c, lenZ buf <= BUF_CAP ->
  o_fds o !! fd = Some i -> o_data o !! i = Some c ->
  let text := buf ++ concat ws in
  let k := fits (o_room o) (length text) in
  exists sh, run o (p_buffered fd (length c) buf ws r) =
    Some (close_fd (wrote o i (c ++ take k text) sh (less_room (o_room o) k)) fd,
          if bool_decide (length text - length (final_buf buf ws) <= k)%nat then r else Err Other).
Proof.
  induction ws as [|w ws IH]; intros buf o c L F D text k.
  - cbn [p_buffered final_buf]. subst text k. cbn [concat]. rewrite app_nil_r.
    destruct (run_drop fd i o c buf r F D) as [sh E]. exists sh. rewrite E.
    rewrite bool_decide_eq_true_2 by lia. done.
  - cbn [p_buffered].
    assert (0 <= lenZ w) as LW by (unfold lenZ; lia).
    (* writing the slice, after a possible flush *)
    assert (forall buf1 o1 c1, lenZ buf1 <= BUF_CAP ->
      (lenZ w >=? BUF_CAP = true -> buf1 = []) ->
      (lenZ w >=? BUF_CAP = false -> lenZ buf1 + lenZ w <= BUF_CAP) ->
      o_fds o1 !! fd = Some i -> o_data o1 !! i = Some c1 ->
      let text1 := buf1 ++ w ++ concat ws in
      let k1 := fits (o_room o1) (length text1) in
      let fin := if lenZ w >=? BUF_CAP then final_buf buf1 ws else final_buf (buf1 ++ w) ws in
      exists sh, run o1 (if lenZ w >=? BUF_CAP
        then pbind (p_write_all (length w) fd (length c1) w) (fun x =>
               let '(off', _, rw) := x in
               match rw with
               | Ok _ => p_buffered fd off' buf1 ws r
               | e => p_drop fd off' buf1 e
               end)
        else p_buffered fd (length c1) (buf1 ++ w) ws r) =
      Some (close_fd (wrote o1 i (c1 ++ take k1 text1) sh (less_room (o_room o1) k1)) fd,
          if bool_decide (length text1 - length fin <= k1)%nat then r else Err Other)) as PUT.
    { clear L F D text k o c buf. intros buf o c L B1 B2 F D text k fin.
      destruct (lenZ w >=? BUF_CAP) eqn:E2.
      - pose proof (B1 eq_refl) as B0. subst buf. clear B1 B2. rewrite run_bind.
        destruct (run_write_all (length w) fd i w o c) as [sh1 E]; [lia|done|done|].
        rewrite E. clear E. set (k1 := fits (o_room o) (length w)) in *.
        set (o1 := wrote _ _ _ _ _).
        destruct (decide (k1 = length w)) as [FULL|SHORT].
        + rewrite bool_decide_eq_true_2 by done.
          assert (length c + k1 = length (c ++ take k1 w))%nat as ->.
          { rewrite app_length, take_length_le by lia. done. }
          destruct (IH [] o1 (c ++ take k1 w)) as [sh E]; [done|done|apply wrote_data|].
          exists sh. rewrite E. clear E.
          assert (k = k1 + fits (o_room o1) (length ([] ++ concat ws)))%nat as Ek.
          { change (o_room o1) with (less_room (o_room o) k1).
            subst k text. rewrite !app_nil_l, (app_length w), FULL. by apply fits_full. }
          f_equal. f_equal.
          * subst o1. rewrite wrote_wrote. f_equal. cbn [o_room wrote] in *.
            rewrite less_less, <- Ek. f_equal. rewrite <- app_assoc. f_equal.
            subst text. rewrite !app_nil_l in *. rewrite Ek. symmetry. by apply take_add_app'.
          * subst text fin. rewrite !app_nil_l in *.
            pose proof (final_buf_le ws [] L) as FL. rewrite app_nil_l in FL. rewrite (app_length w) in *.
            apply bool_decide_ext_if. lia.
        + rewrite bool_decide_eq_false_2 by done.
          assert (length c + k1 = length (c ++ take k1 w))%nat as ->.
          { rewrite app_length, take_length_le; [done|]. apply fits_le. }
          destruct (run_drop fd i o1 (c ++ take k1 w) [] (Err Other)) as [sh E]; [done|apply wrote_data|].
          exists sh. rewrite E. clear E.
          assert (k = k1) as Ek.
          { subst k text. cbn [app]. rewrite app_length. by apply fits_short. }
          f_equal. f_equal.
          * subst o1. rewrite wrote_wrote. f_equal. cbn [o_room wrote] in *.
            rewrite less_less, Ek. rewrite take_nil, app_nil_r. subst text. cbn [app].
            rewrite take_app_le by (apply fits_le). f_equal.
            pose proof (fits_le (less_room (o_room o) k1) (length (@nil ascii))). cbn [length] in *.
            f_equal. lia.
          * rewrite bool_decide_eq_false_2; [done|].
            pose proof (final_buf_le ws [] L) as FL. subst text fin.
            rewrite !app_nil_l in *. rewrite (app_length w) in *.
            pose proof (fits_le (o_room o) (length w)). lia.
      - destruct (IH (buf ++ w) o c) as [sh E]; [|done|done|].
        { specialize (B2 eq_refl). unfold lenZ in *. rewrite app_length. lia. }
        exists sh. rewrite E. subst text k fin. by rewrite <- app_assoc. }
    destruct (lenZ w >? BUF_CAP - lenZ buf) eqn:E1.
    + rewrite run_bind.
      destruct (run_write_all (length buf) fd i buf o c) as [sh1 E]; [lia|done|done|].
      rewrite E. clear E. set (k1 := fits (o_room o) (length buf)) in *.
      set (o1 := wrote _ _ _ _ _).
      assert (length c + k1 = length (c ++ take k1 buf))%nat as ->.
      { rewrite app_length, take_length_le; [done|]. apply fits_le. }
      destruct (decide (k1 = length buf)) as [FULL|SHORT].
      * rewrite bool_decide_eq_true_2 by done. cbn beta iota.
        destruct (PUT [] o1 (c ++ take k1 buf)) as [sh E];
          [done|done|change (lenZ []) with 0; lia|done|apply wrote_data|].
        exists sh. rewrite E. clear E PUT.
        assert (k = k1 + fits (o_room o1) (length (w ++ concat ws)))%nat as Ek.
        { change (o_room o1) with (less_room (o_room o) k1).
          subst k text. cbn [concat]. rewrite (app_length buf), FULL. by apply fits_full. }
        f_equal. f_equal.
        -- subst o1. rewrite wrote_wrote. f_equal. cbn [o_room wrote app] in *.
           rewrite less_less, <- Ek. f_equal. rewrite <- app_assoc. f_equal.
           subst text. cbn [concat]. rewrite Ek. symmetry. by apply take_add_app'.
        -- cbn [final_buf]. rewrite E1. subst text. cbn [concat app].
           rewrite (app_length buf).
           apply bool_decide_ext_if.
           assert (length (if lenZ w >=? BUF_CAP then final_buf [] ws else final_buf w ws)
                   <= length (w ++ concat ws))%nat as FL.
           { destruct (lenZ w >=? BUF_CAP) eqn:E2.
             - pose proof (final_buf_le ws [] ltac:(done)) as FL. rewrite app_nil_l in FL.
               rewrite app_length. lia.
             - apply final_buf_le. lia. }
           cbn [app] in *. lia.
      * rewrite bool_decide_eq_false_2 by done. cbn beta iota.
        destruct (run_drop fd i o1 (c ++ take k1 buf) (drop k1 buf) (Err Other)) as [sh E];
          [done|apply wrote_data|].
        exists sh. rewrite E. clear E PUT.
        assert (k = k1) as Ek.
        { subst k text. rewrite app_length. by apply fits_short. }
        f_equal. f_equal.
        -- subst o1. rewrite wrote_wrote. f_equal. cbn [o_room wrote] in *.
           rewrite less_less, Ek.
           assert (less_room (o_room o) k1 = Some 0%nat) as R0 by by apply fits_none.
           rewrite R0. cbn [fits Nat.min take].
           rewrite app_nil_r, Nat.add_0_r. subst text. rewrite take_app_le by apply fits_le. by rewrite R0.
        -- rewrite bool_decide_eq_false_2; [done|].
           subst text. cbn [final_buf concat]. rewrite E1, (app_length buf).
           assert (length (if lenZ w >=? BUF_CAP then final_buf [] ws else final_buf w ws)
                   <= length (w ++ concat ws))%nat as FL.
           { destruct (lenZ w >=? BUF_CAP) eqn:E2.
             - pose proof (final_buf_le ws [] ltac:(done)) as FL. rewrite app_nil_l in FL.
               rewrite app_length. lia.
             - apply final_buf_le. lia. }
           cbn [app]. pose proof (fits_le (o_room o) (length buf)). lia.
    + destruct (PUT buf o c L) as [sh E]; [|lia|done|done|].
      { intros E2. destruct buf; [done|]. unfold lenZ in *. cbn [length] in *. lia. }
      exists sh. rewrite E. cbn [final_buf]. rewrite E1. done.
Qed.

(** ** The store *)

Lemma idle_released o : os_ok o -> idle (released o).
Proof. intros K. split; [by apply ok_released|done]. Qed.

(** Opening for writing. *)
Definition opened (o o' : os) (p : fpath) (i fd : nat) (c : bytes) : Prop :=
  p <> [] /\ os_ok o' /\ o_tree o' !! p = Some (DFile i) /\ o_data o' !! i = Some c /\
  o_fds o' = <[fd := i]> (o_fds o) /\ o_fds o !! fd = None /\
  o_locks o' = o_locks o /\ o_room o' = o_room o /\ o_short o' = o_short o /\
  view o' = <[p := File c]> (view o).
Lemma open_fd_opened o p i c : os_ok o -> p <> [] -> o_tree o !! p = Some (DFile i) ->
  o_data o !! i = Some c -> opened o (open_fd o i) p i (o_next o) c.
Proof.
  intros K N T D. unfold opened. split_and!; try done.
  - apply ok_open_fd; [done|by rewrite D].
  - destruct (o_fds o !! o_next o) as [j|] eqn:E; [|done]. apply (fd_lt _ _ _ K) in E. lia.
  - rewrite view_open. symmetry. apply insert_id. rewrite view_lookup, T. cbn. by rewrite D.
Qed.
Lemma run_openw o cs : os_ok o ->
  match open_truncate (view o) cs with
  | (s', Ok p) => exists o' i fd c, sys_step (SOpenW cs) o = Some (o', Ok fd) /\
                    opened o o' p i fd c /\ s' = <[p := File []]> (view o) /\
                    (file_at (view o) p = Some c \/ (node_at (view o) p = None /\ c = []))
  | (s', Err e) => sys_step (SOpenW cs) o = Some (o, Err e) /\ s' = view o
  | (s', Panic) => sys_step (SOpenW cs) o = Some (o, Panic) /\ s' = view o
  end.
Proof.
  intros K. unfold open_truncate. cbn [sys_step].
  destruct (walk (view o) [] cs) as [p|e|]; [|done|done].
  destruct p as [|a p]; [done|]. set (q := a :: p).
  assert (q <> []) as N by done.
  rewrite node_at_ne, view_lookup by done.
  destruct (o_tree o !! q) as [[|i]|] eqn:T; cbn [fmap option_fmap option_map node_of].
  - done.
  - destruct (ok_tree _ K _ _ T) as [c D].
    exists (open_fd o i), i, (o_next o), c. split_and!; [done|by apply open_fd_opened|done|].
    left. unfold file_at. rewrite node_at_ne, view_lookup, T by done. cbn. by rewrite D.
  - destruct (is_dir_at (view o) (parent q)); [|done].
    set (o1 := link (new_inode o) q (DFile (o_next o))).
    exists (open_fd o1 (o_next o)), (o_next o), (o_next o1), [].
    assert (os_ok o1) as K1 by by apply ok_create.
    pose proof (open_fd_opened o1 q (o_next o) [] K1 N) as O.
    destruct O as (A1 & A2 & A3 & A4 & A5 & A6 & A7 & A8 & A9 & A10).
    { cbn. by rewrite lookup_insert. }
    { cbn. by rewrite lookup_insert. }
    split_and!; [done| |done|right; split; [|done]].
    + unfold opened. split_and!; try done. rewrite A10. unfold o1. rewrite view_create by done.
      by rewrite insert_insert.
    + rewrite node_at_ne, view_lookup, T by done. done.
Qed.

Lemma no_conflict o fd ex : o_locks o = ∅ -> lock_conflict o fd ex = false.
Proof. intros E. unfold lock_conflict. by rewrite E, map_to_list_empty. Qed.

(** The state in which writing starts: locked and truncated. *)
Definition ready (o : os) (fd i : nat) : os := set_data (set_lock o fd true) i [].
Lemma run_set base key ws r o : idle o ->
  let text := concat ws in
  let k := fits (o_room o) (length text) in
  let want := st_set base (view o) key
    (take k text, if bool_decide (length text - length (final_buf [] ws) <= k)%nat then r else Err Other) in
  exists o', run o (p_set base key ws r) = Some (o', snd want) /\ view o' = fst want /\
    idle o' /\ (o_room o = None -> o_room o' = None).
Proof.
  intros (K & F0 & L0) text k want. unfold p_set, want, st_set. clear want.
  destruct (key_comps base key) as [cs|e|]; cbn [pres]; [|by exists o|by exists o].
  rewrite run_try.
  assert (forall o1, os_ok o1 -> same_rest o o1 ->
    let want := match open_truncate (view o1) cs with
      | (s2, Ok p) => (<[p := File (take k text)]> s2,
           if bool_decide (length text - length (final_buf [] ws) <= k)%nat then r else Err Other)
      | (s2, Err e) => (s2, Err e)
      | (s2, Panic) => (s2, Panic)
      end in
    exists o', run o1 (ptry (Call (SOpenW cs) (fun r => Ret r)) (fun fd =>
      Call (SLock fd true) (fun _ => Call (STrunc fd) (fun _ => p_buffered fd 0 [] ws r)))) =
      Some (o', snd want) /\ view o' = fst want /\ idle o' /\ (o_room o = None -> o_room o' = None)) as FIN.
  { intros o1 K1 (F1 & L1 & R1) want. rewrite run_try. cbn [run].
    pose proof (run_openw o1 cs K1) as OW. unfold want. clear want.
    destruct (open_truncate (view o1) cs) as [s2 [p|e|]].
    - destruct OW as (o2 & i & fd & c & E2 & (N & K2 & T2 & D2 & F2 & FN & L2 & R2 & S2 & V2) & -> & _).
      rewrite E2. cbn [run].
      assert (o_fds o2 !! fd = Some i) as Fd by (rewrite F2; apply lookup_insert).
      cbn [sys_step run]. rewrite Fd, no_conflict by congruence. cbn [run].
      cbn [sys_step run]. cbn [o_fds set_lock]. rewrite Fd.
      change (set_data (set_lock o2 fd true) i []) with (ready o2 fd i).
      destruct (run_buffered fd i r ws [] (ready o2 fd i) []) as [sh E].
      { done. } { done. } { cbn. by rewrite lookup_insert. }
      rewrite !app_nil_l in E. change (length (@nil ascii)) with 0%nat in E. rewrite E. clear E.
      assert (fits (o_room (ready o2 fd i)) (length (concat ws)) = k) as Ek.
      { unfold k. cbn. by rewrite R2, R1. }
      rewrite Ek. fold text.
      eexists. split; [reflexivity|]. cbn [fst snd].
      assert (os_ok (ready o2 fd i)) as K3.
      { apply ok_set_data; [apply ok_set_lock; [done|by rewrite Fd]|]. cbn. by rewrite D2. }
      split_and!.
      + rewrite view_close.
        set (o3 := wrote _ _ _ _ _).
        assert (view o3 = view (set_data o2 i (take k text))) as ->.
        { unfold view. cbn. by rewrite insert_insert. }
        rewrite (view_set_data _ p) by done. rewrite V2. by rewrite !insert_insert.
      + split_and!.
        * apply ok_close. split; cbn.
          -- intros q j E. apply lookup_insert_is_Some'. destruct (decide (i = j)); [by left|right].
             apply (ok_tree _ K2) in E. cbn. by rewrite lookup_insert_ne.
          -- apply (ok_one _ K2).
          -- intros j. rewrite insert_insert, lookup_insert_is_Some'. intros [<-|J];
               apply (ok_data _ K2); [by rewrite D2|done].
          -- intros fd' j E. apply (ok_fds _ K2) in E as [? ?]. split; [done|].
             rewrite insert_insert, lookup_insert_is_Some'. by right.
          -- intros fd' b. rewrite lookup_insert_Some. intros [[<- _]|[_ E]]; [by rewrite Fd|].
             by eapply (ok_locks _ K2).
        * cbn. rewrite F2, F1, F0. rewrite delete_insert; [done|]. apply lookup_empty.
        * cbn. rewrite L2, L1, L0. rewrite delete_insert; [done|]. apply lookup_empty.
      + intros RN. cbn. by rewrite R2, R1, RN.
    - destruct OW as [-> ->]. cbn. exists o1. split_and!; try done; [split; [done|split; congruence]|congruence].
    - destruct OW as [-> ->]. cbn. exists o1. split_and!; try done; [split; [done|split; congruence]|congruence]. }
  destruct cs as [|c0 cs0] eqn:Ecs.
  - cbn [run]. destruct (FIN o K (same_rest_refl o)) as (o' & E & V & I & R). exists o'. by rewrite E.
  - rewrite <- Ecs in *. cbn [run sys_step].
    destruct (path_exists (view o) (parent_comps cs)).
    + cbn [run]. destruct (FIN o K (same_rest_refl o)) as (o' & E & V & I & R). exists o'. by rewrite E.
    + destruct (run_mkdir_all (parent_comps cs) (length (parent_comps cs)) o K) as (o1 & E1 & V1 & K1 & R1).
      rewrite E1. unfold create_dir_all.
      destruct (mkdir_all (view o) (parent_comps cs) (length (parent_comps cs))) as [s1 r1].
      cbn [fst snd] in *. subst s1.
      destruct R1 as (F1 & L1 & R1).
      destruct r1 as [[]|e|].
      * destruct (FIN o1 K1 (conj F1 (conj L1 R1))) as (o' & E & V & I & R). exists o'. by rewrite E.
      * exists o1. split_and!; try done; [split; [done|split; congruence]|congruence].
      * exists o1. split_and!; try done; [split; [done|split; congruence]|congruence].
Qed.

Lemma take_drop_len {A} (l : list A) n : take n l ++ drop (length (take n l)) l = l.
Proof.
  rewrite take_length. destruct (Nat.min_spec n (length l)) as [[? ->]|[? ->]].
  - apply take_drop.
  - by rewrite (take_ge l n), drop_ge, app_nil_r by lia.
Qed.
Lemma run_read_all fd i c o rs : o_fds o !! fd = Some i -> default [] (o_data o !! i) = c ->
  forall off acc, run o (p_read_all fd off rs acc) = Some (o, acc ++ drop off c).
Proof.
  intros F D. induction rs as [|n rs IH]; intros off acc; cbn [p_read_all run sys_step]; rewrite F, D.
  - done.
  - destruct (drop off c) as [|x l] eqn:E.
    + rewrite take_nil. cbn. by rewrite app_nil_r.
    + destruct (Nat.max 1 n) as [|m] eqn:M; [lia|].
      rewrite bool_decide_eq_false_2 by done. rewrite IH.
      rewrite <- app_assoc. f_equal. f_equal. f_equal.
      rewrite <- drop_drop, E. apply take_drop_len.
Qed.

Lemma close_open o i : os_ok o -> o_fds o = ∅ -> o_locks o = ∅ -> is_Some (o_data o !! i) ->
  forall ex, idle (close_fd (set_lock (open_fd o i) (o_next o) ex) (o_next o)).
Proof.
  intros K F L D ex. split_and!.
  - apply ok_close, ok_set_lock; [by apply ok_open_fd|]. cbn. by rewrite lookup_insert.
  - cbn. rewrite F. rewrite delete_insert; [done|]. apply lookup_empty.
  - cbn. rewrite L. rewrite delete_insert; [done|]. apply lookup_empty.
Qed.

Lemma run_exists base key o :
  run o (p_exists base key) = Some (o, st_exists base (view o) key).
Proof. unfold p_exists, st_exists. by destruct (key_comps base key). Qed.

(** A call that only reads: the file system does not change. *)
Definition reads {A} (o : os) (p : proc A) (a : A) : Prop :=
  exists o', run o p = Some (o', a) /\ view o' = view o /\ idle o' /\ o_room o' = o_room o.

Lemma path_is_file_walk s cs : path_is_file s cs = true ->
  exists p c, walk s [] cs = Ok p /\ node_at s p = Some (File c).
Proof.
  unfold path_is_file, stat. destruct (walk s [] cs) as [p|e|]; try done.
  destruct (node_at s p) as [[|c]|] eqn:E; try done. eauto.
Qed.
Lemma run_openr o cs p c b : os_ok o -> walk (view o) [] cs = Ok p ->
  node_at (view o) p = Some (File c) ->
  exists i, o_tree o !! p = Some (DFile i) /\ o_data o !! i = Some c /\
    sys_step (SOpenR b cs) o = Some (open_fd o i, Ok (o_next o)).
Proof.
  intros K W E. pose proof (view_file_ne _ _ _ E) as N.
  destruct (view_file _ _ _ N E) as (i & T & D). exists i.
  destruct (ok_tree _ K _ _ T) as [c' D']. rewrite D' in D. cbn in D. subst c'.
  split_and!; try done. cbn [sys_step]. by rewrite W, E, T.
Qed.

Lemma run_get base key rs o : idle o ->
  reads o (p_get base key rs) (st_get base (view o) key).
Proof.
  intros (K & F & L). unfold p_get, st_get. unfold reads.
  destruct (key_comps base key) as [cs|e|]; cbn [pres mbind res_bind]; [|by exists o|by exists o].
  cbn [run sys_step].
  destruct (path_is_file (view o) cs) eqn:PF; [|by exists o].
  destruct (path_is_file_walk _ _ PF) as (p & c & W & E).
  destruct (run_openr o cs p c false K W E) as (i & T & D & S).
  rewrite run_try. cbn [run]. rewrite S. cbn [run].
  cbn [sys_step]. cbn [o_fds open_fd]. rewrite lookup_insert.
  rewrite no_conflict by done. cbn [run]. rewrite run_bind.
  rewrite (run_read_all _ i c).
  2:{ cbn. by rewrite lookup_insert. }
  2:{ cbn. by rewrite D. }
  cbn [run sys_step].
  eexists. split.
  - unfold open_read. rewrite W. cbn. rewrite E. cbn. done.
  - split; [done|]. split; [|done]. by apply close_open.
Qed.

Lemma run_erase base key o : idle o ->
  exists o', run o (p_erase base key) = Some (o', snd (st_erase base (view o) key)) /\
    view o' = fst (st_erase base (view o) key) /\ idle o' /\ o_room o' = o_room o.
Proof.
  intros (K & F & L). unfold p_erase, st_erase.
  destruct (key_comps base key) as [cs|e|]; cbn [pres]; [|by exists o|by exists o].
  cbn [run sys_step].
  destruct (path_exists (view o) cs) eqn:PE.
  2:{ exists o. cbn [run sys_step fst snd]. by rewrite PE. }
  unfold path_exists, stat in PE. unfold remove_file.
  destruct (walk (view o) [] cs) as [p|e|] eqn:W; try done.
  destruct (node_at (view o) p) as [[|c]|] eqn:E; try done.
  - (* a directory *)
    rewrite run_try. cbn [run sys_step]. rewrite W, E. cbn [run].
    assert (os_ok (new_inode o)) as K1 by by apply ok_new_inode.
    cbn [sys_step]. cbn [o_fds open_fd]. rewrite lookup_insert.
    rewrite no_conflict by done. cbn [run sys_step].
    assert (view (set_lock (open_fd (new_inode o) (o_next o)) (o_next (new_inode o)) true) = view o) as EV
      by by rewrite view_lock, view_open, view_new_inode.
    rewrite EV, W, E. cbn [run sys_step pres].
    eexists. split; [done|]. cbn [fst]. split_and!.
    + rewrite view_close. done.
    + change (S (o_next o)) with (o_next (new_inode o)). apply close_open; try done.
      cbn. by rewrite lookup_insert.
    + done.
  - destruct (run_openr o cs p c true K W E) as (i & T & D & S).
    rewrite run_try. cbn [run]. rewrite S. cbn [run].
    cbn [sys_step]. cbn [o_fds open_fd]. rewrite lookup_insert.
    rewrite no_conflict by done. cbn [run sys_step].
    assert (view (set_lock (open_fd o i) (o_next o) true) = view o) as EV by done.
    rewrite EV, W, E. cbn [run sys_step pres].
    eexists. split; [|split_and!].
    + f_equal. f_equal. cbn [snd]. rewrite view_close, view_unlink, EV. done.
    + by rewrite view_close, view_unlink, EV.
    + assert (idle (close_fd (set_lock (open_fd o i) (o_next o) true) (o_next o))) as (I1 & I2 & I3).
      { by apply close_open. }
      split_and!; [|done|done]. by apply (ok_unlink _ p) in I1.
    + done.
Qed.
