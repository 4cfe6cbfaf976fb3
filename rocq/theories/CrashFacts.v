(** Processes that stop after some of their system calls. *)
From Verif Require Import BaseFacts PathFacts FSFacts KeyFacts HierFacts Spec.
From Verif Require Import Sys SpecSys SysFacts SysOps.
Local Open Scope Z_scope.

(** ** Generalities *)

Lemma stops_bind {A C} (f : A -> proc C) : forall (p : proc A) o o',
  stops o (pbind p f) o' ->
  stops o p o' \/ exists o1 a, run o p = Some (o1, a) /\ stops o1 (f a) o'.
Proof.
  induction p as [a|T c k IH]; intros o o' S.
  - right. by exists o, a.
  - cbn [pbind] in S. inversion S as [|? ? o1 p1 ? E S1]; subst; [left; constructor|].
    cbn [pstep] in E. destruct (sys_step c o) as [[o2 x]|] eqn:E1; [|done].
    injection E as <- <-. destruct (IH x o2 o' S1) as [S2|(o3 & a & E3 & S3)].
    + left. eapply stops_later; [|done]. cbn. by rewrite E1.
    + right. exists o3, a. cbn. by rewrite E1.
Qed.
Lemma stops_run {A} (p : proc A) : forall o o' a, run o p = Some (o', a) -> stops o p o'.
Proof.
  induction p as [a|T c k IH]; intros o o' x E; cbn in E.
  - injection E as <- _. constructor.
  - destruct (sys_step c o) as [[o2 y]|] eqn:E1; [|done].
    eapply stops_later; [cbn; by rewrite E1|]. by eapply IH.
Qed.
Lemma stops_bind_l {A C} (f : A -> proc C) (p : proc A) o o' :
  stops o p o' -> stops o (pbind p f) o'.
Proof.
  intros S. induction S as [o p|o p o1 p1 o2 E S IH]; [constructor|].
  destruct p as [a|T c k]; [done|]. cbn in E.
  destruct (sys_step c o) as [[o3 y]|] eqn:E1; [|done]. injection E as <- <-.
  eapply stops_later; [cbn; by rewrite E1|done].
Qed.
Lemma stops_bind_r {A C} (f : A -> proc C) (p : proc A) : forall o o1 a o',
  run o p = Some (o1, a) -> stops o1 (f a) o' -> stops o (pbind p f) o'.
Proof.
  induction p as [a|T c k IH]; intros o o1 x o' E S; cbn in E.
  - by injection E as -> ->.
  - destruct (sys_step c o) as [[o2 y]|] eqn:E1; [|done].
    eapply stops_later; [cbn; by rewrite E1|]. by eapply IH.
Qed.
Lemma stops_call {A T} (c : sys T) (k : T -> proc A) o o' : stops o (Call c k) o' ->
  o' = o \/ exists o1 x, sys_step c o = Some (o1, x) /\ stops o1 (k x) o'.
Proof.
  intros S. inversion S as [|? ? o1 p1 ? E S1]; subst; [by left|].
  cbn in E. destruct (sys_step c o) as [[o2 x]|] eqn:E1; [|done].
  injection E as <- <-. right. by exists o2, x.
Qed.
Lemma stops_step {A T} (c : sys T) (k : T -> proc A) o o1 x o' :
  sys_step c o = Some (o1, x) -> stops o1 (k x) o' -> stops o (Call c k) o'.
Proof. intros E S. eapply stops_later; [cbn; by rewrite E|done]. Qed.
Lemma stops_ret {A} (a : A) o o' : stops o (Ret a) o' -> o' = o.
Proof. intros S. by inversion S. Qed.

Lemma stops_ok {A} (p : proc A) o o' : os_ok o -> stops o p o' -> os_ok o'.
Proof.
  intros K S. induction S as [|o p o1 p1 o2 E S IH]; [done|]. apply IH.
  destruct p as [a|T c k]; [done|]. cbn in E.
  destruct (sys_step c o) as [[o3 y]|] eqn:E1; [|done]. injection E as <- _.
  by eapply sys_step_ok.
Qed.

(** Every system call satisfies [P]. *)
Fixpoint calls {A} (P : forall T, sys T -> Prop) (p : proc A) : Prop :=
  match p with
  | Ret _ => True
  | @Call _ T c k => P T c /\ forall x, calls P (k x)
  end.
Lemma calls_bind {A C} P (p : proc A) (f : A -> proc C) :
  calls P p -> (forall a, calls P (f a)) -> calls P (pbind p f).
Proof.
  intros Hp Hf. induction p as [a|T c k IH]; cbn; [done|].
  destruct Hp as [Hc Hk]. split; [done|]. intros x. by apply IH.
Qed.
Lemma calls_stops {A} (P : forall T, sys T -> Prop) (I : os -> Prop) :
  (forall T (c : sys T) o o' x, P T c -> I o -> sys_step c o = Some (o', x) -> I o') ->
  forall (p : proc A) o o', calls P p -> I o -> stops o p o' -> I o'.
Proof.
  intros HP p o o' Hp Ho S. induction S as [|o p o1 p1 o2 E S IH]; [done|].
  destruct p as [a|T c k]; [done|]. cbn in E, Hp.
  destruct (sys_step c o) as [[o3 y]|] eqn:E1; [|done]. injection E as <- <-.
  destruct Hp as [Hc Hk]. apply IH; [done|]. by eapply HP.
Qed.

(** ** Creating directories *)

(** Some missing directories on the way to [ns] have been made. *)
Definition grown (ns : fpath) (s s' : fs) : Prop :=
  wf_fs s' /\
  forall q, node_at s' q = node_at s q
         \/ (q `prefix_of` ns /\ node_at s q = None /\ node_at s' q = Some Dir).
Lemma grown_refl ns s : wf_fs s -> grown ns s s.
Proof. intros W. split; [done|]. by left. Qed.
Lemma grown_trans ns s1 s2 s3 : grown ns s1 s2 -> grown ns s2 s3 -> grown ns s1 s3.
Proof.
  intros [W1 G1] [W2 G2]. split; [done|]. intros q.
  destruct (G2 q) as [E2|(P & E2 & E2')]; destruct (G1 q) as [E1|(P1 & E1 & E1')].
  - left. congruence.
  - right. rewrite E2. done.
  - right. split_and!; [done|congruence|done].
  - congruence.
Qed.

Lemma mkdir_grown s ns k : wf_fs s -> grown ns s (fst (mkdir s (map Normal (take k ns)))).
Proof.
  intros W. unfold mkdir.
  destruct (walk s [] (map Normal (take k ns))) as [p|e|] eqn:E; [|by apply grown_refl..].
  apply walk_normal_target in E. cbn [app] in E. subst p.
  destruct (node_at s (take k ns)) as [n|] eqn:N; [by apply grown_refl|].
  destruct (is_dir_at s (parent (take k ns))) eqn:D; [|by apply grown_refl]. cbn [fst].
  assert (take k ns <> []) as NE by (intros X; by rewrite X in N).
  destruct (exists_last NE) as (p & x & EP). rewrite EP in *. rewrite parent_snoc in D.
  apply is_dir_at_true in D. split.
  - apply wf_insert; [done|done|by right].
  - intros q. rewrite node_at_insert by done. case_decide as Q; [|by left].
    right. split_and!; [|congruence|done]. rewrite Q, <- EP. exists (drop k ns). by rewrite take_drop.
Qed.

(** Only directories on the way to [ns] are made. *)
Definition makes_dirs (ns : fpath) (T : Type) (c : sys T) : Prop :=
  match c with
  | SMkdir cs => exists k, cs = map Normal (take k ns)
  | SIsDir _ | SExists _ | SIsFile _ => True
  | _ => False
  end.
Lemma mkdir_all_calls ns n : calls (makes_dirs ns) (p_mkdir_all (map Normal ns) n).
Proof.
  induction n as [|n IH]; cbn [p_mkdir_all calls]; [done|].
  assert (exists k, take (S n) (map Normal ns) = map Normal (take k ns)) as X.
  { exists (S n). by rewrite firstn_map. }
  split; [exact X|].
  assert (forall e : res unit, calls (makes_dirs ns)
    (Call (SIsDir (take (S n) (map Normal ns))) (fun d : bool => Ret (if d then Ok tt else e)))) as D
    by done.
  intros [u|e|]; [done| |exact (D _)].
  destruct e; try exact (D _).
  apply calls_bind; [done|]. intros [u|e|]; [|done|done].
  split; [exact X|]. intros [u'|e|]; [done|exact (D _)|exact (D _)].
Qed.
Lemma makes_dirs_step ns s T (c : sys T) o o' x :
  makes_dirs ns T c -> os_ok o /\ grown ns s (view o) -> sys_step c o = Some (o', x) ->
  os_ok o' /\ grown ns s (view o').
Proof.
  intros M [K G] E. split; [by eapply sys_step_ok|].
  destruct c; cbn in M; try done.
  - by injection E as <- _.
  - by injection E as <- _.
  - by injection E as <- _.
  - destruct M as [k ->].
    destruct (run_mkdir o (map Normal (take k ns)) K) as (o1 & E1 & V1 & K1 & _).
    rewrite E1 in E. injection E as <- _. rewrite V1.
    eapply grown_trans; [done|]. apply mkdir_grown, G.
Qed.
Lemma mkdir_all_stops ns n o o' : os_ok o -> wf_fs (view o) ->
  stops o (p_mkdir_all (map Normal ns) n) o' -> os_ok o' /\ grown ns (view o) (view o').
Proof.
  intros K W S.
  apply (calls_stops (makes_dirs ns) (fun o1 => os_ok o1 /\ grown ns (view o) (view o1))
    (makes_dirs_step ns (view o)) (p_mkdir_all (map Normal ns) n) o o'); [apply mkdir_all_calls| |done].
  split; [done|]. by apply grown_refl.
Qed.

(** ** Writing *)

Lemma write_all_stops fuel fd i : forall b o c o', (length b <= fuel)%nat ->
  o_fds o !! fd = Some i -> o_data o !! i = Some c ->
  stops o (p_write_all fuel fd (length c) b) o' ->
  exists n sh room, o' = wrote o i (c ++ take n b) sh room.
Proof.
  assert (HERE : forall b o c, o_data o !! i = Some c ->
    exists n sh room, o = wrote o i (c ++ take n b) sh room).
  { intros b o c D. exists 0%nat, (o_short o), (o_room o). rewrite app_nil_r. symmetry. by apply wrote_id. }
  induction fuel as [|fuel IH]; intros b o c o' L F D S.
  - destruct b; [|cbn in L; lia]. apply stops_ret in S as ->. by apply HERE.
  - destruct b as [|x b0]; [apply stops_ret in S as ->; by apply HERE|].
    cbn [p_write_all] in S. remember (x :: b0) as b eqn:Eb.
    apply stops_call in S as [->|(o1 & r & E & S)]; [by apply HERE|].
    cbn [sys_step] in E. rewrite F in E.
    assert (accept o (length b) <= length b)%nat as AL.
    { unfold accept. destruct (o_short o), (o_room o); lia. }
    set (n := accept o (length b)) in *.
    destruct (bool_decide (n = 0%nat)) eqn:Z0; cbn [andb] in E.
    + rewrite (bool_decide_eq_false_2 (b = [])) in E by by subst b. cbn in E.
      injection E as <- <-. apply stops_ret in S as ->. by apply HERE.
    + apply bool_decide_eq_false in Z0. injection E as <- <-. rewrite D in S. cbn [default] in S.
      rewrite write_at_end in S. destruct n as [|n'] eqn:En; [done|]. rewrite <- En in *.
      set (o1 := set_data (accepted o n) i (c ++ take n b)) in *.
      assert (length c + n = length (c ++ take n b))%nat as LC.
      { rewrite app_length, take_length_le by lia. done. }
      rewrite LC in S. apply IH in S as (m & sh & room & ->).
      * exists (n + m)%nat, sh, room. unfold wrote. cbn. rewrite insert_insert. f_equal. f_equal.
        rewrite <- app_assoc. f_equal. apply take_take_drop.
      * rewrite drop_length. lia.
      * done.
      * cbn. by rewrite lookup_insert.
Qed.

(** [o] with more of [text] written to inode [i], the description possibly
    closed. *)
Definition writing (o : os) (fd i : nat) (c text : bytes) (o' : os) : Prop :=
  exists n sh room, o' = wrote o i (c ++ take n text) sh room
                 \/ o' = close_fd (wrote o i (c ++ take n text) sh room) fd.
Lemma drop_stops fd i o c buf r o' :
  o_fds o !! fd = Some i -> o_data o !! i = Some c ->
  stops o (p_drop fd (length c) buf r) o' -> writing o fd i c buf o'.
Proof.
  intros F D S. unfold p_drop in S. apply stops_bind in S as [S|(o1 & x & E & S)].
  - eapply write_all_stops in S as (n & sh & room & ->); [|done|done|done].
    exists n, sh, room. by left.
  - destruct (run_write_all (length buf) fd i buf o c) as [sh E1]; [lia|done|done|].
    rewrite E1 in E. injection E as <- <-.
    apply stops_call in S as [->|(o2 & u & E & S)].
    + eexists _, sh, _. by left.
    + cbn in E. injection E as <- _. apply stops_ret in S as ->. eexists _, sh, _. by right.
Qed.
Lemma writing_more o fd i c a t sh room o' n : n = length a ->
  writing (wrote o i (c ++ take n a) sh room) fd i (c ++ take n a) t o' ->
  writing o fd i c (a ++ t) o'.
Proof.
  intros EN (m & sh' & room' & E). subst n. rewrite take_ge in E by lia.
  exists (length a + m)%nat, sh', room'. rewrite take_add_app' by done. rewrite take_ge by lia.
  rewrite app_assoc. destruct E as [-> | ->]; [left|right]; by rewrite wrote_wrote.
Qed.

Lemma buffered_stops fd i r ws : forall buf o c o', lenZ buf <= BUF_CAP ->
  o_fds o !! fd = Some i -> o_data o !! i = Some c ->
  stops o (p_buffered fd (length c) buf ws r) o' ->
  writing o fd i c (buf ++ concat ws) o'.
Proof.
  induction ws as [|w ws IH]; intros buf o c o' L F D S.
  - cbn [p_buffered] in S. cbn [concat]. rewrite app_nil_r. by eapply drop_stops.
  - cbn [p_buffered] in S. cbn [concat].
    assert (0 <= lenZ w) as LW by (unfold lenZ; lia).
    assert (forall buf1 o1 c1, lenZ buf1 <= BUF_CAP ->
      (lenZ w >=? BUF_CAP = true -> buf1 = []) ->
      (lenZ w >=? BUF_CAP = false -> lenZ buf1 + lenZ w <= BUF_CAP) ->
      o_fds o1 !! fd = Some i -> o_data o1 !! i = Some c1 ->
      stops o1 (if lenZ w >=? BUF_CAP
        then pbind (p_write_all (length w) fd (length c1) w) (fun x =>
               let '(off', _, rw) := x in
               match rw with
               | Ok _ => p_buffered fd off' buf1 ws r
               | e => p_drop fd off' buf1 e
               end)
        else p_buffered fd (length c1) (buf1 ++ w) ws r) o' ->
      writing o1 fd i c1 (buf1 ++ w ++ concat ws) o') as PUT.
    { clear L F D S. intros buf1 o1 c1 L1 B1 B2 F1 D1 S1.
      destruct (lenZ w >=? BUF_CAP) eqn:E2.
      - rewrite (B1 eq_refl) in *. clear B1 B2. rewrite app_nil_l.
        apply stops_bind in S1 as [S1|(o2 & x & E & S1)].
        + eapply write_all_stops in S1 as (n & sh & room & ->); [|done|done|done].
          exists (Nat.min n (length w)), sh, room. left. f_equal. f_equal.
          rewrite take_app_le by lia.
          destruct (Nat.min_spec n (length w)) as [[? ->]|[? ->]]; [done|].
          by rewrite !take_ge by lia.
        + destruct (run_write_all (length w) fd i w o1 c1) as [sh1 E1]; [lia|done|done|].
          rewrite E1 in E. clear E1. injection E as <- <-.
          set (k1 := fits (o_room o1) (length w)) in *.
          assert (length c1 + k1 = length (c1 ++ take k1 w))%nat as LC.
          { rewrite app_length, take_length_le; [done|]. apply fits_le. }
          rewrite LC in S1. destruct (decide (k1 = length w)) as [FULL|SHORT].
          * rewrite bool_decide_eq_true_2 in S1 by done. apply IH in S1; [|done|done|apply wrote_data].
            rewrite app_nil_l in S1. by apply writing_more in S1.
          * rewrite bool_decide_eq_false_2 in S1 by done.
            apply drop_stops with (i := i) in S1; [|done|apply wrote_data].
            destruct S1 as (n & sh & room & S1). rewrite take_nil, app_nil_r in S1.
            assert (k1 <= length w)%nat by apply fits_le.
            exists k1, sh, room. rewrite take_app_le by done.
            destruct S1 as [-> | ->]; [left|right]; by rewrite wrote_wrote.
      - apply IH in S1; [|specialize (B2 eq_refl); unfold lenZ in *; rewrite app_length; lia|done|done].
        by rewrite <- app_assoc in S1. }
    destruct (lenZ w >? BUF_CAP - lenZ buf) eqn:E1.
    + apply stops_bind in S as [S|(o2 & x & E & S)].
      * eapply write_all_stops in S as (n & sh & room & ->); [|done|done|done].
        exists (Nat.min n (length buf)), sh, room. left. f_equal. f_equal.
        rewrite take_app_le by lia.
        destruct (Nat.min_spec n (length buf)) as [[? ->]|[? ->]]; [done|].
        by rewrite !take_ge by lia.
      * destruct (run_write_all (length buf) fd i buf o c) as [sh1 E2]; [lia|done|done|].
        rewrite E2 in E. clear E2. injection E as <- <-.
        set (k1 := fits (o_room o) (length buf)) in *.
        assert (length c + k1 = length (c ++ take k1 buf))%nat as LC.
        { rewrite app_length, take_length_le; [done|]. apply fits_le. }
        rewrite LC in S. destruct (decide (k1 = length buf)) as [FULL|SHORT].
        -- rewrite bool_decide_eq_true_2 in S by done. cbn beta iota in S.
           apply PUT in S; [|done|done|change (lenZ []) with 0; lia|done|apply wrote_data].
           rewrite app_nil_l in S. by apply writing_more in S.
        -- rewrite bool_decide_eq_false_2 in S by done. cbn beta iota in S.
           apply drop_stops with (i := i) in S; [|done|apply wrote_data].
           destruct S as (n & sh & room & S).
           assert (k1 <= length buf)%nat by apply fits_le.
           exists (Nat.min (k1 + n) (length buf)), sh, room. rewrite take_app_le by lia.
           assert (take (Nat.min (k1 + n) (length buf)) buf = take k1 buf ++ take n (drop k1 buf)) as ->.
           { rewrite take_take_drop.
             destruct (Nat.min_spec (k1 + n) (length buf)) as [[? ->]|[? ->]]; [done|].
             by rewrite !take_ge by lia. }
           rewrite app_assoc. destruct S as [-> | ->]; [left|right]; by rewrite wrote_wrote.
    + apply PUT in S; try done; [|lia].
      intros E2. destruct buf; [done|]. unfold lenZ in *. cbn [length] in *. lia.
Qed.

(** ** A store's set, stopped *)

(** Nothing but the file [p] is affected, and it is as before or holds a prefix
    of the new content. *)
Definition cut_set (s s' : fs) (p : fpath) (text : bytes) : Prop :=
  wf_fs s' /\ same_except s s' p /\ dirs_kept s s' /\
  (file_at s' p = file_at s p \/ exists n, file_at s' p = Some (take n text)).

Lemma grown_files ns s s' : grown ns s s' -> (forall q, file_at s' q = file_at s q) /\ dirs_kept s s'.
Proof.
  intros [W G]. split.
  - intros q. unfold file_at. destruct (G q) as [->|(_ & -> & ->)]; done.
  - intros q Q. apply is_dir_at_true in Q. apply is_dir_at_true.
    destruct (G q) as [->|(_ & E & _)]; [done|congruence].
Qed.
Lemma grown_cut ns s s' p text : grown ns s s' -> cut_set s s' p text.
Proof.
  intros G. destruct (grown_files _ _ _ G) as [F D]. destruct G as [W _].
  split_and!; [done|by intros q _|done|by left].
Qed.
Lemma cut_after s s1 s2 p text : (forall q, file_at s1 q = file_at s q) -> dirs_kept s s1 ->
  cut_set s1 s2 p text -> cut_set s s2 p text.
Proof.
  intros F D (W & S & D1 & C). split_and!; [done| | |].
  - intros q Q. rewrite S by done. apply F.
  - intros q Q. by apply D1, D.
  - by rewrite <- F.
Qed.
(** Writing to a plain location that can take a file. *)
Lemma cut_insert s p c text : wf_fs s -> p <> [] ->
  (exists c', file_at s p = Some c') \/ (node_at s p = None /\ node_at s (parent p) = Some Dir) ->
  (file_at s p = Some c \/ exists n, c = take n text) ->
  cut_set s (<[p := File c]> s) p text.
Proof.
  intros W N A C. destruct (exists_last N) as (q & x & ->).
  assert (D : node_at s q = Some Dir).
  { destruct A as [[c' A]|[_ A]]; [|by rewrite parent_snoc in A].
    apply file_at_some in A. by eapply wf_prefix. }
  assert (ND : node_at s (q ++ [x]) <> Some Dir).
  { destruct A as [[c' A]|[A _]]; [apply file_at_some in A|]; congruence. }
  split_and!.
  - apply wf_insert; [done|done|by left].
  - intros r R. unfold file_at. by rewrite node_at_insert, decide_False.
  - intros r R. apply is_dir_at_true in R. apply is_dir_at_true.
    rewrite node_at_insert, decide_False; [done| |done]. intros ->. done.
  - unfold file_at at 1 3. rewrite node_at_insert, decide_True by done.
    destruct C as [C|[n ->]]; [by left|right; by exists n].
Qed.

Section Set_.
  Context (base key : bytes) (PB : plain base) (PK : plain key).
  Notation ns := (loc base key).

  Lemma open_stops o o' ws r : os_ok o -> o_locks o = ∅ -> wf_fs (view o) ->
    stops o (ptry (Call (SOpenW (map Normal ns)) (fun r => Ret r)) (fun fd =>
      Call (SLock fd true) (fun _ => Call (STrunc fd) (fun _ => p_buffered fd 0 [] ws r)))) o' ->
    cut_set (view o) (view o') ns (concat ws).
  Proof.
    intros K L0 W S.
    assert (HERE : cut_set (view o) (view o) ns (concat ws)).
    { apply (grown_cut []). by apply grown_refl. }
    apply stops_bind in S as [S|(o1 & a & E & S)].
    - apply stops_call in S as [->|(o1 & x & E & S)]; [done|]. apply stops_ret in S as ->.
      pose proof (run_openw o (map Normal ns) K) as OW.
      destruct (open_truncate (view o) (map Normal ns)) as [s2 [p|e|]] eqn:OT.
      + destruct OW as (o2 & i & fd & c & E2 & (N & K2 & T2 & D2 & F2 & FNn & L2 & R2 & S2 & V2) & -> & CC).
        rewrite E2 in E. injection E as <- <-. rewrite V2.
        unfold open_truncate in OT.
        destruct (walk (view o) [] (map Normal ns)) as [p'|e|] eqn:WK; try done.
        apply walk_normal_target in WK. cbn [app] in WK. subst p'.
        assert (p = ns /\ (node_at (view o) ns = None -> node_at (view o) (parent ns) = Some Dir)) as [-> PD].
        { destruct (node_at (view o) ns) as [[|c']|]; [done|by injection OT as _ <-|].
          destruct (is_dir_at (view o) (parent ns)) eqn:DP; [|done]. apply is_dir_at_true in DP.
          by injection OT as _ <-. }
        apply cut_insert; [done|done| |].
        * destruct CC as [CC|[CC _]]; [left; by eexists|right; split; [done|by apply PD]].
        * destruct CC as [CC|[CC ->]]; [by left|right; by exists 0%nat].
      + destruct OW as [OW _]. rewrite OW in E. by injection E as <- _.
      + destruct OW as [OW _]. rewrite OW in E. by injection E as <- _.
    - cbn [run] in E.
      pose proof (run_openw o (map Normal ns) K) as OW.
      destruct (open_truncate (view o) (map Normal ns)) as [s2 [p|e|]] eqn:OT.
      2:{ destruct OW as [OW _]. rewrite OW in E. injection E as <- <-. by apply stops_ret in S as ->. }
      2:{ destruct OW as [OW _]. rewrite OW in E. injection E as <- <-. by apply stops_ret in S as ->. }
      destruct OW as (o2 & i & fd & c & E2 & (N & K2 & T2 & D2 & F2 & FNn & L2 & R2 & S2 & V2) & -> & CC).
      rewrite E2 in E. injection E as <- <-.
      unfold open_truncate in OT.
      destruct (walk (view o) [] (map Normal ns)) as [p'|e|] eqn:WK; try done.
      apply walk_normal_target in WK. cbn [app] in WK. subst p'.
      assert (p = ns /\ (node_at (view o) ns = None -> node_at (view o) (parent ns) = Some Dir)) as [-> PD].
      { destruct (node_at (view o) ns) as [[|c']|]; [done|by injection OT as _ <-|].
        destruct (is_dir_at (view o) (parent ns)) eqn:DP; [|done]. apply is_dir_at_true in DP.
        by injection OT as _ <-. }
      assert (A : (exists c', file_at (view o) ns = Some c') \/
                  (node_at (view o) ns = None /\ node_at (view o) (parent ns) = Some Dir)).
      { destruct CC as [CC|[CC _]]; [left; by eexists|right; split; [done|by apply PD]]. }
      assert (OLD : cut_set (view o) (view o2) ns (concat ws)).
      { rewrite V2. apply cut_insert; try done. destruct CC as [CC|[_ ->]]; [by left|right; by exists 0%nat]. }
      assert (Fd : o_fds o2 !! fd = Some i) by (rewrite F2; apply lookup_insert).
      apply stops_call in S as [->|(o3 & u & E3 & S)]; [done|].
      cbn [sys_step] in E3. rewrite Fd, no_conflict in E3 by congruence. injection E3 as <- _.
      apply stops_call in S as [->|(o4 & u' & E4 & S)]; [done|].
      cbn [sys_step] in E4. cbn [o_fds set_lock] in E4. rewrite Fd in E4. injection E4 as <- _.
      change 0%nat with (length (@nil ascii)) in S.
      apply (buffered_stops fd i) in S; [|done|done|cbn; by rewrite lookup_insert].
      destruct S as (n & sh & room & S). rewrite !app_nil_l in S.
      assert (view o' = view (set_data o2 i (take n (concat ws)))) as ->.
      { destruct S as [-> | ->]; unfold view; cbn; by rewrite insert_insert. }
      rewrite (view_set_data _ ns) by done. rewrite V2, insert_insert.
      apply cut_insert; try done. right. by exists n.
  Qed.

  Lemma set_stops o o' ws r : idle o -> wf_fs (view o) ->
    stops o (p_set base key ws r) o' -> os_ok o' /\ cut_set (view o) (view o') ns (concat ws).
  Proof.
    intros (K & F & L) W S. split; [by eapply stops_ok|].
    unfold p_set in S. rewrite key_comps_plain in S by done. cbn [pres] in S.
    assert (HERE : cut_set (view o) (view o) ns (concat ws)).
    { apply (grown_cut []). by apply grown_refl. }
    apply stops_bind in S as [S|(o1 & a & E & S)].
    - destruct (map Normal ns) as [|c0 cs0] eqn:EC; [by apply stops_ret in S as ->|]. rewrite <- EC in S.
      apply stops_call in S as [->|(o1 & x & E & S)]; [done|]. cbn in E. injection E as <- <-.
      destruct (path_exists _ _); [by apply stops_ret in S as ->|].
      rewrite parent_comps_map in S. apply mkdir_all_stops in S as [_ G]; [|done|done].
      by eapply grown_cut.
    - assert (os_ok o1 /\ o_locks o1 = ∅ /\ grown (parent ns) (view o) (view o1)) as (K1 & L1 & G1).
      { destruct (map Normal ns) as [|c0 cs0] eqn:EC.
        { cbn in E. injection E as <- _. split_and!; try done. by apply grown_refl. }
        rewrite <- EC in E. cbn [run sys_step] in E.
        destruct (path_exists _ _).
        - cbn in E. injection E as <- _. split_and!; try done. by apply grown_refl.
        - rewrite parent_comps_map in E.
          pose proof (stops_run _ _ _ _ E) as S1.
          apply mkdir_all_stops in S1 as [K1 G]; [|done|done]. split_and!; try done.
          destruct (run_mkdir_all (map Normal (parent ns)) (length (map Normal (parent ns))) o K)
            as (o2 & E2 & _ & _ & _ & L2 & _). rewrite E2 in E. injection E as <- _. congruence. }
      destruct (grown_files _ _ _ G1) as [F1 D1].
      destruct a as [u|e|].
      + eapply cut_after; [done|done|]. eapply open_stops; [done|done| |done]. apply G1.
      + apply stops_ret in S as ->. by eapply grown_cut.
      + apply stops_ret in S as ->. by eapply grown_cut.
  Qed.
End Set_.
