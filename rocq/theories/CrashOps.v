(** What can be read after a process has stopped. *)
From Verif Require Import BaseFacts PathFacts FSFacts KeyFacts HierFacts ChunkFacts Spec SpecMeta.
From Verif Require Import JsonFacts JsonPrefix MetaJsonFacts NodeFacts OpenFacts.
From Verif Require Import Sys SpecSys SysFacts SysOps CrashFacts.
Local Open Scope Z_scope.

(** ** Reading calls in any idle state *)

Lemma reads_ret {A} o (a : A) : idle o -> reads o (Ret a) a.
Proof. intros I. by exists o. Qed.
Lemma reads_try {A C} o (p : proc (res A)) (f : A -> proc (res C)) r k :
  reads o p r ->
  (forall o1 a, idle o1 -> view o1 = view o -> r = Ok a -> reads o1 (f a) (k a)) ->
  reads o (ptry p f) (r ≫= k).
Proof.
  intros (o1 & E & V & I & R) N. unfold reads in *. rewrite run_try, E.
  destruct r as [a|e|]; cbn [mbind res_bind]; [|by exists o1|by exists o1].
  destruct (N o1 a I V eq_refl) as (o2 & E2 & V2 & I2 & R2).
  exists o2. split_and!; try done; congruence.
Qed.
Lemma reads_exists base key o : idle o -> reads o (p_exists base key) (st_exists base (view o) key).
Proof. intros I. exists o. by rewrite run_exists. Qed.
Lemma reads_answers {A} o (p : proc A) a : reads o p a -> answers o p a.
Proof. intros (o' & E & _). by exists o'. Qed.

Lemma reads_get_array_metadata H path rs o : idle o ->
  reads o (p_get_array_metadata H path rs) (get_array_metadata H (view o) path).
Proof.
  intros I. unfold p_get_array_metadata, get_array_metadata.
  apply (reads_try o _ _ (st_get _ _ _)); [by apply run_get|].
  intros o1 a I1 V1 _. by apply reads_ret.
Qed.
Lemma reads_read_chunk H C h t path m pos rs o : idle o ->
  reads o (p_read_chunk H C h t path m pos rs) (read_chunk C h H (view o) t path m pos).
Proof.
  intros I. unfold p_read_chunk, read_chunk.
  destruct (in_bounds (h_prof h) m pos) as [b|e|]; cbn [mbind res_bind]; [|by apply reads_ret|by apply reads_ret].
  destruct (assert_ b) as [[]|e|]; cbn [pres mbind res_bind]; [|by apply reads_ret|by apply reads_ret].
  apply (reads_try o _ _ (st_get _ _ _)); [by apply run_get|].
  intros o1 a I1 V1 _. by apply reads_ret.
Qed.
Lemma reads_node_key H path o : idle o -> reads o (p_node_key H path) (node_key H (view o) path).
Proof.
  intros I. unfold p_node_key, node_key.
  apply reads_try; [by apply reads_exists|]. intros o1 a I1 V1 _. destruct a; [by apply reads_ret|].
  apply reads_try; [rewrite <- V1; by apply reads_exists|]. intros o2 g I2 V2 _. destruct g; by apply reads_ret.
Qed.
Lemma reads_list_attributes H path rs o : idle o ->
  reads o (p_list_attributes H path rs) (list_attributes H (view o) path).
Proof.
  intros I. unfold p_list_attributes, list_attributes.
  apply reads_try; [by apply reads_node_key|]. intros o1 k I1 V1 _.
  apply (reads_try o1 _ _ (st_get _ _ _)); [rewrite <- V1; by apply run_get|].
  intros o2 x I2 V2 _. by apply reads_ret.
Qed.

(** ** Chunks *)

Lemma cut_can_hold s s' p text : wf_fs s -> cut_set s s' p text ->
  file_at s' p <> file_at s p -> can_hold_file s p.
Proof.
  intros W (W' & S & D & C) N.
  destruct C as [C|[n C]]; [done|]. split.
  - intros q Q NE c E. rewrite <- (S q NE) in E.
    unfold file_at in C, E. destruct (node_at s' p) as [x|] eqn:X; [|done].
    pose proof (wf_strict s' q p x W' X Q NE) as Y. by rewrite Y in E.
  - intros E. assert (is_dir_at s p = true) as X by by apply is_dir_at_true.
    apply D, is_dir_at_true in X. unfold file_at in C. by rewrite X in C.
Qed.

(** A stop in the middle leaves an empty file. *)
Lemma set_reach_empty base key ws r o : plain base -> plain key ->
  idle o -> wf_fs (view o) -> can_hold_file (view o) (loc base key) ->
  exists o', stops o (p_set base key ws r) o' /\ os_ok o' /\ wf_fs (view o') /\
    file_at (view o') (loc base key) = Some [].
Proof.
  intros PB PK I W CH.
  cut (exists o', stops o (p_set base key ws r) o' /\ view o' = fst (st_set base (view o) key ([], Ok tt))).
  { intros (o' & S & V). exists o'. destruct (set_stops base key PB PK o o' ws r I W S) as [K (W' & _)].
    split_and!; [done|done|done|].
    destruct (st_set_ok base (view o) key W PB PK ([], Ok tt) CH) as (s' & E & _ & N).
    rewrite V, E. cbn [fst]. unfold file_at. by rewrite N, decide_True. }
  destruct (st_set_ok base (view o) key W PB PK ([], Ok tt) CH) as (s' & E & _ & _).
  destruct I as (K & F & L).
  unfold p_set, st_set in *. rewrite key_comps_plain in E |- * by done. cbn [pres].
  set (cs := map Normal (loc base key)) in *.
  assert (forall o1, os_ok o1 -> o_locks o1 = ∅ -> forall s2 p, open_truncate (view o1) cs = (s2, Ok p) ->
    exists o', stops o1 (ptry (Call (SOpenW cs) (fun r => Ret r)) (fun fd =>
      Call (SLock fd true) (fun _ => Call (STrunc fd) (fun _ => p_buffered fd 0 [] ws r)))) o' /\
      view o' = <[p := File []]> s2) as FIN.
  { intros o1 K1 L1 s2 p OT. pose proof (run_openw o1 cs K1) as OW. rewrite OT in OW.
    destruct OW as (o2 & i & fd & c & E2 & (N & K2 & T2 & D2 & F2 & FNn & L2 & R2 & S2 & V2) & -> & _).
    assert (Fd : o_fds o2 !! fd = Some i) by (rewrite F2; apply lookup_insert).
    exists (ready o2 fd i). split.
    - eapply stops_bind_r; [cbn [run]; rewrite E2; reflexivity|].
      eapply stops_step; [cbn [sys_step]; rewrite Fd, no_conflict by congruence; reflexivity|].
      eapply stops_step; [cbn [sys_step o_fds set_lock]; rewrite Fd; reflexivity|]. constructor.
    - unfold ready. assert (view (set_data (set_lock o2 fd true) i []) = view (set_data o2 i [])) as -> by done.
      rewrite (view_set_data _ p) by done. by rewrite V2, insert_insert, insert_insert. }
  destruct cs as [|c0 cs0] eqn:Ecs.
  { destruct (open_truncate (view o) []) as [s2 [p|e|]] eqn:OT; [|done|done].
    destruct (FIN o K L _ _ OT) as (o' & S & V). exists o'. split; [|by rewrite V].
    by eapply (stops_bind_r _ (Ret (Ok tt))). }
  rewrite <- Ecs in *.
  destruct (path_exists (view o) (parent_comps cs)) eqn:PE.
  { destruct (open_truncate (view o) cs) as [s2 [p|e|]] eqn:OT; [|done|done].
    destruct (FIN o K L _ _ OT) as (o' & S & V). exists o'. split; [|by rewrite V].
    eapply stops_bind_r; [cbn [run sys_step]; rewrite PE; reflexivity|exact S]. }
  destruct (run_mkdir_all (parent_comps cs) (length (parent_comps cs)) o K) as (o1 & E1 & V1 & K1 & F1 & L1 & R1).
  unfold create_dir_all in *.
  destruct (mkdir_all (view o) (parent_comps cs) (length (parent_comps cs))) as [s1 [[]|e|]];
    cbn [fst snd] in *; [|done|done]. subst s1.
  destruct (open_truncate (view o1) cs) as [s2 [p|e|]] eqn:OT; [|done|done].
  destruct (FIN o1 K1 ltac:(congruence) _ _ OT) as (o' & S & V). exists o'. split; [|by rewrite V].
  eapply stops_bind_r; [cbn [run sys_step]; rewrite PE; exact E1|exact S].
Qed.

Lemma read_chunk_at C h H s t path m pos : wf_fs s -> plain (hy_base H) -> plain path ->
  plain (am_sep m) -> pos_ok pos -> in_bounds (h_prof h) m pos = Ok true ->
  read_chunk C h H s t path m pos =
    match file_at s (loc (hy_base H) (get_chunk_key path m pos)) with
    | None => Ok None
    | Some content => c ← decode_chunk C h t m content pos; Ok (Some c)
    end.
Proof.
  intros W PB PP PS Q IB. unfold read_chunk. rewrite IB. cbn [mbind res_bind assert_].
  rewrite st_get_plain; [done|done|done|]. by apply plain_chunk_key.
Qed.

Section ChunkCrash.
  Context (C : codec) (h : host) (H : hier) (t : rty) (path : bytes) (m : array_meta).
  Context (pos : list Z) (data : list Z) (ws : list bytes).
  Context (PB : plain (hy_base H)) (PP : plain path) (PS : plain (am_sep m)) (Q : pos_ok pos).
  Notation write := (p_write_chunk H C h t path m (Chunk pos data) ws).
  Notation read := (p_read_chunk H C h t path m pos).
  Notation at_ := (loc (hy_base H) (get_chunk_key path m pos)).

  Lemma write_stops o o' : idle o -> wf_fs (view o) -> stops o write o' ->
    os_ok o' /\ cut_set (view o) (view o') at_ (concat ws).
  Proof. intros I W S. eapply set_stops; try done. by apply plain_chunk_key. Qed.

  Lemma chunk_crash bs o o' rs : idle o -> wf_fs (view o) ->
    lossless C (am_comp m) -> Forall (elt_ok t) data -> lenZ data < two64 -> full_chunk m data ->
    in_bounds (h_prof h) m pos = Ok true ->
    encode_chunk C h t m (Chunk pos data) = (bs, Ok tt) -> concat ws = bs ->
    stops o write o' ->
    exists a, answers (released o') (read rs) a /\
      (answers o (read rs) a \/ a = Ok (Some (Chunk pos data)) \/
       exists n, (n < length bs)%nat /\ a = (c ← decode_chunk C h t m (take n bs) pos; Ok (Some c))).
  Proof.
    intros I W LL EO LD FC IB E EW S. destruct (write_stops o o' I W S) as [K' (W' & _ & _ & D)].
    eexists. split.
    { apply reads_answers, reads_read_chunk. by apply idle_released. }
    rewrite view_released. destruct D as [D|[n D]].
    { left. rewrite (read_chunk_same C h H (view o)) by done.
      by apply reads_answers, reads_read_chunk. }
    right. rewrite read_chunk_at by done. rewrite D. rewrite EW.
    destruct (decide (n < length bs)%nat) as [L|L]; [right; by exists n|left].
    rewrite take_ge by lia. destruct (chunk_roundtrip_both C h t m data bs pos pos (Chunk pos []) LL EO LD FC E) as [-> _].
    done.
  Qed.

  Lemma chunk_crash_frame o o' : idle o -> wf_fs (view o) -> good_sep (am_sep m) ->
    good_suffix (ep_suffix (hy_ep H)) -> stops o write o' ->
    (forall t' path' m' pos' rs, plain path' -> good_sep (am_sep m') -> pos_ok pos' ->
       (pieces path', pos') <> (pieces path, pos) ->
       exists a, answers o (p_read_chunk H C h t' path' m' pos' rs) a
              /\ answers (released o') (p_read_chunk H C h t' path' m' pos' rs) a)
    /\ (forall path' rs, plain path' ->
         (exists a, answers o (p_get_array_metadata H path' rs) a
                 /\ answers (released o') (p_get_array_metadata H path' rs) a)
         /\ (exists a, answers o (p_list_attributes H path' rs) a
                 /\ answers (released o') (p_list_attributes H path' rs) a)).
  Proof.
    intros I W GS GX S. destruct (write_stops o o' I W S) as [K' (W' & SE & _ & _)].
    assert (I' : idle (released o')) by by apply idle_released.
    split.
    - intros t' path' m' pos' rs P' G' Q' N. eexists. split; [by apply reads_answers, reads_read_chunk|].
      rewrite <- (frame_chunks C h H (view o) (view o') path m pos W W' PB SE t' path' m' pos') by done.
      rewrite <- (view_released o'). by apply reads_answers, reads_read_chunk.
    - intros path' rs P'.
      destruct (meta_readers_same H (view o) (view o') W W' PB GX (same_except_meta _ _ _ _ _ _ SE) path' P')
        as (M1 & _ & _ & M2).
      split; eexists; (split; [by apply reads_answers; (apply reads_get_array_metadata || apply reads_list_attributes)|]).
      + rewrite <- M1, <- (view_released o'). by apply reads_answers, reads_get_array_metadata.
      + rewrite <- M2, <- (view_released o'). by apply reads_answers, reads_list_attributes.
  Qed.
End ChunkCrash.

(** Uncompressed chunks: a truncated chunk is rejected. *)
Lemma raw_encoded C h t m d data pos :
  effective m d -> same_kind_width d t -> am_comp m = CRaw -> chunk_shape_ok m -> full_chunk m data ->
  exists bs, encode_chunk C h t m (Chunk pos data) = (bs, Ok tt)
    /\ lenZ bs = prodZ (am_chunk_shape m) * dtype_size d.
Proof.
  intros He Hk Hraw Hs Hf.
  assert (exists e, names_byte_order d e) as [e Hn].
  { destruct d; cbn; try (by exists Little); by eexists. }
  destruct (raw_layout C h t m d e data pos He Hk Hraw Hn Hs Hf) as (g & E & _ & L).
  exists (concat g). split; [done|]. unfold full_chunk in Hf. congruence.
Qed.
Lemma raw_truncated C h t m d data pos pos' bs n :
  effective m d -> same_kind_width d t -> am_comp m = CRaw -> chunk_shape_ok m -> full_chunk m data ->
  encode_chunk C h t m (Chunk pos data) = (bs, Ok tt) -> (n < length bs)%nat ->
  decode_chunk C h t m (take n bs) pos' = Err UnexpectedEof.
Proof.
  intros He Hk Hraw Hs Hf E L.
  destruct (raw_encoded C h t m d data pos He Hk Hraw Hs Hf) as (bs' & E' & L').
  rewrite E in E'. injection E' as <-. apply (decode_raw_short C h t m d); try done.
  rewrite <- L'. unfold lenZ. rewrite take_length. lia.
Qed.

(** ** A full disk *)

Lemma final_buf_all ws : forall buf, lenZ (buf ++ concat ws) < BUF_CAP -> final_buf buf ws = buf ++ concat ws.
Proof.
  induction ws as [|w ws IH]; intros buf L; cbn [final_buf concat] in *; [by rewrite app_nil_r|].
  unfold lenZ in *. rewrite !app_length in L. unfold BUF_CAP in *.
  replace (Z.of_nat (length w) >? 8192 - Z.of_nat (length buf)) with false by lia.
  replace (Z.of_nat (length w) >=? 8192) with false by lia.
  rewrite IH; [by rewrite <- app_assoc|]. unfold lenZ. rewrite !app_length. lia.
Qed.

Section Full.
  Context (base key : bytes) (PB : plain base) (PK : plain key).
  Notation ns := (loc base key).

  Lemma set_full ws r o : idle o -> wf_fs (view o) -> can_hold_file (view o) ns ->
    let text := concat ws in
    let k := fits (o_room o) (length text) in
    exists o', run o (p_set base key ws r) =
        Some (o', if bool_decide (length text - length (final_buf [] ws) <= k)%nat then r else Err Other)
      /\ idle o' /\ wf_fs (view o') /\ file_at (view o') ns = Some (take k text)
      /\ same_except (view o) (view o') ns.
  Proof.
    intros I W CH text k. destruct (run_set base key ws r o I) as (o' & E & V & I' & _).
    fold text k in E, V. set (v := (take k text, _)) in *.
    destruct (st_set_ok base (view o) key W PB PK v CH) as (s' & E' & W' & N).
    rewrite E' in E, V. cbn [fst snd] in *. subst s'.
    exists o'. split_and!; try done.
    - unfold file_at. by rewrite N, decide_True.
    - intros q NQ. unfold file_at. rewrite N, decide_False by done.
      destruct (decide (q `prefix_of` ns)) as [P|P]; [|done].
      destruct (node_at (view o) q) as [[|c]|] eqn:X; try done.
      destruct CH as [CH _]. exfalso. apply (CH q P NQ c). unfold file_at. by rewrite X.
  Qed.
  Lemma set_not_held v s : wf_fs s -> ~ can_hold_file s ns -> exists e, snd (st_set base s key v) = Err e.
  Proof.
    intros W N. destruct (st_set_blocked base s key W PB PK v N) as (e & ->). by exists e.
  Qed.
End Full.

Section ChunkFull.
  Context (C : codec) (h : host) (H : hier) (t : rty) (path : bytes) (m : array_meta).
  Context (pos : list Z) (data : list Z) (ws : list bytes) (bs : bytes).
  Context (PB : plain (hy_base H)) (PP : plain path) (PS : plain (am_sep m)) (Q : pos_ok pos).
  Context (E : encode_chunk C h t m (Chunk pos data) = (bs, Ok tt)) (EW : concat ws = bs).
  Notation write := (p_write_chunk H C h t path m (Chunk pos data) ws).
  Notation read := (p_read_chunk H C h t path m pos).
  Notation at_ := (loc (hy_base H) (get_chunk_key path m pos)).

  Lemma chunk_full o o' : idle o -> wf_fs (view o) -> run o write = Some (o', Ok tt) ->
    idle o' /\ wf_fs (view o') /\ same_except (view o) (view o') at_ /\
    file_at (view o') at_ = Some (take (fits (o_room o) (length bs)) bs) /\
    lenZ bs <= Z.of_nat (fits (o_room o) (length bs)) + 8192.
  Proof.
    intros I W R. pose proof (plain_chunk_key path m pos PP PS Q) as PK.
    unfold p_write_chunk in R. rewrite E in R. cbn [snd ck_pos] in R.
    destruct (can_hold_dec (hy_base H) (view o) (get_chunk_key path m pos)) as [CH|CH].
    - destruct (set_full (hy_base H) _ PB PK ws (Ok tt) o I W CH) as (o2 & R2 & I2 & W2 & F2 & S2).
      cbn zeta in R2, F2. rewrite EW in *. rewrite R in R2. case_bool_decide as D; [|done].
      injection R2 as <-. split_and!; try done.
      pose proof (final_buf_bound ws [] ltac:(done)) as X. unfold BUF_CAP, lenZ in *. lia.
    - destruct (run_set (hy_base H) (get_chunk_key path m pos) ws (Ok tt) o I) as (o2 & R2 & _).
      rewrite R in R2. match type of R2 with context [st_set _ _ _ ?v] =>
        destruct (set_not_held (hy_base H) (get_chunk_key path m pos) PB PK v (view o) W CH) as [e X] end.
      rewrite X in R2. done.
  Qed.

  Lemma chunk_fits o o' rs : idle o -> wf_fs (view o) -> lossless C (am_comp m) ->
    Forall (elt_ok t) data -> lenZ data < two64 -> full_chunk m data ->
    in_bounds (h_prof h) m pos = Ok true ->
    run o write = Some (o', Ok tt) ->
    (forall room, o_room o = Some room -> lenZ bs <= Z.of_nat room) ->
    answers o' (read rs) (Ok (Some (Chunk pos data))).
  Proof.
    intros I W LL EO LD FC IB R RM. destruct (chunk_full o o' I W R) as (I' & W' & _ & F & _).
    replace (Ok (Some (Chunk pos data))) with (read_chunk C h H (view o') t path m pos).
    { by apply reads_answers, reads_read_chunk. }
    rewrite read_chunk_at by done. rewrite F.
    rewrite take_ge.
    2:{ destruct (o_room o) as [r|]; cbn; [|done]. specialize (RM r eq_refl). unfold lenZ in *. lia. }
    by destruct (chunk_roundtrip_both C h t m data bs pos pos (Chunk pos []) LL EO LD FC E) as [-> _].
  Qed.

  Lemma chunk_full_raw d o o' rs : idle o -> wf_fs (view o) ->
    effective m d -> same_kind_width d t -> am_comp m = CRaw -> chunk_shape_ok m ->
    Forall (elt_ok t) data -> lenZ data < two64 -> full_chunk m data ->
    in_bounds (h_prof h) m pos = Ok true ->
    run o write = Some (o', Ok tt) ->
    answers o' (read rs) (Ok (Some (Chunk pos data))) \/ answers o' (read rs) (Err UnexpectedEof).
  Proof.
    intros I W He Hk Hraw Hs EO LD FC IB R. destruct (chunk_full o o' I W R) as (I' & W' & _ & F & _).
    destruct (decide (fits (o_room o) (length bs) < length bs)%nat) as [L|L].
    - right. replace (Err UnexpectedEof) with (read_chunk C h H (view o') t path m pos).
      { by apply reads_answers, reads_read_chunk. }
      rewrite read_chunk_at by done. rewrite F. by rewrite (raw_truncated C h t m d data pos).
    - left. apply (chunk_fits o); try done.
      + rewrite Hraw. apply raw_lossless.
      + intros r E1. rewrite E1 in L. cbn in L. unfold lenZ. lia.
  Qed.

  (** The write reports success, and the chunk is not on disk. *)
  Lemma chunk_lost d o room : idle o -> wf_fs (view o) -> can_hold_file (view o) at_ ->
    effective m d -> same_kind_width d t -> am_comp m = CRaw -> chunk_shape_ok m -> full_chunk m data ->
    in_bounds (h_prof h) m pos = Ok true ->
    lenZ bs < 8192 -> o_room o = Some room -> Z.of_nat room < lenZ bs ->
    exists o', run o write = Some (o', Ok tt) /\
      forall rs, answers o' (read rs) (Err UnexpectedEof).
  Proof.
    intros I W CH He Hk Hraw Hs FC IB L8 RM LR.
    pose proof (plain_chunk_key path m pos PP PS Q) as PK.
    destruct (set_full (hy_base H) _ PB PK ws (Ok tt) o I W CH) as (o2 & R2 & I2 & W2 & F2 & S2).
    cbn zeta in R2, F2. rewrite EW, RM in *. cbn [fits] in *. exists o2.
    unfold p_write_chunk. rewrite E. cbn [snd ck_pos].
    assert (FB : final_buf [] ws = bs) by (rewrite final_buf_all; rewrite app_nil_l, EW; done).
    rewrite FB, bool_decide_eq_true_2 in R2 by lia. split; [done|]. intros rs.
    replace (Err UnexpectedEof) with (read_chunk C h H (view o2) t path m pos).
    { by apply reads_answers, reads_read_chunk. }
    rewrite read_chunk_at by done. rewrite F2. unfold lenZ in LR.
    rewrite (raw_truncated C h t m d data pos); try done. lia.
  Qed.
End ChunkFull.

(** ** C41 in the form of the property theorems *)

Lemma crash_codec : forall C h H t path m pos data ws bs o o' rs,
  plain (hy_base H) -> plain path -> plain (am_sep m) -> pos_ok pos ->
  idle o -> wf_fs (view o) ->
  lossless C (am_comp m) -> Forall (elt_ok t) data -> lenZ data < two64 -> full_chunk m data ->
  in_bounds (h_prof h) m pos = Ok true ->
  encode_chunk C h t m (Chunk pos data) = (bs, Ok tt) -> concat ws = bs ->
  truncation_detected C h t m bs ->
  stops o (p_write_chunk H C h t path m (Chunk pos data) ws) o' ->
  exists a, answers (released o') (p_read_chunk H C h t path m pos rs) a /\
    (answers o (p_read_chunk H C h t path m pos rs) a \/ a = Ok (Some (Chunk pos data))
     \/ exists e, a = Err e).
Proof.
  intros C h H t path m pos data ws bs o o' rs PB PP PS Q I W LL EO LD FC IB E EW TD S.
  destruct (chunk_crash C h H t path m pos data ws PB PP PS Q bs o o' rs I W LL EO LD FC IB E EW S)
    as (a & A & [X|[X|(n & L & X)]]).
  - exists a. eauto.
  - exists a. eauto.
  - exists a. split; [done|]. right. right. destruct (TD pos n L) as [e Y]. rewrite Y in X. by exists e.
Qed.
Lemma crash_raw : forall C h H t path m d pos data ws bs o o' rs,
  plain (hy_base H) -> plain path -> plain (am_sep m) -> pos_ok pos ->
  idle o -> wf_fs (view o) ->
  effective m d -> same_kind_width d t -> am_comp m = CRaw -> chunk_shape_ok m ->
  Forall (elt_ok t) data -> lenZ data < two64 -> full_chunk m data ->
  in_bounds (h_prof h) m pos = Ok true ->
  encode_chunk C h t m (Chunk pos data) = (bs, Ok tt) -> concat ws = bs ->
  stops o (p_write_chunk H C h t path m (Chunk pos data) ws) o' ->
  exists a, answers (released o') (p_read_chunk H C h t path m pos rs) a /\
    (answers o (p_read_chunk H C h t path m pos rs) a \/ a = Ok (Some (Chunk pos data))
     \/ a = Err UnexpectedEof).
Proof.
  intros C h H t path m d pos data ws bs o o' rs PB PP PS Q I W He Hk Hraw Hs EO LD FC IB E EW S.
  assert (LL : lossless C (am_comp m)) by (rewrite Hraw; apply raw_lossless).
  destruct (chunk_crash C h H t path m pos data ws PB PP PS Q bs o o' rs I W LL EO LD FC IB E EW S)
    as (a & A & [X|[X|(n & L & X)]]).
  - exists a. eauto.
  - exists a. eauto.
  - exists a. split; [done|]. right. right. by rewrite (raw_truncated C h t m d data pos) in X.
Qed.
Lemma raw_truncation_detected : forall C h t m d data pos bs,
  effective m d -> same_kind_width d t -> am_comp m = CRaw -> chunk_shape_ok m -> full_chunk m data ->
  encode_chunk C h t m (Chunk pos data) = (bs, Ok tt) -> truncation_detected C h t m bs.
Proof. intros C h t m d data pos bs He Hk Hraw Hs FC E pos' n L. exists UnexpectedEof. by eapply raw_truncated. Qed.
Lemma crash_loses : forall C h H t path m d pos data ws bs o rs,
  plain (hy_base H) -> plain path -> plain (am_sep m) -> pos_ok pos ->
  idle o -> wf_fs (view o) -> can_hold_file (view o) (loc (hy_base H) (get_chunk_key path m pos)) ->
  effective m d -> same_kind_width d t -> am_comp m = CRaw -> chunk_shape_ok m -> full_chunk m data ->
  in_bounds (h_prof h) m pos = Ok true ->
  encode_chunk C h t m (Chunk pos data) = (bs, Ok tt) -> bs <> [] -> concat ws = bs ->
  exists o', stops o (p_write_chunk H C h t path m (Chunk pos data) ws) o' /\
    answers (released o') (p_read_chunk H C h t path m pos rs) (Err UnexpectedEof).
Proof.
  intros C h H t path m d pos data ws bs o rs PB PP PS Q I W CH He Hk Hraw Hs FC IB E NE EW.
  pose proof (plain_chunk_key path m pos PP PS Q) as PK.
  destruct (set_reach_empty (hy_base H) _ ws (snd (encode_chunk C h t m (Chunk pos data))) o PB PK I W CH)
    as (o' & S & K' & W' & F).
  exists o'. split; [exact S|].
  replace (Err UnexpectedEof) with (read_chunk C h H (view o') t path m pos).
  { rewrite <- (view_released o'). apply reads_answers, reads_read_chunk. by apply idle_released. }
  rewrite read_chunk_at by done. rewrite F. change (@nil ascii) with (take 0 bs).
  rewrite (raw_truncated C h t m d data pos); try done. destruct bs; cbn; [done|lia].
Qed.

Lemma reported : forall C h H t path m d pos data ws bs o o' rs,
  plain (hy_base H) -> plain path -> plain (am_sep m) -> pos_ok pos ->
  idle o -> wf_fs (view o) ->
  effective m d -> same_kind_width d t -> am_comp m = CRaw -> chunk_shape_ok m ->
  Forall (elt_ok t) data -> lenZ data < two64 -> full_chunk m data ->
  in_bounds (h_prof h) m pos = Ok true ->
  encode_chunk C h t m (Chunk pos data) = (bs, Ok tt) -> concat ws = bs ->
  run o (p_write_chunk H C h t path m (Chunk pos data) ws) = Some (o', Ok tt) ->
  (forall room, o_room o = Some room -> lenZ bs <= Z.of_nat room + 8192)
  /\ ((forall room, o_room o = Some room -> lenZ bs <= Z.of_nat room) ->
      answers o' (p_read_chunk H C h t path m pos rs) (Ok (Some (Chunk pos data))))
  /\ (answers o' (p_read_chunk H C h t path m pos rs) (Ok (Some (Chunk pos data)))
      \/ answers o' (p_read_chunk H C h t path m pos rs) (Err UnexpectedEof)).
Proof.
  intros C h H t path m d pos data ws bs o o' rs PB PP PS Q I W He Hk Hraw Hs EO LD FC IB E EW R.
  assert (LL : lossless C (am_comp m)) by (rewrite Hraw; apply raw_lossless).
  split_and!.
  - intros room RM. destruct (chunk_full C h H t path m pos data ws bs PB PP PS Q E EW o o' I W R) as (_ & _ & _ & _ & L).
    rewrite RM in L. cbn in L. lia.
  - intros RM. by apply (chunk_fits C h H t path m pos data ws bs PB PP PS Q E EW o o').
  - by apply (chunk_full_raw C h H t path m pos data ws bs PB PP PS Q E EW d o o').
Qed.

Lemma can_hold_existing s p : wf_fs s -> (exists c, file_at s p = Some c) -> can_hold_file s p.
Proof.
  intros W [c E]. unfold file_at in E. destruct (node_at s p) as [[|c']|] eqn:N; try done. split; [|by rewrite N].
  intros q Q NE c0 X. pose proof (wf_strict s q p _ W N Q NE) as Y. unfold file_at in X. by rewrite Y in X.
Qed.
