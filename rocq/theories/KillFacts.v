(** Processes that die while others run (C74). *)
From Verif Require Import BaseFacts PathFacts KeyFacts FSFacts Spec SpecMeta ChunkFacts HierFacts RefFacts OpsFacts.
From Verif Require Import Sys SysNd SpecConc SpecShare SpecKill SysFacts SysOps CrashFacts CrashOps.
From Verif Require Import ConcFacts ConcOps ConcChunk ConcLive ShareLive KillOps.
Local Open Scope Z_scope.

(** ** The others go on *)

Lemma d_reaped {A} st : dfol dfree st (@reaped A (match dfd st with Some fd => [fd] | None => [] end)).
Proof. destruct st as [|fd|fd]; cbn; [done|..]; (split; [done|]); by intros ? ? ->. Qed.
Lemma filter_one (fd : nat) : filter (fun fd' => fd' <> fd) [fd] = [].
Proof. rewrite filter_cons_False; [done|tauto]. Qed.
Lemma d_dies {A} (p : proc A) : forall n st, dfol dfree st p ->
  dfol dfree st (dies (match dfd st with Some fd => [fd] | None => [] end) n p).
Proof.
  induction p as [a|T c k IH]; intros n st F; cbn in F |- *; [exact F|].
  destruct F as [P N]. destruct n as [|n]; [by apply d_reaped|]. cbn. split; [done|]. intros x st' X.
  pose proof (IH x n st' (N x st' X)) as F'.
  replace (owned _ c x) with (match dfd st' with Some fd => [fd] | None => [] end); [done|].
  destruct c; cbn in *; try by subst.
  - subst st. by destruct x; subst.
  - subst st. by destruct x; subst.
  - rewrite P. subst st'. cbn [dfd]. by rewrite filter_one.
Qed.
Lemma d_mortal {A} f (p : proc A) : dfol dfree DFree p -> dfol dfree DFree (mortal f p).
Proof.
  intros F. destruct f as [n|]; cbn [mortal]; [by apply (d_dies p n DFree)|].
  eapply follows_bind; [exact F|]. by intros st a ->.
Qed.
Lemma mortals_follow {A B} (mk : A -> proc B) l q : (forall a, dfol dfree DFree (mk a)) ->
  q ∈ map (fun cf : A * option nat => mortal cf.2 (mk cf.1)) l -> dfol dfree DFree q.
Proof. intros M E. apply elem_of_list_fmap in E as (c & -> & _). apply d_mortal, M. Qed.

Lemma mortals_no_deadlock flit C h H sl o (calls : list (rcall * option nat)) o' ps : idle o ->
  csteps (o, map (fun cf => mortal (snd cf) (p_rcall flit C h H sl (fst cf))) calls) (o', ps) ->
  all_returned ps \/ can_step o' ps.
Proof. intros I. apply live_progress; [done|]. intros q. apply (mortals_follow (p_rcall flit C h H sl)). intros c. apply d_rcall. Qed.
Lemma mortals_complete flit C h H sl o (calls : list (rcall * option nat)) o' ps : idle o ->
  csteps (o, map (fun cf => mortal (snd cf) (p_rcall flit C h H sl (fst cf))) calls) (o', ps) ->
  exists o2 ps2, csteps (o', ps) (o2, ps2) /\ all_returned ps2.
Proof. intros I. apply live_completes; [done|]. intros q. apply (mortals_follow (p_rcall flit C h H sl)). intros c. apply d_rcall. Qed.

(** ** One file *)

Section OneFile.
  Context (p : fpath) (Vals : bytes -> Prop) (stable : Prop) (absent : fpath -> Prop).
  Local Notation fol := (follows (pre p Vals stable absent) (nxt p Vals stable absent)).
  Local Notation gfol := (follows (gpre p Vals stable absent) (nxt p Vals stable absent)).

  Definition kfin {A} (fin : sess -> A -> Prop) (st : sess) (r : option A) : Prop :=
    match r with Some a => fin st a | None => st = Free end.
  Definition fds (st : sess) : list nat := match fd_of st with Some fd => [fd] | None => [] end.

  Lemma gfol_fol {A} (fin : sess -> A -> Prop) q : forall st, gfol fin st q -> fol fin st q.
  Proof.
    induction q as [a|T c k IH]; intros st F; cbn in *; [done|]. destruct F as [[P _] N].
    split; [done|]. intros x st' X. apply IH. by apply N.
  Qed.
  Lemma fol_reaped {A} (fin : sess -> A -> Prop) st : good Vals st -> fol (kfin fin) st (reaped (fds st)).
  Proof.
    destruct st as [|w m fd|d fd c]; cbn; intros G; [done|..].
    - split; [|by intros _ ? ->]. left. by exists w, m.
    - split; [|by intros _ ? ->]. right. by exists d, c.
  Qed.
  Lemma fol_dies {A} (fin : sess -> A -> Prop) q : forall n st, gfol fin st q -> fol (kfin fin) st (dies (fds st) n q).
  Proof.
    induction q as [a|T c k IH]; intros n st F; cbn in F |- *; [done|].
    destruct F as [[P G] N]. destruct n as [|n]; [by apply fol_reaped|]. cbn. split; [done|]. intros x st' X.
    pose proof (IH x n st' (N x st' X)) as F'.
    replace (owned _ c x) with (fds st'); [done|]. clear F' N IH.
    destruct c; cbn in *; try (by subst); try (by destruct X as [-> _]).
    - destruct P as (-> & _). destruct x; [by subst|by destruct X as [-> _]|done].
    - destruct P as (-> & _). destruct x; [by destruct X as (m & -> & _)|by destruct X as [-> _]|done].
    - destruct X as [(w & -> & ->)|(w & b & -> & _ & ->)]; done.
    - destruct X as [(w & -> & ->)|(w & b & -> & ->)]; done.
    - destruct X as (m & _ & _ & _ & [(w & -> & ->)|(w & c & -> & ->)]); done.
    - subst st'. unfold fds. destruct P as [(w & m & -> & _)|(d & c & -> & _)]; cbn [fd_of]; by rewrite filter_one.
  Qed.
  Lemma fol_lives {A} (fin : sess -> A -> Prop) q st : fol fin st q -> fol (kfin fin) st (mortal None q).
  Proof. intros F. cbn. eapply follows_bind; [exact F|]. by intros st' a X. Qed.
End OneFile.

(** ** One chunk *)

Section OneChunk.
  Context (C : codec) (h : host) (H : hier) (sl : bytes -> list bytes).
  Context (t : rty) (path : bytes) (m : array_meta) (pos : list Z) (o : os) (calls : list (call * option nat)).
  Context (PB : plain (hy_base H)) (GX : good_suffix (ep_suffix (hy_ep H))).
  Context (PP : plain path) (GS : good_sep (am_sep m)) (Q : pos_ok pos).
  Context (IB : in_bounds (h_prof h) m pos = Ok true) (LL : lossless C (am_comp m)).
  Context (CA : calm o) (W : wf_fs (view o)).
  Context (OK : forall c, c ∈ map fst calls -> call_ok c) (AG : writers_agree C h (map fst calls) t path m pos).
  Context (TD : prefixes_detected C h calls t path m pos).
  Local Notation P := (loc (hy_base H) (get_chunk_key path m pos)).
  Local Notation read := (p_read_chunk H C h t path m pos).
  Local Notation cvals := (cvals C h H t path m pos o (map fst calls)).
  Local Notation whole := (whole_chunk C h H t path m pos o (map fst calls)).
  Local Notation torn := (writer_dies calls path pos).

  Let here : Prop := exists c, file_at (view o) P = Some c.
  Let nodel : Prop := forall c, c ∈ map fst calls -> ~ deletes_chunk c path pos.
  (** A value, or the beginning of what a process that dies writes. *)
  Definition kvals (c : bytes) : Prop :=
    cvals c \/
    exists path' data ws n k, (KWriteChunk t path' m (Chunk pos data) ws, Some n) ∈ calls /\ pieces path' = pieces path
      /\ c = take k (concat ws).
  Local Notation fol := (follows (pre P kvals (here /\ nodel) (fun _ => False))
                                 (nxt P kvals (here /\ nodel) (fun _ => False))).
  Local Notation gfol := (follows (gpre P kvals (here /\ nodel) (fun _ => False))
                                 (nxt P kvals (here /\ nodel) (fun _ => False))).

  Lemma in_calls c f : (c, f) ∈ calls -> c ∈ map fst calls.
  Proof. intros I. apply elem_of_list_fmap. by exists (c, f). Qed.
  Lemma written_cvals path' data ws : KWriteChunk t path' m (Chunk pos data) ws ∈ map fst calls ->
    pieces path' = pieces path -> cvals (concat ws).
  Proof.
    intros IN PE. destruct (AG _ IN) as (path1 & data1 & ws' & E & A1 & A2 & A3 & A4); [done|].
    injection E as <- <- <-. right. exists path', data, ws. split_and!; [done..|].
    by destruct (chunk_roundtrip_both C h t m data (concat ws) pos pos (Chunk pos []) LL A1 A2 A3 A4) as [? _].
  Qed.
  Lemma kvals_read c : kvals c ->
    whole (x ← decode_chunk C h t m c pos; Ok (Some x)) \/
    torn /\ exists e, (x ← decode_chunk C h t m c pos; Ok (Some x)) = Err e.
  Proof.
    intros [V|(path' & data & ws & n & k & IN & PE & ->)]; [left; by apply cvals_whole|].
    destruct (decide (length (concat ws) <= k)%nat) as [L|L].
    - rewrite take_ge by done. left. apply cvals_whole; [done..|]. eapply written_cvals; [by eapply in_calls|done].
    - right. split; [by exists (KWriteChunk t path' m (Chunk pos data) ws), n|].
      destruct (TD path' data ws n IN PE pos k) as [e E]; [lia|]. exists e. by rewrite E.
  Qed.

  Definition cfin (c : call) (st : sess) (a : reply) : Prop :=
    st = Free /\
    (forall path' rs, c = KReadChunk t path' m pos rs -> pieces path' = pieces path ->
       exists r, a = YChunk r /\
         (whole r \/ (torn /\ exists e, r = Err e) \/
          ~ (here /\ nodel) /\ (r = Ok None \/ r = (x ← decode_chunk C h t m [] pos; Ok (Some x)) \/ exists e, r = Err e))) /\
    (writes_chunk c path pos -> exists r, a = YUnit r /\ (r = Ok tt \/ ~ (here /\ nodel) /\ exists e, r = Err e)).

  Lemma cfin_free c : (forall path' rs, c = KReadChunk t path' m pos rs -> pieces path' <> pieces path) ->
    ~ writes_chunk c path pos ->
    gfol free Free (p_call C h H sl c) -> gfol (cfin c) Free (p_call C h H sl c).
  Proof.
    intros N1 N2 F. eapply follows_weaken; [exact F|]. intros st a ->. split_and!; [done| |done].
    intros path' rs E PE. by apply N1 in E.
  Qed.
  Local Notation other_meta := (other_meta H sl path m pos GX).
  Local Notation other_chunk := (other_chunk H path m pos GS Q).

  (** Calls that do not write the chunk. *)
  Lemma readers_good c : c ∈ map fst calls -> ~ writes_chunk c path pos -> gfol (cfin c) Free (p_call C h H sl c).
  Proof.
    intros IN NW. pose proof (OK c IN) as K. destruct c; cbn in K.
    - apply cfin_free; [done|done|]. by apply gfree_reply, gfree_get_array_metadata.
    - apply cfin_free; [done|done|]. by apply gfree_reply, gfree_list_attributes.
    - apply cfin_free; [done|done|]. apply gfree_reply, gfree_set_attributes; [done..| |].
      + apply other_meta. by left.
      + apply other_meta. by right.
    - apply cfin_free; [done|done|]. apply gfree_reply, gfree_create_group; [done..|].
      apply other_meta. by right.
    - apply cfin_free; [done|done|]. apply gfree_reply, gfree_create_array; [done..|].
      apply other_meta. by left.
    - destruct K as (K1 & K2 & K3).
      cbn [p_call]. eapply follows_bind.
      + apply gfol_read_chunk; [done|done|apply K2|done].
      + intros st r (-> & X). cbn. split; [done|]. split; [|by intros ?].
        intros path' rs' E PE. exists r. split; [done|]. injection E as -> -> -> -> ->.
        destruct X as [(c & [SC|[SC ->]] & ->)|(NS & X)]; [done|by apply loc_chunk_pieces|..].
        -- destruct (kvals_read c SC) as [R|R]; auto.
        -- right. right. auto.
        -- right. right. split; [done|]. destruct X as [?|?]; auto.
    - destruct K as (K1 & K2 & K3).
      apply cfin_free; [done|done|]. apply gfree_reply, gfree_write_chunk; [done|done|apply K2|done|].
      split; [|tauto]. by apply other_chunk.
    - destruct K as (K1 & K2 & K3). apply cfin_free; [done|done|].
      apply gfree_reply, gfree_delete_chunk; [done|done|apply K2|done|].
      intros [_ ND]. apply other_chunk; [done|done|]. intros [E1 E2]. by apply (ND _ IN).
    - destruct K as (K1 & K2). apply cfin_free; [done|done|]. apply gfree_reply, gfree_remove; [done..|].
      intros [_ ND]. split_and!.
      + apply other_meta. by right.
      + apply other_meta. by left.
      + intros X. apply below_chunk in X; [|done..]. by apply (ND _ IN).
    - apply cfin_free; [done|done|]. apply gfree_reply, gfree_list_nodes.
  Qed.
  Lemma writes_dec c : writes_chunk c path pos \/ ~ writes_chunk c path pos.
  Proof.
    destruct c; cbn; try tauto. destruct (decide (pieces path0 = pieces path /\ ck_pos ck = pos)); [by left|by right].
  Qed.
  Lemma mortal_follows c f : (c, f) ∈ calls -> fol (kfin (cfin c)) Free (mortal f (p_call C h H sl c)).
  Proof.
    intros I. pose proof (in_calls _ _ I) as IN.
    destruct (writes_dec c) as [WC|NW].
    - destruct (AG _ IN WC) as (path' & data & ws' & -> & A1 & A2 & A3 & A4). destruct WC as [PE _].
      destruct (OK _ IN) as (K1 & K2 & K3). pose proof (written_cvals path' data ws' IN PE) as V.
      assert (forall st r, st = Free /\ (r = snd (encode_chunk C h t m (Chunk pos data)) \/
                ~ (here /\ nodel) /\ exists e, r = Err e) ->
              cfin (KWriteChunk t path' m (Chunk pos data) ws') st (YUnit r)) as FIN.
      { intros st r (-> & X). rewrite A4 in X. cbn in X. split_and!; [done..|]. intros _. by exists r. }
      destruct f as [n|].
      + apply fol_dies. cbn [p_call]. eapply follows_bind.
        * apply gfol_write_chunk; [done|done|apply K2|done| |by apply loc_chunk_pieces|tauto].
          intros k. right. exists path', data, ws', n, k. done.
        * intros st r X. cbn. by apply FIN.
      + apply fol_lives. cbn [p_call]. eapply follows_bind.
        * apply fol_write_chunk; [done|done|apply K2|done| |by apply loc_chunk_pieces|tauto]. by left.
        * intros st r X. cbn. by apply FIN.
    - pose proof (readers_good c IN NW) as F. destruct f as [n|]; [by apply fol_dies|].
      apply fol_lives. by apply gfol_fol.
  Qed.

  Context (o' : os) (ps : list (proc (option reply))) (EX : survives C h H sl o calls o' ps).

  Lemma mortal_interleave :
    (forall i c f a, calls !! i = Some (c, f) -> replied ps i a -> exists st, cfin c st a) /\
    wf_fs (view o') /\
    (all_returned ps -> calm o' /\ (forall c, file_at (view o') P = Some c -> kvals c) /\
       (here /\ nodel -> exists c, file_at (view o') P = Some c)).
  Proof.
    pose proof (interleave P kvals (here /\ nodel) (fun _ => False) (P_ne H path m pos)
      (fun i st a => exists c f, calls !! i = Some (c, f) /\ kfin (cfin c) st a) o
      (map (fun cf : call * option nat => mortal cf.2 (p_call C h H sl cf.1)) calls) o' ps) as X.
    destruct X as (X1 & X2 & X3); [done|done|intros c E; left; by left|intros [HH _]; exact HH|done| |exact EX|].
    - intros i q E. rewrite list_lookup_fmap in E. destruct (calls !! i) as [[c f]|] eqn:EC; [|done].
      injection E as <-. eapply follows_weaken; [apply mortal_follows; by eapply elem_of_list_lookup_2|].
      cbn. intros st a F. by exists c, f.
    - split_and!; [|done|].
      + intros i c f a E R. destruct (X1 i (Some a) R) as (st & c' & f' & E' & F). exists st.
        rewrite E in E'. by injection E' as <- <-.
      + intros AR. destruct X3 as (Y1 & Y2 & Y3 & _); [|done|done].
        intros i st [a|] (c & f & _ & F); [by destruct F|done].
  Qed.

  Lemma k_read_after rs : calm o' -> wf_fs (view o') -> answers o' (read rs)
    (match file_at (view o') P with
     | None => Ok None | Some c => x ← decode_chunk C h t m c pos; Ok (Some x) end).
  Proof.
    intros CA' W'. rewrite <- (read_chunk_at C h H (view o') t path m pos); try done; [|apply GS].
    apply reads_answers, reads_read_chunk. apply CA'.
  Qed.

  Lemma k_existing : ~ answers o (read []) (Ok None) /\ nodel ->
    (forall i path' rs f a, calls !! i = Some (KReadChunk t path' m pos rs, f) -> pieces path' = pieces path ->
       replied ps i a -> exists r, a = YChunk r /\ (whole r \/ torn /\ exists e, r = Err e)) /\
    (forall i c f a, calls !! i = Some (c, f) -> writes_chunk c path pos -> replied ps i a -> a = YUnit (Ok tt)) /\
    (all_returned ps -> calm o' /\ wf_fs (view o') /\
       forall rs, exists r, answers o' (read rs) r /\ (whole r \/ torn /\ exists e, r = Err e)).
  Proof.
    intros PR. assert (here /\ nodel) as HN.
    { eapply (present_here C h H t path m pos o (map fst calls)); done. }
    destruct mortal_interleave as (X1 & X2 & X3). split_and!.
    - intros i path' rs f a E PE R. destruct (X1 i _ _ a E R) as (st & _ & F & _).
      destruct (F path' rs eq_refl PE) as (r & -> & [X|[X|[N _]]]); [exists r; by auto..|done].
    - intros i c f a E WC R. destruct (X1 i _ _ a E R) as (st & _ & _ & F).
      destruct (F WC) as (r & -> & [->|[N _]]); done.
    - intros AR. destruct (X3 AR) as (Y1 & Y2 & Y3). split_and!; [done..|]. intros rs.
      eexists. split; [by apply k_read_after|]. destruct (Y3 HN) as [c E]. rewrite E. apply kvals_read. by apply Y2.
  Qed.
  Lemma k_any_time : (exists e, decode_chunk C h t m [] pos = Err e) ->
    (forall i path' rs f a, calls !! i = Some (KReadChunk t path' m pos rs, f) -> pieces path' = pieces path ->
       replied ps i a -> exists r, a = YChunk r /\ (whole r \/ r = Ok None \/ exists e, r = Err e)) /\
    (all_returned ps -> calm o' /\ wf_fs (view o') /\
       forall rs, exists r, answers o' (read rs) r /\ (whole r \/ r = Ok None \/ torn /\ exists e, r = Err e)).
  Proof.
    intros [e0 RE]. destruct mortal_interleave as (X1 & X2 & X3). split_and!.
    - intros i path' rs f a E PE R. destruct (X1 i _ _ a E R) as (st & _ & F & _).
      destruct (F path' rs eq_refl PE) as (r & -> & [X|[[_ X]|[N X]]]); exists r; [by auto..|].
      split; [done|]. destruct X as [X|[X|X]]; [by auto| |by auto]. right. right. exists e0. by rewrite X, RE.
    - intros AR. destruct (X3 AR) as (Y1 & Y2 & Y3). split_and!; [done..|]. intros rs.
      eexists. split; [by apply k_read_after|]. destruct (file_at (view o') P) as [c|]; [|auto].
      destruct (kvals_read c (Y2 c eq_refl)); auto.
  Qed.
  (** A process that comes later can write the chunk, whatever has happened to it. *)
  Lemma k_repair : ~ answers o (read []) (Ok None) /\ nodel -> all_returned ps ->
    forall data ws, Forall (elt_ok t) data -> lenZ data < two64 -> full_chunk m data ->
    encode_chunk C h t m (Chunk pos data) = (concat ws, Ok tt) ->
    exists o2, run o' (p_write_chunk H C h t path m (Chunk pos data) ws) = Some (o2, Ok tt)
      /\ forall rs, answers o2 (read rs) (Ok (Some (Chunk pos data))).
  Proof.
    intros PR AR data ws D1 D2 D3 EN. assert (here /\ nodel) as HN.
    { eapply (present_here C h H t path m pos o (map fst calls)); done. }
    destruct mortal_interleave as (_ & W' & X3). destruct (X3 AR) as (CA' & _ & Y3). specialize (Y3 HN).
    destruct (does_write_chunk H C h t path m (Chunk pos data) ws o' CA') as (o2 & R & V & CA2); [by rewrite EN|].
    destruct (write_chunk C h H (view o') t path m (Chunk pos data)) as [s2 r2] eqn:E. cbn [fst snd] in R, V.
    destruct (write_chunk_effect C h H (view o') t path m (Chunk pos data) s2 r2) as (_ & _ & _ & X); [done..|apply GS|done|done|].
    cbn [ck_pos] in X. destruct X as [(_ & _ & X)|(N & _)]; [|by destruct N; apply can_hold_existing].
    rewrite EN in X. cbn [snd] in X. subst r2. exists o2. split; [done|]. intros rs.
    apply write_read with (old := Chunk pos []) in E as [E _]; [|done..]. rewrite <- V in E. rewrite <- E.
    apply reads_answers, reads_read_chunk. apply CA2.
  Qed.
End OneChunk.
