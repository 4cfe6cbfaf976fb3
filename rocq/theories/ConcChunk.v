(** Concurrent access to one chunk (C43). *)
From Verif Require Import BaseFacts PathFacts KeyFacts FSFacts Spec SpecMeta ChunkFacts HierFacts RefFacts OpsFacts.
From Verif Require Import Sys SpecConc SysFacts SysOps CrashFacts CrashOps ConcFacts ConcOps.
Local Open Scope Z_scope.

Lemma loc_chunk_pieces base path path' m pos : pieces path' = pieces path ->
  loc base (get_chunk_key path' m pos) = loc base (get_chunk_key path m pos).
Proof. intros E. by rewrite !loc_chunk, E. Qed.

(** What removing the node at [path'] may remove of the chunks at [path]. *)
Lemma below_chunk base path' path m pos : Forall no_chunk_name (pieces path') -> good_sep (am_sep m) -> pos_ok pos ->
  (pieces base ++ B "data" :: B "root" :: pieces path') `prefix_of` loc base (get_chunk_key path m pos) ->
  pieces path' `prefix_of` pieces path.
Proof.
  intros O G Q [k X]. rewrite loc_chunk, <- app_assoc in X. apply app_inv_head in X. cbn [app] in X. injection X as X.
  destruct (chunk_head0 (am_sep m) pos Q G) as (x & r & E & O'). rewrite E in X.
  eapply prefix_before; [exact O|exact O'|]. by exists k.
Qed.

Section OneChunk.
  Context (C : codec) (h : host) (H : hier) (sl : bytes -> list bytes).
  Context (t : rty) (path : bytes) (m : array_meta) (pos : list Z) (o : os) (calls : list call).
  Context (PB : plain (hy_base H)) (GX : good_suffix (ep_suffix (hy_ep H))).
  Context (PP : plain path) (GS : good_sep (am_sep m)) (Q : pos_ok pos).
  Context (IB : in_bounds (h_prof h) m pos = Ok true) (LL : lossless C (am_comp m)).
  Context (CA : calm o) (W : wf_fs (view o)).
  Context (OK : forall c, c ∈ calls -> call_ok c) (AG : writers_agree C h calls t path m pos).
  Local Notation P := (loc (hy_base H) (get_chunk_key path m pos)).
  Local Notation read := (p_read_chunk H C h t path m pos).

  Let here : Prop := exists c, file_at (view o) P = Some c.
  Let nodel : Prop := forall c, c ∈ calls -> ~ deletes_chunk c path pos.
  Definition cvals (c : bytes) : Prop :=
    file_at (view o) P = Some c \/
    exists path' data ws, KWriteChunk t path' m (Chunk pos data) ws ∈ calls /\ pieces path' = pieces path
      /\ c = concat ws /\ decode_chunk C h t m c pos = Ok (Chunk pos data).
  Local Notation fol := (follows (pre P cvals (here /\ nodel) (fun _ => False))
                                 (nxt P cvals (here /\ nodel) (fun _ => False))).

  Lemma P_ne : P <> [].
  Proof.
    rewrite loc_chunk. intros E. by apply app_eq_nil in E as [_ E].
  Qed.

  Lemma read_now r : answers o (read []) r <->
    r = match file_at (view o) P with
        | None => Ok None | Some c => x ← decode_chunk C h t m c pos; Ok (Some x) end.
  Proof.
    rewrite <- (read_chunk_at C h H (view o) t path m pos); try done; [|apply GS].
    assert (idle o) as I by apply CA. pose proof (reads_answers _ _ _ (reads_read_chunk H C h t path m pos [] o I)) as A.
    split; [|by intros ->]. intros [o1 E1]. destruct A as [o2 E2]. congruence.
  Qed.

  (** What a read may return. *)
  Local Notation whole := (whole_chunk C h H t path m pos o calls).

  Lemma cvals_whole c : cvals c -> whole (x ← decode_chunk C h t m c pos; Ok (Some x)).
  Proof.
    intros [E|(path' & data & ws & I & PE & -> & E)].
    - left. apply read_now. by rewrite E.
    - right. exists data. rewrite E. split; [|done]. by exists path', ws.
  Qed.

  Definition fin (c : call) (st : sess) (a : reply) : Prop :=
    st = Free /\
    (forall path' rs, c = KReadChunk t path' m pos rs -> pieces path' = pieces path ->
       exists r, a = YChunk r /\
         (whole r \/ ~ (here /\ nodel) /\ (r = Ok None \/ r = (x ← decode_chunk C h t m [] pos; Ok (Some x)) \/ exists e, r = Err e))) /\
    (writes_chunk c path pos -> exists r, a = YUnit r /\ (r = Ok tt \/ ~ (here /\ nodel) /\ exists e, r = Err e)).

  Lemma fin_free c : (forall path' rs, c = KReadChunk t path' m pos rs -> pieces path' <> pieces path) ->
    ~ writes_chunk c path pos ->
    fol free Free (p_call C h H sl c) -> fol (fin c) Free (p_call C h H sl c).
  Proof.
    intros N1 N2 F. eapply follows_weaken; [exact F|]. intros st a ->. split_and!; [done| |done].
    intros path' rs E PE. by apply N1 in E.
  Qed.

  Lemma other_meta ext path' : is_node_ext ext ->
    elsewhere P (fun _ => False) H (metadata_key ext (ep_suffix (hy_ep H)) path').
  Proof. intros E. split; [|tauto]. apply loc_node_chunk; [done|apply GX]. Qed.
  Lemma other_chunk path' m' pos' : good_sep (am_sep m') -> pos_ok pos' ->
    ~ (pieces path' = pieces path /\ pos' = pos) ->
    loc (hy_base H) (get_chunk_key path' m' pos') <> P.
  Proof. intros G' Q' N E. apply N. by apply loc_chunk_inj in E. Qed.

  Lemma call_follows c : c ∈ calls -> fol (fin c) Free (p_call C h H sl c).
  Proof.
    intros IN. pose proof (OK c IN) as K. destruct c; cbn in K.
    - apply fin_free; [done|by intros ?|]. by apply free_reply, free_get_array_metadata.
    - apply fin_free; [done|by intros ?|]. by apply free_reply, free_list_attributes.
    - apply fin_free; [done|by intros ?|]. apply free_reply, free_set_attributes; [done..| |].
      + apply other_meta. by left.
      + apply other_meta. by right.
    - apply fin_free; [done|by intros ?|]. apply free_reply, free_create_group; [done..|].
      apply other_meta. by right.
    - apply fin_free; [done|by intros ?|]. apply free_reply, free_create_array; [done..|].
      apply other_meta. by left.
    - destruct K as (K1 & K2 & K3).
      cbn [p_call]. eapply follows_bind.
      + apply fol_read_chunk; [done|done|apply K2|done].
      + intros st r (-> & X). cbn. split; [done|]. split; [|by intros ?].
        intros path' rs' E PE. exists r. split; [done|]. injection E as -> -> -> -> ->.
        destruct X as [(c & [SC|[SC ->]] & ->)|(NS & X)]; [done|by apply loc_chunk_pieces|..].
        -- left. by apply cvals_whole.
        -- right. auto.
        -- right. split; [done|]. destruct X as [?|?]; auto.
    - destruct K as (K1 & K2 & K3).
      destruct (decide (pieces path0 = pieces path /\ ck_pos ck = pos)) as [[E1 E2]|N].
      + destruct (AG _ IN) as (path' & data & ws' & E & A1 & A2 & A3 & A4); [done|].
        injection E as -> -> -> -> ->. cbn [p_call].
        eapply follows_bind.
        * apply fol_write_chunk; [done|done|apply K2|done| |by apply loc_chunk_pieces|tauto].
          right. exists path', data, ws'. split_and!; [done..|].
          by destruct (chunk_roundtrip_both C h t m data (concat ws') pos pos (Chunk pos []) LL A1 A2 A3 A4) as [? _].
        * intros st r (-> & X). cbn. rewrite A4 in X. cbn in X. split_and!; [done..|].
          intros _. exists r. done.
      + apply fin_free; [done|done|]. apply free_reply, free_write_chunk; [done|done|apply K2|done|].
        split; [|tauto]. by apply other_chunk.
    - destruct K as (K1 & K2 & K3). apply fin_free; [done|by intros ?|].
      apply free_reply, free_delete_chunk; [done|done|apply K2|done|].
      intros [_ ND]. apply other_chunk; [done|done|]. intros [E1 E2]. by apply (ND _ IN).
    - destruct K as (K1 & K2). apply fin_free; [done|by intros ?|]. apply free_reply, free_remove; [done..|].
      intros [_ ND]. split_and!.
      + apply other_meta. by right.
      + apply other_meta. by left.
      + intros X. apply below_chunk in X; [|done..]. by apply (ND _ IN).
    - apply fin_free; [done|by intros ?|]. apply free_reply, free_list_nodes.
  Qed.

  Context (o' : os) (ps : list (proc reply)) (EX : executes C h H sl o calls o' ps).

  Lemma chunk_interleave :
    (forall i c a, calls !! i = Some c -> returned ps i a -> exists st, fin c st a) /\
    wf_fs (view o') /\
    (all_returned ps -> calm o' /\ (forall c, file_at (view o') P = Some c -> cvals c) /\
       (here /\ nodel -> exists c, file_at (view o') P = Some c)).
  Proof.
    pose proof (interleave P cvals (here /\ nodel) (fun _ => False) P_ne
      (fun i st a => exists c, calls !! i = Some c /\ fin c st a) o (map (p_call C h H sl) calls) o' ps) as X.
    destruct X as (X1 & X2 & X3); [done|done|intros c E; by left|intros [HH _]; exact HH|done| |exact EX|].
    - intros i q E. rewrite list_lookup_fmap in E. destruct (calls !! i) as [c|] eqn:EC; [|done].
      injection E as <-. eapply follows_weaken; [apply call_follows; by eapply elem_of_list_lookup_2|].
      cbn. intros st a F. by exists c.
    - split_and!; [|done|].
      + intros i c a E R. destruct (X1 i a R) as (st & c' & E' & F). exists st. congruence.
      + intros AR. destruct X3 as (Y1 & Y2 & Y3 & _); [|done|done].
        by intros i st a (c & _ & F & _).
  Qed.

  Definition present : Prop := ~ answers o (read []) (Ok None) /\ nodel.
  Lemma present_here : present -> here /\ nodel.
  Proof.
    intros [N D]. split; [|done]. unfold here. destruct (file_at (view o) P) as [c|] eqn:E; [by exists c|].
    exfalso. apply N. apply read_now. by rewrite E.
  Qed.
  Lemma read_after rs : calm o' -> wf_fs (view o') -> answers o' (read rs)
    (match file_at (view o') P with
     | None => Ok None | Some c => x ← decode_chunk C h t m c pos; Ok (Some x) end).
  Proof.
    intros CA' W'. rewrite <- (read_chunk_at C h H (view o') t path m pos); try done; [|apply GS].
    apply reads_answers, reads_read_chunk. apply CA'.
  Qed.

  Lemma existing : present ->
    (forall i path' rs a, calls !! i = Some (KReadChunk t path' m pos rs) -> pieces path' = pieces path ->
       returned ps i a -> exists r, a = YChunk r /\ whole r) /\
    (forall i c a, calls !! i = Some c -> writes_chunk c path pos -> returned ps i a -> a = YUnit (Ok tt)) /\
    (all_returned ps -> calm o' /\ forall rs, exists r, answers o' (read rs) r /\ whole r).
  Proof.
    intros PR%present_here. destruct chunk_interleave as (X1 & X2 & X3). split_and!.
    - intros i path' rs a E PE R. destruct (X1 i _ a E R) as (st & _ & F & _).
      destruct (F path' rs eq_refl PE) as (r & -> & [X|[N _]]); [by exists r|done].
    - intros i c a E WC R. destruct (X1 i _ a E R) as (st & _ & _ & F).
      destruct (F WC) as (r & -> & [->|[N _]]); done.
    - intros AR. destruct (X3 AR) as (Y1 & Y2 & Y3). split; [done|]. intros rs.
      eexists. split; [by apply read_after|]. destruct (Y3 PR) as [c E]. rewrite E. apply cvals_whole. by apply Y2.
  Qed.

  Lemma any_time : (exists e, decode_chunk C h t m [] pos = Err e) ->
    (forall i path' rs a, calls !! i = Some (KReadChunk t path' m pos rs) -> pieces path' = pieces path ->
       returned ps i a -> exists r, a = YChunk r /\ (whole r \/ r = Ok None \/ exists e, r = Err e)) /\
    (all_returned ps -> calm o' /\ forall rs, exists r, answers o' (read rs) r /\ (whole r \/ r = Ok None)).
  Proof.
    intros [e0 RE]. destruct chunk_interleave as (X1 & X2 & X3). split_and!.
    - intros i path' rs a E PE R. destruct (X1 i _ a E R) as (st & _ & F & _).
      destruct (F path' rs eq_refl PE) as (r & -> & [X|[N X]]); exists r; [by auto|].
      split; [done|]. destruct X as [X|[X|X]]; [by auto| |by auto]. right. right. exists e0. by rewrite X, RE.
    - intros AR. destruct (X3 AR) as (Y1 & Y2 & Y3). split; [done|]. intros rs.
      eexists. split; [by apply read_after|]. destruct (file_at (view o') P) as [c|]; [|by right].
      left. apply cvals_whole. by apply Y2.
  Qed.
End OneChunk.
