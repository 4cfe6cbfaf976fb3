(** The order in which concurrent calls read and store the attributes of a
    node that exists (C44, C75). *)
From Verif Require Import BaseFacts PathFacts KeyFacts FSFacts Spec SpecMeta SpecHier HierFacts.
From Verif Require Import JsonFacts JsonPrefix MetaJsonFacts NodeFacts RefFacts OpsFacts.
From Verif Require Import Sys SpecConc SysFacts SysOps CrashFacts CrashOps ConcFacts ConcOps ConcChunk ConcMeta ConcNode.
From Verif Require Import SpecLin SpecAttr ConcLin ConcLog.
Local Open Scope Z_scope.

Section Doc.
  Context (C : codec) (h : host) (H : hier) (sl : bytes -> list bytes) (SL : forall b, concat (sl b) = b).
  Context (PB : plain (hy_base H)) (GS : good_suffix (ep_suffix (hy_ep H))).
  Context (ext path : bytes) (IE : is_node_ext ext) (PP : plain path).
  Context (calls : list call) (OK : forall c, c ∈ calls -> call_ok c) (UOK : updates_ok calls path).
  Context (NR : forall c, c ∈ calls -> ~ removes_node c path).
  Local Notation base := (hy_base H).
  Local Notation sfx := (ep_suffix (hy_ep H)).
  Local Notation P := (nloc H ext path).
  Local Notation absent := (ConcMeta.gone H path (ext = GX)).
  Local Notation lfol ok := (follows (lpre P absent ok) (lnxt P absent)).
  Local Notation fol V := (follows (pre P V True absent) (nxt P V True absent)).
  Local Notation nfol := (follows (npre P) (nnxt P)).

  (** What a call may add to its record, and its record when it returns. *)
  Definition r_ok (tr : list event) (e : event) : Prop := tr = [] /\ exists x, e = Saw x.
  Definition u_ok (u : jmap) (tr : list event) (e : event) : Prop :=
    r_ok tr e \/ exists x d, tr = [Saw x] /\ from_text as_map x = Ok d /\ e = Put (print (JObj (merge_doc d u))).
  Definition okc (c : call) : list event -> event -> Prop :=
    match c with
    | KListAttributes path' _ | KGetMetadata path' _ => if decide (pieces path' = pieces path) then r_ok else saw_ok
    | KSetAttributes path' u _ => if decide (pieces path' = pieces path) then u_ok u else saw_ok
    | _ => saw_ok
    end.
  Definition finc (c : call) (s : sess * list event) (a : reply) : Prop :=
    fst s = Free /\
    match c with
    | KListAttributes path' _ => pieces path' = pieces path -> exists x, snd s = [Saw x] /\ a = YAttrs (attrs_in x)
    | KGetMetadata path' _ => pieces path' = pieces path -> ext = AX -> exists x, snd s = [Saw x] /\ a = YMeta (meta_in x)
    | KSetAttributes path' u _ => pieces path' = pieces path -> exists x,
        (snd s = [Saw x] \/ exists w, snd s = [Saw x; Put w]) /\
        forall d, from_text as_map x = Ok d -> a = YUnit (Ok tt) /\ (snd s = [Saw x] -> merge_doc d u = d)
    | _ => True
    end.

  Lemma P_here path' : pieces path' = pieces path -> loc base (metadata_key ext sfx path') = P.
  Proof. intros X. by apply (nloc_same H GS path ext). Qed.
  Lemma AX_gone path' : pieces path' = pieces path -> ext = GX -> absent (loc base (metadata_key AX sfx path')).
  Proof. intros X E. split; [done|]. apply (nloc_same H GS path AX); [by left|done]. Qed.
  Lemma P_not_gone : ~ absent P.
  Proof.
    intros [-> E]. apply (loc_node_inj base) in E as [_ E]; [done|by right|by left|apply GS|done|done].
  Qed.
  Lemma l_node_key ok path' tr : plain path' -> pieces path' = pieces path ->
    lfol ok (fun s r => s = (Free, tr) /\ r = Ok (metadata_key ext sfx path')) (Free, tr) (p_node_key H path').
  Proof.
    intros P' X. unfold p_node_key. assert (is_node_ext AX) as IA by by left. assert (is_node_ext GX) as IG by by right.
    eapply follows_try; [apply l_exists; [done|by apply (nloc_plain H GS AX)]| |naive_solver|naive_solver].
    intros s a (-> & b & [= <-] & B1 & B2).
    destruct IE as [E|E].
    - rewrite B1; [cbn [follows]; split; [done|]; unfold akey, gkey, array_metadata_key, group_metadata_key; by rewrite <- E|]. unfold akey, gkey, array_metadata_key, group_metadata_key. rewrite <- E. by apply P_here.
    - rewrite B2 by (by apply AX_gone).
      eapply follows_try; [apply l_exists; [done|by apply (nloc_plain H GS GX)]| |naive_solver|naive_solver].
      intros s a' (-> & b & [= <-] & D1 & D2). rewrite D1; [cbn [follows]; split; [done|]; unfold akey, gkey, array_metadata_key, group_metadata_key; by rewrite <- E|]. unfold akey, gkey, array_metadata_key, group_metadata_key. rewrite <- E. by apply P_here.
  Qed.
  Lemma l_get_gone ok key rs tr : plain key -> absent (loc base key) ->
    lfol ok (fun s r => s = (Free, tr) /\ r = Ok None) (Free, tr) (p_get base key rs).
  Proof.
    intros PK G. unfold p_get. rewrite key_comps_plain by done. cbn [pres follows]. split; [by split|].
    intros b [st' tr'] [(E1 & _ & E3) E]. cbn [fst snd ev] in *. subst st' tr'. rewrite app_nil_r.
    by rewrite (E3 _ G eq_refl).
  Qed.

  Lemma l_list path' rs : plain path' -> pieces path' = pieces path ->
    lfol r_ok (fun s r => fst s = Free /\ exists x, snd s = [Saw x] /\ r = attrs_in x) (Free, []) (p_list_attributes H path' rs).
  Proof.
    intros P' X. unfold p_list_attributes.
    eapply follows_try; [by apply l_node_key| |naive_solver|naive_solver].
    intros s k (-> & [= ->]).
    eapply follows_try; [apply l_get; [|done|by apply (nloc_plain H GS ext)|by apply P_here]| |naive_solver|naive_solver].
    { intros c. split; [done|]. by exists c. }
    intros s x (c & -> & [= ->]). cbn [follows]. split; [done|]. exists c. done.
  Qed.
  Lemma l_meta path' rs : plain path' -> pieces path' = pieces path ->
    lfol r_ok (fun s r => fst s = Free /\ (ext = AX -> exists x, snd s = [Saw x] /\ r = meta_in x)) (Free, []) (p_get_array_metadata H path' rs).
  Proof.
    intros P' X. unfold p_get_array_metadata. assert (is_node_ext AX) as IA by by left.
    assert (ext = AX \/ ext = GX) as [E|E] by exact IE.
    - eapply follows_try; [apply l_get; [|done|by apply (nloc_plain H GS AX)|]| |naive_solver|naive_solver].
      { intros c. split; [done|]. by exists c. }
      { unfold akey, array_metadata_key. rewrite <- E. by apply P_here. }
      intros s x (c & -> & [= ->]). cbn [follows]. split; [done|]. intros _. exists c. done.
    - eapply follows_try; [apply l_get_gone; [by apply (nloc_plain H GS AX)|by apply AX_gone]| | |].
      + intros s x [-> [= ->]]. cbn [follows]. split; [done|]. rewrite E. done.
      + by intros s e [_ ?].
      + by intros s [_ ?].
  Qed.
  Lemma l_update path' u rs : plain path' -> pieces path' = pieces path ->
    lfol (u_ok u) (fun s r => fst s = Free /\ exists x,
        (snd s = [Saw x] \/ exists w, snd s = [Saw x; Put w]) /\
        forall d, from_text as_map x = Ok d -> r = Ok tt /\ (snd s = [Saw x] -> merge_doc d u = d))
      (Free, []) (p_set_attributes H sl path' u rs).
  Proof.
    intros P' X. unfold p_set_attributes.
    eapply follows_try; [by apply l_node_key| |naive_solver|naive_solver].
    intros s k (-> & [= ->]).
    eapply follows_try; [apply l_get; [|done|by apply (nloc_plain H GS ext)|by apply P_here]| |naive_solver|naive_solver].
    { intros c. left. split; [done|]. by exists c. }
    intros s x (c & -> & [= ->]). cbn [of_option pres app]. destruct (from_text as_map c) as [d|er|] eqn:D; cbn [pres].
    - cbv zeta. destruct (json_eqb (JObj (merge_doc d u)) (JObj d)) eqn:J.
      + cbn [follows]. split; [done|]. exists c. split; [by left|]. intros d' Q. rewrite D in Q. injection Q as <-. split; [done|]. intros _.
        apply json_eqb_true in J. by injection J.
      + eapply follows_weaken; [apply l_set; [by apply P_node_ne| |done|by apply (nloc_plain H GS ext)|by apply P_here|apply P_not_gone]|].
        * right. exists c, d. by rewrite SL.
        * intros s y [-> ->]. cbn [fst snd app]. split; [done|]. exists c. split; [right; by eexists|].
          intros d' _. split; [done|]. intros Q. by injection Q.
    - cbn [follows]. split; [done|]. exists c. split; [by left|]. intros d' Q. by rewrite D in Q.
    - cbn [follows]. split; [done|]. exists c. split; [by left|]. intros d' Q. by rewrite D in Q.
  Qed.
  Lemma l_reply {A} ok (f : A -> reply) (q : proc A) (F : sess * list event -> A -> Prop) (G : sess * list event -> reply -> Prop) s0 :
    lfol ok F s0 q -> (forall s a, F s a -> G s (f a)) -> lfol ok G s0 (map_reply f q).
  Proof. intros L I. eapply follows_bind; [exact L|]. intros s a X. cbn. by apply I. Qed.

  (** Calls that do not access the file. *)
  Lemma l_other (c : call) (q : proc reply) : okc c = saw_ok -> (forall s a, fst s = Free -> finc c s a) ->
    nfol any None q -> fol top free Free q -> lfol (okc c) (finc c) (Free, []) q.
  Proof.
    intros -> I N F. eapply follows_weaken; [by apply (lift_n P absent free q None Free [])|].
    intros s a [X _]. by apply I.
  Qed.
  Ltac fin_on := first [done | match goal with ON : forall e path', is_node_ext e -> _ |- _ =>
    first [by apply (ON AX) | by apply (ON GX)] end].
  Lemma call_logs c : c ∈ calls -> lfol (okc c) (finc c) (Free, []) (p_call C h H sl c).
  Proof.
    intros IN. pose proof (OK c IN) as K.
    assert (is_node_ext AX) as IA by by left. assert (is_node_ext GX) as IG by by right.
    assert (forall e path', is_node_ext e -> plain path' -> pieces path' <> pieces path -> elsewhere P absent H (metadata_key e sfx path')) as ON.
    { intros e path' E P' N. by apply (other_node H GS ext path IE PP (ext = GX)). }
    assert (forall path' m pos, loc base (get_chunk_key path' m pos) <> P /\ ~ absent (loc base (get_chunk_key path' m pos))) as OC.
    { intros path' m pos. by apply (chunk_other H GS ext path IE (ext = GX)). }
    destruct c; cbn [call_ok] in K; cbn [p_call].
    - unfold okc. case_decide as X.
      + eapply l_reply; [by apply l_meta|]. intros s r (E & Y). split; [done|]. intros _ EA.
        destruct (Y EA) as (x & ? & ->). by exists x.
      + replace saw_ok with (okc (KGetMetadata path0 rs)) by (unfold okc; by rewrite decide_False).
        apply l_other; [unfold okc; by rewrite decide_False|by split|by apply n_reply, n_get_array_metadata|].
        by apply free_reply, free_get_array_metadata.
    - unfold okc. case_decide as X.
      + eapply l_reply; [by apply l_list|]. intros s r (E & x & ? & ->). split; [done|]. intros _. by exists x.
      + replace saw_ok with (okc (KListAttributes path0 rs)) by (unfold okc; by rewrite decide_False).
        apply l_other; [unfold okc; by rewrite decide_False|by split|by apply n_reply, n_list_attributes|].
        by apply free_reply, free_list_attributes.
    - unfold okc. case_decide as X.
      + eapply l_reply; [by apply l_update|]. intros s r (E & x & Y & Z). split; [done|]. intros _. exists x.
        split; [done|]. intros d D. destruct (Z d D) as [-> ?]. done.
      + replace saw_ok with (okc (KSetAttributes path0 attrs rs)) by (unfold okc; by rewrite decide_False).
        apply l_other; [unfold okc; by rewrite decide_False|by split| |].
        * apply n_reply, n_set_attributes; fin_on.
        * apply free_reply, free_set_attributes; fin_on.
    - destruct (decide (pieces path0 = pieces path)) as [X|X].
      + eapply l_reply with (F := fun s _ => fst s = Free); [|by split]. unfold p_create_group.
        eapply follows_try; [apply l_exists; [done|by apply (nloc_plain H GS AX)]| |naive_solver|naive_solver].
        intros s a (-> & b & [= <-] & B1 & B2). destruct a; [done|].
        eapply follows_try; [apply l_exists; [done|by apply (nloc_plain H GS GX)]| |naive_solver|naive_solver].
        intros s g (-> & b & [= <-] & D1 & D2). destruct g; [done|]. exfalso. destruct IE as [E|E].
        * specialize (B1 ltac:(unfold akey, gkey, array_metadata_key, group_metadata_key; rewrite <- E; by apply P_here)). done.
        * specialize (D1 ltac:(unfold akey, gkey, array_metadata_key, group_metadata_key; rewrite <- E; by apply P_here)). done.
      + apply l_other; [done|by split| |].
        * apply n_reply, n_create_group; fin_on.
        * apply free_reply, free_create_group; fin_on.
    - destruct (decide (pieces path0 = pieces path)) as [X|X].
      + eapply l_reply with (F := fun s _ => fst s = Free); [|by split]. unfold p_create_array.
        eapply follows_try; [apply l_exists; [done|by apply (nloc_plain H GS GX)]| |naive_solver|naive_solver].
        intros s a (-> & b & [= <-] & B1 & B2). destruct a; [done|].
        eapply follows_try; [apply l_exists; [done|by apply (nloc_plain H GS AX)]| |naive_solver|naive_solver].
        intros s g (-> & b & [= <-] & D1 & D2). destruct g; [done|]. exfalso. destruct IE as [E|E].
        * specialize (D1 ltac:(unfold akey, gkey, array_metadata_key, group_metadata_key; rewrite <- E; by apply P_here)). done.
        * specialize (B1 ltac:(unfold akey, gkey, array_metadata_key, group_metadata_key; rewrite <- E; by apply P_here)). done.
      + apply l_other; [done|by split| |].
        * apply n_reply, n_create_array; fin_on.
        * apply free_reply, free_create_array; fin_on.
    - destruct K as (K1 & K2 & K3). apply l_other; [done|by split|apply n_reply, n_read_chunk|].
      apply free_reply, free_read_chunk; [done|done|apply K2|done].
    - destruct K as (K1 & K2 & K3). apply l_other; [done|by split| |].
      + apply n_reply, n_set; [done|apply plain_chunk_key; [done|apply K2|done]|apply OC].
      + apply free_reply, free_write_chunk; [done|done|apply K2|done|]. apply OC.
    - destruct K as (K1 & K2 & K3). apply l_other; [done|by split| |].
      + apply n_reply, n_erase; [done|apply plain_chunk_key; [done|apply K2|done]|apply OC].
      + apply free_reply, free_delete_chunk; [done|done|apply K2|done|]. intros _. apply OC.
    - destruct K as (K1 & K2). assert (pieces path0 <> pieces path) as X by (intros X; by apply (NR _ IN)).
      assert (~ (pieces base ++ B "data" :: B "root" :: pieces path0) `prefix_of` P) as NP.
      { intros [k Y]. destruct (nloc_meta H GS ext path IE) as [r E]. rewrite E, <- app_assoc in Y. by apply app_inv_head in Y. }
      apply l_other; [done|by split| |].
      + apply n_reply, n_remove; fin_on.
      + apply free_reply, free_remove; [done..|]. intros _. split_and!; [apply (ON GX); done|apply (ON AX); done|done].
    - apply l_other; [done|by split|apply n_reply, n_list_nodes|]. apply free_reply, free_list_nodes.
  Qed.
End Doc.

(** ** From records to moments *)
Section History.
  Context (path : bytes) (calls : list call) (UOK : updates_ok calls path) (doc old : jmap) (c0 : bytes).
  Context (D0 : from_text as_map c0 = Ok doc) (A0 : attrs_in c0 = Ok old).
  Local Notation okc := (okc path).
  Definition okn (i : nat) (tr : list event) (e : event) : Prop := match calls !! i with Some c => okc c tr e | None => False end.
  Local Notation right := (right_log okn c0).
  Local Notation val := (val c0).
  Local Notation old_f := (fun k => mget k old).

  Global Instance reads_attrs_dec c : Decision (reads_attrs c path).
  Proof. destruct c; cbn; apply _. Defined.
  Global Instance updates_attrs_dec c : Decision (updates_attrs c path).
  Proof. destruct c; cbn; apply _. Defined.

  Definition moment_of (x : nat * event) : option moment :=
    match calls !! fst x with
    | Some c => if decide (reads_attrs c path) then Some match snd x with Saw _ => Looks (fst x) | Put _ => Stores (fst x) end else None
    | None => None
    end.
  Definition moments (log : list (nat * event)) : list moment := omap moment_of log.
  Lemma moments_app l1 l2 : moments (l1 ++ l2) = moments l1 ++ moments l2.
  Proof. unfold moments. induction l1 as [|x l1 IH]; [done|]. cbn. destruct (moment_of x); cbn; by rewrite IH. Qed.

  Lemma right_prefix l1 l2 : right (l1 ++ l2) -> right l1.
  Proof. intros R k1 i e k2 ->. apply (R k1 i e (k2 ++ l2)). by rewrite <- app_assoc. Qed.
  Lemma right_snoc l i e : right (l ++ [(i, e)]) -> right l /\ okn i (own i l) e /\ forall c, e = Saw c -> c = val l.
  Proof. intros R. split; [by eapply right_prefix|]. by apply (R l i e []). Qed.

  (** Calls that store. *)
  Lemma put_updates i tr w : okn i tr (Put w) -> exists c u, calls !! i = Some c /\ updates_attrs c path /\ reads_attrs c path /\
    update_of calls i = u /\ requests calls path u /\ exists x d, tr = [Saw x] /\ from_text as_map x = Ok d /\ w = print (JObj (merge_doc d u)).
  Proof.
    unfold okn, update_of. destruct (calls !! i) as [c|] eqn:E; [|done]. pose proof (elem_of_list_lookup_2 _ _ _ E) as IN.
    assert (forall tr, ~ saw_ok tr (Put w)) as N1 by (intros ? [? ?]; done).
    assert (forall tr, ~ r_ok tr (Put w)) as N2 by (intros ? (_ & ? & ?); done).
    destruct c; cbn [ConcAttr.okc]; try (by intros X%N1); try (case_decide; [by intros X%N2|by intros X%N1]).
    case_decide as X; [|by intros Y%N1]. intros [Y%N2|(x & d & T & D & W)]; [done|]. injection W as ->.
    eexists _, attrs. split_and!; [done|done|done|done|by eexists _, _|by exists x, d].
  Qed.
  Lemma saw_reads i tr c x : calls !! i = Some c -> reads_attrs c path -> okn i tr (Saw x) -> tr = [].
  Proof.
    unfold okn. intros ->. destruct c; cbn [reads_attrs ConcAttr.okc]; try done; intros X; rewrite decide_True by done.
    - by intros [-> _].
    - by intros [-> _].
    - intros [[-> _]|(? & ? & ? & _ & ?)]; done.
  Qed.

  (** Documents. *)
  Definition good (x : bytes) : Prop :=
    exists us, Forall (requests calls path) us /\ from_text as_map x = Ok (foldl merge_doc doc us)
      /\ (x = c0 /\ us = [] \/ x = print (JObj (foldl merge_doc doc us))).
  Definition afun (x : bytes) : attr_fun := fun k => match attrs_in x with Ok a => mget k a | _ => None end.
  Lemma docs_ok us : Forall (requests calls path) us -> doc_ok (foldl merge_doc doc us).
  Proof. intros U. apply (merged_ok path calls UOK); [done|]. by eapply as_map_doc_ok. Qed.
  Lemma good_attrs x : good x -> exists a, attrs_in x = Ok a /\ attrs_after calls path old a.
  Proof.
    intros (us & U & D & _). rewrite (attrs_in_doc _ _ D). rewrite (attrs_in_doc _ _ D0) in A0.
    destruct (updated_attrs calls path UOK us U doc old (as_map_doc_ok _ _ D0) A0) as (a & ? & ? & _). by exists a.
  Qed.
  Lemma good_merge x d u : good x -> from_text as_map x = Ok d -> requests calls path u ->
    good (print (JObj (merge_doc d u))) /\
    (forall k, afun (print (JObj (merge_doc d u))) k = match mget k u with Some v => Some v | None => afun x k end) /\
    (merge_doc d u = d -> forall k v, mget k u = Some v -> afun x k = Some v).
  Proof.
    intros G D R. pose proof G as (us & U & D' & _). rewrite D in D'. injection D' as ->.
    assert (Forall (requests calls path) (us ++ [u])) as U' by (apply list.Forall_app; split; [done|by apply list.Forall_singleton]).
    pose proof (docs_ok _ U') as DK. rewrite foldl_snoc in DK. pose proof (doc_ok_reads _ DK) as RD.
    destruct (good_attrs x G) as (a & EA & _). pose proof EA as EA'. rewrite (attrs_in_doc _ _ D) in EA.
    destruct (UOK u R) as [V1 V2].
    destruct (merge_attrs _ u a (docs_ok _ U) V1 EA) as (new & E1 & _ & E2).
    split_and!.
    - exists (us ++ [u]). rewrite foldl_snoc. split_and!; [done|done|by right].
    - intros k. unfold afun. rewrite (attrs_in_doc _ _ RD), E1, EA'. apply E2.
    - intros EQ k v E. rewrite EQ, EA in E1. injection E1 as <-. unfold afun. rewrite EA'. rewrite E2. by rewrite E.
  Qed.

  Definition state (log : list (nat * event)) := foldl (at_moment calls) (fun _ => old_f, old_f) (moments log).
  Lemma state_snoc l x : state (l ++ [x]) = match moment_of x with Some y => at_moment calls (state l) y | None => state l end.
  Proof.
    unfold state. rewrite moments_app. unfold moments at 2. cbn [omap list_omap]. destruct (moment_of x); [by rewrite foldl_snoc|].
    by rewrite app_nil_r.
  Qed.
  Lemma val_snoc l i e : val (l ++ [(i, e)]) = match e with Put w => w | Saw _ => val l end.
  Proof. unfold ConcLog.val. by rewrite foldl_snoc. Qed.

  Lemma own_moments i l c : calls !! i = Some c -> reads_attrs c path ->
    (Looks i ∈ moments l <-> exists x, Saw x ∈ own i l) /\ (Stores i ∈ moments l <-> exists w, Put w ∈ own i l).
  Proof.
    intros E R. unfold moments. setoid_rewrite elem_of_list_omap. setoid_rewrite own_in. unfold moment_of. split; split.
    - intros ([j e] & I & M). cbn [fst snd] in M. destruct (calls !! j); [|done]. case_decide; [|done]. destruct e as [x|w]; [|done].
      injection M as ->. by exists x.
    - intros (x & I). exists (i, Saw x). split; [done|]. cbn [fst snd]. rewrite E. by rewrite decide_True.
    - intros ([j e] & I & M). cbn [fst snd] in M. destruct (calls !! j); [|done]. case_decide; [|done]. destruct e as [x|w]; [done|].
      injection M as ->. by exists w.
    - intros (x & I). exists (i, Put x). split; [done|]. cbn [fst snd]. rewrite E. by rewrite decide_True.
  Qed.
  Lemma moments_from x l : x ∈ moments l -> exists c, calls !! actor x = Some c /\ reads_attrs c path /\ exists e, (actor x, e) ∈ l /\ moment_of (actor x, e) = Some x.
  Proof.
    unfold moments. intros ([j e] & I & M)%elem_of_list_omap. pose proof M as M'. unfold moment_of in M. cbn [fst snd] in M.
    destruct (calls !! j) as [c|] eqn:E; [|done]. case_decide; [|done].
    assert (actor x = j) as -> by (injection M as <-; by destruct e). exists c. split_and!; [done|done|]. by exists e.
  Qed.

  Lemma log_facts log : right log ->
    good (val log) /\ (forall k, snd (state log) k = afun (val log) k) /\
    (forall i c x, calls !! i = Some c -> reads_attrs c path -> Saw x ∈ own i log -> good x /\ forall k, fst (state log) i k = afun x k) /\
    NoDup (moments log) /\
    (forall i, Stores i ∈ moments log -> earlier (moments log) (Looks i) (Stores i)).
  Proof.
    induction log as [|[i e] log IH] using rev_ind; intros R.
    { split_and!.
      - exists []. split_and!; [constructor|done|by left].
      - intros k. unfold afun. cbn [ConcLog.val foldl]. by rewrite A0.
      - intros i c x _ _ X. by apply elem_of_nil in X.
      - constructor.
      - intros i X. by apply elem_of_nil in X. }
    apply right_snoc in R as (R & OK & SV). destruct (IH R) as (G & S1 & S2 & ND & ST). clear IH.
    assert (own_new : forall j, own j (log ++ [(i, e)]) = own j log ++ if decide (j = i) then [e] else []).
    { intros j. rewrite own_app. f_equal. case_decide as X; [subst j; apply (own_same i [e])|by apply (own_other i j [e])]. }
    assert (earlier_app : forall l x (y z : moment), earlier l y z -> earlier (l ++ [x]) y z).
    { intros l x y z (l1 & l2 & l3 & ->). exists l1, l2, (l3 ++ [x]). by rewrite <- !app_assoc; cbn; rewrite <- !app_assoc. }
    rewrite val_snoc, state_snoc, moments_app. unfold moments at 2 4 6. cbn [omap list_omap].
    destruct (moment_of (i, e)) as [x|] eqn:M; unfold moment_of in M; cbn [fst snd] in M.
    - destruct (calls !! i) as [c|] eqn:E; [|done]. case_decide as RA; [|done]. injection M as <-. destruct e as [x|w].
      + pose proof (SV x eq_refl) as ->. pose proof (saw_reads i _ c _ E RA OK) as ON. cbn [at_moment fst snd]. split_and!; [done|done|..].
        * intros j d y Ej Rj. rewrite own_new. case_decide as X.
          -- subst j. rewrite ON. cbn [app]. intros Y%elem_of_list_singleton. by injection Y as ->.
          -- rewrite app_nil_r. by eapply S2.
        * apply list.NoDup_app. split_and!; [done| |apply list.NoDup_singleton]. intros y Y Z%elem_of_list_singleton. subst y.
          apply (own_moments i _ c E RA) in Y as [y Y]. rewrite ON in Y. by apply elem_of_nil in Y.
        * intros j [Y|Y]%elem_of_app; [by apply earlier_app, ST|]. by apply elem_of_list_singleton in Y.
      + destruct (put_updates i _ w OK) as (c' & u & E' & UA & _ & EU & RQ & x & d & T & D & ->).
        rewrite E in E'. injection E' as <-. destruct (S2 i c x E RA) as [GX SX]; [rewrite T; by left|].
        destruct (good_merge x d u GX D RQ) as (M1 & M2 & _). cbn [at_moment fst snd]. split_and!; [done|..].
        * intros k. rewrite M2, EU. destruct (mget k u); [done|]. apply SX.
        * intros j c' y Ej Rj. rewrite own_new. intros [Y|Y]%elem_of_app; [by eapply S2|].
          case_decide; [|by apply elem_of_nil in Y]. by apply elem_of_list_singleton in Y.
        * apply list.NoDup_app. split_and!; [done| |apply list.NoDup_singleton]. intros y Y Z%elem_of_list_singleton. subst y.
          apply (own_moments i _ c E RA) in Y as [y Y]. rewrite T in Y. by apply elem_of_list_singleton in Y.
        * intros j [Y|Y]%elem_of_app; [by apply earlier_app, ST|]. apply elem_of_list_singleton in Y. injection Y as ->.
          assert (Looks i ∈ moments log) as LI. { apply (own_moments i _ c E RA). exists x. rewrite T. by left. }
          apply elem_of_list_split in LI as (l1 & l2 & ->). exists l1, l2, []. by rewrite <- app_assoc.
    - assert (forall c, calls !! i = Some c -> ~ reads_attrs c path) as NI.
      { intros c E RA. rewrite E in M. by rewrite decide_True in M. }
      rewrite !app_nil_r. destruct e as [x|w].
      + split_and!; try done. intros j c y Ej Rj. rewrite own_new. case_decide as X; [|rewrite app_nil_r; by eapply S2].
        subst j. by destruct (NI c Ej).
      + destruct (put_updates i _ w OK) as (c & u & E & _ & RA & _). by destruct (NI c E).
  Qed.

  (** What a call that looks at the attributes finds. *)
  Lemma looked log i c x : right log -> calls !! i = Some c -> reads_attrs c path -> Saw x ∈ own i log ->
    good x /\ exists l1 l2, moments log = l1 ++ Looks i :: l2 /\ forall k, afun x k = replay calls l1 old_f k.
  Proof.
    intros R E RA I%own_in. apply elem_of_list_split in I as (g1 & g2 & ->).
    destruct (R g1 i (Saw x) g2 eq_refl) as [_ V]. rewrite (V x eq_refl).
    apply right_prefix in R as R1. destruct (log_facts g1 R1) as (G & S & _). split; [done|].
    exists (moments g1), (moments g2). rewrite moments_app. split.
    - f_equal. unfold moments. cbn [omap list_omap]. unfold moment_of at 1. cbn [fst snd]. rewrite E. by rewrite decide_True.
    - intros k. by rewrite <- S.
  Qed.
End History.

(** ** Executions *)
Lemma finished_split (C : codec) h H sl o calls sched o' ps i j s1 s2 o1 ps1 a :
  crun o (map (p_call C h H sl) calls) sched = Some (o', ps) -> sched = s1 ++ s2 ->
  crun o (map (p_call C h H sl) calls) s1 = Some (o1, ps1) -> returned ps1 i a -> j ∉ s1 -> i ∉ s2.
Proof.
  intros R -> R1 RT _. assert (forall s (o0 : os) ps0, crun o0 ps0 (s ++ s2) = Some (o', ps) ->
    forall o1 ps1, crun o0 ps0 s = Some (o1, ps1) -> crun o1 ps1 s2 = Some (o', ps)) as X.
  { clear. intros s. induction s as [|k s IH]; intros o0 ps0 E o1 ps1 E1; cbn in E, E1; [by injection E1 as <- <-|].
    destruct (ps0 !! k); [|done]. destruct (pstep o0 _) as [[o2 q2]|]; [|done]. by eapply IH. }
  eapply ret_stays; [by eapply X|exact RT].
Qed.

Definition attr_history (C : codec) (h : host) (H : hier) (sl : bytes -> list bytes) (o : os) (calls : list call) (path : bytes)
    (sched : list nat) (o' : os) (ps : list (proc reply)) (old : jmap) (ms : list moment) : Prop :=
  let seen l k := replay calls l (fun k => mget k old) k in
  NoDup ms
  /\ (forall i, Looks i ∈ ms -> exists c, calls !! i = Some c /\ reads_attrs c path)
  /\ (forall i, Stores i ∈ ms -> (exists c, calls !! i = Some c /\ updates_attrs c path) /\ earlier ms (Looks i) (Stores i))
  /\ (forall x y, x ∈ ms -> y ∈ ms -> finished_before C h H sl o calls sched (actor x) (actor y) -> earlier ms x y)
  /\ (forall i path' rs a, calls !! i = Some (KListAttributes path' rs) -> pieces path' = pieces path -> returned ps i a ->
        exists l1 l2 new, ms = l1 ++ Looks i :: l2 /\ a = YAttrs (Ok new) /\ forall k, mget k new = seen l1 k)
  /\ (forall m i path' rs a, get_array_metadata H (view o) path = Ok m ->
        calls !! i = Some (KGetMetadata path' rs) -> pieces path' = pieces path -> returned ps i a ->
        exists l1 l2 new, ms = l1 ++ Looks i :: l2 /\ a = YMeta (Ok (with_attrs m new)) /\ forall k, mget k new = seen l1 k)
  /\ (forall i path' u rs a, calls !! i = Some (KSetAttributes path' u rs) -> pieces path' = pieces path -> returned ps i a ->
        a = YUnit (Ok tt) /\ exists l1 l2, ms = l1 ++ Looks i :: l2 /\
          (Stores i ∈ l2 \/ Stores i ∉ ms /\ forall k v, mget k u = Some v -> seen l1 k = Some v))
  /\ (all_returned ps -> calm o' /\ exists new, list_attributes H (view o') path = Ok new /\ forall k, mget k new = seen ms k).

Lemma attr_order C h H sl path o calls : (forall b, concat (sl b) = b) ->
  plain (hy_base H) -> good_suffix (ep_suffix (hy_ep H)) -> plain path -> calm o -> wf_fs (view o) ->
  (forall c, c ∈ calls -> call_ok c) -> updates_ok calls path -> (forall c, c ∈ calls -> ~ removes_node c path) ->
  forall doc old, node_document H (view o) path = Ok doc -> list_attributes H (view o) path = Ok old ->
  forall sched o' ps, crun o (map (p_call C h H sl) calls) sched = Some (o', ps) ->
  exists ms, attr_history C h H sl o calls path sched o' ps old ms.
Proof.
  intros SL PB GS PP CO W OK UOK NR doc old ND LA sched o' ps EX.
  destruct (node_document_at H PB GS path PP _ _ W ND) as (ext & c0 & IE & F0 & D0 & XG).
  destruct (list_at H PB GS path PP _ _ _ W IE F0 XG) as [L0 _]. rewrite L0 in LA.
  assert (nloc H ext path <> []) as NE by by apply P_node_ne.
  set (gone := ConcMeta.gone H path (ext = GX)).
  set (fin := fun i (s : sess * list event) a => match calls !! i with Some c => finc ext path c s a | None => False end).
  assert (ginv (nloc H ext path) gone (okn path calls) fin c0 o (map (p_call C h H sl) calls) []) as G0.
  { apply ginv_start; [done..| |].
    - intros q [E ->]. by apply XG.
    - intros i q E. rewrite list_lookup_fmap in E. unfold fin, okn. destruct (calls !! i) as [c|] eqn:EC; [|done].
      injection E as <-. apply (call_logs C h H sl) with (calls := calls); try done. by eapply elem_of_list_lookup_2. }
  destruct (ginv_run _ NE _ _ _ _ sched _ _ _ _ _ G0 EX) as (log & G & _ & SP). cbn [app] in G, SP.
  assert (right_log (okn path calls) c0 log) as RL by (by destruct G as (? & ? & _ & _ & ? & _)).
  destruct (log_facts path calls UOK doc old c0 D0 LA log RL) as (GV & SV & S2 & NO & ST).
  assert (RET : forall i c a, calls !! i = Some c -> returned ps i a -> exists st, finc ext path c (st, own i log) a).
  { intros i c a E R. destruct (ginv_ret _ _ _ _ _ _ _ _ _ _ G R) as [st F]. unfold fin in F. rewrite E in F. by exists st. }
  exists (moments path calls log). split_and!.
  - done.
  - intros i (c & E & R & _)%moments_from. by exists c.
  - intros i I. split; [|by apply ST]. apply moments_from in I as (c & E & R & e & I & M). cbn [actor] in *.
    unfold moment_of in M. cbn [fst snd] in M. rewrite E, decide_True in M by done. destruct e as [|w]; [done|].
    apply elem_of_list_split in I as (g1 & g2 & ->). destruct (RL g1 i (Put w) g2 eq_refl) as [O _].
    destruct (put_updates _ _ _ _ _ O) as (c' & u & E' & U & _). by exists c'.
  - intros x y IX IY (s1 & s2 & o1 & ps1 & a & ES & R1 & RT & NJ).
    pose proof (finished_split _ _ _ _ _ _ _ _ _ _ _ _ _ _ _ _ EX ES R1 RT NJ) as NI.
    destruct (SP s1 s2 o1 ps1 ES R1) as (e1 & e2 & -> & _ & I1 & I2).
    rewrite moments_app in *.
    assert (x ∈ moments path calls e1) as X1.
    { apply elem_of_app in IX as [?|IX]; [done|]. apply moments_from in IX as (_ & _ & _ & e & I & _). by apply I2 in I. }
    assert (y ∈ moments path calls e2) as Y1.
    { apply elem_of_app in IY as [IY|?]; [|done]. apply moments_from in IY as (_ & _ & _ & e & I & _). by apply I1 in I. }
    apply elem_of_list_split in X1 as (x1 & x2 & ->). apply elem_of_list_split in Y1 as (y1 & y2 & ->).
    exists x1, (x2 ++ y1), y2. by rewrite <- !app_assoc.
  - intros i path' rs a E PE R. destruct (RET _ _ _ E R) as (st & _ & F). destruct (F PE) as (x & T & ->). cbn [snd] in T.
    destruct (looked path calls UOK doc old c0 D0 LA log i _ x RL E PE) as (GX' & l1 & l2 & EM & EA); [rewrite T; by left|].
    destruct (good_attrs path calls UOK doc old c0 D0 LA x GX') as (new & EN & _). exists l1, l2, new. rewrite EN. split_and!; [done|done|].
    intros k. rewrite <- EA. unfold afun. by rewrite EN.
  - intros m i path' rs a GM E PE R. destruct (RET _ _ _ E R) as (st & _ & F).
    assert (ext = AX) as EX'. { destruct IE as [?| ->]; [done|]. rewrite (meta_none H PB GS path PP) in GM; [done|done|by apply XG]. }
    destruct (F PE EX') as (x & T & ->). cbn [snd] in T.
    destruct (looked path calls UOK doc old c0 D0 LA log i _ x RL E PE) as (GX' & l1 & l2 & EM & EA); [rewrite T; by left|].
    destruct (good_attrs path calls UOK doc old c0 D0 LA x GX') as (new & EN & _). exists l1, l2, new. split_and!; [done| |].
    + subst ext. rewrite (meta_at H PB GS path PP _ _ W F0) in GM. unfold meta_in in GM.
      apply bind_ok_inv in GM as (m' & G1 & G2). apply bind_ok_inv in G2 as ([] & G2 & [= ->]).
      pose proof (meta_in_doc _ _ _ D0 G1) as DM. destruct GX' as (us & U & D & X). rewrite (attrs_in_doc _ _ D) in EN.
      pose proof (as_map_doc_ok _ _ D0) as DK.
      destruct (updated_meta calls path UOK us U doc m DK DM) as (new' & E1 & E2). assert (new' = new) as -> by congruence.
      do 2 f_equal. destruct X as [[-> ->]|Ec].
      * cbn [foldl] in E1. assert (with_attrs m new = m) as -> by congruence. unfold meta_in. by rewrite G1, bind_ok, G2.
      * assert (doc_ok (foldl merge_doc doc us)) as [[O1 O2] O3] by by apply (merged_ok path calls UOK).
        unfold meta_in. rewrite Ec, from_text_print, E1, bind_ok by done. cbn [with_attrs am_exts]. by rewrite G2.
    + intros k. rewrite <- EA. unfold afun. by rewrite EN.
  - intros i path' u rs a E PE R. destruct (RET _ _ _ E R) as (st & _ & F). destruct (F PE) as (x & T & FD). cbn [snd] in T, FD.
    assert (Saw x ∈ own i log) as SI. { destruct T as [->|[w ->]]; by left. }
    destruct (looked path calls UOK doc old c0 D0 LA log i _ x RL E PE SI) as (GX' & l1 & l2 & EM & EA).
    destruct (own_moments path calls i log _ E PE) as [_ OM].
    pose proof GX' as (us & _ & D & _). destruct (FD _ D) as [-> SM]. split; [done|]. exists l1, l2. split; [done|].
    destruct T as [T|[w T]].
    + right. split.
      * intros [w' Y]%OM. rewrite T in Y. by apply elem_of_list_singleton in Y.
      * intros k v Eu. rewrite <- EA. eapply (good_merge path calls UOK doc old c0 D0 LA x); [done|exact D| |by apply SM|done].
        exists path', rs. split; [by eapply elem_of_list_lookup_2|done].
    + left. assert (Stores i ∈ moments path calls log) as SI2. { apply OM. exists w. rewrite T. right. by left. }
      pose proof (ST i SI2) as (k1 & k2 & k3 & EK). rewrite EM in EK. rewrite EM in NO.
      assert (l1 = k1) as <-. { by eapply NoDup_split_unique. }
      apply app_inv_head in EK. injection EK as ->. apply elem_of_app. right. by left.
  - intros AR. assert (forall i s a, fin i s a -> fst s = Free) as FF.
    { intros i s a. unfold fin. destruct (calls !! i); [|done]. by intros [? _]. }
    destruct (ginv_done _ NE _ _ _ _ _ _ _ G FF) as (CA & W' & FV & GO); [exact AR|]. split; [done|].
    destruct (good_attrs path calls UOK doc old c0 D0 LA _ GV) as (new & EN & _). exists new. split.
    + destruct (list_at H PB GS path PP _ _ _ W' IE FV) as [-> _]; [|done]. intros E. apply GO. by split.
    + intros k. unfold replay. change (foldl _ _ _) with (state path calls old log). rewrite SV. unfold afun. by rewrite EN.
Qed.
