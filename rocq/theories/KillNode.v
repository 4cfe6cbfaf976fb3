(** Processes that die while others use the same node (C74). *)
From Verif Require Import BaseFacts PathFacts KeyFacts FSFacts Spec SpecMeta SpecHier HierFacts.
From Verif Require Import JsonFacts JsonPrefix MetaJsonFacts NodeFacts RefFacts OpsFacts.
From Verif Require Import Sys SpecConc SpecKill SysFacts SysOps CrashFacts CrashOps CrashMeta.
From Verif Require Import ConcFacts ConcOps ConcChunk ConcMeta ConcKeep ConcNode KillOps KillFacts.
Local Open Scope Z_scope.

Section Node.
  Context (C : codec) (h : host) (H : hier) (sl : bytes -> list bytes) (SL : forall b, concat (sl b) = b).
  Context (PB : plain (hy_base H)) (GS : good_suffix (ep_suffix (hy_ep H))).
  Context (path : bytes) (PP : plain path).
  Context (calls : list (call * option nat)).
  Context (OK : forall c, c ∈ map fst calls -> call_ok c) (UOK : updates_ok (map fst calls) path).
  Context (NR : forall c, c ∈ map fst calls -> ~ removes_node c path).
  Context (ext : bytes) (IE : is_node_ext ext) (c0 : bytes) (doc : jmap) (D0 : from_text as_map c0 = Ok doc).
  Local Notation base := (hy_base H).
  Local Notation sfx := (ep_suffix (hy_ep H)).
  Local Notation P := (nloc H ext path).
  Local Notation upd := (requests (map fst calls) path).
  Local Notation gone := (gone H path (ext = GX)).
  Local Notation torn := (updater_dies calls path).
  Local Notation dvals := (ConcMeta.dvals path (map fst calls) (fun c => c = c0)).

  Definition kdoc (c : bytes) : Prop :=
    dvals c \/ torn /\ exists us k, Forall upd us /\ c = take k (print (JObj (foldl merge_doc doc us))).
  (** With [b] the process may die anywhere. *)
  Definition mpre (b : bool) : forall T, sess -> sys T -> Prop :=
    if b then gpre P kdoc True gone else pre P kdoc True gone.
  Section Calls.
  Context (b : bool).
  Local Notation fol := (follows (mpre b) (nxt P kdoc True gone)).

  Lemma SOK : forall c, c = c0 -> exists d, from_text as_map c = Ok d.
  Proof. intros c ->. by exists doc. Qed.
  Lemma doc0_ok : doc_ok doc.
  Proof. by eapply as_map_doc_ok. Qed.
  Lemma dvals_shape c : dvals c -> exists us, Forall upd us /\ from_text as_map c = Ok (foldl merge_doc doc us)
    /\ (c = c0 /\ us = [] \/ c = print (JObj (foldl merge_doc doc us))).
  Proof.
    intros [->|(c1 & d & us & -> & D & U & ->)].
    - exists []. auto.
    - assert (d = doc) as -> by congruence. exists us. split_and!; [done| |by right].
      apply doc_ok_reads. apply (merged_ok path (map fst calls) UOK); [done|]. apply doc0_ok.
  Qed.
  Lemma dvals_upto d u us : Forall upd us -> d = foldl merge_doc doc us -> upd u -> torn ->
    upto kdoc [] (print (JObj (merge_doc d u))).
  Proof.
    intros U -> UU T k. right. split; [done|]. exists (us ++ [u]), k.
    split; [apply list.Forall_app; by repeat constructor|]. by rewrite foldl_app.
  Qed.
  Lemma kdoc_cases c : kdoc c -> dvals c \/ torn /\ forall A (dec : json -> res A), from_text dec c = Err InvalidData.
  Proof.
    intros [V|(T & us & k & U & ->)]; [by left|].
    assert (doc_ok (foldl merge_doc doc us)) as [[O1 O2] O3].
    { apply (merged_ok path (map fst calls) UOK); [done|]. apply doc0_ok. }
    destruct (decide (k < length (print (JObj (foldl merge_doc doc us))))%nat) as [L|L].
    - right. split; [done|]. intros A dec. apply cut_document; [done|done|done|done].
    - left. right. exists c0, doc, us. split_and!; [done..|]. rewrite take_ge; [done|lia].
  Qed.
  Lemma seen_kdoc c : seen kdoc True c -> kdoc c.
  Proof. intros [?|[[] _]]; done. Qed.

  Lemma m_exists e path' : is_node_ext e -> plain path' -> pieces path' = pieces path ->
    fol (fun st r => st = Free /\ exists x, r = Ok x /\ (e = ext -> x = true) /\ (ext = GX -> e = AX -> x = false))
      Free (p_exists base (metadata_key e sfx path')).
  Proof.
    intros E P' X. assert (nloc H e path' = nloc H e path) as Y by by apply (nloc_same H GS).
    assert (forall r, (Free = Free /\ exists x, r = Ok x /\ (True -> nloc H e path' = P -> x = true) /\ (gone (nloc H e path') -> x = false)) ->
      Free = Free /\ exists x, r = Ok x /\ (e = ext -> x = true) /\ (ext = GX -> e = AX -> x = false)) as Z.
    { intros r (_ & x & -> & B1 & B2). split; [done|]. exists x. split_and!; [done| |].
      - intros ->. by apply B1.
      - intros Q ->. apply B2. split; [done|]. done. }
    unfold mpre. destruct b.
    - eapply follows_weaken; [apply gfol_exists; [done|by apply nloc_plain|done]|]. intros st r (-> & W). by apply Z.
    - eapply follows_weaken; [apply fol_exists; [done|by apply nloc_plain]|]. intros st r (-> & W). by apply Z.
  Qed.
  Lemma m_get path' rs : plain path' -> pieces path' = pieces path ->
    fol (fun st r => st = Free /\ exists c, kdoc c /\ r = Ok (Some c)) Free (p_get base (metadata_key ext sfx path') rs).
  Proof.
    intros P' X. assert (nloc H ext path' = P) as Y by by apply (nloc_same H GS).
    assert (forall (r : res (option bytes)), (nloc H ext path' = P -> (exists c, seen kdoc True c /\ r = Ok (Some c)) \/ (~ True /\ (r = Ok None \/ exists e, r = Err e))) ->
      exists c, kdoc c /\ r = Ok (Some c)) as Z.
    { intros r W. destruct (W Y) as [(c & S%seen_kdoc & ->)|[[] _]]; [by exists c|done]. }
    unfold mpre. destruct b.
    - eapply follows_weaken; [apply gfol_get; [done|by apply nloc_plain]|]. intros st r (-> & _ & _ & W). split; [done|]. by apply Z.
    - eapply follows_weaken; [apply fol_get; [done|by apply nloc_plain]|]. intros st r (-> & _ & _ & W). split; [done|]. by apply Z.
  Qed.
  Lemma m_get_none path' rs : plain path' -> pieces path' = pieces path -> ext = GX ->
    fol (fun st r => st = Free /\ r = Ok None) Free (p_get base (metadata_key AX sfx path') rs).
  Proof.
    intros P' X EG. assert (nloc H AX path' = nloc H AX path) as Y by (apply (nloc_same H GS); [by left|done]).
    assert (gone (nloc H AX path')) as G by by split.
    unfold mpre. destruct b.
    - eapply follows_weaken; [apply gfol_get; [done|apply nloc_plain; [done|by left|done]]|]. intros st r (-> & _ & W & _). split; [done|]. by apply W.
    - eapply follows_weaken; [apply fol_get; [done|apply nloc_plain; [done|by left|done]]|]. intros st r (-> & _ & W & _). split; [done|]. by apply W.
  Qed.
  Lemma m_set path' text : plain path' -> pieces path' = pieces path ->
    (if b then upto kdoc [] text else kdoc text) ->
    fol (fun st r => st = Free /\ r = Ok tt) Free (p_set base (metadata_key ext sfx path') (sl text) (Ok tt)).
  Proof.
    intros P' X V. assert (nloc H ext path' = P) as Y by by apply (nloc_same H GS).
    assert (~ gone (loc base (metadata_key ext sfx path'))) as NG.
    { intros [EG Z]. apply loc_node_inj in Z as [_ Z]; [|done|by left|apply GS|done|done]. rewrite EG in Z. by apply AX_GX. }
    unfold mpre. destruct b.
    - eapply follows_weaken; [apply gfol_set; [done|by apply nloc_plain|by rewrite SL|done]|].
      intros st r (-> & [->|[N _]]); [done|]. by destruct N.
    - eapply follows_weaken; [apply fol_set; [done|by apply nloc_plain|by rewrite SL|done]|].
      intros st r (-> & [->|[N _]]); [done|]. by destruct N.
  Qed.

  Lemma m_node_key path' : plain path' -> pieces path' = pieces path ->
    fol (fun st r => st = Free /\ r = Ok (metadata_key ext sfx path')) Free (p_node_key H path').
  Proof.
    intros P' X. unfold p_node_key.
    eapply follows_try; [apply (m_exists AX); [by left|done|done]| |naive_solver|naive_solver].
    intros st a (-> & x & [= <-] & B1 & B2). destruct IE as [EA|EG].
    - rewrite B1 by done. cbn. by rewrite EA.
    - rewrite B2 by done.
      eapply follows_try; [apply (m_exists GX); [by right|done|done]| |naive_solver|naive_solver].
      intros st a' (-> & x & [= <-] & D1 & _). rewrite D1 by done. cbn. by rewrite EG.
  Qed.

  Lemma m_list path' rs : plain path' -> pieces path' = pieces path ->
    fol (fun st r => st = Free /\ exists c, kdoc c /\ r = attrs_in c) Free (p_list_attributes H path' rs).
  Proof.
    intros P' X. unfold p_list_attributes.
    eapply follows_try; [by apply m_node_key| |naive_solver|naive_solver].
    intros st k (-> & [= ->]).
    eapply follows_try; [by apply m_get| |naive_solver|naive_solver].
    intros st x (-> & c & V & [= ->]). cbn. split; [done|]. by exists c.
  Qed.
  Lemma m_metadata path' rs : plain path' -> pieces path' = pieces path ->
    fol (fun st r => st = Free /\ (ext = AX -> exists c, kdoc c /\ r = meta_in c)) Free (p_get_array_metadata H path' rs).
  Proof.
    intros P' X. unfold p_get_array_metadata. destruct IE as [EA|EG].
    - eapply follows_try with (P := fun st r => st = Free /\ exists c, kdoc c /\ r = Ok (Some c)); [| |naive_solver|naive_solver].
      { change (akey H path') with (metadata_key AX sfx path'). replace AX with ext by done. by apply m_get. }
      intros st x (-> & c & V & [= ->]). cbn. split; [done|]. intros _. by exists c.
    - eapply follows_try; [by apply m_get_none| |naive_solver|naive_solver].
      intros st x (-> & [= ->]). cbn. split; [done|]. intros EA. rewrite EG in EA. by destruct AX_GX.
  Qed.
  Lemma m_update path' u rs : plain path' -> pieces path' = pieces path -> upd u -> (b = true -> torn) ->
    fol (fun st r => st = Free /\ (r = Ok tt \/ torn /\ exists e, r = Err e)) Free (p_set_attributes H sl path' u rs).
  Proof.
    intros P' X U BT. unfold p_set_attributes.
    eapply follows_try; [by apply m_node_key| |naive_solver|naive_solver].
    intros st k (-> & [= ->]).
    eapply follows_try; [by apply m_get| |naive_solver|naive_solver].
    intros st x (-> & c & V & [= ->]). cbn [of_option pres].
    destruct (kdoc_cases c V) as [DV|[T E]].
    - destruct (dvals_shape c DV) as (us & US & D & _). rewrite D. cbn [pres]. cbv zeta.
      destruct (json_eqb _ _); [by cbn; auto|].
      eapply follows_weaken; [apply m_set; [done|done|]|].
      + destruct b eqn:EB.
        * eapply dvals_upto; [done|reflexivity|done|by apply BT].
        * left. eapply (dvals_merge path (map fst calls) _ UOK SOK c); done.
      + intros st r (-> & ->). auto.
    - rewrite E. cbn. split; [done|]. right. split; [done|]. by eexists.
  Qed.
  Lemma m_new_array path' m : plain path' -> pieces path' = pieces path ->
    fol (fun st r => st = Free /\ r = Err AlreadyExists) Free (p_create_array H sl path' m).
  Proof.
    intros P' X. unfold p_create_array.
    eapply follows_try; [apply (m_exists GX); [by right|done|done]| |naive_solver|naive_solver].
    intros st g (-> & x & [= <-] & B1 & _). destruct g; [done|].
    eapply follows_try; [apply (m_exists AX); [by left|done|done]| |naive_solver|naive_solver].
    intros st a (-> & x & [= <-] & D1 & _). destruct a; [done|].
    destruct IE as [Q|Q]; symmetry in Q; [discriminate (D1 Q)|discriminate (B1 Q)].
  Qed.
  Lemma m_new_group path' : plain path' -> pieces path' = pieces path ->
    fol (fun st r => st = Free /\ (ext = AX -> r = Err AlreadyExists) /\ (ext = GX -> r = Ok tt)) Free (p_create_group H sl path').
  Proof.
    intros P' X. unfold p_create_group.
    eapply follows_try; [apply (m_exists AX); [by left|done|done]| |naive_solver|naive_solver].
    intros st a (-> & x & [= <-] & B1 & B2). destruct a.
    { cbn. split_and!; [done..|]. intros Q. discriminate (B2 Q eq_refl). }
    destruct IE as [Q|Q]; [symmetry in Q; discriminate (B1 Q)|].
    eapply follows_try; [apply (m_exists GX); [by right|done|done]| |naive_solver|naive_solver].
    intros st g (-> & x & [= <-] & D1 & _). rewrite D1 by done. cbn. split_and!; [done| |done].
    intros EA. rewrite Q in EA. by destruct AX_GX.
  Qed.
  End Calls.

  Local Notation fol := (follows (pre P kdoc True gone) (nxt P kdoc True gone)).
  Local Notation gfol := (follows (gpre P kdoc True gone) (nxt P kdoc True gone)).
  Definition nfin (c : call) (st : sess) (a : reply) : Prop :=
    st = Free /\
    match c with
    | KListAttributes path' _ => pieces path' = pieces path -> exists c, kdoc c /\ a = YAttrs (attrs_in c)
    | KSetAttributes path' _ _ => pieces path' = pieces path -> a = YUnit (Ok tt) \/ torn /\ exists e, a = YUnit (Err e)
    | KGetMetadata path' _ => pieces path' = pieces path -> ext = AX -> exists c, kdoc c /\ a = YMeta (meta_in c)
    | KCreateArray path' _ => pieces path' = pieces path -> a = YUnit (Err AlreadyExists)
    | KCreateGroup path' => pieces path' = pieces path ->
        (ext = AX -> a = YUnit (Err AlreadyExists)) /\ (ext = GX -> a = YUnit (Ok tt))
    | _ => True
    end.
  Lemma nfin_free c q : (forall a, nfin c Free a) -> gfol free Free q -> gfol (nfin c) Free q.
  Proof. intros D F. eapply follows_weaken; [exact F|]. by intros st a ->. Qed.
  Lemma same_or path' : pieces path' = pieces path \/ pieces path' <> pieces path.
  Proof. destruct (decide (pieces path' = pieces path)); auto. Qed.
  Lemma calm_good c : c ∈ map fst calls -> ~ sets_attributes c path -> gfol (nfin c) Free (p_call C h H sl c).
  Proof.
    intros IN NS. pose proof (OK c IN) as K.
    assert (is_node_ext AX) as IA by by left. assert (is_node_ext GX) as IG by by right.
    destruct c; cbn [call_ok] in K; cbn [p_call].
    - destruct (same_or path0) as [X|X].
      + eapply follows_bind; [by apply (m_metadata true)|]. intros st r (-> & Y). cbn. split; [done|]. intros _ EA.
        destruct (Y EA) as (c & V & ->). by exists c.
      + apply nfin_free; [done|]. by apply gfree_reply, gfree_get_array_metadata.
    - destruct (same_or path0) as [X|X].
      + eapply follows_bind; [by apply (m_list true)|]. intros st r (-> & c & V & ->). cbn. split; [done|]. intros _. by exists c.
      + apply nfin_free; [done|]. by apply gfree_reply, gfree_list_attributes.
    - destruct (same_or path0) as [X|X]; [destruct NS; exact X|].
      apply nfin_free; [done|]. apply gfree_reply, gfree_set_attributes; [done..| |]; by apply other_node.
    - destruct (same_or path0) as [X|X].
      + eapply follows_bind; [by apply (m_new_group true)|]. intros st r (-> & Y1 & Y2). cbn. split; [done|]. intros _.
        split; intros Q; [by rewrite Y1|by rewrite Y2].
      + apply nfin_free; [done|]. apply gfree_reply, gfree_create_group; [done..|]; by apply other_node.
    - destruct (same_or path0) as [X|X].
      + eapply follows_bind; [by apply (m_new_array true)|]. intros st r (-> & ->). cbn. done.
      + apply nfin_free; [done|]. apply gfree_reply, gfree_create_array; [done..|]; by apply other_node.
    - destruct K as (K1 & K2 & K3). apply nfin_free; [done|]. apply gfree_reply, gfree_read_chunk; [done|done|apply K2|done].
    - destruct K as (K1 & K2 & K3). apply nfin_free; [done|].
      apply gfree_reply, gfree_write_chunk; [done|done|apply K2|done|]. by apply chunk_other.
    - destruct K as (K1 & K2 & K3). apply nfin_free; [done|].
      apply gfree_reply, gfree_delete_chunk; [done|done|apply K2|done|]. intros _. by apply (chunk_other H GS ext path IE True).
    - destruct K as (K1 & K2). apply nfin_free; [done|]. apply gfree_reply, gfree_remove; [done..|].
      intros _. assert (pieces path0 <> pieces path) as X by (intros X; by apply (NR _ IN)). split_and!.
      + by apply (other_node H GS ext path IE PP True GX).
      + by apply (other_node H GS ext path IE PP True AX).
      + intros [k Y]. destruct (nloc_meta H GS ext path IE) as [r E]. rewrite E, <- app_assoc in Y.
        by apply app_inv_head in Y.
    - apply nfin_free; [done|]. apply gfree_reply, gfree_list_nodes.
  Qed.
  Lemma sets_dec c : sets_attributes c path \/ ~ sets_attributes c path.
  Proof. destruct c; cbn; try tauto. apply same_or. Qed.
  Lemma node_follows c f : (c, f) ∈ calls -> fol (kfin (nfin c)) Free (mortal f (p_call C h H sl c)).
  Proof.
    intros I. pose proof (in_calls calls _ _ I) as IN. destruct (sets_dec c) as [SA|NS].
    - destruct c as [| |path' u rs| | | | | | |]; try done. cbn in SA. pose proof (OK _ IN) as K. cbn in K.
      assert (upd u) as U by by exists path', rs.
      assert (forall b, (b = true -> torn) -> follows (mpre b) (nxt P kdoc True gone) (nfin (KSetAttributes path' u rs)) Free
        (p_call C h H sl (KSetAttributes path' u rs))) as X.
      { intros b BT. cbn [p_call]. eapply follows_bind; [by apply (m_update b)|]. intros st r (-> & Y). cbn. split; [done|].
        intros _. destruct Y as [->|(T & e & ->)]; [by left|]. right. split; [done|]. by exists e. }
      destruct f as [n|].
      + apply fol_dies. apply (X true). intros _. exists path', u, rs, n. split; [exact I|exact SA].
      + apply fol_lives. apply (X false). intros Q. discriminate Q.
    - pose proof (calm_good c IN NS) as F. destruct f as [n|]; [apply fol_dies; exact F|]. apply fol_lives, gfol_fol. exact F.
  Qed.

  Context (o : os) (CO : calm o) (W : wf_fs (view o)).
  Context (F0 : file_at (view o) P = Some c0) (XG : ext = GX -> file_at (view o) (nloc H AX path) = None).
  Context (o' : os) (ps : list (proc (option reply))) (RUN : survives C h H sl o calls o' ps).
  Lemma node_interleave :
    (forall i c f a, calls !! i = Some (c, f) -> replied ps i a -> exists st, nfin c st a) /\
    wf_fs (view o') /\
    (all_returned ps -> calm o' /\ (exists c, kdoc c /\ file_at (view o') P = Some c) /\
       (ext = GX -> file_at (view o') (nloc H AX path) = None)).
  Proof.
    pose proof (interleave P kdoc True gone (P_node_ne H GS ext path IE)
      (fun i st a => exists c f, calls !! i = Some (c, f) /\ kfin (nfin c) st a) o
      (map (fun cf : call * option nat => mortal cf.2 (p_call C h H sl cf.1)) calls) o' ps) as X.
    destruct X as (X1 & X2 & X3); [done|done| |intros _; by exists c0|by intros q [XC ->]; apply XG| |exact RUN|].
    - intros c E. left. left. congruence.
    - intros i q E. rewrite list_lookup_fmap in E. destruct (calls !! i) as [[c f]|] eqn:EC; [|done].
      injection E as <-. eapply follows_weaken; [apply node_follows; by eapply elem_of_list_lookup_2|].
      cbn. intros st a F. by exists c, f.
    - split_and!; [|done|].
      + intros i c f a E R. destruct (X1 i (Some a) R) as (st & c' & f' & E' & F). exists st.
        rewrite E in E'. by injection E' as <- <-.
      + intros AR. destruct X3 as (Y1 & Y2 & Y3 & Y4); [|done|].
        * intros i st [a|] (c & f & _ & F); [by destruct F|done].
        * split_and!; [done| |by intros Q; apply Y4]. destruct (Y3 I) as [c E]. exists c. split; [by apply Y2|done].
  Qed.
End Node.

Section Results.
  Context (C : codec) (h : host) (H : hier) (sl : bytes -> list bytes) (SL : forall b, concat (sl b) = b).
  Context (PB : plain (hy_base H)) (GS : good_suffix (ep_suffix (hy_ep H))).
  Context (path : bytes) (PP : plain path).
  Context (calls : list (call * option nat)).
  Context (OK : forall c, c ∈ map fst calls -> call_ok c) (UOK : updates_ok (map fst calls) path).
  Context (o : os) (CO : calm o) (W : wf_fs (view o)).
  Context (o' : os) (ps : list (proc (option reply))) (RUN : survives C h H sl o calls o' ps).
  Local Notation torn := (updater_dies calls path).
  Local Notation after := (attrs_after (map fst calls) path).

  Lemma k_node : forall doc old,
    node_document H (view o) path = Ok doc -> list_attributes H (view o) path = Ok old ->
    (forall c, c ∈ map fst calls -> ~ removes_node c path) ->
    (forall i path' rs f a, calls !! i = Some (KListAttributes path' rs, f) -> pieces path' = pieces path ->
       replied ps i a ->
       (exists new, a = YAttrs (Ok new) /\ after old new) \/ torn /\ exists e, a = YAttrs (Err e)) /\
    (forall i path' u rs f a, calls !! i = Some (KSetAttributes path' u rs, f) -> pieces path' = pieces path ->
       replied ps i a -> a = YUnit (Ok tt) \/ torn /\ exists e, a = YUnit (Err e)) /\
    (forall m i path' rs f a, get_array_metadata H (view o) path = Ok m ->
       calls !! i = Some (KGetMetadata path' rs, f) -> pieces path' = pieces path -> replied ps i a ->
       (exists new, a = YMeta (Ok (with_attrs m new)) /\ after old new) \/ torn /\ exists e, a = YMeta (Err e)) /\
    (forall i path' m f a, calls !! i = Some (KCreateArray path' m, f) -> pieces path' = pieces path ->
       replied ps i a -> a = YUnit (Err AlreadyExists)) /\
    (forall i path' f a, calls !! i = Some (KCreateGroup path', f) -> pieces path' = pieces path -> replied ps i a ->
       (explicit_array H (view o) path -> a = YUnit (Err AlreadyExists)) /\
       (~ explicit_array H (view o) path -> a = YUnit (Ok tt))) /\
    (all_returned ps -> calm o' /\ wf_fs (view o') /\
       (explicit_array H (view o') path <-> explicit_array H (view o) path) /\
       ((exists doc' new, node_document H (view o') path = Ok doc' /\
           list_attributes H (view o') path = Ok new /\ after old new /\
           (forall k, k <> ATTRIBUTES_NAME -> mget k doc' = mget k doc) /\
           forall m, get_array_metadata H (view o) path = Ok m ->
             get_array_metadata H (view o') path = Ok (with_attrs m new)) \/
        torn /\ (exists e, list_attributes H (view o') path = Err e) /\
          exists e, get_array_metadata H (view o') path = Err e)).
  Proof.
    intros doc old ND LA NR. destruct (node_document_at H PB GS path PP _ _ W ND) as (ext & c0 & IE & F0 & D0 & XG).
    destruct (list_at H PB GS path PP _ _ _ W IE F0 XG) as [L0 _]. rewrite (attrs_in_doc _ _ D0) in L0. rewrite L0 in LA.
    pose proof (as_map_doc_ok _ _ D0) as DK.
    pose proof (dvals_shape path calls UOK c0 doc D0) as SH.
    pose proof (kdoc_cases sl SL path calls UOK c0 doc D0) as KC.
    set (dvals := ConcMeta.dvals path (map fst calls) (fun c => c = c0)) in *.
    assert (DA : forall c, dvals c -> exists new, attrs_in c = Ok new /\ after old new).
    { intros c V. destruct (SH c V) as (us & U & D & _). rewrite (attrs_in_doc _ _ D).
      destruct (updated_attrs (map fst calls) path UOK us U doc old DK LA) as (new & E1 & E2 & _). by exists new. }
    assert (DM : forall c m, ext = AX -> dvals c -> get_array_metadata H (view o) path = Ok m ->
      exists new, meta_in c = Ok (with_attrs m new) /\ attrs_in c = Ok new).
    { intros c m EA V G. subst ext. rewrite (meta_at H PB GS path PP _ _ W F0) in G. unfold meta_in in G.
      apply bind_ok_inv in G as (m' & G1 & G2). apply bind_ok_inv in G2 as ([] & G2 & [= ->]).
      pose proof (meta_in_doc _ _ _ D0 G1) as DM.
      destruct (SH c V) as (us & U & D & X). rewrite (attrs_in_doc _ _ D).
      destruct (updated_meta (map fst calls) path UOK us U doc m DK DM) as (new & E1 & E2). exists new. split; [|done].
      destruct X as [[-> ->]|Ec].
      - cbn [foldl] in E1. assert (with_attrs m new = m) as -> by congruence. unfold meta_in.
        by rewrite G1, bind_ok, G2.
      - assert (doc_ok (foldl merge_doc doc us)) as [[O1 O2] O3] by by apply (merged_ok path (map fst calls) UOK).
        unfold meta_in. rewrite Ec, from_text_print, E1, bind_ok by done. cbn [with_attrs am_exts]. by rewrite G2. }
    assert (GA : forall m, get_array_metadata H (view o) path = Ok m -> ext = AX).
    { intros m G. destruct IE as [->| ->]; [done|]. rewrite (meta_none H PB GS path PP) in G; [done|done|by apply XG]. }
    assert (EXA : explicit_array H (view o) path <-> ext = AX).
    { rewrite explicit_a by done. destruct IE as [->| ->]; [by rewrite F0|]. rewrite XG by done. split; done. }
    destruct (node_interleave C h H sl SL PB GS path PP calls OK UOK NR ext IE c0 doc D0 o CO W F0 XG o' ps RUN)
      as (X1 & X2 & X3).
    split_and!.
    - intros i path' rs f a E PE R. destruct (X1 i _ _ a E R) as (st & _ & F). cbn in F.
      destruct (F PE) as (c & V & ->). destruct (KC c V) as [DV|[T Z]].
      + left. destruct (DA c DV) as (new & -> & ?). by exists new.
      + right. split; [done|]. unfold attrs_in. rewrite Z. by eexists.
    - intros i path' u rs f a E PE R. destruct (X1 i _ _ a E R) as (st & _ & F). cbn in F. by apply F.
    - intros m i path' rs f a G E PE R. destruct (X1 i _ _ a E R) as (st & _ & F). cbn in F.
      pose proof (GA m G) as EA. destruct (F PE EA) as (c & V & ->). destruct (KC c V) as [DV|[T Z]].
      + left. destruct (DM c m EA DV G) as (new & -> & A1). destruct (DA c DV) as (new' & A2 & ?). exists new.
        split; [done|]. congruence.
      + right. split; [done|]. unfold meta_in. rewrite Z. by eexists.
    - intros i path' m f a E PE R. destruct (X1 i _ _ a E R) as (st & _ & F). cbn in F. by apply F.
    - intros i path' f a E PE R. destruct (X1 i _ _ a E R) as (st & _ & F). cbn in F.
      destruct (F PE) as [Y1 Y2]. rewrite EXA. split; [done|].
      intros NA. destruct IE as [?|EG]; [done|]. by apply Y2.
    - intros AR. destruct (X3 AR) as (Y1 & (c & V & F) & Y4). split_and!; [done|done| |].
      { rewrite EXA, explicit_a by done. destruct IE as [->| ->]; [by rewrite F|]. rewrite Y4 by done. split; done. }
      destruct (list_at H PB GS path PP _ _ _ X2 IE F Y4) as [L1 N1]. destruct (KC c V) as [DV|[T Z]].
      + left. destruct (DA c DV) as (new & E1 & E2).
        destruct (SH c DV) as (us & U & D & _). exists (foldl merge_doc doc us), new. split_and!.
        * by rewrite N1.
        * by rewrite L1.
        * done.
        * intros k N. by apply (updated_other (map fst calls) path UOK).
        * intros m G. pose proof (GA m G) as EA. destruct (DM c m EA DV G) as (new' & M1 & M2). subst ext.
          rewrite (meta_at H PB GS path PP _ _ X2 F). congruence.
      + right. split; [done|]. split.
        * rewrite L1. unfold attrs_in. rewrite Z. by eexists.
        * destruct IE as [EA|EG].
          -- subst ext. rewrite (meta_at H PB GS path PP _ _ X2 F). unfold meta_in. rewrite Z. by eexists.
          -- rewrite (meta_none H PB GS path PP); [by eexists|done|by apply Y4].
  Qed.
End Results.
