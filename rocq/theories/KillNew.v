(** Processes that die while others create the same array (C74). *)
From Verif Require Import BaseFacts PathFacts KeyFacts FSFacts Spec SpecMeta SpecHier HierFacts.
From Verif Require Import JsonFacts JsonPrefix MetaJsonFacts NodeFacts RefFacts OpsFacts.
From Verif Require Import Sys SpecConc SpecKill SysFacts SysOps CrashFacts CrashOps CrashMeta.
From Verif Require Import ConcFacts ConcOps ConcChunk ConcMeta ConcKeep ConcNode KillOps KillFacts.
Local Open Scope Z_scope.

(** ** Files that no process removes stay *)

Section Keep.
  Context (p : fpath) (NE : p <> []).
  Local Notation fol := (follows (hpre p) (hnxt p)).
  Definition hkfin {A} (fin : bool -> A -> Prop) (st : bool) (r : option A) : Prop :=
    match r with Some a => fin st a | None => True end.
  Lemma h_reaped {A} (fin : bool -> A -> Prop) own : forall st, fol (hkfin fin) st (reaped own).
  Proof. induction own as [|fd own IH]; intros st; cbn; [done|]. split; [done|]. intros _ st' ->. apply IH. Qed.
  Lemma h_dies {A} (fin : bool -> A -> Prop) (q : proc A) : forall own n st, fol fin st q ->
    fol (hkfin fin) st (dies own n q).
  Proof.
    induction q as [a|T c k IH]; intros own n st F; cbn in F |- *; [done|]. destruct F as [P N].
    destruct n as [|n]; [apply h_reaped|]. cbn. split; [done|]. intros x st' X. apply IH. by apply N.
  Qed.
  Lemma h_mortal {A} (fin : bool -> A -> Prop) f (q : proc A) st : fol fin st q -> fol (hkfin fin) st (mortal f q).
  Proof.
    intros F. destruct f as [n|]; [by apply h_dies|]. cbn. eapply follows_bind; [exact F|]. by intros st' a X.
  Qed.
  Context (C : codec) (h : host) (H : hier) (sl : bytes -> list bytes).
  Context (PB : plain (hy_base H)) (GS : good_suffix (ep_suffix (hy_ep H))).
  Local Notation base := (hy_base H).
  Lemma kept_mortal o (calls : list (call * option nat)) o' ps : (forall c, c ∈ map fst calls -> call_ok c) ->
    (forall path m pos, KDeleteChunk path m pos ∈ map fst calls -> loc base (get_chunk_key path m pos) <> p) ->
    (forall path ord fuel, KRemove path ord fuel ∈ map fst calls -> loc base (gkey H path) <> p /\ loc base (akey H path) <> p
       /\ ~ (pieces base ++ B "data" :: B "root" :: pieces path) `prefix_of` p) ->
    survives C h H sl o calls o' ps ->
    forall i c f, calls !! i = Some (c, f) -> replied ps i (YUnit (Ok tt)) -> makes p H c ->
      exists x, file_at (view o') p = Some x.
  Proof.
    intros OK D DR X. assert (has p o' -> exists x, file_at (view o') p = Some x) as V.
    { intros [j E]. unfold file_at. rewrite (view_of_tree o' p j) by done. by eexists. }
    destruct (csteps_has p NE (fun i st a => forall c f, calls !! i = Some (c, f) -> hkfin (hfin p H c) st a) _ _ X (fun _ => false)) as (sts & [I F] & M).
    - split; [done|]. cbn [snd]. intros i q E. rewrite list_lookup_fmap in E.
      destruct (calls !! i) as [[c f]|] eqn:EC; [|done]. injection E as <-.
      apply elem_of_list_lookup_2 in EC. pose proof (in_calls calls _ _ EC) as IN.
      eapply follows_weaken; [apply h_mortal, h_call|].
      + done.
      + done.
      + done.
      + by apply OK.
      + intros path m pos ->. by eapply D.
      + intros path ord fuel ->. by eapply DR.
      + intros st a Y c' f' [= <- <-]. done.
    - cbn [fst snd] in *. intros i c f E R MK. apply V, (I i). pose proof (F i _ R c f E) as Y. cbn in Y. by apply Y.
  Qed.
End Keep.

(** ** A new array *)

Section New.
  Context (C : codec) (h : host) (H : hier) (sl : bytes -> list bytes) (SL : forall b, concat (sl b) = b).
  Context (PB : plain (hy_base H)) (GS : good_suffix (ep_suffix (hy_ep H))).
  Context (path : bytes) (PP : plain path).
  Context (calls : list (call * option nat)).
  Context (OK : forall c, c ∈ map fst calls -> call_ok c) (UOK : updates_ok (map fst calls) path).
  Context (RD : forall path' m, KCreateArray path' m ∈ map fst calls -> pieces path' = pieces path -> readable m).
  Local Notation base := (hy_base H).
  Local Notation sfx := (ep_suffix (hy_ep H)).
  Local Notation P := (nloc H AX path).
  Local Notation upd := (requests (map fst calls) path).
  Local Notation gone := (gone H path False).
  Local Notation torn := (array_writer_dies calls path).
  Definition Start (c : bytes) : Prop :=
    exists path' m, KCreateArray path' m ∈ map fst calls /\ pieces path' = pieces path /\ c = print (enc_meta m).
  Local Notation dvals := (ConcMeta.dvals path (map fst calls) Start).
  Definition kdoc (c : bytes) : Prop :=
    dvals c \/ torn /\ exists v k, json_ok v = true /\ (jdepth v <= 127)%nat /\ is_num v = false /\
      dvals (print v) /\ c = take k (print v).
  Lemma Start_doc c : Start c -> exists d, from_text as_map c = Ok d.
  Proof. intros (path' & m & I & PE & ->). destruct (enc_meta_doc m (RD _ _ I PE)) as (d & _ & D & _). by exists d. Qed.
  Lemma kdoc_cases c : kdoc c -> dvals c \/ torn /\ forall A (dec : json -> res A), from_text dec c = Err InvalidData.
  Proof.
    intros [V|(T & v & k & J & D & N & V & ->)]; [by left|].
    destruct (decide (k < length (print v))%nat) as [L|L].
    - right. split; [done|]. intros A dec. by apply cut_document.
    - left. rewrite take_ge; [done|lia].
  Qed.
  Lemma kdoc_upto v : json_ok v = true -> (jdepth v <= 127)%nat -> is_num v = false -> dvals (print v) -> torn ->
    upto kdoc [] (print v).
  Proof. intros J D N V T k. right. split; [done|]. by exists v, k. Qed.

  (** With [b] the process may die anywhere. *)
  Definition npre (b : bool) : forall T, sess -> sys T -> Prop :=
    if b then gpre P kdoc False gone else pre P kdoc False gone.
  Local Notation gfol := (follows (gpre P kdoc False gone) (nxt P kdoc False gone)).
  Section Calls.
  Context (b : bool).
  Local Notation fol := (follows (npre b) (nxt P kdoc False gone)).

  Lemma g_any {A} (fin : sess -> A -> Prop) st q : gfol fin st q -> fol fin st q.
  Proof. unfold npre. destruct b; [done|]. apply gfol_fol. Qed.
  Lemma n_exists e path' : is_node_ext e -> plain path' ->
    fol (fun st r => st = Free /\ exists x, r = Ok x) Free (p_exists base (metadata_key e sfx path')).
  Proof.
    intros E P'. apply g_any. eapply follows_weaken; [apply gfol_exists; [done|by apply nloc_plain|done]|].
    intros st r (-> & x & -> & _). split; [done|]. by exists x.
  Qed.
  Lemma n_get e path' rs : is_node_ext e -> plain path' -> pieces path' = pieces path ->
    fol (fun st r => st = Free /\ r <> Panic /\
           (e = AX -> (exists c, (kdoc c \/ c = []) /\ r = Ok (Some c)) \/ r = Ok None \/ exists e, r = Err e))
      Free (p_get base (metadata_key e sfx path') rs).
  Proof.
    intros E P' X. apply g_any. eapply follows_weaken; [apply gfol_get; [done|by apply nloc_plain]|].
    intros st r (-> & N & _ & Y). split; [done|]. split; [done|]. intros ->.
    destruct Y as [(c & S & ->)|[_ Y]]; [by apply (nloc_same H GS)| |by right].
    left. exists c. split; [|done]. destruct S as [|[_ ->]]; [by left|by right].
  Qed.
  Lemma n_set path' text : plain path' -> pieces path' = pieces path ->
    (if b then upto kdoc [] text else kdoc text) ->
    fol (fun st r => st = Free) Free (p_set base (metadata_key AX sfx path') (sl text) (Ok tt)).
  Proof.
    intros P' X V. assert (is_node_ext AX) as IA by by left.
    unfold npre. destruct b.
    - eapply follows_weaken; [apply gfol_set; [done|by apply nloc_plain|by rewrite SL|by intros [[] _]]|].
      by intros st r (-> & _).
    - eapply follows_weaken; [apply fol_set; [done|by apply nloc_plain|by rewrite SL|by intros [[] _]]|].
      by intros st r (-> & _).
  Qed.
  Lemma n_node_key path' : plain path' ->
    fol (fun st r => st = Free /\ r <> Panic /\
           (forall k, r = Ok k -> exists e, is_node_ext e /\ k = metadata_key e sfx path'))
      Free (p_node_key H path').
  Proof.
    intros P'. unfold p_node_key.
    eapply follows_try; [apply (n_exists AX); [by left|done]| |naive_solver|naive_solver].
    intros st a (-> & _). destruct a.
    - cbn. split; [done|]. split; [done|]. intros k [= <-]. exists AX. split; [by left|done].
    - eapply follows_try; [apply (n_exists GX); [by right|done]| |naive_solver|naive_solver].
      intros st x (-> & _). destruct x; cbn; (split; [done|]; split; [done|]; intros k [= <-]).
      exists GX. split; [by right|done].
  Qed.
  Lemma n_metadata path' rs : plain path' -> pieces path' = pieces path ->
    fol (fun st r => st = Free /\ ((exists c, dvals c /\ r = meta_in c) \/ exists e, r = Err e))
      Free (p_get_array_metadata H path' rs).
  Proof.
    intros P' X. unfold p_get_array_metadata.
    eapply follows_try; [apply (n_get AX); [by left|done|done]| | |].
    - intros st x (-> & _ & Y). cbn. split; [done|].
      destruct (Y eq_refl) as [(c & S & [= ->])|[[= ->]|[? ?]]]; [|right; by eexists|done].
      destruct S as [V| ->]; [|right; by eexists]. destruct (kdoc_cases c V) as [D|[_ Z]]; [left; by exists c|].
      right. cbn. rewrite Z. by eexists.
    - intros st e (-> & _ & _). split; [done|]. right. by exists e.
    - by intros st (-> & ? & _).
  Qed.
  Lemma n_update path' u rs : plain path' -> pieces path' = pieces path -> upd u -> (b = true -> torn) ->
    fol (fun st r => st = Free) Free (p_set_attributes H sl path' u rs).
  Proof.
    intros P' X U BT. unfold p_set_attributes.
    eapply follows_try; [by apply n_node_key| |naive_solver|naive_solver].
    intros st k (-> & _ & K). destruct (K k eq_refl) as (e & E & ->).
    eapply follows_try; [by apply n_get| |naive_solver|naive_solver].
    intros st x (-> & _ & Y). destruct x as [c|]; cbn [of_option pres]; [|done].
    destruct (from_text as_map c) as [d| |] eqn:D; cbn [pres]; [|done..]. cbv zeta.
    destruct (json_eqb (JObj (merge_doc d u)) (JObj d)); [done|].
    destruct E as [->| ->].
    - apply n_set; [done|done|].
      assert (dvals c) as V.
      { destruct (Y eq_refl) as [(c' & S & [= <-])|[?|[? ?]]]; [|done|done]. destruct S as [V| ->]; [|by vm_compute in D].
        destruct (kdoc_cases c V) as [?|[_ Z]]; [done|]. by rewrite Z in D. }
      pose proof (dvals_merge path (map fst calls) Start UOK Start_doc c d u V D U) as V'.
      destruct b; [|by left].
      assert (doc_ok (merge_doc d u)) as [[O1 O2] O3].
      { apply merge_doc_ok; [by eapply as_map_doc_ok|by apply UOK..]. }
      apply kdoc_upto; [done|done|done|done|by apply BT].
    - apply g_any. eapply follows_weaken; [apply gfree_set; [done|apply nloc_plain; [done|by right|done]|]|done].
      apply (other_ext H GS AX path ltac:(by left) PP False GX); [by right|done|done|intros Q; symmetry in Q; by apply AX_GX in Q|by intros []].
  Qed.
  Lemma n_new_array path' m : KCreateArray path' m ∈ map fst calls -> plain path' -> pieces path' = pieces path ->
    (b = true -> torn) ->
    fol (fun st r => st = Free) Free (p_create_array H sl path' m).
  Proof.
    intros I P' X BT. unfold p_create_array.
    eapply follows_try; [apply (n_exists GX); [by right|done]| |naive_solver|naive_solver].
    intros st g (-> & _). destruct g; [done|].
    eapply follows_try; [apply (n_exists AX); [by left|done]| |naive_solver|naive_solver].
    intros st a (-> & _). destruct a; [done|].
    apply n_set; [done|done|].
    assert (dvals (print (enc_meta m))) as V by (left; by exists path', m).
    destruct b; [|by left]. destruct (RD _ _ I X) as (R1 & R2 & R3).
    apply kdoc_upto; [by apply enc_meta_ok|apply enc_meta_depth; [apply R1|done]|done|done|by apply BT].
  Qed.
  End Calls.

  Local Notation fol := (follows (pre P kdoc False gone) (nxt P kdoc False gone)).
  Definition nfin (c : call) (st : sess) (a : reply) : Prop :=
    st = Free /\
    match c with
    | KGetMetadata path' _ => pieces path' = pieces path ->
        exists r, a = YMeta r /\ ((exists c, dvals c /\ r = meta_in c) \/ exists e, r = Err e)
    | _ => True
    end.
  Lemma nfin_free c q : (forall a, nfin c Free a) -> gfol free Free q -> gfol (nfin c) Free q.
  Proof. intros D F. eapply follows_weaken; [exact F|]. by intros st a ->. Qed.
  Definition writes_array (c : call) : Prop :=
    match c with KCreateArray path' _ | KSetAttributes path' _ _ => pieces path' = pieces path | _ => False end.
  Lemma same_or path' : pieces path' = pieces path \/ pieces path' <> pieces path.
  Proof. destruct (decide (pieces path' = pieces path)); auto. Qed.
  Lemma calm_good c : c ∈ map fst calls -> ~ writes_array c -> gfol (nfin c) Free (p_call C h H sl c).
  Proof.
    intros IN NS. pose proof (OK c IN) as K.
    assert (is_node_ext AX) as IA by by left. assert (is_node_ext GX) as IG by by right.
    destruct c; cbn [call_ok] in K; cbn [p_call].
    - destruct (same_or path0) as [X|X].
      + eapply follows_bind; [by apply (n_metadata true)|]. intros st r (-> & Y). cbn. split; [done|]. intros _. by exists r.
      + apply nfin_free; [done|]. by apply gfree_reply, gfree_get_array_metadata.
    - apply nfin_free; [done|]. by apply gfree_reply, gfree_list_attributes.
    - destruct (same_or path0) as [X|X]; [destruct NS; exact X|].
      apply nfin_free; [done|]. apply gfree_reply, gfree_set_attributes; [done..| |]; by apply other_node.
    - apply nfin_free; [done|]. apply gfree_reply, gfree_create_group; [done..|].
      destruct (same_or path0) as [X|X]; [|by apply other_node].
      apply (other_ext H GS AX path IA PP False GX); [done|done|done|intros Q; symmetry in Q; by apply AX_GX in Q|by intros []].
    - destruct (same_or path0) as [X|X]; [destruct NS; exact X|].
      apply nfin_free; [done|]. apply gfree_reply, gfree_create_array; [done..|]; by apply other_node.
    - destruct K as (K1 & K2 & K3). apply nfin_free; [done|]. apply gfree_reply, gfree_read_chunk; [done|done|apply K2|done].
    - destruct K as (K1 & K2 & K3). apply nfin_free; [done|].
      apply gfree_reply, gfree_write_chunk; [done|done|apply K2|done|]. by apply chunk_other.
    - destruct K as (K1 & K2 & K3). apply nfin_free; [done|].
      apply gfree_reply, gfree_delete_chunk; [done|done|apply K2|done|]. intros [].
    - destruct K as (K1 & K2). apply nfin_free; [done|]. apply gfree_reply, gfree_remove; [done..|]. intros [].
    - apply nfin_free; [done|]. apply gfree_reply, gfree_list_nodes.
  Qed.
  Lemma writes_dec c : writes_array c \/ ~ writes_array c.
  Proof. destruct c; cbn; try tauto; apply same_or. Qed.
  Lemma new_follows c f : (c, f) ∈ calls -> fol (kfin (nfin c)) Free (mortal f (p_call C h H sl c)).
  Proof.
    intros I. pose proof (in_calls calls _ _ I) as IN. destruct (writes_dec c) as [WA|NS].
    - assert (forall b, (b = true -> torn) -> follows (npre b) (nxt P kdoc False gone) (nfin c) Free (p_call C h H sl c)) as X.
      { intros b BT. pose proof (OK _ IN) as K. destruct c; cbn [writes_array] in WA; try (exfalso; exact WA); cbn [call_ok] in K; cbn [p_call].
        - eapply follows_bind; [apply (n_update b); [done|done|by exists path0, rs|done]|]. by intros st r ->.
        - eapply follows_bind; [by apply (n_new_array b)|]. by intros st r ->. }
      destruct f as [n|].
      + apply fol_dies. apply (X true). intros _. exists c, n. split; [exact I|exact WA].
      + apply fol_lives. apply (X false). intros Q. discriminate Q.
    - pose proof (calm_good c IN NS) as F. destruct f as [n|]; [apply fol_dies; exact F|]. apply fol_lives, gfol_fol. exact F.
  Qed.

  Context (o : os) (CO : calm o) (W : wf_fs (view o)).
  Context (NX : ~ explicit_array H (view o) path).
  Context (o' : os) (ps : list (proc (option reply))) (RUN : survives C h H sl o calls o' ps).
  Local Notation made := (made (map fst calls) path).
  Lemma new_interleave :
    (forall i c f a, calls !! i = Some (c, f) -> replied ps i a -> exists st, nfin c st a) /\
    wf_fs (view o') /\
    (all_returned ps -> calm o' /\ forall c, file_at (view o') P = Some c -> kdoc c).
  Proof.
    pose proof (interleave P kdoc False gone (P_node_ne H GS AX path ltac:(by left))
      (fun i st a => exists c f, calls !! i = Some (c, f) /\ kfin (nfin c) st a) o
      (map (fun cf : call * option nat => mortal cf.2 (p_call C h H sl cf.1)) calls) o' ps) as X.
    destruct X as (X1 & X2 & X3); [done|done| |by intros []|by intros q [[] _]| |exact RUN|].
    - intros c E. exfalso. apply NX. rewrite explicit_a by done. by rewrite E.
    - intros i q E. rewrite list_lookup_fmap in E. destruct (calls !! i) as [[c f]|] eqn:EC; [|done].
      injection E as <-. eapply follows_weaken; [apply new_follows; by eapply elem_of_list_lookup_2|].
      cbn. intros st a F. by exists c, f.
    - split_and!; [|done|].
      + intros i c f a E R. destruct (X1 i (Some a) R) as (st & c' & f' & E' & F). exists st.
        rewrite E in E'. by injection E' as <- <-.
      + intros AR. destruct X3 as (Y1 & Y2 & Y3 & Y4); [|done|done].
        intros i st [a|] (c & f & _ & F); [by destruct F|done].
  Qed.

  Lemma dvals_made c : dvals c -> made (meta_in c).
  Proof.
    intros V.
    assert (exists c0 d us, Start c0 /\ from_text as_map c0 = Ok d /\ Forall upd us
      /\ (c = c0 /\ us = [] \/ c = print (JObj (foldl merge_doc d us)))) as (c0 & d & us & S & D & U & Ec).
    { destruct V as [S|(c0 & d & us & S & D & U & ->)].
      - destruct (Start_doc c S) as [d D]. exists c, d, []. split_and!; [done|done|done|by left].
      - exists c0, d, us. auto. }
    destruct S as (path' & m & I & PE & ->). destruct (enc_meta_doc m (RD _ _ I PE)) as (d' & m' & D' & M' & SM & FM).
    assert (d' = d) as -> by congruence. pose proof (as_map_doc_ok _ _ D) as DK.
    destruct (updated_meta (map fst calls) path UOK us U d m' DK M') as (new & E1 & E2).
    assert (doc_attrs d = Ok (am_attrs m)) as A0.
    { destruct (dec_meta_merge d [] m' DK) as [X _]; [by split|done|]. unfold doc_attrs. rewrite X.
      f_equal. apply SM. }
    destruct (updated_attrs (map fst calls) path UOK us U d (am_attrs m) DK A0) as (new' & E3 & E4 & _).
    assert (new' = new) as -> by congruence.
    assert (from_text dec_meta c = Ok (with_attrs m' new)) as EM.
    { destruct Ec as [[-> ->]| ->].
      - cbn [foldl] in E1. congruence.
      - assert (doc_ok (foldl merge_doc d us)) as [[O1 O2] O3] by by apply (merged_ok path (map fst calls) UOK).
        by rewrite from_text_print. }
    assert (am_exts m' = am_exts m) as Ex by apply SM.
    exists path', m, m', new. split_and!; try done.
    - intros RE. unfold meta_in. rewrite EM, bind_ok. cbn [with_attrs am_exts]. rewrite Ex.
      by rewrite check_exts_err.
    - intros RE. unfold meta_in. rewrite EM, bind_ok. cbn [with_attrs am_exts]. rewrite Ex.
      by rewrite check_exts_ok.
  Qed.
  Lemma k_new :
    (forall i path' rs f a, calls !! i = Some (KGetMetadata path' rs, f) -> pieces path' = pieces path ->
       replied ps i a -> exists r, a = YMeta r /\ (made r \/ exists e, r = Err e)) /\
    ((forall c, c ∈ map fst calls -> ~ removes_node c path) ->
     (forall i path' m f, calls !! i = Some (KCreateArray path' m, f) -> pieces path' = pieces path ->
        replied ps i (YUnit (Ok tt)) -> explicit_array H (view o') path) /\
     (forall i path' f, calls !! i = Some (KCreateGroup path', f) -> pieces path' = pieces path ->
        replied ps i (YUnit (Ok tt)) -> explicit_group H (view o') path)) /\
    (all_returned ps -> calm o' /\ wf_fs (view o') /\
       (explicit_array H (view o') path ->
          made (get_array_metadata H (view o') path)
          \/ torn /\ exists e, get_array_metadata H (view o') path = Err e)).
  Proof.
    destruct new_interleave as (X1 & X2 & X3).
    assert (IA : is_node_ext AX) by by left. assert (IG : is_node_ext GX) by by right.
    assert (MK : (forall c, c ∈ map fst calls -> ~ removes_node c path) -> forall e c f i, is_node_ext e ->
      calls !! i = Some (c, f) -> replied ps i (YUnit (Ok tt)) ->
      makes (nloc H e path) H c -> exists x, file_at (view o') (nloc H e path) = Some x).
    { intros NR e c f i IE E R M.
      eapply (kept_mortal (nloc H e path) (P_node_ne H GS e path IE) C h H sl PB GS o calls o' ps OK); [| |done|exact E|exact R|exact M].
      - intros path' m pos _ X. symmetry in X. by apply loc_node_chunk in X; [|done|apply GS].
      - intros path' ord fuel I. pose proof (OK _ I) as (O1 & O2). pose proof (NR _ I) as X. cbn in X. split_and!.
        + intros Y. by apply loc_node_inj in Y as [Y _]; [|done|done|apply GS|done|done].
        + intros Y. by apply loc_node_inj in Y as [Y _]; [|done|done|apply GS|done|done].
        + intros [k Y]. destruct (nloc_meta H GS e path IE) as [r Z]. rewrite Z, <- app_assoc in Y.
          by apply app_inv_head in Y. }
    split; [|split].
    - intros i path' rs f a E PE R. destruct (X1 i _ f a E R) as (st & _ & F). cbn in F.
      destruct (F PE) as (r & -> & Y). exists r. split; [done|]. destruct Y as [(c & V & ->)|Y]; [|by right].
      left. by apply dvals_made.
    - intros NR. split.
      + intros i path' m f E PE R. rewrite explicit_a by done. destruct (MK NR AX _ f i IA E R) as [x ->]; [|done].
        cbn. by apply (nloc_same H GS path AX).
      + intros i path' f E PE R. rewrite explicit_g by done. destruct (MK NR GX _ f i IG E R) as [x ->]; [|done].
        cbn. by apply (nloc_same H GS path GX).
    - intros AR. destruct (X3 AR) as (Y1 & Y2). split; [done|]. split; [done|].
      rewrite explicit_a by done. destruct (file_at (view o') P) as [c|] eqn:F; [|done]. intros _.
      rewrite (meta_at H PB GS path PP _ _ X2 F). destruct (kdoc_cases c (Y2 c eq_refl)) as [V|[T Z]].
      + left. by apply dvals_made.
      + right. split; [done|]. unfold meta_in. rewrite Z. by eexists.
  Qed.
End New.
