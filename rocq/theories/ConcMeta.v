(** Concurrent access to the metadata document of one node (C44, C45). *)
From Verif Require Import BaseFacts PathFacts KeyFacts FSFacts Spec SpecMeta SpecHier HierFacts.
From Verif Require Import JsonFacts MetaJsonFacts NodeFacts OpsFacts.
From Verif Require Import Sys SpecConc SysFacts SysOps CrashFacts CrashOps ConcFacts ConcOps ConcChunk.
Local Open Scope Z_scope.

Notation AX := ARRAY_METADATA_KEY_EXT.
Notation GX := GROUP_METADATA_KEY_EXT.

Section OneDoc.
  Context (C : codec) (h : host) (H : hier) (sl : bytes -> list bytes) (SL : forall b, concat (sl b) = b).
  Context (PB : plain (hy_base H)) (GS : good_suffix (ep_suffix (hy_ep H))).
  Context (ext path : bytes) (IE : is_node_ext ext) (PP : plain path).
  Context (calls : list call) (OK : forall c, c ∈ calls -> call_ok c).
  Context (Start : bytes -> Prop) (stable excl : Prop).
  Local Notation base := (hy_base H).
  Local Notation sfx := (ep_suffix (hy_ep H)).
  Local Notation P := (nloc H ext path).
  Definition gone (q : fpath) : Prop := excl /\ q = nloc H AX path.

  Local Notation upd := (requests calls path).
  Context (UOK : updates_ok calls path).
  Context (NR : stable -> forall c, c ∈ calls -> ~ removes_node c path).
  Context (SOK : forall c, Start c -> exists d, from_text as_map c = Ok d).
  Context (EX : excl -> ext = GX /\ stable).
  Context (CA : ext = AX -> forall path' m, KCreateArray path' m ∈ calls -> pieces path' = pieces path ->
    stable \/ Start (print (enc_meta m))).
  Context (CG : ext = GX -> forall path', KCreateGroup path' ∈ calls -> pieces path' = pieces path ->
    stable \/ Start (print group_default_json)).

  Definition dvals (c : bytes) : Prop :=
    Start c \/ exists c0 d us, Start c0 /\ from_text as_map c0 = Ok d /\ Forall upd us
                 /\ c = print (JObj (foldl merge_doc d us)).
  Local Notation fol := (follows (pre P dvals stable gone) (nxt P dvals stable gone)).

  Lemma merged_ok us : Forall upd us -> forall d, doc_ok d -> doc_ok (foldl merge_doc d us).
  Proof.
    induction us as [|u us IH]; intros U d D; [done|]. apply list.Forall_cons in U as [U1 U2].
    cbn [foldl]. apply IH; [done|]. apply merge_doc_ok; [done|by apply UOK..].
  Qed.
  Lemma dvals_doc c : dvals c -> exists c0 d us, Start c0 /\ from_text as_map c0 = Ok d /\ Forall upd us
    /\ from_text as_map c = Ok (foldl merge_doc d us).
  Proof.
    intros [S|(c0 & d & us & S & E & U & ->)].
    - destruct (SOK c S) as [d E]. by exists c, d, [].
    - exists c0, d, us. split_and!; [done..|]. apply doc_ok_reads. apply merged_ok; [done|]. by eapply as_map_doc_ok.
  Qed.
  Lemma dvals_merge c d u : dvals c -> from_text as_map c = Ok d -> upd u -> dvals (print (JObj (merge_doc d u))).
  Proof.
    intros V E U. destruct (dvals_doc c V) as (c0 & d0 & us & S & E0 & US & E').
    assert (d = foldl merge_doc d0 us) as -> by congruence. right. exists c0, d0, (us ++ [u]).
    split_and!; [done|done| |by rewrite foldl_app]. apply list.Forall_app. by repeat constructor.
  Qed.
  Lemma seen_doc c d : seen dvals stable c -> from_text as_map c = Ok d -> dvals c.
  Proof. intros [V|[_ ->]]; [done|]. intros E. by vm_compute in E. Qed.

  Lemma nloc_same e path' : is_node_ext e -> pieces path' = pieces path -> nloc H e path' = nloc H e path.
  Proof. intros E X. unfold nloc, loc. rewrite !pieces_node_key by (done || apply GS). by rewrite X. Qed.
  Lemma P_node_ne : P <> [].
  Proof. destruct (nloc_meta H GS ext path IE) as [r ->]. intros E. by apply app_eq_nil in E as [_ E]. Qed.

  Lemma other_node e path' : is_node_ext e -> plain path' -> pieces path' <> pieces path ->
    elsewhere P gone H (metadata_key e sfx path').
  Proof.
    intros E P' N. split.
    - intros X. apply loc_node_inj in X as [X _]; [done|done|done|apply GS|done|done].
    - intros [_ X]. apply loc_node_inj in X as [X _]; [done|done|by left|apply GS|done|done].
  Qed.
  Lemma other_ext e path' : is_node_ext e -> plain path' -> pieces path' = pieces path -> e <> ext -> ~ excl ->
    elsewhere P gone H (metadata_key e sfx path').
  Proof.
    intros E P' X N NX. split; [|by intros [? _]].
    intros Y. by apply loc_node_inj in Y as [_ Y]; [|done|done|apply GS|done|done].
  Qed.
  Lemma chunk_other path' m pos : loc base (get_chunk_key path' m pos) <> P /\ ~ gone (loc base (get_chunk_key path' m pos)).
  Proof.
    split.
    - intros E. symmetry in E. by apply loc_node_chunk in E; [|done|apply GS].
    - intros [_ E]. symmetry in E. apply loc_node_chunk in E; [done|by left|apply GS].
  Qed.

  Definition focused : Prop := stable /\ (ext = GX -> excl).
  Lemma AX_GX : AX <> GX.
  Proof. done. Qed.
  Lemma fol_there e path' : is_node_ext e -> plain path' -> pieces path' = pieces path ->
    fol (fun st r => st = Free /\ exists b, r = Ok b /\ (stable -> e = ext -> b = true) /\ (excl -> e = AX -> b = false))
      Free (p_exists base (metadata_key e sfx path')).
  Proof.
    intros E P' X. eapply follows_weaken; [apply fol_exists; [done|by apply nloc_plain]|].
    intros st r (-> & b & -> & B1 & B2). split; [done|]. exists b. split_and!; [done| |].
    - intros S ->. apply B1; [done|]. by apply nloc_same.
    - intros X' ->. apply B2. split; [done|]. apply nloc_same; [by left|done].
  Qed.

  Lemma fol_node_key path' : plain path' -> pieces path' = pieces path ->
    fol (fun st r => st = Free /\ r <> Panic /\
           (forall k, r = Ok k -> exists e, is_node_ext e /\ k = metadata_key e sfx path' /\ (excl -> e = ext)) /\
           (focused -> r = Ok (metadata_key ext sfx path')))
      Free (p_node_key H path').
  Proof.
    intros P' X. unfold p_node_key.
    eapply follows_try; [apply (fol_there AX); [by left|done|done]| |naive_solver|naive_solver].
    intros st a (-> & b & [= <-] & B1 & B2). destruct a.
    - cbn. split_and!; [done..| |].
      + intros k [= <-]. exists AX. split_and!; [by left|done|]. intros Y. by specialize (B2 Y eq_refl).
      + intros [S F]. destruct IE as [->| ->]; [done|]. by specialize (B2 (F eq_refl) eq_refl).
    - eapply follows_try; [apply (fol_there GX); [by right|done|done]| |naive_solver|naive_solver].
      intros st b (-> & b' & [= <-] & D1 & D2).
      assert (focused -> ext = GX) as FG.
      { intros [S F]. destruct IE as [->| ->]; [|done]. by specialize (B1 S eq_refl). }
      destruct b; cbn; split_and!; try done.
      + intros k [= <-]. exists GX. split_and!; [by right|done|]. intros Y. by destruct (EX Y).
      + intros F. by rewrite (FG F).
      + intros F. specialize (D1 (proj1 F)). rewrite (FG F) in D1. by specialize (D1 eq_refl).
  Qed.

  (** The attributes in a document. *)
  Definition attrs_in (text : bytes) : res jmap :=
    v ← from_text dec_value text;
    match v with
    | JObj m => match mget ATTRIBUTES_NAME m with
                | Some (JObj a) => Ok a
                | Some _ => Err InvalidData
                | None => Ok []
                end
    | _ => Ok []
    end.
  Definition meta_in (text : bytes) : res array_meta :=
    m ← from_text dec_meta text;
    check_exts (am_exts m) ≫= fun _ => Ok m.

  Lemma fol_get_here e path' rs : is_node_ext e -> plain path' -> pieces path' = pieces path ->
    fol (fun st r => st = Free /\ r <> Panic /\
           (e = ext -> (exists c, seen dvals stable c /\ r = Ok (Some c)) \/ (~ stable /\ (r = Ok None \/ exists e, r = Err e))))
      Free (p_get base (metadata_key e sfx path') rs).
  Proof.
    intros E P' X. eapply follows_weaken; [apply fol_get; [done|by apply nloc_plain]|].
    intros st r (-> & N & _ & Y). split_and!; [done..|]. intros ->. apply Y. by apply nloc_same.
  Qed.

  Lemma same_ext e path' : is_node_ext e -> plain path' ->
    @Ok bytes (metadata_key e sfx path') = Ok (metadata_key ext sfx path') -> e = ext.
  Proof.
    intros E P' [= X]. apply (f_equal (loc base)) in X.
    by apply loc_node_inj in X as [_ X]; [|done|done|apply GS|done|done].
  Qed.

  Lemma fol_list path' rs : plain path' -> pieces path' = pieces path ->
    fol (fun st r => st = Free /\ (focused -> exists c, dvals c /\ r = attrs_in c))
      Free (p_list_attributes H path' rs).
  Proof.
    intros P' X. unfold p_list_attributes.
    eapply follows_try; [by apply fol_node_key| | |].
    - intros st k (-> & _ & K & F). destruct (K k eq_refl) as (e & E & -> & _).
      eapply follows_try; [by apply fol_get_here| | |].
      + intros st x (-> & _ & Y). cbn. split; [done|]. intros FO.
        specialize (F FO). apply same_ext in F as ->; [|done..].
        destruct (Y eq_refl) as [(c & S & [= ->])|[N _]]; [|by destruct FO].
        exists c. split; [|done]. destruct S as [|[N _]]; [done|by destruct FO].
      + intros st er (-> & _ & Y). split; [done|]. intros FO.
        specialize (F FO). apply same_ext in F as ->; [|done..].
        destruct (Y eq_refl) as [(c & S & ?)|[N _]]; [done|by destruct FO].
      + intros st (-> & ? & Y). done.
    - intros st e (-> & _ & _ & F). split; [done|]. intros FO. by specialize (F FO).
    - by intros st (-> & ? & _).
  Qed.

  Lemma fol_update path' u rs : plain path' -> pieces path' = pieces path -> upd u ->
    fol (fun st r => st = Free /\ (focused -> r = Ok tt)) Free (p_set_attributes H sl path' u rs).
  Proof.
    intros P' X U. unfold p_set_attributes.
    eapply follows_try; [by apply fol_node_key| | |].
    - intros st k (-> & _ & K & F). destruct (K k eq_refl) as (e & E & -> & EE).
      assert (focused -> e = ext) as FE. { intros FO. specialize (F FO). by apply same_ext in F. }
      eapply follows_try; [by apply fol_get_here| | |].
      + intros st x (-> & _ & Y). destruct x as [c|]; cbn [of_option pres].
        2:{ cbn. split; [done|]. intros FO. destruct (Y (FE FO)) as [(c & S & ?)|[N _]]; [done|by destruct FO]. }
        destruct (from_text as_map c) as [d|er|] eqn:D; cbn [pres].
        * assert (e = ext -> dvals c) as VC.
          { intros Q. destruct (Y Q) as [(c' & S & [= <-])|[N [?|[??]]]]; [|done|done]. by eapply seen_doc. }
          cbv zeta. destruct (json_eqb (JObj (merge_doc d u)) (JObj d)) eqn:J; [done|].
          assert (e = ext \/ e <> ext) as [Q|Q] by (destruct (decide (e = ext)); auto).
          -- eapply follows_weaken; [apply fol_set; [done|by apply nloc_plain| |]|].
             ++ intros _. rewrite SL. eapply dvals_merge; [by apply VC|done|done].
             ++ intros [XC Z]. destruct (EX XC) as [-> _]. subst e.
                by apply loc_node_inj in Z as [_ Z]; [|done|by left|apply GS|done|done].
             ++ intros st x (-> & Z). split; [done|]. intros FO. destruct Z as [Z|[N _]]; [done|].
                destruct N. split; [apply FO|]. subst e. by apply nloc_same.
          -- eapply follows_weaken; [apply free_set; [done|by apply nloc_plain|]|].
             ++ apply other_ext; try done. intros XC. by apply Q, EE.
             ++ intros st x ->. split; [done|]. intros FO. by apply FE in FO.
        * cbn. split; [done|]. intros FO. exfalso. destruct (Y (FE FO)) as [(c' & S & [= <-])|[N _]]; [|by destruct FO].
          destruct S as [V|[N _]]; [|by destruct FO]. destruct (dvals_doc c V) as (c0 & d0 & us & _ & _ & _ & Z). congruence.
        * cbn. split; [done|]. intros FO. exfalso. destruct (Y (FE FO)) as [(c' & S & [= <-])|[N _]]; [|by destruct FO].
          destruct S as [V|[N _]]; [|by destruct FO]. destruct (dvals_doc c V) as (c0 & d0 & us & _ & _ & _ & Z). congruence.
      + intros st er (-> & _ & Y). split; [done|]. intros FO.
        destruct (Y (FE FO)) as [(c & S & ?)|[N _]]; [done|by destruct FO].
      + intros st (-> & ? & Y). done.
    - intros st e (-> & _ & _ & F). split; [done|]. intros FO. by specialize (F FO).
    - by intros st (-> & ? & _).
  Qed.

  Lemma fol_metadata path' rs : plain path' -> pieces path' = pieces path ->
    fol (fun st r => st = Free /\ (ext = AX -> (exists c, seen dvals stable c /\ r = meta_in c) \/ ~ stable /\ exists e, r = Err e))
      Free (p_get_array_metadata H path' rs).
  Proof.
    intros P' X. unfold p_get_array_metadata.
    eapply follows_try; [apply (fol_get_here AX); [by left|done|done]| | |].
    - intros st x (-> & _ & Y). cbn [follows]. split; [done|]. intros Q. symmetry in Q. specialize (Y Q).
      destruct Y as [(c & S & [= ->])|[N [[= ->]|[??]]]]; [| |done].
      + left. exists c. done.
      + right. split; [done|]. by exists NotFound.
    - intros st er (-> & _ & Y). split; [done|]. intros Q. symmetry in Q. specialize (Y Q). right.
      destruct Y as [(c & S & ?)|[N _]]; [done|]. split; [done|]. by exists er.
    - by intros st (-> & ? & _).
  Qed.

  Lemma fol_new_array path' m : KCreateArray path' m ∈ calls -> plain path' -> pieces path' = pieces path ->
    fol (fun st r => st = Free /\ (stable -> r = Err AlreadyExists)) Free (p_create_array H sl path' m).
  Proof.
    intros I P' X. unfold p_create_array.
    eapply follows_try; [apply (fol_there GX); [by right|done|done]| |naive_solver|naive_solver].
    intros st g (-> & b & [= <-] & B1 & _). destruct g; [done|].
    eapply follows_try; [apply (fol_there AX); [by left|done|done]| |naive_solver|naive_solver].
    intros st a (-> & b & [= <-] & D1 & D2). destruct a; [done|].
    assert (~ stable) as NS.
    { intros S. destruct IE as [Q|Q]; [symmetry in Q; by specialize (D1 S Q)|symmetry in Q; by specialize (B1 S Q)]. }
    assert (~ excl) as NX by (intros Q; apply NS; by apply EX).
    eapply follows_weaken; [apply fol_set; [done|apply nloc_plain; [done|by left|done]| |]|].
    - intros Q. apply loc_node_inj in Q as [_ Q]; [|by left|done|apply GS|done|done]. rewrite SL.
      destruct (CA (eq_sym Q) _ _ I X) as [?|?]; [done|by left].
    - by intros [Q _].
    - by intros st x (-> & _).
  Qed.
  Lemma fol_new_group path' : KCreateGroup path' ∈ calls -> plain path' -> pieces path' = pieces path ->
    fol (fun st r => st = Free /\ (stable -> ext = AX -> r = Err AlreadyExists) /\ (focused -> ext = GX -> r = Ok tt))
      Free (p_create_group H sl path').
  Proof.
    intros I P' X. unfold p_create_group.
    eapply follows_try; [apply (fol_there AX); [by left|done|done]| |naive_solver|naive_solver].
    intros st a (-> & b & [= <-] & B1 & B2). destruct a.
    { cbn. split_and!; [done..|]. intros [_ F] Q. by specialize (B2 (F Q) eq_refl). }
    assert (stable -> ext <> AX) as NA. { intros S Q. symmetry in Q. by specialize (B1 S Q). }
    eapply follows_try; [apply (fol_there GX); [by right|done|done]| |naive_solver|naive_solver].
    intros st g (-> & b & [= <-] & D1 & D2). destruct g.
    { cbn. split_and!; [done| |done]. intros S Q. by destruct (NA S). }
    assert (~ stable) as NS.
    { intros S. destruct IE as [Q|Q]; [by apply NA in Q|symmetry in Q; by specialize (D1 S Q)]. }
    assert (~ excl) as NX by (intros Q; apply NS; by apply EX).
    eapply follows_weaken; [apply fol_set; [done|apply nloc_plain; [done|by right|done]| |]|].
    - intros Q. apply loc_node_inj in Q as [_ Q]; [|by right|done|apply GS|done|done]. rewrite SL.
      destruct (CG (eq_sym Q) _ I X) as [?|?]; [done|by left].
    - by intros [Q _].
    - intros st x (-> & _). split_and!; [done..|]. by intros [? _].
  Qed.

  Definition dfin (c : call) (st : sess) (a : reply) : Prop :=
    st = Free /\
    match c with
    | KListAttributes path' _ => pieces path' = pieces path -> exists r, a = YAttrs r /\
        (focused -> exists c, dvals c /\ r = attrs_in c)
    | KSetAttributes path' _ _ => pieces path' = pieces path -> exists r, a = YUnit r /\ (focused -> r = Ok tt)
    | KGetMetadata path' _ => pieces path' = pieces path -> exists r, a = YMeta r /\
        (ext = AX -> (exists c, seen dvals stable c /\ r = meta_in c) \/ ~ stable /\ exists e, r = Err e)
    | KCreateArray path' _ => pieces path' = pieces path -> exists r, a = YUnit r /\ (stable -> r = Err AlreadyExists)
    | KCreateGroup path' => pieces path' = pieces path -> exists r, a = YUnit r /\
        (stable -> ext = AX -> r = Err AlreadyExists) /\ (focused -> ext = GX -> r = Ok tt)
    | _ => True
    end.
  Lemma dfin_free c q : (forall a, dfin c Free a) -> fol free Free q -> fol (dfin c) Free q.
  Proof. intros D F. eapply follows_weaken; [exact F|]. by intros st a ->. Qed.
  Lemma doc_follows c : c ∈ calls -> fol (dfin c) Free (p_call C h H sl c).
  Proof.
    intros IN. pose proof (OK c IN) as K.
    assert (forall path', pieces path' = pieces path \/ pieces path' <> pieces path) as DP.
    { intros path'. destruct (decide (pieces path' = pieces path)); auto. }
    assert (is_node_ext AX) as IA by by left. assert (is_node_ext GX) as IG by by right.
    destruct c; cbn [call_ok] in K; cbn [p_call].
    - destruct (DP path0) as [X|X].
      + eapply follows_bind; [by apply fol_metadata|]. intros st r (-> & Y). cbn. split; [done|]. eauto.
      + apply dfin_free; [done|]. by apply free_reply, free_get_array_metadata.
    - destruct (DP path0) as [X|X].
      + eapply follows_bind; [by apply fol_list|]. intros st r (-> & Y). cbn. split; [done|]. eauto.
      + apply dfin_free; [done|]. by apply free_reply, free_list_attributes.
    - destruct (DP path0) as [X|X].
      + eapply follows_bind; [apply fol_update; [done|done|by exists path0, rs]|].
        intros st r (-> & Y). cbn. split; [done|]. eauto.
      + apply dfin_free; [done|]. apply free_reply, free_set_attributes; [done..| |]; by apply other_node.
    - destruct (DP path0) as [X|X].
      + eapply follows_bind; [by apply fol_new_group|]. intros st r (-> & Y). cbn. split; [done|]. eauto.
      + apply dfin_free; [done|]. apply free_reply, free_create_group; [done..|]; by apply other_node.
    - destruct (DP path0) as [X|X].
      + eapply follows_bind; [by apply fol_new_array|]. intros st r (-> & Y). cbn. split; [done|]. eauto.
      + apply dfin_free; [done|]. apply free_reply, free_create_array; [done..|]; by apply other_node.
    - destruct K as (K1 & K2 & K3). apply dfin_free; [done|]. apply free_reply, free_read_chunk; [done|done|apply K2|done].
    - destruct K as (K1 & K2 & K3). apply dfin_free; [done|].
      apply free_reply, free_write_chunk; [done|done|apply K2|done|]. apply chunk_other.
    - destruct K as (K1 & K2 & K3). apply dfin_free; [done|].
      apply free_reply, free_delete_chunk; [done|done|apply K2|done|]. intros _. apply chunk_other.
    - destruct K as (K1 & K2). apply dfin_free; [done|]. apply free_reply, free_remove; [done..|].
      intros ST. assert (pieces path0 <> pieces path) as X by (intros X; by apply (NR ST _ IN)). split_and!.
      + by apply (other_node GX).
      + by apply (other_node AX).
      + intros [k Y]. destruct (nloc_meta H GS ext path IE) as [r E]. rewrite E, <- app_assoc in Y.
        by apply app_inv_head in Y.
    - apply dfin_free; [done|]. apply free_reply, free_list_nodes.
  Qed.

  Context (o : os) (CO : calm o) (W : wf_fs (view o)).
  Context (S0 : forall c, file_at (view o) P = Some c -> Start c).
  Context (ST : stable -> exists c, file_at (view o) P = Some c).
  Context (XT : excl -> file_at (view o) (nloc H AX path) = None).
  Context (o' : os) (ps : list (proc reply)) (RUN : executes C h H sl o calls o' ps).

  Lemma doc_interleave :
    (forall i c a, calls !! i = Some c -> returned ps i a -> exists st, dfin c st a) /\
    wf_fs (view o') /\
    (all_returned ps -> calm o' /\ (forall c, file_at (view o') P = Some c -> dvals c) /\
       (stable -> exists c, file_at (view o') P = Some c) /\
       (excl -> file_at (view o') (nloc H AX path) = None)).
  Proof.
    pose proof (interleave P dvals stable gone P_node_ne
      (fun i st a => exists c, calls !! i = Some c /\ dfin c st a) o (map (p_call C h H sl) calls) o' ps) as X.
    destruct X as (X1 & X2 & X3); [done|done|intros c E; left; by apply S0|exact ST|by intros q [XC ->]; apply XT| |exact RUN|].
    - intros i q E. rewrite list_lookup_fmap in E. destruct (calls !! i) as [c|] eqn:EC; [|done].
      injection E as <-. eapply follows_weaken; [apply doc_follows; by eapply elem_of_list_lookup_2|].
      cbn. intros st a F. by exists c.
    - split_and!; [|done|].
      + intros i c a E R. destruct (X1 i a R) as (st & c' & E' & F). exists st. congruence.
      + intros AR. destruct X3 as (Y1 & Y2 & Y3 & Y4); [|done|].
        * by intros i st a (c & _ & F & _).
        * split_and!; try done. intros XC. by apply Y4.
  Qed.
End OneDoc.
