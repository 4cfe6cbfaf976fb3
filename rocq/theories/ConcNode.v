(** Concurrent calls on one node: what callers see (C44, C45). *)
From Verif Require Import BaseFacts PathFacts KeyFacts FSFacts Spec SpecMeta SpecHier HierFacts.
From Verif Require Import JsonFacts JsonPrefix MetaJsonFacts NodeFacts RefFacts OpsFacts.
From Verif Require Import Sys SpecConc SysFacts SysOps CrashFacts CrashOps ConcFacts ConcOps ConcChunk ConcMeta ConcKeep.
Local Open Scope Z_scope.

(** ** Documents after updates *)

Definition doc_attrs (d : jmap) : res jmap :=
  match mget ATTRIBUTES_NAME d with
  | Some (JObj a) => Ok a
  | Some _ => Err InvalidData
  | None => Ok []
  end.
Lemma attrs_in_doc c d : from_text as_map c = Ok d -> attrs_in c = doc_attrs d.
Proof.
  unfold attrs_in, from_text, as_map, dec_value. intros H1. apply bind_ok_inv in H1 as (j & -> & H1).
  rewrite bind_ok. rewrite bind_ok. destruct (norm j); try done. by injection H1 as ->.
Qed.
Lemma doc_attrs_sorted d a : doc_ok d -> doc_attrs d = Ok a -> sorted a.
Proof.
  intros Hok. pose proof (proj1 (doc_ok_iff _) Hok) as [Hs Hf]. unfold doc_attrs.
  destruct (mget ATTRIBUTES_NAME d) as [v|] eqn:E; [|intros [= <-]; constructor].
  apply mget_elem in E. rewrite list.Forall_forall in Hf. destruct (Hf _ E) as (O1 & _). cbn [snd] in O1.
  destruct v; try done. intros [= ->]. cbn [is_value] in O1. rewrite andb_true_iff, keys_sorted_spec in O1. tauto.
Qed.
Lemma merge_attrs d u old : doc_ok d -> value_ok (JObj u) -> doc_attrs d = Ok old ->
  exists new, doc_attrs (merge_doc d u) = Ok new /\ overridden old u new.
Proof.
  intros Hok Hv E. pose proof (doc_attrs_sorted d old Hok E) as So. pose proof (proj1 (doc_ok_iff _) Hok) as [Hs _].
  pose proof Hv as [Hv1 _]. cbn [is_value] in Hv1. rewrite andb_true_iff, keys_sorted_spec in Hv1. destruct Hv1 as [Su _].
  unfold doc_attrs in *. rewrite merge_doc_attrs by done. destruct (mget ATTRIBUTES_NAME d) as [v|].
  - destruct v; try done. injection E as ->. exists (mmerge old u). split; [done|]. by apply mmerge_overridden.
  - injection E as <-. exists u. split; [done|]. split; [by apply keys_sorted_spec|]. intros k. by destruct (mget k u).
Qed.

Section Updates.
  Context (calls : list call) (path : bytes) (UOK : updates_ok calls path).
  Local Notation upd := (requests calls path).

  Lemma updated_attrs us : Forall upd us -> forall d old, doc_ok d -> doc_attrs d = Ok old ->
    exists new, doc_attrs (foldl merge_doc d us) = Ok new /\ attrs_after calls path old new /\
      forall k, mget k new = latest k old us.
  Proof.
    intros U. cut (forall d old, doc_ok d -> doc_attrs d = Ok old ->
      exists new, doc_attrs (foldl merge_doc d us) = Ok new /\ sorted new /\ forall k, mget k new = latest k old us).
    { intros X d old D E. destruct (X d old D E) as (new & E1 & E2 & E3). exists new. split_and!; try done.
      split; [by apply keys_sorted_spec|]. by exists us. }
    induction us as [|u us IH]; intros d old D E.
    { exists old. split_and!; [done|by eapply doc_attrs_sorted|done]. }
    apply list.Forall_cons in U as [U1 U2]. destruct (UOK u U1) as [V1 V2].
    destruct (merge_attrs d u old D V1 E) as (mid & E1 & _ & E2).
    destruct (IH U2 (merge_doc d u) mid) as (new & E3 & S & E4); [by apply merge_doc_ok|done|].
    exists new. split_and!; [done|done|]. intros k. rewrite E4. unfold latest. cbn [foldl]. by rewrite E2.
  Qed.
  Lemma updated_other us : Forall upd us -> forall d k, doc_ok d -> k <> ATTRIBUTES_NAME ->
    mget k (foldl merge_doc d us) = mget k d.
  Proof.
    induction us as [|u us IH]; intros U d k D N; [done|]. apply list.Forall_cons in U as [U1 U2]. cbn [foldl].
    destruct (UOK u U1) as [V1 V2]. rewrite IH; [|done|by apply merge_doc_ok|done].
    apply merge_doc_other; [|done]. exact (proj1 (proj1 (doc_ok_iff _) D)).
  Qed.
  Lemma updated_meta us : Forall upd us -> forall d m, doc_ok d -> dec_meta (JObj d) = Ok m ->
    exists new, dec_meta (JObj (foldl merge_doc d us)) = Ok (with_attrs m new) /\
      doc_attrs (foldl merge_doc d us) = Ok new.
  Proof.
    induction us as [|u us IH]; intros U d m D E.
    - exists (am_attrs m). destruct (dec_meta_merge d [] m D) as [X _]; [by split|done|].
      split; [by destruct m|]. unfold doc_attrs. cbn [foldl]. by rewrite X.
    - apply list.Forall_cons in U as [U1 U2]. cbn [foldl]. destruct (UOK u U1) as [V1 V2].
      destruct (dec_meta_merge d u m D V1 E) as [_ X].
      destruct (IH U2 _ _ (merge_doc_ok d u D V1 V2) X) as (new & Y1 & Y2). exists new. by split.
  Qed.
  Lemma attrs_after_sorted old new : attrs_after calls path old new -> sorted new.
  Proof. intros [S _]. by apply keys_sorted_spec. Qed.

  (** Metadata read from a document. *)
  Lemma meta_in_doc c d m : from_text as_map c = Ok d -> from_text dec_meta c = Ok m -> dec_meta (JObj d) = Ok m.
  Proof.
    unfold from_text, as_map. intros E1 E2. apply bind_ok_inv in E1 as (j & E & E1). rewrite E, bind_ok in E2.
    apply stable_dec_meta in E2. destruct (norm j); try done. by injection E1 as <-.
  Qed.
End Updates.

Section Node.
  Context (C : codec) (h : host) (H : hier) (sl : bytes -> list bytes) (SL : forall b, concat (sl b) = b).
  Context (PB : plain (hy_base H)) (GS : good_suffix (ep_suffix (hy_ep H))).
  Context (path : bytes) (PP : plain path).
  Context (calls : list call) (OK : forall c, c ∈ calls -> call_ok c) (UOK : updates_ok calls path).
  Context (o : os) (CO : calm o) (W : wf_fs (view o)).
  Context (o' : os) (ps : list (proc reply)) (RUN : executes C h H sl o calls o' ps).
  Local Notation base := (hy_base H).
  Local Notation sfx := (ep_suffix (hy_ep H)).

  Lemma get_node s e path' : wf_fs s -> plain path' -> is_node_ext e ->
    st_get base s (metadata_key e sfx path') = Ok (file_at s (nloc H e path')).
  Proof. intros W' P' E. apply st_get_plain; [done|done|by apply nloc_plain]. Qed.
  Lemma exists_node s e path' : wf_fs s -> plain path' -> is_node_ext e ->
    st_exists base s (metadata_key e sfx path') = Ok (is_some (file_at s (nloc H e path'))).
  Proof. intros W' P' E. apply st_exists_plain; [done|done|by apply nloc_plain]. Qed.

  (** ** A node that exists *)

  Lemma node_document_at s doc : wf_fs s -> node_document H s path = Ok doc ->
    exists ext c, is_node_ext ext /\ file_at s (nloc H ext path) = Some c /\ from_text as_map c = Ok doc
      /\ (ext = GX -> file_at s (nloc H AX path) = None).
  Proof.
    intros W' E. unfold node_document in E. apply bind_ok_inv in E as (k & Hk & E).
    apply bind_ok_inv in E as (x & Hx & E). apply bind_ok_inv in E as (text & Ht & E).
    destruct x as [c|]; [|done]. injection Ht as ->.
    assert (is_node_ext AX) as IA by by left. assert (is_node_ext GX) as IG by by right.
    unfold node_key in Hk. unfold akey, gkey, array_metadata_key, group_metadata_key in Hk. rewrite (exists_node s AX), bind_ok in Hk by done.
    destruct (file_at s (nloc H AX path)) as [ca|] eqn:FA; cbn [is_some] in Hk.
    - injection Hk as <-. rewrite get_node in Hx by done. exists AX, text. split_and!; try done.
      by injection Hx.
    - rewrite (exists_node s GX), bind_ok in Hk by done. destruct (file_at s (nloc H GX path)) as [cg|] eqn:FG; [|done].
      injection Hk as <-. rewrite get_node in Hx by done. exists GX, text. split_and!; try done.
      congruence.
  Qed.
  Lemma list_at s ext c : wf_fs s -> is_node_ext ext -> file_at s (nloc H ext path) = Some c ->
    (ext = GX -> file_at s (nloc H AX path) = None) -> list_attributes H s path = attrs_in c
    /\ node_document H s path = from_text as_map c.
  Proof.
    intros W' E F X. assert (is_node_ext AX) as IA by by left. assert (is_node_ext GX) as IG by by right.
    assert (node_key H s path = Ok (metadata_key ext sfx path)) as NK.
    { unfold node_key, akey, gkey, array_metadata_key, group_metadata_key. rewrite (exists_node s AX), bind_ok by done.
      destruct E as [->| ->]; [by rewrite F|]. rewrite X by done. cbn [is_some]. by rewrite (exists_node s GX), bind_ok, F by done. }
    split.
    - unfold list_attributes. rewrite NK, bind_ok, get_node, bind_ok, F by done. done.
    - unfold node_document. rewrite NK, bind_ok, get_node, bind_ok, F by done. done.
  Qed.
  Lemma meta_at s c : wf_fs s -> file_at s (nloc H AX path) = Some c -> get_array_metadata H s path = meta_in c.
  Proof.
    intros W' F. unfold get_array_metadata, akey, array_metadata_key. rewrite get_node, F, bind_ok by (done || by left). done.
  Qed.
  Lemma meta_none s : wf_fs s -> file_at s (nloc H AX path) = None -> get_array_metadata H s path = Err NotFound.
  Proof.
    intros W' F. unfold get_array_metadata, akey, array_metadata_key. rewrite get_node, F, bind_ok by (done || by left). done.
  Qed.

  Definition existing_result : Prop := forall doc old,
    node_document H (view o) path = Ok doc -> list_attributes H (view o) path = Ok old ->
    (forall c, c ∈ calls -> ~ removes_node c path) ->
    (forall i path' rs a, calls !! i = Some (KListAttributes path' rs) -> pieces path' = pieces path ->
       returned ps i a -> exists new, a = YAttrs (Ok new) /\ attrs_after calls path old new) /\
    (forall i path' u rs a, calls !! i = Some (KSetAttributes path' u rs) -> pieces path' = pieces path ->
       returned ps i a -> a = YUnit (Ok tt)) /\
    (forall m i path' rs a, get_array_metadata H (view o) path = Ok m ->
       calls !! i = Some (KGetMetadata path' rs) -> pieces path' = pieces path ->
       returned ps i a -> exists new, a = YMeta (Ok (with_attrs m new)) /\ attrs_after calls path old new) /\
    (forall i path' m a, calls !! i = Some (KCreateArray path' m) -> pieces path' = pieces path ->
       returned ps i a -> a = YUnit (Err AlreadyExists)) /\
    (forall i path' a, calls !! i = Some (KCreateGroup path') -> pieces path' = pieces path ->
       returned ps i a ->
       (explicit_array H (view o) path -> a = YUnit (Err AlreadyExists)) /\
       (~ explicit_array H (view o) path -> a = YUnit (Ok tt))) /\
    (all_returned ps -> calm o' /\ wf_fs (view o') /\
       (explicit_array H (view o') path <-> explicit_array H (view o) path) /\
       exists doc' new, node_document H (view o') path = Ok doc' /\
         list_attributes H (view o') path = Ok new /\ attrs_after calls path old new /\
         (forall k, k <> ATTRIBUTES_NAME -> mget k doc' = mget k doc) /\
         forall m, get_array_metadata H (view o) path = Ok m ->
           get_array_metadata H (view o') path = Ok (with_attrs m new)).

  Theorem existing_node : existing_result.
  Proof.
    intros doc old ND LA NR. destruct (node_document_at _ _ W ND) as (ext & c0 & IE & F0 & D0 & XG).
    destruct (list_at _ _ _ W IE F0 XG) as [L0 _]. rewrite (attrs_in_doc _ _ D0) in L0. rewrite L0 in LA.
    pose proof (as_map_doc_ok _ _ D0) as DK.
    set (Start := fun c => c = c0).
    assert (dvals : forall c, ConcMeta.dvals path calls Start c ->
      exists us, Forall (requests calls path) us /\ from_text as_map c = Ok (foldl merge_doc doc us)
        /\ (c = c0 /\ us = [] \/ c = print (JObj (foldl merge_doc doc us)))).
    { intros c [->|(c1 & d & us & -> & D & U & ->)].
      - exists []. auto.
      - assert (d = doc) as -> by congruence. exists us. split_and!; [done| |by right].
        apply doc_ok_reads. by apply (merged_ok path calls UOK). }
    assert (DA : forall c, ConcMeta.dvals path calls Start c ->
      exists new, attrs_in c = Ok new /\ attrs_after calls path old new).
    { intros c V. destruct (dvals c V) as (us & U & D & _). rewrite (attrs_in_doc _ _ D).
      destruct (updated_attrs calls path UOK us U doc old DK LA) as (new & E1 & E2 & _). by exists new. }
    assert (DM : forall c m, ext = AX -> ConcMeta.dvals path calls Start c -> get_array_metadata H (view o) path = Ok m ->
      exists new, meta_in c = Ok (with_attrs m new) /\ attrs_in c = Ok new).
    { intros c m EA V G. subst ext. rewrite (meta_at _ _ W F0) in G. unfold meta_in in G.
      apply bind_ok_inv in G as (m' & G1 & G2). apply bind_ok_inv in G2 as ([] & G2 & [= ->]).
      pose proof (meta_in_doc _ _ _ D0 G1) as DM.
      destruct (dvals c V) as (us & U & D & X). rewrite (attrs_in_doc _ _ D).
      destruct (updated_meta calls path UOK us U doc m DK DM) as (new & E1 & E2). exists new. split; [|done].
      destruct X as [[-> ->]|Ec].
      - cbn [foldl] in E1. assert (with_attrs m new = m) as -> by congruence. unfold meta_in.
        by rewrite G1, bind_ok, G2.
      - assert (doc_ok (foldl merge_doc doc us)) as [[O1 O2] O3] by by apply (merged_ok path calls UOK).
        unfold meta_in. rewrite Ec, from_text_print, E1, bind_ok by done. cbn [with_attrs am_exts]. by rewrite G2. }
    assert (GA : forall m, get_array_metadata H (view o) path = Ok m -> ext = AX).
    { intros m G. destruct IE as [->| ->]; [done|]. rewrite meta_none in G; [done|done|by apply XG]. }
    assert (EXA : explicit_array H (view o) path <-> ext = AX).
    { rewrite explicit_a by done. destruct IE as [->| ->]; [by rewrite F0|]. rewrite XG by done. split; done. }
    destruct (doc_interleave C h H sl SL PB GS ext path IE PP calls OK Start True (ext = GX) UOK (fun _ => NR)) with (o := o) (o' := o') (ps := ps)
      as (X1 & X2 & X3); try done.
    { intros c ->. by exists doc. }
    { intros _ path' m _ _. by left. }
    { intros _ path' _ _. by left. }
    { intros c E. unfold Start. congruence. }
    { intros _. by exists c0. }
    assert (FO : focused ext True (ext = GX)) by by split.
    assert (forall c, seen (ConcMeta.dvals path calls Start) True c -> ConcMeta.dvals path calls Start c) as SV.
    { intros c [?|[? _]]; done. }
    split_and!.
    - intros i path' rs a E PE R. destruct (X1 i _ a E R) as (st & _ & F). cbn in F.
      destruct (F PE) as (r & -> & Y). destruct (Y FO) as (c & V & ->). destruct (DA c V) as (new & -> & ?). by exists new.
    - intros i path' u rs a E PE R. destruct (X1 i _ a E R) as (st & _ & F). cbn in F.
      destruct (F PE) as (r & -> & Y). by rewrite (Y FO).
    - intros m i path' rs a G E PE R. destruct (X1 i _ a E R) as (st & _ & F). cbn in F.
      destruct (F PE) as (r & -> & Y). pose proof (GA m G) as EA. destruct (Y EA) as [(c & V%SV & ->)|[N _]]; [|by destruct N].
      destruct (DM c m EA V G) as (new & -> & A1). destruct (DA c V) as (new' & A2 & ?). exists new.
      split; [done|]. congruence.
    - intros i path' m a E PE R. destruct (X1 i _ a E R) as (st & _ & F). cbn in F.
      destruct (F PE) as (r & -> & Y). by rewrite Y.
    - intros i path' a E PE R. destruct (X1 i _ a E R) as (st & _ & F). cbn in F.
      destruct (F PE) as (r & -> & Y1 & Y2). rewrite EXA. split.
      + intros EA. by rewrite Y1.
      + intros NA. destruct IE as [?|EG]; [done|]. by rewrite Y2.
    - intros AR. destruct (X3 AR) as (Y1 & Y2 & Y3 & Y4). destruct (Y3 I) as [c F]. pose proof (Y2 c F) as V.
      split_and!; [done|done| |].
      { rewrite EXA, explicit_a by done. destruct IE as [->| ->]; [by rewrite F|]. rewrite Y4 by done. split; done. }
      destruct (list_at _ _ _ X2 IE F Y4) as [L1 N1]. destruct (DA c V) as (new & E1 & E2).
      destruct (dvals c V) as (us & U & D & _). exists (foldl merge_doc doc us), new. split_and!.
      + by rewrite N1.
      + by rewrite L1.
      + done.
      + intros k N. by apply (updated_other calls path UOK).
      + intros m G. pose proof (GA m G) as EA. destruct (DM c m EA V G) as (new' & M1 & M2). subst ext.
        rewrite (meta_at _ _ X2 F). congruence.
  Qed.

  (** ** A new array *)

  Local Notation made := (made calls path).
  Definition creation_result : Prop :=
    ~ explicit_array H (view o) path ->
    (forall path' m, KCreateArray path' m ∈ calls -> pieces path' = pieces path -> readable m) ->
    (forall i path' rs a, calls !! i = Some (KGetMetadata path' rs) -> pieces path' = pieces path ->
       returned ps i a -> exists r, a = YMeta r /\ (made r \/ exists e, r = Err e)) /\
    ((forall c, c ∈ calls -> ~ removes_node c path) ->
     (forall i path' m, calls !! i = Some (KCreateArray path' m) -> pieces path' = pieces path ->
        returned ps i (YUnit (Ok tt)) -> explicit_array H (view o') path) /\
     (forall i path', calls !! i = Some (KCreateGroup path') -> pieces path' = pieces path ->
        returned ps i (YUnit (Ok tt)) -> explicit_group H (view o') path)) /\
    (all_returned ps -> calm o' /\ wf_fs (view o') /\
       (explicit_array H (view o') path -> made (get_array_metadata H (view o') path))).

  Lemma enc_meta_doc m : readable m -> exists d m', from_text as_map (print (enc_meta m)) = Ok d /\
    dec_meta (JObj d) = Ok m' /\ same_meta m m' /\ from_text dec_meta (print (enc_meta m)) = Ok m'.
  Proof.
    intros (H1 & H2 & H3). destruct (read_enc_meta m H1 H2 H3) as (m' & E & S).
    assert (exists d, from_text as_map (print (enc_meta m)) = Ok d) as [d D].
    { rewrite from_text_print; [|by apply enc_meta_ok|apply enc_meta_depth; [apply H1|done]]. unfold enc_meta, as_map.
      rewrite norm_obj. by eexists. }
    exists d, m'. split_and!; [done| |done|done]. by eapply meta_in_doc.
  Qed.

  Theorem new_array : creation_result.
  Proof.
    intros NX RD. assert (IA : is_node_ext AX) by by left. assert (IG : is_node_ext GX) by by right.
    set (Start := fun c => exists path' m, KCreateArray path' m ∈ calls /\ pieces path' = pieces path /\ c = print (enc_meta m)).
    destruct (doc_interleave C h H sl SL PB GS AX path IA PP calls OK Start False False UOK (fun F => match F with end)) with (o := o) (o' := o') (ps := ps)
      as (X1 & X2 & X3); try done.
    { intros c (path' & m & I & PE & ->). destruct (enc_meta_doc m (RD _ _ I PE)) as (d & _ & D & _). by exists d. }
    { intros _ path' m I PE. right. by exists path', m. }
    { intros c E. exfalso. apply NX. rewrite explicit_a by done. by rewrite E. }
    assert (DM : forall c, ConcMeta.dvals path calls Start c -> made (meta_in c)).
    { intros c V.
      assert (exists c0 d us, Start c0 /\ from_text as_map c0 = Ok d /\ Forall (requests calls path) us
        /\ (c = c0 /\ us = [] \/ c = print (JObj (foldl merge_doc d us)))) as (c0 & d & us & S & D & U & Ec).
      { destruct V as [S|(c0 & d & us & S & D & U & ->)].
        - destruct S as (path' & m & I & PE & E). destruct (enc_meta_doc m (RD _ _ I PE)) as (d & _ & D & _).
          exists c, d, []. split_and!; [by exists path', m|by rewrite E|done|by left].
        - exists c0, d, us. auto. }
      destruct S as (path' & m & I & PE & ->). destruct (enc_meta_doc m (RD _ _ I PE)) as (d' & m' & D' & M' & SM & FM).
      assert (d' = d) as -> by congruence. pose proof (as_map_doc_ok _ _ D) as DK.
      destruct (updated_meta calls path UOK us U d m' DK M') as (new & E1 & E2).
      assert (doc_attrs d = Ok (am_attrs m)) as A0.
      { destruct (dec_meta_merge d [] m' DK) as [X _]; [by split|done|]. unfold doc_attrs. rewrite X.
        f_equal. apply SM. }
      destruct (updated_attrs calls path UOK us U d (am_attrs m) DK A0) as (new' & E3 & E4 & _).
      assert (new' = new) as -> by congruence.
      assert (from_text dec_meta c = Ok (with_attrs m' new)) as EM.
      { destruct Ec as [[-> ->]| ->].
        - cbn [foldl] in E1. congruence.
        - assert (doc_ok (foldl merge_doc d us)) as [[O1 O2] O3] by by apply (merged_ok path calls UOK).
          by rewrite from_text_print. }
      assert (am_exts m' = am_exts m) as Ex by apply SM.
      exists path', m, m', new. split_and!; try done.
      - intros RE. unfold meta_in. rewrite EM, bind_ok. cbn [with_attrs am_exts]. rewrite Ex.
        by rewrite check_exts_err.
      - intros RE. unfold meta_in. rewrite EM, bind_ok. cbn [with_attrs am_exts]. rewrite Ex.
        by rewrite check_exts_ok. }
    assert (MK : (forall c, c ∈ calls -> ~ removes_node c path) -> forall e c i, is_node_ext e -> calls !! i = Some c -> returned ps i (YUnit (Ok tt)) ->
      makes (nloc H e path) H c -> exists x, file_at (view o') (nloc H e path) = Some x).
    { intros NR e c i IE E R M. destruct (kept (nloc H e path) (P_node_ne H GS e path IE) C h H sl PB GS o calls o' ps OK) as [K _]; [| |done|by eapply K].
      - intros path' m pos _ X. symmetry in X. by apply loc_node_chunk in X; [|done|apply GS].
      - intros path' ord fuel I. pose proof (OK _ I) as (O1 & O2). pose proof (NR _ I) as X. cbn in X. split_and!.
        + intros Y. by apply loc_node_inj in Y as [Y _]; [|done|done|apply GS|done|done].
        + intros Y. by apply loc_node_inj in Y as [Y _]; [|done|done|apply GS|done|done].
        + intros [k Y]. destruct (nloc_meta H GS e path IE) as [r Z]. rewrite Z, <- app_assoc in Y.
          by apply app_inv_head in Y. }
    split_and!.
    - intros i path' rs a E PE R. destruct (X1 i _ a E R) as (st & _ & F). cbn in F.
      destruct (F PE) as (r & -> & Y). exists r. split; [done|]. destruct (Y eq_refl) as [(c & [V|[_ ->]] & ->)|[_ ?]]; [| |by right].
      + left. by apply DM.
      + right. by eexists.
    - intros NR. split.
      + intros i path' m E PE R. rewrite explicit_a by done. destruct (MK NR AX _ i IA E R) as [x ->]; [|done].
        cbn. by apply (nloc_same H GS path AX).
      + intros i path' E PE R. rewrite explicit_g by done. destruct (MK NR GX _ i IG E R) as [x ->]; [|done].
        cbn. by apply (nloc_same H GS path GX).
    - intros AR. destruct (X3 AR) as (Y1 & Y2 & _). split_and!; [done|done|].
      rewrite explicit_a by done. destruct (file_at (view o') (nloc H AX path)) as [c|] eqn:F; [|done]. intros _.
      rewrite (meta_at _ _ X2 F). by apply DM, Y2.
  Qed.
End Node.
