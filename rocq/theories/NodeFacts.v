(** Facts about metadata documents in the store: creation, attributes. *)
From Verif Require Import Hier Spec SpecMeta BaseFacts DataTypeFacts PathFacts FSFacts KeyFacts HierFacts
  JsonFacts JsonPrefix MetaJsonFacts.
Local Open Scope Z_scope.

(** ** Overwriting an existing file *)

Section overwrite.
Context (s : fs) (p : fpath) (c c' : bytes).
Hypothesis F : node_at s p = Some (File c).
Let s' : fs := <[p := File c']> s.

Lemma ow_ne : p <> [].
Proof. intros ->. done. Qed.
Lemma ow_node q : node_at s' q = if decide (q = p) then Some (File c') else node_at s q.
Proof. unfold s'. apply node_at_insert, ow_ne. Qed.
Lemma ow_dir q : node_at s' q = Some Dir <-> node_at s q = Some Dir.
Proof. rewrite ow_node. case_decide as E; [|done]. subst. by rewrite F. Qed.
Lemma ow_walk cs : forall cur, walk s' cur cs = walk s cur cs.
Proof.
  induction cs as [|x cs IH]; intros cur; [done|]. cbn [walk]. rewrite ow_node.
  case_decide as E; [subst; by rewrite F|]. by destruct (node_at s cur) as [[|]|].
Qed.
Lemma ow_is_file cs : path_is_file s' cs = path_is_file s cs.
Proof.
  unfold path_is_file, stat. rewrite ow_walk. destruct (walk s [] cs) as [q| |]; [|done..].
  rewrite ow_node. case_decide as E; [subst; by rewrite F|done].
Qed.
Lemma ow_exists cs : path_exists s' cs = path_exists s cs.
Proof.
  unfold path_exists, stat. rewrite ow_walk. destruct (walk s [] cs) as [q| |]; [|done..].
  rewrite ow_node. case_decide as E; [subst; by rewrite F|done].
Qed.
Lemma ow_open cs : walk s [] cs <> Ok p -> open_read s' cs = open_read s cs.
Proof.
  intros N. unfold open_read. rewrite ow_walk. destruct (walk s [] cs) as [q| |]; [|done..].
  cbn [mbind res_bind]. rewrite ow_node. case_decide as E; [by subst|done].
Qed.
Lemma ow_st_exists base key : st_exists base s' key = st_exists base s key.
Proof. unfold st_exists. destruct (key_comps base key); [|done..]. cbn. by rewrite ow_is_file. Qed.
Lemma ow_st_get base key : (forall cs, key_comps base key = Ok cs -> walk s [] cs <> Ok p) ->
  st_get base s' key = st_get base s key.
Proof.
  intros N. unfold st_get. destruct (key_comps base key) as [cs| |]; [|done..].
  cbn [mbind res_bind]. rewrite ow_is_file. by rewrite ow_open by by apply N.
Qed.
Lemma ow_node_key H path : node_key H s' path = node_key H s path.
Proof. unfold node_key. by rewrite !ow_st_exists. Qed.
Lemma ow_changed : one_file_changed s s' p.
Proof.
  split.
  - exists c, c'. split; [done|]. rewrite ow_node. by rewrite decide_True.
  - intros q Hq. rewrite ow_node. by rewrite decide_False.
Qed.
Lemma ow_wf : wf_fs s -> wf_fs s'.
Proof.
  intros W q n x. unfold s'. destruct (decide (q ++ [x] = p)) as [E|N].
  - intros _. apply ow_dir. pose proof F as F'. rewrite <- E in F'. rewrite node_at_ne in F' by by destruct q.
    by eapply W.
  - rewrite lookup_insert_ne by done. intros E. apply ow_dir. by eapply W.
Qed.
End overwrite.

Lemma walk_parent s cs p : walk s [] cs = Ok p -> cs <> [] -> path_exists s (parent_comps cs) = true.
Proof.
  intros Hw Hn. unfold path_exists, stat, parent_comps.
  destruct cs as [|x cs] using rev_ind; [done|]. clear IHcs.
  rewrite app_length. cbn [length]. replace (length cs + 1 - 1)%nat with (length cs) by lia.
  rewrite take_app. rewrite walk_app in Hw. apply bind_ok_inv in Hw as (q & H1 & H2).
  rewrite H1. cbn [walk] in H2. by destruct (node_at s q) as [[|]|].
Qed.

(** Setting a key that holds a file changes that file only. *)
Lemma st_set_existing base s key c : st_get base s key = Ok (Some c) ->
  exists cs p, key_comps base key = Ok cs /\ walk s [] cs = Ok p /\ node_at s p = Some (File c)
  /\ forall v, st_set base s key v = (<[p := File (fst v)]> s, snd v).
Proof.
  unfold st_get, st_set. destruct (key_comps base key) as [cs| |]; [|done..].
  cbn [mbind res_bind]. destruct (path_is_file s cs) eqn:E; [|done].
  unfold open_read. intros H. apply bind_ok_inv in H as (c0 & H & [= ->]).
  destruct (walk s [] cs) as [p| |] eqn:Ew; [|done..]. cbn [mbind res_bind] in H.
  destruct (node_at s p) as [[|c1]|] eqn:En; [done| |done]. injection H as ->.
  exists cs, p. split; [done|]. split; [done|]. split; [done|]. intros v.
  destruct cs as [|x cs].
  { cbn in Ew. injection Ew as <-. done. }
  rewrite (walk_parent _ _ _ Ew) by done. unfold open_truncate. rewrite Ew, En.
  by rewrite insert_insert.
Qed.
Lemma st_get_at base s key cs p c : key_comps base key = Ok cs -> walk s [] cs = Ok p ->
  node_at s p = Some (File c) -> st_get base s key = Ok (Some c).
Proof.
  intros H1 H2 H3. unfold st_get. rewrite H1. cbn [mbind res_bind].
  unfold path_is_file, stat, open_read. rewrite H2. cbn [mbind res_bind]. by rewrite H3.
Qed.
Lemma st_exists_get base s key c : st_get base s key = Ok (Some c) -> st_exists base s key = Ok true.
Proof.
  unfold st_get, st_exists. destruct (key_comps base key) as [cs| |]; [|done..].
  cbn [mbind res_bind]. by destruct (path_is_file s cs).
Qed.
Lemma st_exists_true_get base s key : st_exists base s key = Ok true ->
  exists c, st_get base s key = Ok (Some c).
Proof.
  unfold st_get, st_exists. destruct (key_comps base key) as [cs| |]; [|done..].
  cbn [mbind res_bind]. intros [= E]. rewrite E. revert E. unfold path_is_file, stat, open_read.
  destruct (walk s [] cs) as [p| |]; [|done..]. cbn [mbind res_bind].
  destruct (node_at s p) as [[|c]|]; [done| |done]. by exists c.
Qed.

(** ** Reading metadata *)

Lemma check_exts_ok l : ~ requires_extension l -> check_exts l = Ok tt.
Proof.
  intros H. unfold check_exts. destruct (existsb _ l) eqn:E; [|done]. exfalso. apply H.
  apply existsb_exists in E as (e & H1 & H2). exists e. split; [by apply elem_of_list_In|done].
Qed.
Lemma check_exts_err l : requires_extension l -> check_exts l = Err Other.
Proof.
  intros (e & H1 & H2). unfold check_exts. destruct (existsb _ l) eqn:E; [done|].
  assert (existsb em_must_understand l = true) by (apply existsb_exists; exists e;
    split; [by apply elem_of_list_In|done]). congruence.
Qed.
Lemma get_meta_text H s path text m : st_get (hy_base H) s (akey H path) = Ok (Some text) ->
  from_text dec_meta text = Ok m ->
  get_array_metadata H s path = (_ ← check_exts (am_exts m); Ok m).
Proof. intros H1 H2. unfold get_array_metadata. rewrite H1, bind_ok. cbn [of_option]. rewrite bind_ok. by rewrite H2, bind_ok. Qed.

Lemma required_extensions H s path text m :
  st_get (hy_base H) s (akey H path) = Ok (Some text) -> from_text dec_meta text = Ok m ->
  (requires_extension (am_exts m) -> get_array_metadata H s path = Err Other)
  /\ (~ requires_extension (am_exts m) -> get_array_metadata H s path = Ok m).
Proof.
  intros H1 H2. rewrite (get_meta_text _ _ _ _ _ H1 H2). split; intros H3.
  - by rewrite check_exts_err.
  - by rewrite check_exts_ok.
Qed.

(** ** Creation *)

Lemma create_array_get H s path m s' : create_array H s path m = (s', Ok tt) ->
  st_get (hy_base H) s' (akey H path) = Ok (Some (print (enc_meta m))).
Proof.
  unfold create_array, on. destruct (st_exists _ s (gkey H path)) as [[]| |]; [done| |done..].
  destruct (st_exists _ s (akey H path)) as [[]| |]; [done| |done..].
  intros E. by apply (st_set_get _ _ _ _ _ _ E).
Qed.
Lemma create_array_persists H s path m s' :
  meta_value m -> nesting_ok m -> no_raw (am_dtype m) ->
  create_array H s path m = (s', Ok tt) ->
  (requires_extension (am_exts m) -> get_array_metadata H s' path = Err Other)
  /\ (~ requires_extension (am_exts m) ->
      exists m', get_array_metadata H s' path = Ok m' /\ same_meta m m').
Proof.
  intros H1 H2 H3 E%create_array_get.
  destruct (read_enc_meta m H1 H3 H2) as (m' & Hm & Hs).
  destruct (required_extensions _ _ _ _ _ E Hm) as [A1 A2].
  assert (am_exts m' = am_exts m) as Ex by apply Hs. rewrite Ex in A1, A2.
  split; [done|]. intros N. exists m'. split; [by apply A2|done].
Qed.
Lemma dec_meta_raw m n : meta_value m -> is_u64 n -> am_dtype m = Core (DRaw n) ->
  dec_meta (enc_meta m) = Err InvalidData.
Proof.
  intros ((Hsh & Hcs) & _) Hn Hd. unfold dec_meta, enc_meta. rewrite Hd. cbn [as_struct app]. rewrite bind_ok.
  assert (exists m1, m1 = (if compression_is_default (am_comp m) then []
                           else [(B "compressor", enc_comp (am_comp m))])) as [m1 Em1] by by eexists.
  rewrite <- Em1.
  assert (forall k, beq k (B "compressor") = false -> existsb (beq k) (map fst m1) = false) as Hm1.
  { intros k Hk. subst m1. destruct (compression_is_default _); [done|]. cbn [map fst existsb].
    by rewrite Hk. }
  clear Em1.
  req_by ltac:(cbn [map fst existsb]; rewrite Hm1 by reflexivity; reflexivity).
  cbn [as_arr]. rewrite bind_ok. rewrite mapM_as_int by exact Hsh. rewrite bind_ok.
  req_by ltac:(cbn [map fst existsb]; rewrite Hm1 by reflexivity; reflexivity).
  unfold dec_dtype, dec_core. cbn [enc_dtype as_str]. rewrite bind_ok.
  rewrite raw_string_rejected by done. done.
Qed.
Lemma create_raw_unreadable H s path m n s' :
  meta_value m -> nesting_ok m -> is_u64 n -> am_dtype m = Core (DRaw n) ->
  create_array H s path m = (s', Ok tt) -> get_array_metadata H s' path = Err InvalidData.
Proof.
  intros H1 H2 H3 H4 E%create_array_get. unfold get_array_metadata. rewrite E, bind_ok.
  cbn [of_option]. rewrite bind_ok. rewrite from_text_print; [|by apply enc_meta_ok|apply enc_meta_depth; [apply H1|done]].
  by rewrite (dec_meta_raw m n).
Qed.

(** The attributes a new node has. *)
Lemma node_key_array H s path c : st_get (hy_base H) s (akey H path) = Ok (Some c) ->
  node_key H s path = Ok (akey H path).
Proof. intros E. unfold node_key. by rewrite (st_exists_get _ _ _ _ E), bind_ok. Qed.
Lemma node_document_attrs H s path doc a : node_document H s path = Ok doc ->
  list_attributes H s path =
    match mget ATTRIBUTES_NAME doc with
    | Some (JObj a) => Ok a
    | Some _ => Err InvalidData
    | None => Ok []
    end
  /\ (list_attributes H s path = Ok a ->
      mget ATTRIBUTES_NAME doc = Some (JObj a) \/ mget ATTRIBUTES_NAME doc = None /\ a = []).
Proof.
  unfold node_document, list_attributes. intros H1.
  apply bind_ok_inv in H1 as (k & -> & H1). rewrite bind_ok.
  apply bind_ok_inv in H1 as (o & -> & H1). rewrite bind_ok.
  apply bind_ok_inv in H1 as (text & -> & H1). rewrite bind_ok.
  unfold from_text in *. apply bind_ok_inv in H1 as (j & -> & H1). rewrite bind_ok.
  unfold dec_value. rewrite bind_ok. unfold as_map in H1. destruct (norm j); try done. injection H1 as ->.
  split; [done|]. destruct (mget _ doc) as [[]|]; try done.
  - intros [= ->]. by left.
  - intros [= <-]. by right.
Qed.
Lemma from_text_as_map_obj text j m : parse text = Some j -> norm j = JObj m ->
  from_text as_map text = Ok m.
Proof. intros H1 H2. unfold from_text, as_map. rewrite H1. cbn. by rewrite H2. Qed.

Lemma norm_obj m : norm (JObj m) = JObj (norm_map m).
Proof. done. Qed.
Lemma create_array_attrs H s path m s' : meta_value m -> nesting_ok m ->
  create_array H s path m = (s', Ok tt) -> list_attributes H s' path = Ok (am_attrs m).
Proof.
  intros H1 H2 E%create_array_get. unfold list_attributes.
  rewrite (node_key_array _ _ _ _ E), bind_ok, E, bind_ok. cbn [of_option]. rewrite bind_ok.
  rewrite from_text_print; [|by apply enc_meta_ok|apply enc_meta_depth; [apply H1|done]].
  unfold dec_value. rewrite bind_ok. unfold enc_meta. rewrite norm_obj.
  assert (exists m1, m1 = (if compression_is_default (am_comp m) then []
                           else [(B "compressor", enc_comp (am_comp m))])) as [m1 Em1] by by eexists.
  rewrite <- Em1.
  assert (forall k, beq k (B "compressor") = false -> existsb (beq k) (map fst m1) = false) as Hm1.
  { intros k Hk. subst m1. destruct (compression_is_default _); [done|]. cbn [map fst existsb].
    by rewrite Hk. }
  clear Em1. cbn [app].
  match goal with |- context [norm_map ?l] => remember l as L eqn:EL end.
  assert (field ATTRIBUTES_NAME L = Ok (Some (JObj (am_attrs m)))) as Hf.
  { rewrite EL. unfold ATTRIBUTES_NAME. hit_by ltac:(cbn [map fst existsb]; rewrite Hm1 by reflexivity; reflexivity). }
  apply norm_map_field in Hf. rewrite sorted_field in Hf by apply norm_map_sorted.
  injection Hf as Hf. rewrite Hf. destruct H1 as (_ & _ & [Ha _] & _).
  apply norm_value in Ha. rewrite norm_obj in Ha. injection Ha as Ha. exact (f_equal Ok Ha).
Qed.
Lemma create_group_attrs H s path s' : create_group H s path = (s', Ok tt) ->
  st_exists (hy_base H) s (gkey H path) = Ok false ->
  st_exists (hy_base H) s' (akey H path) = Ok false ->
  list_attributes H s' path = Ok [].
Proof.
  unfold create_group, on. destruct (st_exists _ s (akey H path)) as [[]| |]; [done| |done..].
  intros E E1 E2. rewrite E1 in E. pose proof (st_set_get _ _ _ _ _ _ E eq_refl) as G. cbn [fst] in G.
  unfold list_attributes, node_key. rewrite E2, bind_ok, (st_exists_get _ _ _ _ G), bind_ok, bind_ok, G.
  reflexivity.
Qed.

(** ** Updating attributes *)

Lemma merge_doc_sorted doc attrs : sorted doc -> sorted (merge_doc doc attrs).
Proof. intros H. unfold merge_doc. destruct (mget _ doc); by apply minsert_sorted. Qed.
Lemma merge_doc_other doc attrs k : sorted doc -> k <> ATTRIBUTES_NAME ->
  mget k (merge_doc doc attrs) = mget k doc.
Proof.
  intros H N. unfold merge_doc. destruct (mget _ doc); rewrite mget_minsert by done;
    by rewrite (proj2 (beq_false _ _) N).
Qed.
Lemma merge_doc_attrs doc attrs : sorted doc ->
  mget ATTRIBUTES_NAME (merge_doc doc attrs)
  = Some (match mget ATTRIBUTES_NAME doc with
          | Some (JObj old) => JObj (mmerge old attrs)
          | _ => JObj attrs
          end).
Proof.
  intros H. unfold merge_doc. destruct (mget _ doc) as [v|] eqn:E; rewrite mget_minsert by done;
    rewrite beq_refl; [|done]. by destruct v.
Qed.
Definition doc_ok (m : jmap) : Prop := value_ok (JObj m) /\ (jdepth (JObj m) <= 127)%nat.
Lemma doc_ok_iff m : doc_ok m <->
  sorted m /\ Forall (fun kv => is_value (snd kv) = true /\ utf8_ok (fst kv) && json_ok (snd kv) = true
                                /\ (jdepth (snd kv) <= 126)%nat) m.
Proof.
  unfold doc_ok, value_ok. rewrite jdepth_obj. cbn [is_value json_ok].
  rewrite andb_true_iff, !forallb_Forall, keys_sorted_spec. rewrite !list.Forall_and. tauto.
Qed.
Lemma merge_doc_ok doc attrs : doc_ok doc -> value_ok (JObj attrs) -> (jdepth (JObj attrs) <= 126)%nat ->
  doc_ok (merge_doc doc attrs).
Proof.
  intros Hd [Hv Hj] Hdep. rewrite doc_ok_iff in Hd |- *. destruct Hd as [Hs Hf].
  split; [by apply merge_doc_sorted|].
  unfold merge_doc. destruct (mget ATTRIBUTES_NAME doc) as [old|] eqn:E.
  2: { by apply Forall_minsert. }
  apply Forall_minsert; [|done]. cbn [fst snd]. change (utf8_ok ATTRIBUTES_NAME) with true. cbn [andb].
  apply mget_elem in E. rewrite list.Forall_forall in Hf. destruct (Hf _ E) as (O1 & O2 & O3). cbn [fst snd] in *. apply andb_prop in O2 as [_ O2].
  destruct old as [| | | | | |old]; cbn [merge_top_level]; try done.
  assert (doc_ok (mmerge old attrs) /\ (jdepth (JObj (mmerge old attrs)) <= 126)%nat) as [[[X1 X2] _] X3].
  2: { done. }
  assert (Forall (fun kv => is_value (snd kv) = true /\ utf8_ok (fst kv) && json_ok (snd kv) = true
                                /\ (jdepth (snd kv) <= 125)%nat) (mmerge old attrs)) as Hall.
  { cbn [is_value json_ok] in Hv, Hj, O1, O2. rewrite andb_true_iff, forallb_Forall in Hv, O1.
    rewrite forallb_Forall in Hj, O2. apply jdepth_obj in Hdep, O3.
    apply Forall_mmerge; rewrite !list.Forall_and; tauto. }
  split.
  - apply doc_ok_iff. split.
    + apply mmerge_sorted. cbn [is_value] in O1. apply andb_true_iff in O1 as [O1 _]. by apply keys_sorted_spec.
    + eapply list.Forall_impl; [exact Hall|]. cbn. intros kv (? & ? & ?). repeat split; [done|done|lia].
  - apply jdepth_obj. eapply list.Forall_impl; [exact Hall|]. by intros kv (? & ? & ?).
Qed.
Lemma as_map_doc_ok text m : from_text as_map text = Ok m -> doc_ok m.
Proof.
  unfold from_text, as_map. intros H. apply bind_ok_inv in H as (j & H1 & H2).
  destruct (parse text) as [j'|] eqn:E; [|done]. injection H1 as ->.
  apply parse_ok in E as [E1 E2].
  pose proof (norm_is_value j) as N1. pose proof (norm_json_ok j E1) as N2. pose proof (norm_jdepth j) as N3.
  destruct (norm j); try done. injection H2 as ->. split; [done|lia].
Qed.
Lemma doc_ok_reads m : doc_ok m -> from_text as_map (print (JObj m)) = Ok m.
Proof.
  intros [[H1 H2] H3]. rewrite from_text_print by done. by apply as_map_value.
Qed.

(** What a successful or unsuccessful update does. *)
Lemma set_attributes_spec H s path attrs doc :
  node_document H s path = Ok doc -> value_ok (JObj attrs) -> (jdepth (JObj attrs) <= 126)%nat ->
  exists s', set_attributes H s path attrs = (s', Ok tt)
  /\ node_document H s' path = Ok (merge_doc doc attrs)
  /\ (s' = s /\ merge_doc doc attrs = doc
      \/ exists k, node_key H s path = Ok k
                   /\ st_get (hy_base H) s' k = Ok (Some (print (JObj (merge_doc doc attrs)))))
  /\ exists k cs p c, node_key H s path = Ok k /\ key_comps (hy_base H) k = Ok cs /\ walk s [] cs = Ok p
     /\ node_at s p = Some (File c)
     /\ exists c', s' = <[p := File c']> s.
Proof.
  intros Hdoc Hv Hdep. unfold node_document in Hdoc.
  apply bind_ok_inv in Hdoc as (k & Hk & Hdoc). apply bind_ok_inv in Hdoc as (o & Ho & Hdoc).
  apply bind_ok_inv in Hdoc as (text & Ht & Hdoc). destruct o as [c|]; [|done]. injection Ht as ->.
  destruct (st_set_existing _ _ _ _ Ho) as (cs & p & Hc & Hw & Hn & Hset).
  unfold set_attributes, on. rewrite Hk, Ho. cbn [of_option]. rewrite Hdoc.
  pose proof (as_map_doc_ok _ _ Hdoc) as Hok.
  pose proof (merge_doc_ok _ _ Hok Hv Hdep) as Hok'.
  destruct (json_eqb _ _) eqn:E.
  - apply json_eqb_true in E. injection E as E. exists s. split; [done|]. split.
    + unfold node_document. rewrite Hk, bind_ok, Ho, bind_ok. cbn [of_option]. rewrite bind_ok, E. done.
    + split; [by left|]. exists k, cs, p, text. split; [done|]. split; [done|]. split; [done|]. split; [done|].
      exists text. rewrite insert_id; [done|]. rewrite node_at_ne in Hn; [done|]. intros ->. done.
  - rewrite Hset. cbn [fst snd]. eexists. split; [done|]. split.
    + unfold node_document. rewrite (ow_node_key _ _ text) by done. rewrite Hk, bind_ok.
      erewrite st_get_at; [|exact Hc|rewrite (ow_walk _ _ text) by done; exact Hw|
        rewrite (ow_node _ _ text) by done; by rewrite decide_True].
      rewrite bind_ok. cbn [of_option]. rewrite bind_ok. by apply doc_ok_reads.
    + split.
      { right. exists k. split; [done|]. eapply st_get_at; [exact Hc|rewrite (ow_walk _ _ text) by done; exact Hw|].
        rewrite (ow_node _ _ text) by done. by rewrite decide_True. }
      exists k, cs, p, text. split; [done|]. split; [done|]. split; [done|]. split; [done|]. by eexists.
Qed.

Lemma field_merge_other doc attrs k : sorted doc -> beq k ATTRIBUTES_NAME = false ->
  field k (merge_doc doc attrs) = field k doc.
Proof.
  intros H N%beq_false. rewrite !sorted_field by (done || by apply merge_doc_sorted).
  by rewrite merge_doc_other.
Qed.
Lemma required_merge_other doc attrs k : sorted doc -> beq k ATTRIBUTES_NAME = false ->
  required k (merge_doc doc attrs) = required k doc.
Proof. intros H N. unfold required. by rewrite field_merge_other. Qed.

Lemma dec_meta_merge doc attrs m : doc_ok doc -> value_ok (JObj attrs) ->
  dec_meta (JObj doc) = Ok m ->
  mget ATTRIBUTES_NAME doc = Some (JObj (am_attrs m))
  /\ dec_meta (JObj (merge_doc doc attrs)) = Ok (with_attrs m (mmerge (am_attrs m) attrs)).
Proof.
  intros Hd Hv. pose proof (proj1 (doc_ok_iff _) Hd) as [Hs Hf].
  unfold dec_meta. cbn [as_struct]. rewrite !bind_ok. intros H.
  bstep H sh0 H1. rewrite (required_merge_other doc attrs (B "shape")), H1, bind_ok by (exact Hs || reflexivity).
  bstep H sh1 H2. rewrite H2, bind_ok. bstep H sh H3. rewrite H3, bind_ok.
  bstep H dt0 H4. rewrite (required_merge_other doc attrs (B "data_type")), H4, bind_ok by (exact Hs || reflexivity).
  bstep H dt H5. rewrite H5, bind_ok.
  bstep H g0 H6. rewrite (required_merge_other doc attrs (B "chunk_grid")), H6, bind_ok by (exact Hs || reflexivity).
  bstep H g H7. rewrite H7, bind_ok.
  bstep H a1 H8. rewrite H8, bind_ok. bstep H a2 H9. rewrite H9, bind_ok.
  bstep H a3 H10. rewrite H10, bind_ok. bstep H a4 H11. rewrite H11, bind_ok.
  bstep H a5 H12. rewrite H12, bind_ok. bstep H a6 H13. rewrite H13, bind_ok.
  bstep H a7 H14. rewrite H14, bind_ok.
  bstep H ol0 H15. rewrite (required_merge_other doc attrs (B "chunk_memory_layout")), H15, bind_ok by (exact Hs || reflexivity).
  bstep H ol H16. rewrite H16, bind_ok.
  bstep H fv0 H17. rewrite (field_merge_other doc attrs (B "fill_value")), H17, bind_ok by (exact Hs || reflexivity).
  bstep H fv H18. rewrite H18, bind_ok.
  bstep H ex0 H19. rewrite (required_merge_other doc attrs (B "extensions")), H19, bind_ok by (exact Hs || reflexivity).
  bstep H ex1 H20. rewrite H20, bind_ok. bstep H exs H21. rewrite H21, bind_ok.
  bstep H at0 H22. bstep H at1 H23.
  bstep H cp0 H24. bstep H cp H25. injection H as <-. cbn [am_attrs].
  assert (mget ATTRIBUTES_NAME doc = Some at0) as Ha.
  { unfold required in H22. rewrite sorted_field in H22 by done. rewrite bind_ok in H22.
    change (B "attributes") with ATTRIBUTES_NAME in H22. 
    destruct (mget ATTRIBUTES_NAME doc) as [x|]; cbn [of_option] in H22; [|discriminate H22].
    by injection H22 as ->. }
  assert (at0 = JObj at1) as ->.
  { apply mget_elem in Ha. rewrite list.Forall_forall in Hf. destruct (Hf _ Ha) as (O1 & _). cbn [snd] in O1.
    unfold as_map in H23. rewrite (norm_value at0) in H23 by done. destruct at0; try done. by injection H23 as ->. }
  split; [done|].
  assert (required (B "attributes") (merge_doc doc attrs) = Ok (JObj (mmerge at1 attrs))) as ->.
  { unfold required. rewrite sorted_field by by apply merge_doc_sorted. rewrite bind_ok.
    change (B "attributes") with ATTRIBUTES_NAME. rewrite merge_doc_attrs by done. by rewrite Ha. }
  rewrite bind_ok. rewrite as_map_value.
  2: { cbn [is_value]. rewrite andb_true_iff, forallb_Forall, keys_sorted_spec.
    assert (is_value (JObj at1) = true) as X1.
    { apply mget_elem in Ha. rewrite list.Forall_forall in Hf. by destruct (Hf _ Ha). }
    destruct Hv as [X2 _]. cbn [is_value] in X1, X2. rewrite andb_true_iff, forallb_Forall, keys_sorted_spec in X1, X2.
    split; [apply mmerge_sorted; tauto|]. apply Forall_mmerge; tauto. }
  rewrite bind_ok. rewrite (field_merge_other doc attrs (B "compressor")), H24, bind_ok by (exact Hs || reflexivity). rewrite H25, bind_ok. done.
Qed.

Lemma mmerge_overridden old attrs : sorted old -> sorted attrs -> overridden old attrs (mmerge old attrs).
Proof.
  intros H1 H2. split; [apply keys_sorted_spec; by apply mmerge_sorted|].
  intros k. by apply mget_mmerge.
Qed.

(** Attributes after an update. *)
Lemma set_attributes_read H s path attrs doc old :
  node_document H s path = Ok doc -> list_attributes H s path = Ok old ->
  value_ok (JObj attrs) -> (jdepth (JObj attrs) <= 126)%nat ->
  exists s' new, set_attributes H s path attrs = (s', Ok tt)
  /\ list_attributes H s' path = Ok new /\ overridden old attrs new
  /\ exists doc', node_document H s' path = Ok doc'.
Proof.
  intros Hdoc Hold Hv Hdep.
  destruct (set_attributes_spec _ _ _ _ _ Hdoc Hv Hdep) as (s' & E & Hdoc' & _).
  assert (doc_ok doc) as Hok.
  { unfold node_document in Hdoc. apply bind_ok_inv in Hdoc as (k & _ & Hdoc).
    apply bind_ok_inv in Hdoc as (o & _ & Hdoc). apply bind_ok_inv in Hdoc as (text & _ & Hdoc).
    by eapply as_map_doc_ok. }
  pose proof (proj1 (doc_ok_iff _) Hok) as [Hs Hf].
  pose proof Hv as [Hv1 _]. cbn [is_value] in Hv1. rewrite andb_true_iff, keys_sorted_spec in Hv1.
  destruct Hv1 as [Hsa _].
  exists s'. destruct (node_document_attrs _ _ _ _ old Hdoc) as [_ Ho].
  destruct (node_document_attrs _ _ _ _ [] Hdoc') as [E' _].
  rewrite merge_doc_attrs in E' by done.
  destruct (Ho Hold) as [Ea|[Ea ->]]; rewrite Ea in E'.
  - exists (mmerge old attrs). split; [done|]. split; [done|]. split; [|by eexists].
    apply mmerge_overridden; [|done]. apply mget_elem in Ea. rewrite list.Forall_forall in Hf.
    destruct (Hf _ Ea) as (O1 & _). cbn [snd is_value] in O1. rewrite andb_true_iff, keys_sorted_spec in O1. tauto.
  - exists attrs. split; [done|]. split; [done|]. split; [|by eexists].
    split; [by apply keys_sorted_spec|]. intros k. by destruct (mget k attrs).
Qed.

Lemma set_many_read H path : forall us s doc old,
  node_document H s path = Ok doc -> list_attributes H s path = Ok old ->
  Forall (fun u => value_ok (JObj u) /\ (jdepth (JObj u) <= 126)%nat) us ->
  exists s' new, set_many H s path us = (s', map (fun _ => Ok tt) us)
  /\ list_attributes H s' path = Ok new /\ forall k, mget k new = latest k old us.
Proof.
  induction us as [|u us IH]; intros s doc old Hdoc Hold Hus.
  { exists s, old. done. }
  apply list.Forall_cons in Hus as [[Hv Hd] Hus].
  destruct (set_attributes_read _ _ _ _ _ _ Hdoc Hold Hv Hd) as (s1 & new1 & E & Hn & [_ Ho] & doc1 & Hd1).
  destruct (IH s1 doc1 new1 Hd1 Hn Hus) as (s2 & new & E2 & Hl & Hk).
  exists s2, new. split; [|split; [done|]].
  - cbn [set_many map]. by rewrite E, E2.
  - intros k. rewrite Hk. unfold latest. cbn [foldl]. by rewrite Ho.
Qed.

(** What else an update changes: nothing. *)
Lemma set_attributes_rest H s path attrs doc :
  node_document H s path = Ok doc -> value_ok (JObj attrs) -> (jdepth (JObj attrs) <= 126)%nat ->
  exists s' p doc', set_attributes H s path attrs = (s', Ok tt)
  /\ one_file_changed s s' p
  /\ (exists k cs, node_key H s path = Ok k /\ key_comps (hy_base H) k = Ok cs /\ walk s [] cs = Ok p)
  /\ node_document H s' path = Ok doc'
  /\ (forall k, k <> ATTRIBUTES_NAME -> mget k doc' = mget k doc).
Proof.
  intros Hdoc Hv Hdep.
  destruct (set_attributes_spec _ _ _ _ _ Hdoc Hv Hdep) as (s' & E & Hdoc' & Hor & k & cs & p & c & Hk & Hc & Hw & Hn & c' & ->).
  exists (<[p := File c']> s), p, (merge_doc doc attrs). split; [done|]. split; [by eapply ow_changed|].
  split; [by exists k, cs|]. split; [done|].
  intros k' N. apply merge_doc_other; [|done].
  unfold node_document in Hdoc. apply bind_ok_inv in Hdoc as (k0 & _ & Hdoc).
  apply bind_ok_inv in Hdoc as (o & _ & Hdoc). apply bind_ok_inv in Hdoc as (text & _ & Hdoc).
  apply as_map_doc_ok in Hdoc. exact (proj1 (proj1 (doc_ok_iff _) Hdoc)).
Qed.

(** Array metadata after an update. *)
Lemma get_meta_document H s path m doc : get_array_metadata H s path = Ok m -> node_document H s path = Ok doc ->
  doc_ok doc /\ dec_meta (JObj doc) = Ok m
  /\ node_key H s path = Ok (akey H path) /\ check_exts (am_exts m) = Ok tt.
Proof.
  unfold get_array_metadata. intros E Hdoc. apply bind_ok_inv in E as (o & Ho & E).
  apply bind_ok_inv in E as (text & Ht & E). destruct o as [c|]; [|done]. injection Ht as ->.
  apply bind_ok_inv in E as (m' & Hm & E). apply bind_ok_inv in E as ([] & Hc & [= ->]).
  unfold node_document in Hdoc. rewrite (node_key_array _ _ _ _ Ho), bind_ok, Ho, bind_ok in Hdoc.
  cbn [of_option] in Hdoc. rewrite bind_ok in Hdoc.
  split; [by eapply as_map_doc_ok|]. split; [|split; [by eapply node_key_array|done]].
  unfold from_text in Hm, Hdoc. apply bind_ok_inv in Hm as (j & Hj & Hm). rewrite Hj, bind_ok in Hdoc.
  apply stable_dec_meta in Hm. unfold as_map in Hdoc. destruct (norm j); try done. by injection Hdoc as ->.
Qed.
Lemma get_meta_attrs H s path m doc : get_array_metadata H s path = Ok m -> node_document H s path = Ok doc ->
  list_attributes H s path = Ok (am_attrs m).
Proof.
  intros Hm Hdoc. destruct (get_meta_document _ _ _ _ _ Hm Hdoc) as (Hok & Hm' & _).
  destruct (node_document_attrs _ _ _ _ [] Hdoc) as [-> _].
  destruct (dec_meta_merge doc [] m Hok) as [-> _]; [by split|done|done].
Qed.
Lemma create_array_document H s path m s' : meta_value m -> nesting_ok m ->
  create_array H s path m = (s', Ok tt) -> exists doc, node_document H s' path = Ok doc.
Proof.
  intros H1 H2 E%create_array_get. unfold node_document.
  rewrite (node_key_array _ _ _ _ E), bind_ok, E, bind_ok. cbn [of_option]. rewrite bind_ok.
  rewrite from_text_print; [|by apply enc_meta_ok|apply enc_meta_depth; [apply H1|done]].
  by eexists.
Qed.
Lemma set_attributes_meta H s path attrs m doc :
  get_array_metadata H s path = Ok m -> node_document H s path = Ok doc ->
  value_ok (JObj attrs) -> (jdepth (JObj attrs) <= 126)%nat ->
  exists s' a, set_attributes H s path attrs = (s', Ok tt)
  /\ get_array_metadata H s' path = Ok (with_attrs m a) /\ overridden (am_attrs m) attrs a.
Proof.
  intros Hget Hdoc Hv Hdep. destruct (get_meta_document _ _ _ _ _ Hget Hdoc) as (Hok & Hm & Hkey & Hex).
  destruct (set_attributes_spec _ _ _ _ _ Hdoc Hv Hdep) as (s' & E & Hdoc' & Hor & k & cs & p & c & Hk & Hc & Hw & Hn & c' & Es).
  exists s', (mmerge (am_attrs m) attrs). split; [done|].
  destruct (dec_meta_merge _ _ _ Hok Hv Hm) as [Ha Hm'].
  assert (overridden (am_attrs m) attrs (mmerge (am_attrs m) attrs)) as Hov.
  { pose proof (proj1 (doc_ok_iff _) Hok) as [Hs Hf]. apply mget_elem in Ha.
    rewrite list.Forall_forall in Hf. destruct (Hf _ Ha) as (O1 & _). destruct Hv as [O2 _].
    cbn [snd is_value] in O1, O2. rewrite andb_true_iff, keys_sorted_spec in O1, O2.
    apply mmerge_overridden; tauto. }
  split; [|done].
  destruct Hor as [[-> Em]|(k' & Hk' & Hg)].
  - rewrite Em, Hm in Hm'. injection Hm' as Em'. by rewrite <- Em'.
  - assert (k' = akey H path) as -> by congruence.
    pose proof (merge_doc_ok _ _ Hok Hv Hdep) as [[D1 D2] D3].
    rewrite (get_meta_text _ _ _ _ (with_attrs m (mmerge (am_attrs m) attrs)) Hg).
    + cbn [with_attrs am_exts]. by rewrite Hex.
    + by rewrite from_text_print.
Qed.

(** Which keys an update can affect: none but the node's own document. *)
Lemma set_attributes_gets H s path attrs doc s' : 
  node_document H s path = Ok doc -> value_ok (JObj attrs) -> (jdepth (JObj attrs) <= 126)%nat ->
  set_attributes H s path attrs = (s', Ok tt) ->
  (forall key, st_exists (hy_base H) s' key = st_exists (hy_base H) s key)
  /\ exists k, node_key H s path = Ok k /\ forall key,
       (forall cs cs', key_comps (hy_base H) key = Ok cs -> key_comps (hy_base H) k = Ok cs' ->
                       walk s [] cs <> walk s [] cs') ->
       st_get (hy_base H) s' key = st_get (hy_base H) s key.
Proof.
  intros Hdoc Hv Hdep E.
  destruct (set_attributes_spec _ _ _ _ _ Hdoc Hv Hdep) as (s1 & E' & _ & _ & k & cs & p & c & Hk & Hc & Hw & Hn & c' & Es).
  rewrite E in E'. injection E' as <-. subst s'. split; [intros; by eapply ow_st_exists|].
  exists k. split; [done|]. intros key Hkey. eapply ow_st_get; [done|]. intros cs' Hcs' Hw'.
  apply (Hkey _ _ Hcs' Hc). congruence.
Qed.

(** ** Usable metadata *)

Lemma usable_same m m' : same_meta m m' -> usable m -> usable m'.
Proof. intros (E1 & _ & _ & E2 & _) [U1 U2]. unfold usable. by rewrite E1, E2. Qed.
Lemma ceil_div_no_panic p a b : 0 <= a -> a + 1 < two64 -> 0 < b -> exists q, u64_ceil_div p a b = Ok q.
Proof.
  intros H1 H2 H3. unfold u64_ceil_div. rewrite add64_ok by (unfold is_u64; lia). rewrite bind_ok.
  unfold div64, rem64. rewrite !(proj2 (Z.eqb_neq b 0)) by lia. rewrite !bind_ok.
  pose proof (Z.div_le_upper_bound (a + 1) b (a + 1)) as H5.
  assert ((a + 1) / b <= a + 1) as H6 by (apply H5; nia).
  pose proof (Z.div_pos (a + 1) b ltac:(lia) H3) as H7.
  destruct (a mod b =? 0) eqn:E.
  - rewrite add64_ok by (unfold is_u64; lia). by eexists.
  - assert (a + 1 <= a + 1) by lia. apply Z.eqb_neq in E.
    assert (b <> 1) by (intros ->; rewrite Z.mod_1_r in E; done).
    assert (a <> 0) by (intros ->; rewrite Z.mod_0_l in E by lia; done).
    assert ((a + 1) / b <= a) by (apply Z.div_le_upper_bound; nia).
    rewrite add64_ok by (unfold is_u64; lia). by eexists.
Qed.
Lemma usable_grid p m : meta_typed m -> usable m -> Forall (fun d => d + 1 < two64) (am_shape m) ->
  (exists e, grid_extent p m = Ok e) /\ forall pos, exists b, in_bounds p m pos = Ok b.
Proof.
  intros [T1 T2] [U1 U2] F.
  assert (exists e, grid_extent p m = Ok e) as G.
  { unfold grid_extent. revert T1 F U2 U1. generalize (am_shape m), (am_chunk_shape m). clear.
    induction l as [|d ds IH]; intros [|c cs] T F U L; try (by eexists). 
    apply list.Forall_cons in T as [T1 T2], F as [F1 F2], U as [U1 U2]. injection L as L.
    destruct (IH cs) as (e & E); [done..|]. destruct (ceil_div_no_panic p d c) as (q & Q); [apply T1|done..|].
    exists (q :: e). cbn [zip zip_with mapM_res]. rewrite Q, bind_ok.
    change (zip_with pair ds cs) with (zip ds cs). rewrite E, bind_ok. done. }
  split; [done|]. intros pos. unfold in_bounds. destruct G as (e & ->). case_bool_decide; [|by eexists].
  rewrite bind_ok. by eexists.
Qed.
Lemma create_usable H s path m s' :
  meta_value m -> nesting_ok m -> no_raw (am_dtype m) -> usable m -> ~ requires_extension (am_exts m) ->
  create_array H s path m = (s', Ok tt) ->
  exists m', get_array_metadata H s' path = Ok m' /\ usable m'
  /\ forall attrs, value_ok (JObj attrs) -> (jdepth (JObj attrs) <= 126)%nat ->
     exists s2 m2, set_attributes H s' path attrs = (s2, Ok tt)
     /\ get_array_metadata H s2 path = Ok m2 /\ usable m2.
Proof.
  intros H1 H2 H3 U N E. destruct (create_array_persists _ _ _ _ _ H1 H2 H3 E) as [_ A].
  destruct (A N) as (m' & Hm & Hs). exists m'. split; [done|]. pose proof (usable_same _ _ Hs U) as U'.
  split; [done|]. intros attrs Hv Hd.
  destruct (create_array_document _ _ _ _ _ H1 H2 E) as [doc Hdoc].
  destruct (set_attributes_meta _ _ _ _ _ _ Hm Hdoc Hv Hd) as (s2 & a & E2 & Hg & _).
  exists s2, (with_attrs m' a). split; [done|]. split; [done|]. exact U'.
Qed.

(** ** The entry point *)

Lemma entry_extensions V base s text e :
  open_read s (comps (path_join base ENTRY_POINT_KEY)) = Ok text -> from_text dec_ep text = Ok e ->
  V (version_str e) = Some true ->
  (requires_extension (ep_exts e) ->
     open_hier V base s = Err Other /\ open_or_create V base s = (s, Err Other))
  /\ (~ requires_extension (ep_exts e) ->
     open_hier V base s = Ok (Hier base e) /\ open_or_create V base s = (s, Ok (Hier base e))).
Proof.
  intros H1 H2 H3.
  assert (path_exists s (comps (path_join base ENTRY_POINT_KEY)) = true) as Hex.
  { revert H1. unfold open_read, path_exists, stat. destruct (walk _ _ _) as [p| |]; [|done..].
    cbn [mbind res_bind]. by destruct (node_at s p). }
  unfold open_hier, open_or_create. rewrite Hex.
  unfold read_entry_point. rewrite H1, bind_ok, H2, bind_ok. unfold check_version. split; intros H4.
  - rewrite check_exts_err by done. done.
  - rewrite check_exts_ok by done. split; [by rewrite !bind_ok, H3|]. rewrite !bind_ok. cbn [on]. by rewrite H3.
Qed.

(** ** Packaged statements *)

Lemma created_metadata H s path m s' :
  meta_value m -> nesting_ok m -> no_raw (am_dtype m) -> ~ requires_extension (am_exts m) ->
  create_array H s path m = (s', Ok tt) ->
  exists m', get_array_metadata H s' path = Ok m' /\ same_meta m m'.
Proof. intros H1 H2 H3 N E. by apply (create_array_persists _ _ _ _ _ H1 H2 H3 E). Qed.
Lemma created_required H s path m s' :
  meta_value m -> nesting_ok m -> no_raw (am_dtype m) -> requires_extension (am_exts m) ->
  create_array H s path m = (s', Ok tt) -> get_array_metadata H s' path = Err Other.
Proof. intros H1 H2 H3 N E. by apply (create_array_persists _ _ _ _ _ H1 H2 H3 E). Qed.
Lemma set_attributes_once H s path attrs doc old :
  node_document H s path = Ok doc -> list_attributes H s path = Ok old ->
  value_ok (JObj attrs) -> (jdepth (JObj attrs) <= 126)%nat ->
  exists s' new, set_attributes H s path attrs = (s', Ok tt)
  /\ list_attributes H s' path = Ok new /\ overridden old attrs new.
Proof.
  intros H1 H2 H3 H4. destruct (set_attributes_read _ _ _ _ _ _ H1 H2 H3 H4) as (s' & new & E1 & E2 & E3 & _).
  by exists s', new.
Qed.
Lemma created_nodes H s path s' :
  (forall m, meta_value m -> nesting_ok m -> create_array H s path m = (s', Ok tt) ->
     (exists doc, node_document H s' path = Ok doc)
     /\ list_attributes H s' path = Ok (am_attrs m))
  /\ (wf_fs s -> plain (hy_base H) -> plain path -> good_suffix (ep_suffix (hy_ep H)) ->
      node_key H s path = Err NotFound -> create_group H s path = (s', Ok tt) ->
     (exists doc, node_document H s' path = Ok doc) /\ list_attributes H s' path = Ok []).
Proof.
  split.
  - intros m H1 H2 E. split; [|by eapply create_array_attrs].
    pose proof (create_array_get _ _ _ _ _ E) as G. unfold node_document.
    rewrite (node_key_array _ _ _ _ G), bind_ok, G, bind_ok. cbn [of_option]. rewrite bind_ok.
    rewrite from_text_print; [|by apply enc_meta_ok|apply enc_meta_depth; [apply H1|done]].
    unfold enc_meta, as_map. rewrite norm_obj. by eexists.
  - intros W Hb Hp Hsf Hk E. unfold create_group, on in E. unfold node_key in Hk.
    destruct (st_exists _ s (akey H path)) as [[]| |] eqn:Ea; try done.
    rewrite bind_ok in Hk. destruct (st_exists _ s (gkey H path)) as [[]| |] eqn:Eg; try done.
    pose proof (st_set_get _ _ _ _ _ _ E eq_refl) as G. cbn [fst] in G.
    assert (st_exists (hy_base H) s' (akey H path) = Ok false) as Ea'.
    { assert (slash ∉ strip_dot (ep_suffix (hy_ep H))) as Hsl by apply Hsf.
      assert (plain (akey H path)) as PA by (apply plain_node_key; [by left|done..]).
      assert (plain (gkey H path)) as PG by (apply plain_node_key; [by right|done..]).
      destruct (st_set_effect _ _ _ W Hb PG _ _ _ E) as (W' & S' & _).
      rewrite st_exists_plain in Ea |- * by done. rewrite <- Ea.
      rewrite (S' (loc (hy_base H) (akey H path))); [done|].
      intros L. apply loc_node_inj in L as [_ L]; [done|by left|by right|done..]. }
    assert (node_key H s' path = Ok (gkey H path)) as Hk'.
    { unfold node_key. by rewrite Ea', bind_ok, (st_exists_get _ _ _ _ G), bind_ok. }
    unfold node_document, list_attributes. rewrite Hk', !bind_ok, G, !bind_ok. cbn [of_option].
    rewrite !bind_ok. split; [eexists|]; vm_compute; reflexivity.
Qed.
Lemma extensions_read_back m e :
  (meta_value m -> nesting_ok m -> no_raw (am_dtype m) ->
     exists m', from_text dec_meta (print (enc_meta m)) = Ok m' /\ am_exts m' = am_exts m)
  /\ (ep_typed e -> exts_nesting_ok (ep_exts e) ->
     from_text dec_ep (print (enc_ep e)) = Ok e).
Proof.
  split.
  - intros H1 H2 H3. destruct (read_enc_meta m H1 H3 H2) as (m' & Hm & Hs). exists m'. split; [done|]. apply Hs.
  - intros H1 H2. by apply read_enc_ep.
Qed.
