(** Attribute updates of any nesting (C31). *)
From Verif Require Import Json MetaJson Hier Spec SpecMeta SpecJson BaseFacts DataTypeFacts PathFacts FSFacts KeyFacts HierFacts JsonFacts JsonPrefix JsonGrammar MetaJsonFacts NodeFacts.
Local Open Scope Z_scope.

Lemma print_says v : json_ok v = true -> json_says (print v) v.
Proof.
  intros J. assert (P : pval (length (print v)) (S (jdepth v)) (print v ++ []) = Some (v, [])) by (by apply pval_print; [..|lia|]).
  apply (parse_says _) in P as (w & t & E & Hw & Ht). rewrite !app_nil_r in E. exists w, t, []. rewrite app_nil_r.
  split; [done|]. split; [done|]. split; [done|constructor].
Qed.
Lemma value_ok_iff m : value_ok (JObj m) <->
  sorted m /\ Forall (fun kv => is_value (snd kv) = true /\ utf8_ok (fst kv) && json_ok (snd kv) = true) m.
Proof.
  unfold value_ok. cbn [is_value json_ok]. rewrite andb_true_iff, !forallb_Forall, keys_sorted_spec, list.Forall_and. tauto.
Qed.
Lemma merge_doc_value doc attrs : value_ok (JObj doc) -> value_ok (JObj attrs) -> value_ok (JObj (merge_doc doc attrs)).
Proof.
  intros Hd Hv. pose proof Hv as [V1 V2]. rewrite value_ok_iff in Hd |- *. destruct Hd as [Hs Hf].
  split; [by apply merge_doc_sorted|].
  unfold merge_doc. destruct (mget ATTRIBUTES_NAME doc) as [old|] eqn:E; [|by apply Forall_minsert].
  apply Forall_minsert; [|done]. cbn [fst snd]. change (utf8_ok ATTRIBUTES_NAME) with true. cbn [andb].
  apply mget_elem in E. rewrite list.Forall_forall in Hf. destruct (Hf _ E) as (O1 & O2). cbn [fst snd] in *. apply andb_prop in O2 as [_ O2].
  destruct old as [| | | | | |old]; cbn [merge_top_level]; try done.
  assert (value_ok (JObj old)) as Ho by done. rewrite value_ok_iff in Ho. rewrite value_ok_iff in Hv. destruct Ho as [Ho1 Ho2], Hv as [Hv1 Hv2].
  apply value_ok_iff. split; [by apply mmerge_sorted|by apply Forall_mmerge].
Qed.

Lemma set_attributes_text H s path attrs doc :
  node_document H s path = Ok doc -> value_ok (JObj attrs) ->
  exists s' p text v doc', set_attributes H s path attrs = (s', Ok tt)
  /\ one_file_changed s s' p
  /\ (exists k cs, node_key H s path = Ok k /\ key_comps (hy_base H) k = Ok cs /\ walk s [] cs = Ok p)
  /\ file_at s' p = Some text /\ json_says text v /\ norm v = JObj doc'
  /\ (forall k, k <> ATTRIBUTES_NAME -> mget k doc' = mget k doc).
Proof.
  intros Hdoc Hv. unfold node_document in Hdoc.
  apply bind_ok_inv in Hdoc as (k & Hk & Hdoc). apply bind_ok_inv in Hdoc as (o & Ho & Hdoc).
  apply bind_ok_inv in Hdoc as (text & Ht & Hdoc). destruct o as [c|]; [|done]. injection Ht as ->.
  destruct (st_set_existing _ _ _ _ Ho) as (cs & p & Hc & Hw & Hn & Hset).
  unfold set_attributes, on. rewrite Hk, Ho. cbn [of_option]. rewrite Hdoc.
  pose proof (as_map_doc_ok _ _ Hdoc) as [Hok _].
  pose proof (merge_doc_value _ _ Hok Hv) as Hok'.
  destruct (json_eqb _ _) eqn:E.
  - apply json_eqb_true in E. injection E as E.
    assert (exists v, parse text = Some v /\ norm v = JObj doc) as (v & Pv & Nv).
    { unfold from_text, as_map in Hdoc. apply bind_ok_inv in Hdoc as (j & H1 & H2).
      destruct (parse text) as [j'|]; [|done]. injection H1 as ->. exists j. split; [done|].
      destruct (norm j); try done. by injection H2 as ->. }
    exists s, p, text, v, doc. split; [done|]. split; [split; [by exists text, text|done]|]. split; [by exists k, cs|].
    split; [unfold file_at; by rewrite Hn|]. split; [by apply parse_json_says|]. done.
  - rewrite Hset. cbn [fst snd]. exists (<[p := File (print (JObj (merge_doc doc attrs)))]> s), p, (print (JObj (merge_doc doc attrs))), (JObj (merge_doc doc attrs)), (merge_doc doc attrs).
    split; [done|]. split; [by eapply ow_changed|]. split; [by exists k, cs|].
    split; [unfold file_at; rewrite (ow_node _ _ text) by done; by rewrite decide_True|].
    split; [apply print_says, Hok'|]. split; [apply norm_value, Hok'|].
    intros k' N. apply merge_doc_other; [|done]. by apply value_ok_iff in Hok as [? _].
Qed.
