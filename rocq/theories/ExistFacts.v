(** Existence of arrays (C33) and the documents of groups (C78). *)
From Verif Require Import Json MetaJson Hier Spec SpecHier SpecJson SpecDoc SpecPlace BaseFacts PathFacts FSFacts KeyFacts HierFacts NodeFacts OpsFacts DocFacts PlaceFacts.
Local Open Scope Z_scope.

Lemma array_existence H s path : plain (hy_base H) -> good_suffix (ep_suffix (hy_ep H)) -> wf_fs s -> plain path ->
  (array_exists H s path = Ok true <-> exists m, get_array_metadata H s path = Ok m)
  /\ (array_exists H s path = Ok false <-> exists e, get_array_metadata H s path = Err e).
Proof.
  intros PB GS W PP.
  assert (PA : forall e, is_node_ext e -> plain (metadata_key e (ep_suffix (hy_ep H)) path)).
  { intros e Ee. apply nloc_plain; done. }
  assert (EA : st_exists (hy_base H) s (akey H path) = Ok (match file_at s (loc (hy_base H) (akey H path)) with Some _ => true | None => false end)).
  { apply st_exists_plain; [done|done|]. apply PA. by left. }
  assert (GA : st_get (hy_base H) s (akey H path) = Ok (file_at s (loc (hy_base H) (akey H path)))).
  { apply st_get_plain; [done|done|]. apply PA. by left. }
  assert (EG : exists b, st_exists (hy_base H) s (gkey H path) = Ok b).
  { eexists. apply st_exists_plain; [done|done|]. apply PA. by right. }
  assert (EE : exists b, st_exists (hy_base H) s (set_extension (set_extension (gkey H path) []) []) = Ok b).
  { eexists. apply st_exists_plain; [done|done|]. by apply plain_ekey. }
  unfold array_exists, node_exists. rewrite EA, bind_ok.
  destruct (file_at s (loc (hy_base H) (akey H path))) as [text|] eqn:F.
  - rewrite bind_ok. destruct (get_array_metadata H s path) as [m|e|] eqn:M.
    + split; (split; [|intros [? ?]]); try done. by exists m.
    + split; (split; [|intros [? ?]]); try done. by exists e.
    + split; (split; [|intros [? ?]]); done.
  - assert (M : get_array_metadata H s path = Err NotFound).
    { unfold get_array_metadata. by rewrite GA, bind_ok. }
    rewrite M. destruct EG as [bg ->]. rewrite bind_ok. destruct EE as [be ->].
    destruct bg, be; rewrite bind_ok; split; (split; [|intros [? ?]]); try done; by exists NotFound.
Qed.
Lemma group_is_no_array H s path : plain (hy_base H) -> good_suffix (ep_suffix (hy_ep H)) -> wf_fs s -> plain path ->
  ~ explicit_array H s path -> array_exists H s path = Ok false.
Proof.
  intros PB GS W PP N. apply array_existence; try done. exists NotFound. unfold get_array_metadata.
  assert (PA : plain (akey H path)) by (apply nloc_plain; [done|by left|done]).
  rewrite st_get_plain, bind_ok by done. unfold explicit_array in N. fold (akey H path) in N. rewrite st_exists_plain in N by done.
  by destruct (file_at s _).
Qed.

Lemma group_object H s path : wf_fs s -> plain (hy_base H) -> plain path -> slash ∉ strip_dot (ep_suffix (hy_ep H)) ->
  forall s', file_at s (document H "group" path) = None -> create_group H s path = (s', Ok tt) ->
  exists text members, file_at s' (document H "group" path) = Some text /\ json_says text (JObj members).
Proof.
  intros W PB PP NS s'. rewrite <- gkey_document by done. intros NG. unfold create_group.
  destruct (st_exists _ s (akey H path)) as [[]| |]; cbn [on]; [done| |done..].
  rewrite st_exists_plain by first [done|by apply gkey_plain]. cbn [on]. rewrite NG.
  intros E. apply st_set_effect in E as (W' & SE & _ & X); [|done|done|by apply gkey_plain].
  destruct X as [(_ & F & _)|(_ & _ & e & X)]; [|done].
  assert (R : reads_as (fun j a => j = a) (print group_default_json) group_default_json).
  { apply (read_iff Ok _ _ _ (fun j a => conj (fun E : Ok j = Ok a => ltac:(by injection E)) (fun E : j = a => f_equal Ok E))). vm_compute. reflexivity. }
  destruct R as (j & J & _ & ->). eexists _, _. split; [exact F|exact J].
Qed.
