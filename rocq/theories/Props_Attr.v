(** Property theorems: the order in which concurrent calls look at the
    attributes of a node and replace them (C44), and which updates are kept
    (C75).  [crun o ps sched]: from state [o] the processes [ps] have made the
    system calls of the schedule [sched]. *)
From Verif Require Import Hier Sys Spec SpecMeta SpecHier SpecConc SpecLin SpecAttr BaseFacts FSFacts StoreFacts SysWit
  ConcLin ConcAttr AttrFacts ConcWit Props_Chunk Props_Store Props_Crash Props_Conc.
Local Open Scope Z_scope.

(** C44.  A node that exists and that nobody removes.  Whatever the schedule,
    there is a sequence [ms] of moments at which calls look at the attributes of
    the node or replace them such that: every call looks at most once and stores
    at most once, after it has looked; only updates store; the moments of a call
    that had returned before another began come before those of the other; what
    a call that has returned saw is what the stores before it have made of the
    attributes, where a store puts what its own call saw overridden by its
    update; an update that has returned has succeeded, and has stored unless it
    changes nothing of what it saw; in the end the attributes are what all the
    stores make of them. *)
Theorem C44_attribute_accesses_in_order :
  forall C h H sl path o calls, (forall b, concat (sl b) = b) ->
  plain (hy_base H) -> good_suffix (ep_suffix (hy_ep H)) -> plain path -> calm o -> wf_fs (view o) ->
  (forall c, c ∈ calls -> call_ok c) -> updates_ok calls path -> (forall c, c ∈ calls -> ~ removes_node c path) ->
  forall doc old, node_document H (view o) path = Ok doc -> list_attributes H (view o) path = Ok old ->
  forall sched o' ps, crun o (map (p_call C h H sl) calls) sched = Some (o', ps) ->
  exists ms,
  let seen l k := replay calls l (fun k => mget k old) k in
  NoDup ms
  /\ (forall i, Looks i ∈ ms -> exists c, calls !! i = Some c /\ reads_attrs c path)
  /\ (forall i, Stores i ∈ ms -> (exists c, calls !! i = Some c /\ updates_attrs c path) /\ earlier ms (Looks i) (Stores i))
  /\ (forall x y, x ∈ ms -> y ∈ ms -> finished_before C h H sl o calls sched (actor x) (actor y) -> earlier ms x y)
  /\ (forall i path' rs a, calls !! i = Some (KListAttributes path' rs) -> pieces path' = pieces path -> returned ps i a ->
        exists l1 l2 new, ms = l1 ++ Looks i :: l2 /\ a = YAttrs (Ok new) /\ forall k, mget k new = seen l1 k)
  /\ (forall m i path' rs a, get_array_metadata H (view o) path = Ok m ->
        calls !! i = Some (KGetMetadata path' rs) -> pieces path' = pieces path -> returned ps i a ->
        exists l1 l2 new, ms = l1 ++ Looks i :: l2 /\ a = YMeta (Ok (with_attrs m new)) /\ forall k, mget k new = seen l1 k)
  /\ (forall i path' u rs a, calls !! i = Some (KSetAttributes path' u rs) -> pieces path' = pieces path -> returned ps i a ->
        a = YUnit (Ok tt) /\ exists l1 l2, ms = l1 ++ Looks i :: l2 /\
          (Stores i ∈ l2 \/ Stores i ∉ ms /\ forall k v, mget k u = Some v -> seen l1 k = Some v))
  /\ (all_returned ps -> calm o' /\ exists new, list_attributes H (view o') path = Ok new /\ forall k, mget k new = seen ms k).
Proof. exact attr_order. Qed.
Print Assumptions C44_attribute_accesses_in_order.

(** C44.  When all calls have returned, one of the updates is there in full. *)
Theorem C44_some_update_in_full :
  forall C h H sl path o calls, (forall b, concat (sl b) = b) ->
  plain (hy_base H) -> good_suffix (ep_suffix (hy_ep H)) -> plain path -> calm o -> wf_fs (view o) ->
  (forall c, c ∈ calls -> call_ok c) -> updates_ok calls path -> (forall c, c ∈ calls -> ~ removes_node c path) ->
  forall doc old, node_document H (view o) path = Ok doc -> list_attributes H (view o) path = Ok old ->
  forall sched o' ps, crun o (map (p_call C h H sl) calls) sched = Some (o', ps) -> all_returned ps ->
  forall i0 c0, calls !! i0 = Some c0 -> updates_attrs c0 path ->
  exists i c new, calls !! i = Some c /\ updates_attrs c path /\ list_attributes H (view o') path = Ok new
    /\ forall k v, mget k (update_of calls i) = Some v -> mget k new = Some v.
Proof. exact one_in_full. Qed.
Print Assumptions C44_some_update_in_full.

(** C75.  An update that sets [k] to [v].  Every other update of the node had
    returned before it began, or began after it had returned and does not set
    [k] (the others may overlap one another).  Then [k] is [v] in the end, and
    for every [list_attributes] that begins after the update has returned. *)
Theorem C75_update_alone_is_kept :
  forall C h H sl path o calls, (forall b, concat (sl b) = b) ->
  plain (hy_base H) -> good_suffix (ep_suffix (hy_ep H)) -> plain path -> calm o -> wf_fs (view o) ->
  (forall c, c ∈ calls -> call_ok c) -> updates_ok calls path -> (forall c, c ∈ calls -> ~ removes_node c path) ->
  forall doc old, node_document H (view o) path = Ok doc -> list_attributes H (view o) path = Ok old ->
  forall sched o' ps, crun o (map (p_call C h H sl) calls) sched = Some (o', ps) -> all_returned ps ->
  let before := finished_before C h H sl o calls sched in
  forall i c k v, calls !! i = Some c -> updates_attrs c path -> mget k (update_of calls i) = Some v ->
  (forall j d, calls !! j = Some d -> updates_attrs d path -> j <> i ->
     before j i \/ before i j /\ mget k (update_of calls j) = None) ->
  (exists new, list_attributes H (view o') path = Ok new /\ mget k new = Some v)
  /\ (forall j path' rs a, calls !! j = Some (KListAttributes path' rs) -> pieces path' = pieces path -> returned ps j a ->
        before i j -> exists new, a = YAttrs (Ok new) /\ mget k new = Some v).
Proof. exact alone_kept. Qed.
Print Assumptions C75_update_alone_is_kept.

(** C75.  If of any two updates one had returned before the other began, then in
    the end the attributes are those at the start overridden by all updates, one
    after the other, and every [list_attributes] saw them after some of the first
    of these, among them all that had returned before it began and none that
    began after it had returned. *)
Theorem C75_updates_in_turn :
  forall C h H sl path o calls, (forall b, concat (sl b) = b) ->
  plain (hy_base H) -> good_suffix (ep_suffix (hy_ep H)) -> plain path -> calm o -> wf_fs (view o) ->
  (forall c, c ∈ calls -> call_ok c) -> updates_ok calls path -> (forall c, c ∈ calls -> ~ removes_node c path) ->
  forall doc old, node_document H (view o) path = Ok doc -> list_attributes H (view o) path = Ok old ->
  forall sched o' ps, crun o (map (p_call C h H sl) calls) sched = Some (o', ps) -> all_returned ps ->
  updates_apart C h H sl o calls path sched ->
  let before := finished_before C h H sl o calls sched in
  exists order, NoDup order
    /\ (forall i, i ∈ order <-> exists c, calls !! i = Some c /\ updates_attrs c path)
    /\ (forall i j, i ∈ order -> j ∈ order -> before i j -> comes_before order i j)
    /\ (exists new, list_attributes H (view o') path = Ok new /\ forall k, mget k new = latest k old (map (update_of calls) order))
    /\ (forall i path' rs a, calls !! i = Some (KListAttributes path' rs) -> pieces path' = pieces path -> returned ps i a ->
          exists l1 l2 new, order = l1 ++ l2 /\ a = YAttrs (Ok new)
            /\ (forall k, mget k new = latest k old (map (update_of calls) l1))
            /\ (forall j, j ∈ order -> before j i -> j ∈ l1) /\ (forall j, j ∈ order -> before i j -> j ∈ l2)).
Proof. exact all_in_turn. Qed.
Print Assumptions C75_updates_in_turn.

(** An execution in which a [list_attributes] overlaps the first update, and
    the second update begins after the first has returned. *)
Definition ex_attr_calls : list call :=
  [KSetAttributes ex_path [(B "a", JInt 1)] []; KListAttributes ex_path [];
   KSetAttributes (B "a/b") [(B "b", JInt 2)] []; KListAttributes ex_path []].
Definition ex_attr_sched : list nat :=
  repeat 0%nat 3 ++ repeat 1%nat 6 ++ repeat 0%nat 9 ++ repeat 2%nat 12 ++ repeat 3%nat 6.
Example C75_example :
  (forall b, concat (cuts b) = b) /\ plain (hy_base ex_hier) /\ good_suffix (ep_suffix (hy_ep ex_hier)) /\ plain ex_path
  /\ calm ex_os /\ wf_fs (view ex_os) /\ (forall c, c ∈ ex_attr_calls -> call_ok c) /\ updates_ok ex_attr_calls ex_path
  /\ (forall c, c ∈ ex_attr_calls -> ~ removes_node c ex_path)
  /\ (exists doc, node_document ex_hier (view ex_os) ex_path = Ok doc) /\ list_attributes ex_hier (view ex_os) ex_path = Ok []
  /\ (exists c, ex_attr_calls !! 2%nat = Some c /\ updates_attrs c ex_path)
  /\ updates_apart ex_codec ex_host ex_hier cuts ex_os ex_attr_calls ex_path ex_attr_sched
  /\ exists o' ps, crun ex_os (map (p_call ex_codec ex_host ex_hier cuts) ex_attr_calls) ex_attr_sched = Some (o', ps)
     /\ all_returned ps
     /\ returned ps 1 (YAttrs (Ok [])) /\ returned ps 3 (YAttrs (Ok [(B "a", JInt 1); (B "b", JInt 2)]))
     /\ finished_before ex_codec ex_host ex_hier cuts ex_os ex_attr_calls ex_attr_sched 0 2.
Proof.
  destruct ex_state_ok as (_ & _ & X3 & X4 & _ & _ & X7 & _).
  assert (finished_before ex_codec ex_host ex_hier cuts ex_os ex_attr_calls ex_attr_sched 0 2) as FB.
  { destruct (run_check ex_codec ex_host ex_hier cuts ex_os ex_attr_calls (take 18 ex_attr_sched)
      [Some (YUnit (Ok tt)); Some (YAttrs (Ok [])); None; None]) as (o1 & ps1 & E1 & R1 & _); [done|vm_compute; reflexivity|].
    exists (take 18 ex_attr_sched), (drop 18 ex_attr_sched), o1, ps1, (YUnit (Ok tt)).
    split; [reflexivity|]. split; [exact E1|]. split; [by apply R1|].
    vm_compute. intros X. repeat (apply elem_of_cons in X as [X|X]; [discriminate X|]). by apply elem_of_nil in X. }
  split; [apply cuts_concat|]. split; [exact X3|]. split; [exact X7|]. split; [exact X4|].
  split; [apply ex_os_calm|]. split; [apply ex_os_wf|]. split.
  { assert (plain (B "a/b")) as P1 by (apply plain_check; vm_compute; reflexivity).
    intros c [->|[->|[->|[->|X]%elem_of_cons]%elem_of_cons]%elem_of_cons]%elem_of_cons; [done..|by apply elem_of_nil in X]. }
  split.
  { intros u (path' & rs & IN & _). unfold ex_attr_calls in IN.
    apply elem_of_cons in IN as [[= -> -> ->]|IN]; [split; [by vm_compute|vm_compute; lia]|].
    apply elem_of_cons in IN as [?|IN]; [done|].
    apply elem_of_cons in IN as [[= -> -> ->]|IN]; [split; [by vm_compute|vm_compute; lia]|].
    apply elem_of_cons in IN as [?|IN]; [done|]. by apply elem_of_nil in IN. }
  split.
  { intros c [->|[->|[->|[->|X]%elem_of_cons]%elem_of_cons]%elem_of_cons]%elem_of_cons; [intros []..|by apply elem_of_nil in X]. }
  split; [eexists; vm_compute; reflexivity|]. split; [vm_compute; reflexivity|].
  split; [eexists; split; [reflexivity|]; vm_compute; reflexivity|]. split.
  { intros i j c d Ei Ej Ui Uj D.
    destruct i as [|[|[|[|i]]]]; [|injection Ei as <-; done| |injection Ei as <-; done|done];
    (destruct j as [|[|[|[|j]]]]; [|injection Ej as <-; done| |injection Ej as <-; done|done]); try done; by (left + right). }
  destruct (run_check ex_codec ex_host ex_hier cuts ex_os ex_attr_calls ex_attr_sched
    [Some (YUnit (Ok tt)); Some (YAttrs (Ok [])); Some (YUnit (Ok tt)); Some (YAttrs (Ok [(B "a", JInt 1); (B "b", JInt 2)]))])
    as (o' & ps & E & R & AR); [done|vm_compute; reflexivity|].
  exists o', ps. split; [exact E|]. split; [apply AR; by repeat constructor|]. split; [by apply R|]. split; [by apply R|exact FB].
Qed.
