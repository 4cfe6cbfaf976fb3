(** Property theorems: several processes at once (C43, C44, C45, C55).
    [executes C h H sl o calls o' ps]: from state [o] the calls, each in a
    process of its own, have made some of their system calls, in any order,
    which led to state [o']; [ps] is what remains of them.  [returned ps i a]:
    call [i] has returned [a].  Any number of calls of any of the ten kinds
    may run, on these and on other nodes and chunks. *)
From Verif Require Import Hier Sys Spec SpecMeta SpecHier SpecConc BaseFacts FSFacts StoreFacts SysWit
  ConcChunk ConcLive ConcKeep ConcNode ConcWit Props_Chunk Props_Store Props_Crash.
Local Open Scope Z_scope.

(** C43, first half: a chunk that exists and that nobody deletes.  Reads
    return whole values, writes succeed, and so it is in the end. *)
Theorem C43_existing_chunk :
  forall C h H sl t path m pos o calls,
  plain (hy_base H) -> good_suffix (ep_suffix (hy_ep H)) -> plain path -> good_sep (am_sep m) -> pos_ok pos ->
  in_bounds (h_prof h) m pos = Ok true -> lossless C (am_comp m) -> calm o -> wf_fs (view o) ->
  (forall c, c ∈ calls -> call_ok c) -> writers_agree C h calls t path m pos ->
  forall o' ps, executes C h H sl o calls o' ps ->
  ~ answers o (p_read_chunk H C h t path m pos []) (Ok None)
  /\ (forall c, c ∈ calls -> ~ deletes_chunk c path pos) ->
  (forall i path' rs a, calls !! i = Some (KReadChunk t path' m pos rs) -> pieces path' = pieces path ->
     returned ps i a -> exists r, a = YChunk r /\ whole_chunk C h H t path m pos o calls r)
  /\ (forall i c a, calls !! i = Some c -> writes_chunk c path pos -> returned ps i a -> a = YUnit (Ok tt))
  /\ (all_returned ps -> calm o' /\
      forall rs, exists r, answers o' (p_read_chunk H C h t path m pos rs) r
                           /\ whole_chunk C h H t path m pos o calls r).
Proof. exact existing. Qed.
Print Assumptions C43_existing_chunk.

(** C43, second half: a chunk that is created or deleted meanwhile.  Missing:
    that reads return no errors, which is false (next theorem). *)
Theorem C43_created_chunk_partial :
  forall C h H sl t path m pos o calls,
  plain (hy_base H) -> good_suffix (ep_suffix (hy_ep H)) -> plain path -> good_sep (am_sep m) -> pos_ok pos ->
  in_bounds (h_prof h) m pos = Ok true -> lossless C (am_comp m) -> calm o -> wf_fs (view o) ->
  (forall c, c ∈ calls -> call_ok c) -> writers_agree C h calls t path m pos ->
  forall o' ps, executes C h H sl o calls o' ps ->
  (exists e, decode_chunk C h t m [] pos = Err e) ->
  (forall i path' rs a, calls !! i = Some (KReadChunk t path' m pos rs) -> pieces path' = pieces path ->
     returned ps i a -> exists r, a = YChunk r /\
       (whole_chunk C h H t path m pos o calls r \/ r = Ok None \/ exists e, r = Err e))
  /\ (all_returned ps -> calm o' /\
      forall rs, exists r, answers o' (p_read_chunk H C h t path m pos rs) r
                           /\ (whole_chunk C h H t path m pos o calls r \/ r = Ok None)).
Proof. exact any_time. Qed.
Print Assumptions C43_created_chunk_partial.

(** A chunk one of the calls has written and none deletes is there at the end. *)
Theorem C43_written_chunk_stays :
  forall C h H sl t path m pos o calls o' ps,
  plain (hy_base H) -> good_suffix (ep_suffix (hy_ep H)) -> plain path -> good_sep (am_sep m) -> pos_ok pos ->
  in_bounds (h_prof h) m pos = Ok true -> lossless C (am_comp m) -> calm o -> wf_fs (view o) ->
  (forall c, c ∈ calls -> call_ok c) -> writers_agree C h calls t path m pos ->
  executes C h H sl o calls o' ps ->
  (forall c, c ∈ calls -> ~ deletes_chunk c path pos) ->
  forall i c, calls !! i = Some c -> writes_chunk c path pos -> returned ps i (YUnit (Ok tt)) -> all_returned ps ->
  forall rs, exists r, answers o' (p_read_chunk H C h t path m pos rs) r /\ r <> Ok None
    /\ whole_chunk C h H t path m pos o calls r.
Proof. exact write_stays. Qed.
Print Assumptions C43_written_chunk_stays.

(** The calls of the examples. *)
Definition ex_bytes00 : bytes := fst (encode_chunk ex_codec ex_host RI16 ex_meta (Chunk [0; 0] ex_new)).
Definition ex_create_calls : list call :=
  [KWriteChunk RI16 ex_path ex_meta (Chunk [0; 0] ex_new) [ex_bytes00];
   KReadChunk RI16 ex_path ex_meta [0; 0] []].
Definition ex_chunk_calls : list call :=
  [KWriteChunk RI16 ex_path ex_meta (Chunk [1; 1] ex_new) [ex_new_bytes];
   KReadChunk RI16 (B "a/b") ex_meta [1; 1] [2%nat];
   KCreateGroup (B "a"); KReadChunk RI16 (B "a/b") ex_meta [1; 1] []].

(** The reader finds the new file before the writer has locked it. *)
Theorem C43_created_chunk_refuted :
  exists C h H sl t path m pos o calls o' ps data,
  calm o /\ wf_fs (view o) /\ in_bounds (h_prof h) m pos = Ok true
  /\ answers o (p_read_chunk H C h t path m pos []) (Ok None)
  /\ calls = [KWriteChunk t path m (Chunk pos data) [fst (encode_chunk C h t m (Chunk pos data))];
              KReadChunk t path m pos []]
  /\ executes C h H sl o calls o' ps
  /\ returned ps 0 (YUnit (Ok tt)) /\ returned ps 1 (YChunk (Err UnexpectedEof)).
Proof.
  exists ex_codec, ex_host, ex_hier, cuts, RI16, ex_path, ex_meta, [0; 0], ex_os, ex_create_calls.
  destruct (schedule_check ex_codec ex_host ex_hier cuts ex_os ex_create_calls
    (repeat 0%nat 3 ++ repeat 1%nat 5 ++ repeat 0%nat 4)
    [Some (YUnit (Ok tt)); Some (YChunk (Err UnexpectedEof))]) as (o' & ps & E & _ & R & _);
    [done|vm_compute; reflexivity|].
  exists o', ps, ex_new. split; [apply ex_os_calm|]. split; [apply ex_os_wf|].
  split; [vm_compute; reflexivity|]. split; [apply answers_check; vm_compute; reflexivity|].
  split; [reflexivity|]. split; [exact E|]. split; by apply R.
Qed.
Print Assumptions C43_created_chunk_refuted.

Lemma ex_agree : writers_agree ex_codec ex_host ex_chunk_calls RI16 ex_path ex_meta [1; 1].
Proof.
  intros c [->|[->|[->|[->|X]%elem_of_cons]%elem_of_cons]%elem_of_cons]%elem_of_cons WC;
    [|by destruct WC|by destruct WC|by destruct WC|by apply elem_of_nil in X].
  exists ex_path, ex_new, [ex_new_bytes]. split; [reflexivity|].
  split; [unfold ex_new; repeat (apply list.Forall_cons; split; [vm_compute; split; congruence|]); by apply list.Forall_nil|].
  split; [vm_compute; reflexivity|]. split; [vm_compute; reflexivity|]. vm_compute. reflexivity.
Qed.
Lemma ex_calls_ok : forall c, c ∈ ex_chunk_calls -> call_ok c.
Proof.
  destruct ex_state_ok as (_ & _ & _ & P & GS & Q & _).
  assert (plain (B "a/b")) as P1 by (apply plain_check; vm_compute; reflexivity).
  assert (plain (B "a")) as P2 by (apply plain_check; vm_compute; reflexivity).
  intros c [->|[->|[->|[->|X]%elem_of_cons]%elem_of_cons]%elem_of_cons]%elem_of_cons;
    [done|done|done|done|by apply elem_of_nil in X].
Qed.
(** An execution in which one read returns the old and one the new value. *)
Example C43_example :
  calm ex_os /\ wf_fs (view ex_os) /\ (forall c, c ∈ ex_chunk_calls -> call_ok c)
  /\ writers_agree ex_codec ex_host ex_chunk_calls RI16 ex_path ex_meta [1; 1]
  /\ ~ answers ex_os (p_read_chunk ex_hier ex_codec ex_host RI16 ex_path ex_meta [1; 1] []) (Ok None)
  /\ (forall c, c ∈ ex_chunk_calls -> ~ deletes_chunk c ex_path [1; 1])
  /\ (exists e, decode_chunk ex_codec ex_host RI16 ex_meta [] [1; 1] = Err e)
  /\ exists o' ps, executes ex_codec ex_host ex_hier cuts ex_os ex_chunk_calls o' ps /\ all_returned ps
     /\ returned ps 1 (YChunk (Ok (Some (Chunk [1; 1] ex_data))))
     /\ returned ps 3 (YChunk (Ok (Some (Chunk [1; 1] ex_new)))).
Proof.
  split; [apply ex_os_calm|]. split; [apply ex_os_wf|]. split; [apply ex_calls_ok|]. split; [apply ex_agree|].
  split.
  { intros [o1 E]. assert (exists d, answers ex_os (p_read_chunk ex_hier ex_codec ex_host RI16 ex_path ex_meta [1; 1] [])
      (Ok (Some d))) as (d & o2 & E2) by (eexists; apply answers_check; vm_compute; reflexivity). congruence. }
  split.
  { intros c [->|[->|[->|[->|X]%elem_of_cons]%elem_of_cons]%elem_of_cons]%elem_of_cons;
      [intros []..|by apply elem_of_nil in X]. }
  split; [exists UnexpectedEof; vm_compute; reflexivity|].
  destruct (schedule_check ex_codec ex_host ex_hier cuts ex_os ex_chunk_calls
    ([0;1;1;1;0;2;2;1;1;1;0;0]%nat ++ repeat 2%nat 6 ++ repeat 0%nat 2 ++ repeat 3%nat 5)
    [Some (YUnit (Ok tt)); Some (YChunk (Ok (Some (Chunk [1; 1] ex_data))));
     Some (YUnit (Ok tt)); Some (YChunk (Ok (Some (Chunk [1; 1] ex_new))))]) as (o' & ps & E & _ & R & AR);
    [done|vm_compute; reflexivity|].
  exists o', ps. split; [exact E|]. split; [apply AR; by repeat constructor|]. split; by apply R.
Qed.

(** C44 *)
(** Both updates succeed and the second is lost. *)
Theorem C44_updates_refuted :
  exists C h H sl path o calls o' ps,
  (forall b, concat (sl b) = b) /\ calm o /\ wf_fs (view o)
  /\ (exists m, get_array_metadata H (view o) path = Ok m)
  /\ calls = [KSetAttributes path [(B "a", JInt 1)] []; KSetAttributes path [(B "b", JInt 2)] []]
  /\ executes C h H sl o calls o' ps
  /\ returned ps 0 (YUnit (Ok tt)) /\ returned ps 1 (YUnit (Ok tt))
  /\ list_attributes H (view o') path = Ok [(B "a", JInt 1)].
Proof.
  exists ex_codec, ex_host, ex_hier, cuts, ex_path, ex_os,
    [KSetAttributes ex_path [(B "a", JInt 1)] []; KSetAttributes ex_path [(B "b", JInt 2)] []].
  destruct (schedule_check ex_codec ex_host ex_hier cuts ex_os
    [KSetAttributes ex_path [(B "a", JInt 1)] []; KSetAttributes ex_path [(B "b", JInt 2)] []]
    (repeat 0%nat 6 ++ repeat 1%nat 12 ++ repeat 0%nat 6)
    [Some (YUnit (Ok tt)); Some (YUnit (Ok tt))]) as (o' & ps & E & V & R & _);
    [done|vm_compute; reflexivity|].
  exists o', ps. split; [apply cuts_concat|]. split; [apply ex_os_calm|]. split; [apply ex_os_wf|].
  split; [eexists; vm_compute; reflexivity|]. split; [reflexivity|]. split; [exact E|].
  split; [by apply R|]. split; [by apply R|]. rewrite V. vm_compute. reflexivity.
Qed.
Print Assumptions C44_updates_refuted.

(** A node whose document exists ([doc], with attributes [old]), under any
    concurrent calls that do not remove it.  Attribute updates succeed; reads, and the final state,
    are what some of the requested updates in some order make of the old
    attributes; the rest of the document never changes.  Missing: that in the
    end it is all of them. *)
Theorem C44_updates_partial :
  forall C h H sl, (forall b, concat (sl b) = b) ->
  plain (hy_base H) -> good_suffix (ep_suffix (hy_ep H)) ->
  forall path, plain path ->
  forall calls, (forall c, c ∈ calls -> call_ok c) -> updates_ok calls path ->
  forall o, calm o -> wf_fs (view o) ->
  forall o' ps, executes C h H sl o calls o' ps ->
  forall doc old,
  node_document H (view o) path = Ok doc -> list_attributes H (view o) path = Ok old ->
  (forall c, c ∈ calls -> ~ removes_node c path) ->
  (forall i path' rs a, calls !! i = Some (KListAttributes path' rs) -> pieces path' = pieces path ->
     returned ps i a -> exists new, a = YAttrs (Ok new) /\ attrs_after calls path old new)
  /\ (forall i path' u rs a, calls !! i = Some (KSetAttributes path' u rs) -> pieces path' = pieces path ->
     returned ps i a -> a = YUnit (Ok tt))
  /\ (forall m i path' rs a, get_array_metadata H (view o) path = Ok m ->
     calls !! i = Some (KGetMetadata path' rs) -> pieces path' = pieces path ->
     returned ps i a -> exists new, a = YMeta (Ok (with_attrs m new)) /\ attrs_after calls path old new)
  /\ (forall i path' m a, calls !! i = Some (KCreateArray path' m) -> pieces path' = pieces path ->
     returned ps i a -> a = YUnit (Err AlreadyExists))
  /\ (forall i path' a, calls !! i = Some (KCreateGroup path') -> pieces path' = pieces path ->
     returned ps i a ->
     (explicit_array H (view o) path -> a = YUnit (Err AlreadyExists)) /\
     (~ explicit_array H (view o) path -> a = YUnit (Ok tt)))
  /\ (all_returned ps -> calm o' /\ wf_fs (view o') /\
     (explicit_array H (view o') path <-> explicit_array H (view o) path) /\
     exists doc' new, node_document H (view o') path = Ok doc' /\
       list_attributes H (view o') path = Ok new /\ attrs_after calls path old new /\
       (forall k, k <> B "attributes" -> mget k doc' = mget k doc) /\
       forall m, get_array_metadata H (view o) path = Ok m ->
         get_array_metadata H (view o') path = Ok (with_attrs m new)).
Proof. exact existing_node. Qed.
Print Assumptions C44_updates_partial.

Definition ex_node_calls : list call :=
  [KSetAttributes ex_path [(B "a", JInt 1)] []; KSetAttributes (B "a/b") [(B "b", JInt 2)] [7%nat];
   KListAttributes ex_path [1%nat]; KGetMetadata ex_path []; KCreateArray (B "/a/b") ex_meta].
Example C44_example :
  (forall c, c ∈ ex_node_calls -> call_ok c) /\ updates_ok ex_node_calls ex_path
  /\ requests ex_node_calls ex_path [(B "b", JInt 2)]
  /\ (exists doc, node_document ex_hier (view ex_os) ex_path = Ok doc)
  /\ (exists old, list_attributes ex_hier (view ex_os) ex_path = Ok old)
  /\ (exists m, get_array_metadata ex_hier (view ex_os) ex_path = Ok m)
  /\ (forall c, c ∈ ex_node_calls -> ~ removes_node c ex_path).
Proof.
  assert (forall c, c ∈ ex_node_calls -> call_ok c) as OK.
  { destruct ex_state_ok as (_ & _ & _ & P & _).
    assert (plain (B "a/b")) as P1 by (apply plain_check; vm_compute; reflexivity).
    assert (plain (B "/a/b")) as P2 by (apply plain_check; vm_compute; reflexivity).
    intros c [->|[->|[->|[->|[->|X]%elem_of_cons]%elem_of_cons]%elem_of_cons]%elem_of_cons]%elem_of_cons;
      [done..|by apply elem_of_nil in X]. }
  split; [exact OK|]. split.
  { intros u (path' & rs & IN & _). unfold ex_node_calls in IN.
    apply elem_of_cons in IN as [[= -> -> ->]|IN]; [split; [by vm_compute|vm_compute; lia]|].
    apply elem_of_cons in IN as [[= -> -> ->]|IN]; [split; [by vm_compute|vm_compute; lia]|].
    apply elem_of_cons in IN as [?|IN]; [done|]. apply elem_of_cons in IN as [?|IN]; [done|].
    apply elem_of_cons in IN as [?|IN]; [done|]. by apply elem_of_nil in IN. }
  split.
  { exists (B "a/b"), [7%nat]. split; [right; left|]. vm_compute. reflexivity. }
  split; [eexists; vm_compute; reflexivity|]. split; [eexists; vm_compute; reflexivity|].
  split; [eexists; vm_compute; reflexivity|].
  intros c [->|[->|[->|[->|[->|X]%elem_of_cons]%elem_of_cons]%elem_of_cons]%elem_of_cons]%elem_of_cons;
    [intros []..|by apply elem_of_nil in X].
Qed.

(** C45 *)
(** Two creations of an array succeed: the second caller's metadata is not
    what is stored. *)
Theorem C45_two_arrays_refuted :
  exists C h H sl path o calls o' ps m m',
  (forall b, concat (sl b) = b) /\ calm o /\ wf_fs (view o)
  /\ ~ explicit_array H (view o) path /\ ~ explicit_group H (view o) path
  /\ calls = [KCreateArray path m; KCreateArray path m']
  /\ executes C h H sl o calls o' ps
  /\ returned ps 0 (YUnit (Ok tt)) /\ returned ps 1 (YUnit (Ok tt))
  /\ get_array_metadata H (view o') path = Ok m /\ m' <> m.
Proof.
  exists ex_codec, ex_host, ex_hier, cuts, (B "n"), ex_os,
    [KCreateArray (B "n") ex_meta; KCreateArray (B "n") (with_attrs ex_meta [(B "a", JInt 1)])].
  destruct (schedule_check ex_codec ex_host ex_hier cuts ex_os
    [KCreateArray (B "n") ex_meta; KCreateArray (B "n") (with_attrs ex_meta [(B "a", JInt 1)])]
    (repeat 0%nat 2 ++ repeat 1%nat 8 ++ repeat 0%nat 6)
    [Some (YUnit (Ok tt)); Some (YUnit (Ok tt))]) as (o' & ps & E & V & R & _);
    [done|vm_compute; reflexivity|].
  exists o', ps, ex_meta, (with_attrs ex_meta [(B "a", JInt 1)]).
  split; [apply cuts_concat|]. split; [apply ex_os_calm|]. split; [apply ex_os_wf|].
  split; [unfold explicit_array; by vm_compute|]. split; [unfold explicit_group; by vm_compute|].
  split; [reflexivity|]. split; [exact E|].
  split; [by apply R|]. split; [by apply R|]. split; [rewrite V; vm_compute; reflexivity|].
  intros X. apply (f_equal am_attrs) in X. by vm_compute in X.
Qed.
Print Assumptions C45_two_arrays_refuted.

(** An array and a group are created at the same path. *)
Theorem C45_array_and_group_refuted :
  exists C h H sl path o calls o' ps m,
  (forall b, concat (sl b) = b) /\ calm o /\ wf_fs (view o)
  /\ ~ explicit_array H (view o) path /\ ~ explicit_group H (view o) path
  /\ calls = [KCreateArray path m; KCreateGroup path]
  /\ executes C h H sl o calls o' ps
  /\ returned ps 0 (YUnit (Ok tt)) /\ returned ps 1 (YUnit (Ok tt))
  /\ explicit_array H (view o') path /\ explicit_group H (view o') path.
Proof.
  exists ex_codec, ex_host, ex_hier, cuts, (B "n"), ex_os, [KCreateArray (B "n") ex_meta; KCreateGroup (B "n")].
  destruct (schedule_check ex_codec ex_host ex_hier cuts ex_os [KCreateArray (B "n") ex_meta; KCreateGroup (B "n")]
    (repeat 0%nat 2 ++ repeat 1%nat 8 ++ repeat 0%nat 6)
    [Some (YUnit (Ok tt)); Some (YUnit (Ok tt))]) as (o' & ps & E & V & R & _);
    [done|vm_compute; reflexivity|].
  exists o', ps, ex_meta.
  split; [apply cuts_concat|]. split; [apply ex_os_calm|]. split; [apply ex_os_wf|].
  split; [unfold explicit_array; by vm_compute|]. split; [unfold explicit_group; by vm_compute|].
  split; [reflexivity|]. split; [exact E|].
  split; [by apply R|]. split; [by apply R|]. rewrite V.
  split; [unfold explicit_array|unfold explicit_group]; vm_compute; reflexivity.
Qed.
Print Assumptions C45_array_and_group_refuted.

(** What does hold when there is no array yet: a creation that reports success
    leaves its kind of node (unless it is removed), the array found in the end (or at any time) is one
    of those created, complete.  (When the node exists: C44_updates_partial.)
    Missing: that only one creation succeeds. *)
Theorem C45_creation_partial :
  forall C h H sl, (forall b, concat (sl b) = b) ->
  plain (hy_base H) -> good_suffix (ep_suffix (hy_ep H)) ->
  forall path, plain path ->
  forall calls, (forall c, c ∈ calls -> call_ok c) -> updates_ok calls path ->
  forall o, calm o -> wf_fs (view o) ->
  forall o' ps, executes C h H sl o calls o' ps ->
  ~ explicit_array H (view o) path ->
  (forall path' m, KCreateArray path' m ∈ calls -> pieces path' = pieces path -> readable m) ->
  (forall i path' rs a, calls !! i = Some (KGetMetadata path' rs) -> pieces path' = pieces path ->
     returned ps i a -> exists r, a = YMeta r /\ (made calls path r \/ exists e, r = Err e))
  /\ ((forall c, c ∈ calls -> ~ removes_node c path) ->
      (forall i path' m, calls !! i = Some (KCreateArray path' m) -> pieces path' = pieces path ->
         returned ps i (YUnit (Ok tt)) -> explicit_array H (view o') path)
      /\ (forall i path', calls !! i = Some (KCreateGroup path') -> pieces path' = pieces path ->
         returned ps i (YUnit (Ok tt)) -> explicit_group H (view o') path))
  /\ (all_returned ps -> calm o' /\ wf_fs (view o') /\
     (explicit_array H (view o') path -> made calls path (get_array_metadata H (view o') path))).
Proof. exact new_array. Qed.
Print Assumptions C45_creation_partial.

Example C45_example :
  ~ explicit_array ex_hier (view ex_os) (B "n") /\ readable ex_meta
  /\ (forall c, c ∈ [KCreateArray (B "n") ex_meta; KCreateGroup (B "/n"); KGetMetadata (B "n/") []] -> call_ok c).
Proof.
  split; [unfold explicit_array; by vm_compute|]. split.
  - split; [|split].
    + split; [split; repeat constructor; done|]. split; [done|]. split; [by vm_compute|]. split; [constructor|done].
    + by intros n.
    + split; [done|]. split; [vm_compute; lia|constructor].
  - intros c [->|[->|[->|X]%elem_of_cons]%elem_of_cons]%elem_of_cons; [..|by apply elem_of_nil in X];
      apply plain_check; vm_compute; reflexivity.
Qed.

(** C55: as long as some call has not returned, some call can go on ... *)
Theorem C55_no_deadlock :
  forall C h H sl o calls o' ps, idle o -> executes C h H sl o calls o' ps ->
  all_returned ps \/ can_step o' ps.
Proof. exact no_deadlock. Qed.
Print Assumptions C55_no_deadlock.

(** ... every execution ends, however the calls are scheduled ... *)
Theorem C55_termination :
  forall A (c : os * list (proc A)), Acc cstep c.
Proof. exact @cstep_acc. Qed.
Print Assumptions C55_termination.

(** ... and so every execution can be continued to one in which all calls have
    returned. *)
Theorem C55_completes :
  forall C h H sl o calls o' ps, idle o -> executes C h H sl o calls o' ps ->
  exists o2 ps2, csteps (o', ps) (o2, ps2) /\ all_returned ps2.
Proof. exact completes. Qed.
Print Assumptions C55_completes.

(** A state in which a process does have to wait. *)
Example C55_example :
  exists o' ps q, executes ex_codec ex_host ex_hier cuts ex_os ex_chunk_calls o' ps
  /\ ps !! 0%nat = Some q /\ pstep o' q = None /\ ~ all_returned ps /\ can_step o' ps.
Proof.
  destruct (blocked_check ex_codec ex_host ex_hier cuts ex_os ex_chunk_calls [0;1;1;1;0]%nat 0%nat)
    as (o' & ps & q & E & E1 & E2 & E3); [vm_compute; reflexivity|].
  exists o', ps, q. assert (~ all_returned ps) as N.
  { intros AR. destruct (AR _ _ E1) as [a ->]. done. }
  split; [exact E|]. split; [exact E1|]. split; [exact E2|]. split; [exact N|].
  destruct (no_deadlock ex_codec ex_host ex_hier cuts ex_os ex_chunk_calls o' ps); [apply ex_os_calm|exact E|done|done].
Qed.
