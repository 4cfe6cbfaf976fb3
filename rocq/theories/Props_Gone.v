(** Property theorems: removing while other calls run (C61). *)
From Verif Require Import Hier Sys Spec SpecMeta SpecHier SpecSys SpecRemove SpecConc BaseFacts FSFacts StoreFacts
  SysFacts CrashFacts ConcGone SysWit ConcWit Props_Chunk Props_Store Props_Crash Props_Remove Props_Conc.
Local Open Scope Z_scope.

(** C61: a remove that has reported success while any other calls run, in any
    interleaving.  The node is not there, at that time and at any later time,
    provided that none of the calls creates it or sets its attributes. *)
Theorem C61_removed_node_partial :
  forall C h H sl, plain (hy_base H) -> good_suffix (ep_suffix (hy_ep H)) ->
  forall o, wf_fs (view o) -> forall calls, (forall c, c ∈ calls -> call_ok c) ->
  forall o' ps, executes C h H sl o calls o' ps ->
  forall path, plain path ->
  forall i path' ord fuel, calls !! i = Some (KRemove path' ord fuel) -> pieces path' = pieces path ->
  returned ps i (YUnit (Ok tt)) ->
  (forall c, c ∈ calls -> ~ creates_node c path /\ ~ sets_attributes c path) ->
  ~ explicit_array H (view o') path /\ ~ explicit_group H (view o') path
  /\ (forall rs, answers o' (p_get_array_metadata H path rs) (Err NotFound))
  /\ (forall rs, answers o' (p_list_attributes H path rs) (Err NotFound)).
Proof. exact removed_node_result. Qed.
Print Assumptions C61_removed_node_partial.

(** Every chunk of the node and of the nodes below it is gone, and stays so,
    provided that none of the calls writes it. *)
Theorem C61_removed_chunks :
  forall C h H sl, plain (hy_base H) -> good_suffix (ep_suffix (hy_ep H)) ->
  forall o, wf_fs (view o) -> forall calls, (forall c, c ∈ calls -> call_ok c) ->
  forall o' ps, executes C h H sl o calls o' ps ->
  forall path, plain path -> forall m pos, good_sep (am_sep m) -> pos_ok pos ->
  forall i path' ord fuel, calls !! i = Some (KRemove path' ord fuel) -> pieces path' `prefix_of` pieces path ->
  returned ps i (YUnit (Ok tt)) ->
  (forall c, c ∈ calls -> ~ writes_chunk c path pos) -> in_bounds (h_prof h) m pos = Ok true ->
  forall t rs, answers o' (p_read_chunk H C h t path m pos rs) (Ok None).
Proof. exact removed_chunk. Qed.
Print Assumptions C61_removed_chunks.

(** The same for a chunk that was deleted. *)
Theorem C61_deleted_chunk :
  forall C h H sl, plain (hy_base H) -> good_suffix (ep_suffix (hy_ep H)) ->
  forall o, wf_fs (view o) -> forall calls, (forall c, c ∈ calls -> call_ok c) ->
  forall o' ps, executes C h H sl o calls o' ps ->
  forall path, plain path -> forall m pos, good_sep (am_sep m) -> pos_ok pos ->
  forall i path' m' b, calls !! i = Some (KDeleteChunk path' m' pos) -> pieces path' = pieces path ->
  am_sep m' = am_sep m -> returned ps i (YBool (Ok b)) ->
  (forall c, c ∈ calls -> ~ writes_chunk c path pos) -> in_bounds (h_prof h) m pos = Ok true ->
  forall t rs, answers o' (p_read_chunk H C h t path m pos rs) (Ok None).
Proof. exact deleted_chunk. Qed.
Print Assumptions C61_deleted_chunk.

(** Nothing appears that no call makes: not a node, even if its attributes are
    set; not a chunk. *)
Theorem C61_no_node_appears :
  forall C h H sl, plain (hy_base H) -> good_suffix (ep_suffix (hy_ep H)) ->
  forall o, wf_fs (view o) -> forall calls, (forall c, c ∈ calls -> call_ok c) ->
  forall o' ps, executes C h H sl o calls o' ps ->
  forall path, plain path ->
  ~ explicit_array H (view o) path -> ~ explicit_group H (view o) path ->
  (forall c, c ∈ calls -> ~ creates_node c path) ->
  ~ explicit_array H (view o') path /\ ~ explicit_group H (view o') path
  /\ (forall rs, answers o' (p_get_array_metadata H path rs) (Err NotFound))
  /\ (forall rs, answers o' (p_list_attributes H path rs) (Err NotFound)).
Proof. exact absent_node_result. Qed.
Print Assumptions C61_no_node_appears.
Theorem C61_no_chunk_appears :
  forall C h H sl, plain (hy_base H) -> good_suffix (ep_suffix (hy_ep H)) ->
  forall o, wf_fs (view o) -> forall calls, (forall c, c ∈ calls -> call_ok c) ->
  forall o' ps, executes C h H sl o calls o' ps ->
  forall path, plain path -> forall m pos, good_sep (am_sep m) -> pos_ok pos ->
  forall t0 rs0, answers o (p_read_chunk H C h t0 path m pos rs0) (Ok None) ->
  (forall c, c ∈ calls -> ~ writes_chunk c path pos) ->
  forall t rs, answers o' (p_read_chunk H C h t path m pos rs) (Ok None).
Proof. exact absent_chunk. Qed.
Print Assumptions C61_no_chunk_appears.

(** Without the premise on attributes it is false: remove and an update of the
    attributes both report success, and the array is still there (without its
    chunks). *)
Theorem C61_removed_node_refuted :
  exists C h H sl path m pos o calls o' ps ord fuel u data,
  (forall b, concat (sl b) = b) /\ calm o /\ wf_fs (view o) /\ any_order ord /\ not_deeper fuel (view o)
  /\ calls = [KSetAttributes path u []; KRemove path ord fuel]
  /\ executes C h H sl o calls o' ps
  /\ returned ps 0 (YUnit (Ok tt)) /\ returned ps 1 (YUnit (Ok tt))
  /\ get_array_metadata H (view o) path = Ok m /\ get_array_metadata H (view o') path = Ok (with_attrs m u)
  /\ read_chunk C h H (view o) RI16 path m pos = Ok (Some (Chunk pos data))
  /\ read_chunk C h H (view o') RI16 path m pos = Ok None.
Proof.
  exists ex_codec, ex_host, ex_hier, cuts, ex_path, ex_meta, [1; 1], ex_os,
    [KSetAttributes ex_path [(B "a", JInt 1)] []; KRemove ex_path ex_rev 20].
  destruct (schedule_check ex_codec ex_host ex_hier cuts ex_os
    [KSetAttributes ex_path [(B "a", JInt 1)] []; KRemove ex_path ex_rev 20]
    (repeat 0%nat 6 ++ repeat 1%nat 19 ++ repeat 0%nat 6)
    [Some (YUnit (Ok tt)); Some (YUnit (Ok tt))]) as (o' & ps & E & V & R & _);
    [done|vm_compute; reflexivity|].
  exists o', ps, ex_rev, 20%nat, [(B "a", JInt 1)], ex_data.
  split; [apply cuts_concat|]. split; [apply ex_os_calm|]. split; [apply ex_os_wf|]. split; [apply ex_rev_any|].
  split; [apply depth_check_ok; vm_compute; reflexivity|].
  split; [reflexivity|]. split; [exact E|]. split; [by apply R|]. split; [by apply R|].
  split; [vm_compute; reflexivity|]. rewrite V. split; [vm_compute; reflexivity|].
  split; vm_compute; reflexivity.
Qed.
Print Assumptions C61_removed_node_refuted.

(** Two concurrent removes of one node: one of them fails. *)
Theorem C61_two_removes_refuted :
  exists C h H sl path o calls o' ps ord fuel,
  (forall b, concat (sl b) = b) /\ calm o /\ wf_fs (view o) /\ any_order ord /\ not_deeper fuel (view o)
  /\ snd (Hier.remove H (view o) path) = Ok tt
  /\ calls = [KRemove path ord fuel; KRemove path ord fuel]
  /\ executes C h H sl o calls o' ps
  /\ returned ps 0 (YUnit (Err NotFound)) /\ returned ps 1 (YUnit (Ok tt)).
Proof.
  exists ex_codec, ex_host, ex_hier, cuts, ex_path, ex_os,
    [KRemove ex_path ex_rev 20; KRemove ex_path ex_rev 20].
  destruct (schedule_check ex_codec ex_host ex_hier cuts ex_os
    [KRemove ex_path ex_rev 20; KRemove ex_path ex_rev 20]
    (repeat 0%nat 4 ++ repeat 1%nat 19 ++ repeat 0%nat 3)
    [Some (YUnit (Err NotFound)); Some (YUnit (Ok tt))]) as (o' & ps & E & V & R & _);
    [done|vm_compute; reflexivity|].
  exists o', ps, ex_rev, 20%nat.
  split; [apply cuts_concat|]. split; [apply ex_os_calm|]. split; [apply ex_os_wf|]. split; [apply ex_rev_any|].
  split; [apply depth_check_ok; vm_compute; reflexivity|]. split; [vm_compute; reflexivity|].
  split; [reflexivity|]. split; [exact E|]. split; by apply R.
Qed.
Print Assumptions C61_two_removes_refuted.

(** A chunk is written while its array is removed: the write succeeds, the
    remove fails, the array is gone and the chunk is there. *)
Theorem C61_remove_and_write_refuted :
  exists C h H sl path m pos data o calls o' ps ord fuel ws,
  (forall b, concat (sl b) = b) /\ calm o /\ wf_fs (view o) /\ any_order ord /\ not_deeper fuel (view o)
  /\ snd (Hier.remove H (view o) path) = Ok tt
  /\ calls = [KRemove path ord fuel; KWriteChunk RI16 path m (Chunk pos data) ws]
  /\ executes C h H sl o calls o' ps
  /\ returned ps 0 (YUnit (Err Other)) /\ returned ps 1 (YUnit (Ok tt))
  /\ get_array_metadata H (view o) path = Ok m /\ get_array_metadata H (view o') path = Err NotFound
  /\ read_chunk C h H (view o') RI16 path m pos = Ok (Some (Chunk pos data)).
Proof.
  exists ex_codec, ex_host, ex_hier, cuts, ex_path, ex_meta, [1; 0], ex_new, ex_os,
    [KRemove ex_path ex_rev 20; KWriteChunk RI16 ex_path ex_meta (Chunk [1; 0] ex_new) [ex_new_bytes]].
  destruct (schedule_check ex_codec ex_host ex_hier cuts ex_os
    [KRemove ex_path ex_rev 20; KWriteChunk RI16 ex_path ex_meta (Chunk [1; 0] ex_new) [ex_new_bytes]]
    (repeat 0%nat 12 ++ repeat 1%nat 6 ++ repeat 0%nat 5)
    [Some (YUnit (Err Other)); Some (YUnit (Ok tt))]) as (o' & ps & E & V & R & _);
    [done|vm_compute; reflexivity|].
  exists o', ps, ex_rev, 20%nat, [ex_new_bytes].
  split; [apply cuts_concat|]. split; [apply ex_os_calm|]. split; [apply ex_os_wf|]. split; [apply ex_rev_any|].
  split; [apply depth_check_ok; vm_compute; reflexivity|]. split; [vm_compute; reflexivity|].
  split; [reflexivity|]. split; [exact E|]. split; [by apply R|]. split; [by apply R|].
  split; [vm_compute; reflexivity|]. rewrite V. split; vm_compute; reflexivity.
Qed.
Print Assumptions C61_remove_and_write_refuted.

(** An execution for the theorems above: the array with the chunk at [1; 1] is
    removed while the chunk is deleted, another node is created, the attributes
    of a node that does not exist are set and the root is listed. *)
Definition ex_gone_calls : list call :=
  [KRemove ex_path ex_rev 20; KDeleteChunk ex_path ex_meta [1; 1]; KCreateGroup (B "n");
   KSetAttributes (B "z") [(B "a", JInt 1)] []; KListNodes (B "") ex_rev].
Example C61_example :
  calm ex_os /\ wf_fs (view ex_os) /\ (forall c, c ∈ ex_gone_calls -> call_ok c)
  /\ plain (hy_base ex_hier) /\ good_suffix (ep_suffix (hy_ep ex_hier)) /\ plain ex_path /\ plain (B "z")
  /\ good_sep (am_sep ex_meta) /\ pos_ok [1; 1] /\ in_bounds (h_prof ex_host) ex_meta [1; 1] = Ok true
  /\ (forall c, c ∈ ex_gone_calls -> ~ creates_node c ex_path /\ ~ sets_attributes c ex_path)
  /\ (forall c, c ∈ ex_gone_calls -> ~ creates_node c (B "z"))
  /\ (forall c, c ∈ ex_gone_calls -> ~ writes_chunk c ex_path [1; 1])
  /\ explicit_array ex_hier (view ex_os) ex_path
  /\ ~ explicit_array ex_hier (view ex_os) (B "z") /\ ~ explicit_group ex_hier (view ex_os) (B "z")
  /\ answers ex_os (p_read_chunk ex_hier ex_codec ex_host RI16 ex_path ex_meta [1; 1] []) (Ok (Some (Chunk [1; 1] ex_data)))
  /\ exists o' ps, executes ex_codec ex_host ex_hier cuts ex_os ex_gone_calls o' ps /\ all_returned ps
     /\ returned ps 0 (YUnit (Ok tt)) /\ returned ps 1 (YBool (Ok true)).
Proof.
  destruct ex_state_ok as (_ & _ & PB & P & GS & Q & GX & _).
  assert (plain (B "z")) as PZ by (apply plain_check; vm_compute; reflexivity).
  split; [apply ex_os_calm|]. split; [apply ex_os_wf|].
  split.
  { intros c [->|[->|[->|[->|[->|X]%elem_of_cons]%elem_of_cons]%elem_of_cons]%elem_of_cons]%elem_of_cons;
      [| | | | |by apply elem_of_nil in X].
    - split; [done|]. assert (pieces ex_path = [B "a"; B "b"]) as -> by (vm_compute; reflexivity).
      repeat constructor; try done; intros b r X; by inversion X.
    - done.
    - apply plain_check; vm_compute; reflexivity.
    - done.
    - apply plain_check; vm_compute; reflexivity. }
  do 5 (split; [done|]). split; [done|]. split; [vm_compute; reflexivity|].
  split.
  { intros c [->|[->|[->|[->|[->|X]%elem_of_cons]%elem_of_cons]%elem_of_cons]%elem_of_cons]%elem_of_cons;
      [..|by apply elem_of_nil in X]; (split; [|]); intros X; try (exfalso; exact X); by vm_compute in X. }
  split.
  { intros c [->|[->|[->|[->|[->|X]%elem_of_cons]%elem_of_cons]%elem_of_cons]%elem_of_cons]%elem_of_cons;
      [..|by apply elem_of_nil in X]; intros X; try (exfalso; exact X); by vm_compute in X. }
  split.
  { intros c [->|[->|[->|[->|[->|X]%elem_of_cons]%elem_of_cons]%elem_of_cons]%elem_of_cons]%elem_of_cons;
      [..|by apply elem_of_nil in X]; intros X; exfalso; exact X. }
  split; [unfold explicit_array; vm_compute; reflexivity|].
  split; [unfold explicit_array; by vm_compute|]. split; [unfold explicit_group; by vm_compute|].
  split; [apply answers_check; vm_compute; reflexivity|].
  destruct (schedule_check ex_codec ex_host ex_hier cuts ex_os ex_gone_calls
    (repeat 0%nat 9 ++ repeat 4%nat 2 ++ repeat 2%nat 3 ++ repeat 1%nat 6 ++ repeat 3%nat 2 ++ repeat 2%nat 5 ++ repeat 0%nat 6)
    [Some (YUnit (Ok tt)); Some (YBool (Ok true)); Some (YUnit (Ok tt)); Some (YUnit (Err NotFound)); Some (YNames (Ok [B "a"]))]) as (o' & ps & E & V & R & AR);
    [done|vm_compute; reflexivity|].
  exists o', ps. split; [exact E|]. split; [apply AR; repeat constructor; discriminate|]. split; by apply R.
Qed.
