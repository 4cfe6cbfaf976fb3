(** Property theorems: listing while other calls run (C62). *)
From Verif Require Import Hier Sys Spec SpecMeta SpecHier SpecList SpecSys SpecRemove SpecConc SpecConcList BaseFacts FSFacts
  StoreFacts ListFacts SysFacts CrashFacts ConcList SysWit ConcWit ConcListWit Props_Chunk Props_Store Props_List Props_Crash Props_Remove Props_Conc.
From Coq Require Import Sorting.Sorted.
Local Open Scope Z_scope.

(** C62: listing the children of a group while any other calls run, in any
    interleaving.  It succeeds and the result is sorted; whatever is there all
    the time is in it, and whatever is in it was there before or is created by
    one of the calls.  As in C35, names of explicit nodes appear cut; missing
    are names shorter than the suffix (refuted below) and suffixes that do not
    start with a dot. *)
Theorem C62_listing_partial :
  forall C h H sl t, plain (hy_base H) -> good_suffix (ep_suffix (hy_ep H)) -> ep_suffix (hy_ep H) = dot :: t ->
  forall path, plain path -> lenZ path < two32 ->
  forall o, wf_fs (view o) -> real_names (view o) -> documents_only H (view o) ->
  node_at (view o) (meta_dir H path) = Some Dir ->
  forall calls, (forall c, c ∈ calls -> call_ok c) -> (forall c, c ∈ calls -> short_names H c) ->
  (forall n, explicit_child H (view o) path n -> lenZ (ep_suffix (hy_ep H)) <= lenZ n) ->
  (forall c n, c ∈ calls -> creates_child c path n -> lenZ (ep_suffix (hy_ep H)) <= lenZ n) ->
  forall o' ps, executes C h H sl o calls o' ps ->
  forall i ord a, calls !! i = Some (KListNodes path ord) -> any_order ord -> returned ps i a ->
  exists l, a = YNames (Ok l) /\ StronglySorted string_lt l
  /\ (forall x, child_dir H (view o) path x -> x ∈ l)
  /\ (forall n, lasting_child H (view o) calls path n -> take (length n - length (ep_suffix (hy_ep H)))%nat n ∈ l)
  /\ (forall x, x ∈ l ->
        child_dir H (view o) path x \/ (exists c, c ∈ calls /\ creates_below c path x)
        \/ exists n, x = take (length n - length (ep_suffix (hy_ep H)))%nat n
             /\ (explicit_child H (view o) path n \/ exists c, c ∈ calls /\ creates_child c path n)).
Proof. exact listing_way. Qed.
Print Assumptions C62_listing_partial.

(** A directory of the metadata tree is never removed by the calls, so a group
    that can be listed can be listed at any later time. *)
Theorem C62_group_stays :
  forall C h H sl, plain (hy_base H) -> good_suffix (ep_suffix (hy_ep H)) ->
  forall path o, wf_fs (view o) -> node_at (view o) (meta_dir H path) = Some Dir ->
  forall calls, (forall c, c ∈ calls -> call_ok c) ->
  forall o' ps, executes C h H sl o calls o' ps -> node_at (view o') (meta_dir H path) = Some Dir.
Proof. exact group_stays. Qed.
Print Assumptions C62_group_stays.

(** A machine with a group of three nodes. *)
Definition ex_top_setup : proc (res unit) :=
  ptry (p_open_or_create (fun _ => Some true) cuts (B "/srv/h") [3%nat; 1%nat]) (fun _ =>
  ptry (p_create_group ex_hier cuts (B "top/temperature")) (fun _ =>
  ptry (p_create_array ex_hier cuts (B "top/pressure") ex_meta) (fun _ =>
  p_create_group ex_hier cuts (B "top/raw/x")))).
Definition ex_top : os := after boot ex_top_setup.
Lemma ex_top_calm : calm ex_top.
Proof. apply after_calm; [apply boot_calm|vm_compute; reflexivity..]. Qed.
Lemma ex_top_wf : wf_fs (view ex_top).
Proof. apply wf_check_ok. vm_compute. reflexivity. Qed.

(** While it is listed, a node is created and another one is removed. *)
Definition ex_top_calls : list call :=
  [KListNodes (B "top") ex_rev; KCreateGroup (B "top/salinity"); KRemove (B "top/temperature") ex_rev 20].
Definition ex_top_sched : list nat := 0%nat :: repeat 1%nat 8 ++ repeat 2%nat 10 ++ repeat 0%nat 3.
Lemma ex_top_calls_ok : forall c, c ∈ ex_top_calls -> call_ok c.
Proof.
  intros c [->|[->|[->|X]%elem_of_cons]%elem_of_cons]%elem_of_cons; [| | |by apply elem_of_nil in X].
  - apply plain_check; vm_compute; reflexivity.
  - apply plain_check; vm_compute; reflexivity.
  - split; [apply plain_check; vm_compute; reflexivity|].
    assert (pieces (B "top/temperature") = [B "top"; B "temperature"]) as -> by (vm_compute; reflexivity).
    repeat constructor; try done; intros b r X; by inversion X.
Qed.

(** The result need not be the children at any one moment: here it is [pre]
    and [raw] although, at every moment of the execution, the node that appears
    as [temper] or the one that appears as [sal] is there as well. *)
Theorem C62_one_moment_refuted :
  exists C h H sl path o calls sched o' ps ord l,
  (forall b, concat (sl b) = b) /\ calm o /\ wf_fs (view o) /\ any_order ord
  /\ (forall c, c ∈ calls -> call_ok c) /\ calls !! 0%nat = Some (KListNodes path ord)
  /\ crun o (map (p_call C h H sl) calls) sched = Some (o', ps)
  /\ all_returned ps /\ returned ps 0 (YNames (Ok l))
  /\ forall k o1 ps1, crun o (map (p_call C h H sl) calls) (take k sched) = Some (o1, ps1) ->
     list_nodes (h_prof h) H (view o1) path <> Ok l.
Proof.
  exists ex_codec, ex_host, ex_hier, cuts, (B "top"), ex_top, ex_top_calls, ex_top_sched.
  destruct (replies_check ex_codec ex_host ex_hier cuts ex_top ex_top_calls ex_top_sched
    [Some (YNames (Ok [B "pre"; B "raw"])); Some (YUnit (Ok tt)); Some (YUnit (Ok tt))]) as (o' & ps & E & R & AR);
    [done|vm_compute; reflexivity|].
  exists o', ps, ex_rev, [B "pre"; B "raw"].
  split; [apply cuts_concat|]. split; [apply ex_top_calm|]. split; [apply ex_top_wf|]. split; [apply ex_rev_any|].
  split; [apply ex_top_calls_ok|]. split; [reflexivity|]. split; [exact E|].
  split; [apply AR; repeat constructor; discriminate|]. split; [by apply R|].
  intros k o1 ps1 X Y.
  assert (match list_nodes (h_prof ex_host) ex_hier (view o1) (B "top") with Ok l => bool_decide (l = [B "pre"; B "raw"]) | _ => false end = false) as Z.
  { revert k o1 ps1 X Y. intros k o1 ps1 X _. revert X.
    apply (moments_check (fun s => match list_nodes (h_prof ex_host) ex_hier s (B "top") with Ok l => bool_decide (l = [B "pre"; B "raw"]) | _ => false end)
      ex_top (map (p_call ex_codec ex_host ex_hier cuts) ex_top_calls) ex_top_sched). vm_compute. reflexivity. }
  rewrite Y in Z. apply bool_decide_eq_false in Z. by apply Z.
Qed.
Print Assumptions C62_one_moment_refuted.

(** Another call that creates a node with a short name makes it panic. *)
Theorem C62_short_name_refuted :
  exists C h H sl path path' o calls o' ps ord l,
  (forall b, concat (sl b) = b) /\ calm o /\ wf_fs (view o) /\ any_order ord
  /\ list_nodes (h_prof h) H (view o) path = Ok l
  /\ calls = [KListNodes path ord; KCreateGroup path']
  /\ executes C h H sl o calls o' ps
  /\ returned ps 0 (YNames Panic) /\ returned ps 1 (YUnit (Ok tt)).
Proof.
  exists ex_codec, ex_host, ex_hier, cuts, (B "top"), (B "top/x"), ex_top, [KListNodes (B "top") ex_rev; KCreateGroup (B "top/x")].
  destruct (schedule_check ex_codec ex_host ex_hier cuts ex_top [KListNodes (B "top") ex_rev; KCreateGroup (B "top/x")]
    (repeat 1%nat 8 ++ repeat 0%nat 5) [Some (YNames Panic); Some (YUnit (Ok tt))]) as (o' & ps & E & V & R & _);
    [done|vm_compute; reflexivity|].
  exists o', ps, ex_rev, [B "pre"; B "raw"; B "temper"].
  split; [apply cuts_concat|]. split; [apply ex_top_calm|]. split; [apply ex_top_wf|]. split; [apply ex_rev_any|].
  split; [vm_compute; reflexivity|]. split; [reflexivity|]. split; [exact E|]. split; by apply R.
Qed.
Print Assumptions C62_short_name_refuted.

(** The premises of C62 with these calls; the listing starts and ends at
    various times. *)
Example C62_example :
  calm ex_top /\ wf_fs (view ex_top) /\ real_names (view ex_top) /\ documents_only ex_hier (view ex_top)
  /\ plain (hy_base ex_hier) /\ good_suffix (ep_suffix (hy_ep ex_hier)) /\ ep_suffix (hy_ep ex_hier) = dot :: B "json"
  /\ plain (B "top") /\ lenZ (B "top") < two32
  /\ node_at (view ex_top) (meta_dir ex_hier (B "top")) = Some Dir
  /\ (forall c, c ∈ ex_top_calls -> call_ok c) /\ (forall c, c ∈ ex_top_calls -> short_names ex_hier c)
  /\ (forall n, explicit_child ex_hier (view ex_top) (B "top") n -> lenZ (ep_suffix (hy_ep ex_hier)) <= lenZ n)
  /\ (forall c n, c ∈ ex_top_calls -> creates_child c (B "top") n -> lenZ (ep_suffix (hy_ep ex_hier)) <= lenZ n)
  /\ any_order ex_rev /\ ex_top_calls !! 0%nat = Some (KListNodes (B "top") ex_rev)
  /\ child_dir ex_hier (view ex_top) (B "top") (B "raw")
  /\ lasting_child ex_hier (view ex_top) ex_top_calls (B "top") (B "pressure")
  /\ (exists o' ps, executes ex_codec ex_host ex_hier cuts ex_top ex_top_calls o' ps
        /\ returned ps 0 (YNames (Ok [B "pre"; B "raw"; B "temper"])))
  /\ (exists o' ps, executes ex_codec ex_host ex_hier cuts ex_top ex_top_calls o' ps
        /\ returned ps 0 (YNames (Ok [B "pre"; B "raw"; B "sal"; B "temper"])))
  /\ (exists o' ps, executes ex_codec ex_host ex_hier cuts ex_top ex_top_calls o' ps
        /\ returned ps 0 (YNames (Ok [B "pre"; B "raw"; B "sal"]))).
Proof.
  destruct ex_state_ok as (_ & _ & PB & P & GS & Q & GX & _).
  split; [apply ex_top_calm|]. split; [apply ex_top_wf|]. split; [apply real_names_check; vm_compute; reflexivity|].
  split.
  { apply (docs_check _ _ [B "top/temperature"; B "top/pressure"; B "top/raw/x"]); [|vm_compute; reflexivity].
    repeat (apply Forall_cons_2; [apply plain_check; vm_compute; reflexivity|]). constructor. }
  split; [exact PB|]. split; [exact GX|]. split; [reflexivity|].
  split; [apply plain_check; vm_compute; reflexivity|]. split; [vm_compute; reflexivity|]. split; [vm_compute; reflexivity|].
  split; [exact ex_top_calls_ok|].
  split.
  { intros c [->|[->|[->|X]%elem_of_cons]%elem_of_cons]%elem_of_cons; [exact I| |exact I|by apply elem_of_nil in X].
    cbn [short_names]. assert (pieces (B "top/salinity") = [B "top"; B "salinity"]) as -> by (vm_compute; reflexivity).
    intros n [->|[->|X]%elem_of_cons]%elem_of_cons; [vm_compute; reflexivity..|by apply elem_of_nil in X]. }
  split; [apply (long_names_check ex_hier (view ex_top) (B "top") (B "json") GX PB eq_refl ex_top_wf); vm_compute; reflexivity|].
  split.
  { intros c n [->|[->|[->|X]%elem_of_cons]%elem_of_cons]%elem_of_cons Y; [exfalso; exact Y| |exfalso; exact Y|by apply elem_of_nil in X].
    cbn [creates_child] in Y. assert (pieces (B "top/salinity") = pieces (B "top") ++ [B "salinity"]) as E by (vm_compute; reflexivity).
    rewrite E in Y. apply app_inv_head in Y. injection Y as <-. vm_compute. discriminate. }
  split; [apply ex_rev_any|]. split; [reflexivity|]. split; [unfold child_dir; vm_compute; reflexivity|].
  split.
  { split.
    - exists (B "top/pressure"). split; [apply plain_check; vm_compute; reflexivity|]. split; [vm_compute; reflexivity|].
      left. unfold explicit_array. vm_compute. reflexivity.
    - intros c path' [->|[->|[->|X]%elem_of_cons]%elem_of_cons]%elem_of_cons E Y; [exfalso; exact Y|exfalso; exact Y| |by apply elem_of_nil in X].
      cbn [removes_node] in Y. rewrite E in Y. vm_compute in Y. discriminate Y. }
  split; [|split].
  - destruct (schedule_check ex_codec ex_host ex_hier cuts ex_top ex_top_calls (repeat 0%nat 4)
      [Some (YNames (Ok [B "pre"; B "raw"; B "temper"])); None; None]) as (o' & ps & E & _ & R & _); [done|vm_compute; reflexivity|].
    exists o', ps. split; [exact E|by apply R].
  - destruct (schedule_check ex_codec ex_host ex_hier cuts ex_top ex_top_calls (repeat 1%nat 8 ++ repeat 0%nat 5)
      [Some (YNames (Ok [B "pre"; B "raw"; B "sal"; B "temper"])); Some (YUnit (Ok tt)); None]) as (o' & ps & E & _ & R & _); [done|vm_compute; reflexivity|].
    exists o', ps. split; [exact E|by apply R].
  - destruct (schedule_check ex_codec ex_host ex_hier cuts ex_top ex_top_calls (repeat 1%nat 8 ++ repeat 2%nat 10 ++ repeat 0%nat 4)
      [Some (YNames (Ok [B "pre"; B "raw"; B "sal"])); Some (YUnit (Ok tt)); Some (YUnit (Ok tt))]) as (o' & ps & E & _ & R & _); [done|vm_compute; reflexivity|].
    exists o', ps. split; [exact E|by apply R].
Qed.
