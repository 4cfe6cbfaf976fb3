(** Property theorems: reads and writes of an existing chunk take effect one at
    a time (C64).  [crun o ps sched]: from state [o] the processes [ps] have made
    the system calls of the schedule [sched] (whose turn it is, step by step). *)
From Verif Require Import Hier Sys Spec SpecMeta SpecHier SpecConc SpecLin BaseFacts FSFacts StoreFacts SysWit
  ConcLin ConcWit Props_Chunk Props_Store Props_Crash Props_Conc.
Local Open Scope Z_scope.

(** C64.  A chunk that exists and that nobody deletes.  Whatever the schedule,
    the reads and writes of it that have returned (and perhaps some that have
    not) can be put in an order such that a call that had returned before
    another began comes before it, every read returned what the last write
    before it in this order wrote (what the chunk held at first, if there is
    none), and so does a read in the end. *)
Theorem C64_chunk_accesses_one_by_one :
  forall C h H sl t path m pos o calls,
  plain (hy_base H) -> good_suffix (ep_suffix (hy_ep H)) -> plain path -> good_sep (am_sep m) -> pos_ok pos ->
  in_bounds (h_prof h) m pos = Ok true -> lossless C (am_comp m) -> calm o -> wf_fs (view o) ->
  (forall c, c ∈ calls -> call_ok c) -> writers_agree C h calls t path m pos ->
  (forall c, c ∈ calls -> ~ deletes_chunk c path pos) ->
  forall r0, answers o (p_read_chunk H C h t path m pos []) r0 -> r0 <> Ok None ->
  forall sched o' ps, crun o (map (p_call C h H sl) calls) sched = Some (o', ps) ->
  exists order, NoDup order
    /\ (forall i, i ∈ order -> exists c, calls !! i = Some c /\ (reads_at c path pos \/ writes_chunk c path pos))
    /\ (forall i c a, calls !! i = Some c -> reads_as c t path m pos \/ writes_chunk c path pos ->
          returned ps i a -> i ∈ order)
    /\ (forall i j, i ∈ order -> j ∈ order -> finished_before C h H sl o calls sched i j -> comes_before order i j)
    /\ (forall i c a l1 l2, calls !! i = Some c -> reads_as c t path m pos -> returned ps i a ->
          order = l1 ++ i :: l2 -> a = YChunk (one_by_one calls l1 r0))
    /\ (forall i c a, calls !! i = Some c -> writes_chunk c path pos -> returned ps i a -> a = YUnit (Ok tt))
    /\ (all_returned ps -> calm o' /\ forall rs, answers o' (p_read_chunk H C h t path m pos rs) (one_by_one calls order r0)).
Proof. exact linearizable. Qed.
Print Assumptions C64_chunk_accesses_one_by_one.

(** An execution in which a read overlaps a write and returns the old value,
    and another begins after the write has returned. *)
Definition ex_lin_sched : list nat :=
  [0;1;1;1;0;2;2;1;1;1;0;0]%nat ++ repeat 2%nat 6 ++ repeat 0%nat 2 ++ repeat 3%nat 5.
Example C64_example :
  plain (hy_base ex_hier) /\ good_suffix (ep_suffix (hy_ep ex_hier)) /\ plain ex_path /\ good_sep (am_sep ex_meta)
  /\ pos_ok [1; 1] /\ in_bounds (h_prof ex_host) ex_meta [1; 1] = Ok true /\ lossless ex_codec (am_comp ex_meta)
  /\ calm ex_os /\ wf_fs (view ex_os) /\ (forall c, c ∈ ex_chunk_calls -> call_ok c)
  /\ writers_agree ex_codec ex_host ex_chunk_calls RI16 ex_path ex_meta [1; 1]
  /\ (forall c, c ∈ ex_chunk_calls -> ~ deletes_chunk c ex_path [1; 1])
  /\ answers ex_os (p_read_chunk ex_hier ex_codec ex_host RI16 ex_path ex_meta [1; 1] []) (Ok (Some (Chunk [1; 1] ex_data)))
  /\ exists o' ps, crun ex_os (map (p_call ex_codec ex_host ex_hier cuts) ex_chunk_calls) ex_lin_sched = Some (o', ps)
     /\ all_returned ps
     /\ returned ps 1 (YChunk (Ok (Some (Chunk [1; 1] ex_data))))
     /\ returned ps 3 (YChunk (Ok (Some (Chunk [1; 1] ex_new))))
     /\ finished_before ex_codec ex_host ex_hier cuts ex_os ex_chunk_calls ex_lin_sched 0 3
     /\ ~ finished_before ex_codec ex_host ex_hier cuts ex_os ex_chunk_calls ex_lin_sched 0 1.
Proof.
  destruct ex_state_ok as (_ & _ & X3 & X4 & X5 & X6 & X7 & X8 & _).
  split; [exact X3|]. split; [exact X7|]. split; [exact X4|]. split; [exact X5|]. split; [exact X6|]. split; [exact X8|].
  split; [apply C01_raw_lossless|]. split; [apply ex_os_calm|]. split; [apply ex_os_wf|]. split; [apply ex_calls_ok|].
  split; [apply ex_agree|].
  split.
  { intros c [->|[->|[->|[->|X]%elem_of_cons]%elem_of_cons]%elem_of_cons]%elem_of_cons;
      [intros []..|by apply elem_of_nil in X]. }
  split; [apply answers_check; vm_compute; reflexivity|].
  destruct (run_check ex_codec ex_host ex_hier cuts ex_os ex_chunk_calls ex_lin_sched
    [Some (YUnit (Ok tt)); Some (YChunk (Ok (Some (Chunk [1; 1] ex_data))));
     Some (YUnit (Ok tt)); Some (YChunk (Ok (Some (Chunk [1; 1] ex_new))))]) as (o' & ps & E & R & AR);
    [done|vm_compute; reflexivity|].
  exists o', ps. split; [exact E|]. split; [apply AR; by repeat constructor|]. split; [by apply R|]. split; [by apply R|].
  split.
  - destruct (run_check ex_codec ex_host ex_hier cuts ex_os ex_chunk_calls (take 20 ex_lin_sched)
      [Some (YUnit (Ok tt)); Some (YChunk (Ok (Some (Chunk [1; 1] ex_data)))); Some (YUnit (Ok tt)); None])
      as (o1 & ps1 & E1 & R1 & _); [done|vm_compute; reflexivity|].
    exists (take 20 ex_lin_sched), (drop 20 ex_lin_sched), o1, ps1, (YUnit (Ok tt)).
    split; [reflexivity|]. split; [exact E1|]. split; [by apply R1|].
    vm_compute. intros X. repeat (apply elem_of_cons in X as [X|X]; [discriminate X|]). by apply elem_of_nil in X.
  - destruct (run_check ex_codec ex_host ex_hier cuts ex_os ex_chunk_calls [] [None; None; None; None])
      as (o1 & ps1 & E1 & R1 & _); [done|vm_compute; reflexivity|].
    destruct (run_check ex_codec ex_host ex_hier cuts ex_os ex_chunk_calls [0%nat] [None; None; None; None])
      as (o2 & ps2 & E2 & R2 & _); [done|vm_compute; reflexivity|].
    intros (s1 & s2 & o3 & ps3 & a & ES & E3 & RT & NI). destruct s1 as [|x s1].
    { rewrite E1 in E3. injection E3 as <- <-. by apply R1 in RT. }
    injection ES as <- ES. destruct s1 as [|y s1].
    { rewrite E2 in E3. injection E3 as <- <-. by apply R2 in RT. }
    injection ES as <- ES. apply NI. by right; left.
Qed.
