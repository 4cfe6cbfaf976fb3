(** Property theorems: processes that die while others run (C74).
    [survives C h H sl o calls o' ps]: as [executes] in Props_Conc.v, but with
    each call comes the number of the system call before which its process is
    killed ([None]: it is not); the kernel then closes its files, which ends
    its locks.  [replied ps i a]: call [i] has returned [a]. *)
From Verif Require Import Hier Nd Sys SysNd Spec SpecSys SpecMeta SpecHier SpecConc SpecShare SpecKill BaseFacts FSFacts StoreFacts
  SysWit ConcChunk ConcLive ShareLive ConcWit KillFacts KillNode KillNew KillVoxel ShareWit Props_Chunk Props_Store
  Props_Nd Props_Crash Props_Conc Props_Region Props_Share Props_Voxel.
Local Open Scope Z_scope.

(** C74: whichever calls die, wherever, the others are never stuck (all calls,
    region reads and writes included) ... *)
Theorem C74_no_deadlock :
  forall flit C h H sl o (calls : list (rcall * option nat)) o' ps, idle o ->
  csteps (o, map (fun cf => mortal (snd cf) (p_rcall flit C h H sl (fst cf))) calls) (o', ps) ->
  all_returned ps \/ can_step o' ps.
Proof. exact mortals_no_deadlock. Qed.
Print Assumptions C74_no_deadlock.

(** ... and every execution can be continued to one in which each call has
    returned or is dead. *)
Theorem C74_completes :
  forall flit C h H sl o (calls : list (rcall * option nat)) o' ps, idle o ->
  csteps (o, map (fun cf => mortal (snd cf) (p_rcall flit C h H sl (fst cf))) calls) (o', ps) ->
  exists o2 ps2, csteps (o', ps) (o2, ps2) /\ all_returned ps2.
Proof. exact mortals_complete. Qed.
Print Assumptions C74_completes.

(** A chunk that exists and nobody deletes: the reads of the surviving
    processes return whole values, and an error only if a process writing the
    chunk is among the dead; the surviving writes succeed.  So it is in the
    end. *)
Theorem C74_existing_chunk :
  forall C h H sl t path m pos o calls,
  plain (hy_base H) -> good_suffix (ep_suffix (hy_ep H)) -> plain path -> good_sep (am_sep m) -> pos_ok pos ->
  in_bounds (h_prof h) m pos = Ok true -> lossless C (am_comp m) -> calm o -> wf_fs (view o) ->
  (forall c, c ∈ map fst calls -> call_ok c) -> writers_agree C h (map fst calls) t path m pos ->
  prefixes_detected C h calls t path m pos ->
  forall o' ps, survives C h H sl o calls o' ps ->
  ~ answers o (p_read_chunk H C h t path m pos []) (Ok None)
  /\ (forall c, c ∈ map fst calls -> ~ deletes_chunk c path pos) ->
  (forall i path' rs f a, calls !! i = Some (KReadChunk t path' m pos rs, f) -> pieces path' = pieces path ->
     replied ps i a -> exists r, a = YChunk r /\
       (whole_chunk C h H t path m pos o (map fst calls) r \/ writer_dies calls path pos /\ exists e, r = Err e))
  /\ (forall i c f a, calls !! i = Some (c, f) -> writes_chunk c path pos -> replied ps i a -> a = YUnit (Ok tt))
  /\ (all_returned ps -> calm o' /\ wf_fs (view o') /\
      forall rs, exists r, answers o' (p_read_chunk H C h t path m pos rs) r
        /\ (whole_chunk C h H t path m pos o (map fst calls) r \/ writer_dies calls path pos /\ exists e, r = Err e)).
Proof. exact k_existing. Qed.
Print Assumptions C74_existing_chunk.

(** A chunk that is created or deleted meanwhile.  As without deaths (C43),
    a read may return an error while the file is being created; at the end
    only if a process writing the chunk is among the dead. *)
Theorem C74_created_chunk :
  forall C h H sl t path m pos o calls,
  plain (hy_base H) -> good_suffix (ep_suffix (hy_ep H)) -> plain path -> good_sep (am_sep m) -> pos_ok pos ->
  in_bounds (h_prof h) m pos = Ok true -> lossless C (am_comp m) -> calm o -> wf_fs (view o) ->
  (forall c, c ∈ map fst calls -> call_ok c) -> writers_agree C h (map fst calls) t path m pos ->
  prefixes_detected C h calls t path m pos ->
  forall o' ps, survives C h H sl o calls o' ps ->
  (exists e, decode_chunk C h t m [] pos = Err e) ->
  (forall i path' rs f a, calls !! i = Some (KReadChunk t path' m pos rs, f) -> pieces path' = pieces path ->
     replied ps i a -> exists r, a = YChunk r /\
       (whole_chunk C h H t path m pos o (map fst calls) r \/ r = Ok None \/ exists e, r = Err e))
  /\ (all_returned ps -> calm o' /\ wf_fs (view o') /\
      forall rs, exists r, answers o' (p_read_chunk H C h t path m pos rs) r
        /\ (whole_chunk C h H t path m pos o (map fst calls) r \/ r = Ok None
            \/ writer_dies calls path pos /\ exists e, r = Err e)).
Proof. exact k_any_time. Qed.
Print Assumptions C74_created_chunk.

(** The damage does not last: a process that comes later can write the chunk
    and read what it wrote. *)
Theorem C74_repair :
  forall C h H sl t path m pos o calls,
  plain (hy_base H) -> good_suffix (ep_suffix (hy_ep H)) -> plain path -> good_sep (am_sep m) -> pos_ok pos ->
  in_bounds (h_prof h) m pos = Ok true -> lossless C (am_comp m) -> calm o -> wf_fs (view o) ->
  (forall c, c ∈ map fst calls -> call_ok c) -> writers_agree C h (map fst calls) t path m pos ->
  prefixes_detected C h calls t path m pos ->
  forall o' ps, survives C h H sl o calls o' ps ->
  ~ answers o (p_read_chunk H C h t path m pos []) (Ok None)
  /\ (forall c, c ∈ map fst calls -> ~ deletes_chunk c path pos) ->
  all_returned ps ->
  forall data ws, Forall (elt_ok t) data -> lenZ data < two64 -> full_chunk m data ->
  encode_chunk C h t m (Chunk pos data) = (concat ws, Ok tt) ->
  exists o2, run o' (p_write_chunk H C h t path m (Chunk pos data) ws) = Some (o2, Ok tt)
    /\ forall rs, answers o2 (p_read_chunk H C h t path m pos rs) (Ok (Some (Chunk pos data))).
Proof. exact k_repair. Qed.
Print Assumptions C74_repair.

(** A writer is killed between its two writes.  A reader that came before it
    returns the old value; one that had to wait for it goes on and returns an
    error. *)
Definition ex_kill_calls : list (call * option nat) :=
  [(KWriteChunk RI16 ex_path ex_meta (Chunk [1; 1] ex_new) [take 5 ex_new_bytes; drop 5 ex_new_bytes], Some 4%nat);
   (KReadChunk RI16 (B "a/b") ex_meta [1; 1] [2%nat], None);
   (KCreateGroup (B "a"), None);
   (KReadChunk RI16 (B "a/b") ex_meta [1; 1] [], None)].
Definition ex_kill_procs : list (proc (option reply)) :=
  map (fun cf => mortal (snd cf) (p_call ex_codec ex_host ex_hier cuts (fst cf))) ex_kill_calls.
Definition ex_kill_wait : list nat := repeat 1%nat 6 ++ [0; 0; 0; 0; 3; 3; 2]%nat.
Definition ex_kill_end : list nat := ex_kill_wait ++ [0; 3; 3; 3]%nat ++ repeat 2%nat 7.
Lemma ex_kill_agree : writers_agree ex_codec ex_host (map fst ex_kill_calls) RI16 ex_path ex_meta [1; 1].
Proof.
  intros c [->|[->|[->|[->|X]%elem_of_cons]%elem_of_cons]%elem_of_cons]%elem_of_cons WC;
    [|by destruct WC|by destruct WC|by destruct WC|by apply elem_of_nil in X].
  exists ex_path, ex_new, [take 5 ex_new_bytes; drop 5 ex_new_bytes]. split; [reflexivity|].
  split; [unfold ex_new; repeat (apply list.Forall_cons; split; [vm_compute; split; congruence|]); by apply list.Forall_nil|].
  split; [vm_compute; reflexivity|]. split; [vm_compute; reflexivity|]. vm_compute. reflexivity.
Qed.
Lemma ex_kill_detected : prefixes_detected ex_codec ex_host ex_kill_calls RI16 ex_path ex_meta [1; 1].
Proof.
  intros path' data ws n IN _.
  destruct C02_example as (E1 & E2 & _ & E3 & _).
  apply elem_of_cons in IN as [[= -> -> -> ->]|IN].
  - eapply (C41_raw_truncation_detected ex_codec ex_host RI16 ex_meta _ ex_new [1; 1]);
      [exact E1|exact E2|reflexivity|exact E3|vm_compute; reflexivity|vm_compute; reflexivity].
  - by repeat (apply elem_of_cons in IN as [?|IN]; [done|]); apply elem_of_nil in IN.
Qed.
Example C74_example :
  let waiting := crun ex_os ex_kill_procs ex_kill_wait in
  let finished := crun ex_os ex_kill_procs ex_kill_end in
  calm ex_os /\ wf_fs (view ex_os) /\ (forall c, c ∈ map fst ex_kill_calls -> call_ok c)
  /\ writers_agree ex_codec ex_host (map fst ex_kill_calls) RI16 ex_path ex_meta [1; 1]
  /\ prefixes_detected ex_codec ex_host ex_kill_calls RI16 ex_path ex_meta [1; 1]
  /\ ~ answers ex_os (p_read_chunk ex_hier ex_codec ex_host RI16 ex_path ex_meta [1; 1] []) (Ok None)
  /\ (forall c, c ∈ map fst ex_kill_calls -> ~ deletes_chunk c ex_path [1; 1])
  /\ (exists e, decode_chunk ex_codec ex_host RI16 ex_meta [] [1; 1] = Err e)
  /\ survives ex_codec ex_host ex_hier cuts ex_os ex_kill_calls (end_os waiting) (end_ps waiting)
  /\ map (fun q => match pstep (end_os waiting) q, answer q with None, None => true | _, _ => false end) (end_ps waiting)
     = [false; false; false; true]
  /\ survives ex_codec ex_host ex_hier cuts ex_os ex_kill_calls (end_os finished) (end_ps finished)
  /\ map answer (end_ps finished)
     = [Some None; Some (Some (YChunk (Ok (Some (Chunk [1; 1] ex_data))))); Some (Some (YUnit (Ok tt)));
        Some (Some (YChunk (Err UnexpectedEof)))].
Proof.
  cbv zeta. destruct C43_example as (K1 & K2 & K3 & _ & K5 & _ & K7 & _).
  split; [exact K1|]. split; [exact K2|]. split.
  { intros c [->|IN]%elem_of_cons; [exact (K3 _ (elem_of_list_here _ _))|].
    apply K3. apply elem_of_list_further. exact IN. }
  split; [exact ex_kill_agree|]. split; [exact ex_kill_detected|]. split; [exact K5|].
  split.
  { intros c [->|[->|[->|[->|X]%elem_of_cons]%elem_of_cons]%elem_of_cons]%elem_of_cons;
      [intros []..|by apply elem_of_nil in X]. }
  split; [exact K7|].
  split; [unfold survives; apply crun_check; vm_compute; reflexivity|].
  split; [vm_compute; reflexivity|].
  split; [unfold survives; apply crun_check; vm_compute; reflexivity|].
  vm_compute. reflexivity.
Qed.

(** A node that exists and nobody removes: the surviving calls see whole
    documents, with some of the requested updates, and an error only if a
    process updating the attributes of this node is among the dead.  So it is
    in the end. *)
Theorem C74_existing_node :
  forall C h H sl, (forall b, concat (sl b) = b) ->
  plain (hy_base H) -> good_suffix (ep_suffix (hy_ep H)) ->
  forall path, plain path -> forall calls,
  (forall c, c ∈ map fst calls -> call_ok c) -> updates_ok (map fst calls) path ->
  forall o, calm o -> wf_fs (view o) ->
  forall o' ps, survives C h H sl o calls o' ps ->
  forall doc old,
  node_document H (view o) path = Ok doc -> list_attributes H (view o) path = Ok old ->
  (forall c, c ∈ map fst calls -> ~ removes_node c path) ->
  (forall i path' rs f a, calls !! i = Some (KListAttributes path' rs, f) -> pieces path' = pieces path ->
     replied ps i a ->
     (exists new, a = YAttrs (Ok new) /\ attrs_after (map fst calls) path old new)
     \/ updater_dies calls path /\ exists e, a = YAttrs (Err e))
  /\ (forall i path' u rs f a, calls !! i = Some (KSetAttributes path' u rs, f) -> pieces path' = pieces path ->
     replied ps i a -> a = YUnit (Ok tt) \/ updater_dies calls path /\ exists e, a = YUnit (Err e))
  /\ (forall m i path' rs f a, get_array_metadata H (view o) path = Ok m ->
     calls !! i = Some (KGetMetadata path' rs, f) -> pieces path' = pieces path -> replied ps i a ->
     (exists new, a = YMeta (Ok (with_attrs m new)) /\ attrs_after (map fst calls) path old new)
     \/ updater_dies calls path /\ exists e, a = YMeta (Err e))
  /\ (forall i path' m f a, calls !! i = Some (KCreateArray path' m, f) -> pieces path' = pieces path ->
     replied ps i a -> a = YUnit (Err AlreadyExists))
  /\ (forall i path' f a, calls !! i = Some (KCreateGroup path', f) -> pieces path' = pieces path -> replied ps i a ->
     (explicit_array H (view o) path -> a = YUnit (Err AlreadyExists))
     /\ (~ explicit_array H (view o) path -> a = YUnit (Ok tt)))
  /\ (all_returned ps -> calm o' /\ wf_fs (view o')
     /\ (explicit_array H (view o') path <-> explicit_array H (view o) path)
     /\ ((exists doc' new, node_document H (view o') path = Ok doc'
           /\ list_attributes H (view o') path = Ok new /\ attrs_after (map fst calls) path old new
           /\ (forall k, k <> B "attributes" -> mget k doc' = mget k doc)
           /\ forall m, get_array_metadata H (view o) path = Ok m ->
                get_array_metadata H (view o') path = Ok (with_attrs m new))
         \/ updater_dies calls path /\ (exists e, list_attributes H (view o') path = Err e)
            /\ exists e, get_array_metadata H (view o') path = Err e)).
Proof. exact k_node. Qed.
Print Assumptions C74_existing_node.

(** The first update is killed while it rewrites the document. *)
Definition ex_kill_node : list (call * option nat) := zip ex_node_calls [Some 10%nat; None; None; None; None].
Definition ex_kill_node_procs : list (proc (option reply)) :=
  map (fun cf => mortal (snd cf) (p_call ex_codec ex_host ex_hier cuts (fst cf))) ex_kill_node.
Definition ex_kill_node_end : list nat := repeat 3%nat 5 ++ repeat 0%nat 11 ++ repeat 1%nat 6 ++ repeat 2%nat 6 ++ repeat 4%nat 2.
Example C74_node_example :
  let finished := crun ex_os ex_kill_node_procs ex_kill_node_end in
  calm ex_os /\ wf_fs (view ex_os)
  /\ (forall c, c ∈ map fst ex_kill_node -> call_ok c) /\ updates_ok (map fst ex_kill_node) ex_path
  /\ (forall c, c ∈ map fst ex_kill_node -> ~ removes_node c ex_path)
  /\ (exists doc, node_document ex_hier (view ex_os) ex_path = Ok doc)
  /\ (exists old, list_attributes ex_hier (view ex_os) ex_path = Ok old)
  /\ survives ex_codec ex_host ex_hier cuts ex_os ex_kill_node (end_os finished) (end_ps finished)
  /\ map answer (end_ps finished)
     = [Some None; Some (Some (YUnit (Err InvalidData))); Some (Some (YAttrs (Err InvalidData)));
        Some (Some (YMeta (Ok ex_meta))); Some (Some (YUnit (Err AlreadyExists)))].
Proof.
  cbv zeta. destruct C44_example as (K1 & K2 & _ & K4 & K5 & _).
  assert (map fst ex_kill_node = ex_node_calls) as -> by reflexivity.
  split; [exact ex_os_calm|]. split; [exact ex_os_wf|]. split; [exact K1|]. split; [exact K2|]. split.
  { intros c [->|[->|[->|[->|[->|X]%elem_of_cons]%elem_of_cons]%elem_of_cons]%elem_of_cons]%elem_of_cons;
      [intros []..|by apply elem_of_nil in X]. }
  split; [exact K4|]. split; [exact K5|].
  split; [unfold survives; apply crun_check; vm_compute; reflexivity|].
  vm_compute. reflexivity.
Qed.

(** Region reads and writes (as C59): a read that succeeds shows, for every
    voxel, the value at the start or one that some call gives it, and so does
    the array at the end.  A voxel that was readable is readable at the end
    unless a process that was writing its chunk, or a region with voxels of
    its chunk, died.  Strict prefixes of an encoded chunk are recognised as
    such (C41_raw_truncation_detected: always, without compression). *)
Theorem C74_voxels :
  forall flit C h H sl, (forall b, concat (sl b) = b) ->
  plain (hy_base H) -> good_suffix (ep_suffix (hy_ep H)) ->
  forall t path m d fill, plain path -> good_sep (am_sep m) ->
  Forall2 (fun n s => 0 <= n /\ 0 < s /\ n + s < two64) (am_shape m) (am_chunk_shape m) ->
  chunk_shape_ok m -> am_shape m <> [] ->
  lossless C (am_comp m) -> total_codec C (am_comp m) -> effective m d -> same_kind_width d t ->
  effective_fill flit t m = Ok fill -> elt_ok t fill ->
  (forall pos data bs, full_chunk m data -> encode_chunk C h t m (Chunk pos data) = (bs, Ok tt) ->
     truncation_detected C h t m bs) ->
  forall o calls o' ps, calm o -> wf_fs (view o) ->
  Forall rcall_ok (map fst calls) -> Forall (agrees C h t path m) (map fst calls) ->
  rsurvives flit C h H sl o calls o' ps ->
  forall x, grid_voxel m x -> (forall pos ck, decode_chunk C h t m [] pos <> Ok ck) ->
  let may v := possible C h H (view o) t path m fill (map fst calls) x v in
  (forall k path' bb rsf f arr i, calls !! k = Some (RRead t path' m bb rsf, f) -> pieces path' = pieces path ->
     replied ps k (YRegion (Ok arr)) -> index_of (bb_shape bb) i -> zip_with Z.add (bb_off bb) i = x -> may (nd_at arr i)) /\
  (forall k path' bb arr0 rsf f arr i, calls !! k = Some (RReadInto t path' m bb arr0 rsf, f) -> pieces path' = pieces path ->
     replied ps k (YRegion (Ok arr)) -> index_of (bb_shape bb) i -> zip_with Z.add (bb_off bb) i = x ->
     may (nd_at arr i) \/ nd_at arr i = nd_at arr0 i /\ may fill) /\
  (forall k path' pos rs f r, calls !! k = Some (RCall (KReadChunk t path' m pos rs), f) -> pieces path' = pieces path ->
     in_chunk (am_chunk_shape m) pos x -> replied ps k (YReply (YChunk (Ok r))) ->
     match r with Some ck => exists v, element m ck x = Some v /\ may v | None => may fill end) /\
  (all_returned ps ->
     (forall v, voxel C h H (view o') t path m fill x = Ok v -> may v) /\
     ((exists v, voxel C h H (view o) t path m fill x = Ok v) ->
      ~ voxel_writer_dies calls path m x -> exists v, voxel C h H (view o') t path m fill x = Ok v)).
Proof. exact k_voxels. Qed.
Print Assumptions C74_voxels.

(** A region write dies between its two chunks, having emptied the second. *)
Definition ex_kill_region : list (rcall * option nat) :=
  [(RWrite RI16 ex_path ex_meta [0; 0] (ex_row 9) ex_rsf, Some 12%nat);
   (RRead RI16 ex_path ex_meta (BBox [0; 0] [1; 3]) ex_rsf, None);
   (RRead RI16 ex_path ex_meta (BBox [0; 0] [1; 6]) ex_rsf, None);
   (RWrite RI16 ex_path ex_meta [1; 1] (ex_block 6) ex_rsf, None)].
Definition ex_kill_region_ps : list (proc (option rreply)) :=
  map (fun cf => mortal (snd cf) (p_rcall ex_flit ex_codec ex_host ex_hier cuts (fst cf))) ex_kill_region.
Definition ex_kill_region_end :=
  crun ex_os ex_kill_region_ps (turns 900 (fun _ => 200%nat) ex_os ex_kill_region_ps 0 200).
Local Ltac in_voxel :=
  split; [done|split; [done|]]; intros [|[|?]] ? ? ? E1 E2 E3; cbn in E1, E2, E3; try done;
  injection E1 as <-; injection E2 as <-; injection E3 as <-; lia.
Example C74_region_example :
  Forall rcall_ok (map fst ex_kill_region)
  /\ Forall (agrees ex_codec ex_host RI16 ex_path ex_meta) (map fst ex_kill_region)
  /\ (forall pos data bs, full_chunk ex_meta data -> encode_chunk ex_codec ex_host RI16 ex_meta (Chunk pos data) = (bs, Ok tt) ->
       truncation_detected ex_codec ex_host RI16 ex_meta bs)
  /\ rsurvives ex_flit ex_codec ex_host ex_hier cuts ex_os ex_kill_region (end_os ex_kill_region_end) (end_ps ex_kill_region_end)
  /\ grid_voxel ex_meta [1; 1] /\ grid_voxel ex_meta [0; 3]
  /\ match map answer (end_ps ex_kill_region_end) with
     | [a; Some (Some (YRegion b)); Some (Some (YRegion c)); d] =>
         a = Some None /\ nd_list b = Ok ([1; 3], [9; 9; 9]) /\ nd_list c = Err UnexpectedEof
         /\ d = Some (Some written_ok)
     | _ => False
     end
  /\ ex_vox (view (end_os ex_kill_region_end)) [0; 0] = Ok 9
  /\ ex_vox (view (end_os ex_kill_region_end)) [1; 1] = Ok 6
  /\ ex_vox (view (end_os ex_kill_region_end)) [0; 3] = Err UnexpectedEof
  /\ voxel_writer_dies ex_kill_region ex_path ex_meta [0; 3].
Proof.
  split.
  { assert (plain ex_path) as P by (apply plain_check; vm_compute; reflexivity).
    assert (good_sep (am_sep ex_meta)) as G by apply ex_state_ok.
    assert (R : forall a b c d x y, 0 <= x < 5 -> 0 <= y < 7 -> a <= x < a + c -> b <= y < b + d ->
      0 <= a < 10 -> 0 <= b < 10 -> c < 10 -> d < 10 -> region_ok ex_path ex_meta (BBox [a; b] [c; d])).
    { intros. split; [done|]. split; [done|]. split; [repeat constructor; cbn; unfold two64; lia|by apply (ex_box _ _ _ _ x y)]. }
    unfold ex_kill_region. cbn [map fst]. repeat (apply list.Forall_cons; split); [..|done]; cbn [rcall_ok nd_shape ex_block ex_row].
    - apply (R _ _ _ _ 0 0); lia.
    - apply (R _ _ _ _ 0 0); lia.
    - apply (R _ _ _ _ 0 0); lia.
    - apply (R _ _ _ _ 1 1); lia. }
  split.
  { unfold ex_kill_region. cbn [map fst]. repeat (apply list.Forall_cons; split); [..|done]; cbn [agrees nd_shape ex_block ex_row]; intros.
    - split; [done|]. split; [done|]. split; [reflexivity|]. by intros i _.
    - by split_and!.
    - by split_and!.
    - split; [done|]. split; [done|]. split; [reflexivity|]. by intros i _. }
  split.
  { intros pos data bs F E. eapply (C41_raw_truncation_detected ex_codec ex_host RI16 ex_meta _ data pos); [by left|done|done|split; repeat constructor; vm_compute; done|done|exact E]. }
  split; [unfold rsurvives, ex_kill_region_end; apply crun_check; vm_compute; reflexivity|].
  split. { exists [0; 0]. split; [|exists [1; 1]; split]; in_voxel. }
  split. { exists [0; 1]. split; [|exists [0; 3]; split]; in_voxel. }
  split; [vm_compute; split_and!; reflexivity|]. split; [vm_compute; reflexivity|]. split; [vm_compute; reflexivity|].
  split; [vm_compute; reflexivity|].
  eexists _, _. split; [left|]. cbn. split; [done|]. exists [0; 1].
  split; [|exists [0; 3]; split_and!]; in_voxel.
Qed.

(** An array that is created meanwhile, by one or several processes (as C45):
    what can be read is one of the created arrays with some of the requested
    updates; a creation that succeeded stays; and at the end the metadata is
    unreadable only if a process that was creating the array, or updating its
    attributes, is among the dead. *)
Theorem C74_created_array :
  forall C h H sl, (forall b, concat (sl b) = b) ->
  plain (hy_base H) -> good_suffix (ep_suffix (hy_ep H)) ->
  forall path, plain path -> forall calls,
  (forall c, c ∈ map fst calls -> call_ok c) -> updates_ok (map fst calls) path ->
  (forall path' m, KCreateArray path' m ∈ map fst calls -> pieces path' = pieces path -> readable m) ->
  forall o, calm o -> wf_fs (view o) -> ~ explicit_array H (view o) path ->
  forall o' ps, survives C h H sl o calls o' ps ->
  (forall i path' rs f a, calls !! i = Some (KGetMetadata path' rs, f) -> pieces path' = pieces path ->
     replied ps i a -> exists r, a = YMeta r /\ (made (map fst calls) path r \/ exists e, r = Err e))
  /\ ((forall c, c ∈ map fst calls -> ~ removes_node c path) ->
      (forall i path' m f, calls !! i = Some (KCreateArray path' m, f) -> pieces path' = pieces path ->
         replied ps i (YUnit (Ok tt)) -> explicit_array H (view o') path)
      /\ (forall i path' f, calls !! i = Some (KCreateGroup path', f) -> pieces path' = pieces path ->
         replied ps i (YUnit (Ok tt)) -> explicit_group H (view o') path))
  /\ (all_returned ps -> calm o' /\ wf_fs (view o') /\
      (explicit_array H (view o') path ->
         made (map fst calls) path (get_array_metadata H (view o') path)
         \/ array_writer_dies calls path /\ exists e, get_array_metadata H (view o') path = Err e)).
Proof. exact k_new. Qed.
Print Assumptions C74_created_array.

(** The creator is killed before it writes: what it leaves is an array whose
    metadata nobody can read, and nobody can create it again. *)
Definition ex_kill_new (n : nat) : list (call * option nat) :=
  [(KCreateArray (B "n") ex_meta, Some n); (KCreateArray (B "/n") ex_meta, None); (KGetMetadata (B "n/") [], None)].
Definition ex_kill_new_ps (n : nat) : list (proc (option reply)) :=
  map (fun cf => mortal (snd cf) (p_call ex_codec ex_host ex_hier cuts (fst cf))) (ex_kill_new n).
Definition ex_kill_new_end (n : nat) :=
  crun ex_os (ex_kill_new_ps n) (turns 200 (fun _ => 200%nat) ex_os (ex_kill_new_ps n) 0 200).
Example C74_created_example :
  ~ explicit_array ex_hier (view ex_os) (B "n") /\ readable ex_meta
  /\ (forall c, c ∈ map fst (ex_kill_new 5) -> call_ok c) /\ updates_ok (map fst (ex_kill_new 5)) (B "n")
  /\ survives ex_codec ex_host ex_hier cuts ex_os (ex_kill_new 5) (end_os (ex_kill_new_end 5)) (end_ps (ex_kill_new_end 5))
  /\ map answer (end_ps (ex_kill_new_end 5))
     = [Some None; Some (Some (YUnit (Err AlreadyExists))); Some (Some (YMeta (Err InvalidData)))]
  /\ array_writer_dies (ex_kill_new 5) (B "n")
  /\ survives ex_codec ex_host ex_hier cuts ex_os (ex_kill_new 2) (end_os (ex_kill_new_end 2)) (end_ps (ex_kill_new_end 2))
  /\ map answer (end_ps (ex_kill_new_end 2))
     = [Some None; Some (Some (YUnit (Ok tt))); Some (Some (YMeta (Ok ex_meta)))].
Proof.
  destruct C45_example as (K1 & K2 & _). split; [exact K1|]. split; [exact K2|].
  split.
  { intros c [->|[->|[->|X]%elem_of_cons]%elem_of_cons]%elem_of_cons; [..|by apply elem_of_nil in X];
      apply plain_check; vm_compute; reflexivity. }
  split.
  { intros u (path' & rs & IN & _). exfalso. repeat (apply elem_of_cons in IN as [IN|IN]; [discriminate IN|]).
    by apply elem_of_nil in IN. }
  split; [unfold survives, ex_kill_new_end; apply crun_check; vm_compute; reflexivity|].
  split; [vm_compute; reflexivity|].
  split; [eexists _, _; split; [left|reflexivity]|].
  split; [unfold survives, ex_kill_new_end; apply crun_check; vm_compute; reflexivity|].
  vm_compute. reflexivity.
Qed.
