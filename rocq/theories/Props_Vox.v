(** Property theorems: an array is its voxels, whatever its chunks (C80). *)
From Verif Require Import Json MetaJson BBox CoordIter Nd Hier Spec SpecHier SpecPlace SpecVox BaseFacts FSFacts NdFacts NdSafe StoreFacts VoxFacts
  Props_Chunk Props_Store Props_Nd.
Local Open Scope Z_scope.

(** C80.  Whatever regions and chunks of an array were written or deleted, and
    whatever else happened that left the files of its chunks alone, a region
    read returns for each voxel what the last change that concerns it gave, or
    the fill value if there was none. *)
Theorem C80_last_write :
  forall flit C h H t path m, plain (hy_base H) -> plain path -> good_sep (am_sep m) ->
  lossless C (am_comp m) -> chunk_shape_ok m -> am_shape m <> [] ->
  forall fill, effective_fill flit t m = Ok fill -> elt_ok t fill ->
  forall bb s cs s' a, wf_fs s -> unwritten H s path m -> history_of flit C h H t path m s cs s' ->
  bounded_ok (am_shape m) (am_chunk_shape m) (bb_off bb) (bb_shape bb) ->
  read_ndarray flit C h H s' t path m bb = Ok a ->
  nd_shape a = bb_shape bb
  /\ forall i, index_of (bb_shape bb) i -> index_of (am_shape m) (zip_with Z.add (bb_off bb) i) ->
     last_written m fill fill cs (zip_with Z.add (bb_off bb) i) (nd_at a i).
Proof. exact history_read. Qed.
Print Assumptions C80_last_write.
(** The same for an array that had chunks at first, with what a read returned
    then for those that were not concerned. *)
Theorem C80_last_write_from :
  forall flit C h H t path m, plain (hy_base H) -> plain path -> good_sep (am_sep m) ->
  lossless C (am_comp m) -> chunk_shape_ok m -> am_shape m <> [] ->
  forall fill, effective_fill flit t m = Ok fill -> elt_ok t fill ->
  forall bb s cs s' before after, wf_fs s -> history_of flit C h H t path m s cs s' ->
  bounded_ok (am_shape m) (am_chunk_shape m) (bb_off bb) (bb_shape bb) ->
  read_ndarray flit C h H s t path m bb = Ok before -> read_ndarray flit C h H s' t path m bb = Ok after ->
  forall i, index_of (bb_shape bb) i -> index_of (am_shape m) (zip_with Z.add (bb_off bb) i) ->
  last_written m fill (nd_at before i) cs (zip_with Z.add (bb_off bb) i) (nd_at after i).
Proof. exact history_read_from. Qed.
Print Assumptions C80_last_write_from.
(** So does the read of a chunk, where an absent chunk stands for the fill
    value ([bb] only says that the array's extents can be computed with). *)
Theorem C80_chunk_read :
  forall flit C h H t path m, plain (hy_base H) -> plain path -> good_sep (am_sep m) ->
  lossless C (am_comp m) -> chunk_shape_ok m -> am_shape m <> [] ->
  forall fill, effective_fill flit t m = Ok fill -> elt_ok t fill ->
  forall bb s cs s' pos o, wf_fs s -> unwritten H s path m -> history_of flit C h H t path m s cs s' ->
  bounded_ok (am_shape m) (am_chunk_shape m) (bb_off bb) (bb_shape bb) ->
  read_chunk C h H s' t path m pos = Ok o ->
  forall x, in_chunk (am_chunk_shape m) pos x -> index_of (am_shape m) x ->
  exists v, last_written m fill fill cs x v
    /\ match o with
       | None => v = fill
       | Some ck => ck_data ck !! Z.to_nat (layout_rank (am_order m) (am_chunk_shape m)
                      (zip_with Z.sub x (zip_with Z.mul pos (am_chunk_shape m)))) = Some v
       end.
Proof. exact history_chunk. Qed.
Print Assumptions C80_chunk_read.
(** The histories include all calls on other nodes, whatever they return:
    chunks and regions of other arrays, documents of all nodes, removals. *)
Theorem C80_other_calls :
  forall flit C h H t path m,
  plain (hy_base H) -> good_suffix (ep_suffix (hy_ep H)) -> plain path -> good_sep (am_sep m) ->
  lossless C (am_comp m) -> chunk_shape_ok m -> am_shape m <> [] ->
  forall fill, effective_fill flit t m = Ok fill -> elt_ok t fill ->
  forall s cs s', wf_fs s -> history_of flit C h H t path m s cs s' ->
  forall flit' C' h' o, api_plain o -> elsewhere path o ->
  history_of flit C h H t path m s cs (api_step flit' C' h' H s' o).
Proof. exact history_elsewhere. Qed.
Print Assumptions C80_other_calls.
Theorem C80_one_value :
  forall m fill first cs x v v', last_written m fill first cs x v -> last_written m fill first cs x v' -> v = v'.
Proof. exact last_written_unique. Qed.
Print Assumptions C80_one_value.

(** So two arrays of the same shape and fill value that see the same writes of
    regions give the same voxels, whatever their chunk shapes, separators,
    layouts, compressions, byte orders, paths and hierarchies. *)
Theorem C80_chunks_invisible :
  forall flit C h H path m C' h' H' path' m' t fill,
  plain (hy_base H) -> plain path -> good_sep (am_sep m) -> lossless C (am_comp m) -> chunk_shape_ok m ->
  plain (hy_base H') -> plain path' -> good_sep (am_sep m') -> lossless C' (am_comp m') -> chunk_shape_ok m' ->
  same_to_users flit t m m' -> am_shape m <> [] -> effective_fill flit t m = Ok fill -> elt_ok t fill ->
  forall s s' cs r r' bb a a', wf_fs s -> wf_fs s' -> unwritten H s path m -> unwritten H' s' path' m' -> regions_only cs ->
  history_of flit C h H t path m s cs r -> history_of flit C' h' H' t path' m' s' cs r' ->
  bounded_ok (am_shape m) (am_chunk_shape m) (bb_off bb) (bb_shape bb) ->
  bounded_ok (am_shape m') (am_chunk_shape m') (bb_off bb) (bb_shape bb) ->
  read_ndarray flit C h H r t path m bb = Ok a -> read_ndarray flit C' h' H' r' t path' m' bb = Ok a' ->
  nd_shape a = nd_shape a'
  /\ forall i, index_of (bb_shape bb) i -> index_of (am_shape m) (zip_with Z.add (bb_off bb) i) -> nd_at a i = nd_at a' i.
Proof. exact chunks_invisible. Qed.
Print Assumptions C80_chunks_invisible.

(** Two overlapping writes to a 5 x 7 array in chunks of 2 x 3, column-major, big
    endian, and to one in chunks of 3 x 5, row-major, little endian. *)
Definition ex_other : array_meta :=
  ArrayMeta [5; 7] (Core (DInt IB2 Little)) (B "regular") [3; 5] (B ".") RowMajor None [] [] CRaw.
Definition ex_patch : nd := Nd [2; 2] (fun i => match i with [a; b] => - (10 * a + b) - 1 | _ => 0 end).
Definition ex_vox_1 : fs := fst (write_ndarray ex_flit ex_codec ex_host ex_hier ex_fs RI16 ex_path ex_meta [2; 2] ex_payload).
Definition ex_vox_2 : fs := fst (write_ndarray ex_flit ex_codec ex_host ex_hier ex_vox_1 RI16 ex_path ex_meta [1; 3] ex_patch).
Definition ex_vox_3 : fs := fst (write_ndarray ex_flit ex_codec ex_host ex_hier ex_vox_2 RI16 (B "o") ex_other [2; 2] ex_payload).
Definition ex_vox_4 : fs := fst (write_ndarray ex_flit ex_codec ex_host ex_hier ex_vox_3 RI16 (B "o") ex_other [1; 3] ex_patch).
Example C80_example :
  history_of ex_flit ex_codec ex_host ex_hier RI16 ex_path ex_meta ex_fs [Region [2; 2] ex_payload; Region [1; 3] ex_patch] ex_vox_2
  /\ history_of ex_flit ex_codec ex_host ex_hier RI16 (B "o") ex_other ex_vox_2 [Region [2; 2] ex_payload; Region [1; 3] ex_patch] ex_vox_4
  /\ same_to_users ex_flit RI16 ex_meta ex_other /\ good_sep (am_sep ex_other) /\ chunk_shape_ok ex_other
  /\ nd_list (read_ndarray ex_flit ex_codec ex_host ex_hier ex_vox_2 RI16 ex_path ex_meta (BBox [1; 2] [2; 3]))
     = Ok ([2; 3], [0; -1; -2; 0; -11; -12])
  /\ nd_list (read_ndarray ex_flit ex_codec ex_host ex_hier ex_vox_4 RI16 (B "o") ex_other (BBox [1; 2] [2; 3]))
     = Ok ([2; 3], [0; -1; -2; 0; -11; -12]).
Proof.
  assert (PO : forall a b i, index_of [a; b] i -> exists u v, i = [u; v] /\ 0 <= u < a /\ 0 <= v < b).
  { intros a b i (L1 & _ & B). destruct i as [|u [|v []]]; try done. exists u, v. split; [done|].
    pose proof (B 0%nat u 0 a eq_refl eq_refl eq_refl). pose proof (B 1%nat v 0 b eq_refl eq_refl eq_refl). lia. }
  assert (E1 : forall i, index_of (nd_shape ex_payload) i -> elt_ok RI16 (nd_at ex_payload i)).
  { intros i (u & v & -> & U & V)%PO. unfold elt_ok. cbn. lia. }
  assert (E2 : forall i, index_of (nd_shape ex_patch) i -> elt_ok RI16 (nd_at ex_patch i)).
  { intros i (u & v & -> & U & V)%PO. unfold elt_ok. cbn. lia. }
  assert (ST : forall s r : fs * res unit, snd s = Ok tt -> s = (fst s, Ok tt)) by (intros [? ?] _; cbn; by intros ->).
  assert (HI : forall path m s0 s1, bounded_ok (am_shape m) (am_chunk_shape m) [2; 2] (nd_shape ex_payload) ->
    bounded_ok (am_shape m) (am_chunk_shape m) [1; 3] (nd_shape ex_patch) ->
    s1 = fst (write_ndarray ex_flit ex_codec ex_host ex_hier s0 RI16 path m [2; 2] ex_payload) ->
    snd (write_ndarray ex_flit ex_codec ex_host ex_hier s0 RI16 path m [2; 2] ex_payload) = Ok tt ->
    snd (write_ndarray ex_flit ex_codec ex_host ex_hier s1 RI16 path m [1; 3] ex_patch) = Ok tt ->
    history_of ex_flit ex_codec ex_host ex_hier RI16 path m s0 [Region [2; 2] ex_payload; Region [1; 3] ex_patch]
      (fst (write_ndarray ex_flit ex_codec ex_host ex_hier s1 RI16 path m [1; 3] ex_patch))).
  { intros path m s0 s1 B1 B2 ES W1 W2.
    apply (history_change _ _ _ _ _ _ _ _ [Region [2; 2] ex_payload] s1).
    2: { split; [done|]. split; [reflexivity|]. split; [done|]. by apply (ST _ (s1, Ok tt)). }
    apply (history_change _ _ _ _ _ _ _ _ [] s0); [constructor|].
    split; [done|]. split; [reflexivity|]. split; [done|]. rewrite ES. by apply (ST _ (s1, Ok tt)). }
  split. { apply (HI _ _ ex_fs ex_vox_1); [repeat constructor; done|repeat constructor; done|done|vm_compute; reflexivity..]. }
  split. { apply (HI _ _ ex_vox_2 ex_vox_3); [repeat constructor; done|repeat constructor; done|done|vm_compute; reflexivity..]. }
  split; [done|]. split.
  { split; [done|]. split; [by apply (bool_decide_eq_false_1 _)|].
    split; [by repeat constructor|]. apply plain_check; vm_compute; reflexivity. }
  split; [split; [repeat constructor|reflexivity]|].
  split; vm_compute; reflexivity.
Qed.
(** A region written, a chunk overwritten, another deleted. *)
Definition ex_vox_5 : fs := fst (write_chunk ex_codec ex_host ex_hier ex_vox_1 RI16 ex_path ex_meta (Chunk [1; 1] [1; 2; 3; 4; 5; 6])).
Definition ex_vox_6 : fs := fst (delete_chunk ex_hier ex_vox_5 ex_path ex_meta [1; 0]).
Example C80_example_chunks :
  history_of ex_flit ex_codec ex_host ex_hier RI16 ex_path ex_meta ex_fs
    [Region [2; 2] ex_payload; WholeChunk [1; 1] [1; 2; 3; 4; 5; 6]; NoChunk [1; 0]] ex_vox_6
  /\ nd_list (read_ndarray ex_flit ex_codec ex_host ex_hier ex_vox_1 RI16 ex_path ex_meta (BBox [2; 2] [3; 4]))
     = Ok ([3; 4], [0; 1; 2; 0; 10; 11; 12; 0; 20; 21; 22; 0])
  /\ nd_list (read_ndarray ex_flit ex_codec ex_host ex_hier ex_vox_6 RI16 ex_path ex_meta (BBox [2; 2] [3; 4]))
     = Ok ([3; 4], [0; 1; 3; 5; 0; 2; 4; 6; 20; 21; 22; 0]).
Proof.
  split; [|split; vm_compute; reflexivity].
  assert (PO : forall a b i, index_of [a; b] i -> exists u v, i = [u; v] /\ 0 <= u < a /\ 0 <= v < b).
  { intros a b i (L1 & _ & B). destruct i as [|u [|v []]]; try done. exists u, v. split; [done|].
    pose proof (B 0%nat u 0 a eq_refl eq_refl eq_refl). pose proof (B 1%nat v 0 b eq_refl eq_refl eq_refl). lia. }
  assert (ST : forall A (s : fs * res A) (o : res A), snd s = o -> s = (fst s, o)) by (intros ? [? ?]; cbn; by intros ? ->).
  apply (history_change _ _ _ _ _ _ _ _ [Region [2; 2] ex_payload; WholeChunk [1; 1] [1; 2; 3; 4; 5; 6]] ex_vox_5).
  2: { split; [repeat constructor; done|]. exists true. apply ST. vm_compute. reflexivity. }
  apply (history_change _ _ _ _ _ _ _ _ [Region [2; 2] ex_payload] ex_vox_1).
  2: { split; [repeat constructor; done|]. split; [repeat constructor; done|]. split; [reflexivity|]. apply ST. vm_compute. reflexivity. }
  apply (history_change _ _ _ _ _ _ _ _ [] ex_fs); [constructor|].
  split; [repeat constructor; done|]. split; [reflexivity|]. split; [|apply ST; vm_compute; reflexivity].
  intros i (u & v & -> & U & V)%PO. unfold elt_ok. cbn. lia.
Qed.
(** The arrays have no chunks at first. *)
Example C80_example_unwritten : unwritten ex_hier ex_fs ex_path ex_meta /\ unwritten ex_hier ex_vox_2 (B "o") ex_other.
Proof.
  assert (G : forall (s : fs) p, forallb (fun x : fpath * node => match x.2 with
      | File _ => negb (bool_decide (p `prefix_of` x.1)) | Dir => true end) (map_to_list s) = true ->
    forall q, file_at s (p ++ q) = None).
  { intros s p F q. unfold file_at. destruct (node_at s (p ++ q)) as [[|c]|] eqn:E; [done| |done]. exfalso.
    unfold node_at in E. destruct (p ++ q) as [|y l] eqn:Q; [done|]. rewrite <- Q in E.
    rewrite forallb_forall in F. apply elem_of_map_to_list, elem_of_list_In in E. apply F in E. cbn in E.
    apply negb_true_iff, bool_decide_eq_false in E. apply E. by exists q. }
  split; intros pos w _ _; unfold chunk_file; rewrite app_assoc; rewrite app_assoc; apply G; vm_compute; reflexivity.
Qed.
(** Calls on other nodes: the writes to the other array above, and its removal. *)
Example C80_example_elsewhere :
  elsewhere ex_path (AWriteRegion RI16 (B "o") ex_other [2; 2] ex_payload) /\ elsewhere ex_path (ARemove (B "o"))
  /\ api_plain (ARemove (B "o")) /\ pieces ex_path <> []
  /\ ex_vox_3 = api_step ex_flit ex_codec ex_host ex_hier ex_vox_2 (AWriteRegion RI16 (B "o") ex_other [2; 2] ex_payload).
Proof.
  split. { split; [by apply (bool_decide_eq_false_1 _)|]. split; [done|]. split; [by apply (bool_decide_eq_false_1 _)|].
    split; [by repeat constructor|]. apply plain_check; vm_compute; reflexivity. }
  split. { split; by apply (bool_decide_eq_false_1 _). }
  split; [apply plain_check; vm_compute; reflexivity|]. split; [by apply (bool_decide_eq_false_1 _)|reflexivity].
Qed.
