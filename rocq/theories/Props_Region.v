(** Property theorems: region reads and writes as processes: crashes (C56), and
    that alone they do what the sequential model says (C54).  [stops],
    [released], [answers] as in Props_Crash.v; [rsf] and [sl] say in what pieces
    chunk files are read and encoded chunks handed to the writer. *)
From Verif Require Import Hier Nd Sys SysNd Spec SpecMeta SpecSys BaseFacts FSFacts StoreFacts NodeFacts SysFacts SysOps
  SysNdOps CrashFacts CrashOps CrashMeta CrashOpen CrashRegion SysWit Props_Chunk Props_Store Props_Nd Props_Crash.
Local Open Scope Z_scope.

(** C54 *)
Theorem C54_regions :
  forall H C h rsf sl, (forall b, concat (sl b) = b) ->
  forall flit t path m bb off arr o, calm o ->
  does o (p_read_ndarray H C h rsf flit t path m bb)
    (view o, read_ndarray flit C h H (view o) t path m bb)
  /\ does o (p_read_ndarray_into H C h rsf t path m bb arr)
    (view o, read_ndarray_into C h H (view o) t path m bb arr)
  /\ does o (p_write_ndarray H C h rsf sl flit t path m off arr)
    (write_ndarray flit C h H (view o) t path m off arr).
Proof. exact does_regions. Qed.
Print Assumptions C54_regions.

(** C56: uncompressed chunks.  [of] is the state the call would have left had
    it not been interrupted.  After the crash every chunk but one reads as
    before the call or as after it; the remaining one, [torn], may be
    unreadable. *)
Theorem C56_crash_region :
  forall flit H C h t path m rsf sl off arr d o o' of,
  (forall b, concat (sl b) = b) ->
  plain (hy_base H) -> plain path -> good_sep (am_sep m) ->
  bounded_ok (am_shape m) (am_chunk_shape m) off (nd_shape arr) ->
  chunk_shape_ok m -> am_shape m <> [] -> fits_memory (nd_shape arr) ->
  effective m d -> same_kind_width d t -> am_comp m = CRaw ->
  calm o -> wf_fs (view o) ->
  run o (p_write_ndarray H C h rsf sl flit t path m off arr) = Some (of, Ok tt) ->
  stops o (p_write_ndarray H C h rsf sl flit t path m off arr) o' ->
  exists torn, forall pos rs, pos_ok pos ->
    exists a, answers (released o') (p_read_chunk H C h t path m pos rs) a /\
      (answers o (p_read_chunk H C h t path m pos rs) a
       \/ answers of (p_read_chunk H C h t path m pos rs) a
       \/ (pos = torn /\ exists e, a = Err e)).
Proof. exact crash_region_raw. Qed.
Print Assumptions C56_crash_region.

(** C56 for other codecs, if decoding detects truncation. *)
Theorem C56_crash_region_codec :
  forall flit H C h t path m rsf sl off arr o o' of,
  (forall b, concat (sl b) = b) ->
  plain (hy_base H) -> plain path -> good_sep (am_sep m) ->
  bounded_ok (am_shape m) (am_chunk_shape m) off (nd_shape arr) ->
  chunk_shape_ok m -> am_shape m <> [] -> fits_memory (nd_shape arr) ->
  (forall pos data bs, full_chunk m data -> encode_chunk C h t m (Chunk pos data) = (bs, Ok tt) ->
     truncation_detected C h t m bs) ->
  calm o -> wf_fs (view o) ->
  run o (p_write_ndarray H C h rsf sl flit t path m off arr) = Some (of, Ok tt) ->
  stops o (p_write_ndarray H C h rsf sl flit t path m off arr) o' ->
  exists torn, forall pos rs, pos_ok pos ->
    exists a, answers (released o') (p_read_chunk H C h t path m pos rs) a /\
      (answers o (p_read_chunk H C h t path m pos rs) a
       \/ answers of (p_read_chunk H C h t path m pos rs) a
       \/ (pos = torn /\ exists e, a = Err e)).
Proof. exact crash_region. Qed.
Print Assumptions C56_crash_region_codec.

(** C56 voxel by voxel: there are only old and new values, new ones only inside
    the region, and voxels of one chunk that cannot be read; these may lie
    outside the region. *)
Theorem C56_crash_region_voxels :
  forall flit H C h t path m rsf sl off arr fill o o' of,
  (forall b, concat (sl b) = b) ->
  plain (hy_base H) -> plain path -> good_sep (am_sep m) ->
  bounded_ok (am_shape m) (am_chunk_shape m) off (nd_shape arr) ->
  chunk_shape_ok m -> am_shape m <> [] -> fits_memory (nd_shape arr) ->
  lossless C (am_comp m) -> effective_fill flit t m = Ok fill -> elt_ok t fill ->
  (forall i, index_of (nd_shape arr) i -> elt_ok t (nd_at arr i)) ->
  (forall pos data bs, full_chunk m data -> encode_chunk C h t m (Chunk pos data) = (bs, Ok tt) ->
     truncation_detected C h t m bs) ->
  calm o -> wf_fs (view o) ->
  run o (p_write_ndarray H C h rsf sl flit t path m off arr) = Some (of, Ok tt) ->
  stops o (p_write_ndarray H C h rsf sl flit t path m off arr) o' ->
  exists torn, forall x, grid_voxel m x ->
    let v s := voxel C h H s t path m fill x in
    v (view o') = v (view o)
    \/ (in_box off (nd_shape arr) x /\ v (view o') = Ok (nd_at arr (zip_with Z.sub x off)))
    \/ (in_chunk (am_chunk_shape m) torn x /\ exists e, v (view o') = Err e).
Proof. exact crash_region_voxels. Qed.
Print Assumptions C56_crash_region_voxels.

(** C56: files that are not chunks met by the region are untouched. *)
Theorem C56_crash_region_frame :
  forall flit H C h t path m rsf sl off arr o o',
  (forall b, concat (sl b) = b) ->
  plain (hy_base H) -> plain path -> good_sep (am_sep m) ->
  bounded_ok (am_shape m) (am_chunk_shape m) off (nd_shape arr) ->
  overlaps m (BBox off (nd_shape arr)) ->
  calm o -> wf_fs (view o) ->
  stops o (p_write_ndarray H C h rsf sl flit t path m off arr) o' ->
  wf_fs (view o') /\ dirs_kept (view o) (view o')
  /\ forall q, (forall pos, pos_ok pos -> meets_box m (BBox off (nd_shape arr)) pos ->
                q <> loc (hy_base H) (get_chunk_key path m pos)) ->
     file_at (view o') q = file_at (view o) q.
Proof. exact crash_region_frame. Qed.
Print Assumptions C56_crash_region_frame.

(** The stronger claim, that the region is written completely or not at all,
    is false. *)
Definition ex_rsf : list Z -> list nat := fun _ => [2%nat].
Definition ex_wr : proc (res unit) :=
  p_write_ndarray ex_hier ex_codec ex_host ex_rsf cuts ex_flit RI16 ex_path ex_meta [2; 2] ex_payload.
Definition ex_rd : proc (res nd) :=
  p_read_ndarray ex_hier ex_codec ex_host ex_rsf ex_flit RI16 ex_path ex_meta (BBox [2; 2] [3; 3]).
Definition region_of (o : os) : option (res (list Z * list Z)) :=
  match run o ex_rd with Some (_, r) => Some (nd_list r) | None => None end.
Theorem C56_all_or_nothing_refuted :
  exists o', stops ex_os ex_wr o'
  /\ region_of ex_os = Some (Ok ([3; 3], [0; -1; 300; 0; 2; -32768; 0; 0; 0]))
  /\ region_of (after ex_os ex_wr) = Some (Ok ([3; 3], [0; 1; 2; 10; 11; 12; 20; 21; 22]))
  /\ region_of (released o') = Some (Ok ([3; 3], [0; 1; 2; 10; 11; 12; 0; 0; 0])).
Proof.
  exists (cut_after 18 ex_os ex_wr). split; [apply cut_after_stops|].
  do 2 (split; [vm_compute; reflexivity|]). vm_compute; reflexivity.
Qed.
Print Assumptions C56_all_or_nothing_refuted.

(** Nor do voxels outside the region always keep their value: chunk (1, 1) is
    rewritten, and voxel (2, 5) of it is lost at some crash point. *)
Theorem C56_outside_kept_refuted :
  exists o', stops ex_os ex_wr o' /\ ~ in_box [2; 2] [3; 3] [2; 5]
  /\ voxel ex_codec ex_host ex_hier (view ex_os) RI16 ex_path ex_meta 0 [2; 5] = Ok 32767
  /\ voxel ex_codec ex_host ex_hier (view (after ex_os ex_wr)) RI16 ex_path ex_meta 0 [2; 5] = Ok 32767
  /\ voxel ex_codec ex_host ex_hier (view o') RI16 ex_path ex_meta 0 [2; 5] = Err UnexpectedEof.
Proof.
  exists (cut_after 17 ex_os ex_wr). split; [apply cut_after_stops|]. split.
  { intros (_ & _ & X). specialize (X 1%nat 5 2 3 eq_refl eq_refl eq_refl). lia. }
  do 2 (split; [vm_compute; reflexivity|]). vm_compute; reflexivity.
Qed.
Print Assumptions C56_outside_kept_refuted.

Example C56_example :
  calm ex_os /\ wf_fs (view ex_os)
  /\ bounded_ok (am_shape ex_meta) (am_chunk_shape ex_meta) [2; 2] (nd_shape ex_payload)
  /\ overlaps ex_meta (BBox [2; 2] (nd_shape ex_payload))
  /\ chunk_shape_ok ex_meta /\ fits_memory (nd_shape ex_payload)
  /\ am_comp ex_meta = CRaw
  /\ run ex_os ex_wr = Some (after ex_os ex_wr, Ok tt).
Proof.
  split; [apply ex_os_calm|]. split; [apply ex_os_wf|]. split; [repeat constructor; done|].
  split.
  { exists [2; 2]. split; (split; [done|split; [done|]]); intros i xi oi si E1 E2 E3;
      destruct i as [|[|i]]; cbn in E1, E2, E3; try done;
      injection E1 as <-; injection E2 as <-; injection E3 as <-; lia. }
  split; [split; repeat constructor; vm_compute; done|]. split; [reflexivity|]. split; [reflexivity|].
  apply after_run, answers_check. vm_compute. reflexivity.
Qed.
