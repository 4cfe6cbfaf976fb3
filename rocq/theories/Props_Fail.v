(** Property theorems: region writes that fail part-way (C83). *)
From Verif Require Import Json MetaJson BBox CoordIter Nd Hier Spec BaseFacts FSFacts HierFacts NdSafe FailFacts Props_Chunk Props_Store Props_Nd.
Local Open Scope Z_scope.

(** C83.  However a region write ends (success, error or panic), there is one
    chunk such that every voxel of every other chunk has the value (or the
    failure) it had, or lies in the region and has the value written. *)
Theorem C83_one_chunk :
  forall flit C h H s t path m off arr s' r fill,
  bounded_ok (am_shape m) (am_chunk_shape m) off (nd_shape arr) -> chunk_shape_ok m -> am_shape m <> [] -> fits_memory (nd_shape arr) ->
  wf_fs s -> plain (hy_base H) -> plain path -> good_sep (am_sep m) ->
  lossless C (am_comp m) -> effective_fill flit t m = Ok fill -> elt_ok t fill ->
  (forall i, index_of (nd_shape arr) i -> elt_ok t (nd_at arr i)) ->
  write_ndarray flit C h H s t path m off arr = (s', r) ->
  exists torn, forall x, grid_voxel m x -> zip_with Z.div x (am_chunk_shape m) <> torn ->
    voxel C h H s' t path m fill x = voxel C h H s t path m fill x
    \/ (in_box off (nd_shape arr) x /\ voxel C h H s' t path m fill x = Ok (nd_at arr (zip_with Z.sub x off))).
Proof. exact failed_region. Qed.
Print Assumptions C83_one_chunk.

(** With the array's element type and a codec that accepts what it is given,
    there is no such chunk: every voxel is as it was or as written. *)
Theorem C83_old_or_new :
  forall flit C h H s t path m off arr s' r fill d,
  bounded_ok (am_shape m) (am_chunk_shape m) off (nd_shape arr) -> chunk_shape_ok m -> am_shape m <> [] -> fits_memory (nd_shape arr) ->
  wf_fs s -> plain (hy_base H) -> plain path -> good_sep (am_sep m) ->
  lossless C (am_comp m) -> total_codec C (am_comp m) -> effective m d -> same_kind_width d t -> effective_fill flit t m = Ok fill -> elt_ok t fill ->
  (forall i, index_of (nd_shape arr) i -> elt_ok t (nd_at arr i)) ->
  write_ndarray flit C h H s t path m off arr = (s', r) ->
  forall x, grid_voxel m x ->
    voxel C h H s' t path m fill x = voxel C h H s t path m fill x
    \/ (in_box off (nd_shape arr) x /\ voxel C h H s' t path m fill x = Ok (nd_at arr (zip_with Z.sub x off))).
Proof. exact undamaged_region. Qed.
Print Assumptions C83_old_or_new.

(** The same as users see it: a region read after the write gives, voxel by
    voxel, what a read of the same region gave before it or what was written. *)
Theorem C83_reads :
  forall flit C h H s t path m off arr s' r d,
  bounded_ok (am_shape m) (am_chunk_shape m) off (nd_shape arr) -> chunk_shape_ok m -> am_shape m <> [] -> fits_memory (nd_shape arr) ->
  wf_fs s -> plain (hy_base H) -> plain path -> good_sep (am_sep m) ->
  lossless C (am_comp m) -> total_codec C (am_comp m) -> effective m d -> same_kind_width d t ->
  (forall fill, effective_fill flit t m = Ok fill -> elt_ok t fill) ->
  (forall i, index_of (nd_shape arr) i -> elt_ok t (nd_at arr i)) ->
  write_ndarray flit C h H s t path m off arr = (s', r) ->
  forall bb b b', bounded_ok (am_shape m) (am_chunk_shape m) (bb_off bb) (bb_shape bb) ->
  read_ndarray flit C h H s t path m bb = Ok b -> read_ndarray flit C h H s' t path m bb = Ok b' ->
  forall i, index_of (bb_shape bb) i -> let x := zip_with Z.add (bb_off bb) i in index_of (am_shape m) x ->
    nd_at b' i = nd_at b i \/ (in_box off (nd_shape arr) x /\ nd_at b' i = nd_at arr (zip_with Z.sub x off)).
Proof. exact undamaged_reads. Qed.
Print Assumptions C83_reads.

(** The file of chunk (1, 1) is cut short, so a write that needs the rest of that
    chunk fails there, after chunk (1, 0). *)
Definition ex_cut : fs := fst (write_chunk ex_codec ex_host ex_hier ex_fs1 RI16 ex_path ex_meta (Chunk [1; 1] (take 5 ex_data))).
Definition ex_failed : fs * res unit := write_ndarray ex_flit ex_codec ex_host ex_hier ex_cut RI16 ex_path ex_meta [2; 2] ex_payload.
Definition ex_vx (s : fs) (x : list Z) : res Z := voxel ex_codec ex_host ex_hier s RI16 ex_path ex_meta 0 x.

(** The stronger claim, that a write that fails changes no voxel, is false. *)
Theorem C83_no_change_refuted :
  snd ex_failed = Err UnexpectedEof /\ in_box [2; 2] (nd_shape ex_payload) [3; 2]
  /\ ex_vx ex_cut [3; 2] = Ok 0 /\ ex_vx (fst ex_failed) [3; 2] = Ok 10
  /\ in_box [2; 2] (nd_shape ex_payload) [4; 2] /\ nd_at ex_payload [2; 0] = 20 /\ ex_vx (fst ex_failed) [4; 2] = Ok 0.
Proof.
  split; [vm_compute; reflexivity|]. split.
  { split; [done|]. split; [done|]. intros [|[|i]] a b c; cbn; intros E1 E2 E3; try done; injection E1 as <-; injection E2 as <-; injection E3 as <-; lia. }
  split; [vm_compute; reflexivity|]. split; [vm_compute; reflexivity|]. split.
  { split; [done|]. split; [done|]. intros [|[|i]] a b c; cbn; intros E1 E2 E3; try done; injection E1 as <-; injection E2 as <-; injection E3 as <-; lia. }
  split; vm_compute; reflexivity.
Qed.
Print Assumptions C83_no_change_refuted.

(** Nor can the one chunk of C83_one_chunk be left out for other element types: a
    refused write of floats loses a stored chunk of the 16-bit array. *)
Definition ex_floats : fs * res unit :=
  write_ndarray ex_flit ex_codec ex_host ex_hier ex_fs1 RF32 ex_path ex_meta [2; 3] (Nd [2; 3] (fun _ => 0)).
Theorem C83_other_type_refuted :
  (exists e, snd ex_floats = Err e) /\ ex_vx ex_fs1 [2; 5] = Ok 32767 /\ ex_vx (fst ex_floats) [2; 5] = Err UnexpectedEof.
Proof. split; [eexists; vm_compute; reflexivity|]. split; vm_compute; reflexivity. Qed.
Print Assumptions C83_other_type_refuted.

Example C83_example :
  bounded_ok (am_shape ex_meta) (am_chunk_shape ex_meta) [2; 2] (nd_shape ex_payload) /\ chunk_shape_ok ex_meta /\ am_shape ex_meta <> []
  /\ fits_memory (nd_shape ex_payload) /\ wf_fs ex_cut /\ plain (hy_base ex_hier) /\ plain ex_path /\ good_sep (am_sep ex_meta)
  /\ lossless ex_codec (am_comp ex_meta) /\ total_codec ex_codec (am_comp ex_meta)
  /\ (exists d, effective ex_meta d /\ same_kind_width d RI16)
  /\ effective_fill ex_flit RI16 ex_meta = Ok 0 /\ elt_ok RI16 0
  /\ (forall i, index_of (nd_shape ex_payload) i -> elt_ok RI16 (nd_at ex_payload i))
  /\ snd ex_failed = Err UnexpectedEof
  /\ map (ex_vx ex_cut) [[2; 1]; [3; 2]; [2; 4]; [4; 2]] = [Ok 0; Ok 0; Err UnexpectedEof; Ok 0]
  /\ map (ex_vx (fst ex_failed)) [[2; 1]; [3; 2]; [2; 4]; [4; 2]] = [Ok 0; Ok 10; Err UnexpectedEof; Ok 0]
  /\ bounded_ok (am_shape ex_meta) (am_chunk_shape ex_meta) [2; 1] [3; 2]
  /\ nd_list (read_ndarray ex_flit ex_codec ex_host ex_hier ex_cut RI16 ex_path ex_meta (BBox [2; 1] [3; 2])) = Ok ([3; 2], [0; 0; 0; 0; 0; 0])
  /\ nd_list (read_ndarray ex_flit ex_codec ex_host ex_hier (fst ex_failed) RI16 ex_path ex_meta (BBox [2; 1] [3; 2]))
     = Ok ([3; 2], [0; 0; 0; 10; 0; 0]).
Proof.
  destruct ex_state_ok as (_ & W & PB & PP & _). assert (GS : good_sep (am_sep ex_meta)) by apply ex_state_ok.
  split; [repeat constructor; done|]. split; [split; repeat constructor; vm_compute; done|]. split; [done|]. split; [reflexivity|]. split.
  { unfold ex_cut. destruct (write_chunk _ _ _ _ _ _ _ _) as [s r] eqn:E. cbn [fst].
    apply (write_chunk_effect ex_codec ex_host ex_hier ex_fs1 RI16 ex_path ex_meta (Chunk [1; 1] (take 5 ex_data)) s r W PB PP (proj2 (proj2 (proj2 GS)))); [|exact E].
    repeat constructor; done. }
  split; [done|]. split; [done|]. split; [done|]. split; [apply C01_raw_lossless|]. split; [by intros ws|].
  split; [eexists; split; [by left|done]|]. split; [reflexivity|]. split; [done|]. split; [apply C22_example|].
  do 3 (split; [vm_compute; reflexivity|]). split; [repeat constructor; done|]. split; vm_compute; reflexivity.
Qed.
