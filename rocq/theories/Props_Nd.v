(** Property theorems: n-dimensional region access (C20-C26). *)
From Verif Require Import Nd Spec NdWrite NdFacts NdSafe FillFacts Props_Chunk Props_Store.
Local Open Scope Z_scope.

(** C20 *)
Theorem C20_chunk_layout :
  forall p m ck, chunk_shape_ok m -> full_chunk m (ck_data ck) ->
  length (ck_pos ck) = length (am_chunk_shape m) ->
  Forall2 (fun c s => 0 <= c /\ c * s < two64) (ck_pos ck) (am_chunk_shape m) ->
  exists a, as_ndarray p m ck = Ok a /\ into_ndarray p m ck = Ok a
  /\ nd_shape a = am_chunk_shape m
  /\ (forall i, index_of (am_chunk_shape m) i ->
        0 <= layout_rank (am_order m) (am_chunk_shape m) i < lenZ (ck_data ck)
        /\ ck_data ck !! Z.to_nat (layout_rank (am_order m) (am_chunk_shape m) i) = Some (nd_at a i))
  /\ (forall k, 0 <= k < lenZ (ck_data ck) -> exists i, index_of (am_chunk_shape m) i
        /\ layout_rank (am_order m) (am_chunk_shape m) i = k
        /\ forall j, index_of (am_chunk_shape m) j ->
           layout_rank (am_order m) (am_chunk_shape m) j = k -> j = i)
  /\ (forall i j, index_of (am_chunk_shape m) i -> index_of (am_chunk_shape m) j ->
        (layout_lt (am_order m) i j <->
         layout_rank (am_order m) (am_chunk_shape m) i < layout_rank (am_order m) (am_chunk_shape m) j))
  /\ flatten (am_order m) a = ck_data ck.
Proof. exact layout_facts. Qed.
Print Assumptions C20_chunk_layout.

Example C20_example :
  chunk_shape_ok ex_meta /\ full_chunk ex_meta ex_data
  /\ Forall2 (fun c s => 0 <= c /\ c * s < two64) [1; 2] (am_chunk_shape ex_meta)
  /\ match as_ndarray Debug ex_meta (Chunk [1; 2] ex_data) with
     | Ok a => map (nd_at a) [[0; 0]; [1; 0]; [0; 1]; [1; 1]; [0; 2]; [1; 2]] = ex_data
     | _ => False
     end.
Proof.
  split; [split; [repeat constructor|reflexivity]|]. split; [reflexivity|].
  split; [repeat constructor; done|]. vm_compute. reflexivity.
Qed.

(** C21.  Missing: rank-zero arrays (false there, see C25) and boxes whose
    coordinates overflow 64 bits.  Voxels of the box outside the chunk grid
    have no stored value; they read as the fill value unless the code happens
    to visit a chunk there. *)
Theorem C21_region_read_partial :
  forall flit C h H s t path m bb a,
  bounded_ok (am_shape m) (am_chunk_shape m) (bb_off bb) (bb_shape bb) ->
  chunk_shape_ok m -> am_shape m <> [] ->
  read_ndarray flit C h H s t path m bb = Ok a ->
  exists fill, effective_fill flit t m = Ok fill
  /\ nd_shape a = bb_shape bb
  /\ forall i, index_of (bb_shape bb) i ->
     let x := zip_with Z.add (bb_off bb) i in
     (grid_voxel m x -> voxel C h H s t path m fill x = Ok (nd_at a i))
     /\ (nd_at a i = fill \/ voxel C h H s t path m fill x = Ok (nd_at a i)).
Proof. exact read_region. Qed.
Print Assumptions C21_region_read_partial.

(** Array of shape 5 x 7 in chunks of 2 x 3 with one stored chunk, at [1,1]
    (voxels 2..3 x 3..5). *)
Definition nd_list (r : res nd) : res (list Z * list Z) :=
  a ← r; Ok (nd_shape a, nd_iter a).
Definition ex_flit : rty -> bytes -> Z := fun _ _ => 0.
Definition ex_box : bbox := BBox [2; 2] [3; 3].
Definition ex_read (s : fs) (b : bbox) : res (list Z * list Z) :=
  nd_list (read_ndarray ex_flit ex_codec ex_host ex_hier s RI16 ex_path ex_meta b).
Example C21_example :
  bounded_ok (am_shape ex_meta) (am_chunk_shape ex_meta) (bb_off ex_box) (bb_shape ex_box)
  /\ chunk_shape_ok ex_meta /\ grid_voxel ex_meta [3; 4]
  /\ ex_read ex_fs1 ex_box = Ok ([3; 3], [0; -1; 300; 0; 2; -32768; 0; 0; 0])
  /\ voxel ex_codec ex_host ex_hier ex_fs1 RI16 ex_path ex_meta 0 [3; 4] = Ok (-32768).
Proof.
  split; [repeat constructor; done|]. split; [split; [repeat constructor|reflexivity]|].
  split.
  { apply index_grid; [repeat constructor|reflexivity|]. split; [done|]. split; [done|].
    intros [|[|i]] x o sh; cbn; intros [= <-] [= <-] [= <-]; lia. }
  split; vm_compute; reflexivity.
Qed.

(** C22.  Missing: rank-zero arrays (false there, see C25), boxes whose
    coordinates overflow 64 bits, and base paths, paths or separators with
    `..` or otherwise ambiguous components (see C10, C27). *)
Theorem C22_region_write_partial :
  forall flit C h H s t path m off arr s' fill,
  bounded_ok (am_shape m) (am_chunk_shape m) off (nd_shape arr) ->
  chunk_shape_ok m -> am_shape m <> [] -> fits_memory (nd_shape arr) ->
  wf_fs s -> plain (hy_base H) -> plain path -> good_sep (am_sep m) ->
  lossless C (am_comp m) -> effective_fill flit t m = Ok fill -> elt_ok t fill ->
  (forall i, index_of (nd_shape arr) i -> elt_ok t (nd_at arr i)) ->
  write_ndarray flit C h H s t path m off arr = (s', Ok tt) ->
  wf_fs s' /\ dirs_kept s s'
  /\ (forall q, (forall pos, pos_ok pos -> q <> loc (hy_base H) (get_chunk_key path m pos)) ->
        file_at s' q = file_at s q)
  /\ (forall x, grid_voxel m x ->
      (in_box off (nd_shape arr) x ->
         voxel C h H s' t path m fill x = Ok (nd_at arr (zip_with Z.sub x off)))
      /\ (~ in_box off (nd_shape arr) x ->
         voxel C h H s' t path m fill x = voxel C h H s t path m fill x)).
Proof. exact write_region. Qed.
Print Assumptions C22_region_write_partial.

Theorem C22_read_back_partial :
  forall flit C h H s t path m off arr s' a,
  bounded_ok (am_shape m) (am_chunk_shape m) off (nd_shape arr) ->
  chunk_shape_ok m -> am_shape m <> [] -> fits_memory (nd_shape arr) ->
  wf_fs s -> plain (hy_base H) -> plain path -> good_sep (am_sep m) ->
  lossless C (am_comp m) -> (forall fill, effective_fill flit t m = Ok fill -> elt_ok t fill) ->
  (forall i, index_of (nd_shape arr) i -> elt_ok t (nd_at arr i)) ->
  (forall x, in_box off (nd_shape arr) x -> index_of (am_shape m) x) ->
  write_ndarray flit C h H s t path m off arr = (s', Ok tt) ->
  read_ndarray flit C h H s' t path m (BBox off (nd_shape arr)) = Ok a ->
  nd_shape a = nd_shape arr /\ forall i, index_of (nd_shape arr) i -> nd_at a i = nd_at arr i.
Proof. exact write_read_back. Qed.
Print Assumptions C22_read_back_partial.

Definition ex_payload : nd := Nd [3; 3] (fun i => match i with [a; b] => 10 * a + b | _ => 0 end).
Definition ex_write : fs * res unit :=
  write_ndarray ex_flit ex_codec ex_host ex_hier ex_fs1 RI16 ex_path ex_meta [2; 2] ex_payload.
Example C22_example :
  bounded_ok (am_shape ex_meta) (am_chunk_shape ex_meta) [2; 2] (nd_shape ex_payload)
  /\ fits_memory (nd_shape ex_payload)
  /\ effective_fill ex_flit RI16 ex_meta = Ok 0
  /\ (forall i, index_of (nd_shape ex_payload) i -> elt_ok RI16 (nd_at ex_payload i))
  /\ (forall x, in_box [2; 2] (nd_shape ex_payload) x -> index_of (am_shape ex_meta) x)
  /\ snd ex_write = Ok tt
  /\ ex_read ex_fs1 (BBox [1; 1] [4; 6])
     = Ok ([4; 6], [0; 0; 0; 0; 0; 0;  0; 0; -1; 300; 32767; 0;  0; 0; 2; -32768; 0; 0;  0; 0; 0; 0; 0; 0])
  /\ ex_read (fst ex_write) (BBox [1; 1] [4; 6])
     = Ok ([4; 6], [0; 0; 0; 0; 0; 0;  0; 0; 1; 2; 32767; 0;  0; 10; 11; 12; 0; 0;  0; 20; 21; 22; 0; 0]).
Proof.
  split; [repeat constructor; done|]. split; [reflexivity|]. split; [reflexivity|].
  split.
  { intros i (L1 & L2 & Hi). destruct i as [|a [|b [|]]]; try done. cbn.
    pose proof (Hi 0%nat a 0 3 eq_refl eq_refl eq_refl).
    pose proof (Hi 1%nat b 0 3 eq_refl eq_refl eq_refl). lia. }
  split.
  { intros x (L1 & L2 & Hx). split; [done|]. split; [done|]. intros i xi o sh Ex Eo Es.
    destruct i as [|[|i]]; cbn in Eo, Es; try done; injection Eo as <-; injection Es as <-.
    - pose proof (Hx 0%nat xi 2 3 Ex eq_refl eq_refl). lia.
    - pose proof (Hx 1%nat xi 2 3 Ex eq_refl eq_refl). lia. }
  do 2 (split; [vm_compute; reflexivity|]). vm_compute; reflexivity.
Qed.

(** C23: what reading into a view with given previous contents (and with any
    chunk buffer) yields, compared with a fresh read: the same where the
    chunk exists, the previous contents elsewhere. *)
Theorem C23_read_into_view_partial :
  forall C h H s t path m bb flit a arr buf,
  bounded_ok (am_shape m) (am_chunk_shape m) (bb_off bb) (bb_shape bb) ->
  chunk_shape_ok m -> am_shape m <> [] -> nd_shape arr = bb_shape bb ->
  read_ndarray flit C h H s t path m bb = Ok a ->
  exists arr' buf', read_ndarray_into_with_buffer C h H s t path m bb arr buf = Ok (arr', buf')
  /\ nd_shape arr' = nd_shape a
  /\ forall i, index_of (bb_shape bb) i ->
     let x := zip_with Z.add (bb_off bb) i in
     grid_voxel m x ->
     (forall ck, read_chunk C h H s t path m (zip_with Z.div x (am_chunk_shape m)) = Ok (Some ck) ->
        nd_at arr' i = nd_at a i)
     /\ (read_chunk C h H s t path m (zip_with Z.div x (am_chunk_shape m)) = Ok None ->
        nd_at arr' i = nd_at arr i).
Proof. exact read_view. Qed.
Print Assumptions C23_read_into_view_partial.

(** The claim itself fails when a chunk is absent: the view keeps stale data. *)
Definition ex_stale : nd := Nd [3; 3] (fun _ => 99).
Theorem C23_read_into_view_refuted :
  exists C h H s t path m bb flit arr a,
  bounded_ok (am_shape m) (am_chunk_shape m) (bb_off bb) (bb_shape bb)
  /\ chunk_shape_ok m /\ nd_shape arr = bb_shape bb
  /\ nd_list (read_ndarray flit C h H s t path m bb) = Ok (bb_shape bb, a)
  /\ exists b, nd_list (read_ndarray_into C h H s t path m bb arr) = Ok (bb_shape bb, b) /\ a <> b.
Proof.
  exists ex_codec, ex_host, ex_hier, ex_fs1, RI16, ex_path, ex_meta, ex_box, ex_flit, ex_stale.
  eexists. split; [repeat constructor; done|]. split; [split; [repeat constructor|reflexivity]|].
  split; [reflexivity|]. split; [vm_compute; reflexivity|].
  eexists. split; [vm_compute; reflexivity|]. discriminate.
Qed.
Print Assumptions C23_read_into_view_refuted.
Example C23_example :
  nd_list (read_ndarray_into ex_codec ex_host ex_hier ex_fs1 RI16 ex_path ex_meta ex_box ex_stale)
  = Ok ([3; 3], [99; -1; 300; 99; 2; -32768; 99; 99; 99]).
Proof. vm_compute. reflexivity. Qed.

(** C24 for boxes that overlap the array.  Missing: boxes that do not overlap
    it (false there), coordinates that overflow, arrays whose data type is an
    extension without a fallback, codecs that panic. *)
Theorem C24_read_no_panic_partial :
  forall flit C h H t path m bb,
  bounded_ok (am_shape m) (am_chunk_shape m) (bb_off bb) (bb_shape bb) -> overlaps m bb ->
  forall d, effective m d -> chunk_shape_ok m -> codec_safe C (am_comp m) ->
  fits_memory (bb_shape bb) ->
  forall s, read_ndarray flit C h H s t path m bb <> Panic.
Proof. exact read_no_panic. Qed.
Print Assumptions C24_read_no_panic_partial.
Theorem C24_write_no_panic_partial :
  forall flit C h H s t path m off arr d,
  bounded_ok (am_shape m) (am_chunk_shape m) off (nd_shape arr) ->
  overlaps m (BBox off (nd_shape arr)) ->
  effective m d -> chunk_shape_ok m -> codec_safe C (am_comp m) ->
  fits_memory (nd_shape arr) ->
  snd (write_ndarray flit C h H s t path m off arr) <> Panic.
Proof. exact write_no_panic. Qed.
Print Assumptions C24_write_no_panic_partial.

Example C24_example :
  overlaps ex_meta ex_box /\ effective ex_meta (DInt IB2 Big) /\ codec_safe ex_codec (am_comp ex_meta).
Proof.
  split; [|split; [by left|split; intros; discriminate]].
  exists [2; 2]. split; (split; [done|]; split; [done|];
    intros [|[|i]] x o sh; cbn; intros [= <-] [= <-] [= <-]; lia).
Qed.

(** Boxes beyond the array (or of the wrong rank, for writes) panic. *)
Theorem C24_no_panic_refuted :
  (exists flit C h H s t path m bb,
     bounded_ok (am_shape m) (am_chunk_shape m) (bb_off bb) (bb_shape bb)
     /\ chunk_shape_ok m /\ effective m (DInt IB2 Big) /\ codec_safe C (am_comp m)
     /\ fits_memory (bb_shape bb)
     /\ read_ndarray flit C h H s t path m bb = Panic)
  /\ (exists flit C h H s t path m off arr,
     length off <> length (am_shape m) /\ length (nd_shape arr) = length (am_shape m)
     /\ chunk_shape_ok m /\ effective m (DInt IB2 Big) /\ codec_safe C (am_comp m)
     /\ snd (write_ndarray flit C h H s t path m off arr) = Panic).
Proof.
  split.
  - exists ex_flit, ex_codec, ex_host, ex_hier, ex_fs1, RI16, ex_path, ex_meta, (BBox [0; 10] [2; 3]).
    split; [repeat constructor; done|]. split; [split; [repeat constructor|reflexivity]|].
    split; [by left|]. split; [split; intros; discriminate|]. split; [reflexivity|].
    vm_compute. reflexivity.
  - exists ex_flit, ex_codec, ex_host, ex_hier, ex_fs1, RI16, ex_path, ex_meta, [0], ex_payload.
    split; [done|]. split; [done|]. split; [split; [repeat constructor|reflexivity]|].
    split; [by left|]. split; [split; intros; discriminate|]. vm_compute. reflexivity.
Qed.
Print Assumptions C24_no_panic_refuted.

(** C25: on a zero-dimensional array a region write changes nothing and a
    region read returns the fill value, whatever is stored. *)
Theorem C25_rank_zero_refuted :
  forall flit C h H s t path m fill v,
  am_shape m = [] -> am_chunk_shape m = [] -> effective_fill flit t m = Ok fill ->
  write_ndarray flit C h H s t path m [] (Nd [] (fun _ => v)) = (s, Ok tt)
  /\ exists a, read_ndarray flit C h H s t path m (BBox [] []) = Ok a
     /\ nd_shape a = [] /\ nd_at a [] = fill.
Proof.
  exact (fun flit C h H s t path m fill v E1 E2 E3 =>
    conj (rank_zero_write flit C h H s t path m fill v E1 E2 E3)
         (rank_zero_read flit C h H s t path m (BBox [] []) fill E1 E2 eq_refl E3)).
Qed.
Print Assumptions C25_rank_zero_refuted.
Definition ex_scalar : array_meta :=
  ArrayMeta [] (Core (DInt IB2 Big)) (B "regular") [] (B "/") RowMajor (Some (JInt 7)) [] [] CRaw.
Example C25_example :
  let w := write_ndarray ex_flit ex_codec ex_host ex_hier ex_fs RI16 (B "s") ex_scalar [] (Nd [] (fun _ => 42)) in
  snd w = Ok tt
  /\ nd_list (read_ndarray ex_flit ex_codec ex_host ex_hier (fst w) RI16 (B "s") ex_scalar (BBox [] []))
     = Ok ([], [7]).
Proof. split; vm_compute; reflexivity. Qed.

(** C26.  Missing: f16 (false there) and the value of non-integer literals,
    which is the parameter [flit]. *)
Theorem C26_fill_value_partial :
  forall flit t m, t <> RF16 ->
  (forall j, am_fill m = Some j -> int_json j) ->
  match am_fill m with
  | None => effective_fill flit t m = Ok 0
  | Some j => (exists v, effective_fill flit t m = Ok v /\ denotes flit t j v)
              \/ (exists e, effective_fill flit t m = Err e /\ forall v, ~ denotes flit t j v)
  end.
Proof. exact effective_fill_spec. Qed.
Print Assumptions C26_fill_value_partial.
Theorem C26_fill_in_range :
  forall flit t m v, (forall l, elt_ok t (flit t l)) ->
  (forall j, am_fill m = Some j -> int_json j) ->
  effective_fill flit t m = Ok v -> elt_ok t v.
Proof. exact effective_fill_ok. Qed.
Print Assumptions C26_fill_in_range.
(** An f16 fill value is taken as a bit pattern. *)
Theorem C26_half_refuted :
  exists j v, int_json j /\ (forall flit, elt_of_json flit RF16 j = Ok v)
  /\ (forall flit, ~ denotes flit RF16 j v).
Proof. exact half_fill_refuted. Qed.
Print Assumptions C26_half_refuted.
(** Absent chunks read as the fill value, and the unwritten part of a chunk
    created by a region write is the fill value. *)
Theorem C26_absent_reads_fill_partial :
  forall flit C h H s t path m bb a fill i,
  bounded_ok (am_shape m) (am_chunk_shape m) (bb_off bb) (bb_shape bb) ->
  chunk_shape_ok m -> am_shape m <> [] ->
  read_ndarray flit C h H s t path m bb = Ok a -> effective_fill flit t m = Ok fill ->
  index_of (bb_shape bb) i ->
  read_chunk C h H s t path m
    (zip_with Z.div (zip_with Z.add (bb_off bb) i) (am_chunk_shape m)) = Ok None ->
  nd_at a i = fill.
Proof. exact absent_fill. Qed.
Print Assumptions C26_absent_reads_fill_partial.
Theorem C26_new_chunk_fill_partial :
  forall flit C h H s t path m off arr s' fill x,
  bounded_ok (am_shape m) (am_chunk_shape m) off (nd_shape arr) ->
  chunk_shape_ok m -> am_shape m <> [] -> fits_memory (nd_shape arr) ->
  wf_fs s -> plain (hy_base H) -> plain path -> good_sep (am_sep m) ->
  lossless C (am_comp m) -> effective_fill flit t m = Ok fill -> elt_ok t fill ->
  (forall i, index_of (nd_shape arr) i -> elt_ok t (nd_at arr i)) ->
  write_ndarray flit C h H s t path m off arr = (s', Ok tt) ->
  grid_voxel m x -> ~ in_box off (nd_shape arr) x ->
  read_chunk C h H s t path m (zip_with Z.div x (am_chunk_shape m)) = Ok None ->
  voxel C h H s' t path m fill x = Ok fill.
Proof. exact new_chunk_fill. Qed.
Print Assumptions C26_new_chunk_fill_partial.
Example C26_example :
  let m fv := ArrayMeta [4] (Core (DFloat FB4 Big)) (B "regular") [2] (B "/") RowMajor fv [] [] CRaw in
  effective_fill ex_flit RF32 (m (Some (JInt 16777217))) = Ok 1266679808
  /\ effective_fill ex_flit RF32 (m (Some (JInt (-3)))) = Ok 3225419776
  /\ effective_fill ex_flit RF32 (m (Some (JStr (B "NaN")))) = Err InvalidData
  /\ effective_fill ex_flit RI16 (m (Some (JInt 40000))) = Err InvalidData
  /\ effective_fill ex_flit RI16 (m None) = Ok 0.
Proof. do 4 (split; [vm_compute; reflexivity|]). vm_compute; reflexivity. Qed.
