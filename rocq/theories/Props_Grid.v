(** Property theorems: grid arithmetic and boxes (C15, C19). *)
From Verif Require Import BBox Spec BBoxFacts.

(** C15, in the dimensions where the array extent plus one is not a multiple
    of the chunk extent. *)
Theorem C15_grid_extent_partial :
  forall p m,
  Forall2 (fun d s => 0 <= d /\ d + 1 < two64 /\ 0 < s) (am_shape m) (am_chunk_shape m) ->
  Forall2 (fun d s => (d + 1) mod s <> 0) (am_shape m) (am_chunk_shape m) ->
  exists ext, grid_extent p m = Ok ext
    /\ length ext = length (am_shape m)
    /\ (forall i d s e, am_shape m !! i = Some d -> am_chunk_shape m !! i = Some s ->
          ext !! i = Some e -> is_ceil_div d s e)
    /\ ((forall k, prodZ (take k ext) < two64) -> num_chunks p m = Ok (prodZ ext))
    /\ (forall pos, exists b, in_bounds p m pos = Ok b /\
          (b = true <-> length pos = length (am_shape m) /\
             forall i e c, ext !! i = Some e -> pos !! i = Some c -> c < e)).
Proof. exact grid_extent_full. Qed.
Print Assumptions C15_grid_extent_partial.

(** In every dimension: the ceiling, or one more. *)
Theorem C15_grid_extent_exact :
  forall p m ext,
  Forall2 (fun d s => 0 <= d /\ d + 1 < two64 /\ 0 < s) (am_shape m) (am_chunk_shape m) ->
  grid_extent p m = Ok ext ->
  length ext = length (am_shape m) /\
  forall i d s e, am_shape m !! i = Some d -> am_chunk_shape m !! i = Some s ->
    ext !! i = Some e ->
    ((d + 1) mod s <> 0 -> is_ceil_div d s e)
    /\ ((d + 1) mod s = 0 -> is_ceil_div d s (e - 1)).
Proof. exact grid_extent_dim_exact. Qed.
Print Assumptions C15_grid_extent_exact.

(** No chunk that holds voxels of the array is out of bounds. *)
Theorem C15_in_bounds_complete :
  forall p m pos x,
  Forall2 (fun d s => 0 <= d /\ d + 1 < two64 /\ 0 < s) (am_shape m) (am_chunk_shape m) ->
  in_chunk (am_chunk_shape m) pos x ->
  in_box (replicate (length (am_shape m)) 0) (am_shape m) x ->
  in_bounds p m pos = Ok true.
Proof. exact in_bounds_covers. Qed.
Print Assumptions C15_in_bounds_complete.

(** The claim is false: shape [3], chunk shape [4] gives extent 2, 2 chunks,
    and position [1], which holds no voxel, in bounds. *)
Theorem C15_grid_extent_refuted :
  exists p m ext, meta_typed m
    /\ Forall2 (fun d s => 0 <= d /\ d + 1 < two64 /\ 0 < s) (am_shape m) (am_chunk_shape m)
    /\ grid_extent p m = Ok ext
    /\ (exists d s e, am_shape m !! 0%nat = Some d /\ am_chunk_shape m !! 0%nat = Some s
          /\ ext !! 0%nat = Some e /\ ~ is_ceil_div d s e)
    /\ num_chunks p m = Ok 2
    /\ in_bounds p m [1] = Ok true
    /\ ~ exists x, in_chunk (am_chunk_shape m) [1] x
                   /\ in_box (bb_off (get_bounds m)) (am_shape m) x.
Proof. exact grid_extent_refuted. Qed.
Print Assumptions C15_grid_extent_refuted.

Theorem C15_overflow_refuted :
  exists m, meta_typed m /\ Forall (fun s => 0 < s) (am_chunk_shape m)
    /\ grid_extent Debug m = Panic /\ grid_extent Release m = Ok [1].
Proof. exact grid_extent_overflow. Qed.
Print Assumptions C15_overflow_refuted.

Definition ex_grid : array_meta :=
  ArrayMeta [10; 5; 4] (Core DBool) (B "regular") [4; 4; 2] (B "/") RowMajor None [] [] CRaw.
Example C15_example :
  Forall2 (fun d s => 0 <= d /\ d + 1 < two64 /\ 0 < s) (am_shape ex_grid) (am_chunk_shape ex_grid)
  /\ Forall2 (fun d s => (d + 1) mod s <> 0) (am_shape ex_grid) (am_chunk_shape ex_grid)
  /\ grid_extent Debug ex_grid = Ok [3; 2; 2] /\ num_chunks Debug ex_grid = Ok 12
  /\ in_bounds Debug ex_grid [2; 1; 1] = Ok true /\ in_bounds Debug ex_grid [2; 2; 1] = Ok false
  /\ in_bounds Debug ex_grid [0; 0] = Ok false
  /\ in_chunk (am_chunk_shape ex_grid) [2; 1; 1] [9; 4; 3].
Proof.
  split; [repeat constructor; vm_compute; done|].
  split; [repeat constructor; vm_compute; done|].
  do 5 (split; [vm_compute; reflexivity|]).
  split; [done|]. split; [done|].
  intros [|[|[|i]]] c s x; intros [= <-] [= <-] [= <-]; lia.
Qed.

(** C19.  Boxes: both corners are u64 values. *)
Theorem C19_intersect :
  forall p a b,
  Forall2 (fun o s => 0 <= o /\ 0 <= s /\ o + s < two64) (bb_off a) (bb_shape a) ->
  Forall2 (fun o s => 0 <= o /\ 0 <= s /\ o + s < two64) (bb_off b) (bb_shape b) ->
  length (bb_off a) = length (bb_off b) ->
  exists c, intersect p a b = Ok c
    /\ Forall2 (fun o s => 0 <= o /\ 0 <= s /\ o + s < two64) (bb_off c) (bb_shape c)
    /\ length (bb_off c) = length (bb_off a)
    /\ forall x, in_box (bb_off c) (bb_shape c) x <->
         in_box (bb_off a) (bb_shape a) x /\ in_box (bb_off b) (bb_shape b) x.
Proof. exact intersect_points. Qed.
Print Assumptions C19_intersect.

Theorem C19_union :
  forall p a b,
  Forall2 (fun o s => 0 <= o /\ 0 <= s /\ o + s < two64) (bb_off a) (bb_shape a) ->
  Forall2 (fun o s => 0 <= o /\ 0 <= s /\ o + s < two64) (bb_off b) (bb_shape b) ->
  length (bb_off a) = length (bb_off b) ->
  exists c, union_bb p a b = Ok c
    /\ length (bb_off c) = length (bb_off a) /\ length (bb_shape c) = length (bb_off a)
    /\ (forall x, in_box (bb_off a) (bb_shape a) x \/ in_box (bb_off b) (bb_shape b) x ->
          in_box (bb_off c) (bb_shape c) x)
    /\ (is_empty a = false -> is_empty b = false ->
        forall d, (forall x, in_box (bb_off a) (bb_shape a) x \/ in_box (bb_off b) (bb_shape b) x ->
                     in_box (bb_off d) (bb_shape d) x) ->
        forall x, in_box (bb_off c) (bb_shape c) x -> in_box (bb_off d) (bb_shape d) x).
Proof. exact union_points. Qed.
Print Assumptions C19_union.

Theorem C19_is_empty :
  forall b,
  Forall2 (fun o s => 0 <= o /\ 0 <= s /\ o + s < two64) (bb_off b) (bb_shape b) ->
  is_empty b = true <-> ~ exists x, in_box (bb_off b) (bb_shape b) x.
Proof. exact is_empty_spec. Qed.
Print Assumptions C19_is_empty.

Theorem C19_translate :
  forall b o,
  length o = length (bb_off b) -> length (bb_off b) = length (bb_shape b) ->
  Forall2 (fun bo oo => oo <= bo) (bb_off b) o ->
  exists c, bb_sub b o = Ok c /\ bb_shape c = bb_shape b
    /\ length (bb_off c) = length (bb_off b)
    /\ forall x, length x = length o ->
         in_box (bb_off c) (bb_shape c) x <-> in_box (bb_off b) (bb_shape b) (zip_with Z.add x o).
Proof. exact bb_sub_points. Qed.
Print Assumptions C19_translate.

(** An origin beyond the offset is refused by a panic, not wrapped. *)
Theorem C19_translate_underflow :
  forall b o i bo oo,
  bb_off b !! i = Some bo -> o !! i = Some oo -> bo < oo -> bb_sub b o = Panic.
Proof. exact bb_sub_panic. Qed.
Print Assumptions C19_translate_underflow.

Example C19_example :
  let a := BBox [2; 0] [5; 4] in let b := BBox [4; 3] [9; 9] in
  intersect Debug a b = Ok (BBox [4; 3] [3; 1])
  /\ union_bb Debug a b = Ok (BBox [2; 0] [11; 12])
  /\ intersect Debug a (BBox [9; 9] [1; 1]) = Ok (BBox [9; 9] [0; 0])
  /\ is_empty (BBox [9; 9] [0; 0]) = true /\ is_empty a = false
  /\ bb_sub b [4; 1] = Ok (BBox [0; 2] [9; 9])
  /\ Forall2 (fun o s => 0 <= o /\ 0 <= s /\ o + s < two64) (bb_off a) (bb_shape a)
  /\ Forall2 (fun o s => 0 <= o /\ 0 <= s /\ o + s < two64) (bb_off b) (bb_shape b).
Proof.
  cbv zeta. do 6 (split; [vm_compute; reflexivity|]).
  split; repeat constructor; vm_compute; done.
Qed.
