(** Property theorems: regions whose far corner is not a 64-bit number or lies
    less than one chunk extent below 2^64 (the
    part of C21 and C22 left out in Props_Nd.v). *)
From Verif Require Import Nd Spec SpecOver OverflowFacts BorderFacts NdFacts Props_Chunk Props_Store Props_Nd.
Local Open Scope Z_scope.

(** C21: with overflow checks such a read never succeeds. *)
Theorem C21_overflow_debug :
  forall flit C h H s t path m bb,
  h_prof h = Debug -> overflows (bb_off bb) (bb_shape bb) ->
  forall a, read_ndarray flit C h H s t path m bb <> Ok a.
Proof. exact overflow_read_debug. Qed.
Print Assumptions C21_overflow_debug.

(** Without them whatever is stored is ignored: a successful read has the fill
    value everywhere. *)
Theorem C21_overflow_release :
  forall flit C h H s t path m bb,
  h_prof h = Release -> length (am_chunk_shape m) = length (am_shape m) ->
  Forall is_u64 (bb_off bb) -> Forall is_u64 (bb_shape bb) ->
  overflows (bb_off bb) (bb_shape bb) ->
  forall a, read_ndarray flit C h H s t path m bb = Ok a ->
  exists fill, effective_fill flit t m = Ok fill /\ forall i, nd_at a i = fill.
Proof. exact overflow_read_release. Qed.
Print Assumptions C21_overflow_release.

(** One dimension of 2^64 - 2 voxels in chunks of one; voxel 2^64 - 5 is 7. *)
Definition ex_long : array_meta :=
  ArrayMeta [two64 - 2] (Core (DUInt IB1 Little)) (B "regular") [1] (B "/") ColumnMajor
            None [] [] CRaw.
Definition ex_release : host := Host Release Little.
Definition ex_long_fs : fs :=
  fst (write_chunk ex_codec ex_release ex_hier ex_fs0 RU8 (B "l") ex_long (Chunk [two64 - 5] [7])).
Definition ex_far : bbox := BBox [two64 - 5] [8].
Definition ex_sevens : nd := Nd [8] (fun _ => 7).

(** So the claim is false of boxes that reach beyond 64 bits, also for the
    voxels that lie inside the array. *)
Theorem C21_overflow_refuted :
  exists flit C h H s t path m bb x i v,
  h_prof h = Release /\ chunk_shape_ok m /\ length (am_chunk_shape m) = length (am_shape m)
  /\ Forall is_u64 (bb_off bb) /\ Forall is_u64 (bb_shape bb)
  /\ overflows (bb_off bb) (bb_shape bb)
  /\ index_of (bb_shape bb) i /\ x = zip_with Z.add (bb_off bb) i /\ index_of (am_shape m) x
  /\ voxel C h H s t path m 0 x = Ok v
  /\ match read_ndarray flit C h H s t path m bb with
     | Ok a => nd_at a i <> v
     | _ => False
     end.
Proof.
  exists ex_flit, ex_codec, ex_release, ex_hier, ex_long_fs, RU8, (B "l"), ex_long, ex_far,
    [two64 - 5], [0], 7.
  split; [done|]. split; [split; [repeat constructor|reflexivity]|]. split; [done|].
  split; [repeat constructor; done|]. split; [repeat constructor; done|].
  split. { exists 0%nat, (two64 - 5), 8. repeat split; try done. }
  split.
  { split; [done|]. split; [done|]. intros [|i] x o sh; cbn; intros [= <-] [= <-] [= <-]; lia. }
  split; [done|]. split.
  { split; [done|]. split; [done|]. intros [|i] x o sh; cbn -[two64]; intros [= <-] [= <-] [= <-].
    unfold two64. lia. }
  split; [vm_compute; reflexivity|]. vm_compute. discriminate.
Qed.
Print Assumptions C21_overflow_refuted.

(** C22: with overflow checks such a write never succeeds and changes nothing. *)
Theorem C22_overflow_debug :
  forall flit C h H s t path m off arr,
  h_prof h = Debug -> length off = length (am_shape m) -> overflows off (nd_shape arr) ->
  fst (write_ndarray flit C h H s t path m off arr) = s
  /\ snd (write_ndarray flit C h H s t path m off arr) <> Ok tt.
Proof. exact overflow_write_debug. Qed.
Print Assumptions C22_overflow_debug.

(** Without them it can be reported done although voxels inside the array are
    not written. *)
Theorem C22_overflow_refuted :
  exists flit C h H s t path m off arr x,
  h_prof h = Release /\ chunk_shape_ok m /\ length (am_chunk_shape m) = length (am_shape m)
  /\ Forall is_u64 off /\ Forall is_u64 (nd_shape arr) /\ overflows off (nd_shape arr)
  /\ in_box off (nd_shape arr) x /\ index_of (am_shape m) x
  /\ snd (write_ndarray flit C h H s t path m off arr) = Ok tt
  /\ voxel C h H (fst (write_ndarray flit C h H s t path m off arr)) t path m 0 x
     <> Ok (nd_at arr (zip_with Z.sub x off)).
Proof.
  exists ex_flit, ex_codec, ex_release, ex_hier, ex_long_fs, RU8, (B "l"), ex_long,
    [two64 - 5], ex_sevens, [two64 - 4].
  split; [done|]. split; [split; [repeat constructor|reflexivity]|]. split; [done|].
  split; [repeat constructor; done|]. split; [repeat constructor; done|].
  split. { exists 0%nat, (two64 - 5), 8. repeat split; try done. }
  split.
  { split; [done|]. split; [done|]. intros [|i] x o sh; cbn -[two64]; intros [= <-] [= <-] [= <-].
    unfold two64. lia. }
  split.
  { split; [done|]. split; [done|]. intros [|i] x o sh; cbn -[two64]; intros [= <-] [= <-] [= <-].
    unfold two64. lia. }
  split; [vm_compute; reflexivity|]. vm_compute. discriminate.
Qed.
Print Assumptions C22_overflow_refuted.

Example C21_overflow_example :
  overflows (bb_off ex_far) (bb_shape ex_far)
  /\ nd_list (read_ndarray ex_flit ex_codec ex_release ex_hier ex_long_fs RU8 (B "l") ex_long ex_far)
     = Ok ([8], replicate 8 0)
  /\ nd_list (read_ndarray ex_flit ex_codec ex_host ex_hier ex_long_fs RU8 (B "l") ex_long ex_far)
     = Panic
  /\ nd_list (read_ndarray ex_flit ex_codec ex_release ex_hier ex_long_fs RU8 (B "l") ex_long
                (BBox [two64 - 5] [3])) = Ok ([3], [7; 0; 0])
  /\ snd (write_ndarray ex_flit ex_codec ex_host ex_hier ex_long_fs RU8 (B "l") ex_long
            [two64 - 5] ex_sevens) = Panic.
Proof.
  split. { exists 0%nat, (two64 - 5), 8. repeat split; try done. }
  split; [|split; [|split]]; vm_compute; reflexivity.
Qed.

(** ** Regions that end less than one chunk extent below 2^64 *)

(** C21: with overflow checks such a read never succeeds. *)
Theorem C21_border_debug :
  forall flit C h H s t path m bb,
  h_prof h = Debug -> Forall is_u64 (am_shape m) -> Forall (fun s => 0 < s) (am_chunk_shape m) ->
  Forall is_u64 (bb_off bb) -> Forall is_u64 (bb_shape bb) ->
  ends_late two64 (am_shape m) (am_chunk_shape m) (bb_off bb) (bb_shape bb) ->
  forall a, read_ndarray flit C h H s t path m bb <> Ok a.
Proof. exact border_read_debug. Qed.
Print Assumptions C21_border_debug.

(** Without them whatever is stored is ignored: a successful read has the fill
    value everywhere. *)
Theorem C21_border_release :
  forall flit C h H s t path m bb,
  h_prof h = Release -> meta_typed m -> Forall (fun s => 0 < s) (am_chunk_shape m) ->
  Forall is_u64 (bb_off bb) -> Forall is_u64 (bb_shape bb) -> ~ overflows (bb_off bb) (bb_shape bb) ->
  ends_late (two64 + 1) (am_shape m) (am_chunk_shape m) (bb_off bb) (bb_shape bb) ->
  forall a, read_ndarray flit C h H s t path m bb = Ok a ->
  exists fill, effective_fill flit t m = Ok fill /\ forall i, nd_at a i = fill.
Proof. exact border_read_release. Qed.
Print Assumptions C21_border_release.

(** C22: with overflow checks such a write never succeeds and changes nothing. *)
Theorem C22_border_debug :
  forall flit C h H s t path m off arr,
  h_prof h = Debug -> Forall is_u64 (am_shape m) -> Forall (fun s => 0 < s) (am_chunk_shape m) ->
  Forall is_u64 off -> Forall is_u64 (nd_shape arr) -> length off = length (am_shape m) ->
  ends_late two64 (am_shape m) (am_chunk_shape m) off (nd_shape arr) ->
  fst (write_ndarray flit C h H s t path m off arr) = s
  /\ snd (write_ndarray flit C h H s t path m off arr) <> Ok tt.
Proof. exact border_write_debug. Qed.
Print Assumptions C22_border_debug.

(** Without them it changes nothing, whatever it reports. *)
Theorem C22_border_release :
  forall flit C h H s t path m off arr,
  h_prof h = Release -> meta_typed m -> Forall (fun s => 0 < s) (am_chunk_shape m) ->
  Forall is_u64 off -> Forall is_u64 (nd_shape arr) -> length off = length (am_shape m) ->
  ~ overflows off (nd_shape arr) ->
  ends_late (two64 + 1) (am_shape m) (am_chunk_shape m) off (nd_shape arr) ->
  fst (write_ndarray flit C h H s t path m off arr) = s.
Proof. exact border_write_release. Qed.
Print Assumptions C22_border_release.

(** One dimension of 2^64 - 2 voxels in chunks of four; the last chunk holds
    voxels 2^64 - 4 to 2^64 - 1, of which two lie in the array. *)
Definition ex_wide : array_meta :=
  ArrayMeta [two64 - 2] (Core (DUInt IB1 Little)) (B "regular") [4] (B "/") ColumnMajor
            None [] [] CRaw.
Definition ex_wide_fs : fs :=
  fst (write_chunk ex_codec ex_release ex_hier ex_fs0 RU8 (B "w") ex_wide
         (Chunk [two64 / 4 - 1] [7; 8; 9; 10])).
Definition ex_edge : bbox := BBox [two64 - 3] [1].

(** So both claims are false of boxes that lie wholly inside the array but in
    its last chunk. *)
Theorem C21_border_refuted :
  exists flit C h H s t path m bb x i v,
  h_prof h = Release /\ chunk_shape_ok m /\ length (am_chunk_shape m) = length (am_shape m)
  /\ Forall is_u64 (bb_off bb) /\ Forall is_u64 (bb_shape bb)
  /\ ~ overflows (bb_off bb) (bb_shape bb)
  /\ (forall y, in_box (bb_off bb) (bb_shape bb) y -> index_of (am_shape m) y)
  /\ index_of (bb_shape bb) i /\ x = zip_with Z.add (bb_off bb) i
  /\ voxel C h H s t path m 0 x = Ok v
  /\ match read_ndarray flit C h H s t path m bb with
     | Ok a => nd_at a i <> v
     | _ => False
     end.
Proof.
  exists ex_flit, ex_codec, ex_release, ex_hier, ex_wide_fs, RU8, (B "w"), ex_wide, ex_edge,
    [two64 - 3], [0], 8.
  split; [done|]. split; [split; [repeat constructor|reflexivity]|]. split; [done|].
  split; [repeat constructor; done|]. split; [repeat constructor; done|].
  split.
  { intros ([|i] & o & e & Ho & He & Q); cbn in Ho, He; [|done]. injection Ho as <-. injection He as <-.
    by vm_compute in Q. }
  split.
  { intros y (L1 & L2 & Y). cbn in L1, L2. destruct y as [|y [|y2 y']]; try done. split; [done|]. split; [done|].
    pose proof (Y 0%nat y (two64 - 3) 1 eq_refl eq_refl eq_refl).
    intros [|i] x o sh; cbn -[two64]; [|done]. intros [= <-] [= <-] [= <-].
    unfold two64 in *. lia. }
  split.
  { split; [done|]. split; [done|]. intros [|i] x o sh; cbn; intros [= <-] [= <-] [= <-]; lia. }
  split; [done|]. split; [vm_compute; reflexivity|]. vm_compute. discriminate.
Qed.
Print Assumptions C21_border_refuted.

Theorem C22_border_refuted :
  exists flit C h H s t path m off arr x,
  h_prof h = Release /\ chunk_shape_ok m /\ length (am_chunk_shape m) = length (am_shape m)
  /\ Forall is_u64 off /\ Forall is_u64 (nd_shape arr) /\ ~ overflows off (nd_shape arr)
  /\ (forall y, in_box off (nd_shape arr) y -> index_of (am_shape m) y)
  /\ in_box off (nd_shape arr) x
  /\ snd (write_ndarray flit C h H s t path m off arr) = Ok tt
  /\ voxel C h H (fst (write_ndarray flit C h H s t path m off arr)) t path m 0 x
     <> Ok (nd_at arr (zip_with Z.sub x off)).
Proof.
  exists ex_flit, ex_codec, ex_release, ex_hier, ex_wide_fs, RU8, (B "w"), ex_wide,
    [two64 - 3], (Nd [1] (fun _ => 5)), [two64 - 3].
  split; [done|]. split; [split; [repeat constructor|reflexivity]|]. split; [done|].
  split; [repeat constructor; done|]. split; [repeat constructor; done|].
  split.
  { intros ([|i] & o & e & Ho & He & Q); cbn in Ho, He; [|done]. injection Ho as <-. injection He as <-.
    by vm_compute in Q. }
  split.
  { intros y (L1 & L2 & Y). cbn in L1, L2. destruct y as [|y [|y2 y']]; try done. split; [done|]. split; [done|].
    pose proof (Y 0%nat y (two64 - 3) 1 eq_refl eq_refl eq_refl).
    intros [|i] x o sh; cbn -[two64]; [|done]. intros [= <-] [= <-] [= <-].
    unfold two64 in *. lia. }
  split.
  { split; [done|]. split; [done|]. intros [|i] x o sh; cbn -[two64]; intros [= <-] [= <-] [= <-].
    unfold two64. lia. }
  split; [vm_compute; reflexivity|]. vm_compute. discriminate.
Qed.
Print Assumptions C22_border_refuted.

Example C21_border_example :
  ends_late (two64 + 1) (am_shape ex_wide) (am_chunk_shape ex_wide) (bb_off ex_edge) (bb_shape ex_edge)
  /\ ends_late two64 (am_shape ex_wide) (am_chunk_shape ex_wide) (bb_off ex_edge) (bb_shape ex_edge)
  /\ meta_typed ex_wide
  /\ nd_list (read_ndarray ex_flit ex_codec ex_release ex_hier ex_wide_fs RU8 (B "w") ex_wide ex_edge)
     = Ok ([1], [0])
  /\ nd_list (read_ndarray ex_flit ex_codec ex_host ex_hier ex_wide_fs RU8 (B "w") ex_wide ex_edge)
     = Panic
  (* two voxels earlier the sum is 2^64 exactly and a release build is right *)
  /\ nd_list (read_ndarray ex_flit ex_codec ex_release ex_hier
                (fst (write_ndarray ex_flit ex_codec ex_release ex_hier ex_wide_fs RU8 (B "w") ex_wide
                        [two64 - 5] (Nd [1] (fun _ => 5)))) RU8 (B "w") ex_wide
                (BBox [two64 - 5] [1])) = Ok ([1], [5])
  /\ snd (write_ndarray ex_flit ex_codec ex_host ex_hier ex_wide_fs RU8 (B "w") ex_wide
            [two64 - 3] (Nd [1] (fun _ => 5))) = Panic
  /\ snd (write_ndarray ex_flit ex_codec ex_release ex_hier ex_wide_fs RU8 (B "w") ex_wide
            [two64 - 3] (Nd [1] (fun _ => 5))) = Ok tt.
Proof.
  split. { exists 0%nat, (two64 - 2), 4, (two64 - 3), 1. repeat split; try done. }
  split. { exists 0%nat, (two64 - 2), 4, (two64 - 3), 1. repeat split; try done. }
  split. { split; repeat constructor; done. }
  split; [|split; [|split; [|split]]]; vm_compute; reflexivity.
Qed.
