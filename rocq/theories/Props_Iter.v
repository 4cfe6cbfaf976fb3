(** Property theorems: coordinate iteration (C16-C18). *)
From Verif Require Import CoordIter Spec CoordIterFacts.
From Coq Require Import Sorting.Sorted.

Definition ex_grid (shape cs : list Z) : array_meta :=
  ArrayMeta shape (Core DBool) (B "regular") cs (B "/") RowMajor None [] [] CRaw.

(** C16 (and the first half of C18), for arrays of at least one dimension. *)
Theorem C16_coord_iter_partial :
  forall p m it,
  Forall2 (fun d s => 0 <= d /\ 0 < s /\ d + s < two64) (am_shape m) (am_chunk_shape m) ->
  am_shape m <> [] -> coord_iter p m = Ok it ->
  exists items,
    (lenZ items + 1 < two64 -> ci_yields p it items
       /\ forall n it', ci_advance p it n it' ->
            ci_size_hint p it' = Ok (lenZ (drop n items)) /\ ci_yields p it' (drop n items))
    /\ StronglySorted lex_lt items /\ NoDup items
    /\ forall pos, pos ∈ items <-> meets_array m pos.
Proof. exact coord_iter_items. Qed.
Print Assumptions C16_coord_iter_partial.

(** The iterator can be created when the grid (and every prefix of its
    dimensions) has fewer than 2^64 chunks. *)
Theorem C16_coord_iter_created :
  forall p m,
  Forall2 (fun d s => 0 <= d /\ 0 < s /\ d + s < two64) (am_shape m) (am_chunk_shape m) ->
  (forall ext, is_extent m ext -> forall k, prodZ (take k ext) < two64) ->
  exists it, coord_iter p m = Ok it.
Proof. exact coord_iter_created. Qed.
Print Assumptions C16_coord_iter_created.

(** Zero dimensions: the only chunk is not visited. *)
Theorem C16_rank_zero_refuted :
  forall p, exists it, coord_iter p (ex_grid [] []) = Ok it /\ ci_yields p it []
    /\ meets_array (ex_grid [] []) [] /\ ci_size_hint p it = Ok 1.
Proof. exact coord_iter_rank0. Qed.
Print Assumptions C16_rank_zero_refuted.

Example C16_example :
  exists it, coord_iter Debug (ex_grid [5; 4] [4; 2]) = Ok it
    /\ ci_yields Debug it [[0;0]; [0;1]; [1;0]; [1;1]].
Proof.
  eexists. split; [vm_compute; reflexivity|].
  cbn [ci_yields]. repeat (eexists; split; [vm_compute; reflexivity|]).
  eexists. vm_compute. reflexivity.
Qed.

(** C17: nothing needed is missed, nothing is repeated; nothing else is
    yielded provided box and array overlap. *)
Theorem C17_bounded_iter_partial :
  forall p m b it,
  bounded_ok (am_shape m) (am_chunk_shape m) (bb_off b) (bb_shape b) ->
  am_shape m <> [] -> bounded_coord_iter p m b = Ok it ->
  exists items,
    (lenZ items + 1 < two64 -> ci_yields p it items
       /\ forall n it', ci_advance p it n it' ->
            ci_size_hint p it' = Ok (lenZ (drop n items)) /\ ci_yields p it' (drop n items))
    /\ StronglySorted lex_lt items /\ NoDup items
    /\ (forall pos, meets_box m b pos -> pos ∈ items)
    /\ (overlaps m b -> forall pos, pos ∈ items -> meets_box m b pos).
Proof. exact bounded_iter_items. Qed.
Print Assumptions C17_bounded_iter_partial.

(** Without overlap a position outside the array can be yielded: shape [10],
    chunks [4], box at 13 of extent 2. *)
Theorem C17_extra_position_refuted :
  forall p, exists m b it,
  bounded_ok (am_shape m) (am_chunk_shape m) (bb_off b) (bb_shape b)
  /\ bounded_coord_iter p m b = Ok it /\ ci_yields p it [[3]]
  /\ ~ meets_array m [3] /\ ~ exists pos, meets_box m b pos.
Proof. exact bounded_iter_extra. Qed.
Print Assumptions C17_extra_position_refuted.

Example C17_example :
  let m := ex_grid [10; 7] [4; 2] in let b := BBox [3; 2] [4; 3] in
  bounded_ok (am_shape m) (am_chunk_shape m) (bb_off b) (bb_shape b)
  /\ overlaps m b
  /\ exists it, bounded_coord_iter Debug m b = Ok it
      /\ ci_yields Debug it [[0;1]; [0;2]; [1;1]; [1;2]].
Proof.
  cbv zeta. split; [repeat constructor; vm_compute; done|]. split.
  - exists [3; 2]. split; (split; [done|split; [done|]]);
      intros [|[|i]] x o s; intros [= <-] [= <-] [= <-]; lia.
  - eexists. split; [vm_compute; reflexivity|].
    cbn [ci_yields]. repeat (eexists; split; [vm_compute; reflexivity|]).
    eexists. vm_compute. reflexivity.
Qed.

(** C18: exact while items remain (C16_coord_iter_partial,
    C17_bounded_iter_partial and the next theorem); after the end the
    remaining length panics in a debug build, and the iterator restarts. *)
Theorem C18_remaining_length_partial :
  forall p m it ext,
  Forall2 (fun d s => 0 <= d /\ 0 < s /\ d + s < two64) (am_shape m) (am_chunk_shape m) ->
  am_shape m <> [] -> coord_iter p m = Ok it ->
  is_extent m ext -> prodZ ext + 1 < two64 ->
  forall n it', ci_advance p it n it' ->
  exists rest, ci_yields p it' rest /\ ci_size_hint p it' = Ok (lenZ rest)
    /\ lenZ rest = prodZ ext - Z.of_nat n.
Proof. exact coord_iter_remaining. Qed.
Print Assumptions C18_remaining_length_partial.

Theorem C18_after_end_refuted :
  exists m it0 it1 it2,
  Forall2 (fun d s => 0 <= d /\ 0 < s /\ d + s < two64) (am_shape m) (am_chunk_shape m)
  /\ am_shape m <> []
  /\ coord_iter Debug m = Ok it0
  /\ ci_next Debug it0 = Ok (Some [0], it1)
  /\ ci_next Debug it1 = Ok (None, it2)
  /\ ci_size_hint Debug it2 = Panic
  /\ exists it3, ci_next Debug it2 = Ok (Some [0], it3).
Proof. exact coord_iter_after_end. Qed.
Print Assumptions C18_after_end_refuted.
Example C18_example :
  exists it it1 it2, coord_iter Debug (ex_grid [5; 4] [4; 2]) = Ok it
    /\ ci_size_hint Debug it = Ok 4
    /\ ci_advance Debug it 3 it1 /\ ci_size_hint Debug it1 = Ok 1
    /\ ci_advance Debug it 4 it2 /\ ci_size_hint Debug it2 = Ok 0.
Proof.
  eexists _, _, _. split; [vm_compute; reflexivity|]. split; [vm_compute; reflexivity|].
  split; [cbn [ci_advance]; repeat (eexists _, _; split; [vm_compute; reflexivity|]); reflexivity|].
  split; [vm_compute; reflexivity|].
  split; [cbn [ci_advance]; repeat (eexists _, _; split; [vm_compute; reflexivity|]); reflexivity|].
  vm_compute. reflexivity.
Qed.
