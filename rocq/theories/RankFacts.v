(** Regions of the wrong rank or shape (C82). *)
From Verif Require Import BBox CoordIter Nd NdView Hier Spec BaseFacts.
Local Open Scope Z_scope.

Lemma payload_rank flit C h H s t path m off arr : length (nd_shape arr) <> length (am_shape m) ->
  write_ndarray flit C h H s t path m off arr = (s, Err InvalidData).
Proof. intros N. unfold write_ndarray. by rewrite bool_decide_false. Qed.
Lemma offset_rank_coords p m off shape : length off <> length (am_shape m) -> bounded_coords p m (BBox off shape) = Panic.
Proof.
  intros N. unfold bounded_coords, bounded_ranges, intersect. cbn [get_bounds bb_off bb_shape]. rewrite replicate_length.
  rewrite bool_decide_false by congruence. done.
Qed.
Lemma offset_rank flit C h H s t path m off arr fill : length off <> length (am_shape m) -> length (nd_shape arr) = length (am_shape m) ->
  effective_fill flit t m = Ok fill -> write_ndarray flit C h H s t path m off arr = (s, Panic).
Proof.
  intros N L F. unfold write_ndarray. rewrite bool_decide_true by done. cbn [negb]. rewrite F. cbn [on].
  by rewrite offset_rank_coords.
Qed.
Lemma view_shape C h H s t path m bb arr buf :
  length (bb_off bb) <> length (am_shape m) \/ length (nd_shape arr) <> length (am_shape m) \/ bb_shape bb <> nd_shape arr ->
  read_into_view C h H s t path m bb arr buf = (arr, Err InvalidData).
Proof.
  intros N. unfold read_into_view, ndim. destruct (decide (length (bb_off bb) = length (am_shape m))) as [E1|E1].
  2: { by rewrite bool_decide_false. }
  destruct (decide (length (am_shape m) = length (nd_shape arr))) as [E2|E2].
  2: { rewrite (bool_decide_false (length (am_shape m) = _)) by done. cbn [negb]. by rewrite orb_true_r. }
  rewrite !bool_decide_true by done. cbn [negb orb]. rewrite bool_decide_false; [done|].
  destruct N as [N|[N|N]]; [done|congruence|done].
Qed.
Lemma into_shape C h H s t path m bb arr buf :
  length (bb_off bb) <> length (am_shape m) \/ length (nd_shape arr) <> length (am_shape m) \/ bb_shape bb <> nd_shape arr ->
  read_ndarray_into_with_buffer C h H s t path m bb arr buf = Err InvalidData.
Proof.
  intros N. unfold read_ndarray_into_with_buffer, ndim. destruct (decide (length (bb_off bb) = length (am_shape m))) as [E1|E1].
  2: { by rewrite bool_decide_false. }
  destruct (decide (length (am_shape m) = length (nd_shape arr))) as [E2|E2].
  2: { rewrite (bool_decide_false (length (am_shape m) = _)) by done. cbn [negb]. by rewrite orb_true_r. }
  rewrite !bool_decide_true by done. cbn [negb orb]. rewrite bool_decide_false; [done|].
  destruct N as [N|[N|N]]; [done|congruence|done].
Qed.
Lemma read_rank flit C h H s t path m bb fill :
  length (bb_off bb) <> length (am_shape m) \/ length (bb_shape bb) <> length (am_shape m) ->
  effective_fill flit t m = Ok fill -> fits_memory (bb_shape bb) ->
  read_ndarray flit C h H s t path m bb = Err InvalidData.
Proof.
  intros N F FM. unfold read_ndarray. rewrite F, bind_ok. unfold from_elem. unfold fits_memory in FM. apply Z.ltb_lt in FM. rewrite FM.
  cbn [assert_]. rewrite !bind_ok. unfold read_ndarray_into. rewrite into_shape; [done|]. cbn [nd_shape]. tauto.
Qed.
Lemma read_rank_ok flit C h H s t path m bb a : read_ndarray flit C h H s t path m bb = Ok a ->
  length (bb_off bb) = length (am_shape m) /\ length (bb_shape bb) = length (am_shape m).
Proof.
  intros E. unfold read_ndarray in E. apply bind_ok_inv in E as (fill & F & E). apply bind_ok_inv in E as (arr & A & E).
  unfold from_elem in A. apply bind_ok_inv in A as (u & _ & [= <-]). unfold read_ndarray_into in E. apply bind_ok_inv in E as (x & E & _).
  destruct (decide (length (bb_off bb) = length (am_shape m))) as [E1|E1]; [|by rewrite into_shape in E; [|by left]].
  destruct (decide (length (bb_shape bb) = length (am_shape m))) as [E2|E2]; [done|].
  rewrite into_shape in E; [done|]. right. by left.
Qed.
