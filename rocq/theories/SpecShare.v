(** Vocabulary for the properties about concurrent calls, region reads and
    writes included, that use different files. *)
From Verif Require Export SpecConc SysNd.
From Verif Require Import Spec SpecMeta.
Local Open Scope Z_scope.

(** Any call of the public interface with its arguments; [rsf] says in what
    pieces the chunk files are read. *)
Inductive rcall :=
  | RCall (c : call)
  | RRead (t : rty) (path : bytes) (m : array_meta) (bb : bbox) (rsf : list Z -> list nat)
  | RReadInto (t : rty) (path : bytes) (m : array_meta) (bb : bbox) (arr : nd) (rsf : list Z -> list nat)
  | RWrite (t : rty) (path : bytes) (m : array_meta) (off : list Z) (arr : nd) (rsf : list Z -> list nat).
Inductive rreply :=
  | YReply (r : reply)
  | YRegion (r : res nd).
Definition p_rcall (flit : rty -> bytes -> Z) (C : codec) (h : host) (H : hier) (sl : bytes -> list bytes)
    (c : rcall) : proc rreply :=
  match c with
  | RCall c => pbind (p_call C h H sl c) (fun r => Ret (YReply r))
  | RRead t path m bb rsf =>
      pbind (p_read_ndarray H C h rsf flit t path m bb) (fun r => Ret (YRegion r))
  | RReadInto t path m bb arr rsf =>
      pbind (p_read_ndarray_into H C h rsf t path m bb arr) (fun r => Ret (YRegion r))
  | RWrite t path m off arr rsf =>
      pbind (p_write_ndarray H C h rsf sl flit t path m off arr) (fun r => Ret (YReply (YUnit r)))
  end.

(** Arguments as in [call_ok]; regions have the array's rank, are within the
    range of u64 and share a voxel with the array. *)
Definition region_ok (path : bytes) (m : array_meta) (bb : bbox) : Prop :=
  plain path /\ good_sep (am_sep m)
  /\ bounded_ok (am_shape m) (am_chunk_shape m) (bb_off bb) (bb_shape bb) /\ overlaps m bb.
Definition rcall_ok (c : rcall) : Prop :=
  match c with
  | RCall c => call_ok c
  | RRead _ path m bb _ | RReadInto _ path m bb _ _ => region_ok path m bb
  | RWrite _ path m off arr _ => region_ok path m (BBox off (nd_shape arr))
  end.

(** The files of a node's documents, of a chunk, and of the chunks that hold a
    voxel of a region. *)
Definition array_doc (H : hier) (path : bytes) (q : fpath) : Prop := q = loc (hy_base H) (akey H path).
Definition group_doc (H : hier) (path : bytes) (q : fpath) : Prop := q = loc (hy_base H) (gkey H path).
Definition doc (H : hier) (path : bytes) (q : fpath) : Prop := array_doc H path q \/ group_doc H path q.
Definition chunk_file (H : hier) (path : bytes) (m : array_meta) (pos : list Z) (q : fpath) : Prop :=
  q = loc (hy_base H) (get_chunk_key path m pos).
Definition region_file (H : hier) (path : bytes) (m : array_meta) (bb : bbox) (q : fpath) : Prop :=
  exists pos, pos_ok pos /\ meets_box m bb pos /\ chunk_file H path m pos q.

(** Removing and listing nodes go through directories, and so look at files and
    directories whose names their arguments do not tell: all other calls. *)
Definition by_name (c : rcall) : Prop :=
  match c with
  | RCall (KRemove _ _ _) | RCall (KListNodes _ _) => False
  | _ => True
  end.
(** The files such a call may change, and those it may look at or change. *)
Definition may_write (H : hier) (c : rcall) (q : fpath) : Prop :=
  match c with
  | RCall (KSetAttributes path _ _) => doc H path q
  | RCall (KCreateGroup path) => group_doc H path q
  | RCall (KCreateArray path _) => array_doc H path q
  | RCall (KWriteChunk _ path m ck _) => chunk_file H path m (ck_pos ck) q
  | RCall (KDeleteChunk path m pos) => chunk_file H path m pos q
  | RWrite _ path m off arr _ => region_file H path m (BBox off (nd_shape arr)) q
  | _ => False
  end.
Definition may_touch (H : hier) (c : rcall) (q : fpath) : Prop :=
  match c with
  | RCall (KGetMetadata path _) => array_doc H path q
  | RCall (KListAttributes path _) | RCall (KSetAttributes path _ _)
  | RCall (KCreateGroup path) | RCall (KCreateArray path _) => doc H path q
  | RCall (KReadChunk _ path m pos _) | RCall (KDeleteChunk path m pos) => chunk_file H path m pos q
  | RCall (KWriteChunk _ path m ck _) => chunk_file H path m (ck_pos ck) q
  | RRead _ path m bb _ | RReadInto _ path m bb _ _ => region_file H path m bb q
  | RWrite _ path m off arr _ => region_file H path m (BBox off (nd_shape arr)) q
  | _ => False
  end.

(** No call changes a file another one looks at or changes, or one that another
    one needs as a directory. *)
Definition independent (H : hier) (calls : list rcall) : Prop :=
  forall i j c d, i <> j -> calls !! i = Some c -> calls !! j = Some d ->
  forall q, may_write H c q ->
    ~ may_touch H d q /\ forall r, may_write H d r -> ~ q `prefix_of` r.
(** The files to be changed exist or can be created. *)
Definition writable (H : hier) (s : fs) (calls : list rcall) : Prop :=
  forall c, c ∈ calls -> forall q, may_write H c q -> can_hold_file s q.

(** Some chunk of the array holds voxels of both regions. *)
Definition share_chunk (m : array_meta) (b b' : bbox) : Prop :=
  exists pos, meets_box m b pos /\ meets_box m b' pos.
(** A region write with offset and data, and its success. *)
Definition region_write (t : rty) (path : bytes) (m : array_meta) (rsf : list Z -> list nat)
    (w : list Z * nd) : rcall := RWrite t path m (fst w) (snd w) rsf.
Definition box_of (w : list Z * nd) : bbox := BBox (fst w) (nd_shape (snd w)).
Definition written_ok : rreply := YReply (YUnit (Ok tt)).

(** The element of a chunk that is voxel [x] of the array. *)
Definition element (m : array_meta) (ck : chunk) (x : list Z) : option Z :=
  ck_data ck !! Z.to_nat (layout_rank (am_order m) (am_chunk_shape m) (zip_with Z.modulo x (am_chunk_shape m))).
(** Call [c] gives voxel [x] of the array at [path] the value [v]: by writing
    or deleting the chunk that covers it, by writing a region it is in, or by
    removing the array or a node above it. *)
Definition gives (path : bytes) (m : array_meta) (fill : Z) (x : list Z) (c : rcall) (v : Z) : Prop :=
  match c with
  | RCall (KWriteChunk _ path' _ ck _) => pieces path' = pieces path
      /\ in_chunk (am_chunk_shape m) (ck_pos ck) x /\ element m ck x = Some v
  | RCall (KDeleteChunk path' _ pos) => pieces path' = pieces path
      /\ in_chunk (am_chunk_shape m) pos x /\ v = fill
  | RCall (KRemove path' _ _) => pieces path' `prefix_of` pieces path /\ v = fill
  | RWrite _ path' _ off arr _ => pieces path' = pieces path
      /\ in_box off (nd_shape arr) x /\ v = nd_at arr (zip_with Z.sub x off)
  | _ => False
  end.
(** ... or the voxel has the value [v] in state [s] already. *)
Definition possible (C : codec) (h : host) (H : hier) (s : fs) (t : rty) (path : bytes) (m : array_meta)
    (fill : Z) (calls : list rcall) (x : list Z) (v : Z) : Prop :=
  voxel C h H s t path m fill x = Ok v \/ exists c, c ∈ calls /\ gives path m fill x c v.
(** If the call reads or writes chunks of the array at [path], it does so with
    element type [t] and metadata [m]; what it writes is of that type. *)
Definition agrees (C : codec) (h : host) (t : rty) (path : bytes) (m : array_meta) (c : rcall) : Prop :=
  match c with
  | RCall (KReadChunk t' path' m' _ _) => pieces path' = pieces path -> t' = t /\ m' = m
  | RCall (KWriteChunk t' path' m' ck ws) => pieces path' = pieces path ->
      t' = t /\ m' = m /\ full_chunk m (ck_data ck) /\ Forall (elt_ok t) (ck_data ck)
      /\ concat ws = fst (encode_chunk C h t m ck)
  | RRead t' path' m' bb _ | RReadInto t' path' m' bb _ _ => pieces path' = pieces path ->
      t' = t /\ m' = m /\ fits_memory (bb_shape bb)
  | RWrite t' path' m' off arr _ => pieces path' = pieces path ->
      t' = t /\ m' = m /\ fits_memory (nd_shape arr)
      /\ (forall i, index_of (nd_shape arr) i -> elt_ok t (nd_at arr i))
  | _ => True
  end.
