(** Specification vocabulary: an array as a map from coordinates to values that
    writes update. *)
From Verif Require Import Chunk Nd Hier Spec SpecHier SpecPlace.
Local Open Scope Z_scope.

(** What changes an array: the write of a region (offset and payload), the
    write of a chunk, the deletion of a chunk. *)
Inductive change :=
  | Region (off : list Z) (arr : nd)
  | WholeChunk (pos data : list Z)
  | NoChunk (pos : list Z).
(** The change concerns the voxel at [x] ... *)
Definition concerns (m : array_meta) (c : change) (x : list Z) : Prop :=
  match c with
  | Region off arr => in_box off (nd_shape arr) x
  | WholeChunk pos _ | NoChunk pos => in_chunk (am_chunk_shape m) pos x
  end.
(** ... and gives it the value [v]. *)
Definition gives (m : array_meta) (fill : Z) (c : change) (x : list Z) (v : Z) : Prop :=
  match c with
  | Region off arr => v = nd_at arr (zip_with Z.sub x off)
  | WholeChunk pos data =>
      data !! Z.to_nat (layout_rank (am_order m) (am_chunk_shape m)
                          (zip_with Z.sub x (zip_with Z.mul pos (am_chunk_shape m)))) = Some v
  | NoChunk _ => v = fill
  end.
(** The value of the voxel at [x], which was [first], after the changes [cs]
    (from the oldest to the newest). *)
Inductive last_written (m : array_meta) (fill first : Z) : list change -> list Z -> Z -> Prop :=
  | never_written x : last_written m fill first [] x first
  | written_now cs c x v : concerns m c x -> gives m fill c x v -> last_written m fill first (cs ++ [c]) x v
  | written_before cs c x v : ~ concerns m c x -> last_written m fill first cs x v -> last_written m fill first (cs ++ [c]) x v.

(** The change is made, successfully. *)
Definition performs (flit : rty -> bytes -> Z) (C : codec) (h : host) (H : hier) (t : rty) (path : bytes) (m : array_meta)
    (s : fs) (c : change) (s' : fs) : Prop :=
  match c with
  | Region off arr =>
      bounded_ok (am_shape m) (am_chunk_shape m) off (nd_shape arr) /\ fits_memory (nd_shape arr)
      /\ (forall i, index_of (nd_shape arr) i -> elt_ok t (nd_at arr i))
      /\ write_ndarray flit C h H s t path m off arr = (s', Ok tt)
  | WholeChunk pos data =>
      pos_ok pos /\ Forall (elt_ok t) data /\ lenZ data < two32
      /\ write_chunk C h H s t path m (Chunk pos data) = (s', Ok tt)
  | NoChunk pos => pos_ok pos /\ exists b, delete_chunk H s path m pos = (s', Ok b)
  end.
(** From [s] the array at [path] undergoes the changes [cs]; between them
    anything may happen that leaves the files of its chunks alone. *)
Inductive history_of (flit : rty -> bytes -> Z) (C : codec) (h : host) (H : hier) (t : rty) (path : bytes) (m : array_meta)
    (s : fs) : list change -> fs -> Prop :=
  | history_begins : history_of flit C h H t path m s [] s
  | history_change cs s' c s'' : history_of flit C h H t path m s cs s' ->
      performs flit C h H t path m s' c s'' -> history_of flit C h H t path m s (cs ++ [c]) s''
  | history_else cs s' s'' : history_of flit C h H t path m s cs s' -> wf_fs s'' ->
      (forall pos w, pos_ok pos -> position_text (am_sep m) pos w -> file_at s'' (chunk_file H path w) = file_at s' (chunk_file H path w)) ->
      history_of flit C h H t path m s cs s''.
(** No chunk of the array is stored. *)
Definition unwritten (H : hier) (s : fs) (path : bytes) (m : array_meta) : Prop :=
  forall pos w, pos_ok pos -> position_text (am_sep m) pos w -> file_at s (chunk_file H path w) = None.
(** Only regions are written. *)
Definition regions_only (cs : list change) : Prop :=
  forall c, c ∈ cs -> exists off arr, c = Region off arr.
(** What the array is to those who use regions: everything but chunk shape,
    separator, layout, compression, attributes ... *)
Definition same_to_users (flit : rty -> bytes -> Z) (t : rty) (m m' : array_meta) : Prop :=
  am_shape m = am_shape m' /\ effective_fill flit t m = effective_fill flit t m'.
(** The call is about another array's chunks, or the documents of any node, or
    removes a node that neither contains the array nor is inside it. *)
Definition elsewhere (path : bytes) (o : api_op) : Prop :=
  match o with
  | ACreateArray _ _ | ACreateGroup _ | ASetAttributes _ _ => True
  | ARemove q => ~ pieces q `prefix_of` pieces path /\ ~ pieces path `prefix_of` pieces q
  | AWriteChunk _ q m _ | ADeleteChunk q m _ | AWriteRegion _ q m _ _ => pieces q <> pieces path /\ good_sep (am_sep m)
  end.
