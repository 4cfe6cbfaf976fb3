(** Specification vocabulary: the voxels of an array as numbers in files, by the
    rules of the format and without reading functions. *)
From Verif Require Import Chunk Nd Hier Spec SpecPlace.
Local Open Scope Z_scope.

(** The value of the element type [t] that the bytes stand for in byte order
    [e]: the number they encode; for a boolean, a byte other than zero is true. *)
Definition stands_for (e : endian) (t : rty) (bs : bytes) (v : Z) : Prop :=
  elt_ok t v /\
  match t with
  | RBool => length bs = 1%nat /\ (v = 0 <-> bytes_value e bs = 0)
  | _ => encodes e (rty_size t) v bs
  end.
(** Element number [k] of a file. *)
Definition element_at (e : endian) (t : rty) (content : bytes) (k : Z) (v : Z) : Prop :=
  stands_for e t (take (rty_size t) (drop (Z.to_nat k * rty_size t) content)) v.
(** What a file holds when its compression is undone (by the decoder of the
    compressor, a parameter; an uncompressed file holds itself). *)
Definition unpacked (C : codec) (c : compression) (content raw : bytes) : Prop :=
  match c with
  | CRaw => raw = content
  | _ => exists st, c_dec C c content = Ok st /\ st_bytes st = raw
  end.
(** The voxel at [x]: the file of the chunk that covers it has, at the index of
    [x] in the chunk, the value; or there is no such file and the value is the
    fill value. *)
Definition voxel_in_files (C : codec) (H : hier) (s : fs) (path : bytes) (m : array_meta) (e : endian) (t : rty) (fill : Z)
    (x : list Z) (v : Z) : Prop :=
  exists pos w, in_chunk (am_chunk_shape m) pos x /\ position_text (am_sep m) pos w /\
  match file_at s (chunk_file H path w) with
  | None => v = fill
  | Some content =>
      exists raw, unpacked C (am_comp m) content raw /\ element_at e t raw
        (layout_rank (am_order m) (am_chunk_shape m) (zip_with Z.sub x (zip_with Z.mul pos (am_chunk_shape m)))) v
  end.
(** The file of the chunk at [pos] is absent or holds enough for a chunk of
    elements of type [t]. *)
Definition whole_file (C : codec) (H : hier) (s : fs) (path : bytes) (m : array_meta) (t : rty) (pos : list Z) : Prop :=
  forall w content, position_text (am_sep m) pos w -> file_at s (chunk_file H path w) = Some content ->
  exists raw, unpacked C (am_comp m) content raw /\ prodZ (am_chunk_shape m) * Z.of_nat (rty_size t) <= lenZ raw.
