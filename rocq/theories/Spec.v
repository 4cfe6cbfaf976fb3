(** Specification vocabulary.  Nothing here refers to the algorithms of the
    model; the property theorems (Props_*.v) are stated with these notions and
    the model's entry points only. *)
From Verif Require Import DataType Meta Chunk BBox CoordIter Path FS Hier.
Local Open Scope Z_scope.

(** ** Elements and bytes *)

(** Value of a byte string read most-significant byte first. *)
Definition be_value (l : bytes) : Z := foldl (fun acc b => 256 * acc + Z_of_byte b) 0 l.
Definition bytes_value (e : endian) (l : bytes) : Z :=
  match e with Big => be_value l | Little => be_value (rev l) end.

(** [bs] is the [n]-byte two's complement encoding of [z] in byte order [e]. *)
Definition encodes (e : endian) (n : nat) (z : Z) (bs : bytes) : Prop :=
  length bs = n /\ bytes_value e bs = z mod 2 ^ (8 * Z.of_nat n).

(** The byte order a data type names; single-byte types without a byte order
    admit either. *)
Definition names_byte_order (d : data_type) (e : endian) : Prop :=
  match d with
  | DInt _ e' | DUInt _ e' | DFloat _ e' => e = e'
  | _ => True
  end.

(** Kind and width (bits) of data types and of Rust element types. *)
Inductive kind := KBool | KInt | KUInt | KFloat | KRaw.
Definition dkind (d : data_type) : kind :=
  match d with
  | DBool => KBool | DInt _ _ => KInt | DUInt _ _ => KUInt
  | DFloat _ _ => KFloat | DRaw _ => KRaw
  end.
Definition dbits (d : data_type) : Z :=
  match d with
  | DBool => 8
  | DInt IB1 _ | DUInt IB1 _ => 8
  | DInt IB2 _ | DUInt IB2 _ | DFloat FB2 _ => 16
  | DInt IB4 _ | DUInt IB4 _ | DFloat FB4 _ => 32
  | DInt IB8 _ | DUInt IB8 _ | DFloat FB8 _ => 64
  | DRaw bits => bits
  end.
Definition rkind (t : rty) : kind :=
  match t with
  | RBool => KBool
  | RU8 | RU16 | RU32 | RU64 => KUInt
  | RI8 | RI16 | RI32 | RI64 => KInt
  | RF16 | RF32 | RF64 => KFloat
  end.
Definition rbits (t : rty) : Z :=
  match t with
  | RBool | RU8 | RI8 => 8
  | RU16 | RI16 | RF16 => 16
  | RU32 | RI32 | RF32 => 32
  | RU64 | RI64 | RF64 => 64
  end.
Definition same_kind_width (d : data_type) (t : rty) : Prop :=
  dkind d = rkind t /\ dbits d = rbits t.

(** The effective data type of an array: the core type, or the fallback of an
    extension type. *)
Definition effective (m : array_meta) (d : data_type) : Prop :=
  am_dtype m = Core d \/ exists ext ty, am_dtype m = Extended ext ty (Some d).

(** Chunk shapes a chunk of which fits in a vector indexed by u32 (the limit
    the chunk API has), all extents non-zero. *)
Definition chunk_shape_ok (m : array_meta) : Prop :=
  Forall (fun s => 0 < s) (am_chunk_shape m) /\ prodZ (am_chunk_shape m) < two32.

(** A chunk buffer is full: as many elements as the chunk shape has voxels. *)
Definition full_chunk (m : array_meta) (data : list Z) : Prop :=
  lenZ data = prodZ (am_chunk_shape m).

(** ** Third-party codecs *)

(** The decoder, given everything a successful encoding session put in the
    buffer, yields the bytes that were written, however they were split into
    write calls. *)
Definition lossless (C : codec) (c : compression) : Prop :=
  forall ws bs, encode_with C c ws = (bs, Ok tt) ->
  exists s, decode_with C c bs = Ok s /\ st_bytes s = concat ws.

(** Neither side of the codec produces error kind [k]. *)
Definition codec_quiet (C : codec) (c : compression) (k : ekind) : Prop :=
  (forall ws, snd (encode_with C c ws) <> Err k) /\
  (forall b, decode_with C c b <> Err k /\
             forall s, decode_with C c b = Ok s -> st_err s <> Some k).

(** ** Grids and boxes *)

(** [q] is the least number of intervals of length [b] that cover [0, a). *)
Definition is_ceil_div (a b q : Z) : Prop := a <= q * b /\ (q - 1) * b < a.

(** [ext]: per dimension the least number of chunks that cover the array. *)
Definition is_extent (m : array_meta) (ext : list Z) : Prop :=
  length ext = length (am_shape m) /\
  forall i d s e, am_shape m !! i = Some d -> am_chunk_shape m !! i = Some s ->
    ext !! i = Some e -> is_ceil_div d s e.

(** Point [x] lies in the box at [off] with extents [shape]. *)
Definition in_box (off shape x : list Z) : Prop :=
  length x = length off /\ length x = length shape /\
  forall i xi oi si, x !! i = Some xi -> off !! i = Some oi -> shape !! i = Some si ->
    oi <= xi < oi + si.

(** Chunk position [c] (chunk extents [cs]) covers voxel [x]. *)
Definition in_chunk (cs c x : list Z) : Prop :=
  length c = length cs /\ length x = length cs /\
  forall i ci si xi, c !! i = Some ci -> cs !! i = Some si -> x !! i = Some xi ->
    ci * si <= xi < (ci + 1) * si.

(** Strict lexicographic order. *)
Fixpoint lex_lt (a b : list Z) : Prop :=
  match a, b with
  | x :: a', y :: b' => x < y \/ (x = y /\ lex_lt a' b')
  | _, _ => False
  end.

(** ** Compressor settings *)

(** Block sizes the LZ4 frame format supports (64 KiB, 256 KiB, 1 MiB, 4 MiB). *)
Definition lz4_sizes : list Z := [65536; 262144; 1048576; 4194304].
(** The same compressor with its default settings, as documented in
    src/compression: block size 9, level -1, block size 64 KiB, preset 6. *)
Definition codec_defaults (c : compression) : compression :=
  match c with
  | CRaw => CRaw | CBzip2 _ => CBzip2 9 | CGzip _ => CGzip (-1)
  | CLz4 _ => CLz4 65536 | CXz _ => CXz 6
  end.

(** ** Iteration *)

(** Calling next on [it] yields exactly [items], in order, and then None. *)
Fixpoint ci_yields (p : profile) (it : coord_iterator) (items : list (list Z)) : Prop :=
  match items with
  | [] => exists it', ci_next p it = Ok (None, it')
  | x :: items' => exists it', ci_next p it = Ok (Some x, it') /\ ci_yields p it' items'
  end.

(** The iterator after [n] calls of next that all yielded an item. *)
Fixpoint ci_advance (p : profile) (it : coord_iterator) (n : nat) (it' : coord_iterator) : Prop :=
  match n with
  | O => it' = it
  | S n' => exists x it1, ci_next p it = Ok (Some x, it1) /\ ci_advance p it1 n' it'
  end.

(** Premise of the region theorems, per dimension with an array extent [d], a
    non-zero chunk extent [s], a box offset [o] and a box extent [e]: the far
    corner of the box, and the corner of its part inside the array plus one
    chunk, are u64 values; the extent of the array is not the largest one. *)
Inductive bounded_ok : list Z -> list Z -> list Z -> list Z -> Prop :=
  | bounded_nil : bounded_ok [] [] [] []
  | bounded_cons d s o e shape chunks off oshape :
      0 <= d -> 0 < s -> d + 1 < two64 -> 0 <= o -> 0 <= e -> o + e < two64 ->
      Z.max o (Z.min d (o + e)) + s < two64 ->
      bounded_ok shape chunks off oshape ->
      bounded_ok (d :: shape) (s :: chunks) (o :: off) (e :: oshape).

(** The box and the array share a voxel. *)
Definition overlaps (m : array_meta) (b : bbox) : Prop :=
  exists x, in_box (replicate (length (am_shape m)) 0) (am_shape m) x
         /\ in_box (bb_off b) (bb_shape b) x.

(** Chunk position [pos] holds a voxel of the array. *)
Definition meets_array (m : array_meta) (pos : list Z) : Prop :=
  exists x, in_chunk (am_chunk_shape m) pos x
         /\ in_box (replicate (length (am_shape m)) 0) (am_shape m) x.
(** ... that also lies in box [b]. *)
Definition meets_box (m : array_meta) (b : bbox) (pos : list Z) : Prop :=
  exists x, in_chunk (am_chunk_shape m) pos x
         /\ in_box (replicate (length (am_shape m)) 0) (am_shape m) x
         /\ in_box (bb_off b) (bb_shape b) x.

(** ** Paths and files *)

(** The components a path or key consists of: what lies between slashes, empty
    pieces and "." dropped. *)
Definition pieces (s : bytes) : list bytes :=
  filter (fun p => is_junk p = false) (split_slash s).
(** No ".." component. *)
Definition plain (s : bytes) : Prop := dotdot ∉ pieces s.
(** The file-system path of a store key of the hierarchy at [base]. *)
Definition loc (base key : bytes) : fpath := pieces base ++ pieces key.

(** Every entry lies in an existing directory. *)
Definition wf_fs (s : fs) : Prop :=
  forall p n x, s !! (p ++ [x]) = Some n -> node_at s p = Some Dir.

(** A file can be written at [p]: nothing above it is a file, and it is not a
    directory. *)
Definition can_hold_file (s : fs) (p : fpath) : Prop :=
  (forall q, q `prefix_of` p -> q <> p -> forall c, file_at s q <> Some c) /\
  node_at s p <> Some Dir.

(** A separator that keeps chunk keys readable: not empty, without digits,
    without the letter c, and without a ".." component. *)
Definition good_sep (sep : bytes) : Prop :=
  sep <> [] /\ "c"%char ∉ sep /\ Forall (fun b => is_digit b = false) sep /\ plain sep.
(** Positions are vectors of u64. *)
Definition pos_ok (pos : list Z) : Prop := Forall is_u64 pos.
(** A metadata suffix (one leading dot aside) without slash or dot. *)
Definition good_suffix (sfx : bytes) : Prop :=
  slash ∉ strip_dot sfx /\ dot ∉ strip_dot sfx.

(** Every file other than [p] keeps its content (or its absence). *)
Definition same_except (s s' : fs) (p : fpath) : Prop :=
  forall q, q <> p -> file_at s' q = file_at s q.
(** No directory disappears or turns into a file. *)
Definition dirs_kept (s s' : fs) : Prop :=
  forall q, is_dir_at s q = true -> is_dir_at s' q = true.

(** ** Histories of chunk operations on one array *)

Inductive aop :=
  | AWrite (pos data : list Z)
  | ADelete (pos : list Z)
  | ARead (pos : list Z)
  | AReadInto (pos : list Z) (old : chunk).
Inductive answer :=
  | AnsUnit (r : res unit)
  | AnsBool (r : res bool)
  | AnsChunk (r : res (option chunk)).

(** The answers of the library. *)
Definition hist_step (C : codec) (h : host) (H : hier) (t : rty) (path : bytes)
    (m : array_meta) (s : fs) (o : aop) : fs * answer :=
  match o with
  | AWrite pos data => let '(s', r) := write_chunk C h H s t path m (Chunk pos data) in (s', AnsUnit r)
  | ADelete pos => let '(s', r) := delete_chunk H s path m pos in (s', AnsBool r)
  | ARead pos => (s, AnsChunk (read_chunk C h H s t path m pos))
  | AReadInto pos old => (s, AnsChunk (read_chunk_into C h H s t path m pos old))
  end.
Fixpoint hist_run (C : codec) (h : host) (H : hier) (t : rty) (path : bytes)
    (m : array_meta) (s : fs) (os : list aop) : list answer :=
  match os with
  | [] => []
  | o :: os' => let '(s', a) := hist_step C h H t path m s o in a :: hist_run C h H t path m s' os'
  end.

(** The answers of a finite map from grid position to elements. *)
Definition map_step (f : gmap (list Z) (list Z)) (o : aop) : gmap (list Z) (list Z) * answer :=
  match o with
  | AWrite pos data => (<[pos := data]> f, AnsUnit (Ok tt))
  | ADelete pos => (delete pos f, AnsBool (Ok true))
  | ARead pos | AReadInto pos _ =>
      (f, AnsChunk (Ok (match f !! pos with Some d => Some (Chunk pos d) | None => None end)))
  end.
Fixpoint map_run (f : gmap (list Z) (list Z)) (os : list aop) : list answer :=
  match os with
  | [] => []
  | o :: os' => let '(f', a) := map_step f o in a :: map_run f' os'
  end.

(** Operations with arguments the library accepts: positions of the array's
    rank, chunks of the array's chunk shape and type; reads inside the grid. *)
Definition aop_ok (p : profile) (t : rty) (m : array_meta) (o : aop) : Prop :=
  match o with
  | AWrite pos data => length pos = length (am_shape m) /\ pos_ok pos
                       /\ full_chunk m data /\ Forall (elt_ok t) data
  | ADelete pos => length pos = length (am_shape m) /\ pos_ok pos
  | ARead pos | AReadInto pos _ => in_bounds p m pos = Ok true /\ pos_ok pos
  end.

(** No chunk of the array (of any position of its rank) exists, and nothing in
    the file system prevents one from being created. *)
Definition no_chunks (s : fs) (base path : bytes) (m : array_meta) : Prop :=
  forall pos, length pos = length (am_shape m) -> pos_ok pos ->
  let p := loc base (get_chunk_key path m pos) in
  can_hold_file s p /\ file_at s p = None.

(** A codec that accepts everything written through it. *)
Definition total_codec (C : codec) (c : compression) : Prop :=
  forall ws, snd (encode_with C c ws) = Ok tt.

(** ** Containment *)

(** Starting [depth] directories below the base, following the components
    [ps] never climbs above the base. *)
Fixpoint never_above (depth : nat) (ps : list bytes) : Prop :=
  match ps with
  | [] => True
  | p :: r => if decide (p = dotdot)
              then match depth with O => False | S d => never_above d r end
              else never_above (S depth) r
  end.
(** The base directory [b] exists, and so do the directories above it. *)
Definition base_ok (b : fpath) (s : fs) : Prop := forall k, node_at s (take k b) = Some Dir.
(** Nothing outside [b] (no file, no directory) differs. *)
Definition outside_same (b : fpath) (s s' : fs) : Prop :=
  forall q, ~ (b `prefix_of` q) -> node_at s' q = node_at s q.
(** Nothing at or below [b] differs. *)
Definition inside_same (b : fpath) (s s' : fs) : Prop :=
  forall q, b `prefix_of` q -> node_at s q = node_at s' q.

(** ** Voxels *)

(** Rank of an index among the indices of a box of extents [shape], last
    dimension fastest. *)
Fixpoint c_rank (shape i : list Z) : Z :=
  match shape, i with
  | _ :: shape', x :: i' => x * prodZ shape' + c_rank shape' i'
  | _, _ => 0
  end.
(** Where an index of a chunk is stored: C order, or F order (first dimension
    fastest). *)
Definition layout_rank (o : order) (shape i : list Z) : Z :=
  match o with
  | RowMajor => c_rank shape i
  | ColumnMajor => c_rank (rev shape) (rev i)
  end.
(** Strict order of indices in a layout. *)
Definition layout_lt (o : order) (a b : list Z) : Prop :=
  match o with RowMajor => lex_lt a b | ColumnMajor => lex_lt (rev a) (rev b) end.

(** All indices of an array of extents [shape]. *)
Definition index_of (shape i : list Z) : Prop := in_box (replicate (length shape) 0) shape i.

(** [x] lies in a chunk that holds a voxel of the array (so [x] is a voxel of
    the array or of the overhang of one of its chunks). *)
Definition grid_voxel (m : array_meta) (x : list Z) : Prop :=
  exists pos, in_chunk (am_chunk_shape m) pos x /\ meets_array m pos.

(** The voxel at [x] of an array: the element at the in-chunk index of the
    chunk that covers [x], if that chunk exists, else the fill value. *)
Definition voxel (C : codec) (h : host) (H : hier) (s : fs) (t : rty) (path : bytes)
    (m : array_meta) (fill : Z) (x : list Z) : res Z :=
  o ← read_chunk C h H s t path m (zip_with Z.div x (am_chunk_shape m));
  match o with
  | None => Ok fill
  | Some ck =>
      of_option InvalidData
        (ck_data ck !! Z.to_nat (layout_rank (am_order m) (am_chunk_shape m)
                                   (zip_with Z.modulo x (am_chunk_shape m))))
  end.

(** An n-dimensional array of this shape can exist (ndarray refuses shapes
    whose non-zero extents multiply to more than isize::MAX). *)
Definition fits_memory (shape : list Z) : Prop :=
  prodZ (filter (fun s => s <> 0) shape) < 2 ^ 63.
(** A codec that never panics. *)
Definition codec_safe (C : codec) (c : compression) : Prop :=
  (forall content, decode_with C c content <> Panic)
  /\ (forall ws, snd (encode_with C c ws) <> Panic).

(** ** Fill values *)

(** IEEE 754 binary formats with [mb] fraction bits and sign bit [sb].  The
    value of a bit pattern, in units of the smallest subnormal (which is
    2 ^ (1 - bias - mb), so that an integer z is z * 2 ^ (bias + mb - 1)). *)
Definition fl_exp (mb sb bits : Z) : Z := bits mod 2 ^ sb / 2 ^ mb.
Definition fl_frac (mb bits : Z) : Z := bits mod 2 ^ mb.
Definition fl_units (mb sb bits : Z) : Z :=
  (if 2 ^ sb <=? bits then -1 else 1)
  * (if fl_exp mb sb bits =? 0 then fl_frac mb bits
     else (2 ^ mb + fl_frac mb bits) * 2 ^ (fl_exp mb sb bits - 1)).
Definition fl_finite (mb sb bits : Z) : Prop :=
  0 <= bits < 2 ^ (sb + 1) /\ fl_exp mb sb bits < 2 ^ (sb - mb) - 1.
(** [v] is the float nearest to the integer [z], ties to even. *)
Definition nearest_float (mb bias sb z v : Z) : Prop :=
  let err w := Z.abs (fl_units mb sb w - z * 2 ^ (bias + mb - 1)) in
  fl_finite mb sb v
  /\ forall w, fl_finite mb sb w -> err v <= err w
     /\ (err w = err v -> fl_units mb sb w = fl_units mb sb v \/ Z.even v = true).

(** JSON value [j] denotes the element [v] of type [t]. *)
Definition denotes (flit : rty -> bytes -> Z) (t : rty) (j : json) (v : Z) : Prop :=
  match rkind t, j with
  | KBool, JBool b => v = if b then 1 else 0
  | KInt, JInt z => v = z /\ - 2 ^ (rbits t - 1) <= z < 2 ^ (rbits t - 1)
  | KUInt, JInt z => v = z /\ 0 <= z < 2 ^ rbits t
  | KFloat, JInt z =>
      match t with
      | RF16 => nearest_float 10 15 15 z v
      | RF32 => nearest_float 23 127 31 z v
      | _ => nearest_float 52 1023 63 z v
      end
  | KFloat, JFloat l => v = flit t l
  | _, _ => False
  end.
(** Integers JSON values hold (serde_json: u64 or i64). *)
Definition int_json (j : json) : Prop :=
  match j with JInt z => - 2 ^ 63 <= z < 2 ^ 64 | _ => True end.
