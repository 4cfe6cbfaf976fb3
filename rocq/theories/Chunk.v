(** Chunk encoding and decoding: model of src/chunk.rs and of the compressor
    dispatch of src/compression/mod.rs:72-108. *)
From Verif Require Export Meta.

(** ** Elements (byteorder crate, to_be_bytes/to_le_bytes) *)

Fixpoint le_bytes (n : nat) (z : Z) : bytes :=
  match n with
  | O => []
  | S n' => byte_of_Z z :: le_bytes n' (z / 256)
  end.
Fixpoint le_val (l : bytes) : Z :=
  match l with
  | [] => 0
  | b :: l' => Z_of_byte b + 256 * le_val l'
  end.
Definition elt_bytes (e : endian) (t : rty) (z : Z) : bytes :=
  match e with
  | Little => le_bytes (rty_size t) z
  | Big => rev (le_bytes (rty_size t) z)
  end.
(** Two's complement reading of an n-byte number. *)
Definition to_signed (n : nat) (z : Z) : Z :=
  if z <? 2 ^ (8 * Z.of_nat n - 1) then z else z - 2 ^ (8 * Z.of_nat n).
Definition elt_val (e : endian) (t : rty) (l : bytes) : Z :=
  let z := le_val (match e with Little => l | Big => rev l end) in
  match t with
  | RBool => if z =? 0 then 0 else 1
  | _ => if rty_signed t then to_signed (rty_size t) z else z
  end.

(** ** Slices *)

(** slice::chunks(n) *)
Fixpoint chunks_fuel {A} (fuel n : nat) (l : list A) : list (list A) :=
  match fuel with
  | O => []
  | S f => match l with
           | [] => []
           | _ => take n l :: chunks_fuel f n (drop n l)
           end
  end.
Definition chunks {A} (n : nat) (l : list A) : list (list A) :=
  chunks_fuel (length l) n l.

(** ** write_data *)

(** The slices passed to `target.write_all`, in order (an empty slice makes no
    write).  CHUNK = 256 staging buffer: src/chunk.rs:119-139 (macro),
    192-206 (bool); one call: 169-173 (u8); per element: 224-237 (f16). *)
Definition write_calls (e : endian) (t : rty) (data : list Z) : list bytes :=
  match t with
  | RU8 => match data with [] => [] | _ => [concat (map (elt_bytes e t) data)] end
  | RF16 => map (elt_bytes e t) data
  | _ => map (fun c => concat (map (elt_bytes e t) c)) (chunks 256 data)
  end.

(** ** read_data *)

(** A reader: the bytes it will yield and the error, if any, that follows
    them (none: end of file). *)
Record stream := Stream { st_bytes : bytes; st_err : option ekind }.

(** Read::read_exact *)
Definition read_exact (n : nat) (s : stream) : res (bytes * stream) :=
  if (n <=? length (st_bytes s))%nat
  then Ok (take n (st_bytes s), Stream (drop n (st_bytes s)) (st_err s))
  else match st_err s with
       | None => Err UnexpectedEof
       | Some e => Err e
       end.

(** Decode [n] consecutive elements of a byte string. *)
Fixpoint decode_elts (e : endian) (t : rty) (n : nat) (l : bytes) : list Z :=
  match n with
  | O => []
  | S n' => elt_val e t (take (rty_size t) l) ::
            decode_elts e t n' (drop (rty_size t) l)
  end.

(** src/chunk.rs:175-190: for each 256-element piece of the destination. *)
Fixpoint read_pieces (e : endian) (pieces : list (list Z)) (s : stream)
  : res (list Z) :=
  match pieces with
  | [] => Ok []
  | c :: rest =>
      '(b, s') ← read_exact (length c) s;
      r ← read_pieces e rest s';
      Ok (decode_elts e RBool (length c) b ++ r)
  end.
(** src/chunk.rs:208-222: element by element. *)
Fixpoint read_each (e : endian) (old : list Z) (s : stream) : res (list Z) :=
  match old with
  | [] => Ok []
  | _ :: old' =>
      '(b, s') ← read_exact 2 s;
      r ← read_each e old' s';
      Ok (elt_val e RF16 b :: r)
  end.
(** [old] is the destination slice, overwritten entirely on success.  Its
    content after an error is not tracked (std leaves it unspecified).
    src/chunk.rs:105-116 (macro), 163-167 (u8), 175-190, 208-222. *)
Definition read_data (e : endian) (t : rty) (old : list Z) (s : stream)
  : res (list Z) :=
  match t with
  | RBool => read_pieces e (chunks 256 old) s
  | RF16 => read_each e old s
  | _ => '(b, _) ← read_exact (length old * rty_size t) s;
         Ok (decode_elts e t (length old) b)
  end.

(** ** Compressors *)

(** Third-party codecs as a parameter: what reaches the underlying writer
    (with the result) when the given slices are written through the encoder
    and the encoder is dropped; what the decoder yields on given content
    (constructing the lz_pure decoder may panic, lz_pure.rs:55-61). *)
Record codec := Codec {
  c_enc : compression -> list bytes -> bytes * res unit;
  c_dec : compression -> bytes -> res stream
}.
(** src/compression/mod.rs:91-107, raw.rs:21-23 *)
Definition encode_with (C : codec) (c : compression) (ws : list bytes)
  : bytes * res unit :=
  match c with
  | CRaw => (concat ws, Ok tt)
  | _ => c_enc C c ws
  end.
(** src/compression/mod.rs:73-89, raw.rs:17-19 *)
Definition decode_with (C : codec) (c : compression) (b : bytes) : res stream :=
  match c with
  | CRaw => Ok (Stream b None)
  | _ => c_dec C c b
  end.

(** ** DefaultChunk *)

(** src/chunk.rs:253-266 *)
Definition check_array_type (h : host) (m : array_meta) (t : rty) : res unit :=
  d ← effective_type (am_dtype m);
  if eq_modulo_endian d (zarr_type h t) then Ok tt else Err InvalidInput.

(** Byte order used by read_data/write_data: src/chunk.rs:111,128,211,227.
    u8 and bool ignore it (their elements are single bytes). *)
Definition meta_endian (h : host) (m : array_meta) : res endian :=
  d ← effective_type (am_dtype m); Ok (dtype_endian h d).

(** A data chunk: grid position and elements (src/chunk.rs:66-70). *)
Record chunk := Chunk { ck_pos : list Z; ck_data : list Z }.

(** VecDataChunk::reinitialize, src/chunk.rs:91-94 (`resize_with`). *)
Definition resize_vec (n : nat) (old : list Z) : list Z :=
  take n old ++ replicate (n - length old) 0.

(** src/chunk.rs:270-286; `vec![T::default(); n]` at data_type.rs:463-468. *)
Definition decode_chunk (C : codec) (h : host) (t : rty) (m : array_meta)
    (content : bytes) (pos : list Z) : res chunk :=
  _ ← check_array_type h m t;
  n ← chunk_num_elements (h_prof h) m;
  s ← decode_with C (am_comp m) content;
  e ← meta_endian h m;
  d ← read_data e t (replicate (Z.to_nat (as_u32 n)) 0) s;
  Ok (Chunk pos d).

(** src/chunk.rs:288-301: read into an existing chunk. *)
Definition decode_chunk_into (C : codec) (h : host) (t : rty) (m : array_meta)
    (content : bytes) (pos : list Z) (old : chunk) : res chunk :=
  _ ← check_array_type h m t;
  n ← chunk_num_elements (h_prof h) m;
  s ← decode_with C (am_comp m) content;
  e ← meta_endian h m;
  d ← read_data e t (resize_vec (Z.to_nat (as_u32 n)) (ck_data old)) s;
  Ok (Chunk pos d).

(** src/chunk.rs:306-323: bytes that reach the buffer, and the result. *)
Definition encode_chunk (C : codec) (h : host) (t : rty) (m : array_meta)
    (ck : chunk) : bytes * res unit :=
  match (_ ← check_array_type h m t;
         n ← chunk_num_elements (h_prof h) m;
         if as_u32 (lenZ (ck_data ck)) =? n then meta_endian h m
         else Err InvalidData) with
  | Ok e => encode_with C (am_comp m) (write_calls e t (ck_data ck))
  | Err k => ([], Err k)
  | Panic => ([], Panic)
  end.
