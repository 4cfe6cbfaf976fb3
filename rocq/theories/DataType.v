(** Model of src/data_type.rs. *)
From Verif Require Export Base.

(** src/data_type.rs:15-21 *)
Inductive int_size := IB1 | IB2 | IB4 | IB8.
(** src/data_type.rs:46-51 *)
Inductive float_size := FB2 | FB4 | FB8.
Global Instance int_size_eq_dec : EqDecision int_size.
Proof. solve_decision. Defined.
Global Instance float_size_eq_dec : EqDecision float_size.
Proof. solve_decision. Defined.

(** src/data_type.rs:24-33 *)
Definition int_size_of_char (c : byte) : option int_size :=
  match c with
  | "1"%char => Some IB1 | "2"%char => Some IB2
  | "4"%char => Some IB4 | "8"%char => Some IB8
  | _ => None end.
(** src/data_type.rs:35-43 *)
Definition int_size_char (s : int_size) : byte :=
  match s with IB1 => "1" | IB2 => "2" | IB4 => "4" | IB8 => "8" end%char.
(** src/data_type.rs:54-62 *)
Definition float_size_of_char (c : byte) : option float_size :=
  match c with
  | "2"%char => Some FB2 | "4"%char => Some FB4 | "8"%char => Some FB8
  | _ => None end.
(** src/data_type.rs:64-71 *)
Definition float_size_char (s : float_size) : byte :=
  match s with FB2 => "2" | FB4 => "4" | FB8 => "8" end%char.
(** src/data_type.rs:87-93 *)
Definition endian_of_char (c : byte) : option endian :=
  match c with ">"%char => Some Big | "<"%char => Some Little | _ => None end.
(** src/data_type.rs:95-100 *)
Definition endian_char (e : endian) : byte :=
  match e with Big => ">" | Little => "<" end%char.

(** src/data_type.rs:117-123 ([size] of Raw is a usize count of bits). *)
Inductive data_type :=
  | DBool
  | DInt (s : int_size) (e : endian)
  | DUInt (s : int_size) (e : endian)
  | DFloat (s : float_size) (e : endian)
  | DRaw (size : Z).
Global Instance data_type_eq_dec : EqDecision data_type.
Proof. solve_decision. Defined.

(** Pad or cut [l] to exactly [n] bytes with NULs: the fixed buffer
    `[0u8; 32]` after `write!(&mut buf[..], ..)`. *)
Definition in_buffer (n : nat) (l : bytes) : bytes :=
  take n (l ++ replicate n Ascii.zero).

(** src/data_type.rs:125-165.  The Raw arm (158-161) serializes the whole
    32-byte buffer, padding included. *)
Definition dtype_to_string (d : data_type) : bytes :=
  match d with
  | DBool => B "bool"
  | DInt IB1 _ => B "i1"
  | DUInt IB1 _ => B "u1"
  | DInt s e => [endian_char e; "i"%char; int_size_char s]
  | DUInt s e => [endian_char e; "u"%char; int_size_char s]
  | DFloat s e => [endian_char e; "f"%char; float_size_char s]
  | DRaw size => in_buffer 32 ("r"%char :: show_nat size)
  end.

(** src/data_type.rs:176-241.  [Err InvalidData] is the serde error (which
    becomes an io::Error of kind InvalidData); the `expect("TODO")` and
    `unwrap()` calls of lines 210-222 are [Panic].
    Working on bytes is exact: for valid UTF-8 input a multi-byte character
    matches none of the ASCII patterns either way. *)
Definition dtype_of_string (v : bytes) : res data_type :=
  if beq v (B "bool") then Ok DBool
  else if beq v (B "i1") then Ok (DInt IB1 Little)
  else if beq v (B "u1") then Ok (DUInt IB1 Little)
  else if starts_with (B "r") v then
    match parse_usize (drop 1 v) with
    | Some size => if size mod 8 =? 0 then Ok (DRaw size) else Err InvalidData
    | None => Err InvalidData
    end
  else match v with
  | [c0; c1; c2] =>
      match endian_of_char c0 with
      | None => Panic
      | Some e =>
          match c1 with
          | "i"%char => match int_size_of_char c2 with
                        | Some s => Ok (DInt s e) | None => Panic end
          | "u"%char => match int_size_of_char c2 with
                        | Some s => Ok (DUInt s e) | None => Panic end
          | "f"%char => match float_size_of_char c2 with
                        | Some s => Ok (DFloat s e) | None => Panic end
          | _ => Err InvalidData
          end
      end
  | _ => Err InvalidData
  end.

(** src/data_type.rs:417-423 with the expansion of data_type_match!
    (372-415): std::mem::size_of of the Rust type of each arm. *)
Definition int_bytes (s : int_size) : Z :=
  match s with IB1 => 1 | IB2 => 2 | IB4 => 4 | IB8 => 8 end.
Definition float_bytes (s : float_size) : Z :=
  match s with FB2 => 2 | FB4 => 4 | FB8 => 8 end.
Definition dtype_size (d : data_type) : Z :=
  match d with
  | DBool => 1
  | DUInt s _ => int_bytes s
  | DInt s _ => int_bytes s
  | DFloat s _ => float_bytes s
  | DRaw size => 1 * size / 8
  end.

(** src/data_type.rs:425-432, NATIVE_ENDIAN at 80-83. *)
Definition dtype_endian (h : host) (d : data_type) : endian :=
  match d with
  | DInt _ e | DUInt _ e | DFloat _ e => e
  | _ => h_endian h
  end.

(** src/data_type.rs:434-443 *)
Definition eq_modulo_endian (a b : data_type) : bool :=
  match a, b with
  | DBool, DBool => true
  | DInt s1 _, DInt s2 _ => bool_decide (s1 = s2)
  | DUInt s1 _, DUInt s2 _ => bool_decide (s1 = s2)
  | DFloat s1 _, DFloat s2 _ => bool_decide (s1 = s2)
  | DRaw s1, DRaw s2 => bool_decide (s1 = s2)
  | _, _ => false
  end.

(** src/data_type.rs:284-293 *)
Inductive ext_data_type :=
  | Core (d : data_type)
  | Extended (extension type_string : bytes) (fallback : option data_type).

(** src/data_type.rs:298-310; `todo!()` is a panic. *)
Definition effective_type (x : ext_data_type) : res data_type :=
  match x with
  | Core d => Ok d
  | Extended _ _ (Some d) => Ok d
  | Extended _ _ None => Panic
  end.

(** The Rust element types that implement ReflectedType and have chunk I/O
    (src/data_type.rs:479-490, src/chunk.rs:153-237).  The `[u8; N]` example
    types (493-496) implement ReflectedType but neither ReadableDataChunk nor
    WriteableDataChunk, so no chunk call can be instantiated with them. *)
Inductive rty :=
  | RBool | RU8 | RU16 | RU32 | RU64 | RI8 | RI16 | RI32 | RI64
  | RF16 | RF32 | RF64.
Global Instance rty_eq_dec : EqDecision rty.
Proof. solve_decision. Defined.

(** ReflectedType::ZARR_TYPE, src/data_type.rs:479-490 *)
Definition zarr_type (h : host) (t : rty) : data_type :=
  let n := h_endian h in
  match t with
  | RBool => DBool
  | RU8 => DUInt IB1 n | RU16 => DUInt IB2 n
  | RU32 => DUInt IB4 n | RU64 => DUInt IB8 n
  | RI8 => DInt IB1 n | RI16 => DInt IB2 n
  | RI32 => DInt IB4 n | RI64 => DInt IB8 n
  | RF16 => DFloat FB2 n | RF32 => DFloat FB4 n | RF64 => DFloat FB8 n
  end.

(** std::mem::size_of::<T>() *)
Definition rty_size (t : rty) : nat :=
  match t with
  | RBool | RU8 | RI8 => 1
  | RU16 | RI16 | RF16 => 2
  | RU32 | RI32 | RF32 => 4
  | RU64 | RI64 | RF64 => 8
  end.

(** Element values are integers: the numeric value for integer types, 0/1 for
    bool, the bit pattern for floats (so NaN payloads and signed zeros are
    distinguished).  [elt_ok t z]: [z] is a value of type [t]. *)
Definition rty_signed (t : rty) : bool :=
  match t with RI8 | RI16 | RI32 | RI64 => true | _ => false end.
Definition elt_ok (t : rty) (z : Z) : Prop :=
  match t with
  | RBool => z = 0 \/ z = 1
  | _ => if rty_signed t
         then - 2 ^ (8 * Z.of_nat (rty_size t) - 1) <= z
              < 2 ^ (8 * Z.of_nat (rty_size t) - 1)
         else 0 <= z < 2 ^ (8 * Z.of_nat (rty_size t))
  end.
