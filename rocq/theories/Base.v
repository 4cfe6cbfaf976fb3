(** Bytes, results, machine arithmetic: vocabulary shared by the whole model. *)
From stdpp Require Export base list gmap strings numbers.
From Coq Require Export Ascii ZArith Lia.
Global Open Scope Z_scope.

(** A Rust [u8].  Rust strings, OS strings, paths and file contents are all
    byte sequences. *)
Notation byte := ascii.
Notation bytes := (list ascii).

(** String literals as byte sequences. *)
Definition B (s : string) : bytes := String.list_ascii_of_string s.

(** A byte as a number and back ([byte_of_Z] reduces modulo 256, like `as u8`). *)
Definition Z_of_byte (b : byte) : Z := Z.of_N (N_of_ascii b).
Definition byte_of_Z (z : Z) : byte := ascii_of_N (Z.to_N (z mod 256)).

(** [std::io::ErrorKind], the kinds the code distinguishes.  [Other] stands
    for all remaining kinds. *)
Inductive ekind :=
  NotFound | AlreadyExists | InvalidInput | InvalidData | UnexpectedEof | Other.
Global Instance ekind_eq_dec : EqDecision ekind.
Proof. solve_decision. Defined.

(** [Result<A, std::io::Error>] plus an explicit value for every panic path
    (assert!, unwrap, expect, todo!, debug overflow, slice out of range). *)
Inductive res (A : Type) := Ok (a : A) | Err (e : ekind) | Panic.
Arguments Ok {A} a.
Arguments Err {A} e.
Arguments Panic {A}.

Global Instance res_ret : MRet res := fun A a => Ok a.
Global Instance res_bind : MBind res := fun A B f m =>
  match m with Ok a => f a | Err e => Err e | Panic => Panic end.
Global Instance res_fmap : FMap res := fun A B f m =>
  match m with Ok a => Ok (f a) | Err e => Err e | Panic => Panic end.

Definition is_ok {A} (r : res A) : bool :=
  match r with Ok _ => true | _ => false end.
Definition assert_ (b : bool) : res unit := if b then Ok tt else Panic.
Definition of_option {A} (e : ekind) (o : option A) : res A :=
  match o with Some a => Ok a | None => Err e end.

(** Cargo profile: overflow checks panic in [Debug], wrap in [Release]. *)
Inductive profile := Debug | Release.

(** Host byte order. *)
Inductive endian := Big | Little.
Global Instance endian_eq_dec : EqDecision endian.
Proof. solve_decision. Defined.

(** Compilation target: profile and [target_endian]. usize is 64 bits. *)
Record host := Host { h_prof : profile; h_endian : endian }.

Definition two64 : Z := 2 ^ 64.
Definition two32 : Z := 2 ^ 32.
Definition is_u64 (z : Z) : Prop := 0 <= z < two64.
Definition is_u32 (z : Z) : Prop := 0 <= z < two32.

(** Result of a u64/usize operation whose mathematical value is [z]. *)
Definition chk64 (p : profile) (z : Z) : res Z :=
  if (0 <=? z) && (z <? two64) then Ok z
  else match p with Debug => Panic | Release => Ok (z mod two64) end.
Definition add64 (p : profile) (a b : Z) : res Z := chk64 p (a + b).
Definition sub64 (p : profile) (a b : Z) : res Z := chk64 p (a - b).
Definition mul64 (p : profile) (a b : Z) : res Z := chk64 p (a * b).
(** Division and remainder panic on a zero divisor in every profile. *)
Definition div64 (a b : Z) : res Z := if b =? 0 then Panic else Ok (a / b).
Definition rem64 (a b : Z) : res Z := if b =? 0 then Panic else Ok (a mod b).
Definition sat_sub (a b : Z) : Z := Z.max 0 (a - b).
(** `as u32`. *)
Definition as_u32 (z : Z) : Z := z mod two32.

(** Iterator::product::<u64>() / ::<usize>(): left fold from 1, overflow
    behaviour of the profile at every step. *)
Definition product64 (p : profile) (l : list Z) : res Z :=
  foldl (fun acc d => a ← acc; mul64 p a d) (Ok 1) l.

(** Iterator::map over a fallible function, collected (first failure wins;
    iterators are consumed left to right). *)
Fixpoint mapM_res {A B} (f : A -> res B) (l : list A) : res (list B) :=
  match l with
  | [] => Ok []
  | a :: l' => b ← f a; bs ← mapM_res f l'; Ok (b :: bs)
  end.

(** Mathematical product, for specifications and for lengths. *)
Definition prodZ (l : list Z) : Z := foldr Z.mul 1 l.

Definition lenZ {A} (l : list A) : Z := Z.of_nat (length l).

(** Boolean equality of byte strings. *)
Definition beq (a b : bytes) : bool := bool_decide (a = b).

(** Decimal rendering of a non-negative integer, as `{}` does. *)
Definition digit (z : Z) : byte := byte_of_Z (48 + z).
Fixpoint dec_fuel (fuel : nat) (z : Z) (acc : bytes) : bytes :=
  match fuel with
  | O => acc
  | S f =>
      let acc' := digit (z mod 10) :: acc in
      if z / 10 =? 0 then acc' else dec_fuel f (z / 10) acc'
  end.
Definition show_nat (z : Z) : bytes := dec_fuel (S (Z.to_nat (Z.log2 z))) z [].

Definition is_digit (b : byte) : bool :=
  (48 <=? Z_of_byte b) && (Z_of_byte b <=? 57).
(** Value of a digit string, most significant first. *)
Definition dec_val (l : bytes) : Z :=
  foldl (fun acc b => 10 * acc + (Z_of_byte b - 48)) 0 l.

(** str::parse::<usize>(): optional '+', at least one digit, no overflow. *)
Definition parse_usize (s : bytes) : option Z :=
  let ds := match s with
            | c :: r => if bool_decide (c = "+"%char) then r else s
            | [] => [] end in
  match ds with
  | [] => None
  | _ => if forallb is_digit ds
         then if dec_val ds <? two64 then Some (dec_val ds) else None
         else None
  end.

(** str::starts_with / ends_with. *)
Fixpoint starts_with (p s : bytes) : bool :=
  match p, s with
  | [], _ => true
  | a :: p', b :: s' => bool_decide (a = b) && starts_with p' s'
  | _ :: _, [] => false
  end.
Definition ends_with (p s : bytes) : bool := starts_with (rev p) (rev s).
