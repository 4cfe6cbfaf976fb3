(** Vocabulary for the properties about processes: crashes, a full disk,
    concurrency. *)
From Verif Require Export Sys.
From Verif Require Import Spec SpecMeta.
Local Open Scope Z_scope.

(** Inode and description numbers are used consistently: this holds of the
    state of a machine without any file ([boot]) and every system call keeps
    it (C54). *)
Record os_ok (o : os) : Prop := {
  ok_tree : forall p i, o_tree o !! p = Some (DFile i) -> is_Some (o_data o !! i);
  ok_one : forall p q i, o_tree o !! p = Some (DFile i) -> o_tree o !! q = Some (DFile i) -> p = q;
  ok_data : forall i, is_Some (o_data o !! i) -> (i < o_next o)%nat;
  ok_fds : forall fd i, o_fds o !! fd = Some i -> (fd < o_next o)%nat /\ is_Some (o_data o !! i);
  ok_locks : forall fd b, o_locks o !! fd = Some b -> is_Some (o_fds o !! fd)
}.
Definition boot : os := OS ∅ ∅ ∅ ∅ 0 [] None.

(** No process has anything open or locked. *)
Definition idle (o : os) : Prop := os_ok o /\ o_fds o = ∅ /\ o_locks o = ∅.
(** Nothing open, unlimited space. *)
Definition calm (o : os) : Prop := idle o /\ o_room o = None.

(** The process, alone on the machine, runs to its end and returns [a]. *)
Definition answers {A : Type} (o : os) (p : proc A) (a : A) : Prop :=
  exists o', run o p = Some (o', a).
(** ... and leaves state [o']. *)
Definition leaves {A : Type} (o : os) (p : proc A) (o' : os) : Prop :=
  exists a, run o p = Some (o', a).

(** Alone on the machine, the process has the effect and the answer of the
    atomic call [want], a new file system and a result. *)
Definition does {A : Type} (o : os) (p : proc A) (want : fs * A) : Prop :=
  exists o', run o p = Some (o', snd want) /\ view o' = fst want /\ calm o'.

(** Decoding any strict prefix of the chunk's bytes is an error. *)
Definition truncation_detected (C : codec) (h : host) (t : rty) (m : array_meta) (bs : bytes) : Prop :=
  forall pos n, (n < length bs)%nat -> exists e, decode_chunk C h t m (take n bs) pos = Err e.

(** The operations that write metadata documents. *)
Inductive meta_op :=
  | MCreateArray (path : bytes) (m : array_meta)
  | MCreateGroup (path : bytes)
  | MSetAttributes (path : bytes) (attrs : jmap).
Definition mo_path (op : meta_op) : bytes :=
  match op with MCreateArray p _ | MCreateGroup p | MSetAttributes p _ => p end.
Definition p_meta_op (H : hier) (sl : bytes -> list bytes) (rs : list nat) (op : meta_op)
  : proc (res unit) :=
  match op with
  | MCreateArray path m => p_create_array H sl path m
  | MCreateGroup path => p_create_group H sl path
  | MSetAttributes path attrs => p_set_attributes H sl path attrs rs
  end.
(** The arguments are values of their Rust types, and not nested too deeply to
    be read back. *)
Definition mo_ok (op : meta_op) : Prop :=
  match op with
  | MCreateArray path m => plain path /\ meta_value m /\ nesting_ok m
  | MCreateGroup path => plain path
  | MSetAttributes path attrs =>
      plain path /\ value_ok (JObj attrs) /\ (jdepth (JObj attrs) <= 126)%nat
  end.
