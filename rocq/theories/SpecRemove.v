(** Vocabulary for the properties about removing as a process. *)
From Verif Require Export SpecSys.
From Verif Require Import Spec SpecMeta.
Local Open Scope Z_scope.

(** Directory entries may come in any order. *)
Definition any_order (ord : list comp -> list (bytes * bool) -> list (bytes * bool)) : Prop :=
  forall cs es, Permutation (ord cs es) es.
(** No path in the file system is longer than [n]. *)
Definition not_deeper (n : nat) (s : fs) : Prop := forall q, is_Some (s !! q) -> (length q < n)%nat.
