(** Specification vocabulary for FilesystemHierarchy::get_attributes. *)
From Verif Require Import Hier Spec.

(** [n'] is the file name [n] without its last extension: what is before the
    last dot, unless that is nothing. *)
Definition without_ext (n n' : bytes) : Prop :=
  (exists e, n = n' ++ dot :: e /\ dot ∉ e /\ n' <> [])
  \/ (n' = n /\ (dot ∉ n \/ exists e, n = dot :: e /\ dot ∉ e)).
(** Without its last two extensions, which leaves an ordinary name. *)
Definition without_two_exts (n n' : bytes) : Prop :=
  exists m, without_ext n m /\ without_ext m n' /\ m ∉ [[dot]; dotdot] /\ n' ∉ [[dot]; dotdot].
