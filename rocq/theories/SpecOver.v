(** Specification: boxes that reach beyond 64 bits. *)
From Verif Require Export Base.
Local Open Scope Z_scope.

(** In some dimension the far corner of a box is not a u64. *)
Definition overflows (off shape : list Z) : Prop :=
  exists i o e, off !! i = Some o /\ shape !! i = Some e /\ two64 <= o + e.
(** In some dimension the part of a box inside the array, or the start of the
    box if that lies beyond, ends at most one chunk extent before [lim]. *)
Definition ends_late (lim : Z) (shape chunks off ext : list Z) : Prop :=
  exists i d s o e, shape !! i = Some d /\ chunks !! i = Some s /\ off !! i = Some o /\ ext !! i = Some e
    /\ lim <= Z.max o (Z.min d (o + e)) + s.
