(** Vocabulary for a full disk. *)
From Verif Require Export SpecSys.

(** The same machine with unlimited space. *)
Definition unlimited (o : os) : os :=
  OS (o_tree o) (o_data o) (o_fds o) (o_locks o) (o_next o) (o_short o) None.
