(** Vocabulary for listings while other calls run (C62). *)
From Verif Require Import Hier Spec SpecMeta SpecHier SpecList SpecConc.
Local Open Scope Z_scope.

(** Call [c] creates a node somewhere below the child [x] of [path]. *)
Definition creates_below (c : call) (path x : bytes) : Prop :=
  match c with
  | KCreateArray path' _ | KCreateGroup path' => exists n k, pieces path' = pieces path ++ x :: n :: k
  | _ => False
  end.
(** Call [c] creates the child [n] of [path]. *)
Definition creates_child (c : call) (path n : bytes) : Prop :=
  match c with
  | KCreateArray path' _ | KCreateGroup path' => pieces path' = pieces path ++ [n]
  | _ => False
  end.
(** The names used by the call are of a length that does not matter (as
    [real_names]). *)
Definition short_names (H : hier) (c : call) : Prop :=
  match c with
  | KCreateArray path _ | KCreateGroup path =>
      forall n, n ∈ pieces path -> lenZ n + lenZ (ep_suffix (hy_ep H)) + 6 < two32
  | _ => True
  end.
(** The child [n] of [path] is an explicit array or group in state [s] and no
    call removes it. *)
Definition lasting_child (H : hier) (s : fs) (calls : list call) (path n : bytes) : Prop :=
  explicit_child H s path n /\
  forall c path', c ∈ calls -> pieces path' = pieces path ++ [n] -> ~ removes_node c path'.
