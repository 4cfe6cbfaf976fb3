(** Vocabulary for the order in which the attributes of a node are read and
    stored by concurrent calls. *)
From Verif Require Import Spec SpecMeta SpecConc SpecLin.
Local Open Scope Z_scope.

(** Call [c] updates, or reads, the attributes of the node at [path]. *)
Definition updates_attrs (c : call) (path : bytes) : Prop :=
  match c with KSetAttributes path' _ _ => pieces path' = pieces path | _ => False end.
Definition reads_attrs (c : call) (path : bytes) : Prop :=
  match c with
  | KSetAttributes path' _ _ | KListAttributes path' _ | KGetMetadata path' _ => pieces path' = pieces path
  | _ => False
  end.
(** The update that call [i] asks for. *)
Definition update_of (calls : list call) (i : nat) : jmap :=
  match calls !! i with Some (KSetAttributes _ u _) => u | _ => [] end.

(** Call [i] looks at the attributes; call [i] replaces them. *)
Inductive moment := Looks (i : nat) | Stores (i : nat).
Definition actor (x : moment) : nat := match x with Looks i | Stores i => i end.

(** Attributes as a partial function.  [replay]: the attributes after the
    moments [ms], and what each call has seen.  A call that stores replaces the
    attributes by those it has seen, overridden by its update. *)
Definition attr_fun := bytes -> option json.
Definition at_moment (calls : list call) (s : (nat -> attr_fun) * attr_fun) (x : moment) : (nat -> attr_fun) * attr_fun :=
  match x with
  | Looks i => (fun j => if decide (j = i) then snd s else fst s j, snd s)
  | Stores i => (fst s, fun k => match mget k (update_of calls i) with Some v => Some v | None => fst s i k end)
  end.
Definition replay (calls : list call) (ms : list moment) (old : attr_fun) : attr_fun :=
  snd (foldl (at_moment calls) (fun _ => old, old) ms).

(** [x] comes before [y]. *)
Definition earlier {A : Type} (l : list A) (x y : A) : Prop := exists l1 l2 l3, l = l1 ++ x :: l2 ++ y :: l3.

(** Of any two calls that update the attributes of the node, one had returned
    before the other began. *)
Definition updates_apart (C : codec) (h : host) (H : hier) (sl : bytes -> list bytes) (o : os)
    (calls : list call) (path : bytes) (sched : list nat) : Prop :=
  forall i j c d, calls !! i = Some c -> calls !! j = Some d -> updates_attrs c path -> updates_attrs d path -> i <> j ->
  finished_before C h H sl o calls sched i j \/ finished_before C h H sl o calls sched j i.
