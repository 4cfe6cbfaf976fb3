(** Vocabulary for atomicity (linearizability) of accesses to one chunk. *)
From Verif Require Import Spec SpecMeta SpecConc.
Local Open Scope Z_scope.

(** [c] reads the chunk at [pos] of the array at [path]; it does so with element
    type [t] and metadata [m]. *)
Definition reads_at (c : call) (path : bytes) (pos : list Z) : Prop :=
  match c with
  | KReadChunk _ path' _ pos' _ => pieces path' = pieces path /\ pos' = pos
  | _ => False
  end.
Definition reads_as (c : call) (t : rty) (path : bytes) (m : array_meta) (pos : list Z) : Prop :=
  exists path' rs, c = KReadChunk t path' m pos rs /\ pieces path' = pieces path.

(** In the schedule [sched], call [i] had returned before call [j] made its
    first system call. *)
Definition finished_before (C : codec) (h : host) (H : hier) (sl : bytes -> list bytes)
    (o : os) (calls : list call) (sched : list nat) (i j : nat) : Prop :=
  exists s1 s2 o1 ps1 a, sched = s1 ++ s2 /\ crun o (map (p_call C h H sl) calls) s1 = Some (o1, ps1)
    /\ returned ps1 i a /\ j ∉ s1.

(** [i] comes before [j] in [order]. *)
Definition comes_before (order : list nat) (i j : nat) : Prop :=
  exists l1 l2 l3, order = l1 ++ i :: l2 ++ j :: l3.

(** What the chunk holds after the calls [order], one after the other, if it
    holds [r] before: what the last write of them wrote. *)
Fixpoint one_by_one (calls : list call) (order : list nat) (r : res (option chunk)) : res (option chunk) :=
  match order with
  | [] => r
  | i :: rest => one_by_one calls rest
      match calls !! i with Some (KWriteChunk _ _ _ ck _) => Ok (Some ck) | _ => r end
  end.
