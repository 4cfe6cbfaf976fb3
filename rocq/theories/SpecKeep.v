(** Vocabulary for the property that writes of regions which do not overlap in
    time are kept. *)
From Verif Require Import Spec SpecMeta SpecConc SpecShare.
Local Open Scope Z_scope.

(** In the schedule [sched], call [i] had returned before call [j] made its
    first system call. *)
Definition ended_before (flit : rty -> bytes -> Z) (C : codec) (h : host) (H : hier) (sl : bytes -> list bytes)
    (o : os) (calls : list rcall) (sched : list nat) (i j : nat) : Prop :=
  exists s1 s2 o1 ps1 a, sched = s1 ++ s2 /\ crun o (map (p_rcall flit C h H sl) calls) s1 = Some (o1, ps1)
    /\ returned ps1 i a /\ j ∉ s1.

(** Call [c] writes the chunk at [pos] of the array at [path]: as a chunk, or
    because the region it writes has a voxel of the array in that chunk. *)
Definition writes_into (path : bytes) (m : array_meta) (pos : list Z) (c : rcall) : Prop :=
  match c with
  | RCall (KWriteChunk _ path' _ ck _) => pieces path' = pieces path /\ ck_pos ck = pos
  | RWrite _ path' _ off arr _ => pieces path' = pieces path /\ meets_box m (BBox off (nd_shape arr)) pos
  | _ => False
  end.
(** Call [c] deletes that chunk, or removes the array or a node above it. *)
Definition takes_away (path : bytes) (pos : list Z) (c : rcall) : Prop :=
  match c with RCall c => deletes_chunk c path pos | _ => False end.
