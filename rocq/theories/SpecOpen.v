(** Vocabulary for hierarchies opened and created by several processes. *)
From Verif Require Export SysOpen SpecConc.
From Verif Require Import Spec SpecMeta.
Local Open Scope Z_scope.

(** A call that opens the hierarchy at [base], one that opens or creates it, or
    a call on its nodes; [rs]: how the file is cut into reads. *)
Inductive ocall :=
  | OOpen (rs : list nat)
  | OOpenOrCreate (rs : list nat)
  | ONode (c : call).
Inductive oreply :=
  | ZOpened (r : res hier)
  | ZNode (y : reply).
Definition p_ocall (V : bytes -> option bool) (C : codec) (h : host) (H : hier) (sl : bytes -> list bytes)
    (c : ocall) : proc oreply :=
  match c with
  | OOpen rs => pbind (p_open V (hy_base H) rs) (fun r => Ret (ZOpened r))
  | OOpenOrCreate rs => pbind (p_open_or_create V sl (hy_base H) rs) (fun r => Ret (ZOpened r))
  | ONode c => pbind (p_call C h H sl c) (fun y => Ret (ZNode y))
  end.
Definition ocall_ok (c : ocall) : Prop :=
  match c with ONode c => call_ok c | _ => True end.
Definition opens (c : ocall) : Prop :=
  match c with ONode _ => False | _ => True end.
Definition creates (c : ocall) : Prop :=
  match c with OOpenOrCreate _ => True | _ => False end.
Definition oexecutes (V : bytes -> option bool) (C : codec) (h : host) (H : hier) (sl : bytes -> list bytes)
    (o : os) (calls : list ocall) (o' : os) (ps : list (proc oreply)) : Prop :=
  csteps (o, map (p_ocall V C h H sl) calls) (o', ps).
