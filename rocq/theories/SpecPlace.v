(** Specification vocabulary: where the format puts chunks (the files of
    documents are in SpecDoc.v). *)
From Verif Require Import Hier Spec.
Local Open Scope Z_scope.

(** [w] is [z] in decimal notation: digits, without needless zeros in front. *)
Definition decimal (z : Z) (w : bytes) : Prop :=
  w <> [] /\ Forall (fun c => 48 <= Z_of_byte c <= 57) w /\ (head w = Some "0"%char -> w = ["0"%char])
  /\ foldl (fun v c => 10 * v + (Z_of_byte c - 48)) 0 w = z.
(** [w] is the grid position with separator [sep] between the numbers. *)
Inductive position_text (sep : bytes) : list Z -> bytes -> Prop :=
  | no_position : position_text sep [] []
  | last_position z w : decimal z w -> position_text sep [z] w
  | next_position z w y pos w' : decimal z w -> position_text sep (y :: pos) w' ->
      position_text sep (z :: y :: pos) (w ++ sep ++ w').

(** data/root/<path>/c<position> under the base directory. *)
Definition chunk_file (H : hier) (path position : bytes) : fpath :=
  pieces (hy_base H) ++ [B "data"; B "root"] ++ pieces path ++ pieces (B "c" ++ position).
