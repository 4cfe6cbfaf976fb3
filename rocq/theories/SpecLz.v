(** Specification vocabulary for the pure-Rust LZ4 backend (C40). *)
From Verif Require Import Lz Spec.
Local Open Scope Z_scope.

(** A frame reader opened on a frame yields the content of that frame and then
    reports the end, whatever follows the frame. *)
Definition reads_one_frame (F : frame_lib) : Prop :=
  forall size b out rest, fl_compress F size b = (out, Ok tt) ->
  fl_open F (out ++ rest) = Ok (Stream b None).

(** The number of elements the chunk writer hands over at once. *)
Definition per_write (t : rty) : Z :=
  match t with RU8 => two64 | RF16 => 1 | _ => 256 end.
