(** Reading a region into a caller's view, with what the view holds afterwards
    when the read fails part-way (Nd.v gives the outcome only). *)
From Verif Require Import Nd.
Local Open Scope Z_scope.

(** The loop of src/ndarray.rs:221-265.  A step that fails has not touched the
    view: the chunk is read (lines 223-231) before anything is assigned, and the
    assignment (line 263) checks the shapes before it copies.  What a failed read
    leaves in the chunk buffer is not modelled. *)
Fixpoint read_loop (C : codec) (h : host) (H : hier) (s : fs) (t : rty) (path : bytes)
    (m : array_meta) (bb : bbox) (coords : list (list Z)) (arr : nd) (buf : option chunk)
  : nd * res (option chunk) :=
  match coords with
  | [] => (arr, Ok buf)
  | c :: r =>
      match read_step C h H s t path m bb (arr, buf) c with
      | Ok (arr', buf') => read_loop C h H s t path m bb r arr' buf'
      | Err e => (arr, Err e)
      | Panic => (arr, Panic)
      end
  end.
(** src/ndarray.rs:195-268: the view afterwards, and the buffer or the failure. *)
Definition read_into_view (C : codec) (h : host) (H : hier) (s : fs) (t : rty) (path : bytes)
    (m : array_meta) (bb : bbox) (arr : nd) (buf : option chunk) : nd * res (option chunk) :=
  if negb (bool_decide (length (bb_off bb) = ndim m))
     || negb (bool_decide (ndim m = length (nd_shape arr)))
  then (arr, Err InvalidData)
  else if negb (bool_decide (bb_shape bb = nd_shape arr)) then (arr, Err InvalidData)
  else match bounded_coords (h_prof h) m bb with
       | Ok coords => read_loop C h H s t path m bb coords arr buf
       | Err e => (arr, Err e)
       | Panic => (arr, Panic)
       end.
