(** Bounding boxes: model of src/ndarray.rs:42-149 and 402-444. *)
From Verif Require Export Meta.

(** src/ndarray.rs:43-46 *)
Record bbox := BBox { bb_off : list Z; bb_shape : list Z }.
Global Instance bbox_eq_dec : EqDecision bbox.
Proof. solve_decision. Defined.

(** src/ndarray.rs:49-53 *)
Definition bbox_new (off shape : list Z) : res bbox :=
  _ ← assert_ (bool_decide (length off = length shape));
  Ok (BBox off shape).

(** src/ndarray.rs:55-57 *)
Definition shape_chunk (b : bbox) : list Z := map as_u32 (bb_shape b).

(** Closure of intersect, src/ndarray.rs:80-84: new (offset, shape). *)
Definition intersect_dim (p : profile) (s o os oo : Z) : res (Z * Z) :=
  let new_o := Z.max oo o in
  e1 ← add64 p s o;
  e2 ← add64 p oo os;
  Ok (new_o, sat_sub (Z.min e1 e2) new_o).

(** Closure of union, src/ndarray.rs:104-108. *)
Definition union_dim (p : profile) (s o os oo : Z) : res (Z * Z) :=
  let new_o := Z.min oo o in
  e1 ← add64 p s o;
  e2 ← add64 p oo os;
  d ← sub64 p (Z.max e1 e2) new_o;
  Ok (new_o, d).

(** The four-way zip of src/ndarray.rs:75-79, 99-103: stops at the shortest
    list, entries beyond it keep their value. *)
Fixpoint zip_dims (f : Z -> Z -> Z -> Z -> res (Z * Z))
    (shape off oshape ooff : list Z) : res (list Z * list Z) :=
  match shape, off, oshape, ooff with
  | s :: shape', o :: off', os :: oshape', oo :: ooff' =>
      '(o1, s1) ← f s o os oo;
      '(r_off, r_shape) ← zip_dims f shape' off' oshape' ooff';
      Ok (o1 :: r_off, s1 :: r_shape)
  | _, _, _, _ => Ok (off, shape)
  end.

(** src/ndarray.rs:72-85; &mut self becomes the returned box. *)
Definition intersect (p : profile) (a b : bbox) : res bbox :=
  _ ← assert_ (bool_decide (length (bb_off a) = length (bb_off b)));
  '(off, shape) ← zip_dims (intersect_dim p)
                    (bb_shape a) (bb_off a) (bb_shape b) (bb_off b);
  Ok (BBox off shape).

(** src/ndarray.rs:96-109 *)
Definition union_bb (p : profile) (a b : bbox) : res bbox :=
  _ ← assert_ (bool_decide (length (bb_off a) = length (bb_off b)));
  '(off, shape) ← zip_dims (union_dim p)
                    (bb_shape a) (bb_off a) (bb_shape b) (bb_off b);
  Ok (BBox off shape).

(** src/ndarray.rs:111-116, collected *)
Definition bb_end (p : profile) (b : bbox) : res (list Z) :=
  mapM_res (fun '(o, s) => add64 p o s) (zip (bb_off b) (bb_shape b)).

(** src/ndarray.rs:130-132 *)
Definition is_empty (b : bbox) : bool := existsb (Z.eqb 0) (bb_shape b).

(** src/ndarray.rs:135-149 *)
Definition bb_sub (b : bbox) (o : list Z) : res bbox :=
  off ← mapM_res (fun '(s, o) => if o <=? s then Ok (s - o) else Panic)
                 (zip (bb_off b) o);
  Ok (BBox off (bb_shape b)).

(** src/ndarray.rs:425-430 *)
Definition get_bounds (m : array_meta) : bbox :=
  BBox (replicate (length (am_shape m)) 0) (am_shape m).

(** src/ndarray.rs:432-443 *)
Definition chunk_bounds (p : profile) (m : array_meta) (coord : list Z) : res bbox :=
  off ← mapM_res (fun '(c, s) => mul64 p c s) (zip coord (am_chunk_shape m));
  Ok (BBox off (am_chunk_shape m)).
