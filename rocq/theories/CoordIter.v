(** Coordinate iterators: model of src/ndarray.rs:390-423 and 483-532, and of
    itertools 0.8 `multi_cartesian_product` over `Range<u64>`. *)
From Verif Require Export BBox.

(** itertools 0.8 MultiProductIter<Range<u64>>: current item, the range being
    consumed (its next start; the end never changes) and the original. *)
Record mpi := Mpi { mp_cur : option Z; mp_pos : Z; mp_lo : Z; mp_hi : Z }.
Definition mpi_new (r : Z * Z) : mpi := Mpi None (fst r) (fst r) (snd r).
Definition mpi_iterate (i : mpi) : mpi :=
  if mp_pos i <? mp_hi i
  then Mpi (Some (mp_pos i)) (mp_pos i + 1) (mp_lo i) (mp_hi i)
  else Mpi None (mp_pos i) (mp_lo i) (mp_hi i).
Definition mpi_reset (i : mpi) : mpi := Mpi (mp_cur i) (mp_lo i) (mp_lo i) (mp_hi i).
Definition mpi_in_progress (i : mpi) : bool :=
  match mp_cur i with Some _ => true | None => false end.

(** MultiProduct::iterate_last on the iterators in reverse order (the code
    splits off the last element of a slice); the state argument is [None] for
    StartOfIter and [Some b] for MidIter { on_first_iter: b }. *)
Fixpoint mp_iterate_last (l : list mpi) (st : option bool) : bool * list mpi :=
  match l with
  | [] => (match st with None => false | Some b => b end, [])
  | last :: rest =>
      let on_first := match st with
                      | None => negb (mpi_in_progress last)
                      | Some b => b end in
      let last1 := if on_first then last else mpi_iterate last in
      if mpi_in_progress last1 then (true, last1 :: rest)
      else
        let '(b, rest') := mp_iterate_last rest (Some on_first) in
        if b then
          let last2 := mpi_iterate (mpi_reset last1) in
          (mpi_in_progress last2, last2 :: rest')
        else (false, last1 :: rest')
  end.

(** MultiProduct::curr_iterator: `cur.clone().unwrap()` of every factor. *)
Fixpoint mp_current (l : list mpi) : res (list Z) :=
  match l with
  | [] => Ok []
  | i :: l' => match mp_cur i with
               | Some v => r ← mp_current l'; Ok (v :: r)
               | None => Panic
               end
  end.

(** MultiProduct::next; the argument and result are in reverse order. *)
Definition mp_next (l : list mpi) : res (option (list Z) * list mpi) :=
  let '(b, l') := mp_iterate_last l None in
  if b then c ← mp_current (rev l'); Ok (Some c, l')
  else Ok (None, l').

(** src/ndarray.rs:485-489 *)
Record coord_iterator := CoordIt {
  ci_iter : list mpi;
  ci_acc : Z;
  ci_total : Z
}.

(** src/ndarray.rs:492-498 *)
Definition ci_new (p : profile) (ceil : list Z) : res coord_iterator :=
  t ← product64 p ceil;
  Ok (CoordIt (rev (map (fun c => mpi_new (0, c)) ceil)) 0 t).
(** src/ndarray.rs:500-515 *)
Definition ci_floor_ceil (p : profile) (floor ceil : list Z) : res coord_iterator :=
  t ← product64 p (map (fun '(f, c) => sat_sub c f) (zip floor ceil));
  Ok (CoordIt (rev (map mpi_new (zip floor ceil))) 0 t).
(** src/ndarray.rs:521-524 *)
Definition ci_next (p : profile) (it : coord_iterator)
  : res (option (list Z) * coord_iterator) :=
  a ← add64 p (ci_acc it) 1;
  '(o, l) ← mp_next (ci_iter it);
  Ok (o, CoordIt l a (ci_total it)).
(** src/ndarray.rs:526-529 (and ExactSizeIterator::len). *)
Definition ci_size_hint (p : profile) (it : coord_iterator) : res Z :=
  sub64 p (ci_total it) (ci_acc it).

(** src/ndarray.rs:391-400 *)
Definition coord_iter (p : profile) (m : array_meta) : res coord_iterator :=
  ceil ← mapM_res (fun '(d, s) =>
           a ← add64 p d s; b ← sub64 p a 1; div64 b s)
         (zip (am_shape m) (am_chunk_shape m));
  ci_new p ceil.

(** src/ndarray.rs:406-420: the floor and ceiling coordinates. *)
Definition bounded_ranges (p : profile) (m : array_meta) (ub : bbox)
  : res (list Z * list Z) :=
  bb ← intersect p (get_bounds m) ub;
  floor ← mapM_res (fun '(o, cs) => div64 o cs)
            (zip (bb_off bb) (am_chunk_shape m));
  ceil ← mapM_res (fun '((o, s), cs) =>
            a ← add64 p o s; b ← add64 p a cs; c ← sub64 p b 1; div64 c cs)
          (zip (zip (bb_off bb) (bb_shape bb)) (am_chunk_shape m));
  Ok (floor, ceil).
(** src/ndarray.rs:402-423 *)
Definition bounded_coord_iter (p : profile) (m : array_meta) (ub : bbox)
  : res coord_iterator :=
  '(floor, ceil) ← bounded_ranges p m ub;
  ci_floor_ceil p floor ceil.

(** Integers f, f+1, .., c-1. *)
Definition zrange (f c : Z) : list Z :=
  map (fun i => f + Z.of_nat i) (seq 0 (Z.to_nat (c - f))).
(** Lexicographic product of ranges. *)
Fixpoint box_coords (ranges : list (Z * Z)) : list (list Z) :=
  match ranges with
  | [] => [[]]
  | (f, c) :: r => flat_map (fun x => map (cons x) (box_coords r)) (zrange f c)
  end.
(** What `for coord in ..` sees: the items until the first [None].  A product
    of no iterators yields nothing (itertools 0.8).  Proved equal to running
    [ci_next] in CoordIterFacts.ci_collect. *)
Definition product_items (ranges : list (Z * Z)) : list (list Z) :=
  match ranges with [] => [] | _ => box_coords ranges end.
Definition bounded_coords (p : profile) (m : array_meta) (ub : bbox)
  : res (list (list Z)) :=
  '(floor, ceil) ← bounded_ranges p m ub;
  _ ← product64 p (map (fun '(f, c) => sat_sub c f) (zip floor ceil));
  Ok (product_items (zip floor ceil)).
