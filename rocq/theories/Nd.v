(** N-dimensional arrays and region access: model of src/ndarray.rs:118-128,
    151-388 and 446-481, and of the parts of the ndarray 0.13 crate used there. *)
From Verif Require Export Hier CoordIter.
Local Open Scope Z_scope.

(** ** ndarray *)

(** An array or array view: its shape and the element at each index.  Memory
    order is not part of the model; it only shows where the code converts from
    or to a vector ([of_vec], [flatten]). *)
Record nd := Nd { nd_shape : list Z; nd_at : list Z -> Z }.

(** Strides of the two standard layouts (ndarray Dimension::default_strides,
    fortran_strides), in elements. *)
Fixpoint c_strides (shape : list Z) : list Z :=
  match shape with
  | [] => []
  | _ :: r => prodZ r :: c_strides r
  end.
Fixpoint f_strides (stride : Z) (shape : list Z) : list Z :=
  match shape with
  | [] => []
  | s :: r => stride :: f_strides (stride * s) r
  end.
Definition strides (o : order) (shape : list Z) : list Z :=
  match o with RowMajor => c_strides shape | ColumnMajor => f_strides 1 shape end.
(** Dimension::stride_offset *)
Fixpoint dot_product (i st : list Z) : Z :=
  match i, st with
  | x :: i', k :: st' => x * k + dot_product i' st'
  | _, _ => 0
  end.
Definition of_vec (o : order) (shape : list Z) (data : list Z) : nd :=
  Nd shape (fun i => nth (Z.to_nat (dot_product i (strides o shape))) data 0).

(** Array::from_shape_vec (as many elements as the shape has) followed by
    `expect`. *)
Definition from_shape_vec (o : order) (shape data : list Z) : res nd :=
  _ ← assert_ (prodZ shape =? lenZ data); Ok (of_vec o shape data).
(** ArrayView::from_shape (at least as many) followed by `expect`. *)
Definition from_shape (o : order) (shape data : list Z) : res nd :=
  _ ← assert_ (prodZ shape <=? lenZ data); Ok (of_vec o shape data).
(** Array::from_elem: panics if the product of the non-zero axis lengths
    exceeds isize::MAX.  (Running out of memory: not modelled.) *)
Definition from_elem (shape : list Z) (v : Z) : res nd :=
  _ ← assert_ (prodZ (filter (fun s => s <> 0) shape) <? 2 ^ 63);
  Ok (Nd shape (fun _ => v)).
(** Logical-order iteration (row-major whatever the memory layout). *)
Definition nd_iter (a : nd) : list Z := map (nd_at a) (box_coords (map (pair 0) (nd_shape a))).
(** ArrayView::t *)
Definition nd_t (a : nd) : nd := Nd (rev (nd_shape a)) (fun i => nd_at a (rev i)).

(** `as isize` of a u64. *)
Definition as_isize (z : Z) : Z := if z <? 2 ^ 63 then z else z - 2 ^ 64.
(** ndarray dimension::abs_index, do_slice with step 1: start and length of
    the sliced axis.  An index that underflows panics or, in a release build,
    wraps and then fails the assertion. *)
Definition abs_index (len i : Z) : res Z :=
  if i <? 0 then (if 0 <=? len + i then Ok (len + i) else Panic) else Ok i.
Definition slice_dim (d : Z * (Z * Z)) : res (Z * Z) :=
  let '(len, (start, stop)) := d in
  a ← abs_index len (as_isize start);
  b ← abs_index len (as_isize stop);
  let b := Z.max a b in
  _ ← assert_ ((a <=? len) && (b <=? len));
  Ok (a, b - a).

(** src/ndarray.rs:118-128 *)
Definition to_slice (p : profile) (b : bbox) : res (list (Z * Z)) :=
  e ← bb_end p b; Ok (zip (bb_off b) e).

(** The axes selected by `slice`/`slice_mut` (which assert that there is one
    slice per axis). *)
Definition slice_axes (p : profile) (shape : list Z) (b : bbox) : res (list (Z * Z)) :=
  sl ← to_slice p b;
  _ ← assert_ (bool_decide (length sl = length shape));
  mapM_res slice_dim (zip shape sl).
(** ArrayBase::slice *)
Definition nd_slice (p : profile) (a : nd) (b : bbox) : res nd :=
  ax ← slice_axes p (nd_shape a) b;
  Ok (Nd (map snd ax) (fun i => nd_at a (zip_with Z.add (map fst ax) i))).
(** slice_mut followed by assign.  Simplification: `assign` would broadcast a
    right-hand side of another shape; here that is a panic (the code always
    assigns views of the same box). *)
Definition on_axes (ax : list (Z * Z)) (i : list Z) : bool :=
  forallb (fun '((start, len), x) => (start <=? x) && (x <? start + len)) (zip ax i).
Definition nd_assign (p : profile) (a : nd) (b : bbox) (src : nd) : res nd :=
  ax ← slice_axes p (nd_shape a) b;
  _ ← assert_ (bool_decide (map snd ax = nd_shape src));
  Ok (Nd (nd_shape a)
         (fun i => if on_axes ax i then nd_at src (zip_with Z.sub i (map fst ax))
                   else nd_at a i)).

(** ** Chunks as arrays *)

(** src/ndarray.rs:449-451 *)
Definition chunk_get_bounds (p : profile) (m : array_meta) (ck : chunk) : res bbox :=
  chunk_bounds p m (ck_pos ck).
(** src/ndarray.rs:453-470 *)
Definition as_ndarray (p : profile) (m : array_meta) (ck : chunk) : res nd :=
  b ← chunk_get_bounds p m ck;
  from_shape (am_order m) (bb_shape b) (ck_data ck).
(** src/ndarray.rs:473-481 *)
Definition into_ndarray (p : profile) (m : array_meta) (ck : chunk) : res nd :=
  b ← chunk_get_bounds p m ck;
  from_shape_vec (am_order m) (bb_shape b) (ck_data ck).
(** src/ndarray.rs:305-315 (the two row-major arms give the same elements) *)
Definition flatten (o : order) (a : nd) : list Z :=
  match o with RowMajor => nd_iter a | ColumnMajor => nd_iter (nd_t a) end.

(** ** Reading a region *)

Fixpoint foldM_res {A B : Type} (f : A -> B -> res A) (l : list B) (a : A) : res A :=
  match l with
  | [] => Ok a
  | x :: l' => a' ← f a x; foldM_res f l' a'
  end.

(** Body of the loop, src/ndarray.rs:222-264: the view and the chunk buffer.
    (What a failed read leaves in the view: NdView.v.) *)
Definition read_step (C : codec) (h : host) (H : hier) (s : fs) (t : rty)
    (path : bytes) (m : array_meta) (bb : bbox) (st : nd * option chunk)
    (coord : list Z) : res (nd * option chunk) :=
  let p := h_prof h in
  let '(arr, buf) := st in
  o ← match buf with
      | None => read_chunk C h H s t path m coord
      | Some old => read_chunk_into C h H s t path m coord old
      end;
  match o with
  | None => Ok (arr, buf)
  | Some ck =>
      cb ← chunk_get_bounds p m ck;
      rb ← intersect p bb cb;
      if is_empty rb then Ok (arr, Some ck)
      else
        ab ← bb_sub rb (bb_off bb);
        kb ← bb_sub rb (bb_off cb);
        ck_arr ← as_ndarray p m ck;
        view ← nd_slice p ck_arr kb;
        arr' ← nd_assign p arr ab view;
        Ok (arr', Some ck)
  end.

(** src/ndarray.rs:195-268 *)
Definition read_ndarray_into_with_buffer (C : codec) (h : host) (H : hier) (s : fs)
    (t : rty) (path : bytes) (m : array_meta) (bb : bbox) (arr : nd)
    (buf : option chunk) : res (nd * option chunk) :=
  if negb (bool_decide (length (bb_off bb) = ndim m))
     || negb (bool_decide (ndim m = length (nd_shape arr)))
  then Err InvalidData
  else if negb (bool_decide (bb_shape bb = nd_shape arr)) then Err InvalidData
  else coords ← bounded_coords (h_prof h) m bb;
       foldM_res (read_step C h H s t path m bb) coords (arr, buf).

(** src/ndarray.rs:178-190 *)
Definition read_ndarray_into (C : codec) (h : host) (H : hier) (s : fs) (t : rty)
    (path : bytes) (m : array_meta) (bb : bbox) (arr : nd) : res nd :=
  '(arr', _) ← read_ndarray_into_with_buffer C h H s t path m bb arr None;
  Ok arr'.

(** src/ndarray.rs:154-174; [flit] as in MetaJson.effective_fill *)
Definition read_ndarray (flit : rty -> bytes -> Z) (C : codec) (h : host) (H : hier)
    (s : fs) (t : rty) (path : bytes) (m : array_meta) (bb : bbox) : res nd :=
  fill ← effective_fill flit t m;
  arr ← from_elem (bb_shape bb) fill;
  read_ndarray_into C h H s t path m bb arr.

(** ** Writing a region *)

(** Body of the loop, src/ndarray.rs:318-381.  [buf] is `existing_chunk_vec`,
    returned for the next iteration (`into_raw_vec`: the chunk array in its
    memory order); `chunk_vec` is cleared before every use. *)
Definition write_step (C : codec) (h : host) (H : hier) (t : rty) (path : bytes)
    (m : array_meta) (arr : nd) (bb : bbox) (fill : Z) (s : fs) (buf : list Z)
    (coord : list Z) : fs * res (list Z) :=
  let p := h_prof h in
  on s (chunk_bounds p m coord) (fun nom =>
  on s (intersect p nom bb) (fun wb =>
  on s (bb_sub wb (bb_off bb)) (fun ab =>
  on s (nd_slice p arr ab) (fun view =>
  if bool_decide (wb = nom) then
    andthen (write_chunk C h H s t path m (Chunk coord (flatten (am_order m) view)))
      (fun s1 _ => (s1, Ok buf))
  else
    on s (read_chunk_into C h H s t path m coord (Chunk coord buf)) (fun o =>
    on s (match o with
          | Some ck =>
              cb ← chunk_get_bounds p m ck;
              a ← into_ndarray p m ck;
              Ok (cb, a, am_order m)
          | None =>
              n ← product64 p (bb_shape nom);
              a ← from_shape_vec RowMajor (bb_shape nom) (replicate (Z.to_nat n) fill);
              Ok (nom, a, RowMajor)
          end) (fun '(cb, chunk_array, mem) =>
    on s (bb_sub wb (bb_off cb)) (fun cwb =>
    on s (nd_assign p chunk_array cwb view) (fun chunk_array' =>
    andthen (write_chunk C h H s t path m
               (Chunk coord (flatten (am_order m) chunk_array')))
      (fun s1 _ => (s1, Ok (flatten mem chunk_array'))))))))))).

Fixpoint write_loop (C : codec) (h : host) (H : hier) (t : rty) (path : bytes)
    (m : array_meta) (arr : nd) (bb : bbox) (fill : Z) (coords : list (list Z))
    (s : fs) (buf : list Z) : fs * res unit :=
  match coords with
  | [] => (s, Ok tt)
  | c :: r =>
      andthen (write_step C h H t path m arr bb fill s buf c) (fun s1 buf' =>
      write_loop C h H t path m arr bb fill r s1 buf')
  end.

(** src/ndarray.rs:276-385 *)
Definition write_ndarray (flit : rty -> bytes -> Z) (C : codec) (h : host) (H : hier)
    (s : fs) (t : rty) (path : bytes) (m : array_meta) (offset : list Z) (arr : nd)
  : fs * res unit :=
  if negb (bool_decide (length (nd_shape arr) = ndim m)) then (s, Err InvalidData)
  else
    let bb := BBox offset (nd_shape arr) in
    on s (effective_fill flit t m) (fun fill =>
    on s (bounded_coords (h_prof h) m bb) (fun coords =>
    write_loop C h H t path m arr bb fill coords s [])).
