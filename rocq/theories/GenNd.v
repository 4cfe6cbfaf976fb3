(** Reading and writing regions over an arbitrary store: the traits of
    src/ndarray.rs are implemented for every hierarchy (ndarray.rs:271, 388), not
    only for the file-system one.  Nd.v has the same operations over the
    file-system store; C73 shows that they are the instance of these. *)
From Verif Require Export GenHier Nd.

Section GenNd.
  Context {S : Type} (st : store S).

  (** Body of the loop, src/ndarray.rs:222-264; as [read_step], Nd.v *)
  Definition g_read_step (C : codec) (h : host) (x : S) (t : rty) (path : bytes) (m : array_meta)
      (bb : bbox) (ab : nd * option chunk) (coord : list Z) : res (nd * option chunk) :=
    let p := h_prof h in
    let '(arr, buf) := ab in
    o ← match buf with
        | None => g_read_chunk st C h x t path m coord
        | Some old => g_read_chunk_into st C h x t path m coord old
        end;
    match o with
    | None => Ok (arr, buf)
    | Some ck =>
        cb ← chunk_get_bounds p m ck;
        rb ← intersect p bb cb;
        if is_empty rb then Ok (arr, Some ck)
        else
          ab ← bb_sub rb (bb_off bb);
          kb ← bb_sub rb (bb_off cb);
          ck_arr ← as_ndarray p m ck;
          view ← nd_slice p ck_arr kb;
          arr' ← nd_assign p arr ab view;
          Ok (arr', Some ck)
    end.

  (** src/ndarray.rs:195-268 *)
  Definition g_read_ndarray_into_with_buffer (C : codec) (h : host) (x : S)
      (t : rty) (path : bytes) (m : array_meta) (bb : bbox) (arr : nd)
      (buf : option chunk) : res (nd * option chunk) :=
    if negb (bool_decide (length (bb_off bb) = ndim m))
       || negb (bool_decide (ndim m = length (nd_shape arr)))
    then Err InvalidData
    else if negb (bool_decide (bb_shape bb = nd_shape arr)) then Err InvalidData
    else coords ← bounded_coords (h_prof h) m bb;
         foldM_res (g_read_step C h x t path m bb) coords (arr, buf).

  (** src/ndarray.rs:178-190 *)
  Definition g_read_ndarray_into (C : codec) (h : host) (x : S) (t : rty)
      (path : bytes) (m : array_meta) (bb : bbox) (arr : nd) : res nd :=
    '(arr', _) ← g_read_ndarray_into_with_buffer C h x t path m bb arr None;
    Ok arr'.

  (** src/ndarray.rs:154-174; [flit] as in MetaJson.effective_fill *)
  Definition g_read_ndarray (flit : rty -> bytes -> Z) (C : codec) (h : host)
      (x : S) (t : rty) (path : bytes) (m : array_meta) (bb : bbox) : res nd :=
    fill ← effective_fill flit t m;
    arr ← from_elem (bb_shape bb) fill;
    g_read_ndarray_into C h x t path m bb arr.

  (** Body of the loop, src/ndarray.rs:318-381; as [write_step], Nd.v *)
  Definition g_write_step (C : codec) (h : host) (t : rty) (path : bytes)
      (m : array_meta) (arr : nd) (bb : bbox) (fill : Z) (x : S) (buf : list Z)
      (coord : list Z) : S * res (list Z) :=
    let p := h_prof h in
    gon x (chunk_bounds p m coord) (fun nom =>
    gon x (intersect p nom bb) (fun wb =>
    gon x (bb_sub wb (bb_off bb)) (fun ab =>
    gon x (nd_slice p arr ab) (fun view =>
    if bool_decide (wb = nom) then
      gthen (g_write_chunk st C h x t path m (Chunk coord (flatten (am_order m) view)))
        (fun x1 _ => (x1, Ok buf))
    else
      gon x (g_read_chunk_into st C h x t path m coord (Chunk coord buf)) (fun o =>
      gon x (match o with
            | Some ck =>
                cb ← chunk_get_bounds p m ck;
                a ← into_ndarray p m ck;
                Ok (cb, a, am_order m)
            | None =>
                n ← product64 p (bb_shape nom);
                a ← from_shape_vec RowMajor (bb_shape nom) (replicate (Z.to_nat n) fill);
                Ok (nom, a, RowMajor)
            end) (fun '(cb, chunk_array, mem) =>
      gon x (bb_sub wb (bb_off cb)) (fun cwb =>
      gon x (nd_assign p chunk_array cwb view) (fun chunk_array' =>
      gthen (g_write_chunk st C h x t path m
                 (Chunk coord (flatten (am_order m) chunk_array')))
        (fun x1 _ => (x1, Ok (flatten mem chunk_array'))))))))))).

  Fixpoint g_write_loop (C : codec) (h : host) (t : rty) (path : bytes)
      (m : array_meta) (arr : nd) (bb : bbox) (fill : Z) (coords : list (list Z))
      (x : S) (buf : list Z) : S * res unit :=
    match coords with
    | [] => (x, Ok tt)
    | c :: r =>
        gthen (g_write_step C h t path m arr bb fill x buf c) (fun x1 buf' =>
        g_write_loop C h t path m arr bb fill r x1 buf')
    end.

  (** src/ndarray.rs:276-385 *)
  Definition g_write_ndarray (flit : rty -> bytes -> Z) (C : codec) (h : host)
      (x : S) (t : rty) (path : bytes) (m : array_meta) (offset : list Z) (arr : nd)
    : S * res unit :=
    if negb (bool_decide (length (nd_shape arr) = ndim m)) then (x, Err InvalidData)
    else
      let bb := BBox offset (nd_shape arr) in
      gon x (effective_fill flit t m) (fun fill =>
      gon x (bounded_coords (h_prof h) m bb) (fun coords =>
      g_write_loop C h t path m arr bb fill coords x [])).
End GenNd.
