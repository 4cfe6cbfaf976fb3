(** Region reads and writes as processes (src/ndarray.rs:151-388): the chunk
    reads and writes they consist of, one system call at a time.  The pure
    computations in between are those of Nd.v. *)
From Verif Require Export Sys Nd.
Local Open Scope Z_scope.

Section Regions.
  Context (H : hier) (C : codec) (h : host).
  (** [rsf] says in what pieces each chunk file is read, [sl] in what pieces the
      encoder hands a chunk's bytes to the BufWriter. *)
  Context (rsf : list Z -> list nat) (sl : bytes -> list bytes).

  (** storage.rs:237-267 *)
  Definition p_read_chunk_into (t : rty) (path : bytes) (m : array_meta) (pos : list Z)
      (old : chunk) : proc (res (option chunk)) :=
    pres (b ← in_bounds (h_prof h) m pos; assert_ b) (fun _ =>
    ptry (p_get (hy_base H) (get_chunk_key path m pos) (rsf pos)) (fun x =>
    Ret match x with
        | None => Ok None
        | Some content => c ← decode_chunk_into C h t m content pos old; Ok (Some c)
        end)).

  (** Body of the loop, src/ndarray.rs:222-264, after the chunk was read. *)
  Definition read_merge (m : array_meta) (bb : bbox) (st : nd * option chunk)
      (o : option chunk) : res (nd * option chunk) :=
    let p := h_prof h in
    let '(arr, buf) := st in
    match o with
    | None => Ok (arr, buf)
    | Some ck =>
        cb ← chunk_get_bounds p m ck;
        rb ← intersect p bb cb;
        if is_empty rb then Ok (arr, Some ck)
        else
          ab ← bb_sub rb (bb_off bb);
          kb ← bb_sub rb (bb_off cb);
          ck_arr ← as_ndarray p m ck;
          view ← nd_slice p ck_arr kb;
          arr' ← nd_assign p arr ab view;
          Ok (arr', Some ck)
    end.
  (** src/ndarray.rs:222-264 *)
  Definition p_read_step (t : rty) (path : bytes) (m : array_meta) (bb : bbox)
      (st : nd * option chunk) (coord : list Z) : proc (res (nd * option chunk)) :=
    ptry (match snd st with
          | None => p_read_chunk H C h t path m coord (rsf coord)
          | Some old => p_read_chunk_into t path m coord old
          end) (fun o => Ret (read_merge m bb st o)).
  Fixpoint p_read_loop (t : rty) (path : bytes) (m : array_meta) (bb : bbox)
      (coords : list (list Z)) (st : nd * option chunk) : proc (res (nd * option chunk)) :=
    match coords with
    | [] => Ret (Ok st)
    | c :: r => ptry (p_read_step t path m bb st c) (fun st' =>
                p_read_loop t path m bb r st')
    end.
  (** src/ndarray.rs:195-268 *)
  Definition p_read_ndarray_into_with_buffer (t : rty) (path : bytes) (m : array_meta)
      (bb : bbox) (arr : nd) (buf : option chunk) : proc (res (nd * option chunk)) :=
    if negb (bool_decide (length (bb_off bb) = ndim m))
       || negb (bool_decide (ndim m = length (nd_shape arr)))
    then Ret (Err InvalidData)
    else if negb (bool_decide (bb_shape bb = nd_shape arr)) then Ret (Err InvalidData)
    else pres (bounded_coords (h_prof h) m bb) (fun coords =>
         p_read_loop t path m bb coords (arr, buf)).
  (** src/ndarray.rs:178-190 *)
  Definition p_read_ndarray_into (t : rty) (path : bytes) (m : array_meta) (bb : bbox)
      (arr : nd) : proc (res nd) :=
    ptry (p_read_ndarray_into_with_buffer t path m bb arr None) (fun x => Ret (Ok (fst x))).
  (** src/ndarray.rs:154-174 *)
  Definition p_read_ndarray (flit : rty -> bytes -> Z) (t : rty) (path : bytes)
      (m : array_meta) (bb : bbox) : proc (res nd) :=
    pres (effective_fill flit t m) (fun fill =>
    pres (from_elem (bb_shape bb) fill) (fun arr =>
    p_read_ndarray_into t path m bb arr)).

  (** src/ndarray.rs:318-381 *)
  Definition p_put (t : rty) (path : bytes) (m : array_meta) (ck : chunk) : proc (res unit) :=
    p_write_chunk H C h t path m ck (sl (fst (encode_chunk C h t m ck))).
  Definition p_write_step (t : rty) (path : bytes) (m : array_meta) (arr : nd) (bb : bbox)
      (fill : Z) (buf : list Z) (coord : list Z) : proc (res (list Z)) :=
    let p := h_prof h in
    pres (chunk_bounds p m coord) (fun nom =>
    pres (intersect p nom bb) (fun wb =>
    pres (bb_sub wb (bb_off bb)) (fun ab =>
    pres (nd_slice p arr ab) (fun view =>
    if bool_decide (wb = nom) then
      ptry (p_put t path m (Chunk coord (flatten (am_order m) view))) (fun _ => Ret (Ok buf))
    else
      ptry (p_read_chunk_into t path m coord (Chunk coord buf)) (fun o =>
      pres (match o with
            | Some ck =>
                cb ← chunk_get_bounds p m ck;
                a ← into_ndarray p m ck;
                Ok (cb, a, am_order m)
            | None =>
                n ← product64 p (bb_shape nom);
                a ← from_shape_vec RowMajor (bb_shape nom) (replicate (Z.to_nat n) fill);
                Ok (nom, a, RowMajor)
            end) (fun '(cb, chunk_array, mem) =>
      pres (bb_sub wb (bb_off cb)) (fun cwb =>
      pres (nd_assign p chunk_array cwb view) (fun chunk_array' =>
      ptry (p_put t path m (Chunk coord (flatten (am_order m) chunk_array')))
        (fun _ => Ret (Ok (flatten mem chunk_array'))))))))))).
  Fixpoint p_write_loop (t : rty) (path : bytes) (m : array_meta) (arr : nd) (bb : bbox)
      (fill : Z) (coords : list (list Z)) (buf : list Z) : proc (res unit) :=
    match coords with
    | [] => Ret (Ok tt)
    | c :: r => ptry (p_write_step t path m arr bb fill buf c) (fun buf' =>
                p_write_loop t path m arr bb fill r buf')
    end.
  (** src/ndarray.rs:276-385 *)
  Definition p_write_ndarray (flit : rty -> bytes -> Z) (t : rty) (path : bytes)
      (m : array_meta) (offset : list Z) (arr : nd) : proc (res unit) :=
    if negb (bool_decide (length (nd_shape arr) = ndim m)) then Ret (Err InvalidData)
    else
      let bb := BBox offset (nd_shape arr) in
      pres (effective_fill flit t m) (fun fill =>
      pres (bounded_coords (h_prof h) m bb) (fun coords =>
      p_write_loop t path m arr bb fill coords [])).
End Regions.
