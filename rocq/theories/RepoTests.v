(** The repository's own tests, run on the model.

    These are examples on literals, not properties: they check that the model
    computes what the authors' tests say the code computes.  Each [Example]
    follows one test (or documentation example) of /repo, cited above it.
    Not run: what needs a symbolic link, a real compressor, random data (fixed
    data instead) or the raw element types [u8; N].  The larger ones are
    statements checked where they stand ([Check]) but not stored as lemmas:
    the independent checker coqchk, which has no virtual machine, would take
    an hour over them. *)
From Verif Require Import Hier Nd MetaJson BBox CoordIter Path.
Local Open Scope Z_scope.

(** ** Common parts *)

(** Little-endian machine, overflow checks on, as under `cargo test`. *)
Definition host0 : host := Host Debug Little.
(** semver: enough for the version string the code writes. *)
Definition semver0 (v : bytes) : option bool := Some (beq v (B "3.0")).
(** No compressor is used except in the zarrita tests. *)
Definition codec0 : codec :=
  Codec (fun _ _ => ([], Err Other)) (fun _ _ => Err Other).
Definition flit0 : rty -> bytes -> Z := fun _ _ => 0.

(** A temporary directory, and FilesystemHierarchy::open_or_create in it
    (temp_new_rw, src/store/filesystem.rs:335-345). *)
Definition tmp : bytes := B "/t/z1".
Definition fs_tmp : fs :=
  <[[B "t"] := Dir]> (<[[B "t"; B "z1"] := Dir]> ∅).
Definition made : fs * res hier := open_or_create semver0 tmp fs_tmp.
Definition fs0 : fs := fst made.
Definition h0 : hier := Hier tmp ep_default.
Example temp_new_rw : snd made = Ok h0 /\ open_hier semver0 tmp fs0 = Ok h0.
Proof. vm_compute. repeat split. Qed.

Definition i32_meta (shape chunk_shape : list Z) : array_meta :=
  ArrayMeta shape (Core (zarr_type host0 RI32)) (B "regular") chunk_shape (B "/")
            ColumnMajor None [] [] CRaw.
Example i32_meta_new :
  array_meta_new [10; 10; 10] [5; 5; 5] (Core (zarr_type host0 RI32)) CRaw
  = Ok (i32_meta [10; 10; 10] [5; 5; 5]).
Proof. vm_compute; reflexivity. Qed.
Definition m10 : array_meta := i32_meta [10; 10; 10] [5; 5; 5].
(** `(0..n).collect()` *)
Definition upto (n : nat) : list Z := map Z.of_nat (seq 0 n).
Definition is_err {A} (r : res A) : bool := match r with Err _ => true | _ => false end.

(** ** src/tests.rs *)

(** array_metadata_deserialization, src/tests.rs:14-94 *)
Definition doc_gzip : bytes := B "
        {
            ""shape"": [10000, 1000],
            ""data_type"": ""<f8"",
            ""chunk_grid"": {
                ""type"": ""regular"",
                ""chunk_shape"": [1000, 100],
                ""separator"" : ""/""
            },
            ""chunk_memory_layout"": ""C"",
            ""compressor"": {
                ""codec"": ""https://purl.org/zarr/spec/codec/gzip/1.0"",
                ""configuration"": {
                    ""level"": 1
                }
            },
            ""fill_value"": ""NaN"",
            ""extensions"": [],
            ""attributes"": {
                ""foo"": 42,
                ""bar"": ""apples"",
                ""baz"": [1, 2, 3, 4]
            }
        }
        ".
Definition doc_raw : bytes := B "
        {
            ""shape"": [10000, 1000],
            ""data_type"": ""<f8"",
            ""chunk_grid"": {
                ""type"": ""regular"",
                ""chunk_shape"": [1000, 100],
                ""separator"" : ""/""
            },
            ""chunk_memory_layout"": ""C"",
            ""fill_value"": ""NaN"",
            ""extensions"": [],
            ""attributes"": {
                ""foo"": 42,
                ""bar"": ""apples"",
                ""baz"": [1, 2, 3, 4]
            }
        }
        ".
Definition doc_expected (c : compression) : array_meta :=
  ArrayMeta [10000; 1000] (Core (DFloat FB8 Little)) (B "regular") [1000; 100] (B "/")
            RowMajor (Some (JStr (B "NaN"))) []
            [(B "bar", JStr (B "apples"));
             (B "baz", JArr [JInt 1; JInt 2; JInt 3; JInt 4]);
             (B "foo", JInt 42)] c.
Example array_metadata_deserialization :
  from_text dec_meta doc_gzip = Ok (doc_expected (CGzip 1))
  /\ from_text dec_meta doc_raw = Ok (doc_expected CRaw).
Proof. vm_compute. repeat split. Qed.

(** test_read_doc_spec_chunk, test_write_doc_spec_chunk, src/tests.rs:132-159
    with src/compression/raw.rs:30-61 *)
Definition spec_meta : array_meta :=
  ArrayMeta [5; 6; 7] (Core (DInt IB2 Big)) (B "regular") [1; 2; 3] (B "/")
            ColumnMajor None [] [] CRaw.
Definition spec_chunk : bytes := map byte_of_Z [0; 1; 0; 2; 0; 3; 0; 4; 0; 5; 0; 6].
Example doc_spec_chunk :
  decode_chunk codec0 host0 RI16 spec_meta spec_chunk [0; 0; 0]
  = Ok (Chunk [0; 0; 0] [1; 2; 3; 4; 5; 6])
  /\ encode_chunk codec0 host0 RI16 spec_meta (Chunk [0; 0; 0] [1; 2; 3; 4; 5; 6])
     = (spec_chunk, Ok tt).
Proof. vm_compute. repeat split. Qed.

(** test_chunk_compression_rw (raw), src/tests.rs:161-189 *)
Definition chunk_compression_rw : Prop :=
  let w := encode_chunk codec0 host0 RI32 m10 (Chunk [0; 0; 0] (upto 125)) in
  snd w = Ok tt
  /\ decode_chunk codec0 host0 RI32 m10 (fst w) [0; 0; 0] = Ok (Chunk [0; 0; 0] (upto 125)).
Check (ltac:(vm_compute; repeat split) : chunk_compression_rw).

(** test_varlength_chunk_rw (raw), src/tests.rs:191-219 *)
Example varlength_chunk_rw :
  let w := encode_chunk codec0 host0 RI32 m10 (Chunk [0; 0; 0] (upto 100)) in
  is_err (snd w) = true
  /\ is_err (decode_chunk codec0 host0 RI32 m10 (fst w) [0; 0; 0]) = true.
Proof. vm_compute. repeat split. Qed.

(** create_backend, src/tests.rs:221-236 *)
Example create_backend :
  let a := create_group h0 fs0 (B "") in
  let b := set_attribute h0 (fst a) (B "") (B "foo") (JStr (B "bar")) in
  snd a = Ok tt /\ snd b = Ok tt
  /\ open_hier semver0 tmp (fst b) = Ok h0
  /\ check_version semver0 (hy_ep h0) = Ok tt
  /\ (r ← list_attributes h0 (fst b) (B ""); of_option NotFound (mget (B "foo") r))
     = Ok (JStr (B "bar")).
Proof. vm_compute. repeat split. Qed.

(** create_array, src/tests.rs:238-254; absolute_relative_paths, 256-282 *)
Definition with_foo_bar : fs * res unit := create_array h0 fs0 (B "foo/bar") m10.
Definition s_bar : fs := fst with_foo_bar.
Example create_array_ok :
  snd with_foo_bar = Ok tt
  /\ open_hier semver0 tmp s_bar = Ok h0
  /\ get_array_metadata h0 s_bar (B "foo/bar") = Ok m10.
Proof. vm_compute. repeat split. Qed.
Example absolute_relative_paths :
  let s := s_bar in
  (map (node_exists h0 s) [B "/foo/bar"; B "/foo//foo/bar"; B "/foo//bar"],
   map (get_array_metadata h0 s) [B "/foo/bar"; B "/foo//bar"],
   map (array_exists h0 s) [B "/foo/bar"; B "/foo//bar"])
  = ([Ok true; Ok false; Ok true], [Ok m10; Ok m10], [Ok true; Ok true]).
Proof. vm_compute. repeat split. Qed.

(** attributes_rw, src/tests.rs:284-378 *)
Definition ints (l : list Z) : json := JArr (map JInt l).
Definition attrs_1 : jmap :=
  [(B "baz", ints [1; 2; 3]); (B "foo", JObj [(B "bar", JInt 42)])].
Definition attrs_3 : jmap := [(B "baz", JNull); (B "foo", JNull)].
Definition attributes_rw : Prop :=
  let g := B "foo/bar" in
  let s1 := create_group h0 fs0 g in
  let s2 := set_attributes h0 (fst s1) g attrs_1 in
  let s3 := set_attributes h0 (fst s2) g [(B "baz", ints [4; 5; 6])] in
  let s4 := set_attributes h0 (fst s3) g [(B "foo", JObj [(B "moo", JInt 7)])] in
  let s5 := set_attributes h0 (fst s4) g attrs_3 in
  let s6 := create_array h0 (fst s5) (B "baz") m10 in
  let s7 := set_attributes h0 (fst s6) (B "baz") attrs_1 in
  ([snd s1; snd s2; snd s3; snd s4; snd s5; snd s6; snd s7],
   is_err (list_attributes h0 (fst s1) (B "foo")),
   [list_attributes h0 (fst s1) g; list_attributes h0 (fst s2) g;
    list_attributes h0 (fst s3) g; list_attributes h0 (fst s4) g;
    list_attributes h0 (fst s5) g;
    list_attributes h0 (fst s6) (B "baz"); list_attributes h0 (fst s7) (B "baz")])
  = (replicate 7 (Ok tt), true,
     [Ok []; Ok attrs_1;
      Ok [(B "baz", ints [4; 5; 6]); (B "foo", JObj [(B "bar", JInt 42)])];
      Ok [(B "baz", ints [4; 5; 6]); (B "foo", JObj [(B "moo", JInt 7)])];
      Ok attrs_3; Ok []; Ok attrs_1]).
Check (ltac:(vm_compute; repeat split) : attributes_rw).

(** create_chunk_rw, src/tests.rs:380-417 *)
Definition wrote_bar : fs * res unit :=
  write_chunk codec0 host0 h0 s_bar RI32 (B "foo/bar") m10 (Chunk [0; 0; 0] (upto 125)).
Definition s_chunk : fs := fst wrote_bar.
Definition create_chunk_rw : Prop :=
  let w := wrote_bar in
  (snd w,
   map (read_chunk codec0 host0 h0 (fst w) RI32 (B "foo/bar") m10) [[0; 0; 0]; [0; 0; 1]],
   is_err (snd (write_chunk codec0 host0 h0 (fst w) RI32 (B "foo/bar") m10
                  (Chunk [0; 0; 0] (upto 10)))))
  = (Ok tt, [Ok (Some (Chunk [0; 0; 0] (upto 125))); Ok None], true).
Check (ltac:(vm_compute; repeat split) : create_chunk_rw).

(** delete_chunk, src/tests.rs:419-457 *)
Definition delete_chunk_ok : Prop :=
  let m := i32_meta [10; 100; 100] [5; 5; 5] in
  let p := B "foo/bar" in
  let s1 := create_array h0 fs0 p m in
  let s2 := write_chunk codec0 host0 h0 (fst s1) RI32 p m (Chunk [1; 2; 3] (upto 125)) in
  let s3 := delete_chunk h0 (fst s2) p m [1; 2; 3] in
  let s4 := delete_chunk h0 (fst s3) p m [1; 2; 3] in
  let s5 := delete_chunk h0 (fst s4) p m [1; 2; 4] in
  ([snd s1; snd s2], [snd s3; snd s4; snd s5],
   [read_chunk codec0 host0 h0 (fst s2) RI32 p m [1; 2; 3];
    read_chunk codec0 host0 h0 (fst s5) RI32 p m [1; 2; 3]])
  = (replicate 2 (Ok tt), replicate 3 (Ok true),
     [Ok (Some (Chunk [1; 2; 3] (upto 125))); Ok None]).
Check (ltac:(vm_compute; repeat split) : delete_chunk_ok).

(** ** src/store/filesystem.rs *)

(** reject_exterior_paths, 350-368 *)
Example reject_exterior_paths :
  map (fun k => is_err (get_path tmp k))
      [B "/"; B ""; B "/foo/bar"; B "foo/bar"; B "//"; B "/.."; B "..";
       B "foo/bar/baz/../../.."; B "foo/bar/baz/../../../.."]
  = [false; false; false; false; false; true; true; false; true]
  /\ get_path tmp (B "/") = get_path tmp (B "")
  /\ get_path tmp (B "/foo/bar") = get_path tmp (B "foo/bar")
  /\ get_path tmp (B "//") = get_path tmp (B "").
Proof. vm_compute. repeat split. Qed.

(** list_symlinked_arrays, 386-417, with a directory in the place of the link *)
Example list_symlinked_arrays :
  let s := fst (create_dir_all fs0 (comps (tmp ++ B "/meta/root/linked_array"))) in
  let s' := create_array h0 s (B "linked_array") m10 in
  list_nodes Debug h0 s (B "") = Ok [B "linked_array"]
  /\ snd s' = Ok tt
  /\ array_exists h0 (fst s') (B "linked_array") = Ok true.
Proof. vm_compute. repeat split. Qed.

(** test_get_chunk_uri, 419-441 *)
Example get_chunk_uri_ok :
  let s := create_array h0 fs0 (B "/foo/bar") m10 in
  snd s = Ok tt
  /\ get_chunk_uri h0 (B "/foo/bar") m10 [1; 2; 3]
     = Ok (B "file://" ++ tmp ++ B "/data/root/foo/bar/c1/2/3").
Proof. vm_compute. repeat split. Qed.

(** short_chunk_truncation, 443-495 *)
Example short_chunk_truncation :
  let m := i32_meta [10; 10; 10] [5; 2; 1] in
  let s := write_chunk codec0 host0 h0 s_chunk RI32 (B "foo/bar") m
             (Chunk [0; 0; 0] (upto 10)) in
  snd s = Ok tt
  /\ get_chunk_uri h0 (B "foo/bar") m [0; 0; 0]
     = Ok (B "file://" ++ tmp ++ B "/data/root/foo/bar/c0/0/0")
  /\ (b ← open_read (fst s) (comps (tmp ++ B "/data/root/foo/bar/c0/0/0"));
      Ok (lenZ b)) = Ok (10 * 4).
Proof. vm_compute. repeat split. Qed.

(** ** Documentation examples and the remaining unit tests *)

(** test_all_data_type_reflections, src/data_type.rs *)
Example data_type_reflections :
  Forall (fun t => dtype_size (zarr_type host0 t) = Z.of_nat (rty_size t))
         [RBool; RU8; RU16; RU32; RU64; RI8; RI16; RI32; RI64; RF16; RF32; RF64].
Proof. repeat constructor. Qed.

(** src/data_type.rs:105-115, 255-281 *)
Example data_type_doc :
  from_text dec_core (B """<f8""") = Ok (DFloat FB8 Little)
  /\ from_text dec_core (B """>u4""") = Ok (DUInt IB4 Big)
  /\ from_text dec_core (B """r24""") = Ok (DRaw 24)
  /\ from_text dec_dtype (B """<f8""") = Ok (Core (DFloat FB8 Little))
  /\ from_text dec_dtype (B "
    {
       ""extension"": ""https://purl.org/zarr/spec/protocol/extensions/datetime-dtypes/1.0"",
       ""type"": ""<M8[ns]"",
       ""fallback"": ""<i8""
    }")
     = Ok (Extended (B "https://purl.org/zarr/spec/protocol/extensions/datetime-dtypes/1.0")
             (B "<M8[ns]") (Some (DInt IB8 Little))).
Proof. vm_compute. repeat split. Qed.

(** src/lib.rs:125-155 *)
Example extension_doc :
  from_text dec_ext (B "
    {
       ""extension"": ""http://example.org/zarr/extension/foo"",
       ""must_understand"": false,
       ""configuration"": {
           ""foo"": ""bar""
       }
    }")
  = Ok (ExtMeta (B "http://example.org/zarr/extension/foo") false
          (Some [(B "foo", JStr (B "bar"))]))
  /\ from_text dec_ext (B "
    {
       ""extension"": ""http://example.org/zarr/extension/foo"",
       ""must_understand"": false
    }")
  = Ok (ExtMeta (B "http://example.org/zarr/extension/foo") false None).
Proof. vm_compute. repeat split. Qed.

(** src/lib.rs:492-502, 508-519; src/storage.rs:88-108 *)
Definition i8_meta (shape chunk_shape : list Z) : array_meta :=
  ArrayMeta shape (Core (zarr_type host0 RI8)) (B "regular") chunk_shape (B "/")
            ColumnMajor None [] [] CRaw.
Example grid_doc :
  let m := i8_meta [50; 40; 30] [11; 10; 10] in
  num_chunks Debug m = Ok 60
  /\ in_bounds Debug m [4; 3; 2] = Ok true
  /\ in_bounds Debug m [5; 3; 2] = Ok false
  /\ get_chunk_key (B "/foo/baz") m [0; 0; 0] = B "/data/root/foo/baz/c0/0/0"
  /\ get_chunk_key (B "/foo/baz") m [1; 2; 3] = B "/data/root/foo/baz/c1/2/3"
  /\ get_chunk_key (B "/foo/baz") (i8_meta [] []) [] = B "/data/root/foo/baz/c".
Proof. vm_compute. repeat split. Qed.

(** src/ndarray.rs:63-71, 87-95 *)
Example bounding_box_doc :
  intersect Debug (BBox [0; 0] [5; 8]) (BBox [3; 3] [5; 3]) = Ok (BBox [3; 3] [2; 3])
  /\ union_bb Debug (BBox [0; 0] [5; 8]) (BBox [3; 3] [5; 3]) = Ok (BBox [0; 0] [8; 8]).
Proof. vm_compute. repeat split. Qed.

(** test_array_metadata_coord_iter, src/ndarray.rs *)
Fixpoint drain (fuel : nat) (p : profile) (it : coord_iterator) : res (list (list Z)) :=
  match fuel with
  | O => Ok []
  | S f =>
      '(o, it') ← ci_next p it;
      match o with
      | None => Ok []
      | Some c => r ← drain f p it'; Ok (c :: r)
      end
  end.
Example coord_iter_ok :
  (it ← coord_iter Release (i8_meta [1; 4; 5] [1; 2; 3]); drain 10 Release it)
  = Ok [[0; 0; 0]; [0; 0; 1]; [0; 1; 0]; [0; 1; 1]].
Proof. vm_compute; reflexivity. Qed.

(** ** tests/integration_test.rs *)

(** test_read_write, 10-58: every type in one to five dimensions.  The data
    are fixed, in range for every type (0 and 1), and chunk sides are 1, 2, ..
    instead of 5, 10, .. *)
Definition rw (t : rty) (dim : nat) : bool :=
  let sides := map Z.of_nat (seq 1 dim) in
  let m := ArrayMeta (map (Z.mul 100) sides) (Core (zarr_type host0 t)) (B "regular")
             (rev sides) (B "/") ColumnMajor None [] [] CRaw in
  let pos := replicate dim 0 in
  let p := B "test/array/group" in
  let data := map (fun n => Z.of_nat n mod 2) (seq 0 (Z.to_nat (prodZ sides))) in
  let s1 := create_array h0 fs0 p m in
  let s2 := write_chunk codec0 host0 h0 (fst s1) t p m (Chunk pos data) in
  let s3 := Hier.remove h0 (fst s2) p in
  match snd s1, snd s2,
    read_chunk codec0 host0 h0 (fst s2) t p m pos,
    read_chunk_into codec0 host0 h0 (fst s2) t p m pos (Chunk pos []),
    snd s3, node_exists h0 (fst s3) p with
  | Ok _, Ok _, Ok (Some c), Ok (Some c'), Ok _, Ok false =>
      bool_decide (ck_data c = data) && bool_decide (ck_data c' = data)
  | _, _, _, _, _, _ => false
  end.
Definition read_write : Prop :=
  forallb (fun t => forallb (rw t) (seq 1 5))
    [RBool; RU8; RU16; RU32; RU64; RI8; RI16; RI32; RI64; RF16; RF32; RF64] = true.
Check (ltac:(vm_compute; repeat split) : read_write).

(** ** tests/ndarray.rs *)

(** test_read_ndarray, 13-100 *)
Definition m4 : array_meta := i32_meta [3; 300; 200; 100] [3; 4; 2; 1].
Definition grp : bytes := B "test/array/group".
Definition cell (i j k : Z) : chunk :=
  Chunk [0; i; j; k]
    (flat_map (fun yo => flat_map (fun xo =>
       [1000 + 4 * i + xo; 2000 + 2 * j + yo; 3000 + k]) [0; 1; 2; 3]) [0; 1]).
Definition cells : list chunk :=
  flat_map (fun k => flat_map (fun j => map (fun i => cell i j k) (upto 10)) (upto 10)) (upto 10).
Definition wrote_cells : fs * res unit :=
  foldl (fun r c => andthen r (fun s _ => write_chunk codec0 host0 h0 s RI32 grp m4 c))
        (create_array h0 fs0 grp m4) cells.
Definition read_ndarray_ok : Prop :=
  let w := wrote_cells in
  (snd w,
   a ← read_ndarray flit0 codec0 host0 h0 (fst w) RI32 grp m4
         (BBox [0; 5; 4; 3] [3; 35; 15; 7]);
   Ok (nd_shape a,
       forallb (fun i => match i with
         | [_; x; y; z] =>
             (nd_at a [0; x; y; z] =? 1005 + x) && (nd_at a [1; x; y; z] =? 2004 + y)
             && (nd_at a [2; x; y; z] =? 3003 + z)
         | _ => false end) (box_coords [(0, 1); (0, 35); (0, 15); (0, 7)])))
  = (Ok tt, Ok ([3; 35; 15; 7], true)).
Check (ltac:(vm_compute; repeat split) : read_ndarray_ok).

(** test_read_ndarray_oob, 102-132 *)
Definition read_ndarray_oob : Prop :=
  let m := i32_meta [100; 200] [50; 100] in
  let s1 := create_array h0 fs0 grp m in
  let s2 := write_chunk codec0 host0 h0 (fst s1) RI32 grp m
              (Chunk [1; 1] (1 :: replicate 4999 0)) in
  snd s1 = Ok tt /\ snd s2 = Ok tt
  /\ (a ← read_ndarray flit0 codec0 host0 h0 (fst s2) RI32 grp m (BBox [45; 175] [50; 50]);
      Ok (nd_shape a, nd_iter a)) = Ok ([50; 50], replicate 2500 0).
Check (ltac:(vm_compute; repeat split) : read_ndarray_oob).

(** test_write_read_ndarray, 134-176, shape [3, 14, 6, 3] instead of
    [3, 35, 15, 7] and fixed data *)
Definition scrambled (n : nat) : list Z :=
  map (fun i => (Z.of_nat i * 7919) mod 1013 - 500) (seq 0 n).
Definition src4 : nd := of_vec RowMajor [3; 14; 6; 3] (scrambled 756).
Definition write_read_ndarray : Prop :=
  let s1 := create_array h0 fs0 grp m4 in
  let s2 := write_ndarray flit0 codec0 host0 h0 (fst s1) RI32 grp m4 [0; 5; 4; 3] src4 in
  let bb := BBox [0; 5; 4; 3] [3; 14; 6; 3] in
  (snd s1, snd s2,
   a ← read_ndarray flit0 codec0 host0 h0 (fst s2) RI32 grp m4 bb; Ok (nd_iter a),
   a ← from_elem [3; 14; 6; 3] 0;
   a ← read_ndarray_into codec0 host0 h0 (fst s2) RI32 grp m4 bb a; Ok (nd_iter a))
  = (Ok tt, Ok tt, Ok (scrambled 756), Ok (scrambled 756)).
Check (ltac:(vm_compute; repeat split) : write_read_ndarray).

(** ** tests/zarrita_compat.rs

    tests/data/zarrita.zr3 of the repository, written by the Python
    implementation zarrita: the entry point, the array document, and for each
    chunk its file and what gunzip gives for it. *)
Definition zarrita_chunks : list (bytes * bytes * bytes) := [
  (B "c0/0/0", map byte_of_Z
    [31; 139; 8; 0; 148; 228; 225; 95; 2; 255; 5; 193; 1; 10; 64; 48; 0; 0; 192; 67; 49;
     133; 253; 96; 163; 216; 202; 236; 255; 223; 115; 199; 96; 52; 153; 45; 130; 213;
     102; 119; 136; 146; 236; 116; 185; 61; 138; 234; 213; 124; 186; 31; 251; 84; 49;
     52; 48; 0; 0; 0],
   map byte_of_Z
    [0; 0; 1; 0; 2; 0; 3; 0; 6; 0; 7; 0; 8; 0; 9; 0; 12; 0; 13; 0; 14; 0; 15; 0; 30; 0;
     31; 0; 32; 0; 33; 0; 36; 0; 37; 0; 38; 0; 39; 0; 42; 0; 43; 0; 44; 0; 45; 0]);
  (B "c0/0/1", map byte_of_Z
    [31; 139; 8; 0; 148; 228; 225; 95; 2; 255; 99; 97; 96; 101; 0; 1; 46; 6; 110; 48;
     45; 192; 32; 8; 166; 149; 24; 148; 193; 180; 6; 131; 38; 152; 214; 99; 208; 7; 211;
     0; 130; 178; 20; 128; 48; 0; 0; 0],
   map byte_of_Z
    [4; 0; 5; 0; 0; 0; 0; 0; 10; 0; 11; 0; 0; 0; 0; 0; 16; 0; 17; 0; 0; 0; 0; 0; 34; 0;
     35; 0; 0; 0; 0; 0; 40; 0; 41; 0; 0; 0; 0; 0; 46; 0; 47; 0; 0; 0; 0; 0]);
  (B "c0/1/0", map byte_of_Z
    [31; 139; 8; 0; 148; 228; 225; 95; 2; 255; 19; 98; 16; 102; 16; 97; 16; 101; 144;
     96; 144; 100; 144; 98; 144; 102; 128; 1; 3; 6; 67; 6; 35; 6; 99; 6; 51; 6; 115; 6;
     11; 6; 75; 152; 48; 3; 0; 225; 243; 12; 235; 48; 0; 0; 0],
   map byte_of_Z
    [18; 0; 19; 0; 20; 0; 21; 0; 24; 0; 25; 0; 26; 0; 27; 0; 0; 0; 0; 0; 0; 0; 0; 0; 48;
     0; 49; 0; 50; 0; 51; 0; 54; 0; 55; 0; 56; 0; 57; 0; 0; 0; 0; 0; 0; 0; 0; 0]);
  (B "c0/1/1", map byte_of_Z
    [31; 139; 8; 0; 148; 228; 225; 95; 2; 255; 19; 99; 16; 103; 0; 1; 25; 6; 89; 48; 13;
     35; 76; 24; 76; 193; 76; 43; 6; 107; 152; 16; 152; 6; 0; 211; 4; 97; 206; 48; 0; 0;
     0],
   map byte_of_Z
    [22; 0; 23; 0; 0; 0; 0; 0; 28; 0; 29; 0; 0; 0; 0; 0; 0; 0; 0; 0; 0; 0; 0; 0; 52; 0;
     53; 0; 0; 0; 0; 0; 58; 0; 59; 0; 0; 0; 0; 0; 0; 0; 0; 0; 0; 0; 0; 0]);
  (B "c1/0/0", map byte_of_Z
    [31; 139; 8; 0; 148; 228; 225; 95; 2; 255; 5; 193; 137; 9; 128; 32; 0; 0; 192; 27;
     172; 20; 74; 193; 106; 131; 50; 176; 130; 158; 253; 23; 232; 174; 211; 11; 162;
     193; 40; 201; 138; 201; 108; 177; 218; 84; 187; 230; 112; 186; 220; 30; 175; 207;
     15; 220; 119; 11; 22; 48; 0; 0; 0],
   map byte_of_Z
    [60; 0; 61; 0; 62; 0; 63; 0; 66; 0; 67; 0; 68; 0; 69; 0; 72; 0; 73; 0; 74; 0; 75; 0;
     90; 0; 91; 0; 92; 0; 93; 0; 96; 0; 97; 0; 98; 0; 99; 0; 102; 0; 103; 0; 104; 0;
     105; 0]);
  (B "c1/0/1", map byte_of_Z
    [31; 139; 8; 0; 148; 228; 225; 95; 2; 255; 115; 96; 112; 100; 0; 1; 55; 6; 119; 48;
     237; 195; 224; 11; 166; 227; 24; 226; 193; 116; 10; 67; 42; 152; 206; 98; 200; 6;
     211; 0; 217; 18; 60; 28; 48; 0; 0; 0],
   map byte_of_Z
    [64; 0; 65; 0; 0; 0; 0; 0; 70; 0; 71; 0; 0; 0; 0; 0; 76; 0; 77; 0; 0; 0; 0; 0; 94;
     0; 95; 0; 0; 0; 0; 0; 100; 0; 101; 0; 0; 0; 0; 0; 106; 0; 107; 0; 0; 0; 0; 0]);
  (B "c1/1/0", map byte_of_Z
    [31; 139; 8; 0; 148; 228; 225; 95; 2; 255; 243; 99; 240; 103; 8; 96; 8; 100; 8; 97;
     8; 101; 8; 99; 8; 103; 128; 129; 28; 134; 92; 134; 60; 134; 124; 134; 34; 134; 98;
     134; 18; 134; 82; 152; 48; 3; 0; 221; 149; 139; 153; 48; 0; 0; 0],
   map byte_of_Z
    [78; 0; 79; 0; 80; 0; 81; 0; 84; 0; 85; 0; 86; 0; 87; 0; 0; 0; 0; 0; 0; 0; 0; 0;
     108; 0; 109; 0; 110; 0; 111; 0; 114; 0; 115; 0; 116; 0; 117; 0; 0; 0; 0; 0; 0; 0;
     0; 0]);
  (B "c1/1/1", map byte_of_Z
    [31; 139; 8; 0; 148; 228; 225; 95; 2; 255; 11; 98; 8; 102; 0; 129; 8; 134; 72; 48;
     13; 35; 10; 24; 10; 193; 204; 50; 134; 114; 152; 16; 152; 6; 0; 174; 187; 164; 54;
     48; 0; 0; 0],
   map byte_of_Z
    [82; 0; 83; 0; 0; 0; 0; 0; 88; 0; 89; 0; 0; 0; 0; 0; 0; 0; 0; 0; 0; 0; 0; 0; 112; 0;
     113; 0; 0; 0; 0; 0; 118; 0; 119; 0; 0; 0; 0; 0; 0; 0; 0; 0; 0; 0; 0; 0])].

Definition zarrita_entry : bytes := B "{
    ""zarr_format"": ""https://purl.org/zarr/spec/protocol/core/3.0"",
    ""metadata_encoding"": ""https://purl.org/zarr/spec/protocol/core/3.0"",
    ""metadata_key_suffix"": "".json"",
    ""extensions"": []
}".

Definition zarrita_doc : bytes := B "{
    ""shape"": [
        4,
        5,
        6
    ],
    ""data_type"": ""<i2"",
    ""chunk_grid"": {
        ""type"": ""regular"",
        ""chunk_shape"": [
            2,
            3,
            4
        ],
        ""separator"": ""/""
    },
    ""chunk_memory_layout"": ""C"",
    ""fill_value"": null,
    ""extensions"": [],
    ""attributes"": {},
    ""compressor"": {
        ""codec"": ""https://purl.org/zarr/spec/codec/gzip/1.0"",
        ""configuration"": {
            ""level"": 1
        }
    }
}".

(** A gzip that knows these eight files (and stores anything else as it is). *)
Fixpoint gunzip (l : list (bytes * bytes * bytes)) (b : bytes) : bytes :=
  match l with
  | [] => b
  | (_, z, d) :: l' => if beq z b then d else gunzip l' b
  end.
Definition gzip0 : codec :=
  Codec (fun _ ws => (concat ws, Ok tt))
        (fun _ b => Ok (Stream (gunzip zarrita_chunks b) None)).

Definition zbase : bytes := B "tests/data/zarrita.zr3".
Definition put (s : fs) (f : bytes * bytes) : fs :=
  let cs := comps (zbase ++ B "/" ++ fst f) in
  let s1 := fst (create_dir_all s (parent_comps cs)) in
  fst (create_file s1 cs (snd f)).
Definition zfs : fs :=
  foldl put ∅
    ((B "zarr.json", zarrita_entry) :: (B "meta/root/seq/i2.array.json", zarrita_doc)
     :: map (fun '(k, z, _) => (B "data/root/seq/i2/" ++ k, z)) zarrita_chunks).
Definition zh : hier := Hier zbase ep_default.
Definition zmeta : array_meta :=
  ArrayMeta [4; 5; 6] (Core (DInt IB2 Little)) (B "regular") [2; 3; 4] (B "/")
            RowMajor None [] [] (CGzip 1).
Definition zpath : bytes := B "/seq/i2".

(** test_read_zarrita_i16, 30-46 *)
Definition read_zarrita_i16 : Prop :=
  let s := zfs in
  (open_hier semver0 zbase s, get_array_metadata zh s zpath,
   a ← read_ndarray flit0 gzip0 host0 zh s RI16 zpath zmeta (get_bounds zmeta);
   Ok (nd_shape a, nd_iter a))
  = (Ok zh, Ok zmeta, Ok ([4; 5; 6], upto 120)).
Check (ltac:(vm_compute; repeat split) : read_zarrita_i16).

(** test_write_zarrita_i16, 48-104: written into a new hierarchy, every chunk
    has the elements zarrita stored (with this code's fill value in the part
    of an edge chunk that lies outside the array). *)
Definition zcopy : fs * res unit :=
  andthen (create_array h0 fs0 zpath zmeta) (fun s _ =>
  write_ndarray flit0 gzip0 host0 h0 s RI16 zpath zmeta [0; 0; 0]
    (of_vec RowMajor [4; 5; 6] (upto 120))).
Definition write_zarrita_i16 : Prop :=
  let s := zfs in
  let w := zcopy in
  (snd w,
   a ← read_ndarray flit0 gzip0 host0 h0 (fst w) RI16 zpath zmeta (get_bounds zmeta);
   Ok (nd_iter a),
   l ← bounded_coords Debug zmeta (get_bounds zmeta);
   Ok (map (fun c =>
     match read_chunk gzip0 host0 zh s RI16 zpath zmeta c,
           read_chunk gzip0 host0 h0 (fst w) RI16 zpath zmeta c with
     | Ok (Some a), Ok (Some b) => bool_decide (ck_data a = ck_data b)
     | _, _ => false
     end) l))
  = (Ok tt, Ok (upto 120), Ok (replicate 8 true)).
Check (ltac:(vm_compute; repeat split) : write_zarrita_i16).
