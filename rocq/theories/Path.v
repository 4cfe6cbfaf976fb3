(** Paths and keys: the std::path operations the code uses (Unix), and the
    key construction of src/lib.rs:68-78, 184-215 and src/storage.rs:109-127. *)
From Verif Require Export Meta.

(** ** Strings as '/'-separated pieces *)

Definition slash : byte := "/"%char.
Definition dot : byte := "."%char.

(** str.split('/') *)
Fixpoint split_slash (s : bytes) : list bytes :=
  match s with
  | [] => [[]]
  | b :: r =>
      if bool_decide (b = slash) then [] :: split_slash r
      else match split_slash r with
           | [] => [[b]]
           | p :: ps => (b :: p) :: ps
           end
  end.
Fixpoint join_slash (l : list bytes) : bytes :=
  match l with
  | [] => []
  | [p] => p
  | p :: l' => p ++ slash :: join_slash l'
  end.

(** Pieces that are not components: empty ones and "." (a leading "." is
    Component::CurDir, which every user of components here ignores). *)
Definition is_junk (p : bytes) : bool := beq p [] || beq p [dot].
Definition dotdot : bytes := [dot; dot].

(** std::path::Component without Prefix, RootDir, CurDir. *)
Inductive comp := Normal (n : bytes) | Up.
Global Instance comp_eq_dec : EqDecision comp.
Proof. solve_decision. Defined.
Definition comp_of (p : bytes) : comp := if beq p dotdot then Up else Normal p.

(** Path::components *)
Definition comps (s : bytes) : list comp :=
  map comp_of (filter (fun p => is_junk p = false) (split_slash s)).

(** Path::has_root *)
Definition has_root (s : bytes) : bool :=
  match s with b :: _ => bool_decide (b = slash) | [] => false end.

Fixpoint trim_front (l : list bytes) : list bytes :=
  match l with
  | p :: l' => if is_junk p then trim_front l' else l
  | [] => []
  end.
Definition trim_back (l : list bytes) : list bytes := rev (trim_front (rev l)).

(** Path::join / PathBuf::push *)
Definition path_join (base p : bytes) : bytes :=
  if has_root p then p
  else match list.last base with
       | Some b => if bool_decide (b = slash) then base ++ p else base ++ slash :: p
       | None => p
       end.

(** rsplit_file_at_dot (std::path): the part before the last '.' and the part
    after it. *)
Fixpoint rsplit_dot (s : bytes) : option (bytes * bytes) :=
  match s with
  | [] => None
  | b :: r =>
      match rsplit_dot r with
      | Some (u, v) => Some (b :: u, v)
      | None => if bool_decide (b = dot) then Some ([], r) else None
      end
  end.
(** file_stem and extension of a file name. *)
Definition split_ext (name : bytes) : bytes * option bytes :=
  match rsplit_dot name with
  | None | Some ([], _) => (name, None)
  | Some (stem, ext) => (stem, Some ext)
  end.

(** Path::file_name, with the pieces before it. *)
Definition split_name (s : bytes) : option (list bytes * bytes) :=
  match rev (trim_back (split_slash s)) with
  | n :: ps => if beq n dotdot then None else Some (rev ps, n)
  | [] => None
  end.
(** Path::extension *)
Definition extension (s : bytes) : option bytes :=
  match split_name s with Some (_, n) => snd (split_ext n) | None => None end.
(** PathBuf::set_extension: truncate right after the stem, then append. *)
Definition set_extension (s ext : bytes) : bytes :=
  match split_name s with
  | None => s
  | Some (ps, n) =>
      let stem := fst (split_ext n) in
      join_slash (ps ++ [stem ++ match ext with [] => [] | _ => dot :: ext end])
  end.

(** src/lib.rs:68-78 *)
Definition add_extension (s ext : bytes) : bytes :=
  match extension s with
  | Some e => set_extension s (e ++ dot :: ext)
  | None => set_extension s ext
  end.

(** ** Keys *)

(** src/lib.rs:80-84 *)
Definition ENTRY_POINT_KEY : bytes := B "zarr.json".
Definition DATA_ROOT_PATH : bytes := B "/data/root".
Definition META_ROOT_PATH : bytes := B "/meta/root".
Definition ARRAY_METADATA_KEY_EXT : bytes := B "array".
Definition GROUP_METADATA_KEY_EXT : bytes := B "group".

Fixpoint trim_start_slash (s : bytes) : bytes :=
  match s with
  | b :: r => if bool_decide (b = slash) then trim_start_slash r else s
  | [] => []
  end.
Definition trim_end_slash (s : bytes) : bytes := rev (trim_start_slash (rev s)).
(** src/lib.rs:187-189 *)
Definition canonicalize_path (s : bytes) : bytes := trim_end_slash (trim_start_slash s).

(** str::strip_prefix('.').unwrap_or, src/lib.rs:197, 206 *)
Definition strip_dot (s : bytes) : bytes :=
  match s with b :: r => if bool_decide (b = dot) then r else s | [] => [] end.

(** src/lib.rs:194-201 and 203-210; [suffix] is the entry point's
    metadata_key_suffix. *)
Definition metadata_key (ext suffix path : bytes) : bytes :=
  let key := path_join META_ROOT_PATH (canonicalize_path path) in
  add_extension (add_extension key ext) (strip_dot suffix).
Definition array_metadata_key := metadata_key ARRAY_METADATA_KEY_EXT.
Definition group_metadata_key := metadata_key GROUP_METADATA_KEY_EXT.
(** src/lib.rs:212-214 *)
Definition data_path_key (path : bytes) : bytes :=
  path_join DATA_ROOT_PATH (canonicalize_path path).

(** src/storage.rs:119-124: the coordinates with the separator between. *)
Fixpoint coords_str (sep : bytes) (pos : list Z) : bytes :=
  match pos with
  | [] => []
  | [z] => show_nat z
  | z :: pos' => show_nat z ++ sep ++ coords_str sep pos'
  end.
(** src/storage.rs:109-127 *)
Definition get_chunk_key (path : bytes) (m : array_meta) (pos : list Z) : bytes :=
  let canon := canonicalize_path path in
  (match canon with
   | [] => DATA_ROOT_PATH ++ B "/c"
   | _ => DATA_ROOT_PATH ++ slash :: canon ++ B "/c"
   end) ++ coords_str (am_sep m) pos.

(** ** src/store/filesystem.rs:142-190: FilesystemHierarchy::get_path *)

(** Components::as_path of the key after its root (if any) was consumed: a
    rooted key loses leading and trailing junk pieces, a relative one only
    trailing ones (a leading "." stays). *)
Definition unrooted (key : bytes) : bytes :=
  let ps := split_slash key in
  if has_root key then join_slash (trim_back (trim_front ps))
  else match ps with
       | p :: ps' => if beq p [dot] then join_slash (p :: trim_back ps')
                     else join_slash (trim_back ps)
       | [] => []
       end.
(** The final value of the counter `nest` (an i32 in the code; a key would
    need 2^31 components to overflow it). *)
Definition nest (cs : list comp) : Z :=
  foldl (fun acc c => match c with Up => acc - 1 | Normal _ => acc + 1 end) 0 cs.
Definition get_path (base key : bytes) : res bytes :=
  if nest (comps (unrooted key)) <? 0 then Err NotFound
  else Ok (path_join base (unrooted key)).
