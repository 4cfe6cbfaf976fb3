(** The file system and src/store/filesystem.rs. *)
From Verif Require Export Path.

(** ** File system

    A finite map from absolute paths (lists of names from the root) to
    directories and files; the root itself is always a directory.  Everything
    the process can reach is in the map, also what lies outside a hierarchy's
    base directory.  Not modelled: symbolic and hard links, permissions, name
    length limits, NUL bytes in names, other processes (see Conc.v), I/O
    faults (see Crash.v).  A relative path is resolved from the root. *)
Notation fpath := (list bytes).
Inductive node := Dir | File (content : bytes).
Notation fs := (gmap fpath node).

Definition node_at (s : fs) (p : fpath) : option node :=
  match p with [] => Some Dir | _ => s !! p end.
Definition is_dir_at (s : fs) (p : fpath) : bool :=
  match node_at s p with Some Dir => true | _ => false end.
Definition file_at (s : fs) (p : fpath) : option bytes :=
  match node_at s p with Some (File c) => Some c | _ => None end.

Definition parent (p : fpath) : fpath := take (length p - 1) p.
Definition step (cur : fpath) (c : comp) : fpath :=
  match c with Normal n => cur ++ [n] | Up => parent cur end.
(** Kernel path resolution: every component is looked up in an existing
    directory; the last one need not exist. ENOENT is NotFound, ENOTDIR is
    Other. *)
Fixpoint walk (s : fs) (cur : fpath) (cs : list comp) : res fpath :=
  match cs with
  | [] => Ok cur
  | c :: r => match node_at s cur with
              | Some Dir => walk s (step cur c) r
              | Some (File _) => Err Other
              | None => Err NotFound
              end
  end.

(** stat(2) on a path string.  A trailing slash (only possible for the empty
    key, filesystem.rs:188) is ignored. *)
Definition stat (s : fs) (cs : list comp) : option (fpath * node) :=
  match walk s [] cs with
  | Ok p => match node_at s p with Some n => Some (p, n) | None => None end
  | _ => None
  end.
Definition path_exists (s : fs) (cs : list comp) : bool :=
  match stat s cs with Some _ => true | None => false end.
Definition path_is_file (s : fs) (cs : list comp) : bool :=
  match stat s cs with Some (_, File _) => true | _ => false end.
Definition path_is_dir (s : fs) (cs : list comp) : bool :=
  match stat s cs with Some (_, Dir) => true | _ => false end.

(** File::open for reading (opening a directory for reading succeeds on Unix;
    the content is then unreadable, so such handles are never used here
    except for locking). *)
Definition open_read (s : fs) (cs : list comp) : res bytes :=
  p ← walk s [] cs;
  match node_at s p with
  | Some (File c) => Ok c
  | Some Dir => Err Other
  | None => Err NotFound
  end.

(** mkdir(2) *)
Definition mkdir (s : fs) (cs : list comp) : fs * res unit :=
  match walk s [] cs with
  | Ok p => match node_at s p with
            | None => if is_dir_at s (parent p) then (<[p := Dir]> s, Ok tt)
                      else (s, Err Other)
            | Some _ => (s, Err AlreadyExists)
            end
  | Err e => (s, Err e)
  | Panic => (s, Panic)
  end.

(** Path::parent, on components. *)
Definition parent_comps (cs : list comp) : list comp := take (length cs - 1) cs.

(** std::fs::create_dir_all, recursion on the path's text (here: [n] is the
    number of leading components of [cs] to create; [n = 0] is the empty
    path or "/"). *)
Fixpoint mkdir_all (s : fs) (cs : list comp) (n : nat) : fs * res unit :=
  match n with
  | O => (s, Ok tt)
  | S n' =>
      let here := take n cs in
      match mkdir s here with
      | (s1, Ok _) => (s1, Ok tt)
      | (_, Err NotFound) =>
          match mkdir_all s cs n' with
          | (s2, Ok _) =>
              match mkdir s2 here with
              | (s3, Ok _) => (s3, Ok tt)
              | (_, e) => if path_is_dir s2 here then (s2, Ok tt) else (s2, e)
              end
          | (s2, e) => (s2, e)
          end
      | (_, e) => if path_is_dir s here then (s, Ok tt) else (s, e)
      end
  end.
Definition create_dir_all (s : fs) (cs : list comp) : fs * res unit :=
  mkdir_all s cs (length cs).

(** OpenOptions read+write+create, then set_len(0): the truncated or new
    file's location. *)
Definition open_truncate (s : fs) (cs : list comp) : fs * res fpath :=
  match walk s [] cs with
  | Ok p => match node_at s p with
            | Some (File _) => (<[p := File []]> s, Ok p)
            | Some Dir => (s, Err Other)
            | None => if is_dir_at s (parent p) then (<[p := File []]> s, Ok p)
                      else (s, Err NotFound)
            end
  | Err e => (s, Err e)
  | Panic => (s, Panic)
  end.

(** unlink(2) *)
Definition remove_file (s : fs) (cs : list comp) : fs * res unit :=
  match walk s [] cs with
  | Ok p => match node_at s p with
            | Some (File _) => (delete p s, Ok tt)
            | Some Dir => (s, Err Other)
            | None => (s, Err NotFound)
            end
  | Err e => (s, Err e)
  | Panic => (s, Panic)
  end.

(** ** The store: src/store/filesystem.rs *)

(** Components of the file-system path of a key: filesystem.rs:142-190. *)
Definition key_comps (base key : bytes) : res (list comp) :=
  p ← get_path base key; Ok (comps p).

(** filesystem.rs:196-199 *)
Definition st_exists (base : bytes) (s : fs) (key : bytes) : res bool :=
  cs ← key_comps base key; Ok (path_is_file s cs).

(** filesystem.rs:201-210; the reader is represented by the bytes it will
    yield. *)
Definition st_get (base : bytes) (s : fs) (key : bytes) : res (option bytes) :=
  cs ← key_comps base key;
  if path_is_file s cs then c ← open_read s cs; Ok (Some c) else Ok None.

(** filesystem.rs:212-222; strings are bytes, so into_string cannot fail. *)
Definition st_uri (base key : bytes) : res bytes :=
  p ← get_path base key; Ok (B "file://" ++ p).

(** filesystem.rs:260-280.  The closure is represented by the bytes it makes
    reach the file and its result: `value(writer)` consumes the BufWriter, so
    it is flushed when the closure returns. *)
Definition st_set (base : bytes) (s : fs) (key : bytes)
    (value : bytes * res unit) : fs * res unit :=
  match key_comps base key with
  | Ok cs =>
      let parent_ok :=
        match cs with
        | [] => (s, Ok tt)
        | _ => if path_exists s (parent_comps cs) then (s, Ok tt)
               else create_dir_all s (parent_comps cs)
        end in
      match parent_ok with
      | (s1, Ok _) =>
          match open_truncate s1 cs with
          | (s2, Ok p) => (<[p := File (fst value)]> s2, snd value)
          | (s2, Err e) => (s2, Err e)
          | (s2, Panic) => (s2, Panic)
          end
      | (s1, e) => (s1, e)
      end
  | Err e => (s, Err e)
  | Panic => (s, Panic)
  end.

(** filesystem.rs:282-292 *)
Definition st_erase (base : bytes) (s : fs) (key : bytes) : fs * res bool :=
  match key_comps base key with
  | Ok cs =>
      if path_exists s cs
      then match remove_file s cs with
           | (s1, Ok _) => (s1, Ok (negb (path_exists s1 cs)))
           | (s1, Err e) => (s1, Err e)
           | (s1, Panic) => (s1, Panic)
           end
      else (s, Ok (negb (path_exists s cs)))
  | Err e => (s, Err e)
  | Panic => (s, Panic)
  end.

Fixpoint is_prefix (p q : fpath) : bool :=
  match p, q with
  | [], _ => true
  | a :: p', b :: q' => beq a b && is_prefix p' q'
  | _ :: _, [] => false
  end.
(** The directories a path walk passes through. *)
Fixpoint visited (s : fs) (cur : fpath) (cs : list comp) : list fpath :=
  match cs with
  | [] => []
  | c :: r => cur :: visited s (step cur c) r
  end.

(** filesystem.rs:294-312: WalkDir in contents-first order, so that every
    directory is empty when it is removed: all entries at or below the target
    go.  If the path string passes through a directory that is itself being
    removed (for example "a/b/.."), later entries of the walk can no longer be
    reached and the call fails half way; simplification: that case is an error
    without effect here, as is the attempt to remove the root directory.
    Theorems about removal are stated for '..'-free paths, where it cannot
    occur. *)
Definition st_erase_prefix (base : bytes) (s : fs) (key : bytes) : fs * res bool :=
  match key_comps base key with
  | Ok cs =>
      match stat s cs with
      | Some (p, _) =>
          if existsb (is_prefix p) ([] :: visited s [] cs) then (s, Err Other)
          else let s1 := filter (fun kv => is_prefix p kv.1 = false) s in
               (s1, Ok (negb (path_exists s1 cs)))
      | None => (s, Ok (negb (path_exists s cs)))
      end
  | Err e => (s, Err e)
  | Panic => (s, Panic)
  end.

(** filesystem.rs:226-254.  Directory entries in map order (read_dir's order
    is unspecified). *)
Definition entries_of (s : fs) (p : fpath) : list (bytes * node) :=
  omap (fun kv : fpath * node =>
          if bool_decide (kv.1 <> []) && bool_decide (parent kv.1 = p)
          then match list.last kv.1 with Some n => Some (n, kv.2) | None => None end
          else None) (map_to_list s).
Definition is_dir_node (n : node) : bool := match n with Dir => true | _ => false end.
Definition st_list_dir (base : bytes) (s : fs) (prefix : bytes)
  : res (list bytes * list bytes) :=
  cs ← key_comps base prefix;
  p ← walk s [] cs;
  match node_at s p with
  | Some Dir =>
      let es := entries_of s p in
      Ok (map (fun e => prefix ++ e.1) (filter (fun e => is_dir_node e.2 = false) es),
          map (fun e => prefix ++ e.1) (filter (fun e => is_dir_node e.2 = true) es))
  | Some (File _) => Err Other
  | None => Err NotFound
  end.
