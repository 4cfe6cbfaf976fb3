(** System calls, processes, crashes and interleavings: the calls of
    src/store/filesystem.rs and src/storage.rs one system call at a time.  The
    sequential model (FS.v, Hier.v) runs each call as one step; SysFacts.v
    proves that it is what the processes here do when they run alone. *)
From Verif Require Export Hier.
Local Open Scope Z_scope.

(** ** The operating system's state *)

(** A directory entry: a directory, or a file by inode number. *)
Inductive dentry := DDir | DFile (i : nat).
(** Open file descriptions are numbered; each has an inode and possibly a
    flock(2) lock ([true]: exclusive).  [o_next] is above every inode and
    description number in use.  [o_short] says how many bytes each coming
    write(2) accepts (at least one; everything when the list is used up);
    [o_room] is the number of bytes the file system still accepts ([None]:
    no limit).  Simplifications: contents of unlinked inodes are kept for
    ever; freeing space does not increase [o_room]. *)
Record os := OS {
  o_tree : gmap fpath dentry;
  o_data : gmap nat bytes;
  o_fds : gmap nat nat;
  o_locks : gmap nat bool;
  o_next : nat;
  o_short : list nat;
  o_room : option nat
}.

(** What path lookups see. *)
Definition node_of (d : gmap nat bytes) (e : dentry) : node :=
  match e with DDir => Dir | DFile i => File (default [] (d !! i)) end.
Definition view (o : os) : fs := node_of (o_data o) <$> o_tree o.

(** ** System calls *)

Inductive sys : Type -> Type :=
  | SIsFile (cs : list comp) : sys bool
  | SIsDir (cs : list comp) : sys bool
  | SExists (cs : list comp) : sys bool
  | SMkdir (cs : list comp) : sys (res unit)
  | SOpenW (cs : list comp) : sys (res nat)
  | SOpenR (dir_ok : bool) (cs : list comp) : sys (res nat)
  | SLock (fd : nat) (ex : bool) : sys unit
  | STrunc (fd : nat) : sys unit
  | SWrite (fd off : nat) (b : bytes) : sys (res nat)
  | SRead (fd off : nat) (n : option nat) : sys bytes
  | SClose (fd : nat) : sys unit
  | SUnlink (cs : list comp) : sys (res unit)
  | SStat (cs : list comp) : sys (option bool)
  | SReadDir (cs : list comp) : sys (res (list (bytes * bool)))
  | SRmdir (cs : list comp) : sys (res unit).

(** A new open file description on inode [i]. *)
Definition open_fd (o : os) (i : nat) : os :=
  OS (o_tree o) (o_data o) (<[o_next o := i]> (o_fds o)) (o_locks o) (S (o_next o))
     (o_short o) (o_room o).
(** A new inode with empty content. *)
Definition new_inode (o : os) : os :=
  OS (o_tree o) (<[o_next o := []]> (o_data o)) (o_fds o) (o_locks o) (S (o_next o))
     (o_short o) (o_room o).
Definition link (o : os) (p : fpath) (e : dentry) : os :=
  OS (<[p := e]> (o_tree o)) (o_data o) (o_fds o) (o_locks o) (o_next o)
     (o_short o) (o_room o).
Definition unlink (o : os) (p : fpath) : os :=
  OS (delete p (o_tree o)) (o_data o) (o_fds o) (o_locks o) (o_next o)
     (o_short o) (o_room o).
Definition set_data (o : os) (i : nat) (c : bytes) : os :=
  OS (o_tree o) (<[i := c]> (o_data o)) (o_fds o) (o_locks o) (o_next o)
     (o_short o) (o_room o).
Definition set_lock (o : os) (fd : nat) (ex : bool) : os :=
  OS (o_tree o) (o_data o) (o_fds o) (<[fd := ex]> (o_locks o)) (o_next o)
     (o_short o) (o_room o).
Definition close_fd (o : os) (fd : nat) : os :=
  OS (o_tree o) (o_data o) (delete fd (o_fds o)) (delete fd (o_locks o)) (o_next o)
     (o_short o) (o_room o).
Definition accepted (o : os) (n : nat) : os :=
  OS (o_tree o) (o_data o) (o_fds o) (o_locks o) (o_next o)
     (tail (o_short o)) ((fun r => (r - n)%nat) <$> o_room o).

(** Another description holds a lock on the same inode and one of the two
    locks is exclusive. *)
Definition lock_conflict (o : os) (fd : nat) (ex : bool) : bool :=
  existsb (fun kv : nat * bool =>
             negb (Nat.eqb kv.1 fd) && (ex || kv.2) &&
             bool_decide (o_fds o !! kv.1 = o_fds o !! fd))
          (map_to_list (o_locks o)).

(** pwrite at an offset; a gap before the offset reads as zero bytes. *)
Definition write_at (c : bytes) (off : nat) (b : bytes) : bytes :=
  take off (c ++ replicate (off - length c) zero) ++ b ++ drop (off + length b) c.

(** How many bytes of a [len]-byte write are accepted. *)
Definition accept (o : os) (len : nat) : nat :=
  let want := match o_short o with [] => len | c :: _ => Nat.min (Nat.max 1 c) len end in
  match o_room o with None => want | Some r => Nat.min r want end.

(** Opening a directory for reading succeeds, only reading from it fails; with
    [dir_ok = false], for files about to be read, that failure is moved to the
    opening. *)
(** stat(2) and readdir(3) say of each file whether it is a directory.  Reading
    a directory is one step (simplification: readdir(3) fetches the entries in
    batches); their order is unspecified, see [p_rm_tree].  rmdir(2) removes
    empty directories only. *)
(** One system call; [None]: the caller blocks (only flock(2) does), or uses a
    description it does not have. *)
Definition sys_step {T : Type} (c : sys T) (o : os) : option (os * T) :=
  match c in sys T return option (os * T) with
  | SIsFile cs => Some (o, path_is_file (view o) cs)
  | SIsDir cs => Some (o, path_is_dir (view o) cs)
  | SExists cs => Some (o, path_exists (view o) cs)
  | SMkdir cs =>
      Some match walk (view o) [] cs with
           | Ok p => match node_at (view o) p with
                     | None => if is_dir_at (view o) (parent p)
                               then (link o p DDir, Ok tt) else (o, Err Other)
                     | Some _ => (o, Err AlreadyExists)
                     end
           | Err e => (o, Err e)
           | Panic => (o, Panic)
           end
  | SOpenW cs =>
      Some match walk (view o) [] cs with
           | Ok p => match p, o_tree o !! p with
                     | [], _ => (o, Err Other)
                     | _, Some (DFile i) => (open_fd o i, Ok (o_next o))
                     | _, Some DDir => (o, Err Other)
                     | _, None =>
                         if is_dir_at (view o) (parent p)
                         then let o1 := link (new_inode o) p (DFile (o_next o)) in
                              (open_fd o1 (o_next o), Ok (o_next o1))
                         else (o, Err NotFound)
                     end
           | Err e => (o, Err e)
           | Panic => (o, Panic)
           end
  | SOpenR dir_ok cs =>
      Some match walk (view o) [] cs with
           | Ok p => match node_at (view o) p, o_tree o !! p with
                     | Some (File _), Some (DFile i) => (open_fd o i, Ok (o_next o))
                     | Some Dir, _ =>
                         if dir_ok : bool
                         then let o1 := new_inode o in
                              (open_fd o1 (o_next o), Ok (o_next o1))
                         else (o, Err Other)
                     | _, _ => (o, Err NotFound)
                     end
           | Err e => (o, Err e)
           | Panic => (o, Panic)
           end
  | SLock fd ex => match o_fds o !! fd with
                   | Some _ => if lock_conflict o fd ex then None
                               else Some (set_lock o fd ex, tt)
                   | None => None
                   end
  | STrunc fd => match o_fds o !! fd with
                 | Some i => Some (set_data o i [], tt)
                 | None => None
                 end
  | SWrite fd off b =>
      match o_fds o !! fd with
      | Some i =>
          let n := accept o (length b) in
          Some (if (bool_decide (n = 0%nat) && negb (bool_decide (b = [])))
                then (o, Err Other)
                else (set_data (accepted o n) i
                        (write_at (default [] (o_data o !! i)) off (take n b)), Ok n))
      | None => None
      end
  | SRead fd off n =>
      match o_fds o !! fd with
      | Some i => let c := drop off (default [] (o_data o !! i)) in
                  Some (o, match n with Some k => take (Nat.max 1 k) c | None => c end)
      | None => None
      end
  | SClose fd => Some (close_fd o fd, tt)
  | SUnlink cs =>
      Some match walk (view o) [] cs with
           | Ok p => match node_at (view o) p with
                     | Some (File _) => (unlink o p, Ok tt)
                     | Some Dir => (o, Err Other)
                     | None => (o, Err NotFound)
                     end
           | Err e => (o, Err e)
           | Panic => (o, Panic)
           end
  | SStat cs => Some (o, (fun pn : fpath * node => is_dir_node pn.2) <$> stat (view o) cs)
  | SReadDir cs =>
      Some (o, match walk (view o) [] cs with
               | Ok p => match node_at (view o) p with
                         | Some Dir => Ok (map (fun e => (e.1, is_dir_node e.2)) (entries_of (view o) p))
                         | Some (File _) => Err Other
                         | None => Err NotFound
                         end
               | Err e => Err e
               | Panic => Panic
               end)
  | SRmdir cs =>
      Some match walk (view o) [] cs with
           | Ok p => match node_at (view o) p with
                     | Some Dir =>
                         if bool_decide (p = []) || negb (bool_decide (entries_of (view o) p = []))
                         then (o, Err Other) else (unlink o p, Ok tt)
                     | Some (File _) => (o, Err Other)
                     | None => (o, Err NotFound)
                     end
           | Err e => (o, Err e)
           | Panic => (o, Panic)
           end
  end.

(** ** Processes *)

Inductive proc (A : Type) : Type :=
  | Ret (a : A)
  | Call (T : Type) (c : sys T) (k : T -> proc A).
Arguments Ret {A} a.
Arguments Call {A T} c k.

Fixpoint pbind {A C : Type} (p : proc A) (f : A -> proc C) : proc C :=
  match p with
  | Ret a => f a
  | Call c k => Call c (fun x => pbind (k x) f)
  end.
(** The `?` operator. *)
Definition ptry {A C : Type} (p : proc (res A)) (f : A -> proc (res C)) : proc (res C) :=
  pbind p (fun r => match r with
                    | Ok a => f a | Err e => Ret (Err e) | Panic => Ret Panic
                    end).
(** A computation without system calls. *)
Definition pres {A C : Type} (r : res A) (f : A -> proc (res C)) : proc (res C) :=
  match r with Ok a => f a | Err e => Ret (Err e) | Panic => Ret Panic end.

(** Running alone to the end. *)
Fixpoint run {A : Type} (o : os) (p : proc A) : option (os * A) :=
  match p with
  | Ret a => Some (o, a)
  | Call c k => match sys_step c o with
                | Some (o', x) => run o' (k x)
                | None => None
                end
  end.

(** One system call of a process. *)
Definition pstep {A : Type} (o : os) (p : proc A) : option (os * proc A) :=
  match p with
  | Ret _ => None
  | Call c k => match sys_step c o with
                | Some (o', x) => Some (o', k x)
                | None => None
                end
  end.

(** The process stops (is killed) after some of its system calls. *)
Inductive stops {A : Type} : os -> proc A -> os -> Prop :=
  | stops_here o p : stops o p o
  | stops_later o p o1 p1 o2 : pstep o p = Some (o1, p1) -> stops o1 p1 o2 -> stops o p o2.

(** After a crash the kernel has closed everything. *)
Definition released (o : os) : os :=
  OS (o_tree o) (o_data o) ∅ ∅ (o_next o) (o_short o) (o_room o).

(** Several processes, in any interleaving of their system calls. *)
Inductive csteps {A : Type} : os * list (proc A) -> os * list (proc A) -> Prop :=
  | csteps_refl c : csteps c c
  | csteps_step o ps i p o1 p1 c :
      ps !! i = Some p -> pstep o p = Some (o1, p1) ->
      csteps (o1, <[i := p1]> ps) c -> csteps (o, ps) c.
(** The same with the schedule (whose turn it is) given. *)
Fixpoint crun {A : Type} (o : os) (ps : list (proc A)) (sched : list nat)
  : option (os * list (proc A)) :=
  match sched with
  | [] => Some (o, ps)
  | i :: r => match ps !! i with
              | Some p => match pstep o p with
                          | Some (o1, p1) => crun o1 (<[i := p1]> ps) r
                          | None => None
                          end
              | None => None
              end
  end.

(** ** std *)

(** std::fs::create_dir_all, as [mkdir_all]. *)
Fixpoint p_mkdir_all (cs : list comp) (n : nat) : proc (res unit) :=
  match n with
  | O => Ret (Ok tt)
  | S n' =>
      let here := take n cs in
      let or_is_dir (e : res unit) :=
        Call (SIsDir here) (fun d => Ret (if d : bool then Ok tt else e)) in
      Call (SMkdir here) (fun r =>
        match r with
        | Ok _ => Ret (Ok tt)
        | Err NotFound =>
            ptry (p_mkdir_all cs n') (fun _ =>
            Call (SMkdir here) (fun r' =>
              match r' with Ok _ => Ret (Ok tt) | e => or_is_dir e end))
        | e => or_is_dir e
        end)
  end.

(** Write::write_all on a File: until everything is accepted or an error.
    Returns the new offset, what was not accepted, and the result; [fuel] is
    at least the number of bytes. *)
Fixpoint p_write_all (fuel : nat) (fd off : nat) (b : bytes)
  : proc (nat * bytes * res unit) :=
  match b, fuel with
  | [], _ => Ret (off, [], Ok tt)
  | _, O => Ret (off, b, Err Other)
  | _, S f =>
      Call (SWrite fd off b) (fun r =>
        match r with
        | Ok O => Ret (off, b, Err Other)
        | Ok n => p_write_all f fd (off + n) (drop n b)
        | Err e => Ret (off, b, Err e)
        | Panic => Ret (off, b, Panic)
        end)
  end.

Definition BUF_CAP : Z := 8192.
(** BufWriter's drop: flush the buffer, ignore the result; then the file is
    closed.  [r] is the closure's result. *)
Definition p_drop (fd off : nat) (buf : bytes) (r : res unit) : proc (res unit) :=
  pbind (p_write_all (length buf) fd off buf) (fun _ =>
  Call (SClose fd) (fun _ => Ret r)).
(** A sequence of write_all calls [ws] on a BufWriter, then the closure ends
    with result [r] (or with the first write error) and drops the writer.
    BufWriter::write_all: flush first if the slice does not fit; a slice as
    large as the buffer goes straight to the file. *)
Fixpoint p_buffered (fd off : nat) (buf : bytes) (ws : list bytes) (r : res unit)
  : proc (res unit) :=
  match ws with
  | [] => p_drop fd off buf r
  | w :: ws' =>
      let put off buf :=
        if lenZ w >=? BUF_CAP
        then pbind (p_write_all (length w) fd off w) (fun x =>
               let '(off', _, rw) := x in
               match rw with
               | Ok _ => p_buffered fd off' buf ws' r
               | e => p_drop fd off' buf e
               end)
        else p_buffered fd off (buf ++ w) ws' r in
      if lenZ w >? BUF_CAP - lenZ buf
      then pbind (p_write_all (length buf) fd off buf) (fun x =>
             let '(off', rest, rf) := x in
             match rf with
             | Ok _ => put off' []
             | e => p_drop fd off' rest e
             end)
      else put off buf
  end.

(** Reading to the end of the file in pieces of at most the given sizes; when
    the list is used up, the rest in one piece. *)
Fixpoint p_read_all (fd off : nat) (rs : list nat) (acc : bytes) : proc bytes :=
  match rs with
  | [] => Call (SRead fd off None) (fun b => Ret (acc ++ b))
  | n :: rs' =>
      Call (SRead fd off (Some n)) (fun b =>
        if bool_decide (b = []) then Ret acc
        else p_read_all fd (off + length b) rs' (acc ++ b))
  end.

(** ** The store: src/store/filesystem.rs *)

(** filesystem.rs:196-199 *)
Definition p_exists (base key : bytes) : proc (res bool) :=
  pres (key_comps base key) (fun cs =>
  Call (SIsFile cs) (fun b => Ret (Ok b))).

(** filesystem.rs:201-210, and reading until the reader is dropped. *)
Definition p_get (base key : bytes) (rs : list nat) : proc (res (option bytes)) :=
  pres (key_comps base key) (fun cs =>
  Call (SIsFile cs) (fun b =>
  if b : bool then
    ptry (Call (SOpenR false cs) (fun r => Ret r)) (fun fd =>
    Call (SLock fd false) (fun _ =>
    pbind (p_read_all fd 0 rs []) (fun c =>
    Call (SClose fd) (fun _ => Ret (Ok (Some c))))))
  else Ret (Ok None))).

(** filesystem.rs:260-280; the closure writes [ws] and returns [r]. *)
Definition p_set (base key : bytes) (ws : list bytes) (r : res unit) : proc (res unit) :=
  pres (key_comps base key) (fun cs =>
  let parent_ok :=
    match cs with
    | [] => Ret (Ok tt)
    | _ => Call (SExists (parent_comps cs)) (fun b =>
           if b : bool then Ret (Ok tt)
           else p_mkdir_all (parent_comps cs) (length (parent_comps cs)))
    end in
  ptry parent_ok (fun _ =>
  ptry (Call (SOpenW cs) (fun r => Ret r)) (fun fd =>
  Call (SLock fd true) (fun _ =>
  Call (STrunc fd) (fun _ =>
  p_buffered fd 0 [] ws r))))).

(** filesystem.rs:282-292 *)
Definition p_erase (base key : bytes) : proc (res bool) :=
  pres (key_comps base key) (fun cs =>
  let finish := Call (SExists cs) (fun b => Ret (Ok (negb b))) in
  Call (SExists cs) (fun b =>
  if b : bool then
    ptry (Call (SOpenR true cs) (fun r => Ret r)) (fun fd =>
    Call (SLock fd true) (fun _ =>
    Call (SUnlink cs) (fun r =>
    Call (SClose fd) (fun _ => pres r (fun _ => finish)))))
  else finish)).

(** `for e in es { f(e)?; }` *)
Fixpoint p_each {A : Type} (f : A -> proc (res unit)) (es : list A) : proc (res unit) :=
  match es with
  | [] => Ret (Ok tt)
  | e :: es' => ptry (f e) (fun _ => p_each f es')
  end.

(** filesystem.rs:298-309, WalkDir (walkdir 2) with contents_first: the loop
    body for the file at [cs] ([dir]: it is a directory) and everything below
    it.  A directory is read when the walk reaches it; whether an entry is a
    directory is known from reading its parent; [ord] puts the entries of a
    directory in some order.  [fuel]: directories nested deeper have paths the
    operating system refuses (PATH_MAX). *)
Fixpoint p_rm_tree (ord : list comp -> list (bytes * bool) -> list (bytes * bool))
    (fuel : nat) (cs : list comp) (dir : bool) : proc (res unit) :=
  match fuel with
  | O => Ret (Err Other)
  | S f =>
      if dir then
        ptry (Call (SReadDir cs) (fun r => Ret r)) (fun es =>
        ptry (p_each (fun e => p_rm_tree ord f (cs ++ [Normal e.1]) e.2) (ord cs es)) (fun _ =>
        Call (SRmdir cs) (fun r => Ret r)))
      else
        ptry (Call (SOpenR true cs) (fun r => Ret r)) (fun fd =>
        Call (SLock fd true) (fun _ =>
        Call (SUnlink cs) (fun r =>
        Call (SClose fd) (fun _ => Ret r))))
  end.

(** filesystem.rs:294-312; WalkDir begins with a stat of its root. *)
Definition p_erase_prefix (ord : list comp -> list (bytes * bool) -> list (bytes * bool))
    (fuel : nat) (base key : bytes) : proc (res bool) :=
  pres (key_comps base key) (fun cs =>
  let finish := Call (SExists cs) (fun b => Ret (Ok (negb b))) in
  Call (SExists cs) (fun b =>
  if b : bool then
    Call (SStat cs) (fun d =>
    match d with
    | Some dir => ptry (p_rm_tree ord fuel cs dir) (fun _ => finish)
    | None => Ret (Err NotFound)
    end)
  else finish)).

(** The entries whose `metadata` call succeeds, filesystem.rs:232-242. *)
Fixpoint p_stats (cs : list comp) (es : list (bytes * bool)) : proc (list (bytes * bool)) :=
  match es with
  | [] => Ret []
  | e :: es' =>
      Call (SStat (cs ++ [Normal e.1])) (fun d =>
      pbind (p_stats cs es') (fun l =>
      Ret match d with Some dir => (e.1, dir) :: l | None => l end))
  end.

(** filesystem.rs:226-254 *)
Definition p_list_dir (ord : list comp -> list (bytes * bool) -> list (bytes * bool))
    (base prefix : bytes) : proc (res (list bytes * list bytes)) :=
  pres (key_comps base prefix) (fun cs =>
  ptry (Call (SReadDir cs) (fun r => Ret r)) (fun es =>
  pbind (p_stats cs (ord cs es)) (fun l =>
  Ret (Ok (map (fun e => prefix ++ e.1) (filter (fun e => e.2 = false) l),
           map (fun e => prefix ++ e.1) (filter (fun e => e.2 = true) l)))))).

(** ** The hierarchy operations: src/storage.rs *)

Section Operations.
  Context (H : hier).
  Let base := hy_base H.

  (** storage.rs:165-178 *)
  Definition p_get_array_metadata (path : bytes) (rs : list nat) : proc (res array_meta) :=
    ptry (p_get base (akey H path) rs) (fun x =>
    Ret (text ← of_option NotFound x;
         m ← from_text dec_meta text;
         _ ← check_exts (am_exts m);
         Ok m)).

  (** storage.rs:206-235 *)
  Definition p_read_chunk (C : codec) (h : host) (t : rty) (path : bytes)
      (m : array_meta) (pos : list Z) (rs : list nat) : proc (res (option chunk)) :=
    pres (b ← in_bounds (h_prof h) m pos; assert_ b) (fun _ =>
    ptry (p_get base (get_chunk_key path m pos) rs) (fun x =>
    Ret match x with
        | None => Ok None
        | Some content => c ← decode_chunk C h t m content pos; Ok (Some c)
        end)).

  (** storage.rs:280-290, 367-377 *)
  Definition p_node_key (path : bytes) : proc (res bytes) :=
    ptry (p_exists base (akey H path)) (fun a =>
    if a : bool then Ret (Ok (akey H path)) else
    ptry (p_exists base (gkey H path)) (fun g =>
    if g : bool then Ret (Ok (gkey H path)) else Ret (Err NotFound))).

  (** storage.rs:278-306 *)
  Definition p_list_attributes (path : bytes) (rs : list nat) : proc (res jmap) :=
    ptry (p_node_key path) (fun k =>
    ptry (p_get base k rs) (fun x =>
    Ret (text ← of_option NotFound x;
         v ← from_text dec_value text;
         match v with
         | JObj m => match mget ATTRIBUTES_NAME m with
                     | Some (JObj a) => Ok a
                     | Some _ => Err InvalidData
                     | None => Ok []
                     end
         | _ => Ok []
         end))).

  (** storage.rs:361-398; [sl] cuts a document into the pieces the JSON writer
      hands to the BufWriter. *)
  Definition p_set_attributes (sl : bytes -> list bytes) (path : bytes) (attrs : jmap)
      (rs : list nat) : proc (res unit) :=
    ptry (p_node_key path) (fun k =>
    ptry (p_get base k rs) (fun x =>
    pres (of_option NotFound x) (fun text =>
    pres (from_text as_map text) (fun existing =>
    let merged := merge_doc existing attrs in
    if json_eqb (JObj merged) (JObj existing) then Ret (Ok tt)
    else p_set base k (sl (print (JObj merged))) (Ok tt))))).

  (** storage.rs:400-420 *)
  Definition p_create_group (sl : bytes -> list bytes) (path : bytes) : proc (res unit) :=
    ptry (p_exists base (akey H path)) (fun a =>
    if a : bool then Ret (Err AlreadyExists)
    else ptry (p_exists base (gkey H path)) (fun g =>
         if g : bool then Ret (Ok tt)
         else p_set base (gkey H path) (sl (print group_default_json)) (Ok tt))).

  (** storage.rs:422-442 *)
  Definition p_create_array (sl : bytes -> list bytes) (path : bytes) (m : array_meta)
    : proc (res unit) :=
    ptry (p_exists base (gkey H path)) (fun g =>
    if g : bool then Ret (Err AlreadyExists)
    else ptry (p_exists base (akey H path)) (fun a =>
         if a : bool then Ret (Err AlreadyExists)
         else p_set base (akey H path) (sl (print (enc_meta m))) (Ok tt))).

  (** storage.rs:456-470; [ws] is how the encoder's output [fst (encode_chunk
      ..)] is handed to the BufWriter: for the built-in raw compression
      [write_calls], for the others the compressor's choice. *)
  Definition p_write_chunk (C : codec) (h : host) (t : rty) (path : bytes)
      (m : array_meta) (ck : chunk) (ws : list bytes) : proc (res unit) :=
    p_set base (get_chunk_key path m (ck_pos ck)) ws (snd (encode_chunk C h t m ck)).

  (** storage.rs:472-480 *)
  Definition p_delete_chunk (path : bytes) (m : array_meta) (pos : list Z) : proc (res bool) :=
    p_erase base (get_chunk_key path m pos).

  (** storage.rs:444-454 *)
  Definition p_remove (ord : list comp -> list (bytes * bool) -> list (bytes * bool)) (fuel : nat)
      (path : bytes) : proc (res unit) :=
    ptry (p_erase base (gkey H path)) (fun _ =>
    ptry (p_erase base (akey H path)) (fun _ =>
    ptry (p_erase_prefix ord fuel base (data_path_key path)) (fun _ =>
    Ret (Ok tt)))).

  (** storage.rs:321-356: from a directory listing to node names. *)
  Definition node_names (p : profile) (path : bytes) (l : list bytes * list bytes) : res (list bytes) :=
    let suffix := ep_suffix (hy_ep H) in
    let key_prefix := META_ROOT_PATH ++ slash :: canonicalize_path path in
    let keys := filter (fun k => ends_with suffix k = true) (fst l) in
    keys ← mapM_res (truncate_by p (lenZ suffix)) keys;
    let keys := filter (fun k => ends_with ARRAY_METADATA_KEY_EXT k
                                 || ends_with GROUP_METADATA_KEY_EXT k = true) keys in
    let suffix_len := lenZ suffix + lenZ ARRAY_METADATA_KEY_EXT + 1 in
    keys ← mapM_res (truncate_by p suffix_len) keys;
    let keys := keys ++ map trim_end_slash (snd l) in
    let keys := dedup (sort_strs keys) in
    mapM_res (drain_to (length key_prefix)) keys.
  (** storage.rs:310-357 *)
  Definition p_list_nodes (ord : list comp -> list (bytes * bool) -> list (bytes * bool)) (p : profile)
      (path : bytes) : proc (res (list bytes)) :=
    ptry (p_list_dir ord base (META_ROOT_PATH ++ slash :: canonicalize_path path)) (fun l =>
    Ret (node_names p path l)).
End Operations.


(** filesystem.rs:50-61 *)
Definition p_read_entry_point (base : bytes) (rs : list nat) : proc (res entry_point) :=
  let cs := comps (path_join base ENTRY_POINT_KEY) in
  ptry (Call (SOpenR false cs) (fun r => Ret r)) (fun fd =>
  pbind (p_read_all fd 0 rs []) (fun text =>
  Call (SClose fd) (fun _ =>
  Ret (e ← from_text dec_ep text;
       _ ← check_exts (ep_exts e);
       Ok e)))).

(** filesystem.rs:84-117.  The new file is locked but not truncated. *)
Definition p_open_or_create (V : bytes -> option bool) (sl : bytes -> list bytes)
    (base : bytes) (rs : list nat) : proc (res hier) :=
  let cs := comps (path_join base ENTRY_POINT_KEY) in
  let finish (e : entry_point) := Ret (_ ← check_version V e; Ok (Hier base e)) in
  Call (SExists cs) (fun b =>
  if b : bool then ptry (p_read_entry_point base rs) finish
  else ptry (p_mkdir_all (comps base) (length (comps base))) (fun _ =>
       ptry (Call (SOpenW cs) (fun r => Ret r)) (fun fd =>
       Call (SLock fd true) (fun _ =>
       ptry (p_buffered fd 0 [] (sl (print (enc_ep ep_default))) (Ok tt)) (fun _ =>
       finish ep_default))))).
