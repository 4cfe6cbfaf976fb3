(** Vocabulary for the properties about refused system calls (C68): the
    operating system may refuse to look at, open, create or remove a file, for
    lack of permission or because of an I/O error. *)
From Verif Require Export SpecSys.
From Verif Require Import SysOpen Spec.

(** What the program sees of a refusal.  Path::is_file, Path::is_dir and
    Path::exists (filesystem.rs:198, 203, 263, 285, 291) answer `false` when
    stat(2) fails, for whatever reason; an entry of a directory whose metadata
    cannot be had is skipped (filesystem.rs:232-242); the other calls return the
    error.  Simplifications: calls on descriptions already open are not refused
    (writes that fail for lack of space: C42, C66); every refusal is the error
    [Other]. *)
Definition refused {T : Type} (c : sys T) : option T :=
  match c in sys T return option T with
  | SIsFile _ | SIsDir _ | SExists _ => Some false
  | SMkdir _ | SUnlink _ | SRmdir _ => Some (Err Other)
  | SOpenW _ | SOpenR _ _ => Some (Err Other)
  | SStat _ => Some None
  | SReadDir _ => Some (Err Other)
  | SLock _ _ | STrunc _ | SClose _ => None
  | SWrite _ _ _ => None
  | SRead _ _ _ => None
  end.
(** One system call of a process, carried out or ([no]) refused; a refused call
    changes nothing. *)
Definition fstep {A : Type} (no : bool) (o : os) (p : proc A) : option (os * proc A) :=
  if no then
    match p with
    | Ret _ => None
    | Call c k => (fun x => (o, k x)) <$> refused c
    end
  else pstep o p.
(** The process, alone on the machine, runs to its end and returns [a]; any of
    its system calls may be refused. *)
Inductive faulty {A : Type} : os -> proc A -> os -> A -> Prop :=
  | faulty_ret o a : faulty o (Ret a) o a
  | faulty_step no o p o1 p1 o2 a : fstep no o p = Some (o1, p1) -> faulty o1 p1 o2 a -> faulty o p o2 a.

(** Calls that look at a file without opening it. *)
Definition looks {T : Type} (c : sys T) : bool :=
  match c with SIsFile _ | SIsDir _ | SExists _ | SStat _ => true | _ => false end.
(** The same when looking is never refused: files may be seen, but perhaps not
    opened, created or removed, directories perhaps not read. *)
Inductive visible {A : Type} : os -> proc A -> os -> A -> Prop :=
  | visible_ret o a : visible o (Ret a) o a
  | visible_call T (c : sys T) k o o1 x o2 a : sys_step c o = Some (o1, x) ->
      visible o1 (k x) o2 a -> visible o (Call c k) o2 a
  | visible_refused T (c : sys T) k o x o2 a : looks c = false -> refused c = Some x ->
      visible o (k x) o2 a -> visible o (Call c k) o2 a.

(** Whatever is refused, looking aside: the call has done and returns what it does
    and returns when nothing is refused, or it returns an error and has left the
    files as at some point of that run. *)
Definition done_or_failed {A : Type} (o : os) (p : proc (res A)) : Prop :=
  forall o' r, visible o p o' r ->
  run o p = Some (o', r) \/ ((exists e, r = Err e) /\ exists o2, stops o p o2 /\ view o' = view o2).

(** The file a system call names. *)
Definition names {T : Type} (c : sys T) : option (list comp) :=
  match c with
  | SIsFile cs | SIsDir cs | SExists cs | SMkdir cs | SUnlink cs | SRmdir cs
  | SOpenW cs | SOpenR _ cs | SStat cs | SReadDir cs => Some cs
  | SLock _ _ | STrunc _ | SClose _ | SWrite _ _ _ | SRead _ _ _ => None
  end.
(** The process runs to its end while every system call naming a file in [deny]
    is refused (say, everything inside a directory that may not be searched). *)
Fixpoint denied {A : Type} (deny : list comp -> bool) (o : os) (p : proc A) : option (os * A) :=
  match p with
  | Ret a => Some (o, a)
  | Call c k =>
      let go := match sys_step c o with Some (o', x) => denied deny o' (k x) | None => None end in
      match names c, refused c with
      | Some cs, Some x => if deny cs then denied deny o (k x) else go
      | _, _ => go
      end
  end.
(** Everything at or below [p] may not be looked at. *)
Definition below (p : fpath) (cs : list comp) : bool :=
  bool_decide (map Normal p `prefix_of` cs).

(** What a metadata call that reports success has done to the node. *)
Definition mo_done (H : hier) (s s' : fs) (op : meta_op) : Prop :=
  let doc ext := loc (hy_base H) (metadata_key ext (ep_suffix (hy_ep H)) (mo_path op)) in
  match op with
  | MCreateArray _ m =>
      file_at s' (doc ARRAY_METADATA_KEY_EXT) = Some (print (enc_meta m))
      /\ forall q, q <> doc ARRAY_METADATA_KEY_EXT -> file_at s' q = file_at s q
  | MCreateGroup _ =>
      (file_at s' (doc GROUP_METADATA_KEY_EXT) = Some (print group_default_json)
       \/ exists text, file_at s (doc GROUP_METADATA_KEY_EXT) = Some text
                       /\ file_at s' (doc GROUP_METADATA_KEY_EXT) = Some text)
      /\ forall q, q <> doc GROUP_METADATA_KEY_EXT -> file_at s' q = file_at s q
  | MSetAttributes _ attrs =>
      exists ext text old text', (ext = ARRAY_METADATA_KEY_EXT \/ ext = GROUP_METADATA_KEY_EXT)
      /\ file_at s (doc ext) = Some text /\ from_text as_map text = Ok old
      /\ file_at s' (doc ext) = Some text' /\ from_text as_map text' = Ok (merge_doc old attrs)
      /\ forall q, q <> doc ext -> file_at s' q = file_at s q
  end.
