(** Vocabulary for the properties about processes that die while others run. *)
From Verif Require Export SpecConc SpecShare.
From Verif Require Import Spec SpecMeta.
Local Open Scope Z_scope.

(** The file descriptors of a process after a system call. *)
Definition owned {T : Type} (own : list nat) (c : sys T) : T -> list nat :=
  match c in sys T return T -> list nat with
  | SOpenW _ | SOpenR _ _ => fun x => match x with Ok fd => fd :: own | _ => own end
  | SClose fd => fun _ => filter (fun fd' => fd' <> fd) own
  | _ => fun _ => own
  end.
(** The kernel closes the descriptors of a dead process, which ends its locks. *)
Fixpoint reaped {A : Type} (own : list nat) : proc (option A) :=
  match own with
  | [] => Ret None
  | fd :: own => Call (SClose fd) (fun _ => reaped own)
  end.
(** The process dies before its system call number [n] (while it waits for a
    lock, if that call is flock(2)), unless it has returned by then.  What it
    has in memory is lost. *)
Fixpoint dies {A : Type} (own : list nat) (n : nat) (p : proc A) {struct p} : proc (option A) :=
  match p with
  | Ret a => Ret (Some a)
  | Call c k =>
      match n with
      | O => reaped own
      | S n => Call c (fun x => dies (owned own c x) n (k x))
      end
  end.
(** [None]: the process lives on. *)
Definition mortal {A : Type} (f : option nat) (p : proc A) : proc (option A) :=
  match f with
  | None => pbind p (fun a => Ret (Some a))
  | Some n => dies [] n p
  end.

(** Calls of several processes executed concurrently from state [o] for some
    time, as in [executes]; with each call, when its process dies. *)
Definition survives (C : codec) (h : host) (H : hier) (sl : bytes -> list bytes)
    (o : os) (calls : list (call * option nat)) (o' : os) (ps : list (proc (option reply))) : Prop :=
  csteps (o, map (fun cf : call * option nat => mortal cf.2 (p_call C h H sl cf.1)) calls) (o', ps).
(** Call number [i] has returned [a]. *)
Definition replied {A : Type} (ps : list (proc (option A))) (i : nat) (a : A) : Prop :=
  ps !! i = Some (Ret (Some a)).
(** A process that writes the chunk dies. *)
Definition writer_dies (calls : list (call * option nat)) (path : bytes) (pos : list Z) : Prop :=
  exists c n, (c, Some n) ∈ calls /\ writes_chunk c path pos.
(** What a process that dies would have written to the chunk: strict prefixes
    are recognised as such. *)
Definition prefixes_detected (C : codec) (h : host) (calls : list (call * option nat)) (t : rty)
    (path : bytes) (m : array_meta) (pos : list Z) : Prop :=
  forall path' data ws n, (KWriteChunk t path' m (Chunk pos data) ws, Some n) ∈ calls ->
  pieces path' = pieces path -> truncation_detected C h t m (concat ws).
(** A process that updates the attributes of the node dies. *)
Definition updater_dies (calls : list (call * option nat)) (path : bytes) : Prop :=
  exists path' u rs n, (KSetAttributes path' u rs, Some n) ∈ calls /\ pieces path' = pieces path.
(** As [survives], for calls that may read or write regions. *)
Definition rsurvives (flit : rty -> bytes -> Z) (C : codec) (h : host) (H : hier) (sl : bytes -> list bytes)
    (o : os) (calls : list (rcall * option nat)) (o' : os) (ps : list (proc (option rreply))) : Prop :=
  csteps (o, map (fun cf : rcall * option nat => mortal cf.2 (p_rcall flit C h H sl cf.1)) calls) (o', ps).
(** A process that writes the chunk that covers voxel [x], or a region with
    voxels of that chunk, dies. *)
Definition voxel_writer_dies (calls : list (rcall * option nat)) (path : bytes) (m : array_meta) (x : list Z) : Prop :=
  exists c n, (c, Some n) ∈ calls /\
  match c with
  | RCall (KWriteChunk _ path' _ ck _) => pieces path' = pieces path /\ in_chunk (am_chunk_shape m) (ck_pos ck) x
  | RWrite _ path' _ off arr _ => pieces path' = pieces path
      /\ exists pos, in_chunk (am_chunk_shape m) pos x /\ meets_box m (BBox off (nd_shape arr)) pos
  | _ => False
  end.
(** A process that creates an array at this place, or updates the attributes
    there, dies. *)
Definition array_writer_dies (calls : list (call * option nat)) (path : bytes) : Prop :=
  exists c n, (c, Some n) ∈ calls /\
  match c with
  | KCreateArray path' _ | KSetAttributes path' _ _ => pieces path' = pieces path
  | _ => False
  end.
