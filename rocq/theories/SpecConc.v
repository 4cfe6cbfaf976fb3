(** Vocabulary for the properties about several processes. *)
From Verif Require Export SpecSys.
From Verif Require Import Spec SpecMeta.
Local Open Scope Z_scope.

(** A call of the public interface with its arguments, and its reply.  [rs] and
    [ws]: how the content is cut into reads and writes; [ord] and [fuel]: see
    [p_rm_tree] (all arbitrary). *)
Inductive call :=
  | KGetMetadata (path : bytes) (rs : list nat)
  | KListAttributes (path : bytes) (rs : list nat)
  | KSetAttributes (path : bytes) (attrs : jmap) (rs : list nat)
  | KCreateGroup (path : bytes)
  | KCreateArray (path : bytes) (m : array_meta)
  | KReadChunk (t : rty) (path : bytes) (m : array_meta) (pos : list Z) (rs : list nat)
  | KWriteChunk (t : rty) (path : bytes) (m : array_meta) (ck : chunk) (ws : list bytes)
  | KDeleteChunk (path : bytes) (m : array_meta) (pos : list Z)
  | KRemove (path : bytes) (ord : list comp -> list (bytes * bool) -> list (bytes * bool)) (fuel : nat)
  | KListNodes (path : bytes) (ord : list comp -> list (bytes * bool) -> list (bytes * bool)).
Inductive reply :=
  | YMeta (r : res array_meta)
  | YAttrs (r : res jmap)
  | YUnit (r : res unit)
  | YChunk (r : res (option chunk))
  | YBool (r : res bool)
  | YNames (r : res (list bytes)).

Definition map_reply {A : Type} (f : A -> reply) (p : proc A) : proc reply :=
  pbind p (fun a => Ret (f a)).
Definition p_call (C : codec) (h : host) (H : hier) (sl : bytes -> list bytes) (c : call) : proc reply :=
  match c with
  | KGetMetadata path rs => map_reply YMeta (p_get_array_metadata H path rs)
  | KListAttributes path rs => map_reply YAttrs (p_list_attributes H path rs)
  | KSetAttributes path attrs rs => map_reply YUnit (p_set_attributes H sl path attrs rs)
  | KCreateGroup path => map_reply YUnit (p_create_group H sl path)
  | KCreateArray path m => map_reply YUnit (p_create_array H sl path m)
  | KReadChunk t path m pos rs => map_reply YChunk (p_read_chunk H C h t path m pos rs)
  | KWriteChunk t path m ck ws => map_reply YUnit (p_write_chunk H C h t path m ck ws)
  | KDeleteChunk path m pos => map_reply YBool (p_delete_chunk H path m pos)
  | KRemove path ord fuel => map_reply YUnit (p_remove H ord fuel path)
  | KListNodes path ord => map_reply YNames (p_list_nodes H ord (h_prof h) path)
  end.

(** The name of no chunk begins so ("c", or "c" and a digit): a node with such
    a name is stored where another array's chunks are (C15). *)
Definition no_chunk_name (n : bytes) : Prop :=
  n <> B "c" /\ forall b r, n = "c"%char :: b :: r -> is_digit b = false.
(** The arguments are such that different nodes and chunks have different
    files (C12, C15). *)
Definition call_ok (c : call) : Prop :=
  match c with
  | KGetMetadata path _ | KListAttributes path _ | KSetAttributes path _ _
  | KCreateGroup path | KCreateArray path _ | KListNodes path _ => plain path
  | KRemove path _ _ => plain path /\ Forall no_chunk_name (pieces path)
  | KReadChunk _ path m pos _ | KDeleteChunk path m pos => plain path /\ good_sep (am_sep m) /\ pos_ok pos
  | KWriteChunk _ path m ck _ => plain path /\ good_sep (am_sep m) /\ pos_ok (ck_pos ck)
  end.

(** The calls of several processes, executed concurrently from state [o] for
    some time: the state then is [o'] and [ps] is what remains to be done. *)
Definition executes (C : codec) (h : host) (H : hier) (sl : bytes -> list bytes)
    (o : os) (calls : list call) (o' : os) (ps : list (proc reply)) : Prop :=
  csteps (o, map (p_call C h H sl) calls) (o', ps).
(** Call number [i] has returned [a]. *)
Definition returned {A : Type} (ps : list (proc A)) (i : nat) (a : A) : Prop := ps !! i = Some (Ret a).
Definition all_returned {A : Type} (ps : list (proc A)) : Prop :=
  forall i q, ps !! i = Some q -> exists a, q = Ret a.

(** Call [c] writes the chunk at [pos] of the array at [path]. *)
Definition writes_chunk (c : call) (path : bytes) (pos : list Z) : Prop :=
  match c with
  | KWriteChunk _ path' _ ck _ => pieces path' = pieces path /\ ck_pos ck = pos
  | _ => False
  end.
Definition deletes_chunk (c : call) (path : bytes) (pos : list Z) : Prop :=
  match c with
  | KDeleteChunk path' _ pos' => pieces path' = pieces path /\ pos' = pos
  | KRemove path' _ _ => pieces path' `prefix_of` pieces path
  | _ => False
  end.
Definition removes_node (c : call) (path : bytes) : Prop :=
  match c with
  | KRemove path' _ _ => pieces path' = pieces path
  | _ => False
  end.
Definition creates_node (c : call) (path : bytes) : Prop :=
  match c with
  | KCreateArray path' _ | KCreateGroup path' => pieces path' = pieces path
  | _ => False
  end.
Definition sets_attributes (c : call) (path : bytes) : Prop :=
  match c with
  | KSetAttributes path' _ _ => pieces path' = pieces path
  | _ => False
  end.
(** Every call that writes the chunk does so with element type [t], metadata
    [m] and a full chunk that can be encoded. *)
Definition writers_agree (C : codec) (h : host) (calls : list call) (t : rty) (path : bytes)
    (m : array_meta) (pos : list Z) : Prop :=
  forall c, c ∈ calls -> writes_chunk c path pos ->
  exists path' data ws, c = KWriteChunk t path' m (Chunk pos data) ws
    /\ Forall (elt_ok t) data /\ lenZ data < two64 /\ full_chunk m data
    /\ encode_chunk C h t m (Chunk pos data) = (concat ws, Ok tt).
(** Some call writes exactly these elements to the chunk. *)
Definition written (calls : list call) (t : rty) (path : bytes) (m : array_meta) (pos : list Z)
    (data : list Z) : Prop :=
  exists path' ws, KWriteChunk t path' m (Chunk pos data) ws ∈ calls /\ pieces path' = pieces path.
(** A whole value of the chunk: what a read in state [o] returns, or what some
    call writes. *)
Definition whole_chunk (C : codec) (h : host) (H : hier) (t : rty) (path : bytes) (m : array_meta)
    (pos : list Z) (o : os) (calls : list call) (r : res (option chunk)) : Prop :=
  answers o (p_read_chunk H C h t path m pos []) r \/
  exists data, written calls t path m pos data /\ r = Ok (Some (Chunk pos data)).

(** Some process can make its next system call; one step of the whole. *)
Definition can_step {A : Type} (o : os) (ps : list (proc A)) : Prop :=
  exists i q o1 q1, ps !! i = Some q /\ pstep o q = Some (o1, q1).
Definition cstep {A : Type} (c' c : os * list (proc A)) : Prop :=
  exists i q o1 q1, snd c !! i = Some q /\ pstep (fst c) q = Some (o1, q1) /\ c' = (o1, <[i := q1]> (snd c)).

(** Some call asks for the attribute update [u] of the node. *)
Definition requests (calls : list call) (path : bytes) (u : jmap) : Prop :=
  exists path' rs, KSetAttributes path' u rs ∈ calls /\ pieces path' = pieces path.
Definition updates_ok (calls : list call) (path : bytes) : Prop :=
  forall u, requests calls path u -> value_ok (JObj u) /\ (jdepth (JObj u) <= 126)%nat.
(** [new] is what some of the requested updates, in some order, make of [old]. *)
Definition attrs_after (calls : list call) (path : bytes) (old new : jmap) : Prop :=
  keys_sorted new = true /\
  exists us, Forall (requests calls path) us /\ forall k, mget k new = latest k old us.

(** Metadata that can be read back (C25, C27). *)
Definition readable (m : array_meta) : Prop := meta_value m /\ no_raw (am_dtype m) /\ nesting_ok m.
(** [r] is what reading the metadata of one of the arrays created at [path]
    returns, after some of the requested attribute updates. *)
Definition made (calls : list call) (path : bytes) (r : res array_meta) : Prop :=
  exists path' m m' new, KCreateArray path' m ∈ calls /\ pieces path' = pieces path /\ same_meta m m' /\
    attrs_after calls path (am_attrs m) new /\
    (requires_extension (am_exts m) -> r = Err Other) /\
    (~ requires_extension (am_exts m) -> r = Ok (with_attrs m' new)).
