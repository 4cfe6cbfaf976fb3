(** What a store is expected to do, for any implementation of the store traits
    (storage.rs:33-83): finite maps from keys to values. *)
From Verif Require Import GenHier Nd Spec SpecMeta SpecHier.

(** ** Stores that behave as maps *)

(** The keys [erase_prefix p] is to erase when [p] is read as a directory: [p]
    itself (trailing slashes do not count) and what lies below it. *)
Definition below (p k : bytes) : Prop :=
  k = trim_end_slash p \/ (trim_end_slash p ++ [slash]) `prefix_of` k.
(** The keys it is to erase when the prefix is read as a string. *)
Definition string_prefix (p k : bytes) : Prop := p `prefix_of` k.

(** Read, written and erased by exact key; [kv] is the map a state stands for.
    Calls to [set] count only if the value was produced without error. *)
Record map_like {S} (st : store S) (erased : bytes -> bytes -> Prop) (kv : S -> gmap bytes bytes) : Prop := {
  ml_exists : forall x k, ss_exists st x k = Ok (bool_decide (is_Some (kv x !! k)));
  ml_get : forall x k, ss_get st x k = Ok (kv x !! k);
  ml_set : forall x k c, exists x', ss_set st x k (c, Ok tt) = (x', Ok tt) /\ kv x' = <[k := c]> (kv x);
  ml_erase : forall x k, exists x', ss_erase st x k = (x', Ok true) /\ kv x' = delete k (kv x);
  ml_erase_prefix : forall x p, exists x', ss_erase_prefix st x p = (x', Ok true)
    /\ forall k, (erased p k -> kv x' !! k = None) /\ (~ erased p k -> kv x' !! k = kv x !! k)
}.
(** Nothing of a hierarchy is stored yet. *)
Definition fresh_store (m : gmap bytes bytes) : Prop :=
  forall k, B "/meta/" `prefix_of` k \/ B "/data/" `prefix_of` k -> m !! k = None.

(** ** Histories over any store *)

(** As [hop_step], SpecHier.v. *)
Definition g_step {S} (st : store S) (sfx : bytes) (C : codec) (h : host) (x : S) (o : hop) : S * hans :=
  let unit_of (r : S * res unit) := (fst r, HUnit (snd r)) in
  match o with
  | OCreateArray path m => unit_of (g_create_array st sfx x path m)
  | OCreateGroup path => unit_of (g_create_group st sfx x path)
  | OSetAttributes path attrs => unit_of (g_set_attributes st sfx x path attrs)
  | ORemove path => unit_of (g_remove st sfx x path)
  | OExists path => (x, HBool (g_exists st sfx x path))
  | OMetadata path => (x, HMeta (g_get_array_metadata st sfx x path))
  | OAttributes path => (x, HAttrs (g_list_attributes st sfx x path))
  | OWrite t path pos data =>
      unit_of (gon x (g_get_array_metadata st sfx x path) (fun m =>
               g_write_chunk st C h x t path m (Chunk pos data)))
  | ODelete path pos =>
      let r := gon x (g_get_array_metadata st sfx x path) (fun m => g_delete_chunk st x path m pos) in
      (fst r, HBool (snd r))
  | ORead t path pos =>
      (x, HChunk (m ← g_get_array_metadata st sfx x path; g_read_chunk st C h x t path m pos))
  end.
Fixpoint g_run {S} (st : store S) (sfx : bytes) (C : codec) (h : host) (x : S) (os : list hop) : S * list hans :=
  match os with
  | [] => (x, [])
  | o :: os' => let '(x1, a) := g_step st sfx C h x o in
                let '(x2, l) := g_run st sfx C h x1 os' in (x2, a :: l)
  end.

(** ** Paths written in one way *)

(** Names separated by single slashes, with any number of slashes around: keys
    are compared as strings, so "a//b" and "a/b" need not be the same node. *)
Definition tidy_path (path : bytes) : Prop :=
  exists i j, path = replicate i slash ++ join_slash (pieces path) ++ replicate j slash.
(** A separator that is "/" or has no slash in it. *)
Definition tidy_sep (sep : bytes) : Prop := sep = [slash] \/ slash ∉ sep.
Definition hop_path (o : hop) : bytes :=
  match o with
  | OCreateArray path _ | OCreateGroup path | OSetAttributes path _ | ORemove path | OExists path
  | OMetadata path | OAttributes path | OWrite _ path _ _ | ODelete path _ | ORead _ path _ => path
  end.
Definition hop_tidy (o : hop) : Prop :=
  tidy_path (hop_path o) /\ match o with OCreateArray _ m => tidy_sep (am_sep m) | _ => True end.

(** ** Listing *)

(** What the trait asks of `list_dir` (storage.rs:65-67): the keys that continue
    the prefix without a slash, and the prefix continued up to the next slash
    for every other key; each once. *)
Definition lists_dir {S} (st : store S) (kv : S -> gmap bytes bytes) : Prop :=
  forall x p, exists ks ps, ss_list_dir st x p = Ok (ks, ps) /\ NoDup ks /\ NoDup ps
  /\ (forall k, k ∈ ks <-> is_Some (kv x !! k) /\ exists r, k = p ++ r /\ slash ∉ r)
  /\ (forall q, q ∈ ps <-> exists r r', q = p ++ r ++ [slash] /\ slash ∉ r /\ is_Some (kv x !! (q ++ r'))).

(** ** A store: the map itself *)

(** What follows the prefix, up to and without the next slash; whether there was one. *)
Fixpoint upto_slash (r : bytes) : bytes * bool :=
  match r with
  | [] => ([], false)
  | b :: r' => if bool_decide (b = slash) then ([], true)
               else let '(u, f) := upto_slash r' in (b :: u, f)
  end.
Definition map_list_dir (m : gmap bytes bytes) (p : bytes) : list bytes * list bytes :=
  let ks := filter (fun k => p `prefix_of` k) (map fst (map_to_list m)) in
  (filter (fun k => snd (upto_slash (drop (length p) k)) = false) ks,
   remove_dups (map (fun k => p ++ fst (upto_slash (drop (length p) k)) ++ [slash])
                    (filter (fun k => snd (upto_slash (drop (length p) k)) = true) ks))).
(** [erased] decides what erase_prefix removes. *)
Definition map_store (erased : bytes -> bytes -> Prop) `{forall p k, Decision (erased p k)} : store (gmap bytes bytes) :=
  Store _ (fun m k => Ok (bool_decide (is_Some (m !! k)))) (fun m k => Ok (m !! k)) (fun _ k => Ok k)
    (fun m p => Ok (map_list_dir m p))
    (fun m k v => (match snd v with Ok _ => <[k := fst v]> m | _ => m end, snd v))
    (fun m k => (delete k m, Ok true))
    (fun m p => (filter (fun kv => ~ erased p (fst kv)) m, Ok true)).
Global Instance below_dec p k : Decision (below p k).
Proof. unfold below. apply _. Defined.
Global Instance string_prefix_dec p k : Decision (string_prefix p k).
Proof. unfold string_prefix. apply _. Defined.
