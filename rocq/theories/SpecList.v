(** Specification vocabulary for listings. *)
From Verif Require Import Hier Spec SpecMeta SpecHier.
Local Open Scope Z_scope.

(** The order of Rust strings: at the first difference the smaller byte comes
    first, a proper prefix comes first. *)
Definition string_lt (a b : bytes) : Prop :=
  (exists p x y a' b', a = p ++ x :: a' /\ b = p ++ y :: b' /\ Z_of_byte x < Z_of_byte y)
  \/ exists y b', b = a ++ y :: b'.

(** [n] names an explicit array or group directly under [path]. *)
Definition explicit_child (H : hier) (s : fs) (path n : bytes) : Prop :=
  exists path', plain path' /\ pieces path' = pieces path ++ [n]
  /\ (explicit_array H s path' \/ explicit_group H s path').

(** The directory holding the metadata of what is under [path]. *)
Definition meta_dir (H : hier) (path : bytes) : fpath :=
  pieces (hy_base H) ++ [B "meta"; B "root"] ++ pieces path.
(** [n] names such a directory directly under [path]: something is, or was,
    stored under the path's child [n]. *)
Definition child_dir (H : hier) (s : fs) (path n : bytes) : Prop :=
  node_at s (meta_dir H path ++ [n]) = Some Dir.

(** Every file of the hierarchy's metadata tree is the document of a node. *)
Definition documents_only (H : hier) (s : fs) : Prop :=
  forall r c, file_at s (pieces (hy_base H) ++ B "meta" :: r) = Some c ->
  exists path, plain path
  /\ (pieces (hy_base H) ++ B "meta" :: r = loc (hy_base H) (array_metadata_key (ep_suffix (hy_ep H)) path)
      \/ pieces (hy_base H) ++ B "meta" :: r = loc (hy_base H) (group_metadata_key (ep_suffix (hy_ep H)) path)).

(** Names as file systems have them: not empty, without slash, and of a length
    that does not matter. *)
Definition real_names (s : fs) : Prop :=
  forall p x n, s !! (p ++ [x]) = Some n -> x <> [] /\ slash ∉ x /\ lenZ x < two32.

(** Calls that neither create nor remove nodes. *)
Definition keeps_nodes (o : api_op) : Prop :=
  match o with ACreateArray _ _ | ACreateGroup _ | ARemove _ => False | _ => True end.
