(** Model of FilesystemHierarchy::get_attributes (src/store/filesystem.rs),
    a public method that nothing else in the crate uses. *)
From Verif Require Import Hier.

(** filesystem.rs:119-140: `from_reader` of the file the key names; otherwise
    the last two extensions are dropped from the path in the file system (not
    from the key). *)
Definition get_attributes (H : hier) (s : fs) (key : bytes) : res json :=
  path ← get_path (hy_base H) key;
  if path_exists s (comps path) && path_is_file s (comps path)
  then text ← open_read s (comps path); from_text dec_value text
  else
    let path := set_extension (set_extension path []) [] in
    if path_exists s (comps path) && path_is_file s (comps path)
    then Ok (JObj []) else Err NotFound.
