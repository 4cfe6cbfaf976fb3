(** Model: FilesystemHierarchy::open as a process. *)
From Verif Require Export Sys.
Local Open Scope Z_scope.

(** filesystem.rs:63-82 *)
Definition p_open (V : bytes -> option bool) (base : bytes) (rs : list nat) : proc (res hier) :=
  ptry (p_read_entry_point base rs) (fun e =>
  Ret (_ ← check_version V e; Ok (Hier base e))).
