(** Property theorems: crashes and a full disk (C41, C42, C48, C49, C54).
    A process is a sequence of system calls (Sys.v).  [stops o p o']: process
    [p], started in state [o], is killed after some number of its system
    calls, leaving [o']; [released o'] is [o'] after the operating system has
    closed the killed process's files and dropped its locks.  How documents and
    chunks are cut into write_all calls ([sl], [ws]), how many bytes each read
    returns ([rs]) and how many bytes each write accepts ([o_short]) are
    arbitrary. *)
From Verif Require Import Hier Sys Spec SpecMeta SpecSys BaseFacts FSFacts StoreFacts NodeFacts SysFacts SysOps
  CrashFacts CrashOps CrashMeta CrashOpen SysWit Props_Chunk Props_Store.
Local Open Scope Z_scope.

(** C41: uncompressed chunks *)
Theorem C41_crash_during_write :
  forall C h H t path m d pos data ws bs o o' rs,
  plain (hy_base H) -> plain path -> plain (am_sep m) -> pos_ok pos ->
  idle o -> wf_fs (view o) ->
  effective m d -> same_kind_width d t -> am_comp m = CRaw -> chunk_shape_ok m ->
  Forall (elt_ok t) data -> lenZ data < two64 -> full_chunk m data ->
  in_bounds (h_prof h) m pos = Ok true ->
  encode_chunk C h t m (Chunk pos data) = (bs, Ok tt) -> concat ws = bs ->
  stops o (p_write_chunk H C h t path m (Chunk pos data) ws) o' ->
  exists a, answers (released o') (p_read_chunk H C h t path m pos rs) a /\
    (answers o (p_read_chunk H C h t path m pos rs) a \/ a = Ok (Some (Chunk pos data))
     \/ a = Err UnexpectedEof).
Proof. exact crash_raw. Qed.
Print Assumptions C41_crash_during_write.

(** Everything else reads as before. *)
Theorem C41_crash_frame :
  forall C h H t path m pos data ws,
  plain (hy_base H) -> plain path -> plain (am_sep m) -> pos_ok pos ->
  forall o o', idle o -> wf_fs (view o) -> good_sep (am_sep m) ->
  good_suffix (ep_suffix (hy_ep H)) ->
  stops o (p_write_chunk H C h t path m (Chunk pos data) ws) o' ->
  (forall t' path' m' pos' rs, plain path' -> good_sep (am_sep m') -> pos_ok pos' ->
     (pieces path', pos') <> (pieces path, pos) ->
     exists a, answers o (p_read_chunk H C h t' path' m' pos' rs) a
            /\ answers (released o') (p_read_chunk H C h t' path' m' pos' rs) a)
  /\ (forall path' rs, plain path' ->
       (exists a, answers o (p_get_array_metadata H path' rs) a
               /\ answers (released o') (p_get_array_metadata H path' rs) a)
       /\ (exists a, answers o (p_list_attributes H path' rs) a
               /\ answers (released o') (p_list_attributes H path' rs) a)).
Proof. exact chunk_crash_frame. Qed.
Print Assumptions C41_crash_frame.

(** Other compressions, if their decoder rejects every strict prefix of what
    their encoder wrote for this chunk. *)
Theorem C41_crash_codec :
  forall C h H t path m pos data ws bs o o' rs,
  plain (hy_base H) -> plain path -> plain (am_sep m) -> pos_ok pos ->
  idle o -> wf_fs (view o) ->
  lossless C (am_comp m) -> Forall (elt_ok t) data -> lenZ data < two64 -> full_chunk m data ->
  in_bounds (h_prof h) m pos = Ok true ->
  encode_chunk C h t m (Chunk pos data) = (bs, Ok tt) -> concat ws = bs ->
  truncation_detected C h t m bs ->
  stops o (p_write_chunk H C h t path m (Chunk pos data) ws) o' ->
  exists a, answers (released o') (p_read_chunk H C h t path m pos rs) a /\
    (answers o (p_read_chunk H C h t path m pos rs) a \/ a = Ok (Some (Chunk pos data))
     \/ exists e, a = Err e).
Proof. exact crash_codec. Qed.
Print Assumptions C41_crash_codec.

Theorem C41_raw_truncation_detected :
  forall C h t m d data pos bs,
  effective m d -> same_kind_width d t -> am_comp m = CRaw -> chunk_shape_ok m -> full_chunk m data ->
  encode_chunk C h t m (Chunk pos data) = (bs, Ok tt) -> truncation_detected C h t m bs.
Proof. exact raw_truncation_detected. Qed.
Print Assumptions C41_raw_truncation_detected.

(** The stronger claim (old or new value) fails for every chunk: there is a
    crash point after which neither can be read, also if the chunk existed. *)
Theorem C41_old_or_new_refuted :
  forall C h H t path m d pos data ws bs o rs,
  plain (hy_base H) -> plain path -> plain (am_sep m) -> pos_ok pos ->
  idle o -> wf_fs (view o) -> can_hold_file (view o) (loc (hy_base H) (get_chunk_key path m pos)) ->
  effective m d -> same_kind_width d t -> am_comp m = CRaw -> chunk_shape_ok m -> full_chunk m data ->
  in_bounds (h_prof h) m pos = Ok true ->
  encode_chunk C h t m (Chunk pos data) = (bs, Ok tt) -> bs <> [] -> concat ws = bs ->
  exists o', stops o (p_write_chunk H C h t path m (Chunk pos data) ws) o' /\
    answers (released o') (p_read_chunk H C h t path m pos rs) (Err UnexpectedEof).
Proof. exact crash_loses. Qed.
Print Assumptions C41_old_or_new_refuted.

(** A machine on which a hierarchy, an array and a chunk have been created. *)
Definition ex_setup : proc (res unit) :=
  ptry (p_open_or_create (fun _ => Some true) cuts (B "/srv/h") [3%nat; 1%nat]) (fun _ =>
  ptry (p_create_array ex_hier cuts ex_path ex_meta) (fun _ =>
  p_write_chunk ex_hier ex_codec ex_host RI16 ex_path ex_meta (Chunk [1; 1] ex_data) [ex_bytes])).
Definition ex_os : os := after boot ex_setup.
Lemma ex_os_calm : calm ex_os.
Proof. apply after_calm; [apply boot_calm|vm_compute; reflexivity..]. Qed.
Lemma ex_os_wf : wf_fs (view ex_os).
Proof. apply wf_check_ok. vm_compute. reflexivity. Qed.
Definition ex_new : list Z := [7; -7; 0; 1; 2; 3].
Definition ex_new_bytes : bytes := fst (encode_chunk ex_codec ex_host RI16 ex_meta (Chunk [1; 1] ex_new)).

Example C41_example :
  calm ex_os /\ wf_fs (view ex_os)
  /\ can_hold_file (view ex_os) (loc (hy_base ex_hier) (get_chunk_key ex_path ex_meta [1; 1]))
  /\ answers ex_os (p_read_chunk ex_hier ex_codec ex_host RI16 ex_path ex_meta [1; 1] [2%nat])
       (Ok (Some (Chunk [1; 1] ex_data)))
  /\ answers (released (after ex_os (p_write_chunk ex_hier ex_codec ex_host RI16 ex_path ex_meta
        (Chunk [1; 1] ex_new) [ex_new_bytes])))
       (p_read_chunk ex_hier ex_codec ex_host RI16 ex_path ex_meta [1; 1] [])
       (Ok (Some (Chunk [1; 1] ex_new)))
  /\ encode_chunk ex_codec ex_host RI16 ex_meta (Chunk [1; 1] ex_new) = (ex_new_bytes, Ok tt)
  /\ ex_new_bytes <> [] /\ ex_new_bytes <> ex_bytes.
Proof.
  split; [apply ex_os_calm|]. split; [apply ex_os_wf|]. split.
  { apply can_hold_existing; [apply ex_os_wf|]. exists ex_bytes. vm_compute. reflexivity. }
  split.
  { apply answers_check. vm_compute. reflexivity. }
  split.
  { apply answers_check. vm_compute. reflexivity. }
  split; [vm_compute; reflexivity|]. split; by vm_compute.
Qed.

(** C42.  [o_room o = Some room]: the file system accepts [room] more bytes.
    Success means that at most the last 8192 bytes (the buffer) are missing;
    that the chunk is complete if there is room for it; and that a later read
    returns the chunk or an error.  Missing: that success means the chunk is
    on disk, which is false (next theorem). *)
Theorem C42_reported_partial :
  forall C h H t path m d pos data ws bs o o' rs,
  plain (hy_base H) -> plain path -> plain (am_sep m) -> pos_ok pos ->
  idle o -> wf_fs (view o) ->
  effective m d -> same_kind_width d t -> am_comp m = CRaw -> chunk_shape_ok m ->
  Forall (elt_ok t) data -> lenZ data < two64 -> full_chunk m data ->
  in_bounds (h_prof h) m pos = Ok true ->
  encode_chunk C h t m (Chunk pos data) = (bs, Ok tt) -> concat ws = bs ->
  run o (p_write_chunk H C h t path m (Chunk pos data) ws) = Some (o', Ok tt) ->
  (forall room, o_room o = Some room -> lenZ bs <= Z.of_nat room + 8192)
  /\ ((forall room, o_room o = Some room -> lenZ bs <= Z.of_nat room) ->
      answers o' (p_read_chunk H C h t path m pos rs) (Ok (Some (Chunk pos data))))
  /\ (answers o' (p_read_chunk H C h t path m pos rs) (Ok (Some (Chunk pos data)))
      \/ answers o' (p_read_chunk H C h t path m pos rs) (Err UnexpectedEof)).
Proof. exact reported. Qed.
Print Assumptions C42_reported_partial.

(** Every chunk smaller than the buffer is reported as written although not
    all of it could be written, and its old value is gone. *)
Theorem C42_reported_refuted :
  forall C h H t path m pos data ws bs,
  plain (hy_base H) -> plain path -> plain (am_sep m) -> pos_ok pos ->
  encode_chunk C h t m (Chunk pos data) = (bs, Ok tt) -> concat ws = bs ->
  forall d o room, idle o -> wf_fs (view o) ->
  can_hold_file (view o) (loc (hy_base H) (get_chunk_key path m pos)) ->
  effective m d -> same_kind_width d t -> am_comp m = CRaw -> chunk_shape_ok m -> full_chunk m data ->
  in_bounds (h_prof h) m pos = Ok true ->
  lenZ bs < 8192 -> o_room o = Some room -> Z.of_nat room < lenZ bs ->
  exists o', run o (p_write_chunk H C h t path m (Chunk pos data) ws) = Some (o', Ok tt) /\
    forall rs, answers o' (p_read_chunk H C h t path m pos rs) (Err UnexpectedEof).
Proof. exact chunk_lost. Qed.
Print Assumptions C42_reported_refuted.

Example C42_example :
  idle (set_room ex_os (Some 5%nat)) /\ view (set_room ex_os (Some 5%nat)) = view ex_os
  /\ lenZ ex_new_bytes = 12.
Proof. split; [apply set_room_idle, ex_os_calm|]. split; [apply view_set_room|]. vm_compute. reflexivity. Qed.

(** C48.  Missing: that the later call always succeeds, which is false (next
    theorem).  It fails only if the entry point file was created and its text
    is incomplete. *)
Theorem C48_crash_during_creation_partial :
  forall V base, plain base -> forall sl, (forall b, concat (sl b) = b) ->
  forall rs rs' o o', V (B "3.0") = Some true -> calm o -> wf_fs (view o) ->
  (forall k, file_at (view o) (take k (pieces base)) = None) ->
  node_at (view o) (pieces base ++ [B "zarr.json"]) = None ->
  stops o (p_open_or_create V sl base rs) o' ->
  exists a, answers (released o') (p_open_or_create V sl base rs') a /\
    (a = Ok (Hier base ep_default) \/
     (a = Err InvalidData /\ exists n, (n < length (print (enc_ep ep_default)))%nat /\
        file_at (view o') (pieces base ++ [B "zarr.json"]) = Some (take n (print (enc_ep ep_default))))).
Proof. exact create_crash. Qed.
Print Assumptions C48_crash_during_creation_partial.

(** At every fresh location there is a crash point after which the location
    can never be opened. *)
Theorem C48_crash_during_creation_refuted :
  forall V base, plain base -> forall sl, (forall b, concat (sl b) = b) ->
  forall rs o, calm o -> wf_fs (view o) ->
  (forall k, file_at (view o) (take k (pieces base)) = None) ->
  node_at (view o) (pieces base ++ [B "zarr.json"]) = None ->
  exists o', stops o (p_open_or_create V sl base rs) o' /\
    file_at (view o') (pieces base ++ [B "zarr.json"]) = Some [] /\ wf_fs (view o') /\
    forall V' rs', answers (released o') (p_open_or_create V' sl base rs') (Err InvalidData).
Proof. exact create_crash_bad. Qed.
Print Assumptions C48_crash_during_creation_refuted.

Example C48_example :
  calm boot /\ wf_fs (view boot)
  /\ (forall k, file_at (view boot) (take k (pieces (B "/srv/h"))) = None)
  /\ node_at (view boot) (pieces (B "/srv/h") ++ [B "zarr.json"]) = None
  /\ answers boot (p_open_or_create (fun _ => Some true) cuts (B "/srv/h") [])
       (Ok (Hier (B "/srv/h") ep_default)).
Proof.
  split; [apply boot_calm|]. split; [apply wf_check_ok; by vm_compute|]. split.
  { intros k. destruct k as [|[|[|k]]]; by vm_compute. }
  split; [by vm_compute|]. apply answers_check. vm_compute. reflexivity.
Qed.

(** C49: creating arrays and groups, updating attributes.  Nodes other than the
    one operated on answer as before; that one answers as before, as after the
    complete operation, or with an error. *)
Theorem C49_crash_metadata :
  forall H, plain (hy_base H) -> good_suffix (ep_suffix (hy_ep H)) ->
  forall sl, (forall b, concat (sl b) = b) ->
  forall rs rs' op o o' path', calm o -> wf_fs (view o) -> mo_ok op -> plain path' ->
  stops o (p_meta_op H sl rs op) o' ->
  (exists a, answers (released o') (p_get_array_metadata H path' rs') a /\
     (answers o (p_get_array_metadata H path' rs') a \/
      pieces path' = pieces (mo_path op) /\
      ((exists o2, leaves o (p_meta_op H sl rs op) o2 /\ answers o2 (p_get_array_metadata H path' rs') a)
       \/ exists e, a = Err e))) /\
  (exists a, answers (released o') (p_list_attributes H path' rs') a /\
     (answers o (p_list_attributes H path' rs') a \/
      pieces path' = pieces (mo_path op) /\
      ((exists o2, leaves o (p_meta_op H sl rs op) o2 /\ answers o2 (p_list_attributes H path' rs') a)
       \/ exists e, a = Err e))).
Proof. exact op_crash. Qed.
Print Assumptions C49_crash_metadata.

Definition ex_attr_op : meta_op := MSetAttributes ex_path [(B "k", JInt 3)].
Example C49_example :
  mo_ok ex_attr_op /\ mo_ok (MCreateArray (B "/n/new") ex_meta) /\ mo_ok (MCreateGroup (B "g"))
  /\ answers ex_os (p_list_attributes ex_hier ex_path []) (Ok [])
  /\ answers (after ex_os (p_meta_op ex_hier cuts [] ex_attr_op)) (p_list_attributes ex_hier ex_path [])
       (Ok [(B "k", JInt 3)]).
Proof.
  split; [split; [apply plain_check; by vm_compute|]; split; [split; by vm_compute|vm_compute; lia]|].
  split; [split; [apply plain_check; by vm_compute|]|].
  { split.
    - split; [split; repeat constructor; vm_compute; done|]. split; [done|].
      split; [split; vm_compute; reflexivity|]. split; [constructor|done].
    - split; [done|]. split; [vm_compute; lia|constructor]. }
  split; [apply plain_check; by vm_compute|]. split; apply answers_check; vm_compute; reflexivity.
Qed.

(** C54: alone, each call has the effect and the result of the sequential
    model, however the operating system splits its reads and writes. *)
Theorem C54_store :
  forall base key ws rs r o, calm o ->
  does o (p_get base key rs) (view o, st_get base (view o) key)
  /\ does o (p_exists base key) (view o, st_exists base (view o) key)
  /\ does o (p_set base key ws r) (st_set base (view o) key (concat ws, r))
  /\ does o (p_erase base key) (st_erase base (view o) key).
Proof. exact does_store. Qed.
Print Assumptions C54_store.

Theorem C54_operations :
  forall H sl, (forall b, concat (sl b) = b) ->
  forall C h t path m attrs pos ck ws rs o, calm o -> concat ws = fst (encode_chunk C h t m ck) ->
  does o (p_get_array_metadata H path rs) (view o, get_array_metadata H (view o) path)
  /\ does o (p_read_chunk H C h t path m pos rs) (view o, read_chunk C h H (view o) t path m pos)
  /\ does o (p_list_attributes H path rs) (view o, list_attributes H (view o) path)
  /\ does o (p_set_attributes H sl path attrs rs) (set_attributes H (view o) path attrs)
  /\ does o (p_create_group H sl path) (create_group H (view o) path)
  /\ does o (p_create_array H sl path m) (create_array H (view o) path m)
  /\ does o (p_write_chunk H C h t path m ck ws) (write_chunk C h H (view o) t path m ck)
  /\ does o (p_delete_chunk H path m pos) (delete_chunk H (view o) path m pos).
Proof. exact does_operations. Qed.
Print Assumptions C54_operations.

Theorem C54_open_or_create :
  forall V sl base rs o, (forall b, concat (sl b) = b) ->
  calm o -> wf_fs (view o) -> plain base ->
  does o (p_open_or_create V sl base rs) (open_or_create V base (view o)).
Proof. exact does_open_or_create. Qed.
Print Assumptions C54_open_or_create.

(** Every state reached from an empty machine is one of those considered. *)
Theorem C54_boot : calm boot.
Proof. exact boot_calm. Qed.
Print Assumptions C54_boot.
Theorem C54_states :
  forall T (c : sys T) o o' x, os_ok o -> sys_step c o = Some (o', x) -> os_ok o'.
Proof. exact @sys_step_ok. Qed.
Print Assumptions C54_states.

Example C54_example : calm ex_os /\ view ex_os <> view boot.
Proof. split; [apply ex_os_calm|]. intros E. apply (f_equal (fun s => is_dir_at s [B "srv"])) in E. by vm_compute in E. Qed.
