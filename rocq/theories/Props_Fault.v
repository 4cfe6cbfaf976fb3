(** Property theorems: refused system calls (C68).  [faulty o p o' r]: some run of
    [p], any of whose system calls may be refused, ends in [o'] with [r];
    [denied deny o p]: the run in which exactly the calls naming a file in [deny]
    are refused. *)
From Verif Require Import Hier Sys SysNd SysOpen Spec SpecMeta SpecHier SpecSys SpecRemove SpecFault BaseFacts FSFacts
  StoreFacts SysFacts SysWit CrashMeta FaultFacts FaultVisible Props_Chunk Props_Store Props_Hier Props_Crash Props_Nd Props_Region.
Local Open Scope Z_scope.

(** C68.  Whatever is refused, opening a hierarchy and reading metadata or
    attributes give what they give without refusals, or an error; nothing
    changes.  (A path with both an array and a group document is C36.) *)
Theorem C68_metadata_read :
  forall H, plain (hy_base H) -> good_suffix (ep_suffix (hy_ep H)) ->
  forall path rs o, calm o -> wf_fs (view o) -> plain path ->
  (forall V o' r, faulty o (p_open V (hy_base H) rs) o' r ->
     calm o' /\ view o' = view o /\ (answers o (p_open V (hy_base H) rs) r \/ exists e, r = Err e))
  /\ (forall o' r, faulty o (p_get_array_metadata H path rs) o' r ->
     calm o' /\ view o' = view o /\ (answers o (p_get_array_metadata H path rs) r \/ exists e, r = Err e))
  /\ (forall o' r, ~ (explicit_array H (view o) path /\ explicit_group H (view o) path) ->
     faulty o (p_list_attributes H path rs) o' r ->
     calm o' /\ view o' = view o /\ (answers o (p_list_attributes H path rs) r \/ exists e, r = Err e)).
Proof. exact fault_metadata_read. Qed.
Print Assumptions C68_metadata_read.

(** Reading a chunk gives what it gives without refusals, an error, or "absent".
    Missing: that "absent" is given only of absent chunks, which is false. *)
Theorem C68_read_partial :
  forall H C h t path m pos rs o o' r, calm o ->
  faulty o (p_read_chunk H C h t path m pos rs) o' r ->
  calm o' /\ view o' = view o /\
  (answers o (p_read_chunk H C h t path m pos rs) r \/ r = Ok None \/ r = Err Other).
Proof. exact fault_read_chunk. Qed.
Print Assumptions C68_read_partial.

(** Every chunk whose file may not be looked at is reported absent. *)
Theorem C68_read_refuted :
  forall H, plain (hy_base H) ->
  forall C h t path m pos rs o deny, plain path -> plain (am_sep m) -> pos_ok pos ->
  in_bounds (h_prof h) m pos = Ok true ->
  deny (map Normal (loc (hy_base H) (get_chunk_key path m pos))) = true ->
  denied deny o (p_read_chunk H C h t path m pos rs) = Some (o, Ok None).
Proof. exact denied_read. Qed.
Print Assumptions C68_read_refuted.

(** Writing a chunk that can be encoded: reported success means that every file
    is as after a write without refusals, an error that every file is as before. *)
Theorem C68_write :
  forall H, plain (hy_base H) ->
  forall C h t path m ck ws o o' r, calm o -> wf_fs (view o) ->
  plain path -> plain (am_sep m) -> pos_ok (ck_pos ck) ->
  encode_chunk C h t m ck = (concat ws, Ok tt) ->
  faulty o (p_write_chunk H C h t path m ck ws) o' r ->
  calm o' /\ wf_fs (view o') /\
  ((r = Ok tt /\ exists o2, run o (p_write_chunk H C h t path m ck ws) = Some (o2, Ok tt) /\
      forall p, file_at (view o') p = file_at (view o2) p)
   \/ (exists e, r = Err e /\ forall p, file_at (view o') p = file_at (view o) p)).
Proof. exact fault_write_chunk. Qed.
Print Assumptions C68_write.

(** create_array, create_group and set_attributes: reported success means that
    the call's document is stored and every other file is as before, an error
    that every file is as before. *)
Theorem C68_metadata_write :
  forall H, plain (hy_base H) -> good_suffix (ep_suffix (hy_ep H)) ->
  forall sl, (forall b, concat (sl b) = b) ->
  forall rs op o o' r, calm o -> wf_fs (view o) -> mo_ok op ->
  faulty o (p_meta_op H sl rs op) o' r ->
  calm o' /\ wf_fs (view o') /\ dirs_kept (view o) (view o') /\
  ((r = Ok tt /\ mo_done H (view o) (view o') op) \/
   (exists e, r = Err e /\ forall q, file_at (view o') q = file_at (view o) q)).
Proof. exact op_faulty. Qed.
Print Assumptions C68_metadata_write.

(** Deleting a chunk changes nothing, or reports success and the chunk is gone.
    Missing: that reported success means that it is gone, which is false. *)
Theorem C68_delete_partial :
  forall H, plain (hy_base H) ->
  forall path m pos o o' r, calm o -> wf_fs (view o) ->
  plain path -> plain (am_sep m) -> pos_ok pos ->
  faulty o (p_delete_chunk H path m pos) o' r ->
  calm o' /\ wf_fs (view o') /\
  (forall p, p <> loc (hy_base H) (get_chunk_key path m pos) -> file_at (view o') p = file_at (view o) p) /\
  ((view o' = view o /\ (r = Ok true \/ r = Ok false \/ exists e, r = Err e))
   \/ (r = Ok true /\ file_at (view o') (loc (hy_base H) (get_chunk_key path m pos)) = None)).
Proof. exact fault_delete_chunk. Qed.
Print Assumptions C68_delete_partial.

(** Every chunk whose file may not be looked at is reported deleted, and stays. *)
Theorem C68_delete_refuted :
  forall H, plain (hy_base H) ->
  forall path m pos o deny, plain path -> plain (am_sep m) -> pos_ok pos ->
  deny (map Normal (loc (hy_base H) (get_chunk_key path m pos))) = true ->
  denied deny o (p_delete_chunk H path m pos) = Some (o, Ok true).
Proof. exact denied_delete. Qed.
Print Assumptions C68_delete_refuted.

(** Removing a node leaves other nodes, and the chunks of arrays that are not
    below it, as they are.  Missing: that reported success means that the node is
    gone, which is false. *)
Theorem C68_remove_partial :
  forall H, plain (hy_base H) -> good_suffix (ep_suffix (hy_ep H)) ->
  forall C h ord fuel path o o' r, calm o -> wf_fs (view o) -> plain path ->
  faulty o (p_remove H ord fuel path) o' r ->
  (idle (released o') /\ wf_fs (view (released o')))
  /\ (forall path' rs, plain path' -> pieces path' <> pieces path ->
       (exists a, answers o (p_get_array_metadata H path' rs) a
               /\ answers (released o') (p_get_array_metadata H path' rs) a)
       /\ (exists a, answers o (p_list_attributes H path' rs) a
               /\ answers (released o') (p_list_attributes H path' rs) a))
  /\ (forall t path' m pos rs, plain path' -> good_sep (am_sep m) -> pos_ok pos ->
       exists a, answers (released o') (p_read_chunk H C h t path' m pos rs) a
        /\ (answers o (p_read_chunk H C h t path' m pos rs) a
            \/ (a = Ok None /\
                (Forall (ordinary_name (ep_suffix (hy_ep H))) (pieces path) -> pieces path `prefix_of` pieces path')))).
Proof. exact fault_remove. Qed.
Print Assumptions C68_remove_partial.

(** Removing a node of a hierarchy that may not be looked at is reported done,
    and nothing is removed. *)
Theorem C68_remove_refuted :
  forall H, plain (hy_base H) -> good_suffix (ep_suffix (hy_ep H)) ->
  forall ord fuel path o deny, plain path ->
  (forall q, deny (map Normal (pieces (hy_base H) ++ q)) = true) ->
  denied deny o (p_remove H ord fuel path) = Some (o, Ok tt).
Proof. exact denied_remove. Qed.
Print Assumptions C68_remove_refuted.

(** While the same files are refused throughout, the creating calls overwrite
    nothing that exists. *)
Theorem C68_create :
  forall H, plain (hy_base H) -> good_suffix (ep_suffix (hy_ep H)) ->
  forall sl, (forall b, concat (sl b) = b) ->
  forall deny path m o o' r, calm o -> wf_fs (view o) -> plain path -> meta_value m -> nesting_ok m ->
  denied deny o (p_create_array H sl path m) = Some (o', r) \/ denied deny o (p_create_group H sl path) = Some (o', r) ->
  forall p c, file_at (view o) p = Some c -> file_at (view o') p = Some c.
Proof. exact denied_meta. Qed.
Print Assumptions C68_create.
Theorem C68_open_or_create :
  forall V base, plain base -> forall sl deny rs o o' r c, calm o -> wf_fs (view o) ->
  denied deny o (p_open_or_create V sl base rs) = Some (o', r) ->
  file_at (view o) (pieces base ++ [B "zarr.json"]) = Some c ->
  file_at (view o') (pieces base ++ [B "zarr.json"]) = Some c.
Proof. exact denied_open_or_create. Qed.
Print Assumptions C68_open_or_create.

(** When looking at files is never refused (a file may be seen but perhaps not
    opened, created or removed, a directory perhaps not made or read), every call
    does and returns what it does without refusals, or returns an error, having
    done no more than a part of it. *)
Theorem C68_visible :
  forall H C h t path m pos ck rs ws sl o, os_ok o ->
  (forall V, done_or_failed o (p_open V (hy_base H) rs))
  /\ (forall V, done_or_failed o (p_open_or_create V sl (hy_base H) rs))
  /\ done_or_failed o (p_get_array_metadata H path rs)
  /\ done_or_failed o (p_list_attributes H path rs)
  /\ (forall ord, done_or_failed o (p_list_nodes H ord (h_prof h) path))
  /\ done_or_failed o (p_read_chunk H C h t path m pos rs)
  /\ (forall rsf flit bb, done_or_failed o (p_read_ndarray H C h rsf flit t path m bb))
  /\ done_or_failed o (p_write_chunk H C h t path m ck ws)
  /\ (forall rsf flit off arr, done_or_failed o (p_write_ndarray H C h rsf sl flit t path m off arr))
  /\ (forall op, done_or_failed o (p_meta_op H sl rs op))
  /\ done_or_failed o (p_delete_chunk H path m pos)
  /\ (forall ord fuel, done_or_failed o (p_remove H ord fuel path)).
Proof. exact visible_sound. Qed.
Print Assumptions C68_visible.
(** ... and the creating calls overwrite nothing that exists. *)
Theorem C68_visible_create :
  forall H, plain (hy_base H) -> good_suffix (ep_suffix (hy_ep H)) ->
  forall sl, (forall b, concat (sl b) = b) ->
  forall path m o o' r, calm o -> wf_fs (view o) -> plain path -> meta_value m -> nesting_ok m ->
  visible o (p_create_array H sl path m) o' r \/ visible o (p_create_group H sl path) o' r ->
  forall p c, file_at (view o) p = Some c -> file_at (view o') p = Some c.
Proof. exact visible_keeps. Qed.
Print Assumptions C68_visible_create.
Theorem C68_visible_open_or_create :
  forall V base, plain base -> forall sl rs o o' r, calm o -> wf_fs (view o) ->
  file_at (view o) (pieces base ++ [B "zarr.json"]) <> None ->
  visible o (p_open_or_create V sl base rs) o' r ->
  view o' = view o /\ (answers o (p_open_or_create V sl base rs) r \/ exists e, r = Err e).
Proof. exact visible_open_or_create. Qed.
Print Assumptions C68_visible_open_or_create.

(** ... and when a region write fails every chunk is as before it or as after a
    complete one. *)
Theorem C68_visible_region :
  forall H, plain (hy_base H) -> forall C h rsf sl, (forall b, concat (sl b) = b) ->
  forall t path m, plain path -> good_sep (am_sep m) ->
  forall flit off arr o o' r, bounded_ok (am_shape m) (am_chunk_shape m) off (nd_shape arr) ->
  calm o -> wf_fs (view o) ->
  visible o (p_write_ndarray H C h rsf sl flit t path m off arr) o' r ->
  run o (p_write_ndarray H C h rsf sl flit t path m off arr) = Some (o', r) \/
  ((exists e, r = Err e) /\ forall q, file_at (view o') q = file_at (view o) q \/
     exists o2 r2, run o (p_write_ndarray H C h rsf sl flit t path m off arr) = Some (o2, r2) /\
       file_at (view o') q = file_at (view o2) q).
Proof. exact region_visible. Qed.
Print Assumptions C68_visible_region.

(** A single refusal is enough: whatever array exists, create_array can replace
    its metadata and report success. *)
Theorem C68_create_refuted :
  forall H, plain (hy_base H) -> good_suffix (ep_suffix (hy_ep H)) ->
  forall sl, (forall b, concat (sl b) = b) ->
  forall path m o, calm o -> wf_fs (view o) -> plain path ->
  file_at (view o) (loc (hy_base H) (akey H path)) <> None ->
  file_at (view o) (loc (hy_base H) (gkey H path)) = None ->
  exists o', faulty o (p_create_array H sl path m) o' (Ok tt) /\ calm o' /\
    file_at (view o') (loc (hy_base H) (akey H path)) = Some (print (enc_meta m)).
Proof. exact create_over. Qed.
Print Assumptions C68_create_refuted.

(** open_or_create of an existing hierarchy, its first system call refused,
    reports success with the default entry point and leaves a hierarchy that
    cannot be opened. *)
Definition ex_ep2 : entry_point :=
  match ep_default with EntryPoint f k s x => EntryPoint f k (B ".metadata.json") x end.
Definition ex_ep2_os : os :=
  after boot (ptry (p_open_or_create (fun _ => Some true) cuts (B "/srv/h") []) (fun _ =>
    p_set (B "/srv/h") (B "zarr.json") [print (enc_ep ex_ep2)] (Ok tt))).
Theorem C68_open_or_create_refuted :
  exists V sl base e o o', (forall b, concat (sl b) = b) /\ plain base /\ calm o /\ wf_fs (view o) /\
  answers o (p_open V base []) (Ok (Hier base e)) /\ ep_suffix e <> ep_suffix ep_default /\
  faulty o (p_open_or_create V sl base []) o' (Ok (Hier base ep_default)) /\ calm o' /\
  answers o' (p_open V base []) (Err InvalidData).
Proof.
  exists (fun _ => Some true), cuts, (B "/srv/h"), ex_ep2, ex_ep2_os,
    (fafter [true] ex_ep2_os (p_open_or_create (fun _ => Some true) cuts (B "/srv/h") [])).
  assert (C0 : calm ex_ep2_os) by (apply after_calm; [apply boot_calm|vm_compute; reflexivity..]).
  assert (S : faulty ex_ep2_os (p_open_or_create (fun _ => Some true) cuts (B "/srv/h") [])
    (fafter [true] ex_ep2_os (p_open_or_create (fun _ => Some true) cuts (B "/srv/h") []))
    (Ok (Hier (B "/srv/h") ep_default))) by (apply fafter_run; vm_compute; reflexivity).
  split; [exact cuts_concat|]. split; [apply plain_check; by vm_compute|]. split; [exact C0|].
  split; [apply wf_check_ok; vm_compute; reflexivity|].
  split; [apply answers_check; vm_compute; reflexivity|]. split; [by vm_compute|]. split; [exact S|].
  split; [eapply faulty_calm; [exact C0|exact S|vm_compute; reflexivity..]|].
  apply answers_check; vm_compute; reflexivity.
Qed.
Print Assumptions C68_open_or_create_refuted.

(** Writing one voxel of a stored chunk, the first system call refused, reports
    success and replaces the chunk's other voxels by the fill value. *)
Definition ex_dot : proc (res unit) :=
  p_write_ndarray ex_hier ex_codec ex_host ex_rsf cuts ex_flit RI16 ex_path ex_meta [2; 3] (Nd [1; 1] (fun _ => 5)).
Theorem C68_region_refuted :
  calm ex_os /\ answers ex_os ex_dot (Ok tt) /\ ~ in_box [2; 3] [1; 1] [2; 5]
  /\ voxel ex_codec ex_host ex_hier (view ex_os) RI16 ex_path ex_meta 0 [2; 5] = Ok 32767
  /\ voxel ex_codec ex_host ex_hier (view (after ex_os ex_dot)) RI16 ex_path ex_meta 0 [2; 5] = Ok 32767
  /\ exists o', faulty ex_os ex_dot o' (Ok tt)
     /\ voxel ex_codec ex_host ex_hier (view o') RI16 ex_path ex_meta 0 [2; 3] = Ok 5
     /\ voxel ex_codec ex_host ex_hier (view o') RI16 ex_path ex_meta 0 [2; 5] = Ok 0.
Proof.
  split; [apply ex_os_calm|]. split; [apply answers_check; vm_compute; reflexivity|]. split.
  { intros (_ & _ & X). specialize (X 1%nat 5 3 1 eq_refl eq_refl eq_refl). lia. }
  do 2 (split; [vm_compute; reflexivity|]).
  exists (fafter [true] ex_os ex_dot). split; [apply fafter_run; vm_compute; reflexivity|].
  split; vm_compute; reflexivity.
Qed.
Print Assumptions C68_region_refuted.

(** A stored chunk, an array and a hierarchy on which these calls are refused. *)
Definition ex_deny : list comp -> bool := below (pieces (hy_base ex_hier)).
Example C68_example :
  calm ex_os /\ wf_fs (view ex_os) /\ plain (hy_base ex_hier) /\ good_suffix (ep_suffix (hy_ep ex_hier))
  /\ plain ex_path /\ plain (am_sep ex_meta) /\ pos_ok [1; 1] /\ (forall b, concat (cuts b) = b)
  /\ in_bounds (h_prof ex_host) ex_meta [1; 1] = Ok true
  /\ answers ex_os (p_read_chunk ex_hier ex_codec ex_host RI16 ex_path ex_meta [1; 1] [])
       (Ok (Some (Chunk [1; 1] ex_data)))
  /\ denied ex_deny ex_os (p_read_chunk ex_hier ex_codec ex_host RI16 ex_path ex_meta [1; 1] [])
       = Some (ex_os, Ok None)
  /\ (forall q, ex_deny (map Normal (pieces (hy_base ex_hier) ++ q)) = true)
  /\ encode_chunk ex_codec ex_host RI16 ex_meta (Chunk [1; 1] ex_new) = (concat [ex_new_bytes], Ok tt)
  /\ (exists o', faulty ex_os (p_write_chunk ex_hier ex_codec ex_host RI16 ex_path ex_meta (Chunk [1; 1] ex_new)
        [ex_new_bytes]) o' (Err Other))
  /\ visible ex_os (p_read_chunk ex_hier ex_codec ex_host RI16 ex_path ex_meta [1; 1] []) ex_os (Err Other)
  /\ (exists o', faulty ex_os (p_meta_op ex_hier cuts [] ex_attr_op) o' (Err NotFound)) /\ mo_ok ex_attr_op
  /\ file_at (view ex_os) (loc (hy_base ex_hier) (akey ex_hier ex_path)) <> None
  /\ file_at (view ex_os) (loc (hy_base ex_hier) (gkey ex_hier ex_path)) = None
  /\ ~ (explicit_array ex_hier (view ex_os) ex_path /\ explicit_group ex_hier (view ex_os) ex_path).
Proof.
  assert (D : forall q, ex_deny (map Normal (pieces (hy_base ex_hier) ++ q)) = true).
  { intros q. unfold ex_deny, below. apply bool_decide_eq_true_2. rewrite map_app. by eexists. }
  assert (PB : plain (hy_base ex_hier)) by (apply plain_check; by vm_compute).
  assert (PP : plain ex_path) by (apply plain_check; by vm_compute).
  assert (PS : plain (am_sep ex_meta)) by (apply plain_check; by vm_compute).
  assert (Q : pos_ok [1; 1]) by (repeat constructor; by vm_compute).
  split; [apply ex_os_calm|]. split; [apply ex_os_wf|]. split; [done|]. split; [apply ex_state_ok|].
  split; [done|]. split; [done|]. split; [done|]. split; [exact cuts_concat|].
  split; [vm_compute; reflexivity|]. split; [apply answers_check; vm_compute; reflexivity|].
  split; [apply denied_read; try done; vm_compute; reflexivity|]. split; [done|].
  split; [vm_compute; reflexivity|].
  split; [eexists; apply (fafter_run [false; true]); vm_compute; reflexivity|].
  split.
  { unfold p_read_chunk. replace (in_bounds (h_prof ex_host) ex_meta [1; 1]) with (Ok true) by (vm_compute; reflexivity).
    cbn [mbind res_bind assert_ pres]. unfold p_get. rewrite key_comps_plain; [|done|by apply KeyFacts.plain_chunk_key].
    cbn [pres ptry pbind]. eapply visible_call; [reflexivity|].
    replace (path_is_file _ _) with true by (vm_compute; reflexivity). cbn [pbind].
    eapply visible_refused; [done|done|]. constructor. }
  split; [eexists; apply (fafter_run [true; true]); vm_compute; reflexivity|].
  split; [exact (proj1 C49_example)|].
  split; [by vm_compute|]. split; [by vm_compute|].
  intros [_ X]. by vm_compute in X.
Qed.

(** A region write that has stored some chunks when a file may not be opened. *)
Example C68_region_example :
  calm ex_os /\ wf_fs (view ex_os) /\ plain (hy_base ex_hier) /\ plain ex_path /\ good_sep (am_sep ex_meta)
  /\ (forall b, concat (cuts b) = b)
  /\ bounded_ok (am_shape ex_meta) (am_chunk_shape ex_meta) [2; 2] (nd_shape ex_payload)
  /\ region_of ex_os = Some (Ok ([3; 3], [0; -1; 300; 0; 2; -32768; 0; 0; 0]))
  /\ region_of (after ex_os ex_wr) = Some (Ok ([3; 3], [0; 1; 2; 10; 11; 12; 20; 21; 22]))
  /\ exists o', visible ex_os ex_wr o' (Err Other)
     /\ region_of o' = Some (Ok ([3; 3], [0; -1; 300; 10; 2; -32768; 0; 0; 0])).
Proof.
  split; [apply ex_os_calm|]. split; [apply ex_os_wf|]. split; [apply plain_check; by vm_compute|].
  split; [apply plain_check; by vm_compute|]. split; [apply ex_state_ok|]. split; [exact cuts_concat|].
  split; [repeat constructor; done|]. do 2 (split; [vm_compute; reflexivity|]).
  exists (vafter [false; false; false; false; false; false; false; false; true] ex_os ex_wr).
  split; [apply vafter_run; vm_compute; reflexivity|]. vm_compute; reflexivity.
Qed.
