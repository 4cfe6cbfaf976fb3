(** Property theorems: chunks in the file-system store (C06-C10, C46). *)
From Verif Require Import Hier Spec StoreFacts Props_Chunk.
Local Open Scope Z_scope.

(** A file system with a hierarchy at /srv/h, an array at a/b and a file
    outside; used by the examples. *)
Definition ex_hier : hier := Hier (B "/srv/h") ep_default.
Definition ex_fs0 : fs :=
  <[[B "srv"] := Dir]> (<[[B "srv"; B "h"] := Dir]>
  (<[[B "srv"; B "h"; B "zarr.json"] := File (print (enc_ep ep_default))]>
  (<[[B "outside"] := Dir]> (<[[B "outside"; B "c0"] := File (B "secret")]> ∅)))).
Definition ex_path : bytes := B "/a//b/".
Definition ex_fs : fs := fst (create_array ex_hier ex_fs0 ex_path ex_meta).
Definition ex_fs1 : fs :=
  fst (write_chunk ex_codec ex_host ex_hier ex_fs RI16 ex_path ex_meta (Chunk [1; 1] ex_data)).

Example ex_state_ok :
  wf_fs ex_fs /\ wf_fs ex_fs1 /\ plain (hy_base ex_hier) /\ plain ex_path
  /\ good_sep (am_sep ex_meta) /\ pos_ok [1; 1] /\ good_suffix (ep_suffix (hy_ep ex_hier))
  /\ in_bounds Debug ex_meta [1; 1] = Ok true
  /\ snd (create_array ex_hier ex_fs0 ex_path ex_meta) = Ok tt.
Proof.
  split; [apply wf_check_ok; vm_compute; reflexivity|].
  split; [apply wf_check_ok; vm_compute; reflexivity|].
  split; [apply plain_check; vm_compute; reflexivity|].
  split; [apply plain_check; vm_compute; reflexivity|].
  split.
  { split; [done|]. split; [by apply (bool_decide_eq_false_1 _)|].
    split; [by repeat constructor|]. apply plain_check; vm_compute; reflexivity. }
  split; [repeat constructor; done|].
  split; [split; by apply (bool_decide_eq_false_1 _)|].
  split; vm_compute; reflexivity.
Qed.

(** C06: what a rejected write may have done: nothing, or emptied the file. *)
Theorem C06_rejected_write_partial :
  forall C h H s t path m d data pos s' r,
  wf_fs s -> plain (hy_base H) -> plain path -> plain (am_sep m) -> pos_ok pos ->
  effective m d -> chunk_shape_ok m -> lenZ data < two32 ->
  ~ same_kind_width d t \/ ~ full_chunk m data ->
  write_chunk C h H s t path m (Chunk pos data) = (s', r) ->
  let p := loc (hy_base H) (get_chunk_key path m pos) in
  (exists e, r = Err e) /\ same_except s s' p
  /\ (s' = s \/ file_at s' p = Some []).
Proof. exact rejected_write_effect. Qed.
Print Assumptions C06_rejected_write_partial.

(** The claim itself is false wherever a chunk can be written: after a rejected
    write the chunk (present or absent before) cannot be read any more. *)
Theorem C06_rejected_write_refuted :
  forall C h H s t t' path m d data pos s' r,
  wf_fs s -> plain (hy_base H) -> plain path -> plain (am_sep m) -> pos_ok pos ->
  effective m d -> chunk_shape_ok m -> lenZ data < two32 ->
  ~ same_kind_width d t \/ ~ full_chunk m data ->
  am_comp m = CRaw -> same_kind_width d t' -> in_bounds (h_prof h) m pos = Ok true ->
  can_hold_file s (loc (hy_base H) (get_chunk_key path m pos)) ->
  write_chunk C h H s t path m (Chunk pos data) = (s', r) ->
  read_chunk C h H s' t' path m pos = Err UnexpectedEof.
Proof. exact rejected_write_destroys. Qed.
Print Assumptions C06_rejected_write_refuted.

Example C06_example :
  let bad := write_chunk ex_codec ex_host ex_hier ex_fs1 RI16 ex_path ex_meta
               (Chunk [1; 1] (take 5 ex_data)) in
  read_chunk ex_codec ex_host ex_hier ex_fs1 RI16 ex_path ex_meta [1; 1]
    = Ok (Some (Chunk [1; 1] ex_data))
  /\ snd bad = Err InvalidData
  /\ read_chunk ex_codec ex_host ex_hier (fst bad) RI16 ex_path ex_meta [1; 1]
    = Err UnexpectedEof.
Proof. split; [|split]; vm_compute; reflexivity. Qed.

(** C07 *)
Theorem C07_write_then_read :
  forall C h H s t path m pos data s' old,
  lossless C (am_comp m) -> Forall (elt_ok t) data -> lenZ data < two64 -> full_chunk m data ->
  in_bounds (h_prof h) m pos = Ok true ->
  write_chunk C h H s t path m (Chunk pos data) = (s', Ok tt) ->
  read_chunk C h H s' t path m pos = Ok (Some (Chunk pos data))
  /\ read_chunk_into C h H s' t path m pos old = Ok (Some (Chunk pos data)).
Proof. exact write_read. Qed.
Print Assumptions C07_write_then_read.

Example C07_example :
  snd (write_chunk ex_codec ex_host ex_hier ex_fs RI16 (B "./q//../a") ex_meta
         (Chunk [1; 1] ex_data)) = Ok tt
  /\ snd (write_chunk ex_codec ex_host ex_hier ex_fs1 RI16 (B ".//a/b/../x") ex_meta
         (Chunk [1; 1] ex_data)) = Ok tt
  /\ in_bounds (h_prof ex_host) ex_meta [1; 1] = Ok true.
Proof. split; [|split]; vm_compute; reflexivity. Qed.

(** C08 *)
Theorem C08_write_frame :
  forall C h H s t path m ck s' r,
  wf_fs s -> plain (hy_base H) -> plain path -> good_sep (am_sep m) -> pos_ok (ck_pos ck) ->
  good_suffix (ep_suffix (hy_ep H)) ->
  write_chunk C h H s t path m ck = (s', r) ->
  wf_fs s'
  /\ same_except s s' (loc (hy_base H) (get_chunk_key path m (ck_pos ck)))
  /\ dirs_kept s s'
  /\ (forall t' path' m' pos', plain path' -> good_sep (am_sep m') -> pos_ok pos' ->
        (pieces path', pos') <> (pieces path, ck_pos ck) ->
        read_chunk C h H s' t' path' m' pos' = read_chunk C h H s t' path' m' pos')
  /\ (forall path', plain path' ->
        get_array_metadata H s' path' = get_array_metadata H s path'
        /\ node_exists H s' path' = node_exists H s path'
        /\ array_exists H s' path' = array_exists H s path'
        /\ list_attributes H s' path' = list_attributes H s path').
Proof. exact write_frame. Qed.
Print Assumptions C08_write_frame.

Example C08_example :
  let w := write_chunk ex_codec ex_host ex_hier ex_fs1 RI16 ex_path ex_meta
             (Chunk [1; 2] (map (Z.add 1) [1; 2; 3; 4; 5; 6])) in
  snd w = Ok tt /\ fst w <> ex_fs1
  /\ read_chunk ex_codec ex_host ex_hier (fst w) RI16 (B "a/b") ex_meta [1; 1]
     = Ok (Some (Chunk [1; 1] ex_data))
  /\ get_array_metadata ex_hier (fst w) (B "a/b") = Ok ex_meta.
Proof.
  split; [vm_compute; reflexivity|]. split; [|split; vm_compute; reflexivity].
  intros E. apply (f_equal (fun s => node_at s (loc (hy_base ex_hier) (get_chunk_key ex_path ex_meta [1; 2])))) in E.
  vm_compute in E. discriminate E.
Qed.

(** C09 *)
Theorem C09_array_is_a_map :
  forall C h H t path m d,
  plain (hy_base H) -> plain path -> good_sep (am_sep m) ->
  effective m d -> same_kind_width d t -> chunk_shape_ok m ->
  lossless C (am_comp m) -> total_codec C (am_comp m) ->
  forall s os,
  wf_fs s -> no_chunks s (hy_base H) path m ->
  Forall (aop_ok (h_prof h) t m) os ->
  hist_run C h H t path m s os = map_run ∅ os.
Proof. exact hist_refines. Qed.
Print Assumptions C09_array_is_a_map.

(** The premise on the initial state holds in particular when the array's data
    directory is absent or empty. *)
Theorem C09_fresh_array_has_no_chunks :
  forall s base path m, wf_fs s ->
  let dd := pieces base ++ [B "data"; B "root"] ++ pieces path in
  (forall q c, q `prefix_of` dd -> file_at s q <> Some c) ->
  (forall x, node_at s (dd ++ [x]) = None) ->
  no_chunks s base path m.
Proof. exact fresh_no_chunks. Qed.
Print Assumptions C09_fresh_array_has_no_chunks.

Definition ex_ops : list aop :=
  [ARead [1; 1]; AWrite [1; 1] ex_data; AWrite [0; 2] (rev ex_data); ARead [1; 1];
   ADelete [1; 1]; AReadInto [1; 1] (Chunk [7] [8]); ADelete [1; 1]; ARead [0; 2]].
Example C09_example :
  no_chunks ex_fs (hy_base ex_hier) ex_path ex_meta
  /\ Forall (aop_ok Debug RI16 ex_meta) ex_ops
  /\ total_codec ex_codec (am_comp ex_meta)
  /\ map_run ∅ ex_ops =
     [AnsChunk (Ok None); AnsUnit (Ok tt); AnsUnit (Ok tt);
      AnsChunk (Ok (Some (Chunk [1; 1] ex_data))); AnsBool (Ok true);
      AnsChunk (Ok None); AnsBool (Ok true);
      AnsChunk (Ok (Some (Chunk [0; 2] (rev ex_data))))].
Proof.
  split.
  { destruct ex_state_ok as [W _]. apply fresh_no_chunks; [done| |].
    - intros q c [k E].
      assert (X : forall n, file_at ex_fs (take n (pieces (hy_base ex_hier) ++ [B "data"; B "root"] ++ pieces ex_path)) = None).
      { intros n. do 7 (destruct n as [|n]; [vm_compute; reflexivity|]). vm_compute. reflexivity. }
      replace q with (take (length q) (pieces (hy_base ex_hier) ++ [B "data"; B "root"] ++ pieces ex_path)).
      + by rewrite X.
      + rewrite E. by rewrite take_app.
    - intros x. destruct (node_at ex_fs _) as [n|] eqn:E; [|done].
      apply wf_prefix in E; [|done|done]. vm_compute in E. discriminate E. }
  split.
  { repeat constructor; try (vm_compute; done); vm_compute; split; done. }
  split; [done|]. vm_compute. reflexivity.
Qed.

(** C10 *)
Theorem C10_delete_chunk :
  forall C h H s path m pos s' b,
  wf_fs s -> plain (hy_base H) -> plain path -> good_sep (am_sep m) -> pos_ok pos ->
  good_suffix (ep_suffix (hy_ep H)) ->
  delete_chunk H s path m pos = (s', Ok b) ->
  b = true
  /\ (in_bounds (h_prof h) m pos = Ok true ->
      forall t, read_chunk C h H s' t path m pos = Ok None)
  /\ delete_chunk H s' path m pos = (s', Ok true)
  /\ wf_fs s' /\ dirs_kept s s'
  /\ same_except s s' (loc (hy_base H) (get_chunk_key path m pos))
  /\ (forall t' path' m' pos', plain path' -> good_sep (am_sep m') -> pos_ok pos' ->
        (pieces path', pos') <> (pieces path, pos) ->
        read_chunk C h H s' t' path' m' pos' = read_chunk C h H s t' path' m' pos')
  /\ (forall path', plain path' ->
        get_array_metadata H s' path' = get_array_metadata H s path'
        /\ node_exists H s' path' = node_exists H s path'
        /\ array_exists H s' path' = array_exists H s path'
        /\ list_attributes H s' path' = list_attributes H s path').
Proof. exact delete_spec. Qed.
Print Assumptions C10_delete_chunk.

(** It succeeds whenever the key is not a directory. *)
Theorem C10_delete_accepted :
  forall H s path m pos,
  wf_fs s -> plain (hy_base H) -> plain path -> plain (am_sep m) -> pos_ok pos ->
  node_at s (loc (hy_base H) (get_chunk_key path m pos)) <> Some Dir ->
  snd (delete_chunk H s path m pos) = Ok true.
Proof. exact delete_accepted. Qed.
Print Assumptions C10_delete_accepted.

Example C10_example :
  let d := delete_chunk ex_hier ex_fs1 ex_path ex_meta [1; 1] in
  snd d = Ok true
  /\ read_chunk ex_codec ex_host ex_hier (fst d) RI16 ex_path ex_meta [1; 1] = Ok None
  /\ node_at ex_fs1 (loc (hy_base ex_hier) (get_chunk_key ex_path ex_meta [1; 1])) <> None.
Proof. split; [|split]; vm_compute; [reflexivity|reflexivity|discriminate]. Qed.

(** C46: the rest of the URI is a path at which reads look for the chunk and
    at which a successful write leaves the encoded chunk. *)
Theorem C46_uri_names_chunk_file :
  forall H path m pos u, get_chunk_uri H path m pos = Ok u ->
  exists p, u = B "file://" ++ p
  /\ (forall s, st_get (hy_base H) s (get_chunk_key path m pos)
        = if path_is_file s (comps p) then c ← open_read s (comps p); Ok (Some c) else Ok None)
  /\ (forall C h s t ck s', ck_pos ck = pos -> write_chunk C h H s t path m ck = (s', Ok tt) ->
        open_read s' (comps p) = Ok (fst (encode_chunk C h t m ck))).
Proof. exact uri_spec. Qed.
Print Assumptions C46_uri_names_chunk_file.

Theorem C46_uri_total :
  forall H path m pos, plain (hy_base H) -> plain path -> plain (am_sep m) -> pos_ok pos ->
  exists p, get_chunk_uri H path m pos = Ok (B "file://" ++ p)
  /\ pieces p = loc (hy_base H) (get_chunk_key path m pos).
Proof. exact uri_plain. Qed.
Print Assumptions C46_uri_total.

Example C46_example :
  get_chunk_uri ex_hier ex_path ex_meta [1; 1] = Ok (B "file:///srv/h/data/root/a//b/c1/1").
Proof. vm_compute. reflexivity. Qed.
