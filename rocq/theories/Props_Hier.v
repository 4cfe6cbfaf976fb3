(** Property theorems: hierarchies and their nodes (C32-C34, C38, C52, C53). *)
From Verif Require Import CoordIter Hier Nd Spec SpecMeta SpecHier FSFacts StoreFacts NdFacts RefFacts OpsFacts OpenFacts HierWit
  Props_Chunk Props_Store Props_Nd.
Local Open Scope Z_scope.

(** C32: no history makes a path both an array and a group. *)
Theorem C32_apart :
  forall flit C h H s os,
  plain (hy_base H) -> good_suffix (ep_suffix (hy_ep H)) -> wf_fs s ->
  (forall path, plain path -> ~ (explicit_array H s path /\ explicit_group H s path)) ->
  Forall api_plain os ->
  forall path, plain path ->
  ~ (explicit_array H (fold_left (api_step flit C h H) os s) path
     /\ explicit_group H (fold_left (api_step flit C h H) os s) path).
Proof. exact apart_history. Qed.
Print Assumptions C32_apart.

(** The answers of the two creating calls in such states. *)
Theorem C32_creation_answers :
  forall H, plain (hy_base H) -> good_suffix (ep_suffix (hy_ep H)) ->
  forall s path m, wf_fs s -> plain path ->
  (forall path, plain path -> ~ (explicit_array H s path /\ explicit_group H s path)) ->
  (explicit_array H s path \/ explicit_group H s path -> create_array H s path m = (s, Err AlreadyExists))
  /\ (explicit_array H s path -> create_group H s path = (s, Err AlreadyExists))
  /\ (explicit_group H s path -> create_group H s path = (s, Ok tt))
  /\ (forall s', create_array H s path m = (s', Ok tt) ->
       ~ explicit_array H s path /\ ~ explicit_group H s path
       /\ explicit_array H s' path /\ ~ explicit_group H s' path)
  /\ (forall s', create_group H s path = (s', Ok tt) ->
       ~ explicit_array H s path /\ explicit_group H s' path /\ ~ explicit_array H s' path).
Proof. exact create_answers. Qed.
Print Assumptions C32_creation_answers.

Definition ex_ops : list api_op :=
  [ACreateGroup (B "a"); ACreateArray (B "a/x") ex_meta; ACreateArray (B "a") ex_meta;
   AWriteChunk RI16 (B "a/x") ex_meta (Chunk [1; 1] ex_data);
   AWriteRegion RI16 (B "a/x") ex_meta [2; 2] ex_payload;
   ARemove (B "a"); ACreateArray (B "a") ex_meta; ACreateGroup (B "a/x")].
Example C32_example :
  wf_fs ex_fs0 /\ Forall api_plain ex_ops
  /\ let s := fold_left (api_step ex_flit ex_codec ex_host ex_hier) ex_ops ex_fs0 in
     explicit_array ex_hier s (B "a") /\ explicit_array ex_hier s (B "a/x")
     /\ snd (create_group ex_hier s (B "a")) = Err AlreadyExists.
Proof.
  split; [apply wf_check_ok; vm_compute; reflexivity|]. split.
  { unfold ex_ops. repeat (apply Forall_cons_2); [..|apply Forall_nil_2]; cbn [api_plain].
    all: try (apply plain_check; vm_compute; reflexivity).
    all: split; [apply plain_check; vm_compute; reflexivity|].
    all: split; [apply plain_check; vm_compute; reflexivity|].
    - repeat constructor; done.
    - repeat constructor; done. }
  cbv zeta. split; [|split]; vm_compute; reflexivity.
Qed.

(** C33: existence in histories of API operations on ordinary paths (chunk
    operations with the stored metadata) from an empty hierarchy.  Missing:
    paths with a name of the form of a metadata or chunk file. *)
Theorem C33_existence_partial :
  forall C h H s os path,
  plain (hy_base H) -> good_suffix (ep_suffix (hy_ep H)) -> fresh_hierarchy s (hy_base H) ->
  history_ok C (h_prof h) (ep_suffix (hy_ep H)) a_empty os ->
  ordinary_path (ep_suffix (hy_ep H)) path ->
  node_exists H (fst (hop_run C h H s os)) path = Ok (created_last (pieces path) os).
Proof. exact node_existence. Qed.
Print Assumptions C33_existence_partial.

(** For the excluded names the claim is false: wherever an array or group
    exists, another path of the same group "exists" too. *)
Theorem C33_existence_refuted :
  forall H s path path' l n ext,
  plain (hy_base H) -> good_suffix (ep_suffix (hy_ep H)) -> wf_fs s -> plain path -> plain path' ->
  ext = B "array" /\ explicit_array H s path \/ ext = B "group" /\ explicit_group H s path ->
  pieces path = l ++ [n] ->
  pieces path' = l ++ [n ++ dot :: ext ++ dot :: strip_dot (ep_suffix (hy_ep H))] ->
  node_exists H s path' = Ok true.
Proof. exact document_exists. Qed.
Print Assumptions C33_existence_refuted.

Example C33_refuted_example :
  let s := fst (create_array ex_hier ex_fs0 (B "g/t") ex_meta) in
  explicit_array ex_hier s (B "g/t")
  /\ pieces (B "g/t") = [B "g"] ++ [B "t"]
  /\ pieces (B "g/t.array.json") = [B "g"] ++ [B "t" ++ dot :: B "array" ++ dot :: strip_dot (ep_suffix (hy_ep ex_hier))]
  /\ node_exists ex_hier s (B "g/t.array.json") = Ok true
  /\ get_array_metadata ex_hier s (B "g/t.array.json") = Err NotFound
  /\ node_exists ex_hier s (B "g") = Ok false.
Proof. cbv zeta. do 5 (split; [vm_compute; reflexivity|]). vm_compute; reflexivity. Qed.

(** A history for the examples of C33 and C52: attributes, chunks, a removal
    of the group above and of the array itself. *)
Definition ex_history : list hop :=
  [OCreateGroup (B "g"); OCreateArray (B "g/t") ex_meta; OCreateArray (B "g/t") ex_meta;
   OWrite RI16 (B "/g/t") [1; 1] ex_data; ORead RI16 (B "g//t/") [1; 1];
   OSetAttributes (B "g/t") [(B "k", JBool true)]; OAttributes (B "g/t"); OMetadata (B "g/t");
   OExists (B "g/t"); ORemove (B "g"); OExists (B "g"); OExists (B "g/t"); ORead RI16 (B "g/t") [1; 1];
   ODelete (B "g/t") [1; 1]; ORemove (B "g/t"); OExists (B "g/t"); OMetadata (B "g/t")].
Lemma ex_ordinary n : n ∈ [B "g"; B "t"] -> ordinary_name (ep_suffix (hy_ep ex_hier)) n.
Proof.
  intros I.
  assert (L : length n = 1%nat /\ n <> B "c").
  { apply elem_of_cons in I as [->|I]; [done|]. by apply elem_of_list_singleton in I as ->. }
  destruct L as [L N]. split; [done|]. split; [by intros b r ->|].
  split; intros k E; rewrite E in L; rewrite app_length in L; cbn in L; lia.
Qed.
Lemma ex_opath p : plain p -> Forall (fun n => n ∈ [B "g"; B "t"]) (pieces p) ->
  ordinary_path (ep_suffix (hy_ep ex_hier)) p.
Proof. intros P F. split; [done|]. eapply list.Forall_impl; [exact F|]. apply ex_ordinary. Qed.
Lemma ex_array_ok : array_ok ex_meta.
Proof.
  split; [|split; [|split; [|split]]].
  - split; [split; repeat constructor; vm_compute; done|]. split; [done|].
    split; [split; vm_compute; reflexivity|]. split; [constructor|done].
  - split; [done|]. split; [|constructor]. cbn. lia.
  - intros n. done.
  - intros (e & I & _). by apply elem_of_nil in I.
  - apply ex_state_ok.
Qed.
Lemma ex_type_ok : type_ok ex_codec RI16 ex_meta.
Proof.
  split; [exists (DInt IB2 Big); split; [by left|done]|].
  split; [split; [repeat constructor|]; vm_compute; done|].
  split; [apply C01_raw_lossless|]. intros ws. by eexists.
Qed.
Example C33_example :
  fresh_hierarchy ex_fs0 (hy_base ex_hier)
  /\ history_ok ex_codec (h_prof ex_host) (ep_suffix (hy_ep ex_hier)) a_empty ex_history
  /\ created_last (pieces (B "g/t")) (take 14 ex_history) = true
  /\ created_last (pieces (B "g")) (take 14 ex_history) = false
  /\ snd (hop_run ex_codec ex_host ex_hier ex_fs0 ex_history) <> [].
Proof.
  split.
  { split; [apply wf_check_ok; vm_compute; reflexivity|]. split; [|split; vm_compute; reflexivity].
    intros [|[|[|k]]]; vm_compute; reflexivity. }
  split.
  { assert (OP : forall p, bool_decide (dotdot ∉ pieces p) = true ->
      bool_decide (Forall (fun n => n ∈ [B "g"; B "t"]) (pieces p)) = true -> ordinary_path (ep_suffix (hy_ep ex_hier)) p).
    { intros p X%bool_decide_eq_true_1 Y%bool_decide_eq_true_1. by apply ex_opath. }
    unfold ex_history. cbn [history_ok hop_ok].
    repeat match goal with
    | |- _ /\ _ => split
    | |- ordinary_path _ _ => apply OP; vm_compute; reflexivity
    | |- array_ok _ => apply ex_array_ok
    | |- True => done
    end.
    all: try (intros m g X; vm_compute in X; (discriminate X || injection X as <- <-)).
    all: try done.
    all: repeat match goal with
    | |- _ /\ _ => split
    | |- type_ok _ _ _ => exact ex_type_ok
    | |- pos_ok _ => repeat constructor; done
    | |- Forall _ _ => apply C01_example
    | |- full_chunk _ _ => vm_compute; reflexivity
    | |- value_ok _ => split; vm_compute; reflexivity
    | |- (_ <= _)%nat => vm_compute; lia
    | |- _ => vm_compute; reflexivity
    end. }
  split; [vm_compute; reflexivity|]. split; [vm_compute; reflexivity|]. vm_compute. done.
Qed.

(** C34: what a successful removal does.  Missing: metadata of nodes below the
    path stays (refuted below); chunks elsewhere are only kept for paths that
    do not look like a chunk file (refuted below). *)
Theorem C34_remove_partial :
  forall C h H, plain (hy_base H) -> good_suffix (ep_suffix (hy_ep H)) ->
  forall s path s', wf_fs s -> plain path -> Hier.remove H s path = (s', Ok tt) ->
  wf_fs s'
  (* the node is gone *)
  /\ (~ explicit_array H s' path /\ ~ explicit_group H s' path
      /\ get_array_metadata H s' path = Err NotFound /\ list_attributes H s' path = Err NotFound)
  (* chunks at or below the path are gone *)
  /\ (forall t path' m pos, plain path' -> plain (am_sep m) -> pos_ok pos ->
        pieces path `prefix_of` pieces path' -> in_bounds (h_prof h) m pos = Ok true ->
        read_chunk C h H s' t path' m pos = Ok None)
  (* every other node, also below the path, is as before *)
  /\ (forall path', plain path' -> pieces path' <> pieces path ->
        (explicit_array H s' path' <-> explicit_array H s path')
        /\ (explicit_group H s' path' <-> explicit_group H s path')
        /\ get_array_metadata H s' path' = get_array_metadata H s path'
        /\ list_attributes H s' path' = list_attributes H s path')
  (* so are chunks elsewhere *)
  /\ (forall t path' m pos, plain path' -> good_sep (am_sep m) -> pos_ok pos ->
        Forall (ordinary_name (ep_suffix (hy_ep H))) (pieces path) -> ~ pieces path `prefix_of` pieces path' ->
        read_chunk C h H s' t path' m pos = read_chunk C h H s t path' m pos).
Proof. exact removed. Qed.
Print Assumptions C34_remove_partial.

(** Every explicit node below a removed path still exists. *)
Theorem C34_descendants_refuted :
  forall H s path s' path', plain (hy_base H) -> good_suffix (ep_suffix (hy_ep H)) ->
  wf_fs s -> plain path -> plain path' -> pieces path `prefix_of` pieces path' -> pieces path' <> pieces path ->
  Hier.remove H s path = (s', Ok tt) ->
  explicit_array H s path' \/ explicit_group H s path' -> node_exists H s' path' = Ok true.
Proof. exact descendants_survive. Qed.
Print Assumptions C34_descendants_refuted.

(** Removing a path whose name is that of chunk files of an array above it
    deletes those chunks. *)
Theorem C34_elsewhere_refuted :
  forall C h H s rpath s' t path m pos, plain (hy_base H) -> good_suffix (ep_suffix (hy_ep H)) ->
  wf_fs s -> plain rpath -> plain path -> plain (am_sep m) -> pos_ok pos ->
  loc (hy_base H) (data_path_key rpath) `prefix_of` loc (hy_base H) (get_chunk_key path m pos) ->
  in_bounds (h_prof h) m pos = Ok true ->
  Hier.remove H s rpath = (s', Ok tt) ->
  read_chunk C h H s' t path m pos = Ok None.
Proof. exact remove_above. Qed.
Print Assumptions C34_elsewhere_refuted.

Example C34_example :
  let s' := fst (Hier.remove ex_hier ex_fs1 (B "a")) in
  let s'' := fst (Hier.remove ex_hier ex_fs1 (B "a/b/c1")) in
  snd (Hier.remove ex_hier ex_fs1 (B "a")) = Ok tt
  /\ snd (Hier.remove ex_hier ex_fs1 (B "a/b/c1")) = Ok tt
  /\ explicit_array ex_hier ex_fs1 (B "a/b")
  /\ read_chunk ex_codec ex_host ex_hier ex_fs1 RI16 (B "a/b") ex_meta [1; 1] = Ok (Some (Chunk [1; 1] ex_data))
  (* removing a: the array a/b stays, its chunk goes *)
  /\ node_exists ex_hier s' (B "a/b") = Ok true
  /\ read_chunk ex_codec ex_host ex_hier s' RI16 (B "a/b") ex_meta [1; 1] = Ok None
  (* removing a/b/c1, which never existed: the chunk of a/b goes *)
  /\ node_exists ex_hier ex_fs1 (B "a/b/c1") = Ok false
  /\ loc (hy_base ex_hier) (data_path_key (B "a/b/c1")) `prefix_of` loc (hy_base ex_hier) (get_chunk_key (B "a/b") ex_meta [1; 1])
  /\ read_chunk ex_codec ex_host ex_hier s'' RI16 (B "a/b") ex_meta [1; 1] = Ok None.
Proof.
  cbv zeta. do 7 (split; [vm_compute; reflexivity|]). split; [|vm_compute; reflexivity].
  exists [B "1"]. vm_compute. reflexivity.
Qed.

(** C38.  [V] stands for the version requirement matcher of the semver crate. *)
Theorem C38_existing_unchanged :
  forall V base s, path_exists s (comps (path_join base ENTRY_POINT_KEY)) = true ->
  open_or_create V base s = (s, open_hier V base s).
Proof. exact open_existing. Qed.
Print Assumptions C38_existing_unchanged.

(** Missing part: base paths with '..' components, for which it is false. *)
Theorem C38_created_opens_partial :
  forall V base s, wf_fs s -> plain base ->
  forall s' H, V (B "3.0") = Some true ->
  path_exists s (comps (path_join base ENTRY_POINT_KEY)) = false ->
  open_or_create V base s = (s', Ok H) ->
  H = Hier base ep_default /\ open_hier V base s' = Ok H /\ open_or_create V base s' = (s', Ok H).
Proof. exact create_open. Qed.
Print Assumptions C38_created_opens_partial.

(** A base path that leads back from a missing directory into an existing
    hierarchy: the call succeeds, but it has written over the start of the
    existing entry point, and neither path can be opened any more. *)
Theorem C38_created_opens_refuted :
  exists V s base existing H s', V (B "3.0") = Some true /\ wf_fs s
  /\ path_exists s (comps (path_join base ENTRY_POINT_KEY)) = false
  /\ open_hier V existing s = Ok (Hier existing H)
  /\ open_or_create V base s = (s', Ok (Hier base ep_default))
  /\ open_hier V base s' = Err InvalidData /\ open_hier V existing s' = Err InvalidData.
Proof. exact created_dotdot. Qed.
Print Assumptions C38_created_opens_refuted.

(** Creation succeeds wherever nothing is in the way, makes the directories of
    the base path and the entry point, and changes nothing else. *)
Theorem C38_creation_succeeds :
  forall V base s, wf_fs s -> plain base -> V (B "3.0") = Some true ->
  (forall k, file_at s (take k (pieces base)) = None) -> node_at s (pieces base ++ [B "zarr.json"]) = None ->
  exists s', open_or_create V base s = (s', Ok (Hier base ep_default)) /\ wf_fs s'
  /\ forall q, node_at s' q =
       if decide (q = pieces base ++ [B "zarr.json"]) then Some (File (print (enc_ep ep_default)))
       else if decide (q `prefix_of` pieces base) then Some Dir
       else node_at s q.
Proof. exact create_ok. Qed.
Print Assumptions C38_creation_succeeds.

(** A hierarchy created where there was nothing is one from which histories
    (C33, C52) start. *)
Theorem C38_created_fresh :
  forall V base s, wf_fs s -> plain base -> V (B "3.0") = Some true ->
  (forall k, file_at s (take k (pieces base)) = None) ->
  (forall x, node_at s (pieces base ++ [x]) = None) ->
  exists s', open_or_create V base s = (s', Ok (Hier base ep_default)) /\ fresh_hierarchy s' base.
Proof. exact create_fresh. Qed.
Print Assumptions C38_created_fresh.

Definition ex_versions (v : bytes) : option bool := Some (beq v (B "3.0")).
Example C38_example :
  ex_versions (B "3.0") = Some true
  /\ path_exists ex_fs0 (comps (path_join (B "/srv/new/x") ENTRY_POINT_KEY)) = false
  /\ (forall k, file_at ex_fs0 (take k (pieces (B "/srv/new/x"))) = None)
  /\ snd (open_or_create ex_versions (B "/srv/new/x") ex_fs0) = Ok (Hier (B "/srv/new/x") ep_default)
  /\ open_hier ex_versions (B "/srv/new/x") ex_fs0 = Err NotFound
  /\ path_exists ex_fs0 (comps (path_join (B "/srv/h") ENTRY_POINT_KEY)) = true
  /\ open_hier ex_versions (B "/srv/h") ex_fs0 = Ok ex_hier.
Proof.
  split; [reflexivity|]. split; [vm_compute; reflexivity|].
  split; [intros [|[|[|[|k]]]]; vm_compute; reflexivity|].
  do 3 (split; [vm_compute; reflexivity|]). vm_compute; reflexivity.
Qed.

(** C52: every answer in every history is the one of the abstract hierarchy. *)
Theorem C52_refinement :
  forall C h H s os,
  plain (hy_base H) -> good_suffix (ep_suffix (hy_ep H)) -> fresh_hierarchy s (hy_base H) ->
  history_ok C (h_prof h) (ep_suffix (hy_ep H)) a_empty os ->
  Forall2 ans_agree (snd (hop_run C h H s os)) (snd (ab_run a_empty os)).
Proof. exact hierarchy_refines. Qed.
Print Assumptions C52_refinement.

(** The premises hold for the history of C33; some of its answers: *)
Example C52_example :
  let l := snd (hop_run ex_codec ex_host ex_hier ex_fs0 ex_history) in
  l !! 2%nat = Some (HUnit (Err AlreadyExists))
  /\ l !! 4%nat = Some (HChunk (Ok (Some (Chunk [1; 1] ex_data))))
  /\ l !! 6%nat = Some (HAttrs (Ok [(B "k", JBool true)]))
  /\ l !! 11%nat = Some (HBool (Ok true))
  /\ l !! 12%nat = Some (HChunk (Ok None))
  /\ l !! 16%nat = Some (HMeta (Err NotFound)).
Proof. cbv zeta. do 5 (split; [vm_compute; reflexivity|]). vm_compute; reflexivity. Qed.

(** C53: a region write, successful or not, touches only files of chunks that
    share a voxel with both the region and the array. *)
Theorem C53_region_write_frame :
  forall flit C h H s t path m off arr s' r,
  bounded_ok (am_shape m) (am_chunk_shape m) off (nd_shape arr) ->
  overlaps m (BBox off (nd_shape arr)) ->
  plain (hy_base H) -> plain path -> plain (am_sep m) -> wf_fs s ->
  write_ndarray flit C h H s t path m off arr = (s', r) ->
  wf_fs s' /\ dirs_kept s s'
  /\ forall q, (forall pos, pos_ok pos -> meets_box m (BBox off (nd_shape arr)) pos ->
                q <> loc (hy_base H) (get_chunk_key path m pos)) ->
     file_at s' q = file_at s q.
Proof. exact region_frame. Qed.
Print Assumptions C53_region_write_frame.

Example C53_example :
  overlaps ex_meta (BBox [2; 2] (nd_shape ex_payload))
  /\ snd (write_ndarray ex_flit ex_codec ex_host ex_hier ex_fs1 RF32 ex_path ex_meta [2; 2] ex_payload)
     = Err InvalidInput.
Proof.
  split; [|vm_compute; reflexivity].
  exists [2; 2]. cbn. split; (split; [done|]; split; [done|]);
    intros [|[|i]] xi o sh E1 E2 E3; cbn in *; try done;
    injection E1 as <-; injection E2 as <-; injection E3 as <-; lia.
Qed.
