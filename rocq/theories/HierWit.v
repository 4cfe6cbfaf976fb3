(** Where node existence and removal differ from the claims; the region-write
    frame in terms of chunks that meet the region. *)
From Verif Require Import Hier Nd Spec SpecMeta SpecHier BaseFacts PathFacts FSFacts KeyFacts HierFacts
  CoordIterFacts NdFacts NodeFacts RefFacts StoreFacts OpsFacts.
Local Open Scope Z_scope.

(** The metadata document of a node passes for a node. *)
Lemma document_exists H s path path' l n ext :
  plain (hy_base H) -> good_suffix (ep_suffix (hy_ep H)) -> wf_fs s -> plain path -> plain path' ->
  ext = B "array" /\ explicit_array H s path \/ ext = B "group" /\ explicit_group H s path ->
  pieces path = l ++ [n] ->
  pieces path' = l ++ [n ++ dot :: ext ++ dot :: strip_dot (ep_suffix (hy_ep H))] ->
  node_exists H s path' = Ok true.
Proof.
  intros PB GS W PP PP' X E E'.
  assert (F : file_at s (pieces (hy_base H) ++ [B "meta"; B "root"] ++ pieces path') <> None).
  { assert (M : forall e, is_node_ext e -> nloc H e path = pieces (hy_base H) ++ [B "meta"; B "root"] ++ l
        ++ [n ++ dot :: e ++ dot :: strip_dot (ep_suffix (hy_ep H))]).
    { intros e Ee. unfold nloc, loc. rewrite pieces_node_key by (done || apply GS).
      destruct (meta_pieces_cases e (strip_dot (ep_suffix (hy_ep H))) (pieces path) PP)
        as [[Z _]|(l1 & n1 & Z & ->)].
      - rewrite Z in E. by destruct l.
      - rewrite E in Z. by apply app_inj_tail in Z as [-> ->]. }
    rewrite E'. destruct X as [[-> X]|[-> X]].
    - apply explicit_a in X; [|done..]. by rewrite M in X by by left.
    - apply explicit_g in X; [|done..]. by rewrite M in X by by right. }
  unfold node_exists.
  assert (EA : st_exists (hy_base H) s (akey H path') = Ok (is_some (file_at s (nloc H ARRAY_METADATA_KEY_EXT path')))).
  { apply st_exists_plain; [done|done|]. apply nloc_plain; [done|by left|done]. }
  assert (EG : st_exists (hy_base H) s (gkey H path') = Ok (is_some (file_at s (nloc H GROUP_METADATA_KEY_EXT path')))).
  { apply st_exists_plain; [done|done|]. apply nloc_plain; [done|by right|done]. }
  rewrite EA, bind_ok. destruct (is_some _); [done|]. rewrite EG, bind_ok. destruct (is_some _); [done|].
  fold (ekey H path'). rewrite st_exists_plain by (done || by apply plain_ekey). unfold loc. rewrite pieces_ekey by done.
  by destruct (file_at s _).
Qed.

(** Removal does not reach the metadata of nodes below. *)
Lemma descendants_survive H s path s' path' : plain (hy_base H) -> good_suffix (ep_suffix (hy_ep H)) ->
  wf_fs s -> plain path -> plain path' -> pieces path `prefix_of` pieces path' -> pieces path' <> pieces path ->
  Hier.remove H s path = (s', Ok tt) ->
  explicit_array H s path' \/ explicit_group H s path' -> node_exists H s' path' = Ok true.
Proof.
  intros PB GS W PP PP' _ N E X.
  destruct (removed (Codec (fun _ _ => ([], Ok tt)) (fun _ _ => Err Other)) (Host Debug Little) H PB GS s path s' W PP E)
    as (W' & _ & _ & S & _).
  destruct (S path' PP' N) as (SA & SG & _). unfold node_exists. destruct X as [X|X].
  - apply SA in X. unfold explicit_array in X. unfold akey. by rewrite X, bind_ok.
  - apply SG in X. unfold explicit_group in X. unfold akey, gkey.
    destruct (st_exists (hy_base H) s' (array_metadata_key _ path')) as [[]| |] eqn:Y; try done.
    + rewrite bind_ok. by rewrite X, bind_ok.
    + exfalso. unfold array_metadata_key in Y. rewrite st_exists_plain in Y; try done.
      apply nloc_plain; [done|by left|done].
    + exfalso. unfold array_metadata_key in Y. rewrite st_exists_plain in Y; try done.
      apply nloc_plain; [done|by left|done].
Qed.

(** Removal of a path whose data key names a chunk file (or a directory of
    chunk files) of an array above deletes those chunks. *)
Lemma remove_above C h H s rpath s' t path m pos : plain (hy_base H) -> good_suffix (ep_suffix (hy_ep H)) ->
  wf_fs s -> plain rpath -> plain path -> plain (am_sep m) -> pos_ok pos ->
  loc (hy_base H) (data_path_key rpath) `prefix_of` loc (hy_base H) (get_chunk_key path m pos) ->
  in_bounds (h_prof h) m pos = Ok true ->
  Hier.remove H s rpath = (s', Ok tt) ->
  read_chunk C h H s' t path m pos = Ok None.
Proof.
  intros PB GS W PR PP PS PO X IB E.
  apply remove_effect in E as (W' & _ & [(_ & _ & _ & N)|[_ Y]]); [|done..].
  unfold read_chunk. rewrite IB, bind_ok. cbn [assert_]. rewrite bind_ok.
  rewrite st_get_plain, bind_ok by (done || by apply plain_chunk_key).
  assert (file_at s' (loc (hy_base H) (get_chunk_key path m pos)) = None) as ->; [|done].
  unfold file_at. rewrite N. case_decide; [done|]. case_decide; [done|].
  rewrite data_key_loc in X. by rewrite decide_True.
Qed.

(** Region writes. *)
Lemma region_frame flit C h H s t path m off arr s' r :
  bounded_ok (am_shape m) (am_chunk_shape m) off (nd_shape arr) ->
  overlaps m (BBox off (nd_shape arr)) ->
  plain (hy_base H) -> plain path -> plain (am_sep m) -> wf_fs s ->
  write_ndarray flit C h H s t path m off arr = (s', r) ->
  wf_fs s' /\ dirs_kept s s'
  /\ forall q, (forall pos, pos_ok pos -> meets_box m (BBox off (nd_shape arr)) pos ->
                q <> loc (hy_base H) (get_chunk_key path m pos)) ->
     file_at s' q = file_at s q.
Proof.
  intros B O PB PP PS W E.
  destruct (write_ndarray_frame flit C h H s t path m off arr s' r B PB PP PS W E) as (W' & D & F).
  split; [done|]. split; [done|]. intros q Hq. apply F. intros pos P1 P2. apply Hq; [done|].
  by apply branges_sound.
Qed.

Lemma apart_history flit C h H s os :
  plain (hy_base H) -> good_suffix (ep_suffix (hy_ep H)) -> wf_fs s ->
  (forall path, plain path -> ~ (explicit_array H s path /\ explicit_group H s path)) ->
  Forall api_plain os ->
  forall path, plain path ->
  ~ (explicit_array H (fold_left (api_step flit C h H) os s) path
     /\ explicit_group H (fold_left (api_step flit C h H) os s) path).
Proof. intros PB GS W A O. by apply api_run_apart. Qed.

(** A base path through a missing directory and back ("..") into an existing
    hierarchy whose entry point is longer than the default one. *)
Definition wit_ep : entry_point :=
  EntryPoint (ep_format ep_default) (ep_encoding ep_default) (B ".metadata.json") [].
Definition wit_fs : fs :=
  <[[B "srv"] := Dir]> (<[[B "srv"; B "h"] := Dir]>
  (<[[B "srv"; B "h"; B "zarr.json"] := File (print (enc_ep wit_ep))]> ∅)).
Definition wit_V (v : bytes) : option bool := Some (beq v (B "3.0")).
Lemma created_dotdot :
  exists V s base existing H s', V (B "3.0") = Some true /\ wf_fs s
  /\ path_exists s (comps (path_join base ENTRY_POINT_KEY)) = false
  /\ open_hier V existing s = Ok (Hier existing H)
  /\ open_or_create V base s = (s', Ok (Hier base ep_default))
  /\ open_hier V base s' = Err InvalidData /\ open_hier V existing s' = Err InvalidData.
Proof.
  set (base := B "/srv/missing/../h").
  exists wit_V, wit_fs, base, (B "/srv/h"), wit_ep, (fst (open_or_create wit_V base wit_fs)).
  split; [reflexivity|]. split; [apply wf_check_ok; vm_compute; reflexivity|].
  split; [vm_compute; reflexivity|]. split; [vm_compute; reflexivity|].
  split; [|split; vm_compute; reflexivity].
  apply injective_projections; [reflexivity|]. vm_compute. reflexivity.
Qed.
