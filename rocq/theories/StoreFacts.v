(** Statements used by Props_Store.v and Props_Keys.v. *)
From Verif Require Export HistFacts ContainFacts.
Local Open Scope Z_scope.

Lemma rejected_encode C h t m d data pos :
  effective m d -> chunk_shape_ok m -> lenZ data < two32 ->
  ~ same_kind_width d t \/ ~ full_chunk m data ->
  exists e, encode_chunk C h t m (Chunk pos data) = ([], Err e).
Proof.
  intros He Hs Hl X.
  destruct (eq_modulo_endian d (zarr_type h t)) eqn:Q.
  - apply same_kind_width_iff in Q. destruct X as [X|X]; [done|].
    rewrite (wrong_length_rejected C h t m d data pos He Q Hs Hl X). by eexists.
  - assert (K : ~ same_kind_width d t).
    { intros K. apply (same_kind_width_iff h) in K. congruence. }
    destruct (wrong_type_rejected C h t m d [] [] (Chunk [] []) (Chunk pos data) He K) as (_ & _ & ->).
    by eexists.
Qed.

Lemma rejected_write_effect C h H s t path m d data pos s' r :
  wf_fs s -> plain (hy_base H) -> plain path -> plain (am_sep m) -> pos_ok pos ->
  effective m d -> chunk_shape_ok m -> lenZ data < two32 ->
  ~ same_kind_width d t \/ ~ full_chunk m data ->
  write_chunk C h H s t path m (Chunk pos data) = (s', r) ->
  let p := loc (hy_base H) (get_chunk_key path m pos) in
  (exists e, r = Err e) /\ same_except s s' p
  /\ (s' = s \/ file_at s' p = Some []).
Proof.
  intros W PB PP PS Q He Hs Hl X E. cbv zeta.
  destruct (rejected_encode C h t m d data pos He Hs Hl X) as [e R].
  apply write_chunk_effect in E as (_ & SE & _ & Y); try done. cbn [ck_pos] in *. rewrite R in Y.
  cbn [fst snd] in Y.
  destruct Y as [(_ & F & ->)|(_ & -> & [e' ->])].
  - split; [by eexists|]. split; [done|by right].
  - split; [by eexists|]. split; [done|by left].
Qed.

Lemma rejected_write_destroys C h H s t t' path m d data pos s' r :
  wf_fs s -> plain (hy_base H) -> plain path -> plain (am_sep m) -> pos_ok pos ->
  effective m d -> chunk_shape_ok m -> lenZ data < two32 ->
  ~ same_kind_width d t \/ ~ full_chunk m data ->
  am_comp m = CRaw -> same_kind_width d t' -> in_bounds (h_prof h) m pos = Ok true ->
  can_hold_file s (loc (hy_base H) (get_chunk_key path m pos)) ->
  write_chunk C h H s t path m (Chunk pos data) = (s', r) ->
  read_chunk C h H s' t' path m pos = Err UnexpectedEof.
Proof.
  intros W PB PP PS Q He Hs Hl X Raw K I CH E.
  destruct (rejected_encode C h t m d data pos He Hs Hl X) as [e R].
  apply write_chunk_effect in E as (W' & SE & _ & Y); try done. cbn [ck_pos] in *. rewrite R in Y.
  cbn [fst snd] in Y. destruct Y as [(_ & F & ->)|(N & _)]; [|done].
  unfold read_chunk. rewrite I. cbn [mbind res_bind assert_].
  rewrite st_get_plain by (try done; by apply plain_chunk_key). rewrite F. cbn [mbind res_bind].
  rewrite (decode_raw_short C h t' m d [] pos He K Raw Hs); [done|].
  pose proof (chunk_shape_prod_pos m Hs). rewrite (same_kind_width_size d t' K).
  unfold lenZ. simpl length. destruct t'; simpl; lia.
Qed.

Lemma write_frame C h H s t path m ck s' r :
  wf_fs s -> plain (hy_base H) -> plain path -> good_sep (am_sep m) -> pos_ok (ck_pos ck) ->
  good_suffix (ep_suffix (hy_ep H)) ->
  write_chunk C h H s t path m ck = (s', r) ->
  wf_fs s'
  /\ same_except s s' (loc (hy_base H) (get_chunk_key path m (ck_pos ck)))
  /\ dirs_kept s s'
  /\ (forall t' path' m' pos', plain path' -> good_sep (am_sep m') -> pos_ok pos' ->
        (pieces path', pos') <> (pieces path, ck_pos ck) ->
        read_chunk C h H s' t' path' m' pos' = read_chunk C h H s t' path' m' pos')
  /\ (forall path', plain path' ->
        get_array_metadata H s' path' = get_array_metadata H s path'
        /\ node_exists H s' path' = node_exists H s path'
        /\ array_exists H s' path' = array_exists H s path'
        /\ list_attributes H s' path' = list_attributes H s path').
Proof.
  intros W PB PP G Q GS E.
  apply write_chunk_effect in E as (W' & SE & DK & _); try done; [|apply G].
  split; [done|]. split; [done|]. split; [done|]. split.
  - intros. by eapply frame_chunks.
  - intros. apply meta_readers_same; try done. by eapply same_except_meta.
Qed.

Lemma delete_spec C h H s path m pos s' b :
  wf_fs s -> plain (hy_base H) -> plain path -> good_sep (am_sep m) -> pos_ok pos ->
  good_suffix (ep_suffix (hy_ep H)) ->
  delete_chunk H s path m pos = (s', Ok b) ->
  b = true
  /\ (in_bounds (h_prof h) m pos = Ok true ->
      forall t, read_chunk C h H s' t path m pos = Ok None)
  /\ delete_chunk H s' path m pos = (s', Ok true)
  /\ wf_fs s' /\ dirs_kept s s'
  /\ same_except s s' (loc (hy_base H) (get_chunk_key path m pos))
  /\ (forall t' path' m' pos', plain path' -> good_sep (am_sep m') -> pos_ok pos' ->
        (pieces path', pos') <> (pieces path, pos) ->
        read_chunk C h H s' t' path' m' pos' = read_chunk C h H s t' path' m' pos')
  /\ (forall path', plain path' ->
        get_array_metadata H s' path' = get_array_metadata H s path'
        /\ node_exists H s' path' = node_exists H s path'
        /\ array_exists H s' path' = array_exists H s path'
        /\ list_attributes H s' path' = list_attributes H s path').
Proof.
  intros W PB PP G Q GS E.
  pose proof (delete_chunk_effect H s path m pos s' (Ok b) W PB PP (proj2 (proj2 (proj2 G))) Q E)
    as (W' & SE & DK & Y). cbv zeta in Y.
  destruct Y as [(N & F & R)|(_ & _ & ?)]; [|done]. injection R as ->.
  split; [done|]. split.
  { intros I t. apply read_absent; try done. apply G. }
  split.
  { unfold delete_chunk. rewrite st_erase_plain; try done.
    - destruct (node_at s' _) as [[|c]|] eqn:X; [| |done].
      + exfalso. unfold delete_chunk in E.
        rewrite st_erase_plain in E; try done; [|apply plain_chunk_key; [done|apply G|done]].
        destruct (node_at s (loc (hy_base H) (get_chunk_key path m pos))) as [[|c]|] eqn:Y; [done| |].
        * injection E as <-. rewrite node_at_delete, decide_True in X; [done|done|].
          intros Z. by rewrite Z in Y.
        * injection E as <-. congruence.
      + unfold file_at in F. by rewrite X in F.
    - apply plain_chunk_key; [done|apply G|done]. }
  split; [done|]. split; [done|]. split; [done|]. split.
  - intros. by eapply frame_chunks.
  - intros. apply meta_readers_same; try done. by eapply same_except_meta.
Qed.

Lemma delete_accepted H s path m pos :
  wf_fs s -> plain (hy_base H) -> plain path -> plain (am_sep m) -> pos_ok pos ->
  node_at s (loc (hy_base H) (get_chunk_key path m pos)) <> Some Dir ->
  snd (delete_chunk H s path m pos) = Ok true.
Proof.
  intros W PB PP PS Q N. destruct (delete_chunk H s path m pos) as [s' r] eqn:E.
  apply delete_chunk_effect in E as (_ & _ & _ & Y); try done.
  destruct Y as [(_ & _ & ->)|(? & _)]; done.
Qed.

(** ** URI *)
Lemma uri_spec H path m pos u : get_chunk_uri H path m pos = Ok u ->
  exists p, u = B "file://" ++ p
  /\ (forall s, st_get (hy_base H) s (get_chunk_key path m pos)
        = if path_is_file s (comps p) then c ← open_read s (comps p); Ok (Some c) else Ok None)
  /\ (forall C h s t ck s', ck_pos ck = pos -> write_chunk C h H s t path m ck = (s', Ok tt) ->
        open_read s' (comps p) = Ok (fst (encode_chunk C h t m ck))).
Proof.
  unfold get_chunk_uri, st_uri. destruct (get_path _ _) as [p| |] eqn:E; [|done|done].
  intros [= <-]. exists p. split; [done|].
  assert (G : forall s, st_get (hy_base H) s (get_chunk_key path m pos)
        = if path_is_file s (comps p) then c ← open_read s (comps p); Ok (Some c) else Ok None).
  { intros s. unfold st_get, key_comps. by rewrite E. }
  split; [done|]. intros C h s t ck s' <- Wr.
  apply st_set_get in Wr; [|done]. rewrite G in Wr.
  destruct (path_is_file s' (comps p)); [|done].
  destruct (open_read s' (comps p)); [|done|done]. by injection Wr as ->.
Qed.
Lemma uri_plain H path m pos : plain (hy_base H) -> plain path -> plain (am_sep m) -> pos_ok pos ->
  exists p, get_chunk_uri H path m pos = Ok (B "file://" ++ p)
  /\ pieces p = loc (hy_base H) (get_chunk_key path m pos).
Proof.
  intros PB PP PS Q. unfold get_chunk_uri, st_uri.
  assert (PK : plain (get_chunk_key path m pos)) by by apply plain_chunk_key.
  assert (K := key_comps_plain _ _ PB PK). unfold key_comps in K.
  destruct (get_path _ _) as [p| |]; [|done|done]. exists p. split; [done|].
  injection K as K. rewrite comps_pieces in K.
  assert (Z : forall a c, map comp_of a = map Normal c -> a = c).
  { induction a as [|x a IH]; intros [|y c] X; try done. cbn [map] in X. injection X as X1 X2.
    f_equal; [|by apply IH]. unfold comp_of in X1. destruct (beq x dotdot); [done|by injection X1]. }
  by apply Z.
Qed.

(** ** Deciding premises of examples *)
Definition wf_check (s : fs) : bool := forallb (fun kv => is_dir_at s (parent kv.1)) (map_to_list s).
Lemma wf_check_ok s : wf_check s = true -> wf_fs s.
Proof.
  intros E p n x X. unfold wf_check in E. rewrite forallb_forall in E.
  specialize (E (p ++ [x], n)). cbn [fst] in E. rewrite parent_snoc in E.
  apply is_dir_at_true, E. apply elem_of_list_In. by apply elem_of_map_to_list.
Qed.
Lemma plain_check s : bool_decide (dotdot ∈ pieces s) = false -> plain s.
Proof. by intros E%bool_decide_eq_false. Qed.
Lemma base_ok_check b s : forallb (fun k => is_dir_at s (take k b)) (seq 0 (S (length b))) = true ->
  base_ok b s.
Proof.
  intros E k. rewrite forallb_forall in E.
  assert (X : forall j, (j <= length b)%nat -> node_at s (take j b) = Some Dir).
  { intros j J. apply is_dir_at_true, E. apply in_seq. lia. }
  destruct (Nat.le_gt_cases k (length b)); [by apply X|].
  rewrite take_ge by lia. rewrite <- (firstn_all b). by apply X.
Qed.

(** ** Separators *)
Definition sep_meta (sep : bytes) : array_meta :=
  ArrayMeta [5; 7] (Core DBool) (B "regular") [2; 3] sep RowMajor None [] [] CRaw.
Lemma pos_ok_check pos : forallb (fun z => (0 <=? z) && (z <? two64)) pos = true -> pos_ok pos.
Proof.
  intros E. apply list.Forall_forall. intros z Hz. rewrite forallb_forall in E.
  specialize (E z (proj1 (elem_of_list_In _ _) Hz)). unfold is_u64. lia.
Qed.
Lemma separator_needed :
  (exists pos pos', pos <> pos' /\ pos_ok pos /\ pos_ok pos'
     /\ get_chunk_key (B "a") (sep_meta []) pos = get_chunk_key (B "a") (sep_meta []) pos')
  /\ (exists pos pos', pos <> pos' /\ pos_ok pos /\ pos_ok pos'
     /\ get_chunk_key (B "a") (sep_meta (B "0")) pos = get_chunk_key (B "a") (sep_meta (B "0")) pos')
  /\ (exists path path' pos pos', canonicalize_path path <> canonicalize_path path' /\ pos_ok pos /\ pos_ok pos'
     /\ get_chunk_key path (sep_meta (B "/c")) pos = get_chunk_key path' (sep_meta (B "/c")) pos').
Proof.
  split; [|split].
  - exists [1; 23], [12; 3]. split; [done|]. split; [by apply pos_ok_check|].
    split; [by apply pos_ok_check|]. vm_compute. reflexivity.
  - exists [1; 2], [102]. split; [done|]. split; [by apply pos_ok_check|].
    split; [by apply pos_ok_check|]. vm_compute. reflexivity.
  - exists (B "a"), (B "a/c1"), [1; 2], [2]. split; [done|]. split; [by apply pos_ok_check|].
    split; [by apply pos_ok_check|]. vm_compute. reflexivity.
Qed.
Definition sep_check (sep : bytes) : bool :=
  bool_decide (sep <> []) && bool_decide ("c"%char ∉ sep)
  && forallb (fun b => negb (is_digit b)) sep && negb (bool_decide (dotdot ∈ pieces sep)).
Lemma sep_check_ok sep : sep_check sep = true -> good_sep sep.
Proof.
  unfold sep_check. rewrite !andb_true_iff. intros [[[A1 A2] A3] A4].
  apply bool_decide_eq_true in A1. apply bool_decide_eq_true in A2.
  split; [done|]. split; [done|]. split.
  - apply list.Forall_forall. intros b Hb. rewrite forallb_forall in A3.
    specialize (A3 b (proj1 (elem_of_list_In _ _) Hb)). by destruct (is_digit b).
  - apply plain_check. by destruct (bool_decide (dotdot ∈ pieces sep)).
Qed.
Lemma separator_examples :
  good_sep (B "/") /\ good_sep (B ".") /\ good_sep (B "-_/")
  /\ get_chunk_key (B "/foo//") (sep_meta (B ".")) [1; 20] = B "/data/root/foo/c1.20"
  /\ get_chunk_key (B "/") (sep_meta (B "/")) [1; 20] = B "/data/root/c1/20".
Proof.
  do 3 (split; [apply sep_check_ok; vm_compute; reflexivity|]).
  split; vm_compute; reflexivity.
Qed.
Lemma metadata_key_examples :
  array_metadata_key (B ".json") (B "a/.b.c.") = B "/meta/root/a/.b.c..array.json"
  /\ group_metadata_key (B "json") (B "//a/.b.c./") = B "/meta/root/a/.b.c..group.json"
  /\ array_metadata_key (B ".json") (B "/") = B "/meta/root.array.json"
  /\ plain (B "a/.b.c.") /\ slash ∉ strip_dot (B ".json").
Proof.
  do 3 (split; [vm_compute; reflexivity|]). split; [by apply plain_check|].
  by apply (bool_decide_eq_false_1 _).
Qed.
Lemma entry_key_distinct base ext sfx path path' m pos :
  is_node_ext ext -> slash ∉ strip_dot sfx ->
  loc base ENTRY_POINT_KEY <> loc base (metadata_key ext sfx path)
  /\ loc base ENTRY_POINT_KEY <> loc base (get_chunk_key path' m pos).
Proof.
  intros E S. split; intros X; unfold loc in X; apply app_inv_head in X.
  - rewrite pieces_node_key in X by done.
    destruct (meta_pieces_head ext (strip_dot sfx) (pieces path)) as [r R]. by rewrite R in X.
  - by rewrite pieces_chunk_key in X.
Qed.

(** ** Containment *)
Lemma contained_writes H path : plain (hy_base H) -> good_suffix (ep_suffix (hy_ep H)) ->
  never_above 2 (pieces path) ->
  forall s, base_ok (pieces (hy_base H)) s ->
  let b := pieces (hy_base H) in
  (forall attrs, outside_same b s (fst (set_attributes H s path attrs)))
  /\ outside_same b s (fst (create_group H s path))
  /\ (forall m, outside_same b s (fst (create_array H s path m)))
  /\ outside_same b s (fst (Hier.remove H s path))
  /\ (forall C h t m ck, plain (am_sep m) -> pos_ok (ck_pos ck) ->
        outside_same b s (fst (write_chunk C h H s t path m ck)))
  /\ (forall m pos, plain (am_sep m) -> pos_ok pos ->
        outside_same b s (fst (delete_chunk H s path m pos))).
Proof. intros P G N s O. apply writes_contained; try done. by apply never_above_path. Qed.
Lemma contained_reads H path : plain (hy_base H) -> good_suffix (ep_suffix (hy_ep H)) ->
  never_above 2 (pieces path) ->
  forall s1 s2, base_ok (pieces (hy_base H)) s1 -> base_ok (pieces (hy_base H)) s2 ->
  inside_same (pieces (hy_base H)) s1 s2 ->
  get_array_metadata H s1 path = get_array_metadata H s2 path
  /\ node_exists H s1 path = node_exists H s2 path
  /\ list_attributes H s1 path = list_attributes H s2 path
  /\ (forall C h t m pos, plain (am_sep m) -> pos_ok pos ->
        read_chunk C h H s1 t path m pos = read_chunk C h H s2 t path m pos)
  /\ (forall C h t m pos old, plain (am_sep m) -> pos_ok pos ->
        read_chunk_into C h H s1 t path m pos old = read_chunk_into C h H s2 t path m pos old).
Proof. intros P G N s1 s2 O1 O2 I. apply reads_local; try done. by apply never_above_path. Qed.
Lemma net_escape base s key v : nest (comps key) < 0 ->
  st_get base s key = Err NotFound /\ st_exists base s key = Err NotFound
  /\ st_set base s key v = (s, Err NotFound) /\ st_erase base s key = (s, Err NotFound)
  /\ st_erase_prefix base s key = (s, Err NotFound).
Proof.
  intros N. unfold st_get, st_exists, st_set, st_erase, st_erase_prefix.
  by rewrite key_comps_err.
Qed.
Lemma not_prefix_check p q : is_prefix p q = false -> ~ p `prefix_of` q.
Proof. intros E P. apply is_prefix_spec in P. congruence. Qed.
Lemma escape_witness :
  exists H path m s, base_ok (pieces (hy_base H)) s /\ wf_fs s /\ plain (hy_base H)
  /\ good_suffix (ep_suffix (hy_ep H)) /\ good_sep (am_sep m)
  /\ (exists q pos s', delete_chunk H s path m pos = (s', Ok true)
        /\ ~ (pieces (hy_base H) `prefix_of` q)
        /\ file_at s q = Some (B "secret") /\ file_at s' q = None)
  /\ (exists q C h t ck s', write_chunk C h H s t path m ck = (s', Ok tt)
        /\ ~ (pieces (hy_base H) `prefix_of` q)
        /\ file_at s q = None /\ file_at s' q <> None).
Proof.
  set (H := Hier (B "/srv/h") ep_default).
  set (m := ArrayMeta [9] (Core DBool) (B "regular") [1] (B "/") RowMajor None [] [] CRaw).
  set (s := <[[B "srv"] := Dir]> (<[[B "srv"; B "h"] := Dir]> (<[[B "srv"; B "h"; B "data"] := Dir]>
    (<[[B "srv"; B "h"; B "data"; B "root"] := Dir]>
    (<[[B "srv"; B "other"] := Dir]> (<[[B "srv"; B "other"; B "c0"] := File (B "secret")]> (∅ : fs))))))).
  set (C := Codec (fun _ ws => (concat ws, Ok tt)) (fun _ b => Ok (Stream b None))).
  exists H, (B "../../../other"), m, s.
  split; [apply base_ok_check; vm_compute; reflexivity|].
  split; [apply wf_check_ok; vm_compute; reflexivity|].
  split; [apply plain_check; vm_compute; reflexivity|].
  split; [split; by apply (bool_decide_eq_false_1 _)|].
  split; [apply sep_check_ok; vm_compute; reflexivity|].
  split.
  - exists [B "srv"; B "other"; B "c0"], [0], (fst (delete_chunk H s (B "../../../other") m [0])).
    split; [vm_compute; reflexivity|]. split; [apply not_prefix_check; vm_compute; reflexivity|].
    split; vm_compute; reflexivity.
  - exists [B "srv"; B "other"; B "c1"], C, (Host Debug Little), RBool, (Chunk [1] [1]),
      (fst (write_chunk C (Host Debug Little) H s RBool (B "../../../other") m (Chunk [1] [1]))).
    split; [vm_compute; reflexivity|]. split; [apply not_prefix_check; vm_compute; reflexivity|].
    split; vm_compute; [reflexivity|discriminate].
Qed.
