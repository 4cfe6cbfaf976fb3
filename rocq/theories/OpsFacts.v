(** Frames of region writes and removals; arrays and groups stay apart. *)
From Verif Require Import Hier Nd Spec SpecMeta SpecHier BaseFacts PathFacts FSFacts KeyFacts HierFacts
  StoreFacts CoordIterFacts NdFacts NodeFacts RefFacts.
Local Open Scope Z_scope.

(** ** Region writes, successful or not *)

Lemma write_step_frame C h H t path m arr bb fill s buf c s' r :
  write_step C h H t path m arr bb fill s buf c = (s', r) ->
  s' = s \/ exists data r', write_chunk C h H s t path m (Chunk c data) = (s', r').
Proof.
  unfold write_step. cbv zeta.
  repeat (match goal with |- context [on _ ?x _] => destruct x as [?|?|] end; cbn [on];
          [|intros [= <- _]; by left|intros [= <- _]; by left]).
  case_bool_decide.
  - destruct (write_chunk _ _ _ _ _ _ _ _) as [s1 [u|e|]] eqn:E; cbn [andthen]; intros [= <- _]; right; by eexists _, _.
  - destruct (read_chunk_into _ _ _ _ _ _ _ _ _) as [o|e|]; cbn [on]; [|intros [= <- _]; by left|intros [= <- _]; by left].
    match goal with |- context [on _ ?x _] => destruct x as [[[cb ca] mem]|e|] end; cbn [on];
      [|intros [= <- _]; by left|intros [= <- _]; by left].
    repeat (match goal with |- context [on _ ?x _] => destruct x as [?|?|] end; cbn [on];
            [|intros [= <- _]; by left|intros [= <- _]; by left]).
    destruct (write_chunk _ _ _ _ _ _ _ _) as [s1 [u|e|]] eqn:E; cbn [andthen]; intros [= <- _]; right; by eexists _, _.
Qed.
Lemma write_loop_frame C h H t path m arr bb fill coords : 
  plain (hy_base H) -> plain path -> plain (am_sep m) -> Forall pos_ok coords -> forall s buf s' r,
  wf_fs s -> write_loop C h H t path m arr bb fill coords s buf = (s', r) ->
  wf_fs s' /\ dirs_kept s s'
  /\ forall q, (forall pos, pos ∈ coords -> q <> loc (hy_base H) (get_chunk_key path m pos)) ->
     file_at s' q = file_at s q.
Proof.
  intros PB PP PS PO. induction coords as [|c coords IH]; intros s buf s' r W E; cbn [write_loop] in E.
  { injection E as <- <-. split; [done|]. split; [by intros q|done]. }
  apply list.Forall_cons in PO as [PO1 PO2].
  destruct (write_step _ _ _ _ _ _ _ _ _ _ _ _) as [s1 r1] eqn:E1.
  assert (wf_fs s1 /\ dirs_kept s s1
    /\ forall q, q <> loc (hy_base H) (get_chunk_key path m c) -> file_at s1 q = file_at s q) as (W1 & D1 & F1).
  { apply write_step_frame in E1 as [->|(data & r' & E1)]; [split; [done|split; [by intros q|done]]|].
    pose proof (write_chunk_effect C h H s t path m (Chunk c data) s1 r' W PB PP PS PO1 E1) as (W1 & SE & D1 & _).
    split; [done|]. split; [done|]. intros q Hq. by apply SE. }
  destruct r1 as [buf1|e|]; cbn [andthen] in E.
  - destruct (IH PO2 s1 buf1 s' r W1 E) as (W' & D' & F'). split; [done|]. split; [intros q Hq; auto|].
    intros q Hq. rewrite F', F1; [done|apply Hq; left|intros pos Hp; apply Hq; by right].
  - injection E as <- <-. split; [done|]. split; [done|]. intros q Hq. apply F1, Hq. left.
  - injection E as <- <-. split; [done|]. split; [done|]. intros q Hq. apply F1, Hq. left.
Qed.
Lemma ranges_pos m bb pos : bok m bb -> in_ranges (branges m bb) pos -> pos_ok pos.
Proof.
  unfold bok, branges, in_ranges. intros B. revert pos.
  induction B as [|d s o e shape chunks off oshape H1 H2 H3 H4 H5 H6 H7 B IH]; intros pos Q; cbn [b_ranges] in Q.
  - inversion Q; subst. constructor.
  - apply Forall2_cons_inv_l in Q as (v & pos' & Hv & Q & ->). apply Forall_cons_2; [|by apply IH].
    cbn beta iota in Hv. unfold b_floor, b_ceil, b_shape in Hv. set (x := o + _ + s - 1) in Hv.
    assert (0 <= o / s) by (apply Z.div_pos; lia). assert (0 <= x < two64) by (unfold x; lia).
    assert (x / s <= x) by (apply Z.div_le_upper_bound; nia). unfold is_u64. lia.
Qed.
(** The chunks a region write may touch. *)
Lemma write_ndarray_frame flit C h H s t path m off arr s' r :
  bounded_ok (am_shape m) (am_chunk_shape m) off (nd_shape arr) ->
  plain (hy_base H) -> plain path -> plain (am_sep m) -> wf_fs s ->
  write_ndarray flit C h H s t path m off arr = (s', r) ->
  wf_fs s' /\ dirs_kept s s'
  /\ forall q, (forall pos, pos_ok pos -> in_ranges (branges m (BBox off (nd_shape arr))) pos ->
                q <> loc (hy_base H) (get_chunk_key path m pos)) ->
     file_at s' q = file_at s q.
Proof.
  intros B PB PP PS W. unfold write_ndarray. destruct (negb _).
  { intros [= <- _]. split; [done|]. split; [by intros q|done]. }
  cbv zeta. destruct (effective_fill flit t m) as [fill|e|]; cbn [on];
    [|intros [= <- _]; split; [done|]; split; [by intros q|done]..].
  assert (BO : bok m (BBox off (nd_shape arr))) by done.
  rewrite (bounded_coords_eq (h_prof h) m _ BO).
  destruct (mbind _ _) as [coords|e|] eqn:Ec; cbn [on];
    [|intros [= <- _]; split; [done|]; split; [by intros q|done]..].
  apply bind_ok_inv in Ec as (n & _ & [= <-]).
  intros E. eapply write_loop_frame in E; [|done..| |done].
  - destruct E as (W' & D' & F'). split; [done|]. split; [done|]. intros q Hq. apply F'. intros pos Hp.
    apply visited_ranges in Hp. apply Hq; [by eapply ranges_pos|done].
  - apply list.Forall_forall. intros pos Hp. eapply ranges_pos; [exact BO|]. by apply visited_ranges.
Qed.

(** ** Arrays and groups stay apart *)

Section apart.
Context (H : hier).
Hypothesis PB : plain (hy_base H).
Hypothesis GS : good_suffix (ep_suffix (hy_ep H)).
Notation base := (hy_base H).
Notation sfx := (ep_suffix (hy_ep H)).
Notation AX := ARRAY_METADATA_KEY_EXT.
Notation GX := GROUP_METADATA_KEY_EXT.

Definition apart (s : fs) : Prop :=
  forall path, plain path -> ~ (explicit_array H s path /\ explicit_group H s path).
Definition nloc (ext : bytes) (path : bytes) : fpath := loc base (metadata_key ext sfx path).
Lemma nloc_plain ext path : is_node_ext ext -> plain path -> plain (metadata_key ext sfx path).
Proof. intros. apply plain_node_key; [done|apply GS|done]. Qed.
Lemma explicit_a s path : wf_fs s -> plain path -> explicit_array H s path <-> file_at s (nloc AX path) <> None.
Proof.
  intros W PP. unfold explicit_array, array_metadata_key.
  rewrite st_exists_plain by (done || by apply nloc_plain; [left|]). unfold nloc.
  destruct (file_at s _); split; congruence.
Qed.
Lemma explicit_g s path : wf_fs s -> plain path -> explicit_group H s path <-> file_at s (nloc GX path) <> None.
Proof.
  intros W PP. unfold explicit_group, group_metadata_key.
  rewrite st_exists_plain by (done || by apply nloc_plain; [right|]). unfold nloc.
  destruct (file_at s _); split; congruence.
Qed.
Lemma nloc_inj ext ext' path path' : is_node_ext ext -> is_node_ext ext' -> plain path -> plain path' ->
  nloc ext path = nloc ext' path' -> ext = ext' /\ forall e, is_node_ext e -> nloc e path = nloc e path'.
Proof.
  intros E E' P P' X. apply loc_node_inj in X as [X ->]; [|done..|apply GS|done|done].
  split; [done|]. intros e Ee. unfold nloc, loc. rewrite !pieces_node_key by (done || apply GS). by rewrite X.
Qed.
Lemma nloc_meta ext path : is_node_ext ext -> exists r, nloc ext path = pieces base ++ B "meta" :: r.
Proof.
  intros E. unfold nloc, loc. rewrite pieces_node_key by (done || apply GS).
  destruct (meta_pieces_head ext (strip_dot sfx) (pieces path)) as [r ->]. by exists r.
Qed.

(** No new metadata file: still apart. *)
Lemma apart_less s s' : wf_fs s -> wf_fs s' -> apart s ->
  (forall r, file_at s' (pieces base ++ B "meta" :: r) <> None -> file_at s (pieces base ++ B "meta" :: r) <> None) ->
  apart s'.
Proof.
  intros W W' A F path PP [XA XG]. apply (A path PP).
  rewrite explicit_a in XA |- * by done. rewrite explicit_g in XG |- * by done.
  destruct (nloc_meta AX path ltac:(by left)) as [r Er], (nloc_meta GX path ltac:(by right)) as [r' Er'].
  rewrite Er in *. rewrite Er' in *. split; by apply F.
Qed.
(** One new metadata file, of a path that has none of the other kind. *)
Lemma apart_new s s' path ext ext' : wf_fs s -> wf_fs s' -> apart s -> plain path ->
  (ext = AX /\ ext' = GX \/ ext = GX /\ ext' = AX) ->
  same_except s s' (nloc ext path) -> file_at s (nloc ext' path) = None -> apart s'.
Proof.
  intros W W' A PP EE SE N path' PP' [XA XG].
  assert (E1 : is_node_ext ext) by (destruct EE as [[-> _]|[-> _]]; [by left|by right]).
  assert (E2 : is_node_ext ext') by (destruct EE as [[_ ->]|[_ ->]]; [by right|by left]).
  assert (E3 : ext' <> ext) by (by destruct EE as [[-> ->]|[-> ->]]).
  rewrite explicit_a in XA by done. rewrite explicit_g in XG by done.
  destruct (decide (nloc ext path' = nloc ext path)) as [X|X].
  - apply nloc_inj in X as [_ X]; [|done..]. rewrite <- (X ext' E2) in N.
    assert (file_at s' (nloc ext' path') = None).
    { rewrite SE; [done|]. intros Y. apply nloc_inj in Y as [Y _]; done. }
    by destruct EE as [[-> ->]|[-> ->]].
  - apply (A path' PP'). rewrite explicit_a, explicit_g by done.
    assert (F : forall e, is_node_ext e -> file_at s' (nloc e path') = file_at s (nloc e path')).
    { intros e Ee. apply SE. intros Y. apply nloc_inj in Y as [_ Y]; [|done..]. exact (X (Y ext E1)). }
    rewrite <- (F AX), <- (F GX) by first [by left|by right]. done.
Qed.

Lemma create_array_apart s path m s' r : wf_fs s -> plain path -> apart s ->
  create_array H s path m = (s', r) -> wf_fs s' /\ apart s'.
Proof.
  intros W PP A. unfold create_array, akey, gkey, array_metadata_key, group_metadata_key.
  assert (PA : plain (metadata_key AX sfx path)) by (apply nloc_plain; [by left|done]).
  assert (PG : plain (metadata_key GX sfx path)) by (apply nloc_plain; [by right|done]).
  rewrite !st_exists_plain by done. cbn [on].
  destruct (file_at s (loc base (metadata_key GX sfx path))) eqn:EG; [by intros [= <- <-]|]. cbn [on].
  destruct (file_at s (loc base (metadata_key AX sfx path))) eqn:EA; [by intros [= <- <-]|].
  intros E. apply st_set_effect in E as (W' & SE & _ & _); [|done..]. split; [done|].
  eapply (apart_new s s' path AX GX); [done|done|done|done|by left|exact SE|exact EG].
Qed.
Lemma create_group_apart s path s' r : wf_fs s -> plain path -> apart s ->
  create_group H s path = (s', r) -> wf_fs s' /\ apart s'.
Proof.
  intros W PP A. unfold create_group, akey, gkey, array_metadata_key, group_metadata_key.
  assert (PA : plain (metadata_key AX sfx path)) by (apply nloc_plain; [by left|done]).
  assert (PG : plain (metadata_key GX sfx path)) by (apply nloc_plain; [by right|done]).
  rewrite !st_exists_plain by done. cbn [on].
  destruct (file_at s (loc base (metadata_key AX sfx path))) eqn:EA; [by intros [= <- <-]|]. cbn [on].
  destruct (file_at s (loc base (metadata_key GX sfx path))) eqn:EG; [by intros [= <- <-]|].
  intros E. apply st_set_effect in E as (W' & SE & _ & _); [|done..]. split; [done|].
  eapply (apart_new s s' path GX AX); [done|done|done|done|by right|exact SE|exact EA].
Qed.
Lemma set_attributes_less s path attrs s' r : wf_fs s -> plain path ->
  set_attributes H s path attrs = (s', r) ->
  wf_fs s' /\ forall q, file_at s' q <> None -> file_at s q <> None.
Proof.
  intros W PP. unfold set_attributes.
  destruct (node_key H s path) as [k|e|] eqn:K; cbn [on]; [|by intros [= <- <-]..].
  assert (PK : plain k).
  { revert K. unfold node_key, akey, gkey, array_metadata_key, group_metadata_key.
    assert (PA : plain (metadata_key AX sfx path)) by (apply nloc_plain; [by left|done]).
    assert (PG : plain (metadata_key GX sfx path)) by (apply nloc_plain; [by right|done]).
    destruct (st_exists _ s (metadata_key AX sfx path)) as [[]| |]; cbn [mbind res_bind]; [by intros [= <-]| |done..].
    destruct (st_exists _ s (metadata_key GX sfx path)) as [[]| |]; cbn [mbind res_bind]; [by intros [= <-]|done..]. }
  rewrite st_get_plain by done. cbn [on].
  destruct (file_at s (loc base k)) as [text|] eqn:F; cbn [of_option on]; [|by intros [= <- <-]].
  destruct (from_text as_map text) as [doc|e|]; cbn [on]; [|by intros [= <- <-]..].
  cbv zeta. destruct (json_eqb _ _); [by intros [= <- <-]|].
  intros E. apply st_set_effect in E as (W' & SE & _ & _); [|done..]. split; [done|].
  intros q Hq. destruct (decide (q = loc base k)) as [->|N]; [congruence|]. by rewrite <- SE.
Qed.

Lemma data_key_plain path : plain path -> plain (data_path_key path).
Proof.
  intros PP. unfold plain. rewrite pieces_data_key. intros I. apply elem_of_app in I as [I|I]; [|done].
  apply elem_of_cons in I as [I|I]; [done|]. by apply elem_of_list_singleton in I.
Qed.
Lemma data_key_loc path : loc base (data_path_key path) = pieces base ++ B "data" :: B "root" :: pieces path.
Proof. unfold loc. by rewrite pieces_data_key. Qed.

(** What removing does. *)
Lemma remove_effect s path s' r : wf_fs s -> plain path -> Hier.remove H s path = (s', r) ->
  wf_fs s' /\ (forall q, file_at s' q <> None -> file_at s q <> None)
  /\ ((node_at s (nloc GX path) <> Some Dir /\ node_at s (nloc AX path) <> Some Dir /\ r = Ok tt
       /\ forall q, node_at s' q = if decide (q = nloc AX path) then None else if decide (q = nloc GX path) then None
            else if decide ((pieces base ++ B "data" :: B "root" :: pieces path) `prefix_of` q) then None
            else node_at s q)
      \/ ((node_at s (nloc GX path) = Some Dir \/ node_at s (nloc AX path) = Some Dir) /\ r = Err Other)).
Proof.
  intros W PP.
  assert (PA : plain (metadata_key AX sfx path)) by (apply nloc_plain; [by left|done]).
  assert (PG : plain (metadata_key GX sfx path)) by (apply nloc_plain; [by right|done]).
  assert (PD := data_key_plain path PP).
  assert (NE : nloc AX path <> nloc GX path).
  { intros X. apply nloc_inj in X as [X _]; [done|by left|by right|done|done]. }
  assert (ER : forall s k, wf_fs s -> plain k ->
    exists s' r, st_erase base s k = (s', r) /\ wf_fs s'
    /\ (node_at s (loc base k) = Some Dir /\ s' = s /\ r = Err Other
        \/ node_at s (loc base k) <> Some Dir /\ r = Ok true
           /\ forall q, node_at s' q = if decide (q = loc base k) then None else node_at s q)).
  { clear - PB. intros s k W PK. rewrite st_erase_plain by done.
    destruct (node_at s (loc base k)) as [[|c]|] eqn:X; eexists _, _; split; try done.
    - split; [done|]. by left.
    - split; [by eapply wf_delete_file|]. right. split; [done|]. split; [done|].
      intros q. apply node_at_delete. intros Z. by rewrite Z in X.
    - split; [done|]. right. split; [done|]. split; [done|]. intros q. case_decide; [by subst|done]. }
  unfold Hier.remove, akey, gkey, array_metadata_key, group_metadata_key.
  destruct (ER s (metadata_key GX sfx path) W PG) as (s1 & r1 & -> & W1 & [(D1 & -> & ->)|(D1 & -> & S1)]).
  { cbn [andthen]. intros [= <- <-]. split; [done|]. split; [done|]. right. split; [by left|done]. }
  cbn [andthen].
  assert (DA : node_at s1 (nloc AX path) = node_at s (nloc AX path)) by (rewrite S1; by rewrite decide_False).
  assert (L1 : forall q, file_at s1 q <> None -> file_at s q <> None).
  { intros q. unfold file_at. rewrite S1. by case_decide. }
  destruct (ER s1 (metadata_key AX sfx path) W1 PA) as (s2 & r2 & -> & W2 & [(D2 & -> & ->)|(D2 & -> & S2)]).
  { cbn [andthen]. intros [= <- <-]. split; [done|]. split; [done|]. right. split; [right; by rewrite <- DA|done]. }
  cbn [andthen].
  destruct (st_erase_prefix_plain base s2 (data_path_key path) W2 PB PD) as (s3 & -> & W3 & S3).
  { rewrite data_key_loc. by destruct (pieces base). }
  cbn [andthen]. intros [= <- <-]. split; [done|].
  assert (N : forall q, node_at s3 q = if decide (q = nloc AX path) then None else if decide (q = nloc GX path) then None
            else if decide ((pieces base ++ B "data" :: B "root" :: pieces path) `prefix_of` q) then None
            else node_at s q).
  { intros q. rewrite S3, data_key_loc, S2, S1. unfold nloc. by repeat case_decide. }
  split.
  - intros q. unfold file_at. rewrite N. by repeat case_decide.
  - left. split; [done|]. split; [by rewrite <- DA|done].
Qed.

Lemma api_apart flit C h s o : wf_fs s -> apart s -> api_plain o ->
  wf_fs (api_step flit C h H s o) /\ apart (api_step flit C h H s o).
Proof.
  intros W A O. destruct o as [path m|path|path attrs|path|t path m ck|path m pos|t path m off arr]; cbn [api_step api_plain] in *.
  - destruct (create_array H s path m) eqn:E. by eapply create_array_apart.
  - destruct (create_group H s path) eqn:E. by eapply create_group_apart.
  - destruct (set_attributes H s path attrs) as [s1 r1] eqn:E. apply set_attributes_less in E as [W' L]; [|done..].
    split; [done|]. apply (apart_less s); [done|done|done|]. intros q. apply L.
  - destruct (Hier.remove H s path) as [s1 r1] eqn:E. apply remove_effect in E as (W' & L & _); [|done..].
    split; [done|]. apply (apart_less s); [done|done|done|]. intros q. apply L.
  - destruct O as (O1 & O2 & O3). destruct (write_chunk C h H s t path m ck) as [s' r] eqn:E.
    apply write_chunk_effect in E as (W' & SE & _); [|done..]. split; [done|]. cbn [fst].
    apply (apart_less s); [done|done|done|]. intros q. rewrite (same_except_meta _ _ _ _ _ _ SE). done.
  - destruct O as (O1 & O2 & O3). destruct (delete_chunk H s path m pos) as [s' r] eqn:E.
    apply delete_chunk_effect in E as (W' & SE & _); [|done..]. split; [done|]. cbn [fst].
    apply (apart_less s); [done|done|done|]. intros q. rewrite (same_except_meta _ _ _ _ _ _ SE). done.
  - destruct O as (O1 & O2 & O3). destruct (write_ndarray flit C h H s t path m off arr) as [s' r] eqn:E.
    apply write_ndarray_frame in E as (W' & _ & F); [|done..]. split; [done|]. cbn [fst].
    apply (apart_less s); [done|done|done|]. intros q. rewrite F; [done|]. intros pos _ _ X.
    symmetry in X. by apply chunk_not_meta in X.
Qed.
Lemma api_run_apart flit C h os : forall s, wf_fs s -> apart s -> Forall api_plain os ->
  apart (fold_left (api_step flit C h H) os s).
Proof.
  induction os as [|o os IH]; intros s W A O; [done|]. apply list.Forall_cons in O as [O1 O2].
  destruct (api_apart flit C h s o W A O1) as [W' A']. by apply IH.
Qed.

(** Answers of the creating calls. *)
Lemma create_answers s path m : wf_fs s -> plain path -> apart s ->
  (explicit_array H s path \/ explicit_group H s path -> create_array H s path m = (s, Err AlreadyExists))
  /\ (explicit_array H s path -> create_group H s path = (s, Err AlreadyExists))
  /\ (explicit_group H s path -> create_group H s path = (s, Ok tt))
  /\ (forall s', create_array H s path m = (s', Ok tt) ->
       ~ explicit_array H s path /\ ~ explicit_group H s path
       /\ explicit_array H s' path /\ ~ explicit_group H s' path)
  /\ (forall s', create_group H s path = (s', Ok tt) ->
       ~ explicit_array H s path /\ explicit_group H s' path /\ ~ explicit_array H s' path).
Proof.
  intros W PP A. pose proof (A path PP) as AP.
  assert (EA : st_exists base s (akey H path) = Ok (is_some (file_at s (nloc AX path)))).
  { apply st_exists_plain; [done|done|]. apply nloc_plain; [by left|done]. }
  assert (EG : st_exists base s (gkey H path) = Ok (is_some (file_at s (nloc GX path)))).
  { apply st_exists_plain; [done|done|]. apply nloc_plain; [by right|done]. }
  assert (XA : explicit_array H s path <-> is_some (file_at s (nloc AX path)) = true).
  { rewrite explicit_a by done. destruct (file_at s (nloc AX path)); split; done. }
  assert (XG : explicit_group H s path <-> is_some (file_at s (nloc GX path)) = true).
  { rewrite explicit_g by done. destruct (file_at s (nloc GX path)); split; done. }
  assert (CA := fun s' r => create_array_apart s path m s' r W PP A).
  assert (CG := fun s' r => create_group_apart s path s' r W PP A).
  unfold create_array, create_group in *. rewrite EA, EG in *. cbn [on] in *.
  destruct (is_some (file_at s (nloc AX path))) eqn:FA, (is_some (file_at s (nloc GX path))) eqn:FG; cbn [on] in *.
  - tauto.
  - split; [done|]. split; [done|]. split; [intros X; apply XG in X; done|]. split; [done|]. done.
  - split; [done|]. split; [intros X; apply XA in X; done|]. split; [done|]. split; [done|].
    intros s' [= <-]. split; [intros X; apply XA in X; done|]. split; [by apply XG|intros X; apply XA in X; done].
  - split; [intros [X|X]; [apply XA in X|apply XG in X]; done|].
    split; [intros X; apply XA in X; done|]. split; [intros X; apply XG in X; done|].
    assert (NA : ~ explicit_array H s path) by (intros X; apply XA in X; done).
    assert (NG : ~ explicit_group H s path) by (intros X; apply XG in X; done).
    split; intros s' E.
    + destruct (CA s' _ E) as [W' A']. split; [done|]. split; [done|].
      assert (explicit_array H s' path).
      { unfold explicit_array. eapply st_exists_get. eapply st_set_get; [exact E|done]. }
      split; [done|]. intros X. by apply (A' path PP).
    + destruct (CG s' _ E) as [W' A']. split; [done|].
      assert (explicit_group H s' path).
      { unfold explicit_group. eapply st_exists_get. eapply st_set_get; [exact E|done]. }
      split; [done|]. intros X. by apply (A' path PP).
Qed.
End apart.

(** ** Removal, observed *)

Section removal.
Context (C : codec) (h : host) (H : hier).
Hypothesis PB : plain (hy_base H).
Hypothesis GS : good_suffix (ep_suffix (hy_ep H)).
Notation base := (hy_base H).
Notation sfx := (ep_suffix (hy_ep H)).
Notation AX := ARRAY_METADATA_KEY_EXT.
Notation GX := GROUP_METADATA_KEY_EXT.

Lemma akey_get s path : wf_fs s -> plain path -> st_get base s (akey H path) = Ok (file_at s (nloc H AX path)).
Proof. intros W PP. apply st_get_plain; [done|done|]. apply nloc_plain; [done|by left|done]. Qed.
Lemma gkey_get s path : wf_fs s -> plain path -> st_get base s (gkey H path) = Ok (file_at s (nloc H GX path)).
Proof. intros W PP. apply st_get_plain; [done|done|]. apply nloc_plain; [done|by right|done]. Qed.
Lemma akey_exists s path : wf_fs s -> plain path ->
  st_exists base s (akey H path) = Ok (is_some (file_at s (nloc H AX path))).
Proof. intros W PP. apply st_exists_plain; [done|done|]. apply nloc_plain; [done|by left|done]. Qed.
Lemma gkey_exists s path : wf_fs s -> plain path ->
  st_exists base s (gkey H path) = Ok (is_some (file_at s (nloc H GX path))).
Proof. intros W PP. apply st_exists_plain; [done|done|]. apply nloc_plain; [done|by right|done]. Qed.

(** Nodes with the same two documents read the same. *)
Lemma node_same s s' path : wf_fs s -> wf_fs s' -> plain path ->
  file_at s' (nloc H AX path) = file_at s (nloc H AX path) ->
  file_at s' (nloc H GX path) = file_at s (nloc H GX path) ->
  (explicit_array H s' path <-> explicit_array H s path) /\ (explicit_group H s' path <-> explicit_group H s path)
  /\ get_array_metadata H s' path = get_array_metadata H s path
  /\ list_attributes H s' path = list_attributes H s path.
Proof.
  intros W W' PP EA EG. rewrite !explicit_a, !explicit_g by done. rewrite EA, EG.
  split; [done|]. split; [done|]. split.
  - unfold get_array_metadata. by rewrite !akey_get, EA by done.
  - unfold list_attributes, node_key. rewrite !akey_exists, !gkey_exists, EA, EG by done. rewrite !bind_ok.
    destruct (file_at s (nloc H AX path)) as [c|] eqn:FA; cbn [is_some].
    + rewrite !bind_ok, !akey_get, EA, FA by done. done.
    + destruct (file_at s (nloc H GX path)) as [c|] eqn:FG; cbn [is_some]; [|done].
      rewrite !bind_ok, !gkey_get, EG, FG by done. done.
Qed.
Lemma node_gone s path : wf_fs s -> plain path ->
  file_at s (nloc H AX path) = None -> file_at s (nloc H GX path) = None ->
  ~ explicit_array H s path /\ ~ explicit_group H s path
  /\ get_array_metadata H s path = Err NotFound /\ list_attributes H s path = Err NotFound.
Proof.
  intros W PP EA EG. rewrite explicit_a, explicit_g by done. rewrite EA, EG.
  split; [tauto|]. split; [tauto|]. split.
  - unfold get_array_metadata. by rewrite akey_get, EA by done.
  - unfold list_attributes, node_key. rewrite akey_exists, gkey_exists, EA, EG by done. done.
Qed.

Lemma removed s path s' : wf_fs s -> plain path -> Hier.remove H s path = (s', Ok tt) ->
  wf_fs s'
  (* the node is gone *)
  /\ (~ explicit_array H s' path /\ ~ explicit_group H s' path
      /\ get_array_metadata H s' path = Err NotFound /\ list_attributes H s' path = Err NotFound)
  (* chunks at or below the path are gone *)
  /\ (forall t path' m pos, plain path' -> plain (am_sep m) -> pos_ok pos ->
        pieces path `prefix_of` pieces path' -> in_bounds (h_prof h) m pos = Ok true ->
        read_chunk C h H s' t path' m pos = Ok None)
  (* every other node, also below the path, is as before *)
  /\ (forall path', plain path' -> pieces path' <> pieces path ->
        (explicit_array H s' path' <-> explicit_array H s path')
        /\ (explicit_group H s' path' <-> explicit_group H s path')
        /\ get_array_metadata H s' path' = get_array_metadata H s path'
        /\ list_attributes H s' path' = list_attributes H s path')
  (* so are chunks elsewhere *)
  /\ (forall t path' m pos, plain path' -> good_sep (am_sep m) -> pos_ok pos ->
        Forall (ordinary_name sfx) (pieces path) -> ~ pieces path `prefix_of` pieces path' ->
        read_chunk C h H s' t path' m pos = read_chunk C h H s t path' m pos).
Proof.
  intros W PP E. pose proof E as E0.
  apply remove_effect in E as (W' & _ & [(_ & _ & _ & N)|[_ X]]); [|done|done|done|done|done].
  split; [done|]. split; [|split; [|split]].
  - apply node_gone; [done|done|..]; unfold file_at; rewrite N; by repeat case_decide.
  - intros t path' m pos P1 P2 P3 P4 P5. unfold read_chunk. rewrite P5, bind_ok. cbn [assert_]. rewrite bind_ok.
    rewrite st_get_plain, bind_ok by (done || by apply plain_chunk_key).
    assert (file_at s' (loc base (get_chunk_key path' m pos)) = None) as ->; [|done].
    unfold file_at. rewrite N. case_decide; [done|]. case_decide; [done|].
    rewrite decide_True; [done|]. rewrite loc_chunk. destruct P4 as [k ->].
    exists (k ++ cpieces (am_sep m) pos). rewrite <- !app_assoc. done.
  - intros path' P1 P2.
    assert (F : forall e, is_node_ext e -> file_at s' (nloc H e path') = file_at s (nloc H e path')).
    { intros e Ee. unfold file_at. rewrite N.
      rewrite decide_False.
      2: { intros X. apply loc_node_inj in X as [X _]; [done|done|by left|apply GS|done|done]. }
      rewrite decide_False.
      2: { intros X. apply loc_node_inj in X as [X _]; [done|done|by right|apply GS|done|done]. }
      rewrite decide_False; [done|].
      destruct (nloc_meta H GS e path' Ee) as [r ->]. intros [k X]. rewrite <- app_assoc in X.
      by apply app_inv_head in X. }
    apply node_same; [done|done|done|apply F; by left|apply F; by right].
  - intros t path' m pos P1 P2 P3 P4 P5. apply read_chunk_same; [done|done|done|done|apply P2|done|].
    unfold file_at. rewrite N.
    rewrite decide_False.
    2: { destruct (nloc_meta H GS AX path ltac:(by left)) as [r ->]. by apply chunk_not_meta. }
    rewrite decide_False.
    2: { destruct (nloc_meta H GS GX path ltac:(by right)) as [r ->]. by apply chunk_not_meta. }
    rewrite decide_False; [done|]. rewrite loc_chunk. intros [k X]. rewrite <- app_assoc in X.
    apply app_inv_head in X. cbn [app] in X. injection X as X. apply P5.
    destruct (chunk_head sfx (am_sep m) pos P3 P2) as (x & r & E & O). rewrite E in X.
    eapply ord_prefix; [exact P4|exact O|]. by exists k.
Qed.
End removal.

(** ** Existence in histories *)

Lemma step_toggles P a o :
  bool_decide (is_Some (a_nodes (fst (ab_step a o)) !! P))
  = default (bool_decide (is_Some (a_nodes a !! P))) (toggles P o).
Proof.
  destruct o as [path m|path|path attrs|path|path|path|path|t path pos data|path pos|t path pos]; cbn [ab_step toggles].
  - destruct (a_nodes a !! pieces path) as [n|] eqn:E; cbn [fst a_nodes]; case_decide as X; cbn [default].
    + subst P. rewrite E. by apply bool_decide_eq_true.
    + done.
    + subst P. rewrite lookup_insert. by apply bool_decide_eq_true.
    + by rewrite lookup_insert_ne.
  - destruct (a_nodes a !! pieces path) as [[m g|g]|] eqn:E; cbn [fst a_nodes]; case_decide as X; cbn [default].
    + subst P. rewrite E. by apply bool_decide_eq_true.
    + done.
    + subst P. rewrite E. by apply bool_decide_eq_true.
    + done.
    + subst P. rewrite lookup_insert. by apply bool_decide_eq_true.
    + by rewrite lookup_insert_ne.
  - destruct (a_nodes a !! pieces path) as [n|] eqn:E; cbn [fst a_nodes]; [|done]. cbn [default].
    destruct (decide (P = pieces path)) as [->|N].
    + rewrite lookup_insert, E. by apply bool_decide_ext.
    + by rewrite lookup_insert_ne.
  - cbn [fst a_nodes]. case_decide as X; cbn [default].
    + subst P. by rewrite lookup_delete.
    + by rewrite lookup_delete_ne.
  - done.
  - done.
  - done.
  - by destruct (a_nodes a !! pieces path) as [[m g|g]|] eqn:E.
  - by destruct (a_nodes a !! pieces path) as [[m g|g]|] eqn:E.
  - done.
Qed.
Lemma run_toggles P os : forall a,
  bool_decide (is_Some (a_nodes (fst (ab_run a os)) !! P))
  = default (bool_decide (is_Some (a_nodes a !! P))) (list.last (omap (toggles P) os)).
Proof.
  induction os as [|o os IH]; intros a; [done|]. cbn [ab_run].
  pose proof (step_toggles P a o) as S. destruct (ab_step a o) as [a1 x]. cbn [fst] in S.
  specialize (IH a1). destruct (ab_run a1 os) as [a2 l]. cbn [fst] in *. rewrite IH, S.
  change (omap (toggles P) (o :: os)) with
    (match toggles P o with Some b => b :: omap (toggles P) os | None => omap (toggles P) os end).
  destruct (toggles P o) as [b|]; cbn [default]; [|done].
  rewrite last_cons. by destruct (list.last (omap (toggles P) os)).
Qed.

Lemma node_existence C h H s os path :
  plain (hy_base H) -> good_suffix (ep_suffix (hy_ep H)) -> fresh_hierarchy s (hy_base H) ->
  history_ok C (h_prof h) (ep_suffix (hy_ep H)) a_empty os ->
  ordinary_path (ep_suffix (hy_ep H)) path ->
  node_exists H (fst (hop_run C h H s os)) path = Ok (created_last (pieces path) os).
Proof.
  intros PB GS F O PP. pose proof (fresh_rel C h H s F) as F0.
  pose proof (history_rel C h H PB GS os s a_empty F0 O) as R.
  rewrite (node_exists_ans C h H PB GS _ _ path R PP). f_equal. apply run_toggles.
Qed.
