(** Histories of chunk operations refine a finite map. *)
From Verif Require Export HierFacts.
Local Open Scope Z_scope.

Lemma runs_prefix {A B} (f : A -> list B) (l k : list A) :
  concat (map f (l ++ k)) = concat (map f l) ++ concat (map f k).
Proof. by rewrite map_app, concat_app. Qed.

Lemma cpieces_prefix sep pos pos' k :
  good_sep sep -> pos_ok pos -> pos_ok pos' -> length pos = length pos' ->
  cpieces sep pos' = cpieces sep pos ++ k -> pos = pos'.
Proof.
  intros (S1 & S2 & S3 & _) P P' L E.
  assert (R : runs [] ("c"%char :: coords_str sep pos')
              = runs [] ("c"%char :: coords_str sep pos) ++ concat (map (runs []) k)).
  { rewrite (runs_pieces (_ :: coords_str sep pos')), E, runs_prefix. by rewrite <- runs_pieces. }
  cbn [runs] in R. change (is_digit "c"%char) with false in R. cbn [flush app] in R.
  rewrite !runs_coords in R by done.
  assert (T : map show_nat pos' = map show_nat pos).
  { apply (f_equal (take (length pos))) in R.
    rewrite take_app_alt in R by by rewrite map_length.
    rewrite L, <- (map_length show_nat pos'), firstn_all in R. done. }
  clear -T P P'. revert pos' P' T. induction P as [|z pos Pz P IH]; intros [|z' pos'] P' T; try done.
  inversion P' as [|? ? Pz' P'']; subst. cbn [map] in T. injection T as T1 T2. f_equal.
  - apply show_nat_inj in T1; [done|apply Pz'|apply Pz].
  - by apply IH.
Qed.

(** Room for every chunk of the array. *)
Definition room (s : fs) (base path : bytes) (m : array_meta) : Prop :=
  forall pos, length pos = length (am_shape m) -> pos_ok pos ->
  can_hold_file s (loc base (get_chunk_key path m pos)).

Lemma room_set s base path m pos v s' :
  wf_fs s -> plain base -> plain path -> good_sep (am_sep m) -> pos_ok pos ->
  length pos = length (am_shape m) -> room s base path m ->
  st_set base s (get_chunk_key path m pos) v = (s', snd v) -> room s' base path m.
Proof.
  intros W PB PP G Q L R E pos' L' Q'.
  destruct (st_set_ok base s (get_chunk_key path m pos) W PB) with (v := v) as (s1 & E1 & W1 & N1).
  { apply plain_chunk_key; [done|apply G|done]. }
  { by apply R. }
  rewrite E in E1. injection E1 as <-.
  destruct (R pos' L' Q') as [R1 R2].
  assert (K : forall k, loc base (get_chunk_key path m pos')
              = loc base (get_chunk_key path m pos) ++ k -> pos = pos').
  { intros k X. rewrite !loc_chunk, <- !app_assoc in X. do 3 apply app_inv_head in X.
    apply (cpieces_prefix (am_sep m) pos pos' k); [done..|congruence|done]. }
  assert (K2 : forall k, loc base (get_chunk_key path m pos)
              = loc base (get_chunk_key path m pos') ++ k -> pos = pos').
  { intros k X. rewrite !loc_chunk, <- !app_assoc in X. do 3 apply app_inv_head in X.
    symmetry. apply (cpieces_prefix (am_sep m) pos' pos k); [done..|congruence|done]. }
  split.
  - intros q [k Pq] Nq c Hc. apply file_at_some in Hc. rewrite N1 in Hc. case_decide as X.
    + subst q. pose proof (K k Pq) as <-. by apply Nq.
    + case_decide; [done|]. apply file_at_some in Hc. eapply (R1 q); [by exists k|done|done].
  - rewrite N1. case_decide as X; [done|]. case_decide as Y; [|done].
    destruct Y as [k Y]. pose proof (K2 k Y) as <-. done.
Qed.

Lemma room_delete s s' base path m p : (forall q, node_at s' q = node_at s q \/ (q = p /\ node_at s' q = None)) ->
  room s base path m -> room s' base path m.
Proof.
  intros D R pos L Q. destruct (R pos L Q) as [R1 R2]. split.
  - intros q Pq Nq c Hc. apply file_at_some in Hc. destruct (D q) as [X|[_ X]]; [|congruence].
    rewrite X in Hc. apply file_at_some in Hc. by eapply R1.
  - destruct (D (loc base (get_chunk_key path m pos))) as [->|[_ ->]]; done.
Qed.

Section hist.
Context (C : codec) (h : host) (H : hier) (t : rty) (path : bytes) (m : array_meta) (d : data_type).
Hypothesis PB : plain (hy_base H).
Hypothesis PP : plain path.
Hypothesis G : good_sep (am_sep m).
Hypothesis He : effective m d.
Hypothesis Hk : same_kind_width d t.
Hypothesis Hs : chunk_shape_ok m.
Hypothesis HL : lossless C (am_comp m).
Hypothesis HT : total_codec C (am_comp m).

Notation cloc pos := (loc (hy_base H) (get_chunk_key path m pos)).

Lemma plain_key pos : pos_ok pos -> plain (get_chunk_key path m pos).
Proof. intros. apply plain_chunk_key; [done|apply G|done]. Qed.

(** The file system represents the map. *)
Definition rep (s : fs) (f : gmap (list Z) (list Z)) : Prop :=
  forall pos, length pos = length (am_shape m) -> pos_ok pos ->
  match f !! pos with
  | None => file_at s (cloc pos) = None
  | Some data => exists pos0, encode_chunk C h t m (Chunk pos0 data) = (default [] (file_at s (cloc pos)), Ok tt)
      /\ file_at s (cloc pos) <> None /\ full_chunk m data /\ Forall (elt_ok t) data
  end.

Lemma full_lt data : full_chunk m data -> lenZ data < two64.
Proof. intros U. unfold full_chunk in U. destruct Hs. unfold two32, two64 in *. lia. Qed.

Lemma in_bounds_len pos : in_bounds (h_prof h) m pos = Ok true -> length pos = length (am_shape m).
Proof. unfold in_bounds. case_bool_decide; done. Qed.

Lemma rep_step s f o : wf_fs s -> room s (hy_base H) path m -> rep s f ->
  aop_ok (h_prof h) t m o ->
  exists s', hist_step C h H t path m s o = (s', snd (map_step f o))
    /\ wf_fs s' /\ room s' (hy_base H) path m /\ rep s' (fst (map_step f o)).
Proof.
  intros W R F O.
  assert (RD : forall pos old, in_bounds (h_prof h) m pos = Ok true -> pos_ok pos ->
    let a := Ok (match f !! pos with Some d => Some (Chunk pos d) | None => None end) in
    read_chunk C h H s t path m pos = a /\ read_chunk_into C h H s t path m pos old = a).
  { intros pos old I Q. cbv zeta.
    specialize (F pos (in_bounds_len _ I) Q).
    unfold read_chunk, read_chunk_into. rewrite I. cbn [mbind res_bind assert_].
    rewrite st_get_plain by (try done; by apply plain_key).
    cbn [mbind res_bind].
    destruct (f !! pos) as [data|]; [|by rewrite F].
    destruct F as (pos0 & E & N & U & T). destruct (file_at s (cloc pos)) as [bs|]; [|done].
    cbn [default] in E.
    destruct (chunk_roundtrip_both C h t m data bs pos0 pos old HL T (full_lt _ U) U E) as [-> ->]. done. }
  destruct o as [pos data|pos|pos|pos old]; cbn [hist_step map_step fst snd]; cbn [aop_ok] in O.
  - destruct O as (L & Q & U & T).
    assert (EOK : snd (encode_chunk C h t m (Chunk pos data)) = Ok tt).
    { erewrite encode_chunk_ok by done. apply HT. }
    destruct (write_chunk C h H s t path m (Chunk pos data)) as [s' r] eqn:E.
    pose proof (write_chunk_effect C h H s t path m (Chunk pos data) s' r W PB PP (proj2 (proj2 (proj2 G))) Q E)
      as (W' & SE & _ & X). cbn [ck_pos] in *.
    destruct X as [(_ & FA & ->)|(N & _)]; [|by destruct N; apply R].
    rewrite EOK. exists s'. split; [done|]. split; [done|]. split.
    + eapply (room_set s _ path m pos (encode_chunk C h t m (Chunk pos data)));
        [done|done|done|done|done|done|done|]. exact E.
    + intros pos' L' Q'. destruct (decide (pos' = pos)) as [->|N].
      * rewrite lookup_insert. exists pos. rewrite FA. cbn [default]. split; [|done].
        destruct (encode_chunk C h t m (Chunk pos data)); cbn in EOK |- *. by subst.
      * rewrite lookup_insert_ne by done. specialize (F pos' L' Q').
        rewrite SE; [done|]. intros X. apply loc_chunk_inj in X as [_ X]; done.
  - destruct O as (L & Q).
    destruct (delete_chunk H s path m pos) as [s' r] eqn:E.
    pose proof (delete_chunk_effect H s path m pos s' r W PB PP (proj2 (proj2 (proj2 G))) Q E)
      as (W' & SE & _ & X). cbv zeta in X.
    destruct X as [(ND & FA & ->)|(N & _)]; [|by destruct (R pos L Q)].
    exists s'. split; [done|]. split; [done|]. split.
    + eapply (room_delete s s' _ path m (cloc pos)); [|done]. intros q.
      unfold delete_chunk in E. rewrite st_erase_plain in E by (try done; by apply plain_key).
      destruct (node_at s (cloc pos)) as [[|c]|] eqn:Y; injection E as <-; [done| |by left].
      assert (NE : cloc pos <> []) by (intros Z; rewrite Z in Y; done).
      rewrite node_at_delete by done. case_decide; [by right|by left].
    + intros pos' L' Q'. destruct (decide (pos' = pos)) as [->|N].
      * by rewrite lookup_delete.
      * rewrite lookup_delete_ne by done. specialize (F pos' L' Q').
        rewrite SE; [done|]. intros X. apply loc_chunk_inj in X as [_ X]; done.
  - destruct O as [I Q]. destruct (RD pos (Chunk [] []) I Q) as [-> _]. by exists s.
  - destruct O as [I Q]. destruct (RD pos old I Q) as [_ ->]. by exists s.
Qed.

Lemma hist_map os : forall s f, wf_fs s -> room s (hy_base H) path m -> rep s f ->
  Forall (aop_ok (h_prof h) t m) os ->
  hist_run C h H t path m s os = map_run f os.
Proof.
  induction os as [|o os IH]; intros s f W R F O; [done|].
  apply list.Forall_cons in O as [O1 O2]. cbn [hist_run map_run].
  destruct (rep_step s f o W R F O1) as (s' & E & W' & R' & F'). rewrite E.
  destruct (map_step f o) as [f' a]. cbn [fst snd] in *. f_equal. by apply IH.
Qed.

Lemma hist_refines s os : wf_fs s -> no_chunks s (hy_base H) path m ->
  Forall (aop_ok (h_prof h) t m) os ->
  hist_run C h H t path m s os = map_run ∅ os.
Proof.
  intros W N O. apply hist_map; try done.
  - intros pos L Q. by apply N.
  - intros pos L Q. rewrite lookup_empty. by apply N.
Qed.
End hist.

(** An array whose data directory is absent or empty has no chunks. *)
Lemma fresh_no_chunks s base path m : wf_fs s ->
  let dd := pieces base ++ [B "data"; B "root"] ++ pieces path in
  (forall q c, q `prefix_of` dd -> file_at s q <> Some c) ->
  (forall x, node_at s (dd ++ [x]) = None) ->
  no_chunks s base path m.
Proof.
  cbv zeta. set (dd := pieces base ++ _). intros W A Bx pos L Q.
  assert (E : loc base (get_chunk_key path m pos) = dd ++ cpieces (am_sep m) pos).
  { rewrite loc_chunk. unfold dd. by rewrite <- !app_assoc. }
  assert (X : forall k, k <> [] -> node_at s (dd ++ k) = None).
  { intros [|x k] N; [done|]. destruct (node_at s (dd ++ x :: k)) as [n|] eqn:Y; [|done].
    exfalso. destruct k as [|y k]; [by rewrite Bx in Y|].
    change (x :: y :: k) with ([x] ++ y :: k) in Y. rewrite app_assoc in Y.
    apply wf_prefix in Y; [|done|done]. by rewrite Bx in Y. }
  assert (NE : cpieces (am_sep m) pos <> []).
  { unfold pieces. cbn [split_slash]. rewrite bool_decide_false by done.
    destruct (split_slash (coords_str (am_sep m) pos)) as [|y r]; [done|].
    rewrite filter_cons_True; [done|]. apply nj_intro; [done|by destruct y]. }
  rewrite E. split; [split|].
  - intros q Pq Nq c Hc. destruct (decide (q `prefix_of` dd)) as [Y|Y]; [by eapply A|].
    destruct (prefix_weak_total q dd (dd ++ cpieces (am_sep m) pos)) as [Z|Z]; [done|by eexists|done|].
    destruct Z as [k ->]. unfold file_at in Hc. rewrite X in Hc; [done|].
    intros ->. apply Y. by rewrite app_nil_r.
  - by rewrite X.
  - unfold file_at. by rewrite X.
Qed.
