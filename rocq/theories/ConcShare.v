(** Calls that use different files do not affect each other (C57). *)
From Verif Require Import BaseFacts PathFacts KeyFacts FSFacts Spec SpecMeta ChunkFacts HierFacts HistFacts.
From Verif Require Import CoordIterFacts NdFacts OpsFacts.
From Verif Require Import Sys SysNd SpecShare SysFacts SysOps SysNdOps ConcFacts ConcOps ConcOwn.
Local Open Scope Z_scope.

(** The atomic call. *)
Definition w_call (C : codec) (h : host) (H : hier) (s : fs) (c : call) : fs * reply :=
  let put {A} (f : A -> reply) (x : fs * A) := (fst x, f (snd x)) in
  match c with
  | KGetMetadata path _ => (s, YMeta (get_array_metadata H s path))
  | KListAttributes path _ => (s, YAttrs (list_attributes H s path))
  | KSetAttributes path attrs _ => put YUnit (set_attributes H s path attrs)
  | KCreateGroup path => put YUnit (create_group H s path)
  | KCreateArray path m => put YUnit (create_array H s path m)
  | KReadChunk t path m pos _ => (s, YChunk (read_chunk C h H s t path m pos))
  | KWriteChunk t path m ck ws =>
      put YUnit (st_set (hy_base H) s (get_chunk_key path m (ck_pos ck)) (concat ws, snd (encode_chunk C h t m ck)))
  | KDeleteChunk path m pos => put YBool (delete_chunk H s path m pos)
  | KRemove path _ _ => put YUnit (Hier.remove H s path)
  | KListNodes path _ => (s, YNames (list_nodes (h_prof h) H s path))
  end.
Definition w_rcall (flit : rty -> bytes -> Z) (C : codec) (h : host) (H : hier) (s : fs) (c : rcall) : fs * rreply :=
  match c with
  | RCall c => (fst (w_call C h H s c), YReply (snd (w_call C h H s c)))
  | RRead t path m bb _ => (s, YRegion (read_ndarray flit C h H s t path m bb))
  | RReadInto t path m bb arr _ => (s, YRegion (read_ndarray_into C h H s t path m bb arr))
  | RWrite t path m off arr _ =>
      let x := write_ndarray flit C h H s t path m off arr in (fst x, YReply (YUnit (snd x)))
  end.

Section Alone.
  Context (flit : rty -> bytes -> Z) (C : codec) (h : host) (H : hier).
  Context (sl : bytes -> list bytes) (SL : forall b, concat (sl b) = b).

  Lemma does_map {A D} o (p : proc A) (f : A -> D) w :
    does o p w -> does o (pbind p (fun a => Ret (f a))) (fst w, f (snd w)).
  Proof. intros (o' & E & V & K). exists o'. by rewrite run_bind, E. Qed.
  Lemma does_call c o : by_name (RCall c) -> calm o -> does o (p_call C h H sl c) (w_call C h H (view o) c).
  Proof.
    intros N K. destruct c; cbn [p_call w_call]; unfold map_reply; try (exfalso; exact N).
    - by apply (does_map o _ YMeta (_, _)), does_get_array_metadata.
    - by apply (does_map o _ YAttrs (_, _)), does_list_attributes.
    - by apply does_map, does_set_attributes.
    - by apply does_map, does_create_group.
    - by apply does_map, does_create_array.
    - by apply (does_map o _ YChunk (_, _)), does_read_chunk.
    - by apply does_map, does_set.
    - by apply does_map, does_delete_chunk.
  Qed.
  Lemma does_rcall c o : by_name c -> calm o -> does o (p_rcall flit C h H sl c) (w_rcall flit C h H (view o) c).
  Proof.
    intros N K. destruct c; cbn [p_rcall w_rcall].
    - by apply does_map, does_call.
    - by apply (does_map o _ YRegion (_, _)), does_read_ndarray.
    - by apply (does_map o _ YRegion (_, _)), does_read_into.
    - by apply (does_map o _ (fun r => YReply (YUnit r))), does_write_ndarray.
  Qed.
End Alone.

Section Among.
  Context (s0 : fs) (W S : fpath -> Prop).
  Hypothesis WS : forall q, W q -> S q.
  Hypothesis PF : forall q r, W q -> W r -> q `prefix_of` r -> q = r.
  Context (flit : rty -> bytes -> Z) (C : codec) (h : host) (H : hier).
  Context (sl : bytes -> list bytes) (SL : forall b, concat (sl b) = b).
  Context (PB : plain (hy_base H)) (GS : good_suffix (ep_suffix (hy_ep H))).
  Local Notation base := (hy_base H).
  Local Notation rd := (rdoes s0 W S).

  Lemma rdoes_map {A D : Type} s (p : proc A) (f : A -> D) w :
    rd s p w -> rd s (pbind p (fun a => Ret (f a))) (fst w, f (snd w)).
  Proof.
    intros R st NF AG. eapply follows_bind; [by apply R|]. intros st' a (N & -> & A'). by cbn.
  Qed.

  Lemma r_node_key s path : plain path -> (forall q, doc H path q -> S q) ->
    rd s (p_node_key H path) (s, node_key H s path).
  Proof.
    intros P T. unfold p_node_key, node_key.
    apply rdoes_bind_read; [apply r_exists; [done|by apply plain_akey|by apply T; left]|].
    intros a _. destruct a; [apply rdoes_ret|].
    apply rdoes_bind_read; [apply r_exists; [done|by apply plain_gkey|by apply T; right]|].
    intros g _. destruct g; apply rdoes_ret.
  Qed.
  Lemma node_key_cases s path k : node_key H s path = Ok k -> k = akey H path \/ k = gkey H path.
  Proof.
    unfold node_key. destruct (st_exists base s (akey H path)) as [a|e|]; cbn; [|done|done].
    destruct a; [intros [= <-]; by left|].
    destruct (st_exists base s (gkey H path)) as [g|e|]; cbn; [|done|done].
    destruct g; [intros [= <-]; by right|done].
  Qed.

  Lemma r_call s c : by_name (RCall c) -> call_ok c -> (forall q, may_touch H (RCall c) q -> S q) ->
    (forall q, may_write H (RCall c) q -> W q) -> rd s (p_call C h H sl c) (w_call C h H s c).
  Proof.
    intros N K T M. destruct c; cbn [p_call w_call call_ok may_touch may_write] in *; unfold map_reply; try (exfalso; exact N).
    - apply (rdoes_map s _ YMeta (_, _)). unfold p_get_array_metadata, get_array_metadata.
      apply (rdoes_bind_pure s0 W S s _ (st_get _ _ _)). apply r_get; [done|by apply plain_akey|by apply T].
    - apply (rdoes_map s _ YAttrs (_, _)). unfold p_list_attributes, list_attributes.
      apply rdoes_bind_read; [by apply r_node_key|]. intros k E.
      apply (rdoes_bind_pure s0 W S s _ (st_get _ _ _)).
      apply node_key_cases in E as [->| ->].
      + apply r_get; [done|by apply plain_akey|by apply T; left].
      + apply r_get; [done|by apply plain_gkey|by apply T; right].
    - apply rdoes_map. unfold p_set_attributes, set_attributes.
      apply rdoes_on; [by apply r_node_key|]. intros k E.
      assert (plain k /\ S (loc base k) /\ W (loc base k)) as (PK & Sk & Wk).
      { apply node_key_cases in E as [->| ->].
        - split_and!; [by apply plain_akey|apply T; by left|apply M; by left].
        - split_and!; [by apply plain_gkey|apply T; by right|apply M; by right]. }
      apply rdoes_on; [by apply r_get|]. intros x _. apply rdoes_pres. intros text _.
      apply rdoes_pres. intros ex _. destruct (json_eqb _ _); [apply rdoes_ret|].
      rewrite <- (SL (print _)) at 2. by apply r_set.
    - apply rdoes_map. unfold p_create_group, create_group.
      apply rdoes_on; [apply r_exists; [done|by apply plain_akey|by apply T; left]|]. intros a _.
      destruct a; [apply rdoes_ret|].
      apply rdoes_on; [apply r_exists; [done|by apply plain_gkey|by apply T; right]|]. intros g _.
      destruct g; [apply rdoes_ret|]. rewrite <- (SL (print _)) at 2.
      apply r_set; try done; [by apply plain_gkey|by apply M].
    - apply rdoes_map. unfold p_create_array, create_array.
      apply rdoes_on; [apply r_exists; [done|by apply plain_gkey|by apply T; right]|]. intros a _.
      destruct a; [apply rdoes_ret|].
      apply rdoes_on; [apply r_exists; [done|by apply plain_akey|by apply T; left]|]. intros g _.
      destruct g; [apply rdoes_ret|]. rewrite <- (SL (print _)) at 2.
      apply r_set; try done; [by apply plain_akey|by apply M].
    - destruct K as (PP & (_ & _ & _ & PS) & Q). apply (rdoes_map s _ YChunk (_, _)).
      unfold p_read_chunk, read_chunk.
      destruct (in_bounds (h_prof h) m pos) as [b|e|]; cbn [mbind res_bind]; [|apply rdoes_ret..].
      destruct (assert_ b) as [[]|e|]; cbn [pres mbind res_bind]; [|apply rdoes_ret..].
      apply (rdoes_bind_pure s0 W S s _ (st_get _ _ _)). apply r_get; [done|by apply plain_chunk_key|by apply T].
    - destruct K as (PP & (_ & _ & _ & PS) & Q). apply rdoes_map.
      apply r_set; try done; [by apply plain_chunk_key|by apply M].
    - destruct K as (PP & (_ & _ & _ & PS) & Q). apply rdoes_map.
      apply r_erase; try done; [by apply plain_chunk_key|by apply M].
  Qed.

  Context (t : rty) (path : bytes) (m : array_meta) (bb : bbox) (rsf : list Z -> list nat).
  Context (RO : region_ok path m bb) (TS : forall q, region_file H path m bb q -> S q).

  Lemma items_meet pos : pos ∈ product_items (branges m bb) -> pos_ok pos /\ meets_box m bb pos.
  Proof.
    destruct RO as (PP & _ & BO & OV). intros I%visited_ranges. split; [by eapply ranges_pos|by apply branges_sound].
  Qed.
  Lemma plain_key pos : pos_ok pos -> plain (get_chunk_key path m pos).
  Proof. destruct RO as (PP & (_ & _ & _ & PS) & _). by apply plain_chunk_key. Qed.
  Lemma visits coords : bounded_coords (h_prof h) m bb = Ok coords ->
    Forall (fun pos => pos_ok pos /\ S (loc base (get_chunk_key path m pos))) coords.
  Proof.
    destruct RO as (PP & _ & BO & OV). rewrite (bounded_coords_eq (h_prof h) m _ BO). intros E.
    apply bind_ok_inv in E as (n & _ & [= <-]). apply list.Forall_forall. intros pos I.
    apply items_meet in I as [P MB]. split; [done|]. apply TS. by exists pos.
  Qed.

  Lemma r_read_chunk s pos rs : pos_ok pos -> S (loc base (get_chunk_key path m pos)) ->
    rd s (p_read_chunk H C h t path m pos rs) (s, read_chunk C h H s t path m pos).
  Proof.
    intros P Sp. unfold p_read_chunk, read_chunk.
    destruct (in_bounds (h_prof h) m pos) as [b|e|]; cbn [mbind res_bind]; [|apply rdoes_ret..].
    destruct (assert_ b) as [[]|e|]; cbn [pres mbind res_bind]; [|apply rdoes_ret..].
    apply (rdoes_bind_pure s0 W S s _ (st_get _ _ _)). apply r_get; [done|by apply plain_key|done].
  Qed.
  Lemma r_read_chunk_into s pos old : pos_ok pos -> S (loc base (get_chunk_key path m pos)) ->
    rd s (p_read_chunk_into H C h rsf t path m pos old) (s, read_chunk_into C h H s t path m pos old).
  Proof.
    intros P Sp. unfold p_read_chunk_into, read_chunk_into.
    destruct (in_bounds (h_prof h) m pos) as [b|e|]; cbn [mbind res_bind]; [|apply rdoes_ret..].
    destruct (assert_ b) as [[]|e|]; cbn [pres mbind res_bind]; [|apply rdoes_ret..].
    apply (rdoes_bind_pure s0 W S s _ (st_get _ _ _)). apply r_get; [done|by apply plain_key|done].
  Qed.
  Lemma r_read_loop s coords : Forall (fun pos => pos_ok pos /\ S (loc base (get_chunk_key path m pos))) coords ->
    forall st, rd s (p_read_loop H C h rsf t path m bb coords st) (s, foldM_res (read_step C h H s t path m bb) coords st).
  Proof.
    induction 1 as [|c r [P Sp] F IH]; intros st; cbn [p_read_loop foldM_res]; [apply rdoes_ret|].
    apply rdoes_bind_read; [|by intros a _].
    unfold p_read_step. rewrite read_step_merge. apply rdoes_bind_pure.
    destruct (snd st); [by apply r_read_chunk_into|by apply r_read_chunk].
  Qed.
  Lemma r_read_into s arr :
    rd s (p_read_ndarray_into H C h rsf t path m bb arr) (s, read_ndarray_into C h H s t path m bb arr).
  Proof.
    unfold p_read_ndarray_into, read_ndarray_into. apply rdoes_bind_read; [|intros [a b] _; apply rdoes_ret].
    unfold p_read_ndarray_into_with_buffer, read_ndarray_into_with_buffer.
    destruct (_ || _); [apply rdoes_ret|]. destruct (negb _); [apply rdoes_ret|].
    destruct (bounded_coords _ _ _) as [coords|e|] eqn:E; cbn [pres mbind res_bind]; [|apply rdoes_ret..].
    apply r_read_loop. by apply visits.
  Qed.
  Lemma r_read_ndarray s :
    rd s (p_read_ndarray H C h rsf flit t path m bb) (s, read_ndarray flit C h H s t path m bb).
  Proof.
    unfold p_read_ndarray, read_ndarray.
    destruct (effective_fill _ _ _) as [fill|e|]; cbn [pres mbind res_bind]; [|apply rdoes_ret..].
    destruct (from_elem _ _) as [arr|e|]; cbn [pres mbind res_bind]; [|apply rdoes_ret..].
    apply r_read_into.
  Qed.

  Lemma r_write_step s arr fill buf coord : pos_ok coord -> W (loc base (get_chunk_key path m coord)) ->
    rd s (p_write_step H C h rsf sl t path m arr bb fill buf coord)
      (write_step C h H t path m arr bb fill s buf coord).
  Proof.
    intros P Wp.
    assert (PUT : forall s ck, ck_pos ck = coord -> rd s (p_put H C h sl t path m ck) (write_chunk C h H s t path m ck)).
    { intros s' ck E. unfold p_put, p_write_chunk, write_chunk.
      assert (W (loc base (get_chunk_key path m (ck_pos ck)))) as Wk by by rewrite E.
      assert (plain (get_chunk_key path m (ck_pos ck))) as PK by (rewrite E; by apply plain_key).
      pose proof (r_set s0 W S WS PF base _ PB PK s' (sl (fst (encode_chunk C h t m ck))) (snd (encode_chunk C h t m ck)) Wk) as X.
      by rewrite SL, <- surjective_pairing in X. }
    unfold p_write_step, write_step. cbv zeta.
    apply rdoes_pres. intros nom _. apply rdoes_pres. intros wb _.
    apply rdoes_pres. intros ab _. apply rdoes_pres. intros vw _.
    destruct (bool_decide _).
    - apply rdoes_andthen; [by apply PUT|]. intros _ _ _. apply rdoes_ret.
    - apply rdoes_on; [apply r_read_chunk_into; [done|by apply WS]|]. intros x _.
      apply rdoes_pres. intros [[cb ca] mem] _. apply rdoes_pres. intros cwb _. apply rdoes_pres. intros ca' _.
      apply rdoes_andthen; [by apply PUT|]. intros _ _ _. apply rdoes_ret.
  Qed.
  Lemma r_write_loop arr fill coords :
    Forall (fun pos => pos_ok pos /\ W (loc base (get_chunk_key path m pos))) coords ->
    forall s buf, rd s (p_write_loop H C h rsf sl t path m arr bb fill coords buf)
      (write_loop C h H t path m arr bb fill coords s buf).
  Proof.
    induction 1 as [|c r [P Wp] F IH]; intros s buf; cbn [p_write_loop write_loop]; [apply rdoes_ret|].
    apply rdoes_andthen; [by apply r_write_step|]. intros buf' _ _. apply IH.
  Qed.
End Among.

Section Calls.
  Context (flit : rty -> bytes -> Z) (C : codec) (h : host) (H : hier).
  Context (sl : bytes -> list bytes) (SL : forall b, concat (sl b) = b).
  Context (PB : plain (hy_base H)) (GS : good_suffix (ep_suffix (hy_ep H))).

  Lemma r_rcall s0 (W S : fpath -> Prop) s c : (forall q, W q -> S q) -> (forall q r, W q -> W r -> q `prefix_of` r -> q = r) ->
    by_name c -> rcall_ok c -> (forall q, may_touch H c q -> S q) -> (forall q, may_write H c q -> W q) ->
    rdoes s0 W S s (p_rcall flit C h H sl c) (w_rcall flit C h H s c).
  Proof.
    intros WS PF N K T M. destruct c as [c|t path m bb rsf|t path m bb arr rsf|t path m off arr rsf]; cbn [p_rcall w_rcall].
    - by apply rdoes_map, r_call.
    - by apply (rdoes_map s0 W S s _ YRegion (_, _)), r_read_ndarray.
    - by apply (rdoes_map s0 W S s _ YRegion (_, _)), r_read_into.
    - apply (rdoes_map s0 W S s _ (fun r => YReply (YUnit r))). unfold p_write_ndarray, write_ndarray.
      destruct (negb _); [apply rdoes_ret|]. cbv zeta.
      apply rdoes_pres. intros fill _. apply rdoes_pres. intros coords E.
      apply r_write_loop; try done. by eapply (visits W).
  Qed.

  (** Files one call may write are not nested. *)
  Lemma docs_depth path q r : doc H path q -> doc H path r -> length q = length r.
  Proof.
    intros Dq Dr. assert (forall q, doc H path q -> exists e, is_node_ext e /\ q = loc (hy_base H) (metadata_key e (ep_suffix (hy_ep H)) path)) as X.
    { intros q' [D|D]; [exists (B "array")|exists (B "group")]; (split; [|exact D]); [by left|by right]. }
    apply X in Dq as (e & E1 & ->), Dr as (e' & E2 & ->). unfold loc.
    rewrite !pieces_node_key by (done || apply GS). rewrite !app_length. f_equal.
    unfold meta_pieces. destruct (rev (pieces path)) as [|n l]; [done|]. destruct (beq n dotdot); [done|].
    rewrite !app_length. cbn. done.
  Qed.
  Lemma prefix_eq (q r : fpath) : q `prefix_of` r -> length q = length r -> q = r.
  Proof. intros [k ->] L. rewrite app_length in L. destruct k; [by rewrite app_nil_r|cbn in L; lia]. Qed.
  Lemma may_write_flat c q r : rcall_ok c -> may_write H c q -> may_write H c r -> q `prefix_of` r -> q = r.
  Proof.
    intros K. destruct c as [c|t path m bb rsf|t path m bb arr rsf|t path m off arr rsf]; try done.
    - destruct c; cbn; try done.
      + intros D1 D2 P. apply prefix_eq; [done|by eapply docs_depth].
      + by intros -> ->.
      + by intros -> ->.
      + by intros -> ->.
      + by intros -> ->.
    - destruct K as (PP & G & BO & OV). intros (pos & P1 & M1 & ->) (pos' & P2 & M2 & ->) [k X].
      unfold chunk_file in *. cbn. rewrite !loc_chunk, <- !app_assoc in X. do 3 apply app_inv_head in X.
      assert (pos = pos') as ->; [|done].
      eapply cpieces_prefix; [done|done|done| |done].
      destruct M1 as (x & (L1 & _) & _), M2 as (x' & (L2 & _) & _). congruence.
  Qed.
  Lemma write_touch c q : may_write H c q -> may_touch H c q.
  Proof. destruct c as [[]|?|?|?]; cbn; unfold doc; naive_solver. Qed.

  Theorem independent_calls o calls o' ps : calm o -> wf_fs (view o) -> Forall rcall_ok calls -> Forall by_name calls ->
    independent H calls -> writable H (view o) calls ->
    csteps (o, map (p_rcall flit C h H sl) calls) (o', ps) ->
    (forall i c a, calls !! i = Some c -> ps !! i = Some (Ret a) ->
       exists oi, run o (p_rcall flit C h H sl c) = Some (oi, a)
         /\ forall q, may_touch H c q -> file_at (view o') q = file_at (view oi) q)
    /\ (forall q, (forall c, c ∈ calls -> ~ may_write H c q) -> file_at (view o') q = file_at (view o) q)
    /\ wf_fs (view o').
  Proof.
    intros K Wf OK BN IN WR ST.
    set (W := fun k q => exists c, calls !! k = Some c /\ may_write H c q).
    set (S := fun k q => exists c, calls !! k = Some c /\ may_touch H c q).
    assert (WS : forall k q, W k q -> S k q).
    { intros k q (c & E & M). exists c. split; [done|by apply write_touch]. }
    assert (DJ : forall j k q, j <> k -> W k q -> S j q -> False).
    { intros j k q N (c & E & M) (d & E' & T). destruct (IN k j c d (not_eq_sym N) E E' q M) as [X _]. done. }
    assert (PF : forall j k q r, W j q -> W k r -> q `prefix_of` r -> q = r).
    { intros j k q r (c & E & M) (d & E' & M') P. destruct (decide (j = k)) as [->|N].
      - rewrite E in E'. injection E' as <-. eapply may_write_flat; [|done..].
        rewrite list.Forall_forall in OK. apply OK. by eapply elem_of_list_lookup_2.
      - destruct (IN j k c d N E E' q M) as [_ X]. by apply X in P. }
    assert (HO : forall k q, W k q -> can_hold_file (view o) q).
    { intros k q (c & E & M). eapply WR; [|done]. by eapply elem_of_list_lookup_2. }
    destruct (csteps_own (view o) W S WS DJ PF HO
      (fun k st a => forall c, calls !! k = Some c -> r_fd st = None /\ a = snd (w_rcall flit C h H (view o) c)
         /\ agree (view o) (W k) (S k) (fst (w_rcall flit C h H (view o) c)) (r_delta st)) _ _ ST (fun _ => rstart))
      as (sts & I & N & F).
    - by apply rinv_start.
    - done.
    - intros k q E. cbn [snd] in E. rewrite list_lookup_fmap in E.
      destruct (calls !! k) as [c|] eqn:E1; [|done]. injection E as <-.
      eapply follows_weaken.
      + eapply (r_rcall (view o) (W k) (S k) (view o) c); [auto|by apply PF|..].
        * rewrite list.Forall_forall in BN. apply BN. by eapply elem_of_list_lookup_2.
        * rewrite list.Forall_forall in OK. apply OK. by eapply elem_of_list_lookup_2.
        * intros q T. by exists c.
        * intros q M. by exists c.
        * done.
        * split_and!; [done|done|]. intros q. apply HO.
      + intros st a X c' [= <-]. exact X.
    - cbn [fst snd] in *. split.
      + intros i c a E1 E2. specialize (F i _ E2). cbn in F. destruct (F c E1) as (NF & -> & AG).
        destruct (does_rcall flit C h H sl SL c o) as (oi & R & V & _); [|done|].
        { rewrite list.Forall_forall in BN. apply BN. by eapply elem_of_list_lookup_2. }
        exists oi. split; [done|].
        intros q T. assert (Sq : S i q) by by exists c. rewrite V.
        destruct AG as (_ & A & _). rewrite A by done. apply (ri_see _ _ _ _ _ I i q Sq). by apply not_written.
      + split; [|apply (ri_wf _ _ _ _ _ I)]. intros q NW. apply (ri_rest _ _ _ _ _ I).
        intros k (c & E & M). eapply NW; [|done]. by eapply elem_of_list_lookup_2.
  Qed.
End Calls.
