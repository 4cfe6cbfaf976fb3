(** What concurrent region reads, region writes, chunk reads, chunk writes and
    chunk deletions can make of one voxel (C59). *)
From Verif Require Import BaseFacts PathFacts KeyFacts FSFacts Spec SpecMeta ChunkFacts BBoxFacts HierFacts.
From Verif Require Import CoordIterFacts NdFacts OpsFacts NdWrite.
From Verif Require Import Sys SysNd SpecShare SysFacts SysOps SysNdOps CrashFacts CrashOps ConcFacts ConcOps ConcChunk.
From Verif Require Import RegionPure.
Local Open Scope Z_scope.

(** Processes that keep away from the file, or only read it. *)
Section Free.
  Context (p : fpath) (Vals : bytes -> Prop) (stable : Prop).
  Local Notation absent := (fun _ : fpath => False).
  Local Notation fol := (follows (pre p Vals stable absent) (nxt p Vals stable absent)).
  Context (C : codec) (h : host) (H : hier) (sl : bytes -> list bytes).
  Context (PB : plain (hy_base H)).
  Local Notation base := (hy_base H).

  (** Reading any chunk file. *)
  Definition got (t : rty) (path : bytes) (m : array_meta) (pos : list Z) (r : res (option chunk)) : Prop :=
    match r with
    | Ok (Some ck) => exists c, decode_chunk C h t m c pos = Ok ck
        /\ (loc base (get_chunk_key path m pos) = p -> seen Vals stable c)
    | Ok None => loc base (get_chunk_key path m pos) = p -> ~ stable
    | _ => True
    end.
  Lemma fol_read_any t path m pos rs : plain path -> plain (am_sep m) -> pos_ok pos ->
    fol (fun st r => st = Free /\ got t path m pos r) Free (p_read_chunk H C h t path m pos rs).
  Proof.
    intros P S Q. unfold p_read_chunk.
    destruct (in_bounds (h_prof h) m pos) as [[]|e|]; cbn [mbind res_bind assert_ pres]; [|done..].
    eapply follows_try; [apply fol_get; [done|by apply plain_chunk_key]|..].
    - intros st x (-> & _ & _ & X). cbn [follows]. split; [done|]. destruct x as [c|].
      + destruct (decode_chunk C h t m c pos) as [ck|e|] eqn:E; cbn [mbind res_bind]; [|done..].
        exists c. split; [done|]. intros L. destruct (X L) as [(c' & SC & [= ->])|(_ & [X'|[e X']])]; done.
      + intros L. destruct (X L) as [(c' & SC & X')|(N & _)]; done.
    - by intros st e (-> & _).
    - by intros st (-> & _).
  Qed.
  Lemma fol_read_into t path m rsf pos old : plain path -> plain (am_sep m) -> pos_ok pos ->
    fol (fun st r => st = Free /\ got t path m pos r) Free (p_read_chunk_into H C h rsf t path m pos old).
  Proof.
    intros P S Q. unfold p_read_chunk_into.
    destruct (in_bounds (h_prof h) m pos) as [[]|e|]; cbn [mbind res_bind assert_ pres]; [|done..].
    eapply follows_try; [apply fol_get; [done|by apply plain_chunk_key]|..].
    - intros st x (-> & _ & _ & X). cbn [follows]. split; [done|]. destruct x as [c|].
      + rewrite decode_into_eq. destruct (decode_chunk C h t m c pos) as [ck|e|] eqn:E; cbn [mbind res_bind]; [|done..].
        exists c. split; [done|]. intros L. destruct (X L) as [(c' & SC & [= ->])|(_ & [X'|[e X']])]; done.
      + intros L. destruct (X L) as [(c' & SC & X')|(N & _)]; done.
    - by intros st e (-> & _).
    - by intros st (-> & _).
  Qed.
  Lemma fol_read_buf t path m rsf pos (buf : option chunk) : plain path -> plain (am_sep m) -> pos_ok pos ->
    fol (fun st r => st = Free /\ got t path m pos r) Free
      (match buf with
       | None => p_read_chunk H C h t path m pos (rsf pos)
       | Some old => p_read_chunk_into H C h rsf t path m pos old
       end).
  Proof. intros. destruct buf; [by apply fol_read_into|by apply fol_read_any]. Qed.

  Context (t : rty) (path : bytes) (m : array_meta) (rsf : list Z -> list nat).
  Context (PP : plain path) (PS : plain (am_sep m)).

  Lemma free_read_loop bb coords : Forall pos_ok coords -> forall st,
    fol free Free (p_read_loop H C h rsf t path m bb coords st).
  Proof.
    induction 1 as [|c r P F IH]; intros st; cbn [p_read_loop]; [done|].
    apply free_try; [|intros st'; apply IH]. unfold p_read_step. apply free_try; [|done].
    eapply follows_weaken; [by apply fol_read_buf|]. by intros ? ? (-> & _).
  Qed.
  Lemma free_put ck : pos_ok (ck_pos ck) -> loc base (get_chunk_key path m (ck_pos ck)) <> p ->
    fol free Free (p_put H C h sl t path m ck).
  Proof. intros Q N. apply free_write_chunk; [done..|]. split; [done|tauto]. Qed.
  Lemma free_write_step arr bb fill buf pos : pos_ok pos -> loc base (get_chunk_key path m pos) <> p ->
    fol free Free (p_write_step H C h rsf sl t path m arr bb fill buf pos).
  Proof.
    intros Q N. unfold p_write_step. cbv zeta.
    do 4 (apply free_pres; intros ?). destruct (bool_decide _).
    - apply free_try; [by apply free_put|done].
    - apply free_try; [eapply follows_weaken; [by apply fol_read_into|]; by intros ? ? (-> & _)|]. intros o.
      apply free_pres. intros [[cb ca] mem]. do 2 (apply free_pres; intros ?).
      apply free_try; [by apply free_put|done].
  Qed.
  Lemma free_write_loop arr bb fill coords :
    Forall (fun pos => pos_ok pos /\ loc base (get_chunk_key path m pos) <> p) coords -> forall buf,
    fol free Free (p_write_loop H C h rsf sl t path m arr bb fill coords buf).
  Proof.
    induction 1 as [|c r [P N] F IH]; intros st; cbn [p_write_loop]; [done|].
    apply free_try; [by apply free_write_step|intros st'; apply IH].
  Qed.
End Free.

Section OneVoxel.
  Context (flit : rty -> bytes -> Z) (C : codec) (h : host) (H : hier).
  Context (sl : bytes -> list bytes) (SL : forall b, concat (sl b) = b).
  Context (PB : plain (hy_base H)) (GX : good_suffix (ep_suffix (hy_ep H))).
  Context (t : rty) (path : bytes) (m : array_meta) (d : data_type) (fill : Z).
  Context (PP : plain path) (GS : good_sep (am_sep m)) (IO : iter_ok m) (CK : chunk_shape_ok m) (NE : am_shape m <> []).
  Context (LL : lossless C (am_comp m)) (TC : total_codec C (am_comp m)).
  Context (ED : effective m d) (KW : same_kind_width d t).
  Context (FE : effective_fill flit t m = Ok fill) (EF : elt_ok t fill).
  Context (o : os) (calls : list rcall) (CA : calm o) (W : wf_fs (view o)).
  Context (OK : Forall rcall_ok calls) (AG : Forall (agrees C h t path m) calls).
  Context (x : list Z) (GV : grid_voxel m x).
  Local Notation pos := (chunk_of m x).
  Local Notation P := (loc (hy_base H) (get_chunk_key path m pos)).
  Local Notation poss := (possible C h H (view o) t path m fill calls x).
  Context (EM : forall ck, decode_chunk C h t m [] pos <> Ok ck).

  Local Notation CP := (proj1 CK).
  Lemma vx_len : length x = length (am_chunk_shape m).
  Proof. destruct GV as (q & Hc & _). exact (proj2 (in_chunk_of m q x CP Hc)). Qed.
  Lemma vx_covers : in_chunk (am_chunk_shape m) pos x.
  Proof. apply chunk_of_covers; [apply CP|apply vx_len]. Qed.
  Lemma vx_grid : grid_ok m.
  Proof. unfold grid_ok. eapply Forall2_impl; [exact IO|]. cbn. intros a b Q. lia. Qed.
  Lemma vx_in_bounds : in_bounds (h_prof h) m pos = Ok true.
  Proof. apply chunk_of_in_bounds; [apply vx_grid|apply CP|done]. Qed.
  Lemma vx_pos_ok : pos_ok pos.
  Proof.
    destruct GV as (q & Hc & y & Hy & HA). pose proof CP as Hs.
    destruct (in_chunk_of m q x Hs Hc) as [-> _]. destruct (in_chunk_of m q y Hs Hy) as [<- _].
    destruct HA as (_ & H2 & H3). unfold iter_ok in IO.
    unfold pos_ok, chunk_of. apply Forall_lookup_2. intros i c Hi.
    rewrite lookup_zip_with in Hi. destruct (y !! i) as [xi|] eqn:E1; [|done].
    destruct (am_chunk_shape m !! i) as [si|] eqn:E2; [|done]. cbn in Hi. injection Hi as <-.
    destruct (Forall2_lookup_r _ _ _ _ _ IO E2) as (di & Ed & Q).
    assert (0 <= xi < 0 + di) as Hx.
    { apply (H3 i); [done| |done]. apply lookup_replicate_2. by eapply lookup_lt_Some. }
    unfold is_u64. split; [apply Z.div_pos; lia|].
    apply Z.le_lt_trans with xi; [|lia]. apply Z.div_le_upper_bound; [lia|]. nia.
  Qed.
  Lemma vx_element ck : full_chunk m (ck_data ck) -> element m ck x = Some (cell m ck x).
  Proof.
    intros F. destruct (voxel_split m x CP vx_len) as [_ VI]. apply of_vec_at; [done|].
    unfold full_chunk in F. lia.
  Qed.
  Lemma read_at s : wf_fs s -> read_chunk C h H s t path m pos =
    match file_at s P with None => Ok None | Some c => y ← decode_chunk C h t m c pos; Ok (Some y) end.
  Proof. intros Ws. apply read_chunk_at; [done..|apply GS|apply vx_pos_ok|apply vx_in_bounds]. Qed.

  Let here : Prop := exists c, file_at (view o) P = Some c.
  Definition dels (c : rcall) : Prop := match c with RCall c => deletes_chunk c path pos | _ => False end.
  Global Instance dels_dec c : Decision (dels c).
  Proof. destruct c as [[]| | |]; cbn; apply _. Defined.
  Let nodel : Prop := forall c, c ∈ calls -> ~ dels c.
  Let good0 : Prop := exists v, voxel C h H (view o) t path m fill x = Ok v.
  Definition vvals (c : bytes) : Prop :=
    (forall ck, decode_chunk C h t m c pos = Ok ck -> poss (cell m ck x))
    /\ (good0 -> exists ck, decode_chunk C h t m c pos = Ok ck).
  Local Notation fol := (follows (pre P vvals (here /\ nodel) (fun _ => False))
                                 (nxt P vvals (here /\ nodel) (fun _ => False))).

  Lemma unstable_fill : ~ (here /\ nodel) -> poss fill.
  Proof.
    intros N. destruct (file_at (view o) P) as [c|] eqn:E.
    - assert (Exists dels calls) as X.
      { apply dec_stable. intros X. apply N. split; [by exists c|]. intros c' I D. apply X.
        apply list.Exists_exists. by exists c'. }
      apply list.Exists_exists in X as (c' & I & D). right. exists c'. split; [done|].
      destruct c' as [[]| | |]; cbn in D; try done. destruct D as [D1 D2]. cbn. split; [done|].
      split; [|done]. rewrite D2. apply vx_covers.
    - left. apply voxel_none. by rewrite read_at, E.
  Qed.
  Lemma seen_value c ck : seen vvals (here /\ nodel) c -> decode_chunk C h t m c pos = Ok ck -> poss (cell m ck x).
  Proof. intros [[S _]|[_ ->]] E; [by apply S|by apply EM in E]. Qed.
  Lemma start_vals c : file_at (view o) P = Some c -> vvals c.
  Proof.
    intros E. split.
    - intros ck D. left. apply voxel_some; [done|apply vx_len|]. by rewrite read_at, E, D.
    - intros [v V]. unfold voxel in V. fold (chunk_of m x) in V. rewrite read_at, E in V by done.
      destruct (decode_chunk C h t m c pos) as [ck|e|]; [by exists ck|done|done].
  Qed.
  (** A chunk whose element for the voxel is a possible value may be written. *)
  Lemma put_vals data ws : full_chunk m data -> Forall (elt_ok t) data -> poss (cell m (Chunk pos data) x) ->
    concat ws = fst (encode_chunk C h t m (Chunk pos data)) -> vvals (concat ws).
  Proof.
    intros FC FE' PV E.
    assert (encode_chunk C h t m (Chunk pos data) = (concat ws, Ok tt)) as EE.
    { rewrite E. rewrite (encode_chunk_ok C h t m d data pos ED KW CK FC).
      pose proof (TC (write_calls (dtype_endian h d) t data)) as X.
      destruct (encode_with _ _ _) as [bs r]. cbn in *. by subst r. }
    assert (lenZ data < two64) as L64.
    { unfold full_chunk in FC. rewrite FC. destruct CK as [_ CK2]. unfold two32, two64 in *. lia. }
    destruct (chunk_roundtrip_both C h t m data (concat ws) pos pos (Chunk pos []) LL FE' L64 FC EE) as [DE _].
    split; [|intros _; by eexists]. intros ck D. rewrite DE in D. by injection D as <-.
  Qed.

  Lemma same_file path' m' pos' : good_sep (am_sep m') -> pos_ok pos' ->
    loc (hy_base H) (get_chunk_key path' m' pos') = P -> pieces path' = pieces path /\ pos' = pos.
  Proof. intros G' Q' E. apply loc_chunk_inj in E; [done|done|apply vx_pos_ok|done|apply GS]. Qed.

  Section Region.
    Context (path' : bytes) (bb : bbox) (rsf : list Z -> list nat).
    Context (PE : pieces path' = pieces path) (PP' : plain path').
    Context (BO : bok m bb) (FM : fits_memory (bb_shape bb)).
    Let F1 : NdFacts.fits (bb_shape bb) := fits_of_prod _ (bok_shape_nonneg m bb BO) FM.
    Local Notation P' := (loc (hy_base H) (get_chunk_key path' m pos)).

    Lemma region_pos q : in_ranges (branges m bb) q -> pos_ok q.
    Proof. intros R. by eapply ranges_pos. Qed.

    Section Reading.
      Context (i : list Z) (Hi : index_of (bb_shape bb) i) (Hx : zip_with Z.add (bb_off bb) i = x).
      Context (v0 : Z).
      Definition shows (v : Z) : Prop := poss v \/ v = v0 /\ poss fill.

      Lemma fol_read_step arr buf q : in_ranges (branges m bb) q -> nd_shape arr = bb_shape bb ->
        (shows (nd_at arr i) \/ nd_at arr i = v0) ->
        fol (fun st r => st = Free /\ forall arr' buf', r = Ok (arr', buf') -> nd_shape arr' = bb_shape bb
               /\ (shows (nd_at arr' i) \/ nd_at arr' i = nd_at arr i /\ q <> pos)) Free
          (p_read_step H C h rsf t path' m bb (arr, buf) q).
      Proof.
        intros Hr SH V. unfold p_read_step. cbn [snd].
        eapply follows_try; [apply fol_read_buf; [done|done|apply GS|by apply region_pos]| |naive_solver|naive_solver].
        intros st ro (-> & G). cbn [follows]. split; [done|]. intros arr' buf' E.
        destruct (merge_cases h path' m bb rsf sl BO F1 CK arr buf q ro Hr SH) as (a1 & b1 & E1 & S1 & V1).
        { intros ck ->. cbn in G. destruct G as (c & D & _). apply decode_chunk_inv in D; [|done]. tauto. }
        rewrite E1 in E. injection E as <- <-. split; [done|].
        specialize (V1 i (proj1 (inb_index _ _) Hi)). cbv zeta in V1. rewrite Hx in V1. rewrite V1. clear V1.
        destruct ro as [ck|].
        - case_decide as Q.
          + left. left. subst q. cbn in G. destruct G as (c & D & SC).
            eapply seen_value; [|exact D]. apply SC. by apply loc_chunk_pieces.
          + right. split; [done|]. congruence.
        - destruct (decide (q = pos)) as [->|N]; [|by right]. left.
          assert (poss fill) as PF.
          { apply unstable_fill. apply G. by apply loc_chunk_pieces. }
          destruct V as [V|V]; [done|]. by right.
      Qed.
      Lemma fol_read_loop coords : (forall q, q ∈ coords -> in_ranges (branges m bb) q) -> forall arr buf,
        nd_shape arr = bb_shape bb ->
        (shows (nd_at arr i) \/ nd_at arr i = v0 /\ pos ∈ coords) ->
        fol (fun st r => st = Free /\ forall arr' buf', r = Ok (arr', buf') -> shows (nd_at arr' i)) Free
          (p_read_loop H C h rsf t path' m bb coords (arr, buf)).
      Proof.
        induction coords as [|q coords IH]; intros Hr arr buf SH V; cbn [p_read_loop].
        - cbn. split; [done|]. intros ? ? [= <- <-]. destruct V as [V|[_ V]]; [done|by apply elem_of_nil in V].
        - eapply follows_try; [apply fol_read_step; [apply Hr; left|done|naive_solver]| |naive_solver|naive_solver].
          intros st [arr1 buf1] (-> & X). destruct (X arr1 buf1 eq_refl) as (SH1 & V1).
          apply IH; [intros q' I; apply Hr; by right|done|].
          destruct V1 as [V1|[V1 N]]; [by left|]. rewrite V1. destruct V as [V|[V I]]; [by left|]. right.
          split; [done|]. apply elem_of_cons in I as [I|I]; [by symmetry in I|done].
      Qed.
      Lemma fol_read_region arr : nd_shape arr = bb_shape bb -> nd_at arr i = v0 ->
        fol (fun st r => st = Free /\ forall arr', r = Ok arr' -> shows (nd_at arr' i)) Free
          (p_read_ndarray_into H C h rsf t path' m bb arr).
      Proof.
        intros SH V. unfold p_read_ndarray_into.
        eapply follows_try with (P := fun st r => st = Free /\ forall arr' buf', r = Ok (arr', buf') -> shows (nd_at arr' i));
          [| |naive_solver|naive_solver].
        - unfold p_read_ndarray_into_with_buffer.
          destruct (_ || _); [done|]. destruct (negb _); [done|].
          rewrite (bounded_coords_eq (h_prof h) m bb BO).
          destruct (mbind _ _) as [coords|e|] eqn:E; cbn [pres]; [|done..].
          apply bind_ok_inv in E as (n & _ & [= <-]).
          apply fol_read_loop; [apply visited_ranges|done|]. right. split; [done|].
          apply NdFacts.visited; [done|done| |done]. rewrite <- Hx. apply in_box_shift; [|done].
          destruct (bok_length m bb BO) as (_ & E1 & E2). congruence.
        - intros st [arr' buf'] (-> & X). cbn. split; [done|]. intros ? [= <-]. by eapply X.
      Qed.
    End Reading.

    Context (arr : nd) (SH : nd_shape arr = bb_shape bb).
    Context (EA : forall i, index_of (bb_shape bb) i -> elt_ok t (nd_at arr i)).
    Context (GV' : in_box (bb_off bb) (bb_shape bb) x -> poss (nd_at arr (zip_with Z.sub x (bb_off bb)))).

    Lemma fol_put data : full_chunk m data -> Forall (elt_ok t) data -> poss (cell m (Chunk pos data) x) ->
      fol free Free (p_put H C h sl t path' m (Chunk pos data)).
    Proof.
      intros FC FE' PV. unfold p_put. eapply follows_weaken.
      - apply (fol_write_chunk P vvals (here /\ nodel) (fun _ => False) C h H PB t path' m (Chunk pos data));
          [done|apply GS|apply vx_pos_ok| |by apply loc_chunk_pieces|tauto].
        eapply put_vals; [done|done|done|]. by rewrite SL.
      - by intros st r (-> & _).
    Qed.
    Lemma fol_write_step buf q : in_ranges (branges m bb) q ->
      fol free Free (p_write_step H C h rsf sl t path' m arr bb fill buf q).
    Proof.
      intros Hr. destruct (decide (q = pos)) as [->|N].
      2:{ apply free_write_step; [done|done|apply GS|by apply region_pos|].
          intros E. apply same_file in E as [_ E]; [done|done|by apply region_pos]. }
      destruct (dims_of m bb pos BO F1 (NdFacts.chunk_fits m CK) Hr) as (D & OKD & E1 & E2 & E3 & E4).
      assert (bb = BBox (map d_o D) (map d_e D)) as BE by (destruct bb; cbn in *; congruence).
      rewrite E2, E3 in GV'. rewrite E3 in SH, EA. rewrite BE.
      assert (PUT : forall ro data, (forall ck, ro = Some ck -> full_chunk m (ck_data ck) /\ Forall (elt_ok t) (ck_data ck)) ->
        (w_covers D = false -> poss (fresh m fill ro x)) ->
        (w_covers D = true /\ data = flatten (am_order m) (w_view D arr)) \/
          (w_covers D = false /\ data = flatten (am_order m) (w_merged m D arr fill ro)) ->
        fol free Free (p_put H C h sl t path' m (Chunk pos data))).
      { intros ro data Ho PF HD.
        destruct (put_data t path' m rsf sl D OKD E1 CK arr fill SH EF EA ro data Ho HD) as (FC & FE' & CV).
        rewrite <- E4 in CV. apply fol_put; [done|done|].
        destruct (CV x vx_len eq_refl) as [(IB & ->)|(HC & NB & ->)]; [by apply GV'|by apply PF]. }
      destruct (w_covers D) eqn:HC.
      - pose proof (p_write_step_covers C h H t path' m rsf sl D OKD E1 arr fill SH buf HC) as X.
        rewrite <- E4 in X. rewrite X. apply free_try; [|done]. apply (PUT None); [done|done|by left].
      - destruct (p_write_step_merges C h H t path' m rsf sl D OKD E1 CK arr fill SH buf HC) as (k & KX & KE).
        rewrite <- E4 in KX, KE. rewrite KX.
        eapply follows_try; [apply fol_read_into; [done|done|apply GS|apply vx_pos_ok]| |naive_solver|naive_solver].
        intros st ro (-> & G). rewrite KE.
        2:{ intros ck ->. cbn in G. destruct G as (c & DE & _). apply decode_chunk_inv in DE; [|done]. tauto. }
        apply free_try; [|done]. apply (PUT ro); [| |by right].
        + intros ck ->. cbn in G. destruct G as (c & DE & _). apply decode_chunk_inv in DE; [|done]. tauto.
        + intros _. destruct ro as [ck|]; cbn in G |- *.
          * destruct G as (c & DE & SC). eapply seen_value; [|exact DE].
            apply SC. by apply loc_chunk_pieces.
          * apply unstable_fill, G. by apply loc_chunk_pieces.
    Qed.
    Lemma fol_write_loop coords : (forall q, q ∈ coords -> in_ranges (branges m bb) q) -> forall buf,
      fol free Free (p_write_loop H C h rsf sl t path' m arr bb fill coords buf).
    Proof.
      induction coords as [|q coords IH]; intros Hr buf; cbn [p_write_loop]; [done|].
      apply free_try; [apply fol_write_step, Hr; left|]. intros buf'. apply IH. intros q' I. apply Hr. by right.
    Qed.
  End Region.

  (** Calls on other arrays. *)
  Lemma free_region_read t' path' m' bb rsf arr : region_ok path' m' bb ->
    fol free Free (p_read_ndarray_into H C h rsf t' path' m' bb arr).
  Proof.
    intros (P1 & G1 & B1 & _). unfold p_read_ndarray_into. apply free_try; [|done]. unfold p_read_ndarray_into_with_buffer.
    destruct (_ || _); [done|]. destruct (negb _); [done|].
    rewrite (bounded_coords_eq (h_prof h) m' bb B1).
    destruct (mbind _ _) as [coords|e|] eqn:E; cbn [pres]; [|done..].
    apply bind_ok_inv in E as (n & _ & [= <-]). apply free_read_loop; [done|done|apply G1|].
    apply list.Forall_forall. intros q I. eapply ranges_pos; [exact B1|]. by apply visited_ranges.
  Qed.
  Lemma free_region_write t' path' m' off arr rsf : region_ok path' m' (BBox off (nd_shape arr)) ->
    pieces path' <> pieces path ->
    fol free Free (p_write_ndarray H C h rsf sl flit t' path' m' off arr).
  Proof.
    intros (P1 & G1 & B1 & _) N. unfold p_write_ndarray.
    destruct (negb _); [done|]. cbv zeta. apply free_pres. intros f.
    rewrite (bounded_coords_eq (h_prof h) m' _ B1).
    destruct (mbind _ _) as [coords|e|] eqn:E; cbn [pres]; [|done..].
    apply bind_ok_inv in E as (n & _ & [= <-]). apply free_write_loop; [done|done|apply G1|].
    apply list.Forall_forall. intros q I.
    assert (pos_ok q) as Q by (eapply ranges_pos; [exact B1|]; by apply visited_ranges).
    split; [done|]. intros E. by apply same_file in E as [E _].
  Qed.

  Context (i : list Z).
  Definition vfin (c : rcall) (st : sess) (a : rreply) : Prop :=
    st = Free /\
    match c with
    | RRead _ path' _ bb _ => pieces path' = pieces path -> forall arr, a = YRegion (Ok arr) ->
        index_of (bb_shape bb) i -> zip_with Z.add (bb_off bb) i = x -> poss (nd_at arr i)
    | RReadInto _ path' _ bb arr0 _ => pieces path' = pieces path -> forall arr, a = YRegion (Ok arr) ->
        index_of (bb_shape bb) i -> zip_with Z.add (bb_off bb) i = x ->
        poss (nd_at arr i) \/ nd_at arr i = nd_at arr0 i /\ poss fill
    | RCall (KReadChunk _ path' _ pos' _) => pieces path' = pieces path -> pos' = pos ->
        forall r, a = YReply (YChunk (Ok r)) ->
        match r with
        | Some ck => exists v, element m ck x = Some v /\ poss v
        | None => poss fill
        end
    | _ => True
    end.
  Lemma vfin_free c : match c with RCall (KReadChunk _ _ _ _ _) | RRead _ _ _ _ _ | RReadInto _ _ _ _ _ _ => False | _ => True end ->
    fol free Free (p_rcall flit C h H sl c) -> fol (vfin c) Free (p_rcall flit C h H sl c).
  Proof.
    intros N F. eapply follows_weaken; [exact F|]. intros st a ->. split; [done|]. by destruct c as [[]| | |].
  Qed.
  Lemma free_map {A : Type} (f : A -> rreply) q : fol free Free q -> fol free Free (pbind q (fun a => Ret (f a))).
  Proof. intros F. eapply follows_bind; [exact F|]. by intros st a ->. Qed.

  Lemma fol_map {A D : Type} (Q : sess -> D -> Prop) (f : A -> D) q :
    fol (fun st a => Q st (f a)) Free q -> fol Q Free (pbind q (fun a => Ret (f a))).
  Proof. intros F. eapply follows_bind; [exact F|]. by intros st a X. Qed.

  Lemma index_dec (shape off : list Z) : Decision (index_of shape i /\ zip_with Z.add off i = x).
  Proof.
    assert (Decision (inb shape i)) as [D|D] by (unfold inb; apply _).
    - destruct (decide (zip_with Z.add off i = x)) as [E|E]; [left|right; tauto]. split; [by apply inb_index|done].
    - right. intros [X _]. by apply inb_index in X.
  Qed.

  Lemma rcall_follows c : c ∈ calls -> fol (vfin c) Free (p_rcall flit C h H sl c).
  Proof.
    intros IN. assert (rcall_ok c) as K by (rewrite list.Forall_forall in OK; by apply OK).
    assert (agrees C h t path m c) as A by (rewrite list.Forall_forall in AG; by apply AG).
    destruct c as [c|t' path' m' bb rsf|t' path' m' bb arr rsf|t' path' m' off arr rsf].
    - destruct c as [| | | | |t' path' m' pos' rs|t' path' m' ck ws|path' m' pos'|path' ord fuel|path' ord]; cbn in K, A.
      + apply vfin_free; [done|]. by apply free_map, free_reply, free_get_array_metadata.
      + apply vfin_free; [done|]. by apply free_map, free_reply, free_list_attributes.
      + apply vfin_free; [done|]. apply free_map, free_reply, free_set_attributes; try done; apply other_meta; try done; [by left|by right].
      + apply vfin_free; [done|]. apply free_map, free_reply, free_create_group; try done. apply other_meta; try done. by right.
      + apply vfin_free; [done|]. apply free_map, free_reply, free_create_array; try done. apply other_meta; try done. by left.
      + destruct K as (K1 & K2 & K3). cbn [p_rcall p_call]. unfold map_reply. do 2 apply fol_map.
        eapply follows_weaken; [apply fol_read_any; [done|done|apply K2|done]|].
        intros st r0 (-> & G). split; [done|]. intros PE -> r [= ->]. destruct (A PE) as [-> ->].
        destruct r as [ck|]; cbn in G.
        * destruct G as (c & DE & SC). exists (cell m ck x). split.
          -- apply vx_element. apply decode_chunk_inv in DE; [|done]. tauto.
          -- eapply seen_value; [|exact DE]. apply SC. by apply loc_chunk_pieces.
        * apply unstable_fill, G. by apply loc_chunk_pieces.
      + destruct K as (K1 & K2 & K3). apply vfin_free; [done|]. apply free_map, free_reply.
        destruct (decide (pieces path' = pieces path /\ ck_pos ck = pos)) as [[E1 E2]|N].
        * destruct (A E1) as (-> & -> & FC & FE' & EN). destruct ck as [q data]. cbn in E2, EN, FC, FE'. subst q.
          eapply follows_weaken.
          -- apply (fol_write_chunk P vvals (here /\ nodel) (fun _ => False) C h H PB t path' m (Chunk pos data) ws);
               [done|apply GS|apply vx_pos_ok| |by apply loc_chunk_pieces|tauto].
             eapply put_vals; [done|done| |done]. right. eexists. split; [exact IN|]. cbn. split; [done|].
             split; [apply vx_covers|]. by apply vx_element.
          -- by intros st r (-> & _).
        * apply free_write_chunk; [done|done|apply K2|done|]. split; [|tauto].
          intros E. apply N. by apply same_file in E.
      + destruct K as (K1 & K2 & K3). apply vfin_free; [done|].
        apply free_map, free_reply, free_delete_chunk; [done|done|apply K2|done|].
        intros [_ ND] E. apply same_file in E as [E1 E2]; [|done..]. by apply (ND _ IN).
      + destruct K as (K1 & K2). apply vfin_free; [done|]. apply free_map, free_reply, free_remove; [done..|].
        intros [_ ND]. split_and!.
        * apply other_meta; try done. by right.
        * apply other_meta; try done. by left.
        * intros X. apply below_chunk in X; [|done|done|apply vx_pos_ok]. by apply (ND _ IN).
      + apply vfin_free; [done|]. apply free_map, free_reply, free_list_nodes.
    - cbn in K, A. cbn [p_rcall]. apply fol_map.
      destruct (decide (pieces path' = pieces path)) as [PE|PE].
      2:{ eapply follows_weaken with (P := free); [|by intros st a ->]. unfold p_read_ndarray.
          do 2 (apply free_pres; intros ?). by apply free_region_read. }
      destruct (A PE) as (-> & -> & FM). destruct K as (K1 & K2 & K3 & K4). unfold p_read_ndarray. rewrite FE. cbn [pres].
      destruct (from_elem _ _) as [arr0|e|] eqn:EE; cbn [pres]; [|done..].
      apply from_elem_inv in EE as [-> _]; [|exact (bok_shape_nonneg m bb K3)].
      destruct (index_dec (bb_shape bb) (bb_off bb)) as [[Hi Hx]|N].
      + eapply follows_weaken.
        * apply (fol_read_region path' bb rsf PE K1 K3 FM i Hi Hx fill); done.
        * intros st r (-> & X). split; [done|]. intros _ arr [= ->] _ _. destruct (X arr eq_refl) as [V|[-> V]]; done.
      + eapply follows_weaken; [by apply free_region_read|]. intros st r ->. split; [done|]. tauto.
    - cbn in K, A. cbn [p_rcall]. apply fol_map.
      destruct (decide (pieces path' = pieces path)) as [PE|PE].
      2:{ eapply follows_weaken; [by apply free_region_read|by intros st a ->]. }
      destruct (A PE) as (-> & -> & FM). pose proof K as (K1 & K2 & K3 & K4).
      destruct (decide (bb_shape bb = nd_shape arr)) as [SH|SH].
      2:{ unfold p_read_ndarray_into, p_read_ndarray_into_with_buffer.
          destruct (_ || _); [done|]. rewrite bool_decide_eq_false_2 by done. done. }
      destruct (index_dec (bb_shape bb) (bb_off bb)) as [[Hi Hx]|N].
      + eapply follows_weaken.
        * by apply (fol_read_region path' bb rsf PE K1 K3 FM i Hi Hx (nd_at arr i) arr).
        * intros st r (-> & X). split; [done|]. intros _ arr' [= ->] _ _. by apply X.
      + eapply follows_weaken; [by apply free_region_read|]. intros st r ->. split; [done|]. tauto.
    - cbn in K, A. apply vfin_free; [done|]. cbn [p_rcall]. apply free_map.
      destruct (decide (pieces path' = pieces path)) as [PE|PE]; [|by apply free_region_write].
      destruct (A PE) as (-> & -> & FM & EA). destruct K as (K1 & K2 & K3 & K4). unfold p_write_ndarray.
      destruct (negb _); [done|]. cbv zeta. rewrite FE. cbn [pres].
      rewrite (bounded_coords_eq (h_prof h) m _ K3).
      destruct (mbind _ _) as [coords|e|] eqn:E; cbn [pres]; [|done..].
      apply bind_ok_inv in E as (n & _ & [= <-]).
      apply (fol_write_loop path' (BBox off (nd_shape arr)) rsf PE K1 K3 FM arr eq_refl EA).
      + cbn. intros IB. right. eexists. split; [exact IN|]. done.
      + apply visited_ranges.
  Qed.

  Context (o' : os) (ps : list (proc rreply)) (EX : csteps (o, map (p_rcall flit C h H sl) calls) (o', ps)).

  Lemma voxel_interleave :
    (forall k c a, calls !! k = Some c -> returned ps k a -> exists st, vfin c st a) /\
    (all_returned ps -> calm o' /\ (forall v, voxel C h H (view o') t path m fill x = Ok v -> poss v) /\
       (good0 -> exists v, voxel C h H (view o') t path m fill x = Ok v)).
  Proof.
    pose proof (interleave P vvals (here /\ nodel) (fun _ => False) (P_ne H path m pos)
      (fun k st a => exists c, calls !! k = Some c /\ vfin c st a) o (map (p_rcall flit C h H sl) calls) o' ps) as X.
    destruct X as (X1 & X2 & X3); [done|done|by apply start_vals|intros [HH _]; exact HH|done| |exact EX|].
    - intros k q E. rewrite list_lookup_fmap in E. destruct (calls !! k) as [c|] eqn:EC; [|done].
      injection E as <-. eapply follows_weaken; [apply rcall_follows; by eapply elem_of_list_lookup_2|].
      cbn. intros st a F. by exists c.
    - split.
      + intros k c a E R. destruct (X1 k a R) as (st & c' & E' & F). exists st. congruence.
      + intros AR. destruct X3 as (Y1 & Y2 & Y3 & _); [|done|].
        { by intros k st a (c & _ & F & _). }
        split; [done|]. split.
        * intros v V. destruct (file_at (view o') P) as [c|] eqn:E.
          -- destruct (decode_chunk C h t m c pos) as [ck|e|] eqn:DE.
             ++ rewrite (voxel_some C h H (view o') t path m fill x ck) in V; [|done|apply vx_len|by rewrite read_at, E, DE].
                injection V as <-. destruct (Y2 c eq_refl) as [Z _]. by apply Z.
             ++ exfalso. unfold voxel in V. fold (chunk_of m x) in V. by rewrite read_at, E, DE in V.
             ++ exfalso. unfold voxel in V. fold (chunk_of m x) in V. by rewrite read_at, E, DE in V.
          -- rewrite voxel_none in V by by rewrite read_at, E. injection V as <-. apply unstable_fill.
             intros S. destruct (Y3 S) as [c E']. congruence.
        * intros G. destruct (file_at (view o') P) as [c|] eqn:E.
          -- destruct (Y2 c eq_refl) as [_ Z]. destruct (Z G) as [ck DE]. eexists.
             apply voxel_some; [done|apply vx_len|]. by rewrite read_at, E, DE.
          -- eexists. apply voxel_none. by rewrite read_at, E.
  Qed.
End OneVoxel.

Theorem voxels_written flit C h H sl : (forall b, concat (sl b) = b) ->
  plain (hy_base H) -> good_suffix (ep_suffix (hy_ep H)) ->
  forall t path m d fill, plain path -> good_sep (am_sep m) -> iter_ok m -> chunk_shape_ok m -> am_shape m <> [] ->
  lossless C (am_comp m) -> total_codec C (am_comp m) -> effective m d -> same_kind_width d t ->
  effective_fill flit t m = Ok fill -> elt_ok t fill ->
  forall o calls o' ps, calm o -> wf_fs (view o) -> Forall rcall_ok calls -> Forall (agrees C h t path m) calls ->
  csteps (o, map (p_rcall flit C h H sl) calls) (o', ps) ->
  forall x, grid_voxel m x -> (forall pos ck, decode_chunk C h t m [] pos <> Ok ck) ->
  let may v := possible C h H (view o) t path m fill calls x v in
  (forall k path' bb rsf arr i, calls !! k = Some (RRead t path' m bb rsf) -> pieces path' = pieces path ->
     returned ps k (YRegion (Ok arr)) -> index_of (bb_shape bb) i -> zip_with Z.add (bb_off bb) i = x -> may (nd_at arr i)) /\
  (forall k path' bb arr0 rsf arr i, calls !! k = Some (RReadInto t path' m bb arr0 rsf) -> pieces path' = pieces path ->
     returned ps k (YRegion (Ok arr)) -> index_of (bb_shape bb) i -> zip_with Z.add (bb_off bb) i = x ->
     may (nd_at arr i) \/ nd_at arr i = nd_at arr0 i /\ may fill) /\
  (forall k path' pos rs r, calls !! k = Some (RCall (KReadChunk t path' m pos rs)) -> pieces path' = pieces path ->
     in_chunk (am_chunk_shape m) pos x -> returned ps k (YReply (YChunk (Ok r))) ->
     match r with Some ck => exists v, element m ck x = Some v /\ may v | None => may fill end) /\
  (all_returned ps ->
     (forall v, voxel C h H (view o') t path m fill x = Ok v -> may v) /\
     ((exists v, voxel C h H (view o) t path m fill x = Ok v) -> exists v, voxel C h H (view o') t path m fill x = Ok v)).
Proof.
  intros SL PB GX t path m d fill PP GS IO CK NE LL TC ED KW FE EF o calls o' ps CA W OK AG EX x GV EM may.
  assert (V : forall i, _) by exact (fun i => voxel_interleave flit C h H sl SL PB GX t path m d fill PP GS IO CK NE
    LL TC ED KW FE EF o calls CA W OK AG x GV (EM _) i o' ps EX).
  split_and!.
  - intros k path' bb rsf arr i E PE R Hi Hx. destruct (V i) as [V1 _]. destruct (V1 k _ _ E R) as (st & _ & X). by apply (X PE).
  - intros k path' bb arr0 rsf arr i E PE R Hi Hx. destruct (V i) as [V1 _]. destruct (V1 k _ _ E R) as (st & _ & X). by apply (X PE).
  - intros k path' pos rs r E PE IC R. destruct (V []) as [V1 _]. destruct (V1 k _ _ E R) as (st & _ & X).
    apply (X PE); [|done]. destruct CK as [CP _]. symmetry. by apply in_chunk_of.
  - intros AR. destruct (V []) as [_ V2]. destruct (V2 AR) as (_ & V3). exact V3.
Qed.
