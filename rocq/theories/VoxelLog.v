(** What region writes leave in a chunk that exists, when they do not overlap
    in time (C76). *)
From Verif Require Import BaseFacts PathFacts KeyFacts FSFacts Spec SpecMeta ChunkFacts BBoxFacts HierFacts.
From Verif Require Import CoordIterFacts NdFacts OpsFacts NdWrite.
From Verif Require Import Sys SysNd SpecShare SysFacts SysOps SysNdOps CrashFacts CrashOps ConcFacts ConcOps ConcChunk.
From Verif Require Import RegionPure ConcVoxel ConcLin ConcLog SpecKeep.
Local Open Scope Z_scope.

Section Lift.
  Context (p : fpath).
  Local Notation absent := (fun _ : fpath => False).
  Local Notation lfol ok := (follows (lpre p absent ok) (lnxt p absent)).
  Local Notation fol := (follows (pre p top True absent) (nxt p top True absent)).
  Local Notation nfol := (follows (npre p) (nnxt p)).

  Lemma l_mono {A} (ok ok' : list event -> event -> Prop) (F : sess * list event -> A -> Prop) (q : proc A) :
    (forall tr e, ok tr e -> ok' tr e) -> forall s, lfol ok F s q -> lfol ok' F s q.
  Proof.
    intros I. induction q as [x|T c k IH]; intros s L; cbn [follows] in *; [done|]. destruct L as [[L1 L2] L3]. split.
    - split; [done|]. destruct c; try done; destruct (fst s) as [|[] [] ?|[] ? ?]; try done; eauto.
    - intros x s' X. apply IH. by apply L3.
  Qed.
  (** Any content may be seen at any time. *)
  Definition may_put (put : list event -> bytes -> Prop) (tr : list event) (e : event) : Prop :=
    match e with Saw _ => True | Put w => put tr w end.
  Lemma l_lift {A} put (Fin : sess -> A -> Prop) (q : proc A) tr : nfol any None q -> fol Fin Free q ->
    lfol (may_put put) (fun s x => Fin (fst s) x /\ exists es, snd s = tr ++ es) (Free, tr) q.
  Proof.
    intros N F. eapply (l_mono saw_ok); [by intros ? ? [c ->]|].
    eapply follows_weaken; [by apply (lift_n p absent Fin q None Free tr)|]. intros s x (X & es & Y & _). split; [done|]. by exists es.
  Qed.

  Context (C : codec) (h : host) (H : hier) (sl : bytes -> list bytes).
  Lemma n_read_chunk_into rsf t path m pos old a : nfol any a (p_read_chunk_into H C h rsf t path m pos old).
  Proof. apply n_pres. intros _. apply n_try; [apply n_get|]. done. Qed.
  Lemma n_read_buf rsf t path m pos (buf : option chunk) a : nfol any a
    (match buf with
     | None => p_read_chunk H C h t path m pos (rsf pos)
     | Some old => p_read_chunk_into H C h rsf t path m pos old
     end).
  Proof. destruct buf; [apply n_read_chunk_into|apply n_read_chunk]. Qed.
  Lemma n_read_loop rsf t path m bb coords : forall st a, nfol any a (p_read_loop H C h rsf t path m bb coords st).
  Proof.
    induction coords as [|c r IH]; intros st a; cbn [p_read_loop]; [done|].
    apply n_try; [|intros st' a'; apply IH]. unfold p_read_step. apply n_try; [apply n_read_buf|done].
  Qed.
  Lemma n_region_read rsf t path m bb arr a : nfol any a (p_read_ndarray_into H C h rsf t path m bb arr).
  Proof.
    unfold p_read_ndarray_into. apply n_try; [|done]. unfold p_read_ndarray_into_with_buffer.
    destruct (_ || _); [done|]. destruct (negb _); [done|]. apply n_pres. intros coords. apply n_read_loop.
  Qed.
  Context (PB : plain (hy_base H)).
  Lemma n_put t path m ck a : plain path -> plain (am_sep m) -> pos_ok (ck_pos ck) ->
    loc (hy_base H) (get_chunk_key path m (ck_pos ck)) <> p -> nfol any a (p_put H C h sl t path m ck).
  Proof. intros. apply n_set; [done|by apply plain_chunk_key|done]. Qed.
  Lemma n_write_step rsf t path m arr bb fill buf pos a : plain path -> plain (am_sep m) -> pos_ok pos ->
    loc (hy_base H) (get_chunk_key path m pos) <> p -> nfol any a (p_write_step H C h rsf sl t path m arr bb fill buf pos).
  Proof.
    intros PP PS Q N. unfold p_write_step. cbv zeta. do 4 (apply n_pres; intros ?). destruct (bool_decide _).
    - apply n_try; [by apply n_put|done].
    - apply n_try; [apply n_read_chunk_into|]. intros o a'. apply n_pres. intros [[cb ca] mem].
      do 2 (apply n_pres; intros ?). apply n_try; [by apply n_put|done].
  Qed.
  Lemma n_write_loop rsf t path m arr bb fill coords : plain path -> plain (am_sep m) ->
    Forall (fun pos => pos_ok pos /\ loc (hy_base H) (get_chunk_key path m pos) <> p) coords ->
    forall buf a, nfol any a (p_write_loop H C h rsf sl t path m arr bb fill coords buf).
  Proof.
    intros PP PS. induction 1 as [|c r [Q N] F IH]; intros buf a; cbn [p_write_loop]; [done|].
    apply n_try; [by apply n_write_step|]. intros st' a'. apply IH.
  Qed.
End Lift.

Section OneVoxel.
  Context (flit : rty -> bytes -> Z) (C : codec) (h : host) (H : hier).
  Context (sl : bytes -> list bytes) (SL : forall b, concat (sl b) = b).
  Context (PB : plain (hy_base H)) (GX : good_suffix (ep_suffix (hy_ep H))).
  Context (t : rty) (path : bytes) (m : array_meta) (d : data_type) (fill : Z).
  Context (PP : plain path) (GS : good_sep (am_sep m)) (IO : iter_ok m) (CK : chunk_shape_ok m) (NE : am_shape m <> []).
  Context (LL : lossless C (am_comp m)) (TC : total_codec C (am_comp m)).
  Context (ED : effective m d) (KW : same_kind_width d t).
  Context (FE : effective_fill flit t m = Ok fill) (EF : elt_ok t fill).
  Context (x : list Z) (GV : grid_voxel m x).
  Local Notation pos := (chunk_of m x).
  Local Notation P := (loc (hy_base H) (get_chunk_key path m pos)).
  Local Notation absent := (fun _ : fpath => False).
  Local Notation lfol ok := (follows (lpre P absent ok) (lnxt P absent)).
  Local Notation fol := (follows (pre P top True absent) (nxt P top True absent)).
  Local Notation nfol := (follows (npre P) (nnxt P)).
  Local Notation CP := (proj1 CK).
  Local Notation dec c := (decode_chunk C h t m c pos).

  Lemma x_len : length x = length (am_chunk_shape m).
  Proof. by apply vx_len. Qed.
  Lemma x_pos_ok : pos_ok pos.
  Proof. by apply (vx_pos_ok sl SL path). Qed.
  Lemma x_element ck : full_chunk m (ck_data ck) -> element m ck x = Some (cell m ck x).
  Proof.
    intros F. destruct (voxel_split m x CP x_len) as [_ VI]. apply of_vec_at; [done|].
    unfold full_chunk in F. lia.
  Qed.
  Lemma x_same_file path' m' pos' : good_sep (am_sep m') -> pos_ok pos' ->
    loc (hy_base H) (get_chunk_key path' m' pos') = P -> pieces path' = pieces path /\ pos' = pos.
  Proof. by apply (same_file H sl SL path m GS IO CK x GV). Qed.
  (** What is written can be read back. *)
  Lemma put_decodes data : full_chunk m data -> Forall (elt_ok t) data ->
    encode_chunk C h t m (Chunk pos data) = (fst (encode_chunk C h t m (Chunk pos data)), Ok tt)
    /\ dec (fst (encode_chunk C h t m (Chunk pos data))) = Ok (Chunk pos data).
  Proof.
    intros FC FE'.
    assert (encode_chunk C h t m (Chunk pos data) = (fst (encode_chunk C h t m (Chunk pos data)), Ok tt)) as EE.
    { rewrite (encode_chunk_ok C h t m d data pos ED KW CK FC).
      pose proof (TC (write_calls (dtype_endian h d) t data)) as X.
      destruct (encode_with _ _ _) as [bs r]. cbn in *. by subst r. }
    split; [done|].
    assert (lenZ data < two64) as L64.
    { unfold full_chunk in FC. rewrite FC. destruct CK as [_ CK2]. unfold two32, two64 in *. lia. }
    by destruct (chunk_roundtrip_both C h t m data _ pos pos (Chunk pos []) LL FE' L64 FC EE) as [DE _].
  Qed.

  (** *** Reading chunks *)
  Definition seen_in (path' : bytes) (q : list Z) (tr : list event) (r : res (option chunk)) : Prop :=
    match r with
    | Ok (Some ck) => ck_pos ck = q /\ full_chunk m (ck_data ck) /\ Forall (elt_ok t) (ck_data ck) /\
        (q = pos -> pieces path' = pieces path -> exists c, dec c = Ok ck /\ Saw c ∈ tr)
    | Ok None => q = pos -> pieces path' <> pieces path
    | _ => True
    end.
  Lemma l_read_buf put rsf path' q (buf : option chunk) tr : plain path' -> pos_ok q ->
    lfol (may_put put) (fun s r => fst s = Free /\ (exists es, snd s = tr ++ es) /\ seen_in path' q (snd s) r) (Free, tr)
      (match buf with
       | None => p_read_chunk H C h t path' m q (rsf q)
       | Some old => p_read_chunk_into H C h rsf t path' m q old
       end).
  Proof.
    intros PP' Q. destruct (decide (loc (hy_base H) (get_chunk_key path' m q) = P)) as [E|N].
    - assert (plain (get_chunk_key path' m q)) as PK by (apply plain_chunk_key; [done|apply GS|done]).
      assert (GET : forall rs f, (forall c ck, f c = Ok ck -> decode_chunk C h t m c q = Ok ck) ->
        lfol (may_put put) (fun s r => fst s = Free /\ (exists es, snd s = tr ++ es) /\ seen_in path' q (snd s) r) (Free, tr)
          (ptry (p_get (hy_base H) (get_chunk_key path' m q) rs) (fun y =>
             Ret match y with None => Ok None | Some c => ck ← f c; Ok (Some ck) end))).
      { intros rs f FD. eapply follows_try; [apply (l_get P absent); done| |naive_solver|naive_solver].
        intros s y (c & -> & [= ->]). cbn [follows fst snd]. split; [done|]. split; [by eexists|].
        destruct (f c) as [ck|e|] eqn:D; cbn [mbind res_bind seen_in]; [|done..].
        apply FD in D. pose proof (decode_chunk_inv _ _ _ _ _ _ _ CK D) as (X1 & X2 & X3). split_and!; [done..|].
        intros -> _. exists c. split; [done|]. apply elem_of_app. right. by left. }
      destruct buf as [old|].
      + unfold p_read_chunk_into. destruct (in_bounds (h_prof h) m q) as [[]|e|]; cbn [mbind res_bind assert_ pres follows].
        * apply (GET (rsf q) (fun c => decode_chunk_into C h t m c q old)). intros c ck. by rewrite decode_into_eq.
        * split; [done|]. split; [|done]. exists []. by rewrite app_nil_r.
        * split; [done|]. split; [|done]. exists []. by rewrite app_nil_r.
        * split; [done|]. split; [|done]. exists []. by rewrite app_nil_r.
      + unfold p_read_chunk. destruct (in_bounds (h_prof h) m q) as [[]|e|]; cbn [mbind res_bind assert_ pres follows].
        * by apply (GET (rsf q) (fun c => decode_chunk C h t m c q)).
        * split; [done|]. split; [|done]. exists []. by rewrite app_nil_r.
        * split; [done|]. split; [|done]. exists []. by rewrite app_nil_r.
        * split; [done|]. split; [|done]. exists []. by rewrite app_nil_r.
    - eapply follows_weaken; [apply (l_lift P); [apply n_read_buf|apply fol_read_buf; [done|done|apply GS|done]]|].
      intros s r ((X1 & X2) & X3). split; [done|]. split; [done|]. destruct r as [[ck|]|e|]; cbn [seen_in got] in *; try done.
      + destruct X2 as (c & D & _). pose proof (decode_chunk_inv _ _ _ _ _ _ _ CK D) as (Y1 & Y2 & Y3). split_and!; [done..|].
        intros -> PE. destruct N. by apply loc_chunk_pieces.
      + intros -> PE. apply N. by apply loc_chunk_pieces.
  Qed.

  (** *** Regions of the array *)
  Section Region.
    Context (path' : bytes) (bb : bbox) (rsf : list Z -> list nat).
    Context (PE : pieces path' = pieces path) (PP' : plain path').
    Context (BO : bok m bb) (FM : fits_memory (bb_shape bb)).
    Let F1 : NdFacts.fits (bb_shape bb) := fits_of_prod _ (bok_shape_nonneg m bb BO) FM.

    Section Reading.
      Context (i : list Z) (Hi : index_of (bb_shape bb) i) (Hx : zip_with Z.add (bb_off bb) i = x).
      Definition shown (tr : list event) (v : Z) : Prop := exists c ck, Saw c ∈ tr /\ dec c = Ok ck /\ v = cell m ck x.

      Lemma shown_app tr es v : shown tr v -> shown (tr ++ es) v.
      Proof. intros (c & ck & X & Y). exists c, ck. split; [|done]. apply elem_of_app. by left. Qed.
      Lemma l_read_loop put coords : (forall q, q ∈ coords -> in_ranges (branges m bb) q) -> forall arr buf tr,
        nd_shape arr = bb_shape bb -> (shown tr (nd_at arr i) \/ pos ∈ coords) ->
        lfol (may_put put) (fun s r => fst s = Free /\ forall arr' buf', r = Ok (arr', buf') -> shown (snd s) (nd_at arr' i)) (Free, tr)
          (p_read_loop H C h rsf t path' m bb coords (arr, buf)).
      Proof.
        induction coords as [|q coords IH]; intros Hr arr buf tr SH V; cbn [p_read_loop].
        - cbn. split; [done|]. intros ? ? [= <- <-]. destruct V as [V|V]; [done|by apply elem_of_nil in V].
        - assert (in_ranges (branges m bb) q) as Hq by (apply Hr; left).
          eapply follows_try with (P := fun s r => fst s = Free /\ forall arr' buf', r = Ok (arr', buf') ->
            nd_shape arr' = bb_shape bb /\ (shown (snd s) (nd_at arr' i) \/ pos ∈ coords)); [| |naive_solver|naive_solver].
          + unfold p_read_step. cbn [snd].
            eapply follows_try; [apply l_read_buf; [done|by eapply region_pos]| |naive_solver|naive_solver].
            intros s ro (X1 & (es & ET) & G). cbn [follows]. split; [done|]. intros arr' buf' E.
            destruct (merge_cases h path' m bb rsf sl BO F1 CK arr buf q ro Hq SH) as (a1 & b1 & E1 & S1 & V1).
            { intros ck ->. cbn in G. by destruct G as (? & ? & _). }
            rewrite E1 in E. injection E as <- <-. split; [done|].
            specialize (V1 i (proj1 (inb_index _ _) Hi)). cbv zeta in V1. rewrite Hx in V1. rewrite V1. clear V1.
            assert (V' : pos <> q -> shown (snd s) (nd_at arr i) \/ pos ∈ coords).
            { intros N. destruct V as [V|V]; [left; rewrite ET; by apply shown_app|]. apply elem_of_cons in V as [V|V]; [done|by right]. }
            destruct ro as [ck|].
            * case_decide as Q; [|by apply V']. left. cbn in G. destruct G as (_ & _ & _ & G).
              destruct (G (eq_sym Q) PE) as (c & D & SC). by exists c, ck.
            * apply V'. intros <-. cbn in G. by apply G.
          + intros [st tr'] [arr1 buf1] (X1 & X2). cbn [fst snd] in *. subst st. destruct (X2 arr1 buf1 eq_refl) as (SH1 & V1).
            apply IH; [intros q' I; apply Hr; by right|done|done].
      Qed.
      Lemma l_read_region put arr tr : nd_shape arr = bb_shape bb ->
        lfol (may_put put) (fun s r => fst s = Free /\ forall arr', r = Ok arr' -> shown (snd s) (nd_at arr' i)) (Free, tr)
          (p_read_ndarray_into H C h rsf t path' m bb arr).
      Proof.
        intros SH. unfold p_read_ndarray_into.
        eapply follows_try with (P := fun s r => fst s = Free /\ forall arr' buf', r = Ok (arr', buf') -> shown (snd s) (nd_at arr' i));
          [| |naive_solver|naive_solver].
        - unfold p_read_ndarray_into_with_buffer.
          destruct (_ || _); [done|]. destruct (negb _); [done|].
          rewrite (bounded_coords_eq (h_prof h) m bb BO).
          destruct (mbind _ _) as [coords|e|] eqn:E; cbn [pres]; [|done..].
          apply bind_ok_inv in E as (n & _ & [= <-]).
          apply l_read_loop; [apply visited_ranges|done|]. right.
          apply NdFacts.visited; [done|done| |done]. rewrite <- Hx. apply in_box_shift; [|done].
          destruct (bok_length m bb BO) as (_ & E1 & E2). congruence.
        - intros s [arr' buf'] (X1 & X2). cbn. split; [done|]. intros ? [= <-]. by eapply X2.
      Qed.
    End Reading.

    Context (arr : nd) (SH : nd_shape arr = bb_shape bb).
    Context (EA : forall i, index_of (bb_shape bb) i -> elt_ok t (nd_at arr i)).
    Definition region_put (tr : list event) (w : bytes) : Prop :=
      in_ranges (branges m bb) pos /\ exists ck, dec w = Ok ck /\
      (in_box (bb_off bb) (bb_shape bb) x /\ cell m ck x = nd_at arr (zip_with Z.sub x (bb_off bb))
       \/ ~ in_box (bb_off bb) (bb_shape bb) x /\ exists c ck0, Saw c ∈ tr /\ dec c = Ok ck0 /\ cell m ck x = cell m ck0 x).

    Lemma l_put data tr : full_chunk m data -> Forall (elt_ok t) data ->
      region_put tr (fst (encode_chunk C h t m (Chunk pos data))) ->
      lfol (may_put region_put) (fun s r => fst s = Free /\ (exists w, Put w ∈ snd s) /\ exists es, snd s = tr ++ es) (Free, tr)
        (p_put H C h sl t path' m (Chunk pos data)).
    Proof.
      intros FC FE' RP. unfold p_put, p_write_chunk. cbn [ck_pos].
      assert (plain (get_chunk_key path' m pos)) as PK by (apply plain_chunk_key; [done|apply GS|apply x_pos_ok]).
      eapply follows_weaken.
      - apply (l_set P (P_ne H path m pos) absent); [|done|done|by apply loc_chunk_pieces|tauto].
        cbn [may_put]. by rewrite SL.
      - intros s r [-> _]. cbn [fst snd]. split; [done|]. split; [|by eexists]. eexists. apply elem_of_app. right. by left.
    Qed.
    Lemma l_write_step buf q tr : in_ranges (branges m bb) q ->
      lfol (may_put region_put) (fun s r => fst s = Free /\ (exists es, snd s = tr ++ es) /\ forall b, r = Ok b -> q = pos -> exists w, Put w ∈ snd s)
        (Free, tr) (p_write_step H C h rsf sl t path' m arr bb fill buf q).
    Proof.
      intros Hr. pose proof (region_pos m bb BO q Hr) as Q. destruct (decide (q = pos)) as [->|N].
      2:{ assert (loc (hy_base H) (get_chunk_key path' m q) <> P) as NP.
          { intros E. by apply x_same_file in E as [_ E]. }
          eapply follows_weaken.
          - apply (l_lift P); [apply n_write_step; [done|done|apply GS|done|done]|apply free_write_step; [done|done|apply GS|done|done]].
          - intros s r (X1 & X2). by split_and!. }
      destruct (dims_of m bb pos BO F1 (NdFacts.chunk_fits m CK) Hr) as (D & OKD & E1 & E2 & E3 & E4).
      assert (bb = BBox (map d_o D) (map d_e D)) as BE by (destruct bb; cbn in *; congruence).
      pose proof SH as SH'. rewrite E3 in SH'. assert (EA' : forall i, index_of (map d_e D) i -> elt_ok t (nd_at arr i)) by (rewrite <- E3; done).
      assert (PUT : forall ro data tr, (forall ck, ro = Some ck -> full_chunk m (ck_data ck) /\ Forall (elt_ok t) (ck_data ck)) ->
        (w_covers D = false -> exists c ck0, Saw c ∈ tr /\ dec c = Ok ck0 /\ fresh m fill ro x = cell m ck0 x) ->
        (w_covers D = true /\ data = flatten (am_order m) (w_view D arr)) \/
          (w_covers D = false /\ data = flatten (am_order m) (w_merged m D arr fill ro)) ->
        lfol (may_put region_put) (fun s r => fst s = Free /\ (exists w, Put w ∈ snd s) /\ exists es, snd s = tr ++ es) (Free, tr)
          (p_put H C h sl t path' m (Chunk pos data))).
      { intros ro data tr0 Ho PF HD.
        destruct (put_data t path' m rsf sl D OKD E1 CK arr fill SH' EF EA' ro data Ho HD) as (FC & FE' & CV).
        rewrite <- E4 in CV. apply l_put; [done|done|]. split; [done|]. destruct (put_decodes data FC FE') as [_ DE].
        exists (Chunk pos data). split; [done|]. rewrite E2, E3.
        destruct (CV x x_len eq_refl) as [(IB & EC)|(HC & NB & EC)]; [left; done|]. right. split; [done|].
        destruct (PF HC) as (c & ck0 & Y1 & Y2 & Y3). exists c, ck0. split_and!; [done..|]. by rewrite EC. }
      rewrite BE.
      destruct (w_covers D) eqn:HC.
      - pose proof (p_write_step_covers C h H t path' m rsf sl D OKD E1 arr fill SH' buf HC) as X.
        rewrite <- E4 in X. rewrite X. eapply follows_try; [apply (PUT None); [done|done|by left]| |naive_solver|naive_solver].
        intros s [] (X1 & X2 & X3). cbn [follows]. by split_and!.
      - destruct (p_write_step_merges C h H t path' m rsf sl D OKD E1 CK arr fill SH' buf HC) as (k & KX & KE).
        rewrite <- E4 in KX, KE. rewrite KX.
        eapply follows_try; [apply (l_read_buf _ rsf path' pos (Some (Chunk pos buf)) tr PP' Q)| |naive_solver|naive_solver].
        intros [st tr1] ro (X1 & (es & X2) & G). cbn [fst snd] in *. subst st tr1. rewrite KE.
        2:{ intros ck ->. cbn in G. tauto. }
        eapply follows_try; [apply (PUT ro); [| |by right]| | |].
        + intros ck ->. cbn in G. tauto.
        + intros _. destruct ro as [ck|]; cbn in G |- *; [|by destruct G].
          destruct G as (_ & _ & _ & G). destruct (G eq_refl PE) as (c & Y1 & Y2). by exists c, ck.
        + intros s [] (X1 & X2 & es' & X3). cbn [follows]. rewrite X3, <- app_assoc in *. split_and!; [done|by eexists|done].
        + intros s e (X1 & X2 & es' & X3). rewrite X3, <- app_assoc in *. split_and!; [done|by eexists|done].
        + intros s (X1 & X2 & es' & X3). rewrite X3, <- app_assoc in *. split_and!; [done|by eexists|done].
    Qed.
    Lemma l_write_loop coords : (forall q, q ∈ coords -> in_ranges (branges m bb) q) -> forall buf tr,
      lfol (may_put region_put) (fun s r => fst s = Free /\ (exists es, snd s = tr ++ es) /\
          forall b, r = Ok b -> pos ∈ coords -> exists w, Put w ∈ snd s)
        (Free, tr) (p_write_loop H C h rsf sl t path' m arr bb fill coords buf).
    Proof.
      induction coords as [|q coords IH]; intros Hr buf tr; cbn [p_write_loop].
      - cbn. split; [done|]. split; [exists []; by rewrite app_nil_r|]. intros b _ X. by apply elem_of_nil in X.
      - eapply follows_try; [apply l_write_step, Hr; left| | |].
        + intros [st tr1] buf' (X1 & (es & X2) & X3). cbn [fst snd] in *. subst st tr1.
          eapply follows_weaken; [apply IH; intros q' I; apply Hr; by right|].
          intros s r (Y1 & (es' & Y2) & Y3). split; [done|]. split; [exists (es ++ es'); by rewrite Y2, app_assoc|].
          intros b E I. apply elem_of_cons in I as [I|I]; [|by eapply Y3]. destruct (X3 _ eq_refl (eq_sym I)) as [w W].
          exists w. rewrite Y2. apply elem_of_app. by left.
        + intros s e (X1 & X2 & _). by split_and!.
        + intros s (X1 & X2 & _). by split_and!.
    Qed.
  End Region.

  (** *** Calls *)
  Context (calls : list rcall) (OK : Forall rcall_ok calls) (AG : Forall (agrees C h t path m) calls).
  Context (ND : forall c, c ∈ calls -> ~ takes_away path pos c).
  Definition kput (c : rcall) (tr : list event) (w : bytes) : Prop :=
    match c with
    | RCall (KWriteChunk _ path' _ ck _) => pieces path' = pieces path /\ ck_pos ck = pos /\ dec w = Ok ck
    | RWrite _ path' _ off arr _ => pieces path' = pieces path /\ region_put (BBox off (nd_shape arr)) arr tr w
    | _ => False
    end.
  Context (i : list Z).
  Definition kfin (c : rcall) (s : sess * list event) (a : rreply) : Prop :=
    fst s = Free /\
    match c with
    | RCall (KReadChunk _ path' _ pos' _) => pieces path' = pieces path -> pos' = pos ->
        forall r, a = YReply (YChunk (Ok r)) -> exists ck v, r = Some ck /\ element m ck x = Some v /\ shown (snd s) v
    | RRead _ path' _ bb _ | RReadInto _ path' _ bb _ _ => pieces path' = pieces path -> forall arr, a = YRegion (Ok arr) ->
        index_of (bb_shape bb) i -> zip_with Z.add (bb_off bb) i = x -> shown (snd s) (nd_at arr i)
    | RCall (KWriteChunk _ path' _ ck _) => pieces path' = pieces path -> ck_pos ck = pos -> exists w, Put w ∈ snd s
    | RWrite _ path' _ off arr _ => pieces path' = pieces path -> in_box off (nd_shape arr) x -> a = written_ok ->
        exists w, Put w ∈ snd s
    | _ => True
    end.
  Lemma l_map {A D : Type} ok (Q : sess * list event -> D -> Prop) (f : A -> D) q s :
    lfol ok (fun s a => Q s (f a)) s q -> lfol ok Q s (pbind q (fun a => Ret (f a))).
  Proof. intros F. eapply follows_bind; [exact F|]. by intros st a X. Qed.
  Lemma k_other c q : (forall s a, fst s = Free -> kfin c s a) -> nfol any None q -> fol free Free q ->
    lfol (may_put (kput c)) (kfin c) (Free, []) q.
  Proof.
    intros I N F. eapply follows_weaken; [by apply (l_lift P)|]. intros s a [X _]. by apply I.
  Qed.
  Lemma f_map {A D : Type} (f : A -> D) q : fol free Free q -> fol free Free (pbind q (fun a => Ret (f a))).
  Proof. intros F. eapply follows_bind; [exact F|]. by intros st a ->. Qed.
  Lemma f_region_read t' path' m' bb rsf arr : region_ok path' m' bb ->
    fol free Free (p_read_ndarray_into H C h rsf t' path' m' bb arr).
  Proof.
    intros (P1 & G1 & B1 & _). unfold p_read_ndarray_into. apply free_try; [|done]. unfold p_read_ndarray_into_with_buffer.
    destruct (_ || _); [done|]. destruct (negb _); [done|].
    rewrite (bounded_coords_eq (h_prof h) m' bb B1).
    destruct (mbind _ _) as [coords|e|] eqn:E; cbn [pres]; [|done..].
    apply bind_ok_inv in E as (n & _ & [= <-]). apply free_read_loop; [done|done|apply G1|].
    apply list.Forall_forall. intros q I. eapply ranges_pos; [exact B1|]. by apply visited_ranges.
  Qed.

  Lemma rcall_logs c : c ∈ calls -> lfol (may_put (kput c)) (kfin c) (Free, []) (p_rcall flit C h H sl c).
  Proof.
    intros IN. assert (rcall_ok c) as K by (rewrite list.Forall_forall in OK; by apply OK).
    assert (agrees C h t path m c) as A by (rewrite list.Forall_forall in AG; by apply AG).
    assert (OM : forall e path', is_node_ext e -> plain path' -> loc (hy_base H) (metadata_key e (ep_suffix (hy_ep H)) path') <> P).
    { intros e path' IE P'. by apply other_meta. }
    destruct c as [c|t' path' m' bb rsf|t' path' m' bb arr rsf|t' path' m' off arr rsf].
    - destruct c as [| | | | |t' path' m' pos' rs|t' path' m' ck ws|path' m' pos'|path' ord fuel|path' ord]; cbn in K, A; cbn [p_rcall p_call].
      + apply k_other; [by split|by apply n_reply, n_reply, n_get_array_metadata|]. by apply f_map, free_reply, free_get_array_metadata.
      + apply k_other; [by split|by apply n_reply, n_reply, n_list_attributes|]. by apply f_map, free_reply, free_list_attributes.
      + apply k_other; [by split|apply n_reply, n_reply, n_set_attributes; try done; apply OM; try done; [by left|by right]|].
        apply f_map, free_reply, free_set_attributes; try done; apply other_meta; try done; [by left|by right].
      + apply k_other; [by split|apply n_reply, n_reply, n_create_group; try done; apply OM; try done; by right|].
        apply f_map, free_reply, free_create_group; try done. apply other_meta; try done. by right.
      + apply k_other; [by split|apply n_reply, n_reply, n_create_array; try done; apply OM; try done; by left|].
        apply f_map, free_reply, free_create_array; try done. apply other_meta; try done. by left.
      + destruct K as (K1 & K2 & K3). destruct (decide (pieces path' = pieces path)) as [E|E].
        2:{ apply k_other; [by split|by apply n_reply, n_reply, n_read_chunk|].
            apply f_map, free_reply, free_read_chunk; [done|done|apply K2|done]. }
        destruct (A E) as [-> ->]. unfold map_reply. do 2 apply l_map.
        eapply follows_weaken; [apply (l_read_buf _ (fun _ => rs) path' pos' None []); done|].
        intros s r0 (X1 & _ & G). split; [done|]. intros _ -> r [= ->]. destruct r as [ck|]; cbn in G; [|by destruct G].
        destruct G as (_ & FC & _ & G). destruct (G eq_refl E) as (c & DE & SC). exists ck, (cell m ck x). split_and!; [done| |].
        * by apply x_element.
        * by exists c, ck.
      + destruct K as (K1 & K2 & K3). destruct (decide (pieces path' = pieces path /\ ck_pos ck = pos)) as [[E1 E2]|N].
        * destruct (A E1) as (-> & -> & FC & FE' & EN). destruct ck as [q data]. cbn in E2, EN, FC, FE'. subst q.
          unfold map_reply. do 2 apply l_map. unfold p_write_chunk. cbn [ck_pos].
          destruct (put_decodes data FC FE') as [_ DE].
          eapply follows_weaken.
          -- apply (l_set P (P_ne H path m pos) absent); [|done| |by apply loc_chunk_pieces|tauto].
             ++ cbn [may_put kput]. rewrite EN. done.
             ++ apply plain_chunk_key; [done|apply K2|done].
          -- intros s r [-> _]. split; [done|]. intros _ _. eexists. by left.
        * apply k_other; [|apply n_reply, n_reply, n_set; [done|apply plain_chunk_key; [done|apply K2|done]|]|].
          -- intros s a E. split; [done|]. intros E1 E2. destruct N. done.
          -- intros E. apply N. by apply x_same_file in E.
          -- apply f_map, free_reply, free_write_chunk; [done|done|apply K2|done|]. split; [|tauto].
             intros E. apply N. by apply x_same_file in E.
      + destruct K as (K1 & K2 & K3).
        assert (loc (hy_base H) (get_chunk_key path' m' pos') <> P) as N.
        { intros E. apply x_same_file in E as [E1 E2]; [|done..]. by apply (ND _ IN). }
        apply k_other; [by split|apply n_reply, n_reply, n_erase; [done|apply plain_chunk_key; [done|apply K2|done]|done]|].
        by apply f_map, free_reply, free_delete_chunk; [done|done|apply K2|done|].
      + destruct K as (K1 & K2).
        assert (~ (pieces (hy_base H) ++ B "data" :: B "root" :: pieces path') `prefix_of` P) as NP.
        { intros X. apply below_chunk in X; [|done|done|apply x_pos_ok]. by apply (ND _ IN). }
        apply k_other; [by split|apply n_reply, n_reply, n_remove; try done; apply OM; try done; [by right|by left]|].
        apply f_map, free_reply, free_remove; [done..|]. intros _. split_and!; [apply other_meta; try done; by right|apply other_meta; try done; by left|done].
      + apply k_other; [by split|apply n_reply, n_reply, n_list_nodes|]. apply f_map, free_reply, free_list_nodes.
    - cbn in K, A. cbn [p_rcall].
      assert (OTH : (pieces path' = pieces path -> index_of (bb_shape bb) i -> zip_with Z.add (bb_off bb) i = x -> False) ->
        lfol (may_put (kput (RRead t' path' m' bb rsf))) (kfin (RRead t' path' m' bb rsf)) (Free, [])
          (pbind (p_read_ndarray H C h rsf flit t' path' m' bb) (fun r => Ret (YRegion r)))).
      { intros N. apply k_other; [intros s a E; split; [done|]; intros E1 ? _ E2 E3; by destruct N| |].
        - apply n_reply. unfold p_read_ndarray. do 2 (apply n_pres; intros ?). apply n_region_read.
        - apply f_map. unfold p_read_ndarray. do 2 (apply free_pres; intros ?). by apply f_region_read. }
      destruct (decide (pieces path' = pieces path)) as [PE|PE]; [|by apply OTH].
      destruct (index_dec x i (bb_shape bb) (bb_off bb)) as [[Hi Hx]|N]; [|by apply OTH; tauto]. clear OTH.
      destruct (A PE) as (-> & -> & FM). destruct K as (K1 & K2 & K3 & K4). apply l_map. unfold p_read_ndarray. rewrite FE. cbn [pres].
      destruct (from_elem _ _) as [arr0|e|] eqn:EE; cbn [pres]; [|done..].
      apply from_elem_inv in EE as [-> _]; [|exact (bok_shape_nonneg m bb K3)].
      eapply follows_weaken; [apply (l_read_region path' bb rsf PE K1 K3 FM i Hi Hx); done|].
      intros s r (X1 & X2). split; [done|]. intros _ arr [= ->] _ _. by apply X2.
    - cbn in K, A. cbn [p_rcall].
      assert (OTH : (pieces path' = pieces path -> index_of (bb_shape bb) i -> zip_with Z.add (bb_off bb) i = x -> False) ->
        lfol (may_put (kput (RReadInto t' path' m' bb arr rsf))) (kfin (RReadInto t' path' m' bb arr rsf)) (Free, [])
          (pbind (p_read_ndarray_into H C h rsf t' path' m' bb arr) (fun r => Ret (YRegion r)))).
      { intros N. apply k_other; [intros s a E; split; [done|]; intros E1 ? _ E2 E3; by destruct N| |].
        - apply n_reply. apply n_region_read.
        - apply f_map. by apply f_region_read. }
      destruct (decide (pieces path' = pieces path)) as [PE|PE]; [|by apply OTH].
      destruct (index_dec x i (bb_shape bb) (bb_off bb)) as [[Hi Hx]|N]; [|by apply OTH; tauto]. clear OTH.
      destruct (A PE) as (-> & -> & FM). destruct K as (K1 & K2 & K3 & K4). apply l_map.
      destruct (decide (bb_shape bb = nd_shape arr)) as [SH|SH].
      2:{ unfold p_read_ndarray_into, p_read_ndarray_into_with_buffer.
          destruct (_ || _); [done|]. rewrite bool_decide_eq_false_2 by done. done. }
      eapply follows_weaken; [apply (l_read_region path' bb rsf PE K1 K3 FM i Hi Hx); done|].
      intros s r (X1 & X2). split; [done|]. intros _ arr' [= ->] _ _. by apply X2.
    - cbn in K, A. cbn [p_rcall]. destruct (decide (pieces path' = pieces path)) as [PE|PE].
      2:{ destruct K as (K1 & K2 & K3 & _).
          assert (FA : Forall (fun q => pos_ok q /\ loc (hy_base H) (get_chunk_key path' m' q) <> P) (product_items (branges m' (BBox off (nd_shape arr))))).
          { apply list.Forall_forall. intros q I.
            assert (pos_ok q) as Q by (eapply ranges_pos; [exact K3|]; by apply visited_ranges).
            split; [done|]. intros E. by apply x_same_file in E as [E _]. }
          apply k_other; [by split| |].
          - apply n_reply. unfold p_write_ndarray. destruct (negb _); [done|]. cbv zeta. apply n_pres. intros f.
            rewrite (bounded_coords_eq (h_prof h) m' _ K3).
            destruct (mbind _ _) as [coords|e|] eqn:E; cbn [pres]; [|done..].
            apply bind_ok_inv in E as (n & _ & [= <-]). apply n_write_loop; [done|done|apply K2|done].
          - apply f_map. unfold p_write_ndarray. destruct (negb _); [done|]. cbv zeta. apply free_pres. intros f.
            rewrite (bounded_coords_eq (h_prof h) m' _ K3).
            destruct (mbind _ _) as [coords|e|] eqn:E; cbn [pres]; [|done..].
            apply bind_ok_inv in E as (n & _ & [= <-]). apply free_write_loop; [done|done|apply K2|done]. }
      destruct (A PE) as (-> & -> & FM & EA). destruct K as (K1 & K2 & K3 & K4). apply l_map. unfold p_write_ndarray.
      destruct (negb _); [cbn; by split_and!|]. cbv zeta. rewrite FE. cbn [pres].
      rewrite (bounded_coords_eq (h_prof h) m _ K3).
      destruct (mbind _ _) as [coords|e|] eqn:E; cbn [pres]; [|cbn; by split_and!..].
      apply bind_ok_inv in E as (n & _ & [= <-]).
      eapply follows_weaken.
      + apply (l_mono P (may_put (region_put (BBox off (nd_shape arr)) arr))).
        { intros tr [c|w]; cbn [may_put kput]; [done|]. by split. }
        apply (l_write_loop path' (BBox off (nd_shape arr)) rsf PE K1 K3 FM arr eq_refl EA). apply visited_ranges.
      + intros s r (X1 & _ & X3). split; [done|]. intros _ IB [= ->]. apply (X3 tt eq_refl).
        by apply NdFacts.visited.
  Qed.
End OneVoxel.
