(** Region writes that stop in the middle. *)
From Verif Require Import BaseFacts PathFacts FSFacts KeyFacts HierFacts StoreFacts ChunkFacts CoordIterFacts
  NdFacts NdWrite RefFacts OpsFacts Spec SpecHier.
From Verif Require Import Sys SysNd SpecSys SysFacts SysOps SysNdOps CrashFacts CrashOps CrashMeta.
Local Open Scope Z_scope.

(** Of a write that turns [s] into [s1] by changing the file [p], only a part
    has happened. *)
Definition cut_write (s s1 s' : fs) (p : fpath) : Prop :=
  wf_fs s' /\ same_except s s' p /\ dirs_kept s s' /\
  (file_at s' p = file_at s p \/ exists n c, file_at s1 p = Some c /\ file_at s' p = Some (take n c)).
Lemma cut_write_same s s1 p : wf_fs s -> cut_write s s1 s p.
Proof. intros W. split_and!; [done|by intros q _|by intros q|by left]. Qed.

Section Region.
  Context (H : hier) (C : codec) (h : host) (t : rty) (path : bytes) (m : array_meta).
  Context (rsf : list Z -> list nat) (sl : bytes -> list bytes) (SL : forall b, concat (sl b) = b).
  Context (PB : plain (hy_base H)) (PP : plain path) (GS : good_sep (am_sep m)).
  Notation at_ pos := (loc (hy_base H) (get_chunk_key path m pos)).
  Let PS : plain (am_sep m) := proj2 (proj2 (proj2 GS)).

  Lemma put_stops ck o o' : idle o -> wf_fs (view o) -> pos_ok (ck_pos ck) ->
    stops o (p_put H C h sl t path m ck) o' ->
    os_ok o' /\ cut_write (view o) (fst (write_chunk C h H (view o) t path m ck)) (view o') (at_ (ck_pos ck)).
  Proof.
    intros I W Q S. unfold p_put in S. destruct ck as [pos data]. cbn [ck_pos] in *.
    destruct (write_stops C h H t path m pos data _ PB PP PS Q o o' I W S) as [K' CS].
    split; [done|]. pose proof CS as (W' & SE & D & F). split_and!; [done|done|done|].
    destruct (decide (file_at (view o') (at_ pos) = file_at (view o) (at_ pos))) as [E|N]; [by left|].
    pose proof (cut_can_hold _ _ _ _ W CS N) as CH.
    destruct F as [F|[n F]]; [by left|right].
    destruct (write_chunk C h H (view o) t path m (Chunk pos data)) as [s1 r] eqn:E.
    destruct (write_chunk_effect C h H (view o) t path m (Chunk pos data) s1 r W PB PP PS Q E)
      as (_ & _ & _ & [(_ & E1 & _)|(N1 & _)]); [|by destruct N1].
    exists n, (fst (encode_chunk C h t m (Chunk pos data))). split; [exact E1|]. by rewrite F, SL.
  Qed.

  Lemma read_into_calls pos old : calls reading (p_read_chunk_into H C h rsf t path m pos old).
  Proof.
    unfold p_read_chunk_into. destruct (_ ≫= _) as [[]|e|]; cbn [pres]; try done.
    apply try_calls; [apply get_calls|]. done.
  Qed.
  Lemma reads_read_into pos old o : idle o ->
    reads o (p_read_chunk_into H C h rsf t path m pos old) (read_chunk_into C h H (view o) t path m pos old).
  Proof.
    intros I. unfold p_read_chunk_into, read_chunk_into.
    destruct (in_bounds (h_prof h) m pos) as [b|e|]; cbn [mbind res_bind]; [|by exists o..].
    destruct (assert_ b) as [[]|e|]; cbn [pres mbind res_bind]; [|by exists o..].
    eapply reads_try; [by apply run_get|]. intros o1 x I1 V1 _. by apply reads_ret.
  Qed.

  Lemma step_stops arr bb fill buf c o o' : idle o -> wf_fs (view o) -> pos_ok c ->
    stops o (p_write_step H C h rsf sl t path m arr bb fill buf c) o' ->
    os_ok o' /\ cut_write (view o) (fst (write_step C h H t path m arr bb fill (view o) buf c)) (view o') (at_ c).
  Proof.
    intros I W Q S. pose proof I as (K & _). unfold p_write_step in S. unfold write_step. cbv zeta in *.
    assert (HERE : forall o1 s1, os_ok o1 /\ view o1 = view o -> os_ok o1 /\ cut_write (view o) s1 (view o1) (at_ c)).
    { intros o1 s1 [K1 ->]. split; [done|]. by apply cut_write_same. }
    apply stops_pres in S as [S|(nom & E1 & S)]; [by apply HERE| |done]. rewrite E1. cbn [on].
    apply stops_pres in S as [S|(wb & E2 & S)]; [by apply HERE| |done]. rewrite E2. cbn [on].
    apply stops_pres in S as [S|(ab & E3 & S)]; [by apply HERE| |done]. rewrite E3. cbn [on].
    apply stops_pres in S as [S|(vw & E4 & S)]; [by apply HERE| |done]. rewrite E4. cbn [on].
    assert (PUT : forall o1 ck (f : unit -> proc (res (list Z))) (g : fs -> unit -> fs * res (list Z)),
      ck_pos ck = c -> (forall u, exists r, f u = Ret r) -> (forall s1 u, fst (g s1 u) = s1) ->
      idle o1 -> view o1 = view o ->
      stops o1 (ptry (p_put H C h sl t path m ck) f) o' ->
      os_ok o' /\ cut_write (view o) (fst (andthen (write_chunk C h H (view o) t path m ck) g)) (view o') (at_ c)).
    { intros o1 ck f g EC Hf Hg I1 V1 S1.
      assert (fst (andthen (write_chunk C h H (view o) t path m ck) g)
              = fst (write_chunk C h H (view o) t path m ck)) as ->.
      { destruct (write_chunk C h H (view o) t path m ck) as [s1 [u|e|]]; cbn [andthen]; [apply Hg|done..]. }
      rewrite <- V1, <- EC. apply put_stops; [done|by rewrite V1|by rewrite EC|].
      apply stops_bind in S1 as [S1|(o2 & a & E & S1)]; [done|].
      assert (o' = o2) as ->.
      { destruct a as [u|e|]; [destruct (Hf u) as [r Hr]; rewrite Hr in S1|..]; by apply stops_ret in S1. }
      by eapply stops_run. }
    destruct (bool_decide _).
    - eapply (PUT o); try done; by eexists.
    - eapply stops_reads in S as [S|(o1 & x & E5 & I1 & V1 & S)];
        [by apply HERE| |done|apply read_into_calls|by apply reads_read_into].
      rewrite E5. cbn [on].
      assert (HERE' : forall o2 s1, os_ok o2 /\ view o2 = view o1 -> os_ok o2 /\ cut_write (view o) s1 (view o2) (at_ c)).
      { intros o2 s1 [K2 ->]. split; [done|]. rewrite V1. by apply cut_write_same. }
      pose proof I1 as (K1 & _).
      apply stops_pres in S as [S|([[cb ca] mem] & E6 & S)]; [by apply HERE'| |done]. rewrite E6. cbn [on].
      apply stops_pres in S as [S|(cwb & E7 & S)]; [by apply HERE'| |done]. rewrite E7. cbn [on].
      apply stops_pres in S as [S|(ca' & E8 & S)]; [by apply HERE'| |done]. rewrite E8. cbn [on].
      eapply (PUT o1); try done; by eexists.
  Qed.

  (** What a stop leaves of the chunks of a loop. *)
  Lemma loop_stops arr bb fill coords : NoDup coords -> Forall pos_ok coords -> forall buf o o',
    calm o -> wf_fs (view o) ->
    stops o (p_write_loop H C h rsf sl t path m arr bb fill coords buf) o' ->
    let sf := fst (write_loop C h H t path m arr bb fill coords (view o) buf) in
    os_ok o' /\ wf_fs (view o') /\ dirs_kept (view o) (view o')
    /\ (forall q, (forall pos, pos ∈ coords -> q <> at_ pos) -> file_at (view o') q = file_at (view o) q)
    /\ exists torn, forall pos, pos ∈ coords ->
       file_at (view o') (at_ pos) = file_at (view o) (at_ pos)
       \/ file_at (view o') (at_ pos) = file_at sf (at_ pos)
       \/ (pos = torn /\ exists n c, file_at sf (at_ pos) = Some c /\ file_at (view o') (at_ pos) = Some (take n c)).
  Proof.
    induction coords as [|c r IH]; intros ND PO buf o o' K W S; cbn [p_write_loop write_loop] in *.
    { apply stops_ret in S as ->. destruct K as [(K & _) _]. cbv zeta. split_and!; [done|done|by intros q|done|]. exists (@nil Z). intros pos Q.
      by apply elem_of_nil in Q. }
    apply list.Forall_cons in PO as [PO1 PO2]. apply list.NoDup_cons in ND as [ND1 ND2].
    assert (DIST : forall pos, pos ∈ r -> at_ pos <> at_ c).
    { intros pos Hp E. apply loc_chunk_inj in E as [_ E]; try done; [by subst|].
      rewrite list.Forall_forall in PO2. by apply PO2. }
    destruct (does_write_step H C h rsf sl SL t path m arr bb fill buf c o K) as (o1 & R1 & V1 & K1).
    assert (FC : file_at (fst (andthen (write_step C h H t path m arr bb fill (view o) buf c)
        (fun s1 buf' => write_loop C h H t path m arr bb fill r s1 buf'))) (at_ c)
      = file_at (view o1) (at_ c)).
    { destruct (write_step C h H t path m arr bb fill (view o) buf c) as [s1 [b1|e|]] eqn:E1; cbn [andthen fst snd] in *;
        [|by rewrite V1..].
      rewrite V1. apply stops_run in R1. apply step_stops in R1 as [_ (W1 & _)]; [|apply K|done|done].
      rewrite V1 in W1.
      destruct (write_loop C h H t path m arr bb fill r s1 b1) as [s2 r2] eqn:E2.
      destruct (write_loop_frame C h H t path m arr bb fill r PB PP PS PO2 s1 b1 s2 r2 W1 E2) as (_ & _ & FR).
      apply FR. intros pos Hp E. by apply (DIST pos Hp). }
    apply stops_bind in S as [S|(o2 & a & E & S)].
    - apply step_stops in S as [K' (W' & SE & D & F)]; [|apply K|done|done].
      split_and!; [done|done|done| |].
      + intros q Hq. apply SE. apply Hq. left.
      + exists c. intros pos [->|Hp]%elem_of_cons.
        * destruct F as [F|(n & x & F1 & F)]; [by left|right; right]. split; [done|].
          exists n, x. split; [|done]. rewrite FC, V1. done.
        * left. apply SE. by apply DIST.
    - rewrite R1 in E. injection E as <- <-.
      assert (ST : os_ok o1 /\ cut_write (view o) (fst (write_step C h H t path m arr bb fill (view o) buf c)) (view o1) (at_ c)).
      { eapply step_stops; [apply K|done|done|]. by eapply stops_run. }
      destruct ST as [KO1 (W1 & SE1 & D1 & _)].
      destruct (write_step C h H t path m arr bb fill (view o) buf c) as [s1 [b1|e|]] eqn:E1; cbn [andthen fst snd] in *.
      + destruct (IH ND2 PO2 b1 o1 o' K1 W1 S) as (K' & W' & D' & FR' & torn & T). rewrite V1 in *.
        split_and!; [done|done| | |].
        * intros q Hq. by apply D', D1.
        * intros q Hq. rewrite FR'; [apply SE1, Hq; left|]. intros pos Hp. apply Hq. by right.
        * exists torn. intros pos [->|Hp]%elem_of_cons.
          -- right; left. rewrite FC. apply FR'. intros pos Hp E. by apply (DIST pos Hp).
          -- rewrite <- (SE1 (at_ pos)) by by apply DIST. by apply T.
      + apply stops_ret in S as ->. split_and!; [done|done|done| |].
        * intros q Hq. apply SE1, Hq. left.
        * exists c. intros pos [->|Hp]%elem_of_cons; [right; left; by rewrite FC|left]. by apply SE1, DIST.
      + apply stops_ret in S as ->. split_and!; [done|done|done| |].
        * intros q Hq. apply SE1, Hq. left.
        * exists c. intros pos [->|Hp]%elem_of_cons; [right; left; by rewrite FC|left]. by apply SE1, DIST.
  Qed.
End Region.

(** ** A whole region write *)

Section Whole.
  Context (flit : rty -> bytes -> Z) (H : hier) (C : codec) (h : host) (t : rty) (path : bytes) (m : array_meta).
  Context (rsf : list Z -> list nat) (sl : bytes -> list bytes) (SL : forall b, concat (sl b) = b).
  Context (off : list Z) (arr : nd).
  Context (PB : plain (hy_base H)) (PP : plain path) (GS : good_sep (am_sep m)).
  Notation bb := (BBox off (nd_shape arr)).
  Context (BO : bok m bb).
  Notation at_ pos := (loc (hy_base H) (get_chunk_key path m pos)).
  Notation write := (p_write_ndarray H C h rsf sl flit t path m off arr).
  Let PS : plain (am_sep m) := proj2 (proj2 (proj2 GS)).

  Lemma items_nodup : NoDup (product_items (branges m bb)).
  Proof.
    unfold product_items. destruct (branges m bb); [by apply list.NoDup_nil|]. apply sorted_NoDup, box_coords_sorted.
  Qed.
  Lemma items_pos_ok : Forall pos_ok (product_items (branges m bb)).
  Proof. apply list.Forall_forall. intros pos Hp. eapply ranges_pos; [exact BO|]. by apply visited_ranges. Qed.

  Lemma region_stops o o' : calm o -> wf_fs (view o) -> stops o write o' ->
    let sf := fst (write_ndarray flit C h H (view o) t path m off arr) in
    os_ok o' /\ wf_fs (view o') /\ dirs_kept (view o) (view o')
    /\ (forall q, (forall pos, pos_ok pos -> in_ranges (branges m bb) pos -> q <> at_ pos) ->
          file_at (view o') q = file_at (view o) q)
    /\ exists torn, forall pos, pos_ok pos ->
       file_at (view o') (at_ pos) = file_at (view o) (at_ pos)
       \/ file_at (view o') (at_ pos) = file_at sf (at_ pos)
       \/ (pos = torn /\ in_ranges (branges m bb) pos /\
           exists n c, file_at sf (at_ pos) = Some c /\ file_at (view o') (at_ pos) = Some (take n c)).
  Proof.
    intros K W S. cbv zeta. pose proof K as [(KO & _) _].
    assert (HERE : os_ok o' /\ view o' = view o -> os_ok o' /\ wf_fs (view o') /\ dirs_kept (view o) (view o')
      /\ (forall q, (forall pos, pos_ok pos -> in_ranges (branges m bb) pos -> q <> at_ pos) ->
            file_at (view o') q = file_at (view o) q)
      /\ exists torn, forall pos, pos_ok pos ->
         file_at (view o') (at_ pos) = file_at (view o) (at_ pos)
         \/ file_at (view o') (at_ pos) = file_at (fst (write_ndarray flit C h H (view o) t path m off arr)) (at_ pos)
         \/ (pos = torn /\ in_ranges (branges m bb) pos /\
             exists n c, file_at (fst (write_ndarray flit C h H (view o) t path m off arr)) (at_ pos) = Some c
               /\ file_at (view o') (at_ pos) = Some (take n c))).
    { intros [K' ->]. split_and!; [done|done|by intros q|done|]. exists (@nil Z). by left. }
    unfold p_write_ndarray in S. unfold write_ndarray in *. destruct (negb _).
    { apply stops_ret in S as ->. by apply HERE. }
    cbv zeta in *.
    apply stops_pres in S as [S|(fill & E1 & S)]; [by apply HERE| |done]. rewrite E1 in *. cbn [on] in *.
    apply stops_pres in S as [S|(coords & E2 & S)]; [by apply HERE| |done]. rewrite E2 in *. cbn [on] in *.
    rewrite (bounded_coords_eq (h_prof h) m _ BO) in E2. apply bind_ok_inv in E2 as (n & _ & [= <-]).
    destruct (loop_stops H C h t path m rsf sl SL PB PP GS arr bb fill _ items_nodup items_pos_ok [] o o' K W S)
      as (K' & W' & D' & FR & torn & T).
    split_and!; [done|done|done| |].
    - intros q Hq. apply FR. intros pos Hp. apply visited_ranges in Hp as Hr. apply Hq; [|done].
      by eapply ranges_pos.
    - exists torn. intros pos PO. destruct (decide (pos ∈ product_items (branges m bb))) as [I|N].
      + destruct (T pos I) as [F|[F|[F1 F2]]]; [by left|by right; left|right; right].
        split; [done|]. split; [by apply visited_ranges|done].
      + left. apply FR. intros pos' Hp E. apply loc_chunk_inj in E as [_ E]; try done; [by subst|].
        eapply ranges_pos; [exact BO|]. by apply visited_ranges.
  Qed.

  (** The chunks a completed write leaves. *)
  Lemma loop_written fill coords : chunk_shape_ok m -> NdFacts.fits (nd_shape arr) ->
    NoDup coords -> (forall pos, pos ∈ coords -> in_ranges (branges m bb) pos) -> forall s buf s',
    wf_fs s -> write_loop C h H t path m arr bb fill coords s buf = (s', Ok tt) ->
    forall pos, pos ∈ coords -> exists data bs, full_chunk m data
      /\ encode_chunk C h t m (Chunk pos data) = (bs, Ok tt) /\ file_at s' (at_ pos) = Some bs.
  Proof.
    intros CK FI. induction coords as [|c r IH]; intros ND IR s buf s' W E pos Hp; [by apply elem_of_nil in Hp|].
    cbn [write_loop] in E. apply list.NoDup_cons in ND as [ND1 ND2].
    destruct (write_step C h H t path m arr bb fill s buf c) as [s1 [b1|e|]] eqn:E1; cbn [andthen] in E; [|done..].
    destruct (dims_of m bb c BO FI (NdFacts.chunk_fits m CK) (IR c (elem_of_list_here _ _))) as (D & OK & EC & EO & ES & ->).
    assert (PO : pos_ok (map d_c D)).
    { eapply ranges_pos; [exact BO|]. apply IR. left. }
    assert (bb = BBox (map d_o D) (map d_e D)) as BE by (cbn in EO, ES; congruence).
    rewrite BE in E1.
    destruct (write_step_data C h H t path m D arr fill OK EC CK ES s buf s1 b1 E1) as (data & EW & FC & _).
    destruct (write_chunk_effect C h H s t path m (Chunk (map d_c D) data) s1 (Ok tt) W PB PP PS PO EW)
      as (W1 & SE & _ & [(_ & F & R)|(_ & _ & e & R)]); [|done].
    cbn [ck_pos] in *.
    assert (IR' : forall pos, pos ∈ r -> in_ranges (branges m bb) pos).
    { intros p Hp'. apply IR. by right. }
    apply elem_of_cons in Hp as [->|Hp]; [|by eapply IH].
    exists data, (fst (encode_chunk C h t m (Chunk (map d_c D) data))).
    split; [done|]. split; [rewrite R; by destruct (encode_chunk C h t m _)|].
    assert (FP : Forall pos_ok r).
    { apply list.Forall_forall. intros p Hp. eapply ranges_pos; [exact BO|]. by apply IR'. }
    destruct (write_loop_frame C h H t path m arr bb fill r PB PP PS FP s1 b1 s' (Ok tt) W1 E) as (_ & _ & FR).
    rewrite FR; [done|]. intros p Hp EQ. apply loc_chunk_inj in EQ as [_ EQ]; try done; [by subst|].
    eapply ranges_pos; [exact BO|]. by apply IR'.
  Qed.
  Lemma region_written sf s : chunk_shape_ok m -> fits_memory (nd_shape arr) -> wf_fs s ->
    write_ndarray flit C h H s t path m off arr = (sf, Ok tt) ->
    forall pos, in_ranges (branges m bb) pos -> am_shape m <> [] -> exists data bs, full_chunk m data
      /\ encode_chunk C h t m (Chunk pos data) = (bs, Ok tt) /\ file_at sf (at_ pos) = Some bs.
  Proof.
    intros CK FM W E pos IR NE. unfold write_ndarray in E. destruct (negb _); [done|]. cbv zeta in E.
    destruct (effective_fill flit t m) as [fill|e|]; cbn [on] in E; [|done..].
    rewrite (bounded_coords_eq (h_prof h) m _ BO) in E.
    destruct (mbind _ _) as [coords|e|] eqn:Ec in E; cbn [on] in E; [|done..].
    apply bind_ok_inv in Ec as (n & _ & [= <-]).
    assert (FI : NdFacts.fits (nd_shape arr)).
    { apply fits_of_prod; [exact (bok_shape_nonneg m bb BO)|exact FM]. }
    eapply loop_written; try done; [apply items_nodup|apply visited_ranges|].
    unfold product_items. destruct (branges m bb) eqn:EB.
    - exfalso. apply NE. unfold branges in EB. unfold bok in BO. revert EB BO. cbn [bb_off bb_shape].
      generalize (am_shape m) (am_chunk_shape m) off (nd_shape arr). intros l1 l2 l3 l4 EB BO'. by destruct BO'.
    - by apply elem_of_box_coords.
  Qed.

  Lemma region_crash o o' of : calm o -> wf_fs (view o) ->
    chunk_shape_ok m -> fits_memory (nd_shape arr) -> am_shape m <> [] ->
    (forall pos data bs, full_chunk m data -> encode_chunk C h t m (Chunk pos data) = (bs, Ok tt) ->
       truncation_detected C h t m bs) ->
    run o write = Some (of, Ok tt) -> stops o write o' ->
    exists torn, forall pos, pos_ok pos ->
      read_chunk C h H (view o') t path m pos = read_chunk C h H (view o) t path m pos
      \/ read_chunk C h H (view o') t path m pos = read_chunk C h H (view of) t path m pos
      \/ (pos = torn /\ exists e, read_chunk C h H (view o') t path m pos = Err e).
  Proof.
    intros K W CK FM NE TD R S.
    destruct (does_write_ndarray H C h rsf sl SL flit t path m off arr o K) as (o2 & R2 & V2 & K2).
    rewrite R in R2. injection R2 as <- R2.
    destruct (region_stops o o' K W S) as (K' & W' & D' & FR & torn & T). cbv zeta in T.
    destruct (write_ndarray flit C h H (view o) t path m off arr) as [sf r] eqn:E. cbn [fst snd] in *. subst r.
    assert (WF : wf_fs sf).
    { by destruct (write_ndarray_frame flit C h H (view o) t path m off arr sf (Ok tt) BO PB PP PS W E). }
    exists torn. intros pos PO.
    destruct (T pos PO) as [F|[F|(-> & IR & n & c & F1 & F2)]].
    - left. by apply read_chunk_same.
    - right; left. rewrite V2. by apply read_chunk_same.
    - destruct (region_written sf (view o) CK FM W E torn IR NE) as (data & bs & FC & EE & FB).
      rewrite FB in F1. injection F1 as <-.
      destruct (decide (n < length bs)%nat) as [L|L].
      2:{ right; left. rewrite V2. apply read_chunk_same; try done. by rewrite F2, FB, take_ge by lia. }
      destruct (in_bounds (h_prof h) m torn) as [[]|e|] eqn:IB.
      + right; right. split; [done|]. rewrite read_chunk_at by done. rewrite F2.
        destruct (TD torn data bs FC EE torn n L) as [e ->]. by exists e.
      + left. unfold read_chunk. by rewrite IB.
      + left. unfold read_chunk. by rewrite IB.
      + left. unfold read_chunk. by rewrite IB.
  Qed.
End Whole.

Lemma crash_region : forall flit H C h t path m rsf sl off arr o o' of,
  (forall b, concat (sl b) = b) ->
  plain (hy_base H) -> plain path -> good_sep (am_sep m) ->
  bounded_ok (am_shape m) (am_chunk_shape m) off (nd_shape arr) ->
  chunk_shape_ok m -> am_shape m <> [] -> fits_memory (nd_shape arr) ->
  (forall pos data bs, full_chunk m data -> encode_chunk C h t m (Chunk pos data) = (bs, Ok tt) ->
     truncation_detected C h t m bs) ->
  calm o -> wf_fs (view o) ->
  run o (p_write_ndarray H C h rsf sl flit t path m off arr) = Some (of, Ok tt) ->
  stops o (p_write_ndarray H C h rsf sl flit t path m off arr) o' ->
  exists torn, forall pos rs, pos_ok pos ->
    exists a, answers (released o') (p_read_chunk H C h t path m pos rs) a /\
      (answers o (p_read_chunk H C h t path m pos rs) a
       \/ answers of (p_read_chunk H C h t path m pos rs) a
       \/ (pos = torn /\ exists e, a = Err e)).
Proof.
  intros flit H C h t path m rsf sl off arr o o' of SL PB PP GS BO CK NE FM TD K W R S.
  destruct (region_crash flit H C h t path m rsf sl SL off arr PB PP GS BO o o' of K W CK FM NE TD R S) as [torn T].
  assert (K' : os_ok o').
  { eapply stops_ok; [|exact S]. apply K. }
  assert (KF : idle of).
  { destruct (does_write_ndarray H C h rsf sl SL flit t path m off arr o K) as (o2 & R2 & _ & K2).
    rewrite R in R2. injection R2 as <- _. apply K2. }
  exists torn. intros pos rs PO. eexists. split.
  { apply reads_answers, reads_read_chunk. by apply idle_released. }
  rewrite view_released. destruct (T pos PO) as [->|[->|T']]; [left|right; left|by right; right].
  - apply reads_answers, reads_read_chunk, K.
  - by apply reads_answers, reads_read_chunk.
Qed.
Lemma crash_region_raw : forall flit H C h t path m rsf sl off arr d o o' of,
  (forall b, concat (sl b) = b) ->
  plain (hy_base H) -> plain path -> good_sep (am_sep m) ->
  bounded_ok (am_shape m) (am_chunk_shape m) off (nd_shape arr) ->
  chunk_shape_ok m -> am_shape m <> [] -> fits_memory (nd_shape arr) ->
  effective m d -> same_kind_width d t -> am_comp m = CRaw ->
  calm o -> wf_fs (view o) ->
  run o (p_write_ndarray H C h rsf sl flit t path m off arr) = Some (of, Ok tt) ->
  stops o (p_write_ndarray H C h rsf sl flit t path m off arr) o' ->
  exists torn, forall pos rs, pos_ok pos ->
    exists a, answers (released o') (p_read_chunk H C h t path m pos rs) a /\
      (answers o (p_read_chunk H C h t path m pos rs) a
       \/ answers of (p_read_chunk H C h t path m pos rs) a
       \/ (pos = torn /\ exists e, a = Err e)).
Proof.
  intros flit H C h t path m rsf sl off arr d o o' of SL PB PP GS BO CK NE FM He Hk Hraw K W R S.
  eapply (crash_region flit); try done. intros pos data bs FC E. by eapply raw_truncation_detected.
Qed.
(** The same voxel by voxel. *)
Lemma crash_region_voxels : forall flit H C h t path m rsf sl off arr fill o o' of,
  (forall b, concat (sl b) = b) ->
  plain (hy_base H) -> plain path -> good_sep (am_sep m) ->
  bounded_ok (am_shape m) (am_chunk_shape m) off (nd_shape arr) ->
  chunk_shape_ok m -> am_shape m <> [] -> fits_memory (nd_shape arr) ->
  lossless C (am_comp m) -> effective_fill flit t m = Ok fill -> elt_ok t fill ->
  (forall i, index_of (nd_shape arr) i -> elt_ok t (nd_at arr i)) ->
  (forall pos data bs, full_chunk m data -> encode_chunk C h t m (Chunk pos data) = (bs, Ok tt) ->
     truncation_detected C h t m bs) ->
  calm o -> wf_fs (view o) ->
  run o (p_write_ndarray H C h rsf sl flit t path m off arr) = Some (of, Ok tt) ->
  stops o (p_write_ndarray H C h rsf sl flit t path m off arr) o' ->
  exists torn, forall x, grid_voxel m x ->
    let v s := voxel C h H s t path m fill x in
    v (view o') = v (view o)
    \/ (in_box off (nd_shape arr) x /\ v (view o') = Ok (nd_at arr (zip_with Z.sub x off)))
    \/ (in_chunk (am_chunk_shape m) torn x /\ exists e, v (view o') = Err e).
Proof.
  intros flit H C h t path m rsf sl off arr fill o o' of SL PB PP GS BO CK NE FM LL FE EF EA TD K W R S.
  destruct (region_crash flit H C h t path m rsf sl SL off arr PB PP GS BO o o' of K W CK FM NE TD R S) as [torn T].
  destruct (does_write_ndarray H C h rsf sl SL flit t path m off arr o K) as (o2 & R2 & V2 & K2).
  rewrite R in R2. injection R2 as <- R2.
  destruct (write_ndarray flit C h H (view o) t path m off arr) as [sf r] eqn:E. cbn [fst snd] in *. subst r.
  destruct (write_region flit C h H (view o) t path m off arr sf fill BO CK NE FM W PB PP GS LL FE EF EA E)
    as (_ & _ & _ & VX).
  exists torn. intros x Hx. cbv zeta.
  assert (PO : pos_ok (chunk_of m x)) by exact (chunk_of_pos_ok m (BBox off (nd_shape arr)) x BO Hx).
  unfold voxel. change (zip_with Z.div x (am_chunk_shape m)) with (chunk_of m x).
  destruct (T (chunk_of m x) PO) as [->|[->|[<- [e ->]]]]; [by left| |].
  - rewrite V2. destruct (VX x Hx) as [V1 V3]. unfold voxel in V1, V3.
    change (zip_with Z.div x (am_chunk_shape m)) with (chunk_of m x) in V1, V3.
    assert (in_box off (nd_shape arr) x \/ ~ in_box off (nd_shape arr) x) as [IB|NB].
    { destruct (decide (length x = length off)) as [L1|L1]; [|right; intros (A & _); congruence].
      destruct (decide (length off = length (nd_shape arr))) as [L2|L2]; [|right; intros (_ & A & _); congruence].
      assert (Decision (Forall (fun y => y.1 <= y.2.1 < y.1 + y.2.2) (zip off (zip x (nd_shape arr))))) as [F|F] by apply _;
        [left|right].
      - split; [done|]. split; [congruence|]. intros i xi oi si E1 E2 E3.
        rewrite Forall_lookup in F. apply (F i (oi, (xi, si))).
        by rewrite !lookup_zip_with, E2, E1, E3.
      - intros (_ & _ & A). apply F. apply Forall_lookup. intros i [oi [xi si]] E1.
        rewrite !lookup_zip_with in E1. destruct (off !! i) eqn:E2; [|done].
        destruct (x !! i) eqn:E3; [|done]. destruct (nd_shape arr !! i) eqn:E4; [|done].
        injection E1 as <- <- <-. by apply (A i). }
    + right; left. split; [done|]. by apply V1.
    + left. by apply V3.
  - right; right. split; [|by exists e].
    destruct Hx as (pos & Hc & _). destruct (in_chunk_of m pos x (bok_chunk_pos m (BBox off (nd_shape arr)) BO) Hc) as [-> _]. done.
Qed.
Lemma crash_region_frame : forall flit H C h t path m rsf sl off arr o o',
  (forall b, concat (sl b) = b) ->
  plain (hy_base H) -> plain path -> good_sep (am_sep m) ->
  bounded_ok (am_shape m) (am_chunk_shape m) off (nd_shape arr) ->
  overlaps m (BBox off (nd_shape arr)) ->
  calm o -> wf_fs (view o) ->
  stops o (p_write_ndarray H C h rsf sl flit t path m off arr) o' ->
  wf_fs (view o') /\ dirs_kept (view o) (view o')
  /\ forall q, (forall pos, pos_ok pos -> meets_box m (BBox off (nd_shape arr)) pos ->
                q <> loc (hy_base H) (get_chunk_key path m pos)) ->
     file_at (view o') q = file_at (view o) q.
Proof.
  intros flit H C h t path m rsf sl off arr o o' SL PB PP GS BO OV K W S.
  destruct (region_stops flit H C h t path m rsf sl SL off arr PB PP GS BO o o' K W S)
    as (K' & W' & D' & FR & _).
  split; [done|]. split; [done|]. intros q Hq. apply FR. intros pos PO IR. apply Hq; [done|].
  by apply branges_sound.
Qed.
