(** Metadata documents and entry points on a full disk. *)
From Verif Require Import BaseFacts PathFacts FSFacts KeyFacts HierFacts Spec SpecMeta SpecHier.
From Verif Require Import JsonFacts JsonPrefix MetaJsonFacts NodeFacts RefFacts OpsFacts OpenFacts.
From Verif Require Import Sys SysOpen SpecSys SpecFull SysFacts SysOps CrashFacts CrashOps CrashMeta CrashOpen.
Local Open Scope Z_scope.

(** An error that is not the writer's does not depend on what is written. *)
Lemma st_set_err base s key v b e : snd (st_set base s key (b, Ok tt)) = Err e ->
  st_set base s key v = st_set base s key (b, Ok tt).
Proof.
  unfold st_set. destruct (key_comps base key) as [cs| |]; [|done|done].
  set (par := match cs with [] => _ | _ => _ end). destruct par as [s1 [[]| |]]; cbn; [|done|done].
  by destruct (open_truncate s1 cs) as [s2 [p| |]].
Qed.

Section FullMeta.
  Context (H : hier) (PB : plain (hy_base H)) (GS : good_suffix (ep_suffix (hy_ep H))).
  Context (sl : bytes -> list bytes) (SL : forall b, concat (sl b) = b).
  Notation base := (hy_base H).
  Notation sfx := (ep_suffix (hy_ep H)).
  Notation AX := ARRAY_METADATA_KEY_EXT.
  Notation GX := GROUP_METADATA_KEY_EXT.
  Hint Resolve is_ax is_gx : core.

  (** An operation asks a few questions and then writes the planned document. *)
  Lemma reads_then {A C} o (p : proc (res A)) (f : A -> proc (res C)) r : reads o p r ->
    exists o1, idle o1 /\ view o1 = view o /\ o_room o1 = o_room o /\
      run o (ptry p f) = match r with Ok a => run o1 (f a) | Err e => Some (o1, Err e) | Panic => Some (o1, Panic) end.
  Proof.
    intros (o1 & R & V & I & M). exists o1. split_and!; try done. rewrite run_try, R. by destruct r.
  Qed.
  Lemma op_run rs op o : idle o -> wf_fs (view o) -> mo_ok op ->
    exists o1, idle o1 /\ view o1 = view o /\ o_room o1 = o_room o /\
      run o (p_meta_op H sl rs op) =
      match plan H (view o) op with
      | None => Some (o1, snd (seq_op H (view o) op))
      | Some (ext, v) => run o1 (p_set base (metadata_key ext sfx (mo_path op)) (sl (print v)) (Ok tt))
      end.
  Proof.
    intros I W M. pose proof (mo_plain op M) as P.
    destruct op as [path m|path|path attrs]; cbn [plan mo_path p_meta_op seq_op] in *.
    - unfold p_create_array, create_array, akey, gkey, array_metadata_key, group_metadata_key.
      destruct (reads_then o _ (fun g : bool => if g then Ret (Err AlreadyExists)
        else ptry (p_exists base (metadata_key AX sfx path)) (fun a => if a : bool then Ret (Err AlreadyExists)
         else p_set base (metadata_key AX sfx path) (sl (print (enc_meta m))) (Ok tt))) _
        (reads_exists base (metadata_key GX sfx path) o I)) as (o1 & I1 & V1 & R1 & ->).
      rewrite !exists_at by done. cbn [on]. destruct (is_some (file_at (view o) (nloc H GX path))); [by exists o1|].
      destruct (reads_then o1 _ (fun a : bool => if a then Ret (Err AlreadyExists)
         else p_set base (metadata_key AX sfx path) (sl (print (enc_meta m))) (Ok tt)) _
        (reads_exists base (metadata_key AX sfx path) o1 I1)) as (o2 & I2 & V2 & R2 & ->).
      rewrite V1, exists_at by done. cbn [orb on].
      exists o2. split_and!; [done|congruence|congruence|]. by destruct (is_some _).
    - unfold p_create_group, create_group, akey, gkey, array_metadata_key, group_metadata_key.
      destruct (reads_then o _ (fun a : bool => if a then Ret (Err AlreadyExists)
        else ptry (p_exists base (metadata_key GX sfx path)) (fun g => if g : bool then Ret (Ok tt)
         else p_set base (metadata_key GX sfx path) (sl (print group_default_json)) (Ok tt))) _
        (reads_exists base (metadata_key AX sfx path) o I)) as (o1 & I1 & V1 & R1 & ->).
      rewrite !exists_at by done. cbn [on]. destruct (is_some (file_at (view o) (nloc H AX path))); [by exists o1|].
      destruct (reads_then o1 _ (fun g : bool => if g then Ret (Ok tt)
         else p_set base (metadata_key GX sfx path) (sl (print group_default_json)) (Ok tt)) _
        (reads_exists base (metadata_key GX sfx path) o1 I1)) as (o2 & I2 & V2 & R2 & ->).
      rewrite V1, exists_at by done. cbn [orb on].
      exists o2. split_and!; [done|congruence|congruence|]. by destruct (is_some _).
    - unfold p_set_attributes, set_attributes. cbv zeta.
      set (ext := if is_some (file_at (view o) (nloc H AX path)) then AX else GX).
      destruct (reads_then o _ (fun k => ptry (p_get base k rs) (fun x =>
        pres (of_option NotFound x) (fun text => pres (from_text as_map text) (fun existing =>
        if json_eqb (JObj (merge_doc existing attrs)) (JObj existing) then Ret (Ok tt)
        else p_set base k (sl (print (JObj (merge_doc existing attrs)))) (Ok tt))))) _
        (reads_node_key H path o I)) as (o1 & I1 & V1 & R1 & ->).
      unfold node_key, akey, gkey, array_metadata_key, group_metadata_key. rewrite !exists_at by done.
      cbn [mbind res_bind].
      assert (forall text, file_at (view o) (nloc H ext path) = Some text ->
        (if is_some (file_at (view o) (nloc H AX path)) then Ok (metadata_key AX sfx path) else
         if is_some (file_at (view o) (nloc H GX path)) then Ok (metadata_key GX sfx path) else Err NotFound)
        = Ok (metadata_key ext sfx path)) as KEY.
      { intros text. unfold ext. destruct (is_some (file_at (view o) (nloc H AX path))); [done|]. by intros ->. }
      destruct (file_at (view o) (nloc H ext path)) as [text|] eqn:F.
      2:{ exists o1. split_and!; try done. unfold ext in F.
          destruct (file_at (view o) (nloc H AX path)) as [t|] eqn:FA; cbn [is_some] in *; [congruence|]. by rewrite F. }
      rewrite (KEY text) by done. cbn [on].
      assert (is_node_ext ext) as NE by (unfold ext; by destruct (is_some _)).
      destruct (reads_then o1 _ (fun x =>
        pres (of_option NotFound x) (fun text => pres (from_text as_map text) (fun existing =>
        if json_eqb (JObj (merge_doc existing attrs)) (JObj existing) then Ret (Ok tt)
        else p_set base (metadata_key ext sfx path) (sl (print (JObj (merge_doc existing attrs)))) (Ok tt)))) _
        (run_get base (metadata_key ext sfx path) rs o1 I1)) as (o2 & I2 & V2 & R2 & ->).
      rewrite V1, !get_at by done. rewrite F. cbn [of_option pres on].
      exists o2. split_and!; [done|congruence|congruence|].
      destruct (from_text as_map text) as [doc|e|]; cbn [pres on]; [|done|done].
      by destruct (json_eqb _ _).
  Qed.

  (** What an operation leaves, and the same with unlimited space. *)
  Definition room_for (o : os) (b : bytes) : nat := fits (o_room o) (length b).
  Lemma op_outcome rs op o : idle o -> wf_fs (view o) -> mo_ok op ->
    exists o', match plan H (view o) op with
    | None => run o (p_meta_op H sl rs op) = Some (o', snd (seq_op H (view o) op)) /\ view o' = view o /\ idle o'
    | Some (ext, v) =>
        let want := st_set base (view o) (metadata_key ext sfx (mo_path op)) (take (room_for o (print v)) (print v),
           if bool_decide (length (print v) - length (final_buf [] (sl (print v))) <= room_for o (print v))%nat
           then Ok tt else Err Other) in
        run o (p_meta_op H sl rs op) = Some (o', snd want) /\ view o' = fst want /\ idle o'
    end.
  Proof.
    intros I W M. destruct (op_run rs op o I W M) as (o1 & I1 & V1 & R1 & ->).
    destruct (plan H (view o) op) as [[ext v]|]; [|by exists o1].
    destruct (run_set base (metadata_key ext sfx (mo_path op)) (sl (print v)) (Ok tt) o1 I1) as (o2 & R2 & V2 & I2 & _).
    cbn zeta in *. rewrite SL, V1, R1 in *. exists o2. done.
  Qed.

  Lemma plan_new s op ext v : wf_fs s -> mo_ok op -> plan H s op = Some (ext, v) ->
    file_at s (nloc H ext (mo_path op)) <> Some (print v).
  Proof.
    intros W M PL. destruct op as [path m|path|path attrs]; cbn [plan mo_path] in *.
    - destruct (file_at s (nloc H GX path)); [done|]. destruct (file_at s (nloc H AX path)) eqn:E; [done|].
      injection PL as <- _. congruence.
    - destruct (file_at s (nloc H AX path)); [done|]. destruct (file_at s (nloc H GX path)) eqn:E; [done|].
      injection PL as <- _. congruence.
    - destruct M as (P & AV & AD). cbv zeta in PL. set (e0 := if is_some _ then AX else GX) in *.
      destruct (file_at s (nloc H e0 path)) as [text|] eqn:F; [|done].
      destruct (from_text as_map text) as [doc| |] eqn:D; try done.
      destruct (json_eqb _ _) eqn:EQ; [done|]. injection PL as <- <-. rewrite F.
      intros Y. assert (text = print (JObj (merge_doc doc attrs))) as -> by congruence.
      pose proof (merge_doc_ok doc attrs (as_map_doc_ok _ _ D) AV AD) as X.
      rewrite doc_ok_reads in D by done. injection D as D.
      rewrite D in EQ. by rewrite (proj2 (json_eqb_true _ _) eq_refl) in EQ.
  Qed.

  (** Enough room for what is written. *)
  Lemma full_disk_fits rs op o o2 r2 : idle o -> wf_fs (view o) -> mo_ok op ->
    run (unlimited o) (p_meta_op H sl rs op) = Some (o2, r2) ->
    (forall p c n, file_at (view o2) p = Some c -> file_at (view o) p <> Some c -> o_room o = Some n ->
       (length c <= n)%nat) ->
    exists o', run o (p_meta_op H sl rs op) = Some (o', r2) /\ view o' = view o2 /\ idle o'.
  Proof.
    intros I W M R FIT. destruct (op_outcome rs op o I W M) as (o' & X).
    destruct (op_does H sl SL rs op (unlimited o) (unlimited_calm o I)) as (o3 & R3 & V3 & _).
    rewrite R in R3. injection R3 as <- ->. rewrite view_unlimited in V3. rewrite view_unlimited.
    exists o'. pose proof (seq_plan H PB GS (view o) op W M) as SP.
    destruct (plan H (view o) op) as [[ext v]|] eqn:PL; [|by rewrite V3, SP].
    destruct (plan_ok H (view o) op ext v W M PL) as (NE & _).
    pose proof (nloc_plain H GS ext _ NE (mo_plain op M)) as PK.
    cbn zeta in X. rewrite V3, SP. destruct X as (X1 & X2 & X3).
    destruct (can_hold_dec base (view o) (metadata_key ext sfx (mo_path op))) as [CH|CH].
    - assert (room_for o (print v) = length (print v)) as FULL.
      { destruct (st_set_ok base (view o) (metadata_key ext sfx (mo_path op)) W PB PK (print v, Ok tt) CH)
          as (s' & E & _ & N). rewrite SP, E in V3. cbn [fst] in V3. subst s'.
        unfold room_for. destruct (o_room o) as [n|] eqn:RM; [|done]. cbn.
        assert (length (print v) <= n)%nat; [|lia]. eapply FIT; [|by apply plan_new|done].
        unfold file_at. by rewrite N, decide_True. }
      rewrite FULL, firstn_all, bool_decide_eq_true_2 in X1, X2 by lia. done.
    - destruct (st_set_blocked base (view o) (metadata_key ext sfx (mo_path op)) W PB PK (print v, Ok tt) CH) as [e1 E1].
      rewrite (st_set_err _ _ _ _ (print v) e1) in X1, X2 by by rewrite E1. done.
  Qed.

  (** Not enough room: the document is smaller than the buffer, so the error
      comes when the buffer is dropped and nobody sees it. *)
  Lemma full_disk_lost rs op o o2 p c n : idle o -> wf_fs (view o) -> mo_ok op ->
    run (unlimited o) (p_meta_op H sl rs op) = Some (o2, Ok tt) ->
    file_at (view o2) p = Some c -> file_at (view o) p <> Some c -> lenZ c < 8192 ->
    o_room o = Some n -> (n < length c)%nat ->
    exists o', run o (p_meta_op H sl rs op) = Some (o', Ok tt) /\ idle o' /\ wf_fs (view o') /\
      exists ext v, plan H (view o) op = Some (ext, v) /\ c = print v /\
        file_at (view o') (nloc H ext (mo_path op)) = Some (take n c) /\
        same_except (view o) (view o') (nloc H ext (mo_path op)).
  Proof.
    intros I W M R F2 FN L8 RM LN. destruct (op_outcome rs op o I W M) as (o' & X).
    destruct (op_does H sl SL rs op (unlimited o) (unlimited_calm o I)) as (o3 & R3 & V3 & _).
    rewrite R in R3. injection R3 as <- R3. rewrite view_unlimited in V3, R3.
    pose proof (seq_plan H PB GS (view o) op W M) as SP.
    destruct (plan H (view o) op) as [[ext v]|] eqn:PL; [|congruence].
    destruct (plan_ok H (view o) op ext v W M PL) as (NE & _).
    pose proof (nloc_plain H GS ext _ NE (mo_plain op M)) as PK.
    cbn zeta in X. rewrite SP in V3, R3. destruct X as (X1 & X2 & X3).
    destruct (can_hold_dec base (view o) (metadata_key ext sfx (mo_path op))) as [CH|CH].
    2:{ destruct (st_set_blocked base (view o) (metadata_key ext sfx (mo_path op)) W PB PK (print v, Ok tt) CH) as [e1 E1].
        by rewrite E1 in R3. }
    assert (forall x, exists s', st_set base (view o) (metadata_key ext sfx (mo_path op)) x = (s', snd x) /\ wf_fs s' /\
      file_at s' (nloc H ext (mo_path op)) = Some (fst x) /\ same_except (view o) s' (nloc H ext (mo_path op))) as SET.
    { intros x. destruct (st_set_ok base (view o) (metadata_key ext sfx (mo_path op)) W PB PK x CH) as (s' & E & W' & N).
      exists s'. split_and!; [done|done|unfold file_at; by rewrite N, decide_True|].
      intros q NQ. unfold file_at. rewrite N, decide_False by done.
      destruct (decide (q `prefix_of` nloc H ext (mo_path op))) as [P|P]; [|by rewrite decide_False].
      rewrite decide_True by done. destruct (node_at (view o) q) as [[|c']|] eqn:Y; try done.
      destruct CH as [CH _]. exfalso. apply (CH q P NQ c'). unfold file_at. by rewrite Y. }
    destruct (SET (print v, Ok tt)) as (s2 & E2 & _ & G2 & S2). rewrite E2 in V3. cbn [fst] in V3, G2.
    assert (p = nloc H ext (mo_path op)) as ->.
    { destruct (decide (p = nloc H ext (mo_path op))) as [|NP]; [done|]. rewrite V3, S2 in F2 by done. done. }
    assert (c = print v) as -> by congruence.
    exists o'. match type of X1 with context [st_set _ _ _ ?x] => destruct (SET x) as (s' & E' & W' & G' & S') end.
    rewrite E' in X1, X2. cbn [fst snd] in *. subst s'.
    assert (room_for o (print v) = n) as RN by (unfold room_for; rewrite RM; cbn; lia). rewrite RN in *.
    rewrite final_buf_all in X1 by (by rewrite app_nil_l, SL). rewrite app_nil_l, SL, bool_decide_eq_true_2 in X1 by lia.
    split_and!; [done|done|done|]. by exists ext, v.
  Qed.
  Theorem full_disk_unreadable rs op o o2 p c n : idle o -> wf_fs (view o) -> mo_ok op ->
    run (unlimited o) (p_meta_op H sl rs op) = Some (o2, Ok tt) ->
    file_at (view o2) p = Some c -> file_at (view o) p <> Some c -> lenZ c < 8192 ->
    o_room o = Some n -> (n < length c)%nat ->
    exists o', run o (p_meta_op H sl rs op) = Some (o', Ok tt) /\ forall rs' attrs,
      answers o' (p_list_attributes H (mo_path op) rs') (Err InvalidData) /\
      answers (unlimited o') (p_set_attributes H sl (mo_path op) attrs rs') (Err InvalidData).
  Proof.
    intros I W M R F2 FN L8 RM LN.
    destruct (full_disk_lost rs op o o2 p c n I W M R F2 FN L8 RM LN) as (o' & R' & I' & W' & ext & v & PL & -> & F & S).
    destruct (plan_ok H (view o) op ext v W M PL) as (NE & J & DP & NN).
    pose proof (mo_plain op M) as P. exists o'. split; [done|].
    assert (forall A (dec : json -> res A), from_text dec (take n (print v)) = Err InvalidData) as CUT.
    { intros A dec. by apply cut_document. }
    assert (match file_at (view o') (nloc H AX (mo_path op)) with
            | Some t => Some t | None => file_at (view o') (nloc H GX (mo_path op)) end = Some (take n (print v))) as WHICH.
    { destruct NE as [->| ->]; [by rewrite F|].
      rewrite (S (nloc H AX (mo_path op))) by (intros Y; by apply loc_node_inj in Y as [_ Y]; [|auto|auto|apply GS|done|done]).
      destruct (file_at (view o) (nloc H AX (mo_path op))) as [ta|] eqn:FA; [|done]. exfalso.
      destruct op; cbn [plan mo_path] in *; rewrite FA in PL; cbn [is_some] in PL.
      - rewrite orb_true_r in PL. done.
      - done.
      - rewrite FA in PL. destruct (from_text as_map ta); [|done|done].
        destruct (json_eqb _ _); [done|]. injection PL as Y _. discriminate Y. }
    intros rs' attrs. split.
    - replace (@Err jmap InvalidData) with (list_attributes H (view o') (mo_path op));
        [by apply reads_answers, reads_list_attributes|].
      rewrite list_attributes_at by done. unfold attrs_of.
      destruct (file_at (view o') (nloc H AX (mo_path op))); rewrite WHICH; cbn [of_option mbind res_bind]; by rewrite CUT.
    - destruct (does_set_attributes H sl SL (mo_path op) attrs rs' (unlimited o') (unlimited_calm o' I')) as (o3 & R3 & _).
      exists o3. rewrite R3, view_unlimited. do 2 f_equal.
      unfold set_attributes, node_key, akey, gkey, array_metadata_key, group_metadata_key.
      rewrite !exists_at by done. cbn [mbind res_bind].
      destruct (file_at (view o') (nloc H AX (mo_path op))) as [ta|] eqn:FA; cbn [is_some on].
      + rewrite get_at, FA by auto. injection WHICH as ->. cbn [on of_option]. by rewrite CUT.
      + rewrite WHICH. cbn [is_some on]. rewrite get_at, WHICH by auto. cbn [on of_option]. by rewrite CUT.
  Qed.

  (** In any case. *)
  Theorem full_disk_any rs rs' op o o' r path' : idle o -> wf_fs (view o) -> mo_ok op -> plain path' ->
    run o (p_meta_op H sl rs op) = Some (o', r) ->
    (exists a, answers o' (p_get_array_metadata H path' rs') a /\
       (answers o (p_get_array_metadata H path' rs') a \/
        pieces path' = pieces (mo_path op) /\
        ((exists o2, leaves (unlimited o) (p_meta_op H sl rs op) o2 /\ answers o2 (p_get_array_metadata H path' rs') a)
         \/ exists e, a = Err e))) /\
    (exists a, answers o' (p_list_attributes H path' rs') a /\
       (answers o (p_list_attributes H path' rs') a \/
        pieces path' = pieces (mo_path op) /\
        ((exists o2, leaves (unlimited o) (p_meta_op H sl rs op) o2 /\ answers o2 (p_list_attributes H path' rs') a)
         \/ exists e, a = Err e))).
  Proof.
    intros I W M P R. assert (idle o') as (K & F & L).
    { destruct (op_outcome rs op o I W M) as (o1 & X). destruct (plan H (view o) op) as [[ext v]|].
      - destruct X as (X & _ & X3). rewrite R in X. by injection X as <- _.
      - destruct X as (X & _ & X3). rewrite R in X. by injection X as <- _. }
    pose proof (op_crash_any H PB GS sl SL rs rs' op o o' path' I W M P (stops_run _ _ _ _ R)) as X.
    assert (released o' = o') as E; [|by rewrite E in X]. destruct o'. unfold released. cbn in *. congruence.
  Qed.
End FullMeta.


Section FullOpen.
  Context (V : bytes -> option bool) (base : bytes) (PB : plain base).
  Context (sl : bytes -> list bytes) (SL : forall b, concat (sl b) = b).
  Notation zloc := (pieces base ++ [ENTRY_POINT_KEY]).

  Lemma create_full rs o : V (B "3.0") = Some true -> idle o -> wf_fs (view o) ->
    (forall i, file_at (view o) (take i (pieces base)) = None) -> node_at (view o) zloc = None ->
    exists o', run o (p_open_or_create V sl base rs) = Some (o', Ok (Hier base ep_default)) /\ idle o' /\
      wf_fs (view o') /\ file_at (view o') zloc = Some (take (fits (o_room o) (length ep_text)) ep_text).
  Proof.
    intros HV (K & F & L) W FN NZ. unfold p_open_or_create. cbv zeta.
    set (cs := comps (path_join base ENTRY_POINT_KEY)).
    assert (EC : cs = map Normal zloc) by by apply entry_comps.
    cbn [run sys_step]. rewrite EC, path_exists_plain, NZ by done. rewrite <- EC.
    destruct (run_mkdir_all (comps base) (length (comps base)) o K) as (o1 & E1 & V1 & K1 & F1 & L1 & R1).
    rewrite run_try, E1.
    destruct (mkdir_all_plain (view o) (pieces base) (length (pieces base)) W) as (s1 & E & W1 & N1);
      [done|by intros k _|].
    rewrite (comps_plain base PB), map_length, E in V1. cbn [fst snd] in V1. subst s1.
    rewrite (comps_plain base PB), map_length, E. cbn [fst snd]. rewrite firstn_all in N1.
    assert (X : ~ zloc `prefix_of` pieces base).
    { intros X%prefix_length. rewrite app_length in X. cbn in X. lia. }
    assert (N2 : node_at (view o1) zloc = None) by by rewrite N1, decide_False.
    assert (D2 : node_at (view o1) (pieces base) = Some Dir) by by rewrite N1, decide_True.
    assert (WK : walk (view o1) [] cs = Ok zloc).
    { rewrite EC. rewrite map_app, walk_app.
      rewrite (walk_present (view o1) (pieces base) [] _ W1 D2). cbn [mbind res_bind app map walk]. by rewrite D2. }
    rewrite run_try. cbn [run]. pose proof (run_openw o1 cs K1) as OW.
    assert (OP : exists s2, open_truncate (view o1) cs = (s2, Ok zloc)).
    { unfold open_truncate. rewrite WK, N2.
      assert (parent zloc = pieces base) as -> by apply parent_snoc.
      rewrite (proj2 (is_dir_at_true _ _) D2). by eexists. }
    destruct OP as [s2 OP]. rewrite OP in OW.
    destruct OW as (o2 & i & fd & c & E2 & (N & K2 & T2 & D3 & F2 & FNn & L2 & R2 & S2 & V2) & -> & CC).
    assert (c = []) as ->.
    { destruct CC as [CC|[_ CC]]; [|done]. unfold file_at in CC. by rewrite N2 in CC. }
    rewrite E2. cbn [run].
    assert (Fd : o_fds o2 !! fd = Some i) by (rewrite F2; apply lookup_insert).
    cbn [sys_step run]. rewrite Fd, no_conflict by congruence. cbn [run]. rewrite run_try.
    destruct (run_buffered fd i (Ok tt) (sl (print (enc_ep ep_default))) [] (set_lock o2 fd true) []) as [sh E3];
      [done|done|done|].
    rewrite !app_nil_l, SL in E3. change (length (@nil ascii)) with 0%nat in E3.
    assert (RN : o_room (set_lock o2 fd true) = o_room o) by (cbn; congruence).
    rewrite RN in E3. rewrite final_buf_all in E3 by (rewrite app_nil_l, SL; by vm_compute).
    rewrite app_nil_l, SL, bool_decide_eq_true_2 in E3 by lia.
    rewrite E3. clear E3. cbn [run]. unfold check_version. change (version_str ep_default) with (B "3.0"). rewrite HV.
    cbn [mbind res_bind]. fold ep_text. set (k := fits _ _).
    eexists. split; [reflexivity|].
    assert (VW : view (close_fd (wrote (set_lock o2 fd true) i (take k ep_text) sh (less_room (o_room o) k)) fd)
              = <[zloc := File (take k ep_text)]> (view o1)).
    { rewrite view_close.
      change (view (wrote (set_lock o2 fd true) i (take k ep_text) sh (less_room (o_room o) k)))
        with (view (set_data o2 i (take k ep_text))).
      rewrite (view_set_data _ zloc) by done. rewrite V2. by rewrite insert_insert. }
    split; [split_and!|split].
    - apply ok_close.
      assert (os_ok (set_data (set_lock o2 fd true) i (take k ep_text))) as [].
      { apply ok_set_data; [apply ok_set_lock; [done|by rewrite Fd]|]. cbn. by rewrite D3. }
      by split.
    - cbn. rewrite F2, F1, F. rewrite delete_insert; [done|]. apply lookup_empty.
    - cbn. rewrite L2, L1, L. rewrite delete_insert; [done|]. apply lookup_empty.
    - rewrite VW. apply wf_insert; [done|done|left; by rewrite N2].
    - rewrite VW. unfold file_at. rewrite node_at_insert, decide_True by (done || by destruct (pieces base)). done.
  Qed.

  (** Opening a hierarchy whose entry point has been cut short. *)
  Lemma open_cut V' rs o n : idle o -> wf_fs (view o) -> file_at (view o) zloc = Some (take n ep_text) ->
    (n < length ep_text)%nat -> answers (unlimited o) (p_open_or_create V' sl base rs) (Err InvalidData).
  Proof.
    intros I W F L.
    assert (O : open_hier V' base (view o) = Err InvalidData).
    { apply file_at_some in F. unfold open_hier, read_entry_point, open_read.
      rewrite entry_comps by done. rewrite (walk_present _ zloc [] _ W F). cbn [mbind res_bind app]. rewrite F.
      cbn [mbind res_bind]. by rewrite cut_ep. }
    destruct (does_open_or_create V' sl base rs (unlimited o) SL (unlimited_calm o I) W PB) as (o2 & R & _). exists o2.
    rewrite view_unlimited, open_existing in R; [by rewrite R, O|]. rewrite entry_comps, path_exists_plain by done.
    apply file_at_some in F. by rewrite F.
  Qed.
  Lemma open_full V' rs o : idle o -> wf_fs (view o) -> V' (B "3.0") = Some true -> file_at (view o) zloc = Some ep_text ->
    answers (unlimited o) (p_open_or_create V' sl base rs) (Ok (Hier base ep_default)).
  Proof.
    intros I W HV F.
    assert (O : open_hier V' base (view o) = Ok (Hier base ep_default)).
    { apply file_at_some in F. unfold open_hier, read_entry_point, open_read.
      rewrite entry_comps by done. rewrite (walk_present _ zloc [] _ W F). cbn [mbind res_bind app]. rewrite F.
      cbn [mbind res_bind]. unfold ep_text. rewrite default_reads. cbn [mbind res_bind].
      change (check_exts (ep_exts ep_default)) with (@Ok unit tt). cbn [mbind res_bind]. unfold check_version. change (version_str ep_default) with (B "3.0"). by rewrite HV. }
    destruct (does_open_or_create V' sl base rs (unlimited o) SL (unlimited_calm o I) W PB) as (o2 & R & _). exists o2.
    rewrite view_unlimited, open_existing in R; [by rewrite R, O|]. rewrite entry_comps, path_exists_plain by done.
    apply file_at_some in F. by rewrite F.
  Qed.
  Theorem create_full_disk rs o room : V (B "3.0") = Some true -> idle o -> wf_fs (view o) ->
    (forall i, file_at (view o) (take i (pieces base)) = None) -> node_at (view o) zloc = None ->
    o_room o = Some room ->
    exists o', run o (p_open_or_create V sl base rs) = Some (o', Ok (Hier base ep_default)) /\
      forall rs', answers (unlimited o') (p_open_or_create V sl base rs')
        (if bool_decide (length (print (enc_ep ep_default)) <= room)%nat then Ok (Hier base ep_default) else Err InvalidData).
  Proof.
    intros HV I W FN NZ RM. destruct (create_full rs o HV I W FN NZ) as (o' & R & I' & W' & F).
    exists o'. split; [done|]. intros rs'. rewrite RM in F. cbn [fits] in F. fold ep_text. case_bool_decide as L.
    - apply open_full; [done..|]. by rewrite Nat.min_r, firstn_all in F by lia.
    - apply (open_cut V rs' o' room); [done|done| |lia]. by rewrite Nat.min_l in F by lia.
  Qed.
End FullOpen.
