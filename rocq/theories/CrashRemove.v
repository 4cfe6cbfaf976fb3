(** Removing a node, stopped in the middle (C60). *)
From Verif Require Import BaseFacts PathFacts FSFacts KeyFacts ListFacts RefFacts OpsFacts HierFacts Spec SpecMeta SpecHier.
From Verif Require Import Sys SpecSys SysFacts SysOps SysNdOps SpecRemove CrashFacts CrashOps CrashMeta CrashOpen ConcFacts SysRemove.
Local Open Scope Z_scope.

(** Some of the files and directories in [P] are missing. *)
Definition lost (P : fpath -> Prop) (s s' : fs) : Prop :=
  wf_fs s' /\ forall r, s' !! r = s !! r \/ (P r /\ s' !! r = None).
Lemma lost_refl P s : wf_fs s -> lost P s s.
Proof. intros W. split; [done|]. by left. Qed.
Lemma lost_trans (P Q R : fpath -> Prop) s1 s2 s3 : lost P s1 s2 -> lost Q s2 s3 -> (forall r, P r -> R r) -> (forall r, Q r -> R r) -> lost R s1 s3.
Proof.
  intros [W1 L1] [W2 L2] PR QR. split; [done|]. intros r.
  destruct (L2 r) as [->|[Q2 E2]]; [destruct (L1 r) as [->|[P1 E1]]; [by left|right; by auto]|right; by auto].
Qed.
Lemma lost_file P s s' q : lost P s s' -> file_at s' q = file_at s q \/ (P q /\ file_at s' q = None).
Proof.
  intros [_ L]. destruct (decide (q = [])) as [->|N]; [by left|].
  unfold file_at. rewrite !node_at_ne by done. destruct (L q) as [->|[Pq ->]]; [by left|by right].
Qed.

(** The process only removes files and directories in [P]. *)
Definition removes (P : fpath -> Prop) (T : Type) (c : sys T) : Prop :=
  match c with
  | SMkdir _ | SOpenW _ | STrunc _ | SWrite _ _ _ => False
  | SUnlink cs | SRmdir cs => exists q, cs = map Normal q /\ P q
  | _ => True
  end.
Lemma removes_step P s T (c : sys T) o o' x :
  removes P T c -> os_ok o /\ lost P s (view o) -> sys_step c o = Some (o', x) -> os_ok o' /\ lost P s (view o').
Proof.
  intros R [K LS] E. split; [by eapply sys_step_ok|].
  assert (forall q, P q -> view o' = delete q (view o) -> wf_fs (view o') -> lost P s (view o')) as DEL.
  { intros q Pq -> W'. split; [done|]. intros r. destruct (decide (r = q)) as [->|N].
    - right. by rewrite lookup_delete.
    - rewrite lookup_delete_ne by done. apply LS. }
  assert (reading T c -> lost P s (view o')) as RD.
  { intros RE. destruct (reading_step (view o) T c o o' x RE) as [_ ->]; done. }
  destruct c; cbn in R; try done; try by apply RD.
  - destruct R as (q & -> & Pq). cbn [sys_step] in E. injection E as E.
    destruct (walk (view o) [] (map Normal q)) as [r|e|] eqn:EW; [|by injection E as <- _..].
    apply walk_normal_target in EW as ->. cbn [app] in E.
    destruct (node_at (view o) q) as [[|c]|] eqn:EN; injection E as <- _; [done| |done].
    apply (DEL q); [done|apply view_unlink|]. rewrite view_unlink. eapply wf_delete; [apply LS|done].
  - destruct R as (q & -> & Pq). cbn [sys_step] in E. injection E as E.
    destruct (walk (view o) [] (map Normal q)) as [r|e|] eqn:EW; [|by injection E as <- _..].
    apply walk_normal_target in EW as ->. cbn [app] in E.
    destruct (node_at (view o) q) as [[|c]|] eqn:EN; [|by injection E as <- _..].
    destruct (_ || _) eqn:EE; injection E as <- _; [done|].
    apply orb_false_iff in EE as [E1%bool_decide_eq_false E2%negb_false_iff%bool_decide_eq_true].
    apply (DEL q); [done|apply view_unlink|]. rewrite view_unlink. apply wf_rmdir; [apply LS|done|done].
Qed.
Lemma removes_stops {A} P (p : proc A) o o' : calls (removes P) p -> os_ok o -> wf_fs (view o) -> stops o p o' ->
  os_ok o' /\ lost P (view o) (view o').
Proof.
  intros CP K W S. apply (calls_stops (removes P) (fun o1 => os_ok o1 /\ lost P (view o) (view o1))
    (removes_step P (view o)) p o o'); [done| |done]. split; [done|]. by apply lost_refl.
Qed.

Lemma each_calls {A} P (f : A -> proc (res unit)) l : (forall e, e ∈ l -> calls P (f e)) -> calls P (p_each f l).
Proof.
  induction l as [|e l IH]; intros F; [done|]. cbn [p_each]. apply try_calls; [apply F; by left|].
  intros _. apply IH. intros e' He. apply F. by right.
Qed.
Lemma rm_tree_calls ord (q0 : fpath) fuel : forall q dir, q0 `prefix_of` q ->
  calls (removes (fun r => q0 `prefix_of` r)) (p_rm_tree ord fuel (map Normal q) dir).
Proof.
  induction fuel as [|fuel IH]; intros q dir P; [done|]. cbn [p_rm_tree]. destruct dir.
  - apply try_calls; [done|]. intros es. apply try_calls; [|intros _; split; [by exists q|done]].
    apply each_calls. intros e _. change [Normal e.1] with (map Normal [e.1]). rewrite <- map_app.
    apply IH. by apply prefix_app_r.
  - apply try_calls; [done|]. intros fd. split; [done|]. intros _. split; [by exists q|]. done.
Qed.
Lemma erase_prefix_calls ord fuel base key : plain base -> plain key ->
  calls (removes (fun r => loc base key `prefix_of` r)) (p_erase_prefix ord fuel base key).
Proof.
  intros PB PK. unfold p_erase_prefix. rewrite key_comps_plain by done. cbn [pres]. split; [done|].
  intros [|]; [|done]. split; [done|]. intros [dir|]; [|done].
  apply try_calls; [by apply rm_tree_calls|done].
Qed.
Lemma erase_calls base key : plain base -> plain key ->
  calls (removes (fun r => r = loc base key)) (p_erase base key).
Proof.
  intros PB PK. unfold p_erase. rewrite key_comps_plain by done. cbn [pres]. split; [done|].
  intros [|]; [|done]. apply try_calls; [done|]. intros fd. split; [done|]. intros _. split; [by eexists|].
  intros r. split; [done|]. intros _. by destruct r.
Qed.
Lemma stops_try {A C} (p : proc (res A)) (f : A -> proc (res C)) o o' : stops o (ptry p f) o' ->
  stops o p o' \/ exists o1 a, run o p = Some (o1, Ok a) /\ stops o1 (f a) o'.
Proof.
  intros S. apply stops_bind in S as [S|(o1 & [a|e|] & R & S)].
  - by left.
  - right. by exists o1, a.
  - left. apply stops_ret in S as ->. by eapply stops_run.
  - left. apply stops_ret in S as ->. by eapply stops_run.
Qed.

Lemma stops_room {A} (p : proc A) o o' : o_room o = None -> stops o p o' -> o_room o' = None.
Proof.
  intros R S. induction S as [|o p o1 p1 o2 E S IH]; [done|]. apply IH.
  destruct p as [a|T c k]; [done|]. cbn in E. destruct (sys_step c o) as [[o3 x]|] eqn:X; [|done].
  injection E as <- _. by eapply sys_step_room.
Qed.
Lemma erase_root base s k : wf_fs s -> plain base -> plain k ->
  fst (st_erase base s k) !! [] = s !! [] /\ wf_fs (fst (st_erase base s k)).
Proof.
  intros W PB PK. rewrite st_erase_plain by done.
  destruct (node_at s (loc base k)) as [[|c]|] eqn:E; cbn [fst]; try done.
  split; [|by eapply wf_delete_file]. rewrite lookup_delete_ne; [done|]. intros X; by rewrite X in E.
Qed.
Lemma remove_root H s path : plain (hy_base H) -> good_suffix (ep_suffix (hy_ep H)) -> wf_fs s -> plain path ->
  fst (Hier.remove H s path) !! [] = s !! [].
Proof.
  intros PB GS W PP. unfold Hier.remove.
  destruct (erase_root (hy_base H) s (gkey H path)) as [<- W1]; [done|done|apply (nloc_plain H GS); [by right|done]|].
  destruct (st_erase (hy_base H) s (gkey H path)) as [s1 [b1|e|]]; cbn [andthen fst] in *; [|done..].
  destruct (erase_root (hy_base H) s1 (akey H path)) as [<- W2]; [done|done|apply (nloc_plain H GS); [by left|done]|].
  destruct (st_erase (hy_base H) s1 (akey H path)) as [s2 [b2|e|]]; cbn [andthen fst] in *; [|done..].
  assert (loc (hy_base H) (data_path_key path) <> []) as NE by (rewrite data_key_loc; by destruct (pieces (hy_base H))).
  assert (PD := data_key_plain path PP).
  destruct (node_at s2 (loc (hy_base H) (data_path_key path))) as [n|] eqn:E.
  - rewrite (st_erase_prefix_cut _ _ _ n) by done. cbn [andthen fst].
    destruct (s2 !! []) as [x|] eqn:X.
    + apply map_filter_lookup_Some. split; [done|]. cbn. by destruct (loc _ _).
    + apply map_filter_lookup_None. by left.
  - unfold st_erase_prefix. rewrite key_comps_plain by done. rewrite stat_plain by done. by rewrite E.
Qed.

Section RemoveCrash.
  Context (H : hier) (PB : plain (hy_base H)) (GS : good_suffix (ep_suffix (hy_ep H))).
  Context (path : bytes) (PP : plain path).
  Context (ord : list comp -> list (bytes * bool) -> list (bytes * bool)) (fuel : nat).
  Notation base := (hy_base H).
  Notation sfx := (ep_suffix (hy_ep H)).
  Notation AX := ARRAY_METADATA_KEY_EXT.
  Notation GX := GROUP_METADATA_KEY_EXT.
  Notation D := (pieces base ++ B "data" :: B "root" :: pieces path).

  (** Nothing below [D] is missing while one of the documents is there. *)
  Lemma remove_stops o o' : idle o -> wf_fs (view o) -> stops o (p_remove H ord fuel path) o' ->
    os_ok o' /\ lost (fun q => q = nloc H GX path \/ q = nloc H AX path \/ D `prefix_of` q) (view o) (view o') /\
    (lost (fun q => q = nloc H GX path \/ q = nloc H AX path) (view o) (view o') \/
     (file_at (view o') (nloc H GX path) = None /\ file_at (view o') (nloc H AX path) = None)).
  Proof.
    intros I W S. unfold p_remove in S.
    assert (PG : plain (gkey H path)) by (apply (nloc_plain H GS); [by right|done]).
    assert (PA : plain (akey H path)) by (apply (nloc_plain H GS); [by left|done]).
    assert (PD := data_key_plain path PP).
    assert (ER : forall k o1 o2 b, idle o1 -> wf_fs (view o1) -> plain k -> run o1 (p_erase base k) = Some (o2, Ok b) ->
       idle o2 /\ wf_fs (view o2) /\ lost (fun q => q = loc base k) (view o1) (view o2) /\
       file_at (view o2) (loc base k) = None).
    { intros k o1 o2 b I1 W1 PK R. destruct (run_erase base k o1 I1) as (o3 & R3 & V3 & I3 & _).
      rewrite R in R3. injection R3 as <- ER. rewrite st_erase_plain in V3, ER by done.
      destruct (removes_stops _ _ o1 o2 (erase_calls base k PB PK) (proj1 I1) W1) as [K2 L2]; [by eapply stops_run|].
      split_and!; [done|apply L2|done|]. unfold file_at. rewrite V3.
      destruct (node_at (view o1) (loc base k)) as [[|c]|] eqn:E; cbn [fst snd] in *; try done.
      - rewrite node_at_delete, decide_True; [done|done|]. by eapply view_file_ne.
      - by rewrite E. }
    apply stops_try in S as [S|(o1 & b1 & R1 & S)].
    { destruct (removes_stops _ _ o o' (erase_calls _ _ PB PG) (proj1 I) W S) as [K L]. split; [done|]. split.
      - eapply lost_trans; [by apply (lost_refl (fun _ => False))|exact L|done|]. intros r ->. by left.
      - left. eapply lost_trans; [by apply (lost_refl (fun _ => False))|exact L|done|]. intros r ->. by left. }
    destruct (ER _ _ _ _ I W PG R1) as (I1 & W1 & L1 & F1).
    apply stops_try in S as [S|(o2 & b2 & R2 & S)].
    { destruct (removes_stops _ _ o1 o' (erase_calls _ _ PB PA) (proj1 I1) W1 S) as [K L]. split; [done|]. split.
      - eapply lost_trans; [exact L1|exact L| |]; intros r ->; [by left|by right; left].
      - left. eapply lost_trans; [exact L1|exact L| |]; intros r ->; [by left|by right]. }
    destruct (ER _ _ _ _ I1 W1 PA R2) as (I2 & W2 & L2 & F2).
    assert (stops o2 (p_erase_prefix ord fuel base (data_path_key path)) o') as S'.
    { apply stops_try in S as [S|(o3 & b3 & R3 & S)]; [done|]. apply stops_ret in S as ->. by eapply stops_run. }
    destruct (removes_stops _ _ o2 o' (erase_prefix_calls ord fuel _ _ PB PD) (proj1 I2) W2 S') as [K L].
    rewrite data_key_loc in L. split; [done|]. split.
    - eapply (lost_trans _ _ _ _ (view o1)); [exact L1| |intros r ->; by left|intros r X; exact X].
      eapply lost_trans; [exact L2|exact L| |]; [intros r ->; by right; left|intros r X; by right; right].
    - right. assert (forall q, file_at (view o2) q = None -> file_at (view o') q = None) as GN.
      { intros q E. destruct (lost_file _ _ _ q L) as [->|[_ E']]; done. }
      split; apply GN; [|exact F2]. destruct (lost_file _ _ _ (nloc H GX path) L2) as [->|[_ E']]; [exact F1|done].
  Qed.

  Lemma doc_kept ext path' s s' : is_node_ext ext -> plain path' -> pieces path' <> pieces path ->
    lost (fun q => q = nloc H GX path \/ q = nloc H AX path \/ D `prefix_of` q) s s' ->
    file_at s' (nloc H ext path') = file_at s (nloc H ext path').
  Proof.
    intros E P N L. destruct (lost_file _ _ _ (nloc H ext path') L) as [?|[X _]]; [done|exfalso].
    destruct X as [X|[X|[k X]]].
    - apply loc_node_inj in X as [X _]; [done|done|by right|apply GS|done|done].
    - apply loc_node_inj in X as [X _]; [done|done|by left|apply GS|done|done].
    - destruct (nloc_meta H GS ext path' E) as [r Y]. rewrite Y in X. rewrite <- app_assoc in X.
      by apply app_inv_head in X.
  Qed.
  Lemma chunk_lost C h s s' t path' m pos : wf_fs s ->
    lost (fun q => q = nloc H GX path \/ q = nloc H AX path \/ D `prefix_of` q) s s' ->
    plain path' -> good_sep (am_sep m) -> pos_ok pos ->
    read_chunk C h H s' t path' m pos = read_chunk C h H s t path' m pos
    \/ (read_chunk C h H s' t path' m pos = Ok None
        /\ D `prefix_of` loc base (get_chunk_key path' m pos)).
  Proof.
    intros W L P' SP Q. pose proof (proj1 L) as W'.
    destruct (in_bounds (h_prof h) m pos) as [[|]|e|] eqn:IB.
    2-4: left; unfold read_chunk; by rewrite IB.
    assert (PS : plain (am_sep m)) by apply SP.
    rewrite !read_chunk_at by done.
    destruct (lost_file _ _ _ (loc base (get_chunk_key path' m pos)) L) as [->|[X ->]]; [by left|].
    right. split; [done|]. destruct X as [X|[X|X]]; [..|done].
    - destruct (nloc_meta H GS GX path ltac:(by right)) as [r Y]. rewrite Y in X. by apply chunk_not_meta in X.
    - destruct (nloc_meta H GS AX path ltac:(by left)) as [r Y]. rewrite Y in X. by apply chunk_not_meta in X.
  Qed.

  Theorem remove_crash C h o o' : idle o -> wf_fs (view o) -> stops o (p_remove H ord fuel path) o' ->
    (idle (released o') /\ wf_fs (view (released o')))
    /\ (forall path' rs, plain path' -> pieces path' <> pieces path ->
         (exists a, answers o (p_get_array_metadata H path' rs) a
                 /\ answers (released o') (p_get_array_metadata H path' rs) a)
         /\ (exists a, answers o (p_list_attributes H path' rs) a
                 /\ answers (released o') (p_list_attributes H path' rs) a))
    /\ (forall rs, exists a, answers (released o') (p_get_array_metadata H path rs) a
         /\ (a = Err NotFound \/ answers o (p_get_array_metadata H path rs) a))
    /\ (forall t path' m pos rs, plain path' -> good_sep (am_sep m) -> pos_ok pos ->
         exists a, answers (released o') (p_read_chunk H C h t path' m pos rs) a
          /\ (answers o (p_read_chunk H C h t path' m pos rs) a
              \/ (a = Ok None /\
                  (Forall (ordinary_name (ep_suffix (hy_ep H))) (pieces path) -> pieces path `prefix_of` pieces path'))))
    /\ (forall rs, ~ answers (released o') (p_list_attributes H path rs) (Err NotFound) ->
         forall t path' m pos rs', plain path' -> good_sep (am_sep m) -> pos_ok pos ->
         exists a, answers o (p_read_chunk H C h t path' m pos rs') a
          /\ answers (released o') (p_read_chunk H C h t path' m pos rs') a).
  Proof.
    intros I W S. destruct (remove_stops o o' I W S) as (K & L & LD). pose proof (proj1 L) as W'.
    assert (I' : idle (released o')) by by apply idle_released.
    split; [done|]. split_and!.
    - intros path' rs P' N.
      destruct (node_same H PB GS (view o) (view o') path' W W' P') as (_ & _ & M1 & M2);
        [apply doc_kept; [by left|done..]|apply doc_kept; [by right|done..]|].
      split; eexists; (split; [by apply reads_answers; (apply reads_get_array_metadata || apply reads_list_attributes)|]).
      + rewrite <- M1, <- (view_released o'). by apply reads_answers, reads_get_array_metadata.
      + rewrite <- M2, <- (view_released o'). by apply reads_answers, reads_list_attributes.
    - intros rs. eexists. split; [by apply reads_answers, reads_get_array_metadata|]. rewrite view_released.
      rewrite (get_array_metadata_at H PB GS (view o')) by done.
      destruct (lost_file _ _ _ (nloc H AX path) L) as [E|[_ E]]; rewrite E.
      + right. rewrite <- (get_array_metadata_at H PB GS (view o)) by done. by apply reads_answers, reads_get_array_metadata.
      + by left.
    - intros t path' m pos rs P' SP Q. eexists. split; [by apply reads_answers, reads_read_chunk|]. rewrite view_released.
      destruct (chunk_lost C h (view o) (view o') t path' m pos W L P' SP Q) as [->|[-> X]].
      + left. by apply reads_answers, reads_read_chunk.
      + right. split; [done|]. intros O. destruct (decide (pieces path `prefix_of` pieces path')) as [?|NP]; [done|exfalso].
        rewrite loc_chunk in X. destruct X as [k X]. rewrite <- app_assoc in X.
        apply app_inv_head in X. cbn [app] in X. injection X as X. apply NP.
        destruct (chunk_head sfx (am_sep m) pos Q SP) as (x & r & E & O'). rewrite E in X.
        eapply ord_prefix; [exact O|exact O'|]. by exists k.
    - intros rs NF t path' m pos rs' P' SP Q. eexists. split; [by apply reads_answers, reads_read_chunk|].
      destruct LD as [L2|[G A]].
      + rewrite <- (read_chunk_same C h H (view o) (view o')); [|done|done|done|done|apply SP|done|].
        { rewrite <- (view_released o'). by apply reads_answers, reads_read_chunk. }
        destruct (lost_file _ _ _ (loc base (get_chunk_key path' m pos)) L2) as [?|[X _]]; [done|exfalso].
        destruct X as [X|X].
        * destruct (nloc_meta H GS GX path ltac:(by right)) as [r Y]. rewrite Y in X. by apply chunk_not_meta in X.
        * destruct (nloc_meta H GS AX path ltac:(by left)) as [r Y]. rewrite Y in X. by apply chunk_not_meta in X.
      + exfalso. apply NF. assert (list_attributes H (view (released o')) path = Err NotFound) as <-.
        { rewrite (list_attributes_at H PB GS) by done. rewrite view_released. by rewrite G, A. }
        by apply reads_answers, reads_list_attributes.
  Qed.

  Theorem remove_again ord' o o' : calm o -> wf_fs (view o) -> any_order ord' -> not_deeper fuel (view o) ->
    stops o (p_remove H ord fuel path) o' -> snd (Hier.remove H (view o) path) = Ok tt ->
    does (released o') (p_remove H ord' fuel path) (Hier.remove H (view o) path).
  Proof.
    intros [I R] W OR ND S E. destruct (remove_stops o o' I W S) as (K & L & _). pose proof (proj1 L) as W'.
    assert (I' : idle (released o')) by by apply idle_released.
    assert (CA : calm (released o')) by (split; [done|exact (stops_room _ _ _ R S)]).
    assert (ND' : not_deeper fuel (view (released o'))).
    { intros q [n Hq]. apply ND. rewrite view_released in Hq. destruct (proj2 L q) as [X|[_ X]]; [by rewrite <- X, Hq|congruence]. }
    assert (Hier.remove H (view o) path = Hier.remove H (view (released o')) path) as ->; [|apply (does_remove ord' OR fuel H path); try done].
    rewrite view_released.
    pose proof (remove_root H (view o) path PB GS W PP) as RT1.
    pose proof (remove_root H (view o') path PB GS W' PP) as RT2.
    destruct (Hier.remove H (view o) path) as [s1 r1] eqn:E1. cbn [snd fst] in E, RT1. subst r1.
    destruct (Hier.remove H (view o') path) as [s2 r2] eqn:E2. cbn [fst] in RT2.
    destruct (remove_effect H PB GS _ _ _ _ W PP E1) as (_ & _ & [(N1 & N2 & _ & M1)|[_ ?]]); [|done].
    assert (KN : forall q, node_at (view o') q = node_at (view o) q \/
       ((q = nloc H GX path \/ q = nloc H AX path \/ D `prefix_of` q) /\ node_at (view o') q = None)).
    { intros q. destruct (decide (q = [])) as [->|Nq]; [by left|]. rewrite !node_at_ne by done. apply L. }
    destruct (remove_effect H PB GS _ _ _ _ W' PP E2) as (_ & _ & [(_ & _ & -> & M2)|[X _]]); [|exfalso].
    - f_equal. apply map_eq. intros q. destruct (decide (q = [])) as [->|Nq].
      + rewrite RT1, RT2. destruct (proj2 L []) as [?|[X _]]; [done|exfalso].
        destruct X as [X|[X|X]].
        * destruct (nloc_meta H GS GX path ltac:(by right)) as [r Y]. rewrite Y in X. by destruct (pieces base).
        * destruct (nloc_meta H GS AX path ltac:(by left)) as [r Y]. rewrite Y in X. by destruct (pieces base).
        * apply prefix_nil_inv in X. by destruct (pieces base).
      + rewrite <- !node_at_ne by done. rewrite M1, M2. case_decide; [done|]. case_decide; [done|]. case_decide; [done|].
        destruct (KN q) as [->|[X _]]; [done|]. destruct X as [?|[?|?]]; done.
    - destruct X as [X|X].
      + destruct (KN (nloc H GX path)) as [Y|[_ Y]]; congruence.
      + destruct (KN (nloc H AX path)) as [Y|[_ Y]]; congruence.
  Qed.
End RemoveCrash.
