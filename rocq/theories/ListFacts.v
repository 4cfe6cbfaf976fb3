(** Listings. *)
From Verif Require Import CoordIter Hier Nd Spec SpecMeta SpecHier SpecList BaseFacts PathFacts FSFacts KeyFacts HierFacts
  RefFacts OpsFacts JsonPrefix.
From Coq Require Import Sorting.Sorted.
Local Open Scope Z_scope.

(** ** Sorting and deduplication *)

Lemma bcmp_app p x y : bcmp (p ++ x) (p ++ y) = bcmp x y.
Proof. induction p as [|b p IH]; [done|]. cbn. by rewrite Z.compare_refl. Qed.
Lemma blt_lex a b : blt a b <-> string_lt a b.
Proof.
  unfold blt. split.
  - revert b. induction a as [|x a IH]; intros [|y b] E; cbn in E; try done.
    + right. by exists y, b.
    + destruct (Z.compare_spec (Z_of_byte x) (Z_of_byte y)) as [L|L|L]; [|left|done].
      * apply Z_of_byte_inj in L as ->. destruct (IH b E) as [(p & u & v & a' & b' & -> & -> & L)|(v & b' & ->)].
        -- left. by exists (y :: p), u, v, a', b'.
        -- right. by exists v, b'.
      * by exists [], x, y, a, b.
  - intros [(p & u & v & a' & b' & -> & -> & L)|(v & b' & ->)].
    + rewrite bcmp_app. cbn. apply Z.compare_lt_iff in L. by rewrite L.
    + rewrite <- (app_nil_r a) at 1. by rewrite bcmp_app.
Qed.
Definition ble (a b : bytes) : Prop := bcmp a b <> Gt.
Lemma ble_cases a b : ble a b <-> a = b \/ blt a b.
Proof.
  unfold ble, blt. rewrite <- bcmp_eq. destruct (bcmp a b); split; try done; try tauto. intros [|]; done.
Qed.
Lemma ble_trans a b c : ble a b -> ble b c -> ble a c.
Proof.
  rewrite !ble_cases. intros [->|X] [->|Y]; [by left|by right..|]. right. by eapply bcmp_lt_trans.
Qed.
Lemma insert_perm x l : insert_sorted x l ≡ₚ x :: l.
Proof.
  induction l as [|y l IH]; [done|]. cbn. destruct (bcmp x y); [done|done|]. rewrite IH. apply perm_swap.
Qed.
Lemma sort_perm l : sort_strs l ≡ₚ l.
Proof. induction l as [|x l IH]; [done|]. cbn. by rewrite insert_perm, IH. Qed.
Lemma insert_sorted_ok x l : StronglySorted ble l -> StronglySorted ble (insert_sorted x l).
Proof.
  induction 1 as [|y l S IH F]; cbn; [by repeat constructor|].
  destruct (bcmp x y) eqn:E.
  1,2: constructor; [by constructor|]; apply Forall_cons_2; [by unfold ble; rewrite E|];
    eapply list.Forall_impl; [exact F|]; intros z; apply ble_trans; unfold ble; by rewrite E.
  constructor; [done|]. rewrite insert_perm. apply Forall_cons_2; [|done].
  apply ble_cases. right. by apply bcmp_gt.
Qed.
Lemma sort_ok l : StronglySorted ble (sort_strs l).
Proof. induction l as [|x l IH]; cbn; [constructor|by apply insert_sorted_ok]. Qed.
Lemma dedup_elem x l : x ∈ dedup l <-> x ∈ l.
Proof.
  induction l as [|y l IH]; [done|]. cbn. destruct (dedup l) as [|z r] eqn:E.
  - rewrite !elem_of_cons, <- IH. done.
  - destruct (beq y z) eqn:Y.
    + apply beq_true in Y as ->. rewrite (elem_of_cons l), <- IH. split; [by right|]. intros [X|X]; [|exact X]. rewrite X. apply elem_of_list_here.
    + by rewrite (elem_of_cons (z :: r)), (elem_of_cons l), <- IH.
Qed.
Lemma dedup_ok l : StronglySorted ble l -> StronglySorted blt (dedup l).
Proof.
  induction 1 as [|y l S IH F]; cbn; [constructor|].
  assert (G : Forall (ble y) (dedup l)).
  { apply list.Forall_forall. intros z Hz. apply (proj1 (dedup_elem _ _)) in Hz. rewrite list.Forall_forall in F. exact (F z Hz). }
  destruct (dedup l) as [|z r] eqn:E; [by repeat constructor|].
  destruct (beq y z) eqn:Y; [done|]. apply beq_false in Y.
  constructor; [done|]. apply list.Forall_cons in G as [G1 G2].
  assert (blt y z) by (apply ble_cases in G1 as [?|?]; done).
  apply Forall_cons_2; [done|]. apply StronglySorted_inv in IH as [_ IH].
  eapply list.Forall_impl; [exact IH|]. intros u. by apply bcmp_lt_trans.
Qed.
Lemma sorted_drop p l : StronglySorted blt (map (app p) l) -> StronglySorted blt l.
Proof.
  induction l as [|x l IH]; intros S; [constructor|]. cbn [map] in S. apply StronglySorted_inv in S as [S F].
  constructor; [by apply IH|]. rewrite Forall_map in F. eapply list.Forall_impl; [exact F|].
  intros y. unfold compose, blt. by rewrite bcmp_app.
Qed.
Lemma sorted_lex l : StronglySorted blt l -> StronglySorted string_lt l.
Proof.
  induction 1 as [|x l S IH F]; constructor; [done|]. eapply list.Forall_impl; [exact F|]. intros y. apply blt_lex.
Qed.

Lemma mapM_panic {A B : Type} (f : A -> res B) l :
  (forall a e, f a <> Err e) -> (exists a, a ∈ l /\ f a = Panic) -> mapM_res f l = Panic.
Proof.
  intros NE (a & I & P). induction l as [|x l IH]; [by apply elem_of_nil in I|]. cbn.
  apply elem_of_cons in I as [<-|I]; [by rewrite P|].
  destruct (f x) eqn:E; [|by apply NE in E|done]. rewrite bind_ok, IH by done. done.
Qed.

(** ** Directory entries *)

Lemma entries_elem s p n nd : (n, nd) ∈ entries_of s p <-> s !! (p ++ [n]) = Some nd.
Proof.
  unfold entries_of. rewrite elem_of_list_omap. split.
  - intros ([q nd'] & I & E). cbn [fst snd] in E. apply elem_of_map_to_list in I.
    case_bool_decide as X; cbn [andb] in E; [|done]. case_bool_decide as Y; [|done].
    destruct q as [|x q _] using rev_ind; [done|]. rewrite parent_snoc in Y. subst.
    rewrite last_snoc in E. by injection E as -> ->.
  - intros E. exists (p ++ [n], nd). split; [by apply elem_of_map_to_list|]. cbn [fst snd].
    rewrite bool_decide_eq_true_2 by by destruct p. rewrite parent_snoc, bool_decide_eq_true_2 by done.
    by rewrite last_snoc.
Qed.
Lemma entries_nodup s p : NoDup (entries_of s p).*1.
Proof.
  unfold entries_of. assert (ND := NoDup_fst_map_to_list s). 
  induction (map_to_list s) as [|[q nd] l IH]; [constructor|].
  cbn [fmap list_fmap fst] in ND. apply list.NoDup_cons in ND as [NI ND]. specialize (IH ND).
  set (f := fun kv : fpath * node => _) in *.
  change (omap f ((q, nd) :: l)) with (match f (q, nd) with Some y => y :: omap f l | None => omap f l end).
  destruct (f (q, nd)) as [[n nd']|] eqn:E; [|done]. cbn [fmap list_fmap fst]. constructor; [|done].
  intros I. apply NI. apply elem_of_list_fmap in I as ([n2 nd2] & -> & I).
  apply elem_of_list_omap in I as ([q2 nd3] & I & E2). apply elem_of_list_fmap. exists (q2, nd3). split; [|done]. cbn [fst].
  unfold f in E, E2. cbn [fst snd] in E, E2.
  case_bool_decide as X; cbn [andb] in E; [|done]. case_bool_decide as Y; [|done].
  case_bool_decide as X2; cbn [andb] in E2; [|done]. case_bool_decide as Y2; [|done].
  destruct q as [|x q _] using rev_ind; [done|]. destruct q2 as [|x2 q2 _] using rev_ind; [done|].
  rewrite parent_snoc in Y, Y2. rewrite last_snoc in E, E2. cbn [fst] in *.
  injection E as E _. injection E2 as E2 _. by subst.
Qed.

Lemma list_dir_plain base s key : wf_fs s -> plain base -> plain key ->
  node_at s (loc base key) = Some Dir ->
  st_list_dir base s key = Ok (map (fun e => key ++ e.1) (filter (fun e => is_dir_node e.2 = false) (entries_of s (loc base key))),
    map (fun e => key ++ e.1) (filter (fun e => is_dir_node e.2 = true) (entries_of s (loc base key)))).
Proof.
  intros W PB PK D. unfold st_list_dir. rewrite key_comps_plain, bind_ok by done.
  rewrite (walk_present s (loc base key) [] Dir W D), bind_ok. cbn [app]. by rewrite D.
Qed.
Lemma list_dir_missing base s key q x : wf_fs s -> plain base -> plain key ->
  loc base key = q ++ [x] -> node_at s q = Some Dir -> node_at s (q ++ [x]) = None ->
  st_list_dir base s key = Err NotFound.
Proof.
  intros W PB PK E D N. unfold st_list_dir. rewrite key_comps_plain, bind_ok, E by done.
  rewrite map_app, walk_app, (walk_present s q [] Dir W D). cbn [mbind res_bind app map walk]. rewrite D. cbn [mbind res_bind step]. by rewrite N.
Qed.

(** ** list_nodes *)

Lemma app_lenZ {A} (a b : list A) : lenZ (a ++ b) = lenZ a + lenZ b.
Proof. unfold lenZ. rewrite app_length. lia. Qed.
Lemma lenZ_cons {A} (x : A) b : lenZ (x :: b) = 1 + lenZ b.
Proof. unfold lenZ. cbn [length]. lia. Qed.
Lemma lenZ_nonneg {A} (a : list A) : 0 <= lenZ a.
Proof. unfold lenZ. lia. Qed.
(** The entries of directory [d] have real names. *)
Definition real_in (s : fs) (d : fpath) : Prop :=
  forall x n, s !! (d ++ [x]) = Some n -> x <> [] /\ slash ∉ x /\ lenZ x < two32.

Section nodes.
Context (p : profile) (H : hier) (s : fs) (path : bytes) (t : bytes).
Hypothesis PB : plain (hy_base H).
Hypothesis GS : good_suffix (ep_suffix (hy_ep H)).
Hypothesis SX : ep_suffix (hy_ep H) = dot :: t.
Hypothesis W : wf_fs s.
Hypothesis RN : real_in s (meta_dir H path).
Hypothesis DO : documents_only H s.
Hypothesis PP : plain path.
Hypothesis PL : lenZ path < two32.
Notation base := (hy_base H).
Notation sfx := (ep_suffix (hy_ep H)).
Notation kp := (META_ROOT_PATH ++ slash :: canonicalize_path path).
Notation D := (meta_dir H path).

Lemma strip_sfx : strip_dot sfx = t.
Proof. rewrite SX. done. Qed.
Lemma pieces_kp : pieces kp = [B "meta"; B "root"] ++ pieces path.
Proof. by rewrite pieces_app, pieces_canon. Qed.
Lemma plain_kp : plain kp.
Proof.
  unfold plain. rewrite pieces_kp. intros [I|I]%elem_of_app; [|done].
  apply elem_of_cons in I as [I|I]; [done|]. by apply elem_of_list_singleton in I.
Qed.
Lemma loc_kp : loc base kp = D.
Proof. unfold loc. by rewrite pieces_kp. Qed.
Lemma kp_len : 11 <= lenZ kp < two32 + 11.
Proof.
  rewrite app_lenZ, lenZ_cons. change (lenZ META_ROOT_PATH) with 10.
  assert (lenZ (canonicalize_path path) <= lenZ path).
  { unfold canonicalize_path. destruct (trim_end_spec (trim_start_slash path)) as [k E].
    assert (lenZ (trim_start_slash path) <= lenZ path).
    { clear. induction path as [|x q IH]; [done|]. cbn [trim_start_slash]. case_bool_decide; [|lia]. rewrite lenZ_cons. lia. }
    apply (f_equal lenZ) in E. rewrite app_lenZ in E. pose proof (lenZ_nonneg (replicate k slash)). lia. }
  pose proof (lenZ_nonneg (canonicalize_path path)). lia.
Qed.

(** Files of the directory are documents of explicit children. *)
Definition doc (n ext : bytes) : bytes := n ++ dot :: ext ++ sfx.
Lemma child_loc n path' ext : is_node_ext ext -> plain path' -> pieces path' = pieces path ++ [n] ->
  nloc H ext path' = D ++ [doc n ext].
Proof.
  intros E P1 P2. unfold nloc, loc. rewrite pieces_node_key by (done || apply GS).
  destruct (meta_pieces_cases ext (strip_dot sfx) (pieces path') P1) as [[Z _]|(l1 & n1 & Z & ->)].
  - rewrite Z in P2. by destruct (pieces path).
  - rewrite P2 in Z. apply app_inj_tail in Z as [<- <-]. unfold meta_dir, doc.
    rewrite strip_sfx, SX, <- !app_assoc. done.
Qed.
Lemma child_file f c : file_at s (D ++ [f]) = Some c ->
  exists n path' ext, is_node_ext ext /\ plain path' /\ pieces path' = pieces path ++ [n] /\ f = doc n ext.
Proof.
  intros F. assert (E : D ++ [f] = pieces base ++ B "meta" :: (B "root" :: pieces path ++ [f])).
  { unfold meta_dir. by rewrite <- !app_assoc. }
  rewrite E in F. apply DO in F as (path' & P1 & F).
  assert (exists ext, is_node_ext ext /\ D ++ [f] = nloc H ext path') as (ext & Ee & N).
  { rewrite E. destruct F as [F|F]; rewrite F; eexists; (split; [|reflexivity]); [by left|by right]. }
  unfold nloc, loc in N. rewrite pieces_node_key in N by (done || apply GS).
  destruct (meta_pieces_cases ext (strip_dot sfx) (pieces path') P1) as [[Z M]|(l1 & n1 & Z & M)]; rewrite M in N.
  - unfold meta_dir in N. rewrite <- app_assoc in N. apply app_inv_head in N. cbn [app] in N. injection N as N.
    destruct (pieces path); discriminate.
  - unfold meta_dir in N. rewrite <- !app_assoc in N. apply app_inv_head in N. apply app_inv_head in N.
    apply app_inj_tail in N as [<- ->]. exists n1, path', ext. split; [done|]. split; [done|]. split; [done|].
    unfold doc. by rewrite strip_sfx, SX.
Qed.
Lemma explicit_iff n : explicit_child H s path n <->
  exists path' ext, is_node_ext ext /\ plain path' /\ pieces path' = pieces path ++ [n] /\ file_at s (D ++ [doc n ext]) <> None.
Proof.
  split.
  - intros (path' & P1 & P2 & [X|X]).
    + apply explicit_a in X; [|done..]. exists path', ARRAY_METADATA_KEY_EXT. split; [by left|].
      split; [done|]. split; [done|]. by rewrite <- (child_loc n path') by (done || by left).
    + apply explicit_g in X; [|done..]. exists path', GROUP_METADATA_KEY_EXT. split; [by right|].
      split; [done|]. split; [done|]. by rewrite <- (child_loc n path') by (done || by right).
  - intros (path' & ext & Ee & P1 & P2 & F). exists path'. split; [done|]. split; [done|].
    rewrite explicit_a, explicit_g by done. rewrite <- (child_loc n path') in F by done.
    destruct Ee as [->| ->]; [by left|by right].
Qed.
Lemma doc_len n ext : is_node_ext ext -> lenZ (doc n ext) = lenZ n + 6 + lenZ sfx.
Proof. intros E. unfold doc. rewrite app_lenZ, lenZ_cons, app_lenZ.
  assert (lenZ ext = 5) by (unfold lenZ; by rewrite node_ext_len). lia. Qed.

(** The two truncations. *)
Lemma trunc1 n ext : is_node_ext ext -> lenZ (doc n ext) < two32 ->
  truncate_by p (lenZ sfx) (kp ++ doc n ext) = Ok (kp ++ n ++ dot :: ext).
Proof.
  intros E L. unfold truncate_by.
  assert (X : kp ++ doc n ext = (kp ++ n ++ dot :: ext) ++ sfx) by (unfold doc; by rewrite <- !app_assoc).
  rewrite X. assert (L2 : lenZ ((kp ++ n ++ dot :: ext) ++ sfx) < two32 + 11 + two32).
  { rewrite <- X, app_lenZ. pose proof kp_len. lia. }
  rewrite app_lenZ in L2 |- *. pose proof (lenZ_nonneg (kp ++ n ++ dot :: ext)).
  assert (S1 : 1 <= lenZ sfx) by (rewrite SX, lenZ_cons; pose proof (lenZ_nonneg t); lia).
  rewrite sub64_ok by (unfold is_u64; change (two32 + 11 + two32) with 8589934603 in L2; change two64 with 18446744073709551616; lia).
  rewrite bind_ok. destruct (Z.leb_spec (lenZ (kp ++ n ++ dot :: ext) + lenZ sfx)
    (lenZ (kp ++ n ++ dot :: ext) + lenZ sfx - lenZ sfx)); [lia|].
  f_equal. rewrite Z.add_simpl_r. unfold lenZ. rewrite Nat2Z.id. apply take_app.
Qed.

(** What is left of a key after both. *)
Definition cut (n : bytes) : Z := lenZ kp + lenZ n - lenZ sfx.
Definition rest (n ext : bytes) : bytes := take (Z.to_nat (cut n)) (kp ++ n ++ dot :: ext).
Lemma trunc2 n ext : is_node_ext ext -> lenZ (doc n ext) < two32 -> 0 <= cut n ->
  truncate_by p (lenZ sfx + lenZ ARRAY_METADATA_KEY_EXT + 1) (kp ++ n ++ dot :: ext) = Ok (rest n ext).
Proof.
  intros E L Q. unfold truncate_by. unfold rest, cut in *. rewrite doc_len in L by done.
  assert (lenZ ext = 5) by (unfold lenZ; by rewrite node_ext_len).
  change (lenZ ARRAY_METADATA_KEY_EXT) with 5.
  assert (K : lenZ (kp ++ n ++ dot :: ext) = lenZ kp + lenZ n + 6) by (rewrite app_lenZ, (app_lenZ n), (lenZ_cons dot ext); lia).
  rewrite K. pose proof kp_len. pose proof (lenZ_nonneg sfx).
  replace (lenZ kp + lenZ n + 6 - (lenZ sfx + 5 + 1)) with (lenZ kp + lenZ n - lenZ sfx) by lia.
  rewrite sub64_ok by (unfold is_u64; change two32 with 4294967296 in *; change two64 with 18446744073709551616; lia).
  rewrite bind_ok. replace (lenZ kp + lenZ n + 6 - (lenZ sfx + 5 + 1)) with (lenZ kp + lenZ n - lenZ sfx) by lia.
  destruct (Z.leb_spec (lenZ kp + lenZ n + 6) (lenZ kp + lenZ n - lenZ sfx)); [lia|done].
Qed.
Lemma rest_long n ext : lenZ sfx <= lenZ n -> rest n ext = kp ++ take (length n - length sfx)%nat n.
Proof.
  intros L. unfold rest, cut. replace (Z.to_nat (lenZ kp + lenZ n - lenZ sfx)) with (length kp + (length n - length sfx))%nat
    by (unfold lenZ in *; lia).
  rewrite take_add_app by done. f_equal. rewrite take_app_le; [done|]. unfold lenZ in *. lia.
Qed.

(** Names of the documents in the directory. *)
Notation es := (entries_of s D).
Notation files := (filter (fun e : bytes * node => is_dir_node e.2 = false) es).
Notation dirs := (filter (fun e : bytes * node => is_dir_node e.2 = true) es).
Lemma files_docs : exists nes, Forall (fun ne => is_node_ext ne.2 /\ lenZ (doc ne.1 ne.2) < two32) nes
  /\ map (fun e : bytes * node => kp ++ e.1) files = map (fun ne => kp ++ doc ne.1 ne.2) nes
  /\ forall n, explicit_child H s path n <-> exists ext, (n, ext) ∈ nes.
Proof.
  assert (G : forall e, e ∈ files -> exists ne, is_node_ext ne.2 /\ lenZ (doc ne.1 ne.2) < two32 /\ e.1 = doc ne.1 ne.2
     /\ explicit_child H s path ne.1).
  { intros [f nd] I. apply elem_of_list_filter in I as [X I]. cbn [snd fst] in *.
    apply entries_elem in I. destruct nd as [|c]; [done|].
    assert (F : file_at s (D ++ [f]) = Some c) by (unfold file_at; by rewrite node_at_ne, I by by destruct D).
    destruct (RN _ _ I) as (_ & _ & L).
    destruct (child_file f c F) as (n & path' & ext & X1 & X2 & X3 & ->). exists (n, ext). cbn [fst snd].
    split; [done|]. split; [done|]. split; [done|]. apply explicit_iff. exists path', ext. by rewrite F. }
  assert (M : exists nes, Forall2 (fun e ne => is_node_ext ne.2 /\ lenZ (doc ne.1 ne.2) < two32 /\ e.1 = doc ne.1 ne.2
     /\ explicit_child H s path ne.1) files nes).
  { induction files as [|e l IH]; [by exists []|]. destruct (G e ltac:(left)) as [ne X].
    destruct IH as [nes Y]; [intros e' I; apply G; by right|]. exists (ne :: nes). by constructor. }
  destruct M as [nes M]. exists nes. split; [|split].
  - clear -M. induction M as [|e ne l l' (X1 & X2 & _) M IH]; constructor; done.
  - clear -M. induction M as [|e ne l l' (X1 & X2 & X3 & _) M IH]; [done|]. cbn [map]. by rewrite X3, IH.
  - intros n. split.
    + intros X. apply explicit_iff in X as (path' & ext & X1 & X2 & X3 & X4).
      destruct (file_at s (D ++ [doc n ext])) as [c|] eqn:F; [|done]. unfold file_at in F.
      rewrite node_at_ne in F by by destruct D. destruct (s !! (D ++ [doc n ext])) as [[|c']|] eqn:L; [done| |done].
      assert (I : (doc n ext, File c') ∈ files) by (apply elem_of_list_filter; split; [done|by apply entries_elem]).
      apply elem_of_list_lookup in I as [i I]. destruct (Forall2_lookup_l _ _ _ _ _ M I) as ([n' ext'] & I' & Y1 & Y2 & Y3 & Y4).
      cbn [fst snd] in *. exists ext. unfold doc in Y3.
      assert (n ++ dot :: ext = n' ++ dot :: ext').
      { eapply (app_inv_tail sfx). by rewrite <- !app_assoc. }
      apply app_inj_2 in H0 as [-> [= ->]]; [by eapply elem_of_list_lookup_2|].
      cbn [length]. by rewrite !node_ext_len.
    + intros [ext I]. apply elem_of_list_lookup in I as [i I].
      destruct (Forall2_lookup_r _ _ _ _ _ M I) as (e & _ & _ & _ & _ & Y). done.
Qed.
Lemma dirs_names : map trim_end_slash (map (fun e : bytes * node => kp ++ e.1) dirs) = map (app kp) (map fst dirs).
Proof.
  rewrite !map_map. apply map_ext_in. intros [n nd] I. apply elem_of_list_In in I.
  apply elem_of_list_filter in I as [X I]. apply entries_elem in I. cbn [fst].
  destruct (RN _ _ I) as (N & NS & _).
  destruct n as [|b n _] using rev_ind; [done|]. unfold trim_end_slash. rewrite app_assoc, rev_unit.
  cbn [trim_start_slash]. rewrite bool_decide_eq_false_2.
  - rewrite <- rev_unit. by rewrite rev_involutive.
  - intros ->. apply NS, elem_of_app. right. by left.
Qed.
Lemma dirs_elem n : n ∈ map fst dirs <-> child_dir H s path n.
Proof.
  unfold child_dir. rewrite node_at_ne by by destruct D. split.
  - intros I. apply elem_of_list_fmap in I as ([n' nd] & -> & I). apply elem_of_list_filter in I as [X I].
    apply entries_elem in I. cbn [fst snd] in *. by destruct nd.
  - intros I. apply elem_of_list_fmap. exists (n, Dir). split; [done|]. apply elem_of_list_filter. split; [done|].
    by apply entries_elem.
Qed.

(** list_nodes up to the last step. *)
Lemma listing_keys : node_at s D = Some Dir ->
  (forall n, explicit_child H s path n -> lenZ sfx <= lenZ kp + lenZ n) ->
  exists nes, Forall (fun ne => is_node_ext ne.2) nes /\ (forall n, explicit_child H s path n <-> exists ext, (n, ext) ∈ nes)
  /\ list_nodes p H s path = mapM_res (drain_to (length kp))
       (dedup (sort_strs (map (fun ne => rest ne.1 ne.2) nes ++ map (app kp) (map fst dirs)))).
Proof.
  intros ND FIT. destruct files_docs as (nes & F & E & X). exists nes.
  split; [eapply list.Forall_impl; [exact F|]; by intros ne [? _]|]. split; [done|].
  unfold list_nodes. cbv zeta. rewrite list_dir_plain, bind_ok by (done || apply plain_kp || by rewrite loc_kp).
  rewrite loc_kp, E. rewrite dirs_names.
  assert (F1 : filter (fun k => ends_with sfx k = true) (map (fun ne => kp ++ doc ne.1 ne.2) nes)
               = map (fun ne => kp ++ doc ne.1 ne.2) nes).
  { clear. induction nes as [|ne l IH]; [done|]. cbn [map]. rewrite filter_cons_True; [by rewrite IH|].
    apply ends_with_spec. exists (kp ++ ne.1 ++ dot :: ne.2). unfold doc. by rewrite <- !app_assoc. }
  rewrite F1.
  assert (T1 : mapM_res (truncate_by p (lenZ sfx)) (map (fun ne => kp ++ doc ne.1 ne.2) nes)
               = Ok (map (fun ne => kp ++ ne.1 ++ dot :: ne.2) nes)).
  { clear X E F1. induction F as [|ne l [X1 X2] F IH]; [done|]. cbn [map mapM_res]. rewrite trunc1, bind_ok by done.
    by rewrite IH, bind_ok. }
  rewrite T1, bind_ok.
  assert (F2 : filter (fun k => ends_with ARRAY_METADATA_KEY_EXT k || ends_with GROUP_METADATA_KEY_EXT k = true)
                 (map (fun ne => kp ++ ne.1 ++ dot :: ne.2) nes) = map (fun ne => kp ++ ne.1 ++ dot :: ne.2) nes).
  { clear X E F1 T1. induction F as [|ne l [X1 X2] F IH]; [done|]. cbn [map]. rewrite filter_cons_True; [by rewrite IH|].
    apply orb_true_iff. destruct X1 as [X1|X1]; rewrite X1; [left|right]; apply ends_with_spec;
    exists (kp ++ ne.1 ++ [dot]); by rewrite <- !app_assoc. }
  rewrite F2.
  assert (T2 : mapM_res (truncate_by p (lenZ sfx + lenZ ARRAY_METADATA_KEY_EXT + 1)) (map (fun ne => kp ++ ne.1 ++ dot :: ne.2) nes)
               = Ok (map (fun ne => rest ne.1 ne.2) nes)).
  { assert (C : Forall (fun ne => 0 <= cut ne.1) nes).
    { apply list.Forall_forall. intros [n ext] I. unfold cut. cbn [fst].
      assert (explicit_child H s path n) by (apply X; by exists ext). specialize (FIT n H0). lia. }
    clear X E F1 T1 F2. induction F as [|ne l [X1 X2] F IH]; [done|]. apply list.Forall_cons in C as [C1 C2].
    cbn [map mapM_res]. rewrite trunc2, bind_ok by done. by rewrite IH, bind_ok. }
  by rewrite T2, bind_ok.
Qed.

Lemma list_nodes_ok_in : node_at s D = Some Dir ->
  (forall n, explicit_child H s path n -> lenZ sfx <= lenZ n) ->
  exists l, list_nodes p H s path = Ok l /\ StronglySorted string_lt l
  /\ forall x, x ∈ l <-> child_dir H s path x
       \/ exists n, explicit_child H s path n /\ x = take (length n - length sfx)%nat n.
Proof.
  intros ND L. destruct (listing_keys ND) as (nes & F & X & ->).
  { intros n E. specialize (L n E). pose proof kp_len. lia. }
  set (xs := map (fun ne : bytes * bytes => take (length ne.1 - length sfx)%nat ne.1) nes ++ map fst dirs).
  assert (M : map (fun ne => rest ne.1 ne.2) nes ++ map (app kp) (map fst dirs) = map (app kp) xs).
  { unfold xs. rewrite map_app, !map_map. f_equal. apply map_ext_in. intros [n ext] I. apply elem_of_list_In in I.
    cbn [fst snd]. apply rest_long, L, X. by exists ext. }
  rewrite M. set (ks := dedup (sort_strs (map (app kp) xs))).
  assert (EK : forall k, k ∈ ks <-> k ∈ map (app kp) xs) by (intros k; unfold ks; by rewrite dedup_elem, sort_perm).
  assert (OK : StronglySorted blt ks) by apply dedup_ok, sort_ok.
  assert (exists ys, ks = map (app kp) ys) as [ys Eys].
  { assert (A : forall k, k ∈ ks -> exists y, k = kp ++ y).
    { intros k I. apply EK, elem_of_list_fmap in I as (y & -> & _). by exists y. }
    clear -A. induction ks as [|k ks IH]; [by exists []|]. destruct (A k ltac:(left)) as [y ->].
    destruct IH as [ys ->]; [intros k I; apply A; by right|]. by exists (y :: ys). }
  exists ys. split; [|split].
  - rewrite Eys. clear. induction ys as [|y ys IH]; [done|]. cbn [map mapM_res].
    assert (drain_to (length kp) (kp ++ y) = Ok y) as ->.
    { unfold drain_to. rewrite (proj2 (Nat.leb_le _ _)) by (rewrite (app_length kp y); lia). by rewrite drop_app. }
    by rewrite bind_ok, IH, bind_ok.
  - rewrite Eys in OK. by apply sorted_lex, (sorted_drop kp).
  - intros x. assert (x ∈ ys <-> x ∈ xs) as ->.
    { split; intros I.
      - assert (J : kp ++ x ∈ map (app kp) xs) by (apply EK; rewrite Eys; apply elem_of_list_fmap; by exists x).
        apply elem_of_list_fmap in J as (z & J & K). by apply app_inv_head in J as ->.
      - assert (J : kp ++ x ∈ ks) by (apply EK, elem_of_list_fmap; by exists x).
        rewrite Eys in J. apply elem_of_list_fmap in J as (z & J & K). by apply app_inv_head in J as ->. }
    unfold xs. rewrite elem_of_app, dirs_elem. split.
    + intros [I|I]; [right|by left]. apply elem_of_list_fmap in I as ([n ext] & -> & I). exists n. cbn [fst].
      split; [|done]. apply X. by exists ext.
    + intros [I|(n & I & ->)]; [by right|left]. apply X in I as [ext I]. apply elem_of_list_fmap. by exists (n, ext).
Qed.

(** A short name breaks the listing. *)
Lemma list_nodes_panics_in n : node_at s D = Some Dir -> lenZ sfx <= 11 ->
  explicit_child H s path n -> lenZ n < lenZ sfx -> list_nodes p H s path = Panic.
Proof.
  intros ND S11 E L. destruct (listing_keys ND) as (nes & F & X & ->).
  { intros n' _. pose proof kp_len. pose proof (lenZ_nonneg n'). lia. }
  apply mapM_panic.
  { intros a e. unfold drain_to. by destruct (_ <=? _)%nat. }
  apply X in E as [ext E]. exists (rest n ext). split.
  - rewrite dedup_elem, sort_perm, elem_of_app. left. apply elem_of_list_fmap. by exists (n, ext).
  - unfold drain_to. rewrite (proj2 (Nat.leb_gt _ _)); [done|]. unfold rest. rewrite take_length. unfold cut.
    pose proof kp_len. pose proof (lenZ_nonneg n). unfold lenZ in *. lia.
Qed.
End nodes.

Lemma list_nodes_ok p H s path t :
  plain (hy_base H) -> good_suffix (ep_suffix (hy_ep H)) -> ep_suffix (hy_ep H) = dot :: t ->
  wf_fs s -> real_names s -> documents_only H s -> plain path -> lenZ path < two32 ->
  node_at s (meta_dir H path) = Some Dir ->
  (forall n, explicit_child H s path n -> lenZ (ep_suffix (hy_ep H)) <= lenZ n) ->
  exists l, list_nodes p H s path = Ok l /\ StronglySorted string_lt l
  /\ forall x, x ∈ l <-> child_dir H s path x
       \/ exists n, explicit_child H s path n /\ x = take (length n - length (ep_suffix (hy_ep H)))%nat n.
Proof. intros PB GS SX W RN. apply (list_nodes_ok_in _ _ _ _ t); try done. intros x n. apply RN. Qed.
Lemma list_nodes_panics p H s path t :
  plain (hy_base H) -> good_suffix (ep_suffix (hy_ep H)) -> ep_suffix (hy_ep H) = dot :: t ->
  wf_fs s -> real_names s -> documents_only H s -> plain path -> lenZ path < two32 ->
  forall n, node_at s (meta_dir H path) = Some Dir -> lenZ (ep_suffix (hy_ep H)) <= 11 ->
  explicit_child H s path n -> lenZ n < lenZ (ep_suffix (hy_ep H)) -> list_nodes p H s path = Panic.
Proof. intros PB GS SX W RN. apply (list_nodes_panics_in _ _ _ _ t); try done. intros x n. apply RN. Qed.

(** An explicit group without entries has no directory. *)
Lemma list_nodes_missing p H s path l n : plain (hy_base H) -> good_suffix (ep_suffix (hy_ep H)) -> wf_fs s -> plain path ->
  pieces path = l ++ [n] -> explicit_group H s path -> node_at s (meta_dir H path) = None ->
  list_nodes p H s path = Err NotFound.
Proof.
  intros PB GS W PP E X ND. unfold list_nodes. cbv zeta.
  assert (KP := plain_kp path PP). assert (LK := loc_kp H path).
  apply explicit_g in X; [|done..]. unfold nloc, loc in X. rewrite pieces_node_key in X by first [by right|apply GS].
  destruct (meta_pieces_cases GROUP_METADATA_KEY_EXT (strip_dot (ep_suffix (hy_ep H))) (pieces path) PP)
    as [[Z _]|(l1 & n1 & Z & M)]; [rewrite Z in E; by destruct l|]. rewrite M in X. rewrite E in Z.
  apply app_inj_tail in Z as [<- <-].
  rewrite (list_dir_missing (hy_base H) s _ (pieces (hy_base H) ++ [B "meta"; B "root"] ++ l) n); try done.
  - rewrite LK. unfold meta_dir. rewrite E, <- !app_assoc. done.
  - destruct (file_at s _) as [c|] eqn:F; [|done]. unfold file_at in F. destruct (node_at s _) as [nd|] eqn:Y; [|done].
    rewrite !app_assoc in Y. rewrite <- (app_assoc _ [B "meta"; B "root"]) in Y. eapply wf_prefix; [done|exact Y|done].
  - rewrite <- ND. f_equal. unfold meta_dir. rewrite E, <- !app_assoc. done.
Qed.

(** ** Metadata trees hold documents only *)

Section docs.
Context (H : hier).
Hypothesis PB : plain (hy_base H).
Hypothesis GS : good_suffix (ep_suffix (hy_ep H)).
Notation base := (hy_base H).
Notation sfx := (ep_suffix (hy_ep H)).
Notation AX := ARRAY_METADATA_KEY_EXT.
Notation GX := GROUP_METADATA_KEY_EXT.

Lemma docs_less s s' : documents_only H s ->
  (forall r, file_at s' (pieces base ++ B "meta" :: r) <> None -> file_at s (pieces base ++ B "meta" :: r) <> None) ->
  documents_only H s'.
Proof.
  intros A F r c E. destruct (file_at s (pieces base ++ B "meta" :: r)) as [c'|] eqn:X.
  - by apply (A r c').
  - exfalso. by apply (F r); [rewrite E|].
Qed.
Lemma docs_new s s' path ext : documents_only H s -> plain path -> is_node_ext ext ->
  same_except s s' (nloc H ext path) -> documents_only H s'.
Proof.
  intros A PP Ee SE r c E. destruct (decide (pieces base ++ B "meta" :: r = nloc H ext path)) as [X|X].
  - exists path. split; [done|]. rewrite X. destruct Ee as [->| ->]; [by left|by right].
  - rewrite SE in E by done. by apply (A r c).
Qed.
Lemma api_docs flit C h s o : wf_fs s -> documents_only H s -> api_plain o ->
  wf_fs (api_step flit C h H s o) /\ documents_only H (api_step flit C h H s o).
Proof.
  intros W A O. destruct o as [path m|path|path attrs|path|t path m ck|path m pos|t path m off arr]; cbn [api_step api_plain] in *.
  - unfold create_array, akey, gkey, array_metadata_key, group_metadata_key.
    assert (PA : plain (metadata_key AX sfx path)) by (apply nloc_plain; [done|by left|done]).
    assert (PG : plain (metadata_key GX sfx path)) by (apply nloc_plain; [done|by right|done]).
    rewrite !st_exists_plain by done. cbn [on].
    destruct (file_at s (loc base (metadata_key GX sfx path))) eqn:EG; [done|]. cbn [on].
    destruct (file_at s (loc base (metadata_key AX sfx path))) eqn:EA; [done|].
    destruct (st_set base s _ _) as [s' r] eqn:E. apply st_set_effect in E as (W' & SE & _ & _); [|done..].
    split; [done|]. by apply (docs_new s s' path AX); [..|by left|].
  - unfold create_group, akey, gkey, array_metadata_key, group_metadata_key.
    assert (PA : plain (metadata_key AX sfx path)) by (apply nloc_plain; [done|by left|done]).
    assert (PG : plain (metadata_key GX sfx path)) by (apply nloc_plain; [done|by right|done]).
    rewrite !st_exists_plain by done. cbn [on].
    destruct (file_at s (loc base (metadata_key AX sfx path))) eqn:EA; [done|]. cbn [on].
    destruct (file_at s (loc base (metadata_key GX sfx path))) eqn:EG; [done|].
    destruct (st_set base s _ _) as [s' r] eqn:E. apply st_set_effect in E as (W' & SE & _ & _); [|done..].
    split; [done|]. by apply (docs_new s s' path GX); [..|by right|].
  - destruct (set_attributes H s path attrs) as [s1 r1] eqn:E. apply set_attributes_less in E as [W' L]; [|done..].
    split; [done|]. apply (docs_less s); [done|]. intros q. apply L.
  - destruct (Hier.remove H s path) as [s1 r1] eqn:E. apply remove_effect in E as (W' & L & _); [|done..].
    split; [done|]. apply (docs_less s); [done|]. intros q. apply L.
  - destruct O as (O1 & O2 & O3). destruct (write_chunk C h H s t path m ck) as [s' r] eqn:E.
    apply write_chunk_effect in E as (W' & SE & _); [|done..]. split; [done|]. cbn [fst].
    apply (docs_less s); [done|]. intros q. rewrite (same_except_meta _ _ _ _ _ _ SE). done.
  - destruct O as (O1 & O2 & O3). destruct (delete_chunk H s path m pos) as [s' r] eqn:E.
    apply delete_chunk_effect in E as (W' & SE & _); [|done..]. split; [done|]. cbn [fst].
    apply (docs_less s); [done|]. intros q. rewrite (same_except_meta _ _ _ _ _ _ SE). done.
  - destruct O as (O1 & O2 & O3). destruct (write_ndarray flit C h H s t path m off arr) as [s' r] eqn:E.
    apply write_ndarray_frame in E as (W' & _ & F); [|done..]. split; [done|]. cbn [fst].
    apply (docs_less s); [done|]. intros q. rewrite F; [done|]. intros pos _ _ X.
    symmetry in X. by apply chunk_not_meta in X.
Qed.
Lemma docs_history flit C h os : forall s, wf_fs s -> documents_only H s -> Forall api_plain os ->
  wf_fs (fold_left (api_step flit C h H) os s) /\ documents_only H (fold_left (api_step flit C h H) os s).
Proof.
  induction os as [|o os IH]; intros s W A O; [done|]. apply list.Forall_cons in O as [O1 O2].
  destruct (api_docs flit C h s o W A O1) as [W' A']. by apply IH.
Qed.
Lemma docs_fresh s : fresh_hierarchy s base -> documents_only H s.
Proof.
  intros (W & _ & M & _) r c E. exfalso. unfold file_at in E.
  destruct (node_at s (pieces base ++ B "meta" :: r)) as [nd|] eqn:X; [|done].
  destruct r as [|x r]; [by rewrite M in X|].
  change (pieces base ++ B "meta" :: x :: r) with (pieces base ++ [B "meta"] ++ x :: r) in X. rewrite app_assoc in X.
  assert (node_at s (pieces base ++ [B "meta"]) = Some Dir) by by eapply wf_prefix. congruence.
Qed.
End docs.

(** ** list and list_prefix *)

Lemma list_flat base s fuel P : wf_fs s -> plain base -> plain P ->
  node_at s (loc base P) = Some Dir -> (forall n, node_at s (loc base P ++ [n]) <> Some Dir) ->
  exists l, list_prefix base s (S fuel) P = Some (Ok l) /\ NoDup l
  /\ forall k, k ∈ l <-> exists n c, k = P ++ n /\ file_at s (loc base P ++ [n]) = Some c.
Proof.
  intros W PB PP D ND. unfold list_prefix. cbn [list_prefix_loop rev app]. rewrite list_dir_plain by done.
  assert (NE : forall n, loc base P ++ [n] <> []) by by destruct (loc base P).
  assert (filter (fun e : bytes * node => is_dir_node e.2 = true) (entries_of s (loc base P)) = []) as ->.
  { destruct (filter _ _) as [|[n nd] l] eqn:E; [done|].
    assert (I : (n, nd) ∈ filter (fun e : bytes * node => is_dir_node e.2 = true) (entries_of s (loc base P)))
      by (rewrite E; left).
    apply elem_of_list_filter in I as [I1 I2]. apply entries_elem in I2. cbn [snd] in I1. destruct nd; [|done].
    exfalso. apply (ND n). by rewrite node_at_ne. }
  cbn [map]. cbn [rev app]. destruct fuel; cbn [list_prefix_loop rev].
  all: eexists; split; [reflexivity|]; split.
  1,3: apply (list.NoDup_fmap_2_strong (fun e : bytes * node => P ++ e.1));
    [|apply list.NoDup_filter, (list.NoDup_fmap_1 fst), entries_nodup].
  1,2: intros [n nd] [n' nd'] I I' E; cbn [fst] in E; apply app_inv_head in E as <-;
    apply elem_of_list_filter in I as [_ I]; apply elem_of_list_filter in I' as [_ I'];
    apply entries_elem in I; apply entries_elem in I'; congruence.
  all: intros k; rewrite elem_of_list_fmap; split.
  1,3: intros ([n nd] & -> & I); apply elem_of_list_filter in I as [I1 I2]; apply entries_elem in I2; cbn [fst snd] in *;
    destruct nd as [|c]; [done|]; exists n, c; split; [done|]; unfold file_at; by rewrite node_at_ne, I2.
  all: intros (n & c & -> & F); unfold file_at in F; rewrite node_at_ne in F by done;
    destruct (s !! (loc base P ++ [n])) as [[|c']|] eqn:X; try done;
    exists (n, File c'); split; [done|]; apply elem_of_list_filter; split; [done|by apply entries_elem].
Qed.

Lemma list_dir_names base s P ks ps : real_names s -> st_list_dir base s P = Ok (ks, ps) ->
  forall k, k ∈ ks ++ ps -> exists n, k = P ++ n /\ slash ∉ n.
Proof.
  intros RN E k I. unfold st_list_dir in E. apply bind_ok_inv in E as (cs & _ & E). apply bind_ok_inv in E as (q & _ & E).
  destruct (node_at s q) as [[|c]|]; [|done..]. injection E as <- <-.
  assert (exists e, e ∈ entries_of s q /\ k = P ++ e.1) as ([n nd] & J & ->).
  { apply elem_of_app in I as [I|I]; apply elem_of_list_fmap in I as (e & -> & I); exists e;
      apply elem_of_list_filter in I as [_ I]; done. }
  apply entries_elem in J. exists n. split; [done|]. by apply (RN _ _ _ J).
Qed.
Definition one_level (k : bytes) : Prop := exists x, k = slash :: x /\ slash ∉ x.
Lemma list_loop_flat base s fuel : real_names s -> forall tv res l,
  Forall one_level tv -> Forall one_level res ->
  list_prefix_loop (st_list_dir base s) fuel tv res = Some (Ok l) -> Forall one_level l.
Proof.
  intros RN. induction fuel as [|f IH]; intros tv res l T R E; cbn [list_prefix_loop] in E.
  - destruct (rev tv) as [|next rest] eqn:V; [by injection E as <-|done].
  - destruct (rev tv) as [|next rest] eqn:V; [by injection E as <-|].
    apply rev_eq_cons in V. rewrite V in T. apply list.Forall_app in T as [T1 T2]. apply list.Forall_cons in T2 as [(x & -> & NX) _].
    destruct (st_list_dir base s _) as [[ks ps]|e|] eqn:L; [|done..].
    assert (G : Forall one_level (ks ++ ps)).
    { apply list.Forall_forall. intros k I. destruct (list_dir_names base s _ ks ps RN L k I) as (n & -> & NN).
      exists (x ++ n). split; [done|]. rewrite elem_of_app. tauto. }
    apply list.Forall_app in G as [G1 G2]. eapply IH; [..|exact E]; apply list.Forall_app; done.
Qed.
Lemma list_keys_flat base s fuel l k k' : real_names s ->
  list_keys base s fuel = Some (Ok l) -> (2 <= length (pieces k))%nat -> pieces k' = pieces k -> k' ∉ l.
Proof.
  intros RN E L P I. apply (list_loop_flat base s fuel RN [B "/"] [] l) in E; [|apply Forall_cons_2; [|constructor]|constructor].
  2: { exists []. split; [done|apply not_elem_of_nil]. }
  rewrite list.Forall_forall in E. destruct (E k' I) as (x & -> & NX). rewrite pieces_slash in P.
  rewrite <- P in L. unfold pieces in L. rewrite split_noslash in L by done.
  assert (length (filter (fun p : bytes => is_junk p = false) [x]) <= length [x])%nat by apply filter_length. cbn in *. lia.
Qed.

Lemma list_keys_fails base s fuel l : wf_fs s -> plain base ->
  node_at s (pieces base ++ [B "meta"; B "root"]) = Some Dir ->
  node_at s (pieces base ++ [B "metaroot"]) = None ->
  list_keys base s fuel <> Some (Ok l).
Proof.
  intros W PB D N.
  assert (DB : node_at s (pieces base) = Some Dir) by by eapply wf_prefix.
  assert (DM : node_at s (pieces base ++ [B "meta"]) = Some Dir).
  { change [B "meta"; B "root"] with ([B "meta"] ++ [B "root"]) in D. rewrite app_assoc in D. by eapply wf_prefix. }
  assert (PL : forall x, x = B "/" \/ x = B "/meta" \/ x = B "/metaroot" -> plain x).
  { intros x [->|[->| ->]]; by apply (bool_decide_eq_true_1 _). }
  assert (L0 : forall ks ps, st_list_dir base s (B "/") = Ok (ks, ps) -> B "/meta" ∈ ps).
  { intros ks ps E. rewrite list_dir_plain in E; [|done|done|apply PL; tauto|unfold loc; by rewrite app_nil_r].
    injection E as _ <-. apply elem_of_list_fmap. exists (B "meta", Dir). split; [done|].
    apply elem_of_list_filter. split; [done|]. apply entries_elem. unfold loc. rewrite app_nil_r.
    by rewrite node_at_ne in DM by by destruct (pieces base). }
  assert (L1 : forall ks ps, st_list_dir base s (B "/meta") = Ok (ks, ps) -> B "/metaroot" ∈ ps).
  { intros ks ps E. rewrite list_dir_plain in E; [|done|done|apply PL; tauto|done].
    injection E as _ <-. apply elem_of_list_fmap. exists (B "root", Dir). split; [done|].
    apply elem_of_list_filter. split; [done|]. apply entries_elem. unfold loc.
    change (pieces (B "/meta")) with [B "meta"]. rewrite <- app_assoc. by rewrite node_at_ne in D by by destruct (pieces base). }
  assert (L2 : st_list_dir base s (B "/metaroot") = Err NotFound).
  { eapply list_dir_missing; [done|done|apply PL; tauto|reflexivity|done|done]. }
  unfold list_keys, list_prefix.
  assert (G : forall fuel tv res, B "/" ∈ tv \/ B "/meta" ∈ tv \/ B "/metaroot" ∈ tv ->
    list_prefix_loop (st_list_dir base s) fuel tv res <> Some (Ok l)).
  { clear fuel. induction fuel as [|f IH]; intros tv res I; cbn [list_prefix_loop].
    - destruct (rev tv) as [|next rest] eqn:V; [|done]. apply rev_eq_nil in V. subst. exfalso.
      destruct I as [I|[I|I]]; by apply elem_of_nil in I.
    - destruct (rev tv) as [|next rest] eqn:V.
      { apply rev_eq_nil in V. subst. exfalso. destruct I as [I|[I|I]]; by apply elem_of_nil in I. }
      apply rev_eq_cons in V. subst tv.
      destruct (st_list_dir base s next) as [[ks ps]|e|] eqn:E; [|done..]. apply IH.
      rewrite !elem_of_app, !elem_of_list_singleton in I. rewrite !elem_of_app.
      destruct I as [[I|I]|[[I|I]|[I|I]]]; [tauto| |tauto| |tauto|].
      + subst next. apply L0 in E. tauto.
      + subst next. apply L1 in E. tauto.
      + subst next. congruence. }
  apply G. left. by left.
Qed.

(** For examples: the names of explicit children from the directory entries. *)
Lemma long_names_check H s path t : good_suffix (ep_suffix (hy_ep H)) -> plain (hy_base H) ->
  ep_suffix (hy_ep H) = dot :: t -> wf_fs s ->
  forallb (fun e : bytes * node => is_dir_node e.2 || (2 * lenZ (ep_suffix (hy_ep H)) + 6 <=? lenZ e.1))
    (entries_of s (meta_dir H path)) = true ->
  forall n, explicit_child H s path n -> lenZ (ep_suffix (hy_ep H)) <= lenZ n.
Proof.
  intros GS PB SX W L n X. apply (explicit_iff H s path t) in X as (path' & ext & Ee & _ & _ & F); [|done..].
  unfold file_at in F. destruct (node_at s (meta_dir H path ++ [doc H n ext])) as [nd|] eqn:N; [|done].
  rewrite node_at_ne in N by by destruct (meta_dir H path). apply entries_elem, elem_of_list_In in N.
  rewrite forallb_forall in L. specialize (L _ N). cbn [fst snd] in L. destruct nd as [|c]; [done|].
  cbn [is_dir_node orb] in L. rewrite doc_len in L by done. lia.
Qed.
