(** Facts about path strings, components and keys. *)
From Verif Require Export Path Spec BaseFacts.

Definition noslash (p : bytes) : Prop := slash ∉ p.
Notation nj := (fun p : bytes => is_junk p = false).

Lemma comps_pieces s : comps s = map comp_of (pieces s).
Proof. done. Qed.

(** ** split and join *)

Lemma split_ne s : split_slash s <> [].
Proof. destruct s as [|b r]; simpl; [done|]. case_bool_decide; [done|]. by destruct (split_slash r). Qed.

Lemma split_app a b : split_slash (a ++ slash :: b) = split_slash a ++ split_slash b.
Proof.
  induction a as [|x a IH]; simpl.
  - done.
  - case_bool_decide; rewrite IH; [done|].
    destruct (split_slash a) eqn:E; [by apply split_ne in E|done].
Qed.

Lemma split_noslash s : noslash s -> split_slash s = [s].
Proof.
  induction s as [|x s IH]; intros N; [done|]. simpl.
  rewrite bool_decide_false by (intros ->; apply N; left).
  rewrite IH; [done|]. intros I; apply N; by right.
Qed.

Lemma split_all_noslash s : Forall noslash (split_slash s).
Proof.
  induction s as [|x s IH]; simpl; [constructor; [apply not_elem_of_nil|constructor]|].
  case_bool_decide; [constructor; [apply not_elem_of_nil|done]|].
  destruct (split_slash s) as [|p ps]; inversion IH; subst; constructor; [| done | |done].
  - intros ?%elem_of_list_singleton; done.
  - intros [E|?]%elem_of_cons; [by subst|]. done.
Qed.

Lemma join_cons p l : l <> [] -> join_slash (p :: l) = p ++ slash :: join_slash l.
Proof. destruct l; done. Qed.

Lemma join_split s : join_slash (split_slash s) = s.
Proof.
  induction s as [|x s IH]; [done|]. simpl. case_bool_decide.
  - subst. rewrite join_cons by apply split_ne. by rewrite IH.
  - destruct (split_slash s) as [|p ps] eqn:E; [by apply split_ne in E|].
    destruct ps; simpl in *; by rewrite IH.
Qed.

Lemma split_join l : l <> [] -> Forall noslash l -> split_slash (join_slash l) = l.
Proof.
  induction l as [|p l IH]; [done|]. intros _ F. inversion F; subst.
  destruct l as [|q l]; [simpl; by apply split_noslash|].
  rewrite join_cons by done. rewrite split_app, split_noslash by done.
  rewrite IH; done.
Qed.

Lemma pieces_app a b : pieces (a ++ slash :: b) = pieces a ++ pieces b.
Proof. unfold pieces. by rewrite split_app, list.filter_app. Qed.
Lemma comps_app a b : comps (a ++ slash :: b) = comps a ++ comps b.
Proof. by rewrite !comps_pieces, pieces_app, map_app. Qed.
Lemma pieces_nil : pieces [] = [].
Proof. done. Qed.
Lemma pieces_slash s : pieces (slash :: s) = pieces s.
Proof. apply (pieces_app [] s). Qed.
Lemma pieces_snoc_slash s : pieces (s ++ [slash]) = pieces s.
Proof. rewrite (pieces_app s []). apply app_nil_r. Qed.
Lemma pieces_noslash s : Forall noslash (pieces s).
Proof.
  apply list.Forall_forall. intros p Hp. apply elem_of_list_filter in Hp as [_ Hp].
  pose proof (split_all_noslash s) as F. rewrite list.Forall_forall in F. by apply F.
Qed.
Lemma pieces_nj s : Forall nj (pieces s).
Proof. apply list.Forall_forall. intros p Hp. by apply elem_of_list_filter in Hp as [? _]. Qed.

Lemma filter_rev_ {A} (P : A -> Prop) `{!forall x, Decision (P x)} (l : list A) :
  filter P (rev l) = rev (filter P l).
Proof.
  induction l as [|x l IH]; [done|]. simpl. rewrite list.filter_app, IH.
  rewrite (filter_cons _ x l), (filter_cons _ x []). case_decide; simpl; [done|].
  by rewrite app_nil_r.
Qed.

Lemma filter_trim_front l : filter nj (trim_front l) = filter nj l.
Proof.
  induction l as [|p l IH]; [done|]. simpl. destruct (is_junk p) eqn:E; [|done].
  rewrite IH, filter_cons_False; [done|congruence].
Qed.
Lemma filter_trim_back l : filter nj (trim_back l) = filter nj l.
Proof. unfold trim_back. by rewrite filter_rev_, filter_trim_front, filter_rev_, rev_involutive. Qed.

Lemma trim_front_suffix l : exists k, l = k ++ trim_front l /\ Forall (fun p => is_junk p = true) k.
Proof.
  induction l as [|p l [k [E F]]]; [by exists []|]. simpl.
  destruct (is_junk p) eqn:J; [|by exists []].
  exists (p :: k). split; [by rewrite E at 1|by constructor].
Qed.
Lemma trim_front_sub P (l : list bytes) : Forall P l -> Forall P (trim_front l).
Proof. intros F. destruct (trim_front_suffix l) as [k [E _]]. rewrite E in F. by apply list.Forall_app in F as [_ ?]. Qed.
Lemma Forall_rev_ {A} (P : A -> Prop) l : Forall P l -> Forall P (rev l).
Proof. intros F. apply list.Forall_forall. intros x Hx. rewrite list.Forall_forall in F. apply F. rewrite elem_of_list_In in *. by apply in_rev. Qed.
Lemma trim_back_sub P (l : list bytes) : Forall P l -> Forall P (trim_back l).
Proof. intros F. apply Forall_rev_, trim_front_sub, Forall_rev_, F. Qed.

Lemma pieces_join l : Forall noslash l -> pieces (join_slash l) = filter nj l.
Proof.
  intros F. destruct l as [|p l]; [done|]. unfold pieces.
  rewrite split_join; done.
Qed.

(** ** canonicalize_path *)

Lemma pieces_trim_start s : pieces (trim_start_slash s) = pieces s.
Proof.
  induction s as [|x s IH]; [done|]. simpl. case_bool_decide; [|done].
  subst. by rewrite IH, pieces_slash.
Qed.
Lemma trim_end_spec s : exists n, s = trim_end_slash s ++ replicate n slash.
Proof.
  unfold trim_end_slash.
  assert (G : forall r, exists n, r = replicate n slash ++ trim_start_slash r).
  { induction r as [|x r [n E]]; [by exists 0%nat|]. simpl. case_bool_decide.
    - subst. exists (S n). simpl. by rewrite <- E.
    - by exists 0%nat. }
  destruct (G (rev s)) as [n E]. exists n.
  transitivity (rev (rev s)); [by rewrite rev_involutive|].
  rewrite E at 1. rewrite rev_app_distr. f_equal.
  clear. induction n as [|n IH]; [done|]. simpl. rewrite IH.
  symmetry. apply (replicate_S_end n slash).
Qed.
Lemma pieces_trim_end s : pieces (trim_end_slash s) = pieces s.
Proof.
  destruct (trim_end_spec s) as [n E]. rewrite E at 2. clear E.
  induction n as [|n IH]; [simpl; by rewrite app_nil_r|].
  rewrite replicate_S_end, app_assoc, pieces_snoc_slash. done.
Qed.
Lemma pieces_canon s : pieces (canonicalize_path s) = pieces s.
Proof. unfold canonicalize_path. by rewrite pieces_trim_end, pieces_trim_start. Qed.

Lemma trim_start_noroot s : has_root (trim_start_slash s) = false.
Proof. induction s as [|x s IH]; [done|]. simpl. case_bool_decide; [done|]. simpl. by rewrite bool_decide_false. Qed.
Lemma trim_start_id s : has_root s = false -> trim_start_slash s = s.
Proof. destruct s as [|x s]; [done|]. simpl. intros E. rewrite E. done. Qed.
Lemma canon_noroot s : has_root (canonicalize_path s) = false.
Proof.
  unfold canonicalize_path. pose proof (trim_start_noroot s) as N.
  set (u := trim_start_slash s) in *. destruct (trim_end_spec u) as [n E].
  destruct (trim_end_slash u) as [|x v]; [done|]. rewrite E in N. done.
Qed.

(** ** join, get_path *)

Lemma pieces_path_join base p :
  has_root p = false -> pieces (path_join base p) = pieces base ++ pieces p.
Proof.
  intros N. unfold path_join. rewrite N.
  destruct (list.last base) as [b|] eqn:L.
  - apply last_Some in L as [l' ->]. case_bool_decide.
    + subst. rewrite <- app_assoc. simpl. rewrite pieces_app, pieces_snoc_slash. done.
    + apply pieces_app.
  - apply last_None in L as ->. done.
Qed.

Lemma trim_front_head l : match trim_front l with p :: _ => is_junk p = false | [] => True end.
Proof. induction l as [|p l IH]; [done|]. simpl. destruct (is_junk p) eqn:E; [exact IH|done]. Qed.

Lemma junk_nil : is_junk [] = true.
Proof. done. Qed.
Lemma junk_dot : is_junk [dot] = true.
Proof. done. Qed.
Lemma nj_ne p : is_junk p = false -> p <> [] /\ p <> [dot].
Proof. unfold is_junk. intros E. apply orb_false_iff in E as [E1 E2]. by rewrite beq_false in E1, E2. Qed.
Lemma nj_intro p : p <> [] -> p <> [dot] -> is_junk p = false.
Proof. intros. unfold is_junk. apply orb_false_iff. by rewrite !beq_false. Qed.

Lemma has_root_join l : Forall noslash l ->
  match l with [] :: _ :: _ => False | _ => True end -> has_root (join_slash l) = false.
Proof.
  intros F N. destruct l as [|p l]; [done|]. inversion F; subst.
  destruct p as [|x p].
  - destruct l; done.
  - assert (x <> slash) by (intros ->; apply H1; left).
    destruct l; simpl; by rewrite bool_decide_false.
Qed.

Lemma trim_back_cons p l : is_junk p = false -> trim_back (p :: l) = p :: trim_back l.
Proof.
  intros N. unfold trim_back. simpl.
  assert (G : forall k, trim_front (k ++ [p]) = trim_front k ++ [p]).
  { induction k as [|q k IH]; cbn [app trim_front]; [by rewrite N|].
    destruct (is_junk q); [exact IH|done]. }
  rewrite G, rev_app_distr. done.
Qed.

Lemma trim_back_prefix l : exists k, l = trim_back l ++ k.
Proof.
  unfold trim_back. destruct (trim_front_suffix (rev l)) as [k [E _]].
  exists (rev k). transitivity (rev (rev l)); [by rewrite rev_involutive|].
  rewrite E at 1. by rewrite rev_app_distr.
Qed.

Lemma unrooted_noroot key : has_root (unrooted key) = false.
Proof.
  unfold unrooted. pose proof (split_all_noslash key) as F.
  destruct (has_root key) eqn:R.
  - apply has_root_join; [by apply trim_back_sub, trim_front_sub|].
    pose proof (trim_front_head (split_slash key)) as Hh.
    destruct (trim_front (split_slash key)) as [|p l]; [done|].
    rewrite trim_back_cons by done. destruct p; done.
  - destruct (split_slash key) as [|p ps] eqn:E; [done|].
    inversion F; subst.
    destruct (beq p [dot]) eqn:D.
    + apply beq_true in D as ->. apply has_root_join; [constructor; [done|by apply trim_back_sub]|done].
    + apply has_root_join; [by apply trim_back_sub|].
      destruct (trim_back_prefix (p :: ps)) as [k K].
      destruct (trim_back (p :: ps)) as [|q l]; [done|].
      simpl in K. injection K as <- K. destruct p; [|done].
      destruct l; [done|]. exfalso.
      (* key starts with a slash *)
      destruct key as [|x key]; [simpl in E; injection E as <-; done|].
      simpl in E, R. case_bool_decide; [done|].
      destruct (split_slash key); congruence.
Qed.

Lemma pieces_unrooted key : pieces (unrooted key) = pieces key.
Proof.
  unfold unrooted. pose proof (split_all_noslash key) as F.
  destruct (has_root key) eqn:R.
  - rewrite pieces_join by (by apply trim_back_sub, trim_front_sub).
    by rewrite filter_trim_back, filter_trim_front.
  - destruct (split_slash key) as [|p ps] eqn:E; [by apply split_ne in E|].
    inversion F; subst.
    destruct (beq p [dot]) eqn:D.
    + apply beq_true in D as ->.
      rewrite pieces_join by (constructor; [done|by apply trim_back_sub]).
      unfold pieces. rewrite E. rewrite !filter_cons_False by done.
      apply filter_trim_back.
    + rewrite pieces_join by (by apply trim_back_sub).
      unfold pieces. by rewrite E, filter_trim_back.
Qed.

Lemma get_path_spec base key :
  match get_path base key with
  | Ok p => 0 <= nest (comps key) /\ comps p = comps base ++ comps key
  | Err e => nest (comps key) < 0 /\ e = NotFound
  | Panic => False
  end.
Proof.
  unfold get_path. rewrite comps_pieces, pieces_unrooted, <- comps_pieces.
  destruct (Z.ltb_spec (nest (comps key)) 0); [done|].
  split; [done|]. rewrite (comps_pieces (path_join _ _)), pieces_path_join by apply unrooted_noroot.
  by rewrite map_app, pieces_unrooted.
Qed.

(** ** File names and extensions *)

Lemma rsplit_dot_none e : dot ∉ e -> rsplit_dot e = None.
Proof.
  induction e as [|b e IH]; intros N; [done|]. simpl.
  rewrite IH by (intros I; apply N; by right).
  rewrite bool_decide_false; [done|]. intros ->; apply N; left.
Qed.
Lemma rsplit_dot_some s u v : rsplit_dot s = Some (u, v) -> s = u ++ dot :: v.
Proof.
  revert u v. induction s as [|b s IH]; intros u v; [done|]. simpl.
  destruct (rsplit_dot s) as [[u' v']|].
  - intros [= <- <-]. simpl. by rewrite <- (IH _ _ eq_refl).
  - case_bool_decide; [|done]. intros [= <- <-]. by subst.
Qed.
Lemma rsplit_dot_app n e : dot ∉ e -> rsplit_dot (n ++ dot :: e) = Some (n, e).
Proof.
  intros N. induction n as [|b n IH]; simpl.
  - by rewrite rsplit_dot_none.
  - by rewrite IH.
Qed.

Lemma split_ext_cases n :
  (split_ext n = (n, None)) \/
  exists stem e, split_ext n = (stem, Some e) /\ n = stem ++ dot :: e /\ stem <> [].
Proof.
  unfold split_ext. destruct (rsplit_dot n) as [[[|b u] v]|] eqn:E; [by left| |by left].
  right. exists (b :: u), v. split; [done|]. split; [|done]. by apply rsplit_dot_some.
Qed.
Lemma split_ext_app n e : n <> [] -> dot ∉ e -> split_ext (n ++ dot :: e) = (n, Some e).
Proof.
  intros N D. unfold split_ext. rewrite rsplit_dot_app by done.
  destruct n; done.
Qed.

(** A name that is a proper component. *)
Definition name_ok (n : bytes) : Prop := noslash n /\ is_junk n = false /\ n <> dotdot.

Lemma trim_front_rev_snoc l n : is_junk n = false -> trim_front (rev (l ++ [n])) = n :: rev l.
Proof. intros J. rewrite rev_app_distr. simpl. by rewrite J. Qed.
Lemma trim_back_snoc l n : is_junk n = false -> trim_back (l ++ [n]) = l ++ [n].
Proof. intros J. unfold trim_back. rewrite trim_front_rev_snoc by done. simpl. by rewrite rev_involutive. Qed.

Lemma split_name_some s ps n : split_name s = Some (ps, n) ->
  name_ok n /\ Forall noslash ps /\ pieces s = filter nj ps ++ [n].
Proof.
  unfold split_name.
  assert (F := trim_back_sub _ _ (split_all_noslash s)).
  assert (P : filter nj (trim_back (split_slash s)) = pieces s) by apply filter_trim_back.
  assert (Q := trim_front_head (rev (split_slash s))).
  unfold trim_back in *. rewrite rev_involutive in *.
  destruct (trim_front (rev (split_slash s))) as [|q r]; [done|].
  destruct (beq q dotdot) eqn:D; [done|]. intros [= <- <-].
  simpl in F, P. apply list.Forall_app in F as [F1 F2]. inversion F2; subst.
  rewrite list.filter_app, filter_cons_True in P by done.
  split; [|split; [done|]]; [|by rewrite <- P].
  split; [done|split; [done|by apply beq_false]].
Qed.

Lemma split_name_none s : split_name s = None ->
  pieces s = [] \/ exists l, pieces s = l ++ [dotdot].
Proof.
  unfold split_name.
  assert (P : filter nj (trim_back (split_slash s)) = pieces s) by apply filter_trim_back.
  assert (Q := trim_front_head (rev (split_slash s))).
  unfold trim_back in *. rewrite rev_involutive in *.
  destruct (trim_front (rev (split_slash s))) as [|q r]; [by left|].
  destruct (beq q dotdot) eqn:D; [|done]. intros _. right.
  apply beq_true in D as ->. simpl in P.
  rewrite list.filter_app, filter_cons_True in P by done. by eexists.
Qed.

Lemma split_name_join ps n : Forall noslash ps -> name_ok n ->
  split_name (join_slash (ps ++ [n])) = Some (ps, n).
Proof.
  intros F [N1 [N2 N3]]. unfold split_name.
  rewrite split_join; [|by destruct ps|apply list.Forall_app; split; [done|by constructor; [|constructor]]].
  rewrite trim_back_snoc by done. rewrite rev_app_distr. simpl.
  rewrite (proj2 (beq_false _ _) N3). by rewrite rev_involutive.
Qed.

Lemma name_ok_ext n e : name_ok n -> noslash e -> e <> [] -> name_ok (n ++ dot :: e).
Proof.
  intros [N1 [N2 N3]] E1 E2. apply nj_ne in N2 as [N2 N2'].
  split; [|split].
  - intros [?|[?|?]%elem_of_cons]%elem_of_app; done.
  - apply nj_intro; destruct n as [|a [|b n]], e; done.
  - destruct n as [|a [|b n]]; [done| |destruct n; done].
    intros [= -> ?]. destruct e; done.
Qed.
Lemma name_ok_dot n e : name_ok n -> noslash e -> dot ∈ n -> name_ok (n ++ dot :: e).
Proof.
  intros [N1 [N2 N3]] E1 E2. apply nj_ne in N2 as [N2 N2'].
  split; [|split].
  - intros [?|[?|?]%elem_of_cons]%elem_of_app; done.
  - apply nj_intro; destruct n as [|a [|b n]], e; done.
  - destruct n as [|a [|b n]]; [done| |destruct n; done].
    apply elem_of_list_singleton in E2. subst. done.
Qed.

Lemma app_noslash a b : noslash (a ++ b) <-> noslash a /\ noslash b.
Proof. unfold noslash. rewrite elem_of_app. tauto. Qed.
Lemma cons_noslash x b : noslash (x :: b) <-> x <> slash /\ noslash b.
Proof. unfold noslash. rewrite elem_of_cons. intuition congruence. Qed.

(** add_extension appends "." and the extension to the file name. *)
Lemma add_extension_name s ps n ext :
  split_name s = Some (ps, n) -> noslash ext -> ext <> [] \/ snd (split_ext n) <> None ->
  add_extension s ext = join_slash (ps ++ [n ++ dot :: ext]).
Proof.
  intros E N O. unfold add_extension, extension, set_extension. rewrite E.
  destruct (split_ext_cases n) as [H|(stem & e & H & -> & Hs)]; rewrite H in *; simpl in *.
  - destruct O as [O|O]; [|done]. destruct ext; [done|]. done.
  - rewrite <- app_assoc. simpl. destruct (e ++ dot :: ext) eqn:X; [by destruct e|].
    by rewrite <- X.
Qed.

Lemma add_two_extensions s ps n ext sfx :
  split_name s = Some (ps, n) -> noslash ext -> dot ∉ ext -> ext <> [] -> noslash sfx ->
  add_extension (add_extension s ext) sfx =
    join_slash (ps ++ [n ++ dot :: ext ++ dot :: sfx]).
Proof.
  intros E N D NE S. pose proof (split_name_some _ _ _ E) as (Nn & F & _).
  rewrite (add_extension_name s ps n ext) by auto.
  assert (O : name_ok (n ++ dot :: ext)) by by apply name_ok_ext.
  rewrite (add_extension_name _ ps (n ++ dot :: ext) sfx).
  - rewrite <- app_assoc. done.
  - by apply split_name_join.
  - done.
  - right. rewrite split_ext_app; [done| |done]. destruct Nn as [_ [J _]]. by apply nj_ne in J as [? _].
Qed.

Lemma add_extension_none s ext : split_name s = None -> add_extension s ext = s.
Proof. intros E. unfold add_extension, extension, set_extension. by rewrite E. Qed.

(** ** Keys as component lists *)

(** Pieces of a metadata key, from the pieces of the node path. *)
Definition meta_pieces (ext sfx : bytes) (ps : list bytes) : list bytes :=
  let tag n := n ++ dot :: ext ++ dot :: sfx in
  match rev ps with
  | [] => [B "meta"; tag (B "root")]
  | n :: r => if beq n dotdot then [B "meta"; B "root"] ++ ps
              else [B "meta"; B "root"] ++ rev r ++ [tag n]
  end.

Lemma pieces_metadata_key ext sfx path :
  noslash ext -> dot ∉ ext -> ext <> [] -> noslash (strip_dot sfx) ->
  pieces (metadata_key ext sfx path) = meta_pieces ext (strip_dot sfx) (pieces path).
Proof.
  intros E1 E2 E3 S. unfold metadata_key.
  set (s := path_join META_ROOT_PATH (canonicalize_path path)).
  assert (P : pieces s = [B "meta"; B "root"] ++ pieces path).
  { unfold s. rewrite pieces_path_join by apply canon_noroot. by rewrite pieces_canon. }
  destruct (split_name s) as [[ps n]|] eqn:Q.
  - rewrite (add_two_extensions s ps n) by done.
    destruct (split_name_some _ _ _ Q) as (Nn & F & R).
    assert (O : name_ok (n ++ dot :: ext ++ dot :: strip_dot sfx)).
    { rewrite app_comm_cons, app_assoc. apply name_ok_dot; [by apply name_ok_ext|done|].
      apply elem_of_app; right; left. }
    destruct O as [O1 [O2 O3]].
    rewrite pieces_join by (apply list.Forall_app; split; [done|by constructor; [|constructor]]).
    rewrite list.filter_app, filter_cons_True by done. rewrite filter_nil.
    rewrite P in R. unfold meta_pieces. destruct Nn as [_ [_ Nd]].
    destruct (rev (pieces path)) as [|x r] eqn:X.
    + apply (f_equal (@rev bytes)) in X. rewrite rev_involutive in X. simpl in X.
      rewrite X, app_nil_r in R.
      change [B "meta"; B "root"] with ([B "meta"] ++ [B "root"]) in R.
      apply app_inj_tail in R as [<- <-]. done.
    + apply (f_equal (@rev bytes)) in X. rewrite rev_involutive in X. simpl in X.
      rewrite X, app_assoc in R. apply app_inj_tail in R as [R1 R2]. subst n.
      rewrite (proj2 (beq_false _ _) Nd). rewrite <- R1, <- app_assoc. done.
  - rewrite !add_extension_none; [|done|by rewrite add_extension_none].
    rewrite P. unfold meta_pieces.
    destruct (split_name_none _ Q) as [R|[l R]]; rewrite P in R; [done|].
    destruct (rev (pieces path)) as [|x r] eqn:X.
    + apply (f_equal (@rev bytes)) in X. rewrite rev_involutive in X. simpl in X.
      rewrite X, app_nil_r in R.
      change [B "meta"; B "root"] with ([B "meta"] ++ [B "root"]) in R.
      apply app_inj_tail in R as [_ R]. done.
    + pose proof X as X'. apply (f_equal (@rev bytes)) in X'. rewrite rev_involutive in X'. simpl in X'.
      rewrite X', app_assoc in R. apply app_inj_tail in R as [_ R]. subst.
      rewrite beq_refl. done.
Qed.

Lemma pieces_chunk_key path m pos :
  pieces (get_chunk_key path m pos) =
    [B "data"; B "root"] ++ pieces path ++ pieces ("c"%char :: coords_str (am_sep m) pos).
Proof.
  unfold get_chunk_key.
  assert (P : pieces (canonicalize_path path) = pieces path) by apply pieces_canon.
  destruct (canonicalize_path path) as [|x u].
  - rewrite <- P. change (DATA_ROOT_PATH ++ B "/c") with (DATA_ROOT_PATH ++ slash :: [("c"%char)]).
    rewrite <- app_assoc. cbn [app]. rewrite pieces_app. done.
  - rewrite <- P.
    replace ((DATA_ROOT_PATH ++ slash :: (x :: u) ++ B "/c") ++ coords_str (am_sep m) pos)
      with (DATA_ROOT_PATH ++ slash :: (x :: u) ++ slash :: ("c"%char :: coords_str (am_sep m) pos)).
    + rewrite pieces_app, pieces_app. done.
    + by rewrite <- !app_assoc; simpl; rewrite <- app_assoc.
Qed.

Lemma pieces_data_key path : pieces (data_path_key path) = [B "data"; B "root"] ++ pieces path.
Proof. unfold data_path_key. rewrite pieces_path_join by apply canon_noroot. by rewrite pieces_canon. Qed.
