(** Chunk keys and metadata keys are unambiguous. *)
From Verif Require Export FSFacts.
Local Open Scope Z_scope.

(** ** Lists *)

Lemma split_last_unique {A} (P : A -> Prop) (a a' q q' : list A) x x' :
  a ++ x :: q = a' ++ x' :: q' -> P x -> P x' ->
  Forall (fun y => ~ P y) q -> Forall (fun y => ~ P y) q' ->
  a = a' /\ x = x' /\ q = q'.
Proof.
  revert a'. induction a as [|y a IH]; intros [|y' a'] E Px Px' F F'; simpl in E.
  - by injection E as -> ->.
  - injection E as -> E. exfalso. rewrite E in F.
    apply list.Forall_app in F as [_ F]. by inversion F.
  - injection E as -> E. exfalso. rewrite <- E in F'.
    apply list.Forall_app in F' as [_ F']. by inversion F'.
  - injection E as -> E. destruct (IH _ E Px Px' F F') as (-> & -> & ->). done.
Qed.

Lemma split_glue a b : exists pa la hb tb,
  split_slash a = pa ++ [la] /\ split_slash b = hb :: tb /\
  split_slash (a ++ b) = pa ++ [la ++ hb] ++ tb.
Proof.
  induction a as [|x a (pa & la & hb & tb & E1 & E2 & E3)].
  - destruct (split_slash b) as [|hb tb] eqn:E; [by apply split_ne in E|].
    exists [], [], hb, tb. simpl. by rewrite E.
  - simpl. case_bool_decide.
    + exists ([] :: pa), la, hb, tb. rewrite E1, E2, E3. done.
    + rewrite E1, E3. destruct pa as [|p pa].
      * exists [], (x :: la), hb, tb. done.
      * exists ((x :: p) :: pa), la, hb, tb. done.
Qed.

Lemma split_elem s p b : p ∈ split_slash s -> b ∈ p -> b ∈ s.
Proof.
  revert p. induction s as [|x s IH]; intros p Hp Hb; simpl in Hp.
  - apply elem_of_list_singleton in Hp. subst. done.
  - case_bool_decide.
    + apply elem_of_cons in Hp as [->|Hp]; [by apply elem_of_nil in Hb|].
      right. by eapply IH.
    + destruct (split_slash s) as [|q r] eqn:E; [by apply split_ne in E|].
      apply elem_of_cons in Hp as [->|Hp].
      * apply elem_of_cons in Hb as [->|Hb]; [left|]. right. eapply IH; [left|done].
      * right. eapply IH; [by right|done].
Qed.

(** ** Digits *)

Lemma digit_chars b : is_digit b = true ->
  b <> slash /\ b <> dot /\ b <> "c"%char.
Proof. intros D. split_and!; intros ->; done. Qed.

Definition digits (d : bytes) : Prop := Forall (fun b => is_digit b = true) d.
Lemma show_digits z : is_u64 z -> digits (show_nat z).
Proof. intros [? _]. by apply show_nat_digits. Qed.
Lemma show_ne z : is_u64 z -> show_nat z <> [].
Proof. intros [? _]. by apply show_nat_nonempty. Qed.
Lemma digits_notin d b : digits d -> is_digit b = false -> b ∉ d.
Proof. intros D N I. unfold digits in D. rewrite list.Forall_forall in D. apply D in I. congruence. Qed.

(** Maximal runs of digits. *)
Definition flush (cur : bytes) : list bytes := match cur with [] => [] | _ => [cur] end.
Fixpoint runs (cur s : bytes) : list bytes :=
  match s with
  | [] => flush cur
  | b :: r => if is_digit b then runs (cur ++ [b]) r else flush cur ++ runs [] r
  end.

Lemma runs_digits d : forall cur r, digits d -> runs cur (d ++ r) = runs (cur ++ d) r.
Proof.
  induction d as [|b d IH]; intros cur r D; [by rewrite app_nil_r|].
  inversion D as [|? ? Db D']; subst. cbn [app runs]. rewrite Db, IH by done. by rewrite <- app_assoc.
Qed.
Lemma runs_sep sep cur r : sep <> [] -> Forall (fun b => is_digit b = false) sep ->
  runs cur (sep ++ r) = flush cur ++ runs [] r.
Proof.
  intros NE F. revert cur. induction sep as [|b sep IH]; intros cur; [done|].
  inversion F as [|? ? Fb F']; subst. cbn [app runs]. rewrite Fb.
  destruct sep as [|b2 sep]; [done|]. rewrite IH; done.
Qed.
Lemma runs_coords sep pos : sep <> [] -> Forall (fun b => is_digit b = false) sep ->
  pos_ok pos -> runs [] (coords_str sep pos) = map show_nat pos.
Proof.
  intros NE F P. induction pos as [|z pos IH]; [done|].
  inversion P as [|? ? Pz P']; subst. destruct pos as [|z2 pos].
  - cbn [coords_str map]. rewrite <- (app_nil_r (show_nat z)) at 1.
    rewrite runs_digits by by apply show_digits. simpl.
    pose proof (show_ne z Pz). by destruct (show_nat z).
  - cbn [coords_str]. rewrite runs_digits by by apply show_digits.
    rewrite runs_sep by done. cbn [app].
    change (coords_str sep (z2 :: pos)) with (coords_str sep (z2 :: pos)) in IH.
    cbn [coords_str] in IH. rewrite IH by done. cbn [map].
    pose proof (show_ne z Pz). by destruct (show_nat z).
Qed.
Lemma runs_split s : forall cur, runs cur s =
  match split_slash s with
  | [] => []
  | p :: ps => runs cur p ++ concat (map (runs []) ps)
  end.
Proof.
  induction s as [|b s IH]; intros cur; [simpl; by rewrite app_nil_r|].
  cbn [runs split_slash]. case_bool_decide as E.
  - subst. cbn [is_digit]. change (is_digit slash) with false. cbn [runs].
    f_equal. rewrite IH. destruct (split_slash s) eqn:X; [by apply split_ne in X|]. done.
  - destruct (split_slash s) as [|p ps] eqn:X; [by apply split_ne in X|].
    cbn [runs]. destruct (is_digit b); rewrite IH; [done|]. by rewrite app_assoc.
Qed.
Lemma runs_junk p : is_junk p = true -> runs [] p = [].
Proof.
  unfold is_junk. intros [E|E]%orb_true_iff; apply beq_true in E; by subst.
Qed.
Lemma runs_pieces s : runs [] s = concat (map (runs []) (pieces s)).
Proof.
  rewrite runs_split. unfold pieces.
  assert (G : forall l, concat (map (runs []) (filter nj l)) = concat (map (runs []) l)).
  { induction l as [|p l IH]; [done|]. rewrite filter_cons. case_decide as J; cbn [map concat].
    - by rewrite IH.
    - rewrite IH, runs_junk; [done|]. by destruct (is_junk p). }
  rewrite G. destruct (split_slash s); done.
Qed.

(** ** Chunk keys *)

Notation cpieces sep pos := (pieces ("c"%char :: coords_str sep pos)).

Lemma coords_chars sep pos b : pos_ok pos -> b ∈ coords_str sep pos ->
  is_digit b = true \/ b ∈ sep.
Proof.
  intros P. induction pos as [|z pos IH]; [by intros ?%elem_of_nil|].
  inversion P as [|? ? Pz P']; subst.
  pose proof (show_digits z Pz) as D. unfold digits in D. rewrite list.Forall_forall in D.
  destruct pos as [|z2 pos].
  - intros I. left. by apply D.
  - cbn [coords_str]. intros [I|[I|I]%elem_of_app]%elem_of_app; [left; by apply D|by right|].
    by apply IH.
Qed.

Lemma cpieces_head sep pos : pos_ok pos -> "c"%char ∉ sep -> exists p q,
  cpieces sep pos = ("c"%char :: p) :: q /\ Forall (fun y => ~ "c"%char ∈ y) q /\ "c"%char ∉ p.
Proof.
  intros P N. set (s := coords_str sep pos).
  assert (NC : "c"%char ∉ s).
  { intros I. apply coords_chars in I as [I|I]; [|done|done]. by apply digit_chars in I as (_ & _ & ?). }
  pose proof (split_elem s) as SE.
  unfold pieces. cbn [split_slash]. rewrite bool_decide_false by done.
  destruct (split_slash s) as [|p ps] eqn:E; [by apply split_ne in E|].
  rewrite filter_cons_True by (apply nj_intro; [done|by destruct p]).
  exists p, (filter nj ps). split; [done|]. split.
  - apply list.Forall_forall. intros y Hy Hc. apply elem_of_list_filter in Hy as [_ Hy].
    apply NC. eapply SE; [by right|done].
  - intros Hc. apply NC. eapply SE; [left|done].
Qed.

Lemma chunk_pieces_inj ps ps' sep sep' pos pos' :
  pos_ok pos -> pos_ok pos' -> good_sep sep -> good_sep sep' ->
  ps ++ cpieces sep pos = ps' ++ cpieces sep' pos' -> ps = ps' /\ pos = pos'.
Proof.
  intros P P' (S1 & S2 & S3 & _) (S1' & S2' & S3' & _) E.
  destruct (cpieces_head sep pos P S2) as (x & q & X & Q & Nx).
  destruct (cpieces_head sep' pos' P' S2') as (x' & q' & X' & Q' & Nx').
  pose proof E as E0. rewrite X, X' in E0.
  apply (split_last_unique (fun y => "c"%char ∈ y)) in E0 as (-> & Ex & Eq);
    [|left|left|done|done].
  split; [done|].
  assert (EC : cpieces sep pos = cpieces sep' pos') by congruence.
  assert (R : runs [] ("c"%char :: coords_str sep pos) = runs [] ("c"%char :: coords_str sep' pos')).
  { by rewrite (runs_pieces (_ :: coords_str sep pos)), (runs_pieces (_ :: coords_str sep' pos')), EC. }
  cbn [runs] in R. change (is_digit "c"%char) with false in R. cbn [flush app] in R.
  rewrite !runs_coords in R by done.
  clear -R P P'. revert pos' P' R. induction P as [|z pos Pz P IH]; intros [|z' pos'] P' R; try done.
  inversion P' as [|? ? Pz' P'']; subst. cbn [map] in R. injection R as R1 R2. f_equal.
  - apply show_nat_inj in R1; [done|apply Pz|apply Pz'].
  - by apply IH.
Qed.

(** String keys, with separators that merely do not start with a digit. *)
Lemma digits_span d d' r r' : digits d -> digits d' ->
  match r with b :: _ => is_digit b = false | [] => True end ->
  match r' with b :: _ => is_digit b = false | [] => True end ->
  d ++ r = d' ++ r' -> d = d' /\ r = r'.
Proof.
  revert d'. induction d as [|b d IH]; intros d' D D' R R' E.
  - destruct d' as [|b' d']; [done|]. simpl in E. subst r. inversion D'; subst. congruence.
  - inversion D as [|? ? Db D1]; subst. destruct d' as [|b' d']; simpl in E.
    + subst r'. congruence.
    + inversion D' as [|? ? Db' D1']; subst. injection E as -> E.
      destruct (IH _ D1 D1' R R' E) as [-> ->]. done.
Qed.

Lemma coords_inj sep pos pos' : pos_ok pos -> pos_ok pos' ->
  match sep with b :: _ => is_digit b = false | [] => False end ->
  coords_str sep pos = coords_str sep pos' -> pos = pos'.
Proof.
  intros P P' S. destruct sep as [|b sep]; [done|].
  revert pos' P'. induction P as [|z pos Pz P IH]; intros pos' P' E.
  - destruct P' as [|z' pos' Pz' P']; [done|]. exfalso.
    pose proof (show_ne z' Pz') as N. destruct pos'; simpl in E; destruct (show_nat z'); done.
  - destruct P' as [|z' pos' Pz' P'].
    + exfalso. pose proof (show_ne z Pz) as N. destruct pos; simpl in E; destruct (show_nat z); done.
    + assert (G : forall z pos, exists r, coords_str (b :: sep) (z :: pos) = show_nat z ++ r
                 /\ match pos with [] => r = [] | _ => r = (b :: sep) ++ coords_str (b :: sep) pos end).
      { intros u [|v l]; eexists; (split; [|reflexivity]); [by rewrite app_nil_r|done]. }
      destruct (G z pos) as (r & E1 & R). destruct (G z' pos') as (r' & E1' & R').
      rewrite E1, E1' in E. apply digits_span in E as [Ez Er].
      * apply show_nat_inj in Ez as ->; [|apply Pz|apply Pz']. f_equal.
        destruct pos, pos'; rewrite R, R' in Er; [done|done|done|]. simpl in Er. injection Er as Er.
        apply app_inv_head in Er. by apply IH.
      * by apply show_digits.
      * by apply show_digits.
      * destruct pos; subst; done.
      * destruct pos'; subst; done.
Qed.

Lemma chunk_key_string_inj path path' m pos pos' :
  pos_ok pos -> pos_ok pos' -> "c"%char ∉ am_sep m ->
  match am_sep m with b :: _ => is_digit b = false | [] => False end ->
  get_chunk_key path m pos = get_chunk_key path' m pos' ->
  canonicalize_path path = canonicalize_path path' /\ pos = pos'.
Proof.
  intros P P' N S E. unfold get_chunk_key in E.
  set (c1 := canonicalize_path path) in *. set (c2 := canonicalize_path path') in *.
  set (pre := fun c => match c with [] => DATA_ROOT_PATH ++ B "/" | _ => DATA_ROOT_PATH ++ slash :: c ++ B "/" end).
  assert (G : forall c r, (match c with [] => DATA_ROOT_PATH ++ B "/c"
            | _ => DATA_ROOT_PATH ++ slash :: c ++ B "/c" end) ++ r = pre c ++ "c"%char :: r).
  { intros c r. unfold pre. destruct c as [|x c]; rewrite <- !app_assoc; [done|].
    f_equal. cbn [app]. f_equal. f_equal. by rewrite <- !app_assoc. }
  rewrite !G in E.
  apply (split_last_unique (fun y => y = "c"%char)) in E as (E1 & _ & E2); [|done|done| |].
  - split; [|by eapply coords_inj].
    unfold pre in E1. destruct c1 as [|x c1], c2 as [|y c2]; [done| | |].
    + apply app_inv_head in E1. exfalso. apply (f_equal length) in E1. simpl in E1.
      rewrite app_length in E1. simpl in E1. lia.
    + apply app_inv_head in E1. exfalso. apply (f_equal length) in E1. simpl in E1.
      rewrite app_length in E1. simpl in E1. lia.
    + apply app_inv_head in E1. injection E1 as -> E1. f_equal. by apply app_inv_tail in E1.
  - apply list.Forall_forall. intros y Hy ->. apply coords_chars in Hy as [Hy|Hy]; [|done|done].
    by apply digit_chars in Hy as (_ & _ & ?).
  - apply list.Forall_forall. intros y Hy ->. apply coords_chars in Hy as [Hy|Hy]; [|done|done].
    by apply digit_chars in Hy as (_ & _ & ?).
Qed.

(** ** '..'-freeness of keys *)

Lemma dotdot_elem : dot ∈ dotdot.
Proof. left. Qed.
Lemma with_digit_not_dotdot p b : is_digit b = true -> b ∈ p -> p <> dotdot.
Proof.
  intros D I ->. apply digit_chars in D as (_ & D & _).
  apply elem_of_cons in I as [I|I]; [done|]. apply elem_of_list_singleton in I. done.
Qed.

Lemma coords_split sep pos : pos_ok pos -> dotdot ∉ split_slash sep -> exists h t,
  split_slash (coords_str sep pos) = h :: t /\ dotdot ∉ t /\
  (pos <> [] -> exists b, b ∈ h /\ is_digit b = true).
Proof.
  intros P N. induction P as [|z pos Pz P IH].
  - exists [], []. split; [done|]. split; [apply not_elem_of_nil|done].
  - assert (Dz := show_digits z Pz). assert (Nz := show_ne z Pz).
    assert (Sz : split_slash (show_nat z) = [show_nat z]).
    { apply split_noslash. by apply digits_notin. }
    assert (Hz : exists b, b ∈ show_nat z /\ is_digit b = true).
    { destruct (show_nat z) as [|b r]; [done|]. inversion Dz; subst. exists b. split; [left|done]. }
    destruct pos as [|z2 pos].
    + exists (show_nat z), []. cbn [coords_str]. split; [done|].
      split; [apply not_elem_of_nil|done].
    + cbn [coords_str]. destruct IH as (h & t & E & Nt & Hh).
      destruct (split_glue sep (coords_str sep (z2 :: pos))) as (pa & la & hb & tb & E1 & E2 & E3).
      cbn [coords_str] in E, E2, E3. rewrite E in E2. injection E2 as <- <-.
      destruct (split_glue (show_nat z) (sep ++ coords_str sep (z2 :: pos)))
        as (pa' & la' & hb' & tb' & F1 & F2 & F3).
      cbn [coords_str] in F2, F3.
      rewrite Sz in F1. destruct pa' as [|? [|? ?]]; [|done|done]. injection F1 as <-.
      rewrite F3. cbn [app]. eexists _, _. split; [done|]. rewrite E3 in F2. split.
      * destruct Hh as (b & Hb & Db); [done|].
        destruct pa as [|p pa]; cbn [app] in F2; injection F2 as <- <-; [done|].
        intros [I|[I|I]%elem_of_cons]%elem_of_app.
        -- apply N. rewrite E1. cbn [app]. right. apply elem_of_app. by left.
        -- symmetry in I. revert I. eapply with_digit_not_dotdot; [done|]. apply elem_of_app. by right.
        -- done.
      * intros _. destruct Hz as (b & Hb & Db). exists b. split; [|done].
        apply elem_of_app. by left.
Qed.

Lemma dotdot_split_pieces s : dotdot ∈ split_slash s <-> dotdot ∈ pieces s.
Proof. unfold pieces. rewrite elem_of_list_filter. by intuition. Qed.

Lemma cpieces_plain sep pos : pos_ok pos -> plain sep -> dotdot ∉ cpieces sep pos.
Proof.
  intros P N I. apply dotdot_split_pieces in I. unfold plain in N.
  rewrite <- dotdot_split_pieces in N.
  destruct (coords_split sep pos P N) as (h & t & E & Nt & _).
  cbn [split_slash] in I. rewrite bool_decide_false in I by done. rewrite E in I.
  apply elem_of_cons in I as [I|I]; [by destruct h|done].
Qed.

Lemma plain_chunk_key path m pos : plain path -> plain (am_sep m) -> pos_ok pos ->
  plain (get_chunk_key path m pos).
Proof.
  intros P S Q. unfold plain. rewrite pieces_chunk_key.
  intros [I|[I|I]%elem_of_app]%elem_of_app; [|done|].
  - apply elem_of_cons in I as [I|I]; [done|]. apply elem_of_list_singleton in I. done.
  - by eapply cpieces_plain.
Qed.

Lemma loc_chunk base path m pos :
  loc base (get_chunk_key path m pos) =
    pieces base ++ [B "data"; B "root"] ++ pieces path ++ cpieces (am_sep m) pos.
Proof. unfold loc. by rewrite pieces_chunk_key. Qed.

Lemma loc_chunk_inj base path path' m m' pos pos' :
  pos_ok pos -> pos_ok pos' -> good_sep (am_sep m) -> good_sep (am_sep m') ->
  loc base (get_chunk_key path m pos) = loc base (get_chunk_key path' m' pos') ->
  pieces path = pieces path' /\ pos = pos'.
Proof.
  intros P P' S S' L. rewrite !loc_chunk in L.
  do 2 apply app_inv_head in L. eapply chunk_pieces_inj; [..|exact L]; done.
Qed.

(** ** Metadata keys *)

Lemma ext_array_ok : noslash ARRAY_METADATA_KEY_EXT /\ dot ∉ ARRAY_METADATA_KEY_EXT
  /\ ARRAY_METADATA_KEY_EXT <> [].
Proof. split_and!; [| |done]; by apply (bool_decide_eq_true_1 _). Qed.
Lemma ext_group_ok : noslash GROUP_METADATA_KEY_EXT /\ dot ∉ GROUP_METADATA_KEY_EXT
  /\ GROUP_METADATA_KEY_EXT <> [].
Proof. split_and!; [| |done]; by apply (bool_decide_eq_true_1 _). Qed.

Definition is_node_ext (e : bytes) : Prop :=
  e = ARRAY_METADATA_KEY_EXT \/ e = GROUP_METADATA_KEY_EXT.
Lemma node_ext_ok e : is_node_ext e -> noslash e /\ dot ∉ e /\ e <> [].
Proof. intros [->| ->]; [apply ext_array_ok|apply ext_group_ok]. Qed.
Lemma node_ext_len e : is_node_ext e -> length e = 5%nat.
Proof. by intros [->| ->]. Qed.

Lemma pieces_node_key ext sfx path : is_node_ext ext -> slash ∉ strip_dot sfx ->
  pieces (metadata_key ext sfx path) = meta_pieces ext (strip_dot sfx) (pieces path).
Proof. intros E S. destruct (node_ext_ok ext E) as (? & ? & ?). by apply pieces_metadata_key. Qed.

Lemma rev_eq_cons {A} (l : list A) x r : rev l = x :: r -> l = rev r ++ [x].
Proof. intros E. apply (f_equal (@rev A)) in E. by rewrite rev_involutive in E. Qed.
Lemma rev_eq_nil {A} (l : list A) : rev l = [] -> l = [].
Proof. intros E. apply (f_equal (@rev A)) in E. by rewrite rev_involutive in E. Qed.

Lemma meta_pieces_cases ext sfx ps : dotdot ∉ ps ->
  (ps = [] /\ meta_pieces ext sfx ps = [B "meta"; B "root" ++ dot :: ext ++ dot :: sfx]) \/
  (exists l n, ps = l ++ [n] /\
     meta_pieces ext sfx ps = [B "meta"; B "root"] ++ l ++ [n ++ dot :: ext ++ dot :: sfx]).
Proof.
  intros N. unfold meta_pieces. destruct (rev ps) as [|n r] eqn:E.
  - left. apply rev_eq_nil in E. done.
  - right. apply rev_eq_cons in E. exists (rev r), n. split; [done|].
    rewrite (proj2 (beq_false n dotdot)); [done|]. intros ->. apply N. rewrite E.
    apply elem_of_app. right. left.
Qed.

Lemma tag_inj n n' ext ext' sfx : length ext = length ext' ->
  n ++ dot :: ext ++ dot :: sfx = n' ++ dot :: ext' ++ dot :: sfx -> n = n' /\ ext = ext'.
Proof.
  intros L E. change (dot :: ext ++ dot :: sfx) with ((dot :: ext) ++ dot :: sfx) in E.
  change (dot :: ext' ++ dot :: sfx) with ((dot :: ext') ++ dot :: sfx) in E.
  rewrite !app_assoc in E. apply app_inv_tail in E.
  apply app_inj_2 in E as [-> E]; [|simpl; lia]. by injection E.
Qed.

Lemma meta_pieces_inj ext ext' sfx ps ps' : length ext = length ext' ->
  dotdot ∉ ps -> dotdot ∉ ps' ->
  meta_pieces ext sfx ps = meta_pieces ext' sfx ps' -> ps = ps' /\ ext = ext'.
Proof.
  intros L N N' E.
  destruct (meta_pieces_cases ext sfx ps N) as [[-> M]|(l & n & -> & M)];
  destruct (meta_pieces_cases ext' sfx ps' N') as [[-> M']|(l' & n' & -> & M')];
  rewrite M, M' in E.
  - injection E as E. split; [done|]. change (dot :: ext ++ dot :: sfx) with ((dot :: ext) ++ dot :: sfx) in E.
    by apply app_inv_tail in E.
  - cbn [app] in E. exfalso. injection E as E. by destruct l'.
  - cbn [app] in E. exfalso. injection E as E. by destruct l.
  - apply app_inv_head in E. apply app_inj_tail in E as [-> E].
    apply tag_inj in E as [-> ->]; done.
Qed.

Lemma meta_pieces_head ext sfx ps : exists r, meta_pieces ext sfx ps = B "meta" :: r.
Proof. unfold meta_pieces. destruct (rev ps); [by eexists|]. case_match; by eexists. Qed.

Lemma tag_not_dotdot n ext sfx : ext <> [] -> dot ∉ ext -> n ++ dot :: ext ++ dot :: sfx <> dotdot.
Proof.
  intros N D E. apply (f_equal length) in E. rewrite app_length in E. simpl in E.
  rewrite app_length in E. simpl in E. destruct ext; [done|]. simpl in E. lia.
Qed.

Lemma meta_pieces_plain ext sfx ps : ext <> [] -> dot ∉ ext -> dotdot ∉ ps ->
  dotdot ∉ meta_pieces ext sfx ps.
Proof.
  intros N D P I. destruct (meta_pieces_cases ext sfx ps P) as [[-> M]|(l & n & -> & M)]; rewrite M in I.
  - apply elem_of_cons in I as [I|I]; [done|]. apply elem_of_list_singleton in I.
    symmetry in I. by eapply tag_not_dotdot in I.
  - apply elem_of_app in I as [I|I].
    + apply elem_of_cons in I as [I|I]; [done|]. apply elem_of_list_singleton in I. done.
    + apply elem_of_app in I as [I|I].
      * apply P, elem_of_app. by left.
      * apply elem_of_list_singleton in I. symmetry in I. by eapply tag_not_dotdot in I.
Qed.

Lemma plain_node_key ext sfx path : is_node_ext ext -> slash ∉ strip_dot sfx -> plain path ->
  plain (metadata_key ext sfx path).
Proof.
  intros E S P. unfold plain. rewrite pieces_node_key by done.
  destruct (node_ext_ok ext E) as (? & ? & ?). by apply meta_pieces_plain.
Qed.

Lemma loc_node_inj base ext ext' sfx path path' :
  is_node_ext ext -> is_node_ext ext' -> slash ∉ strip_dot sfx -> plain path -> plain path' ->
  loc base (metadata_key ext sfx path) = loc base (metadata_key ext' sfx path') ->
  pieces path = pieces path' /\ ext = ext'.
Proof.
  intros E E' S P P' L. unfold loc in L. apply app_inv_head in L.
  rewrite !pieces_node_key in L by done.
  apply meta_pieces_inj in L; [done| |done|done].
  by rewrite !node_ext_len.
Qed.

Lemma loc_node_chunk base ext sfx path path' m pos :
  is_node_ext ext -> slash ∉ strip_dot sfx ->
  loc base (metadata_key ext sfx path) <> loc base (get_chunk_key path' m pos).
Proof.
  intros E S L. unfold loc in L. apply app_inv_head in L.
  rewrite pieces_node_key, pieces_chunk_key in L by done.
  destruct (meta_pieces_head ext (strip_dot sfx) (pieces path)) as [r R]. by rewrite R in L.
Qed.
