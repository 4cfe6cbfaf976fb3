(** Metadata writers that stop in the middle. *)
From Verif Require Import BaseFacts PathFacts FSFacts KeyFacts HierFacts Spec SpecMeta SpecHier.
From Verif Require Import JsonFacts JsonPrefix MetaJsonFacts NodeFacts RefFacts OpsFacts.
From Verif Require Import Sys SpecSys SpecFull SysFacts SysOps CrashFacts CrashOps.
Local Open Scope Z_scope.

Lemma view_unlimited o : view (unlimited o) = view o.
Proof. done. Qed.
Lemma unlimited_id o : o_room o = None -> unlimited o = o.
Proof. destruct o. cbn. by intros ->. Qed.
Lemma unlimited_calm o : idle o -> calm (unlimited o).
Proof. intros ([] & F & L). split; [|done]. split_and!; [by split|done|done]. Qed.

(** ** Processes that only read *)

Definition reading (T : Type) (c : sys T) : Prop :=
  match c with
  | SMkdir _ | SOpenW _ | STrunc _ | SWrite _ _ _ | SUnlink _ | SRmdir _ => False
  | _ => True
  end.
Lemma reading_step s T (c : sys T) o o' x :
  reading T c -> os_ok o /\ view o = s -> sys_step c o = Some (o', x) -> os_ok o' /\ view o' = s.
Proof.
  intros R [K V] E. split; [by eapply sys_step_ok|]. destruct c; cbn in R; try done; cbn [sys_step] in E.
  1-3: by injection E as <- _.
  - injection E as E. destruct (walk _ _ _); [|by injection E as <- _|by injection E as <- _].
    destruct (node_at _ _) as [[]|]; [| |by injection E as <- _].
    + destruct dir_ok; injection E as <- _; [|done]. rewrite view_open. by rewrite view_new_inode.
    + destruct (o_tree o !! _) as [[]|]; injection E as <- _; done.
  - destruct (o_fds o !! fd); [|done]. destruct (lock_conflict _ _ _); [done|]. by injection E as <- _.
  - destruct (o_fds o !! fd); [|done]. by injection E as <- _.
  - by injection E as <- _.
  - by injection E as <- _.
  - by injection E as <- _.
Qed.
Lemma reading_stops {A} (p : proc A) o o' : calls reading p -> os_ok o -> stops o p o' ->
  os_ok o' /\ view o' = view o.
Proof.
  intros P K S. by apply (calls_stops reading (fun o1 => os_ok o1 /\ view o1 = view o)
    (reading_step (view o)) p o o').
Qed.
Lemma exists_calls base key : calls reading (p_exists base key).
Proof. unfold p_exists. by destruct (key_comps base key). Qed.
Lemma read_all_calls fd rs : forall off acc, calls reading (p_read_all fd off rs acc).
Proof.
  induction rs as [|n rs IH]; intros off acc; cbn [p_read_all calls]; [done|]. split; [done|].
  intros x. by case_bool_decide.
Qed.
Lemma get_calls base key rs : calls reading (p_get base key rs).
Proof.
  unfold p_get. destruct (key_comps base key); cbn [pres calls]; try done. split; [done|].
  intros [|]; [|done]. apply calls_bind; [done|]. intros [fd| |]; try done. cbn [calls]. split; [done|].
  intros _. apply calls_bind; [apply read_all_calls|]. done.
Qed.
Lemma try_calls {A C} P (p : proc (res A)) (f : A -> proc (res C)) :
  calls P p -> (forall a, calls P (f a)) -> calls P (ptry p f).
Proof. intros Hp Hf. apply calls_bind; [done|]. intros [a| |]; [apply Hf|done|done]. Qed.
Lemma node_key_calls H path : calls reading (p_node_key H path).
Proof.
  unfold p_node_key. apply try_calls; [apply exists_calls|]. intros []; [done|].
  apply try_calls; [apply exists_calls|]. by intros [].
Qed.

(** A stop in a reading process followed by something else. *)
Lemma stops_reads {A C} o (p : proc (res A)) (f : A -> proc (res C)) r o' :
  idle o -> calls reading p -> reads o p r -> stops o (ptry p f) o' ->
  (os_ok o' /\ view o' = view o) \/
  exists o1 a, r = Ok a /\ idle o1 /\ view o1 = view o /\ stops o1 (f a) o'.
Proof.
  intros (K & F & L) CP (o1 & E & V & I & _) S. apply stops_bind in S as [S|(o2 & a & E2 & S)].
  - left. by eapply reading_stops.
  - rewrite E in E2. injection E2 as <- <-.
    destruct r as [a|e|]; [right; by exists o1, a|left|left]; apply stops_ret in S as ->; destruct I; done.
Qed.
Lemma stops_pres {A C} (r : res A) (f : A -> proc (res C)) o o' :
  os_ok o -> stops o (pres r f) o' ->
  (os_ok o' /\ view o' = view o) \/ exists a, r = Ok a /\ stops o (f a) o'.
Proof.
  intros K S. destruct r as [a|e|]; cbn [pres] in S; [right; by exists a|left|left]; by apply stops_ret in S as ->.
Qed.

(** ** Which document an operation writes *)

Definition plan (H : hier) (s : fs) (op : meta_op) : option (bytes * json) :=
  let akey_ext := ARRAY_METADATA_KEY_EXT in
  let gkey_ext := GROUP_METADATA_KEY_EXT in
  let there ext path := is_some (file_at s (nloc H ext path)) in
  match op with
  | MCreateArray path m =>
      if there gkey_ext path || there akey_ext path then None else Some (akey_ext, enc_meta m)
  | MCreateGroup path =>
      if there akey_ext path || there gkey_ext path then None else Some (gkey_ext, group_default_json)
  | MSetAttributes path attrs =>
      let ext := if there akey_ext path then akey_ext else gkey_ext in
      match file_at s (nloc H ext path) with
      | Some text => match from_text as_map text with
                     | Ok doc => if json_eqb (JObj (merge_doc doc attrs)) (JObj doc) then None
                                 else Some (ext, JObj (merge_doc doc attrs))
                     | _ => None
                     end
      | None => None
      end
  end.
Definition seq_op (H : hier) (s : fs) (op : meta_op) : fs * res unit :=
  match op with
  | MCreateArray path m => create_array H s path m
  | MCreateGroup path => create_group H s path
  | MSetAttributes path attrs => set_attributes H s path attrs
  end.

Section MetaCrash.
  Context (H : hier) (PB : plain (hy_base H)) (GS : good_suffix (ep_suffix (hy_ep H))).
  Notation base := (hy_base H).
  Notation sfx := (ep_suffix (hy_ep H)).
  Notation AX := ARRAY_METADATA_KEY_EXT.
  Notation GX := GROUP_METADATA_KEY_EXT.

  Lemma is_ax : is_node_ext AX. Proof. by left. Qed.
  Lemma is_gx : is_node_ext GX. Proof. by right. Qed.
  Hint Resolve is_ax is_gx : core.

  Lemma exists_at s ext path : wf_fs s -> plain path -> is_node_ext ext ->
    st_exists base s (metadata_key ext sfx path) = Ok (is_some (file_at s (nloc H ext path))).
  Proof. intros W P E. apply st_exists_plain; [done|done|by apply nloc_plain]. Qed.
  Lemma get_at s ext path : wf_fs s -> plain path -> is_node_ext ext ->
    st_get base s (metadata_key ext sfx path) = Ok (file_at s (nloc H ext path)).
  Proof. intros W P E. apply st_get_plain; [done|done|by apply nloc_plain]. Qed.

  Lemma mo_plain op : mo_ok op -> plain (mo_path op).
  Proof. destruct op; cbn; tauto. Qed.

  Lemma plan_ok s op ext v : wf_fs s -> mo_ok op -> plan H s op = Some (ext, v) ->
    is_node_ext ext /\ json_ok v = true /\ (jdepth v <= 127)%nat /\ is_num v = false.
  Proof.
    intros W M E. destruct op as [path m|path|path attrs]; cbn [plan mo_ok] in *.
    - destruct M as (P & MV & NO). destruct (_ || _); [done|]. injection E as <- <-. split_and!; [done| | |done].
      + by apply enc_meta_ok.
      + apply enc_meta_depth; [apply MV|done].
    - destruct (_ || _); [done|]. injection E as <- <-. split_and!; [done| | |done]; by vm_compute; auto with arith.
    - destruct M as (P & AV & AD). cbv zeta in E.
      destruct (file_at s _) as [text|]; [|done].
      destruct (from_text as_map text) as [doc| |] eqn:D; try done.
      destruct (json_eqb _ _); [done|]. injection E as <- <-.
      apply as_map_doc_ok in D. pose proof (merge_doc_ok doc attrs D AV AD) as [[_ J] X].
      split_and!; try done. by destruct (is_some _).
  Qed.

  Lemma seq_plan s op : wf_fs s -> mo_ok op ->
    match plan H s op with
    | None => fst (seq_op H s op) = s
    | Some (ext, v) => seq_op H s op = st_set base s (metadata_key ext sfx (mo_path op)) (print v, Ok tt)
    end.
  Proof.
    intros W M. pose proof (mo_plain op M) as P. destruct op as [path m|path|path attrs]; cbn [plan mo_path seq_op] in *.
    - unfold create_array, akey, gkey, array_metadata_key, group_metadata_key.
      rewrite !exists_at by done. cbn [on]. destruct (is_some (file_at s (nloc H GX path))); [done|].
      cbn [on orb]. by destruct (is_some _).
    - unfold create_group, akey, gkey, array_metadata_key, group_metadata_key.
      rewrite !exists_at by done. cbn [on]. destruct (is_some (file_at s (nloc H AX path))); [done|].
      cbn [on orb]. by destruct (is_some _).
    - unfold set_attributes, node_key, akey, gkey, array_metadata_key, group_metadata_key. cbv zeta.
      rewrite !exists_at by done. cbn [mbind res_bind].
      destruct (file_at s (nloc H AX path)) as [ta|] eqn:FA; cbn [is_some on].
      + rewrite FA, get_at by done. cbn [on]. rewrite FA. cbn [of_option on].
        destruct (from_text as_map ta) as [doc| |]; cbn [on]; try done. by destruct (json_eqb _ _).
      + destruct (file_at s (nloc H GX path)) as [tg|] eqn:FG; cbn [is_some on]; [|done].
        rewrite get_at by done. cbn [on]. rewrite FG. cbn [of_option on].
        destruct (from_text as_map tg) as [doc| |]; cbn [on]; try done. by destruct (json_eqb _ _).
  Qed.

  Context (sl : bytes -> list bytes) (SL : forall b, concat (sl b) = b).

  Lemma op_stops rs op o o' : idle o -> wf_fs (view o) -> mo_ok op ->
    stops o (p_meta_op H sl rs op) o' ->
    os_ok o' /\
    (view o' = view o \/ exists ext v, plan H (view o) op = Some (ext, v) /\
       cut_set (view o) (view o') (nloc H ext (mo_path op)) (print v)).
  Proof.
    intros I W M S. pose proof (mo_plain op M) as P.
    destruct op as [path m|path|path attrs]; cbn [plan mo_path p_meta_op] in *.
    - unfold p_create_array, akey, gkey, array_metadata_key, group_metadata_key in S.
      eapply stops_reads in S as [[K V]|(o1 & g & E & I1 & V1 & S)];
        [split; [done|by left]| |done|apply exists_calls|by apply reads_exists].
      rewrite exists_at in E by done. injection E as <-.
      destruct (is_some (file_at (view o) (nloc H GX path))).
      { apply stops_ret in S as ->. split; [apply I1|by left]. }
      eapply stops_reads in S as [[K V]|(o2 & a & E & I2 & V2 & S)];
        [split; [done|left; congruence]| |done|apply exists_calls|by apply reads_exists].
      rewrite V1, exists_at in E by done. injection E as <-. rewrite V1 in V2.
      cbn [orb]. destruct (is_some (file_at (view o) (nloc H AX path))).
      { apply stops_ret in S as ->. split; [apply I2|by left]. }
      apply set_stops in S as [K S]; [|done|by apply nloc_plain|done|by rewrite V2].
      split; [done|right]. exists AX, (enc_meta m). split; [done|]. by rewrite V2, SL in S.
    - unfold p_create_group, akey, gkey, array_metadata_key, group_metadata_key in S.
      eapply stops_reads in S as [[K V]|(o1 & g & E & I1 & V1 & S)];
        [split; [done|by left]| |done|apply exists_calls|by apply reads_exists].
      rewrite exists_at in E by done. injection E as <-.
      destruct (is_some (file_at (view o) (nloc H AX path))).
      { apply stops_ret in S as ->. split; [apply I1|by left]. }
      eapply stops_reads in S as [[K V]|(o2 & a & E & I2 & V2 & S)];
        [split; [done|left; congruence]| |done|apply exists_calls|by apply reads_exists].
      rewrite V1, exists_at in E by done. injection E as <-. rewrite V1 in V2.
      cbn [orb]. destruct (is_some (file_at (view o) (nloc H GX path))).
      { apply stops_ret in S as ->. split; [apply I2|by left]. }
      apply set_stops in S as [K S]; [|done|by apply nloc_plain|done|by rewrite V2].
      split; [done|right]. exists GX, group_default_json. split; [done|]. by rewrite V2, SL in S.
    - unfold p_set_attributes in S.
      eapply stops_reads in S as [[K V]|(o1 & k & E & I1 & V1 & S)];
        [split; [done|by left]| |done|apply node_key_calls|by apply reads_node_key].
      set (ext := if is_some (file_at (view o) (nloc H AX path)) then AX else GX).
      assert (k = metadata_key ext sfx path) as ->.
      { unfold node_key, akey, gkey, array_metadata_key, group_metadata_key in E.
        rewrite !exists_at in E by done. cbn [mbind res_bind] in E. unfold ext.
        destruct (is_some (file_at (view o) (nloc H AX path))); [by injection E|].
        destruct (is_some (file_at (view o) (nloc H GX path))); [by injection E|done]. }
      assert (NE : is_node_ext ext) by (unfold ext; by destruct (is_some _)).
      eapply stops_reads in S as [[K V]|(o2 & a & E2 & I2 & V2 & S)];
        [split; [done|left; congruence]| |done|apply get_calls|by apply run_get].
      rewrite V1, get_at in E2 by done. injection E2 as <-. rewrite V1 in V2. cbv zeta. fold ext.
      apply stops_pres in S as [[K V]|(text & E3 & S)]; [split; [done|left; congruence]| |apply I2].
      destruct (file_at (view o) (nloc H ext path)) as [text'|]; [|done]. injection E3 as ->.
      apply stops_pres in S as [[K V]|(doc & E4 & S)]; [split; [done|left; congruence]| |apply I2].
      rewrite E4. cbv zeta in S. destruct (json_eqb _ _).
      { apply stops_ret in S as ->. split; [apply I2|by left]. }
      apply set_stops in S as [K S]; [|done|by apply nloc_plain|done|by rewrite V2].
      split; [done|right]. eexists ext, _. split; [done|]. by rewrite V2, SL in S.
  Qed.

  Lemma op_does rs op o : calm o -> does o (p_meta_op H sl rs op) (seq_op H (view o) op).
  Proof.
    intros C. destruct op; [by apply does_create_array|by apply does_create_group|by apply does_set_attributes].
  Qed.

  (** ** Readers as functions of the files they look at *)

  Definition meta_of (f : option bytes) : res array_meta :=
    text ← of_option NotFound f; m ← from_text dec_meta text; _ ← check_exts (am_exts m); Ok m.
  Definition attrs_of (fa fg : option bytes) : res jmap :=
    text ← of_option NotFound (match fa with Some _ => fa | None => fg end);
    v ← from_text dec_value text;
    match v with
    | JObj m => match mget ATTRIBUTES_NAME m with
                | Some (JObj a) => Ok a | Some _ => Err InvalidData | None => Ok [] end
    | _ => Ok []
    end.
  Lemma get_array_metadata_at s path : wf_fs s -> plain path ->
    get_array_metadata H s path = meta_of (file_at s (nloc H AX path)).
  Proof.
    intros W P. unfold get_array_metadata, akey, array_metadata_key. by rewrite get_at.
  Qed.
  Lemma list_attributes_at s path : wf_fs s -> plain path ->
    list_attributes H s path = attrs_of (file_at s (nloc H AX path)) (file_at s (nloc H GX path)).
  Proof.
    intros W P. unfold list_attributes, node_key, akey, gkey, array_metadata_key, group_metadata_key.
    rewrite !exists_at by done. cbn [mbind res_bind].
    destruct (file_at s (nloc H AX path)) as [ta|] eqn:FA; cbn [is_some mbind res_bind].
    - rewrite get_at by done. rewrite FA. done.
    - destruct (file_at s (nloc H GX path)) as [tg|] eqn:FG; cbn [is_some mbind res_bind]; [|done].
      rewrite get_at by done. rewrite FG. done.
  Qed.

  Lemma cut_document v n {A} (dec : json -> res A) : json_ok v = true -> (jdepth v <= 127)%nat ->
    is_num v = false -> (n < length (print v))%nat -> from_text dec (take n (print v)) = Err InvalidData.
  Proof.
    intros J D N L. unfold from_text. destruct (parse (take n (print v))) as [w|] eqn:E; [|done].
    destruct (parse_prefix v (take n (print v)) (drop n (print v)) w J D N) as [X _];
      [by rewrite take_drop|done|].
    apply (f_equal length) in X. rewrite drop_length in X. cbn in X. lia.
  Qed.

  Lemma nloc_pieces ext ext' path path' : is_node_ext ext -> is_node_ext ext' -> plain path -> plain path' ->
    nloc H ext path = nloc H ext' path' -> pieces path = pieces path'.
  Proof. intros E E' P P' X. apply loc_node_inj in X as [X _]; [done|done|done|apply GS|done|done]. Qed.

  (** The files of node [path'] after a stop: all as before, all as after, or
      one of them cut short. *)
  Lemma op_crash_files rs op o o' path' : idle o -> wf_fs (view o) -> mo_ok op -> plain path' ->
    stops o (p_meta_op H sl rs op) o' ->
    idle (released o') /\ wf_fs (view o') /\
    ((forall ext, is_node_ext ext -> file_at (view o') (nloc H ext path') = file_at (view o) (nloc H ext path')) \/
     (pieces path' = pieces (mo_path op) /\ exists o2, leaves (unlimited o) (p_meta_op H sl rs op) o2 /\ idle o2 /\ wf_fs (view o2) /\
        forall ext, is_node_ext ext -> file_at (view o') (nloc H ext path') = file_at (view o2) (nloc H ext path')) \/
     (pieces path' = pieces (mo_path op) /\ exists ext0 v n, is_node_ext ext0 /\ json_ok v = true /\ (jdepth v <= 127)%nat /\ is_num v = false /\
        (n < length (print v))%nat /\ file_at (view o') (nloc H ext0 path') = Some (take n (print v)) /\
        forall ext, is_node_ext ext -> ext <> ext0 ->
          file_at (view o') (nloc H ext path') = file_at (view o) (nloc H ext path'))).
  Proof.
    intros C W M P' S. pose proof (mo_plain op M) as P.
    destruct (op_stops rs op o o' C W M S) as [K' D].
    split; [by apply idle_released|].
    destruct D as [->|(ext & v & PL & CUT)]; [split; [done|by left]|].
    pose proof CUT as (W' & SE & DK & CC). split; [done|].
    destruct (plan_ok _ _ _ _ W M PL) as (NE & J & DP & NN).
    destruct (decide (file_at (view o') (nloc H ext (mo_path op)) = file_at (view o) (nloc H ext (mo_path op)))) as [EQ|NEQ].
    { left. intros e Ee. destruct (decide (nloc H e path' = nloc H ext (mo_path op))) as [-> |X]; [done|by apply SE]. }
    assert ((exists e, is_node_ext e /\ nloc H e path' = nloc H ext (mo_path op)) \/
            forall e, is_node_ext e -> nloc H e path' <> nloc H ext (mo_path op)) as [X|X].
    { destruct (decide (nloc H AX path' = nloc H ext (mo_path op))) as [Y|Y]; [left; by exists AX|].
      destruct (decide (nloc H GX path' = nloc H ext (mo_path op))) as [Z|Z]; [left; by exists GX|].
      right. by intros e [-> | ->]. }
    2:{ left. intros e Ee. by apply SE, X. }
    destruct X as (e & Ee & X). right.
    assert (e = ext /\ pieces path' = pieces (mo_path op)) as [-> PE].
    { apply loc_node_inj in X as [X1 X2]; [done|done|done|apply GS|done|done]. }
    clear Ee. destruct CC as [CC|[n CC]]; [done|].
    pose proof (cut_can_hold _ _ _ _ W CUT NEQ) as CH.
    destruct (decide (n < length (print v))%nat) as [L|L].
    - right. split; [done|]. exists ext, v, n. split_and!; try done; [by rewrite X|].
      intros e' Ee' Ne. apply SE. intros Y. apply Ne.
      rewrite <- X in Y. by apply loc_node_inj in Y as [_ Y]; [|done|done|apply GS|done|done].
    - left. split; [done|]. destruct (op_does rs op (unlimited o) (unlimited_calm o C)) as (o2 & R2 & V2 & C2).
      rewrite view_unlimited in R2, V2.
      pose proof (seq_plan (view o) op W M) as SP. rewrite PL in SP. rewrite SP in R2, V2.
      destruct (st_set_ok base (view o) (metadata_key ext sfx (mo_path op)) W PB (nloc_plain H GS ext _ NE P) (print v, Ok tt) CH)
        as (s' & E & W2 & N2).
      rewrite E in V2. cbn [fst] in *. subst s'.
      exists o2. split; [by eexists|]. split; [apply C2|]. split; [done|].
      intros e' Ee'. destruct (decide (nloc H e' path' = nloc H ext (mo_path op))) as [Y|Y].
      + rewrite Y, CC. rewrite take_ge by lia. unfold file_at. rewrite N2. by rewrite decide_True.
      + rewrite SE by done. unfold file_at. rewrite N2. rewrite decide_False by done.
        case_decide as Z; [|done].
        destruct (node_at (view o) (nloc H e' path')) as [[|c]|] eqn:N0; try done.
        destruct CH as [CH _]. exfalso. apply (CH _ Z Y c). unfold file_at. by rewrite N0.
  Qed.

  Lemma op_crash_any rs rs' op o o' path' : idle o -> wf_fs (view o) -> mo_ok op -> plain path' ->
    stops o (p_meta_op H sl rs op) o' ->
    (exists a, answers (released o') (p_get_array_metadata H path' rs') a /\
       (answers o (p_get_array_metadata H path' rs') a \/
        pieces path' = pieces (mo_path op) /\
        ((exists o2, leaves (unlimited o) (p_meta_op H sl rs op) o2 /\ answers o2 (p_get_array_metadata H path' rs') a)
         \/ exists e, a = Err e))) /\
    (exists a, answers (released o') (p_list_attributes H path' rs') a /\
       (answers o (p_list_attributes H path' rs') a \/
        pieces path' = pieces (mo_path op) /\
        ((exists o2, leaves (unlimited o) (p_meta_op H sl rs op) o2 /\ answers o2 (p_list_attributes H path' rs') a)
         \/ exists e, a = Err e))).
  Proof.
    intros C W M P' S. destruct (op_crash_files rs op o o' path' C W M P' S) as (I' & W' & D).
    pose proof (reads_answers _ _ _ (reads_get_array_metadata H path' rs' _ I')) as A1.
    pose proof (reads_answers _ _ _ (reads_list_attributes H path' rs' _ I')) as A2.
    pose proof (reads_answers _ _ _ (reads_get_array_metadata H path' rs' _ C)) as B1.
    pose proof (reads_answers _ _ _ (reads_list_attributes H path' rs' _ C)) as B2.
    rewrite view_released in A1, A2.
    rewrite get_array_metadata_at in A1, B1 by done. rewrite list_attributes_at in A2, B2 by done.
    split; (eexists; split; [eassumption|]).
    - destruct D as [D|[(PE & o2 & L & I2 & W2 & D)|(PE & e0 & v & n & NE & J & DP & NN & L & F & D)]].
      + left. by rewrite D.
      + right. split; [done|left]. exists o2. split; [done|]. rewrite D by done.
        rewrite <- get_array_metadata_at by done. by apply reads_answers, reads_get_array_metadata.
      + destruct (decide (AX = e0)) as [<-|X]; [|left; by rewrite D].
        right. split; [done|right]. rewrite F. unfold meta_of. cbn [of_option mbind res_bind].
        rewrite cut_document by done. by eexists.
    - destruct D as [D|[(PE & o2 & L & I2 & W2 & D)|(PE & e0 & v & n & NE & J & DP & NN & L & F & D)]].
      + left. by rewrite !D.
      + right. split; [done|left]. exists o2. split; [done|]. rewrite !D by done.
        rewrite <- list_attributes_at by done. by apply reads_answers, reads_list_attributes.
      + destruct (decide (AX = e0)) as [<-|X].
        { right. split; [done|right]. rewrite F. unfold attrs_of. cbn [of_option mbind res_bind].
          rewrite cut_document by done. by eexists. }
        rewrite (D AX) by done. destruct (file_at (view o) (nloc H AX path')) as [ta|] eqn:FA.
        { left. unfold attrs_of in *. exact B2. }
        destruct (decide (GX = e0)) as [<-|Y].
        2:{ left. by rewrite D. }
        right. split; [done|right]. rewrite F. unfold attrs_of. cbn [of_option mbind res_bind].
        rewrite cut_document by done. by eexists.
  Qed.
  Lemma op_crash rs rs' op o o' path' : calm o -> wf_fs (view o) -> mo_ok op -> plain path' ->
    stops o (p_meta_op H sl rs op) o' ->
    (exists a, answers (released o') (p_get_array_metadata H path' rs') a /\
       (answers o (p_get_array_metadata H path' rs') a \/
        pieces path' = pieces (mo_path op) /\
        ((exists o2, leaves o (p_meta_op H sl rs op) o2 /\ answers o2 (p_get_array_metadata H path' rs') a)
         \/ exists e, a = Err e))) /\
    (exists a, answers (released o') (p_list_attributes H path' rs') a /\
       (answers o (p_list_attributes H path' rs') a \/
        pieces path' = pieces (mo_path op) /\
        ((exists o2, leaves o (p_meta_op H sl rs op) o2 /\ answers o2 (p_list_attributes H path' rs') a)
         \/ exists e, a = Err e))).
  Proof. intros [I R]. pose proof (op_crash_any rs rs' op o o' path' I) as X. by rewrite (unlimited_id o R) in X. Qed.
End MetaCrash.
