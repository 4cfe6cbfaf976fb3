(** The calls of the store and of the hierarchy follow the protocol of
    ConcFacts.v. *)
From Verif Require Import BaseFacts PathFacts KeyFacts FSFacts Spec SpecMeta ChunkFacts HierFacts OpsFacts.
From Verif Require Import Sys SpecConc SysFacts SysOps CrashFacts CrashOps ConcFacts.
Local Open Scope Z_scope.

Section Store.
  Context (p : fpath) (Vals : bytes -> Prop) (stable : Prop) (absent : fpath -> Prop).
  Local Notation fol := (follows (pre p Vals stable absent) (nxt p Vals stable absent)).

  (** What a reader of the file may get. *)
  Definition seen (c : bytes) : Prop := Vals c \/ ~ stable /\ c = [].

  Lemma fol_mkdir_all cs n st : fol (fun st' r => st' = st /\ r <> Panic) st (p_mkdir_all cs n).
  Proof.
    assert (forall here (e : res unit), e <> Panic -> fol (fun st' r => st' = st /\ r <> Panic) st
              (Call (SIsDir here) (fun d => Ret (if d : bool then Ok tt else e)))) as OR.
    { intros here e N. cbn. split; [done|]. intros [] st' ->; done. }
    induction n as [|n IH]; [done|]. cbn [p_mkdir_all follows pre nxt]. split; [done|].
    intros r st' [-> N]. destruct r as [[]|e|]; [done| |done].
    destruct e; try by apply OR.
    eapply follows_try; [exact IH| |naive_solver|naive_solver].
    intros st2 [] [-> _]. cbn [follows pre nxt]. split; [done|].
    intros r st3 [-> N2]. destruct r as [[]|e|]; [done|by apply OR|done].
  Qed.

  Lemma fol_write_all fuel fd c : forall b d, (length b <= fuel)%nat -> ex_of d = true ->
    (b = [] -> d = Dirty) ->
    fol (fun st' x => st' = Hold Dirty fd (c ++ b) /\ x = (length (c ++ b), [], Ok tt))
        (Hold d fd c) (p_write_all fuel fd (length c) b).
  Proof.
    revert c. induction fuel as [|f IH]; intros c b d L ED DD.
    - destruct b; [|cbn in L; lia]. cbn. rewrite app_nil_r. by rewrite DD.
    - destruct b as [|a b]; [cbn; rewrite app_nil_r; by rewrite DD|].
      cbn [p_write_all follows pre nxt]. split; [right; by exists d, c|].
      intros x st' (n & -> & P & LE & [(w & ? & _)|(d' & c' & E & ->)]); [done|].
      injection E as <- <-. specialize (P ltac:(done)). destruct n as [|n]; [lia|].
      replace (length c + S n)%nat with (length (c ++ take (S n) (a :: b))).
      2:{ rewrite app_length, take_length. lia. }
      pose proof (IH (c ++ take (S n) (a :: b)) (drop (S n) (a :: b)) Dirty) as X.
      rewrite <- app_assoc, take_drop in X. apply X; [|done|done].
      rewrite drop_length. cbn in *. lia.
  Qed.
  Lemma fol_write_all_foreign fuel fd w : forall b off, (length b <= fuel)%nat ->
    fol (fun st' x => st' = Open w false fd /\ x = ((off + length b)%nat, [], Ok tt))
        (Open w false fd) (p_write_all fuel fd off b).
  Proof.
    induction fuel as [|f IH]; intros b off L.
    - destruct b; [|cbn in L; lia]. cbn. by rewrite Nat.add_0_r.
    - destruct b as [|a b]; [cbn; by rewrite Nat.add_0_r|].
      cbn [p_write_all follows pre nxt]. split; [left; by exists w|].
      intros x st' (n & -> & P & LE & [(w' & E & ->)|(? & ? & ? & _)]); [|done].
      specialize (P ltac:(done)). destruct n as [|n]; [lia|].
      eapply follows_weaken; [apply IH; rewrite drop_length; cbn in *; lia|].
      intros st x [-> ->]. split; [done|]. rewrite drop_length. do 2 f_equal. lia.
  Qed.

  Lemma fol_drop fd c d buf r : ex_of d = true -> (buf = [] -> d = Dirty) -> Vals (c ++ buf) ->
    fol (fun st' x => st' = Free /\ x = r) (Hold d fd c) (p_drop fd (length c) buf r).
  Proof.
    intros ED DD V. unfold p_drop. eapply follows_bind; [by apply fol_write_all|].
    intros st x [-> _]. cbn. split; [right; by exists Dirty, (c ++ buf)|]. by intros _ st' ->.
  Qed.
  Lemma fol_drop_foreign fd w off buf r :
    fol (fun st' x => st' = Free /\ x = r) (Open w false fd) (p_drop fd off buf r).
  Proof.
    unfold p_drop. eapply follows_bind; [by apply fol_write_all_foreign|].
    intros st x [-> _]. cbn. split; [left; by exists w, false|]. by intros _ st' ->.
  Qed.
  Lemma fol_buffered fd r ws : forall c buf, Vals (c ++ buf ++ concat ws) ->
    fol (fun st' x => st' = Free /\ x = r) (Hold Dirty fd c) (p_buffered fd (length c) buf ws r).
  Proof.
    induction ws as [|w ws IH]; intros c buf V; cbn [p_buffered].
    { cbn in V. rewrite app_nil_r in V. by apply fol_drop. }
    cbn [concat] in V.
    assert (forall c buf, Vals (c ++ buf ++ w ++ concat ws) -> (buf = [] \/ (lenZ w <? BUF_CAP) = true) ->
      fol (fun st' x => st' = Free /\ x = r) (Hold Dirty fd c)
        (if lenZ w >=? BUF_CAP
        then pbind (p_write_all (length w) fd (length c) w) (fun x =>
               let '(off', _, rw) := x in
               match rw with
               | Ok _ => p_buffered fd off' buf ws r
               | e => p_drop fd off' buf e
               end)
        else p_buffered fd (length c) (buf ++ w) ws r)) as PUT.
    { clear c buf V. intros c buf V O. destruct (lenZ w >=? BUF_CAP) eqn:G.
      - destruct O as [->|O]; [|lia]. eapply follows_bind; [by apply fol_write_all|].
        intros st x [-> ->]. apply IH. by rewrite <- app_assoc.
      - apply IH. by rewrite <- app_assoc. }
    destruct (lenZ w >? BUF_CAP - lenZ buf) eqn:G.
    - eapply follows_bind; [by apply fol_write_all|]. intros st x [-> ->]. apply PUT; [|by left].
      cbn [app]. by rewrite <- app_assoc.
    - apply PUT; [done|]. destruct buf as [|a buf]; [by left|right]. unfold lenZ in *. cbn [length] in G. lia.
  Qed.
  Lemma fol_buffered_foreign fd wr r ws : forall off buf,
    fol (fun st' x => st' = Free /\ x = r) (Open wr false fd) (p_buffered fd off buf ws r).
  Proof.
    induction ws as [|w ws IH]; intros off buf; cbn [p_buffered]; [apply fol_drop_foreign|].
    assert (forall off buf,
      fol (fun st' x => st' = Free /\ x = r) (Open wr false fd)
        (if lenZ w >=? BUF_CAP
        then pbind (p_write_all (length w) fd off w) (fun x =>
               let '(off', _, rw) := x in
               match rw with
               | Ok _ => p_buffered fd off' buf ws r
               | e => p_drop fd off' buf e
               end)
        else p_buffered fd off (buf ++ w) ws r)) as PUT.
    { clear off buf. intros off buf. destruct (lenZ w >=? BUF_CAP).
      - eapply follows_bind; [by apply fol_write_all_foreign|]. intros st x [-> ->]. apply IH.
      - apply IH. }
    destruct (lenZ w >? BUF_CAP - lenZ buf); [|apply PUT].
    eapply follows_bind; [by apply fol_write_all_foreign|]. intros st x [-> ->]. apply PUT.
  Qed.

  Lemma fol_read_all fd d c rs : forall off acc,
    fol (fun st' x => st' = Hold d fd c /\ x = acc ++ drop off c) (Hold d fd c) (p_read_all fd off rs acc).
  Proof.
    induction rs as [|n rs IH]; intros off acc; cbn [p_read_all follows pre nxt].
    - split; [right; by exists d, c|]. intros x st' [-> X]. by rewrite (X d c).
    - split; [right; by exists d, c|]. intros x st' [-> X]. rewrite (X d c) by done. clear X x.
      case_bool_decide as Z.
      + cbn. split; [done|]. destruct (drop off c) as [|a t]; [by rewrite app_nil_r|].
        destruct n; cbn in Z; done.
      + eapply follows_weaken; [apply IH|]. intros st x [-> ->]. split; [done|].
        rewrite <- app_assoc. f_equal. rewrite <- drop_drop.
        set (t := drop off c). rewrite take_length.
        rewrite <- (take_drop (Nat.max 1 n) t) at 4. f_equal.
        destruct (Nat.le_ge_cases (Nat.max 1 n) (length t)).
        * by rewrite Nat.min_l.
        * rewrite Nat.min_r by done. rewrite drop_all. by rewrite drop_ge.
  Qed.
  Lemma fol_read_all_foreign fd w rs : forall off acc,
    fol (fun st' x => st' = Open w false fd) (Open w false fd) (p_read_all fd off rs acc).
  Proof.
    induction rs as [|n rs IH]; intros off acc; cbn [p_read_all follows pre nxt].
    - split; [left; by exists w|]. by intros x st' [-> X].
    - split; [left; by exists w|]. intros x st' [-> X]. case_bool_decide; [done|]. apply IH.
  Qed.

  Context (base key : bytes) (PB : plain base) (PK : plain key).
  Local Notation q := (loc base key).

  Lemma fol_exists st :
    fol (fun st' r => st' = st /\ exists b, r = Ok b /\ (stable -> q = p -> b = true) /\ (absent q -> b = false))
        st (p_exists base key).
  Proof.
    unfold p_exists. rewrite key_comps_plain by done. cbn. split; [done|].
    intros b st' (-> & S & A). split; [done|]. exists b. split_and!; [done| |].
    - intros ST E. apply S; [done|]. by rewrite E.
    - intros AB. by apply (A q).
  Qed.

  Lemma fol_get rs :
    fol (fun st' r => st' = Free /\ r <> Panic /\
           (absent q -> r = Ok None) /\
           (q = p -> (exists c, seen c /\ r = Ok (Some c)) \/ (~ stable /\ (r = Ok None \/ exists e, r = Err e))))
        Free (p_get base key rs).
  Proof.
    unfold p_get. rewrite key_comps_plain by done. cbn [pres follows pre nxt]. split; [done|].
    intros b st' (-> & S & A). destruct b.
    2:{ cbn. split_and!; [done..|]. intros E. right. split; [|by left]. intros ST.
        by specialize (S ST ltac:(by rewrite E)). }
    assert (~ absent q) as NA by (intros AB; by specialize (A q AB eq_refl)). clear A S.
    unfold ptry. cbn [pbind follows pre nxt]. split; [split; [done|by exists q]|].
    intros r st' X. destruct r as [fd|e|].
    - destruct X as (m & -> & X1 & X2). cbn [follows pre nxt].
      split; [by exists false, m|]. intros _ st'.
      intros [(w & E & ->)|(w & c & E & SC & ->)].
      + injection E as <- ->. eapply follows_bind; [apply fol_read_all_foreign|].
        intros st x ->. cbn. split; [left; by exists false, false|]. intros _ st' ->. split_and!; [done..|].
        intros E. specialize (X2 ltac:(by rewrite E) ltac:(by left)). done.
      + injection E as <- ->. eapply follows_bind; [apply fol_read_all|].
        intros st x [-> ->]. cbn. split; [right; by eexists _, _|]. intros _ st' ->. split_and!; [done..|].
        intros _. left. exists c. split; [exact SC|]. by rewrite drop_0.
    - destruct X as [-> NS]. cbn. split_and!; [done..|]. intros E. right. split; [|right; by exists e].
      intros ST. apply NS. by rewrite E.
    - done.
  Qed.

  Lemma fol_set ws r : (q = p -> Vals (concat ws)) -> ~ absent q ->
    fol (fun st' x => st' = Free /\ (x = r \/ ~ (stable /\ q = p) /\ exists e, x = Err e)) Free (p_set base key ws r).
  Proof.
    intros V NA. unfold p_set. rewrite key_comps_plain by done. cbn [pres].
    eapply follows_try with (P := fun st' x => st' = Free /\ x <> Panic /\ (stable /\ q = p -> x = Ok tt)); [| |naive_solver|naive_solver].
    { destruct (map Normal q) eqn:E; [done|]. rewrite <- E. cbn [follows pre nxt]. split; [done|].
      intros b st' [-> SE]. destruct b; [done|]. eapply follows_weaken; [apply fol_mkdir_all|].
      intros st x [-> N]. split_and!; [done..|]. intros [ST Q]. rewrite parent_comps_map, Q in SE.
      by specialize (SE ST _ eq_refl). }
    intros st [] [-> _]. unfold ptry. cbn [pbind follows pre nxt]. split; [split; [done|by exists q]|].
    intros x st' X. destruct x as [fd|e|]; [| |done].
    2:{ destruct X as [-> X]. cbn. split; [done|]. right. split; [|by exists e]. intros [ST Q]. apply X. by rewrite Q. }
    subst st'.
    cbn [follows pre nxt]. split; [by eexists _, _|]. intros _ st' [(w & E & ->)|(w & c & E & SC & ->)].
    - injection E as <- E. rewrite E. split; [left; by exists true|].
      intros _ st' [(w & _ & ->)|(? & ? & ? & _)]; [|done].
      eapply follows_weaken; [apply fol_buffered_foreign|]. naive_solver.
    - injection E as <- E. apply bool_decide_eq_true in E. apply normal_inj in E.
      split; [right; by eexists _, _|]. intros _ st' [(? & ? & _)|(d & c' & E' & ->)]; [done|].
      eapply follows_weaken; [apply (fol_buffered fd r ws [] [])|]; [by apply V|]. naive_solver.
  Qed.

  Lemma fol_erase : (stable -> q <> p) ->
    fol (fun st' x => st' = Free /\ x <> Panic) Free (p_erase base key).
  Proof.
    intros N. unfold p_erase. rewrite key_comps_plain by done. cbn [pres follows pre nxt]. split; [done|].
    intros b st' [-> _]. destruct b; [|cbn; split; [done|]; intros b st' [-> _]; done].
    unfold ptry. cbn [pbind follows pre nxt]. split; [split; [done|by exists q]|].
    intros x st' X. destruct x as [fd|e|]; [|destruct X as [-> _]; done|done].
    destruct X as (m & -> & X1 & X2). cbn [follows pre nxt]. split; [by exists false, m|].
    intros _ st' S. split; [by exists q|]. intros r st2 [-> NP].
    assert (forall r : res unit, r <> Panic -> fol (fun st' x => st' = Free /\ x <> Panic) Free
       (pres r (fun _ => Call (SExists (map Normal q)) (fun b => Ret (Ok (negb b)))))) as FI.
    { intros r0 NP0. destruct r0; cbn; [|done|done]. split; [done|]. by intros b st2 [-> _]. }
    destruct S as [(w & E & ->)|(w & c & E & SC & ->)].
    - injection E as <- ->. split; [left; by exists false, false|]. intros _ st' ->. by apply FI.
    - injection E as <- ->. split; [right; by eexists _, _|]. intros _ st' ->. by apply FI.
  Qed.
End Store.

Section Calls.
  Context (p : fpath) (Vals : bytes -> Prop) (stable : Prop) (absent : fpath -> Prop).
  Local Notation fol := (follows (pre p Vals stable absent) (nxt p Vals stable absent)).
  Context (C : codec) (h : host) (H : hier) (sl : bytes -> list bytes).
  Context (PB : plain (hy_base H)) (GS : good_suffix (ep_suffix (hy_ep H))).
  Local Notation base := (hy_base H).

  Lemma plain_akey path : plain path -> plain (akey H path).
  Proof. intros P. apply plain_node_key; [by left|apply GS|done]. Qed.
  Lemma plain_gkey path : plain path -> plain (gkey H path).
  Proof. intros P. apply plain_node_key; [by right|apply GS|done]. Qed.

  (** Key [k] names a file that calls may write freely. *)
  Definition elsewhere (k : bytes) : Prop := loc base k <> p /\ ~ absent (loc base k).
  Definition free {A} : sess -> A -> Prop := fun st _ => st = Free.

  Lemma free_get key rs : plain key -> fol free Free (p_get base key rs).
  Proof. intros P. eapply follows_weaken; [by apply fol_get|]. by intros st r (? & _). Qed.
  Lemma free_set key ws r : plain key -> elsewhere key -> fol free Free (p_set base key ws r).
  Proof. intros P [E1 E2]. eapply follows_weaken; [by apply fol_set|]. by intros st x (? & _). Qed.
  Lemma free_exists key : plain key -> fol free Free (p_exists base key).
  Proof. intros P. eapply follows_weaken; [by apply fol_exists|]. by intros st x (? & _). Qed.
  Lemma free_try {A D} (q : proc (res A)) (f : A -> proc (res D)) :
    fol free Free q -> (forall a, fol free Free (f a)) -> fol free Free (ptry q f).
  Proof. intros F N. eapply follows_try; [exact F| |done|done]. intros st a ->. apply N. Qed.
  Lemma free_pres {A D} (r : res A) (f : A -> proc (res D)) :
    (forall a, fol free Free (f a)) -> fol free Free (pres r f).
  Proof. intros N. by destruct r; cbn; [apply N|..]. Qed.
  Lemma free_reply {A} (f : A -> reply) q : fol free Free q -> fol free Free (map_reply f q).
  Proof. intros F. eapply follows_bind; [exact F|]. by intros st a ->. Qed.
  Lemma node_key_spec path : plain path ->
    fol (fun st r => st = Free /\ forall k, r = Ok k -> k = akey H path \/ k = gkey H path) Free (p_node_key H path).
  Proof.
    intros P. unfold p_node_key. eapply follows_try; [by apply free_exists, plain_akey| |by intros ? ? ->|by intros ? ->].
    intros st a ->. destruct a; [cbn; naive_solver|].
    eapply follows_try; [by apply free_exists, plain_gkey| |by intros ? ? ->|by intros ? ->].
    intros st a ->. destruct a; cbn; naive_solver.
  Qed.

  Lemma free_get_array_metadata path rs : plain path -> fol free Free (p_get_array_metadata H path rs).
  Proof. intros P. apply free_try; [by apply free_get, plain_akey|]. done. Qed.
  Lemma free_list_attributes path rs : plain path -> fol free Free (p_list_attributes H path rs).
  Proof.
    intros P. unfold p_list_attributes.
    eapply follows_try; [by apply node_key_spec| |naive_solver|naive_solver].
    intros st k (-> & K). apply free_try; [|done]. apply free_get.
    destruct (K k eq_refl) as [->| ->]; [by apply plain_akey|by apply plain_gkey].
  Qed.
  Lemma free_set_attributes path attrs rs : plain path -> elsewhere (akey H path) -> elsewhere (gkey H path) ->
    fol free Free (p_set_attributes H sl path attrs rs).
  Proof.
    intros P EA EG. unfold p_set_attributes.
    eapply follows_try; [by apply node_key_spec| |naive_solver|naive_solver].
    intros st k (-> & K). specialize (K k eq_refl).
    assert (plain k) as PK by (destruct K as [->| ->]; [by apply plain_akey|by apply plain_gkey]).
    apply free_try; [by apply free_get|]. intros x. apply free_pres. intros text. apply free_pres. intros ex.
    destruct (json_eqb _ _); [done|]. apply free_set; [done|]. by destruct K as [->| ->].
  Qed.
  Lemma free_create_group path : plain path -> elsewhere (gkey H path) ->
    fol free Free (p_create_group H sl path).
  Proof.
    intros P EG. unfold p_create_group. apply free_try; [by apply free_exists, plain_akey|]. intros [|]; [done|].
    apply free_try; [by apply free_exists, plain_gkey|]. intros [|]; [done|].
    apply free_set; [by apply plain_gkey|done].
  Qed.
  Lemma free_create_array path m : plain path -> elsewhere (akey H path) ->
    fol free Free (p_create_array H sl path m).
  Proof.
    intros P EG. unfold p_create_array. apply free_try; [by apply free_exists, plain_gkey|]. intros [|]; [done|].
    apply free_try; [by apply free_exists, plain_akey|]. intros [|]; [done|].
    apply free_set; [by apply plain_akey|done].
  Qed.
  Lemma free_read_chunk t path m pos rs : plain path -> plain (am_sep m) -> pos_ok pos ->
    fol free Free (p_read_chunk H C h t path m pos rs).
  Proof.
    intros P S Q. unfold p_read_chunk. apply free_pres. intros _. apply free_try; [|done].
    by apply free_get, plain_chunk_key.
  Qed.
  Lemma free_write_chunk t path m ck ws : plain path -> plain (am_sep m) -> pos_ok (ck_pos ck) ->
    elsewhere (get_chunk_key path m (ck_pos ck)) ->
    fol free Free (p_write_chunk H C h t path m ck ws).
  Proof. intros P S Q E. apply free_set; [by apply plain_chunk_key|done]. Qed.
  Lemma free_delete_chunk path m pos : plain path -> plain (am_sep m) -> pos_ok pos ->
    (stable -> loc base (get_chunk_key path m pos) <> p) ->
    fol free Free (p_delete_chunk H path m pos).
  Proof.
    intros P S Q E. eapply follows_weaken; [apply fol_erase; [done|by apply plain_chunk_key|done]|].
    by intros st x (? & _).
  Qed.

  Lemma free_each {A} (f : A -> proc (res unit)) es : (forall e, fol free Free (f e)) -> fol free Free (p_each f es).
  Proof. intros F. induction es as [|e es IH]; [done|]. by apply free_try. Qed.
  Lemma free_rm_tree ord (q0 : fpath) : (stable -> ~ q0 `prefix_of` p) -> forall fuel q dir, q0 `prefix_of` q ->
    fol free Free (p_rm_tree ord fuel (map Normal q) dir).
  Proof.
    intros N fuel. induction fuel as [|fuel IH]; intros q dir Q; [done|]. cbn [p_rm_tree]. destruct dir.
    - apply free_try; [cbn; split; [done|]; by intros x st' [-> _]|]. intros es. apply free_try.
      + apply free_each. intros e. change [Normal e.1] with (map Normal [e.1]). rewrite <- map_app.
        apply IH. by apply prefix_app_r.
      + intros _. cbn. split; [done|]. by intros x st' [-> _].
    - unfold ptry. cbn [pbind follows pre nxt]. split; [split; [done|by exists q]|].
      intros x st' X. destruct x as [fd|e|]; [|destruct X as [-> _]; done|done].
      destruct X as (m & -> & X1 & X2). cbn [follows pre nxt]. split; [by exists false, m|].
      intros _ st' S. split.
      { exists q. split; [done|]. intros ST ->. by apply N. }
      intros r st2 [-> NP]. destruct S as [(w & E & ->)|(w & c & E & SC & ->)]; injection E as <- ->.
      + split; [left; by exists false, false|]. by intros _ st' ->.
      + split; [right; by eexists _, _|]. by intros _ st' ->.
  Qed.
  Lemma free_erase key : plain key -> (stable -> loc base key <> p) -> fol free Free (p_erase base key).
  Proof. intros P E. eapply follows_weaken; [by apply fol_erase|]. by intros st x (? & _). Qed.
  Lemma free_remove ord fuel path : plain path ->
    (stable -> loc base (gkey H path) <> p /\ loc base (akey H path) <> p
               /\ ~ (pieces base ++ B "data" :: B "root" :: pieces path) `prefix_of` p) ->
    fol free Free (p_remove H ord fuel path).
  Proof.
    intros P N. unfold p_remove.
    apply free_try; [apply free_erase; [by apply plain_gkey|by intros (? & _)%N]|]. intros _.
    apply free_try; [apply free_erase; [by apply plain_akey|by intros (_ & ? & _)%N]|]. intros _.
    apply free_try; [|done]. unfold p_erase_prefix. rewrite key_comps_plain by (done || by apply data_key_plain).
    cbn [pres follows pre nxt]. split; [done|].
    assert (fol free Free (Call (SExists (map Normal (loc base (data_path_key path)))) (fun b => Ret (Ok (negb b))))) as FI.
    { cbn. split; [done|]. by intros b st' [-> _]. }
    intros b st' [-> _]. destruct b; [|exact FI]. cbn [follows pre nxt]. split; [done|].
    intros d st' ->. destruct d as [dir|]; [|done]. apply free_try; [|done].
    apply (free_rm_tree ord (loc base (data_path_key path))); [|done]. rewrite data_key_loc. by intros (_ & _ & ?)%N.
  Qed.
  Lemma free_stats cs es : fol free Free (p_stats cs es).
  Proof.
    induction es as [|e es IH]; [done|]. cbn [p_stats follows pre nxt]. split; [done|]. intros d st' ->.
    eapply follows_bind; [exact IH|]. by intros st l ->.
  Qed.
  Lemma free_list_nodes ord pr path : fol free Free (p_list_nodes H ord pr path).
  Proof.
    apply free_try; [|done]. apply free_pres. intros cs. apply free_try; [cbn; split; [done|]; by intros x st' [-> _]|].
    intros es. eapply follows_bind; [apply free_stats|]. by intros st l ->.
  Qed.

  (** Reading the file considered. *)
  Lemma fol_read_chunk t path m pos rs : plain path -> plain (am_sep m) -> pos_ok pos ->
    fol (fun st r => st = Free /\
          (in_bounds (h_prof h) m pos = Ok true -> loc base (get_chunk_key path m pos) = p ->
           (exists c, seen Vals stable c /\ r = (x ← decode_chunk C h t m c pos; Ok (Some x))) \/
           (~ stable /\ (r = Ok None \/ exists e, r = Err e))))
      Free (p_read_chunk H C h t path m pos rs).
  Proof.
    intros P S Q. unfold p_read_chunk.
    destruct (in_bounds (h_prof h) m pos) as [[]|e|]; cbn [mbind res_bind assert_ pres]; [|done..].
    eapply follows_try; [apply fol_get; [done|by apply plain_chunk_key]|..].
    - intros st x (-> & _ & _ & X). cbn. split; [done|]. intros _ E. specialize (X E).
      destruct X as [(c & SC & X)|(NS & [X|[e X]])]; [|injection X as ->; auto|done].
      injection X as ->. left. by exists c.
    - intros st e (-> & _ & _ & X). split; [done|]. intros _ E. specialize (X E). right.
      destruct X as [(c & SC & X)|(NS & X)]; [done|]. split; [done|]. right. by exists e.
    - intros st (-> & X & _). done.
  Qed.
  Lemma fol_write_chunk t path m ck ws : plain path -> plain (am_sep m) -> pos_ok (ck_pos ck) ->
    Vals (concat ws) -> loc base (get_chunk_key path m (ck_pos ck)) = p -> ~ absent p ->
    fol (fun st r => st = Free /\ (r = snd (encode_chunk C h t m ck) \/ ~ stable /\ exists e, r = Err e))
      Free (p_write_chunk H C h t path m ck ws).
  Proof.
    intros P S Q V E NA. unfold p_write_chunk.
    eapply follows_weaken; [apply fol_set; [done|by apply plain_chunk_key|done|by rewrite E]|].
    intros st x (-> & [X|[N X]]); [by auto|]. split; [done|]. right. split; [|done]. intros ST. apply N. by rewrite E.
  Qed.
End Calls.
