(** The hierarchy operations as processes running alone. *)
From Verif Require Import BaseFacts PathFacts FSFacts OpenFacts Spec.
From Verif Require Import Sys SpecSys SysFacts.
Local Open Scope Z_scope.


Lemma does_reads {A} o (p : proc A) a : calm o -> reads o p a -> does o p (view o, a).
Proof. intros [I R] (o' & E & V & I' & R'). exists o'. split_and!; try done. split; [done|congruence]. Qed.
Lemma does_ret {A} o (a : A) : calm o -> does o (Ret a) (view o, a).
Proof. intros C. by exists o. Qed.
Lemma does_on {A C : Type} o (p : proc (res A)) (f : A -> proc (res C)) r k :
  does o p (view o, r) ->
  (forall o1 a, calm o1 -> view o1 = view o -> r = Ok a -> does o1 (f a) (k a)) ->
  does o (ptry p f) (on (view o) r k).
Proof.
  intros (o1 & E & V & C1) N. unfold does in *. rewrite run_try, E. cbn [snd].
  destruct r as [a|e|]; cbn [on].
  - destruct (N o1 a C1 V eq_refl) as (o2 & E2 & V2 & C2). by exists o2.
  - by exists o1.
  - by exists o1.
Qed.
Lemma does_pres {A C : Type} o (f : A -> proc (res C)) r k : calm o ->
  (forall a, r = Ok a -> does o (f a) (k a)) ->
  does o (pres r f) (on (view o) r k).
Proof.
  intros C1 N. destruct r as [a|e|]; cbn [on pres]; [by apply N|by exists o|by exists o].
Qed.
Lemma does_bind_pure {A C : Type} o (p : proc (res A)) r (g : A -> res C) :
  does o p (view o, r) -> does o (ptry p (fun a => Ret (g a))) (view o, r ≫= g).
Proof.
  intros (o1 & E & V & C1). exists o1. rewrite run_try, E. cbn.
  destruct r; cbn; done.
Qed.

Lemma does_get base key rs o : calm o -> does o (p_get base key rs) (view o, st_get base (view o) key).
Proof. intros C. apply does_reads; [done|]. apply run_get, C. Qed.
Lemma does_exists base key o : calm o -> does o (p_exists base key) (view o, st_exists base (view o) key).
Proof. intros C. exists o. by rewrite run_exists. Qed.
Lemma does_set base key ws r o : calm o ->
  does o (p_set base key ws r) (st_set base (view o) key (concat ws, r)).
Proof.
  intros [I R]. destruct (run_set base key ws r o I) as (o' & E & V & I' & R').
  rewrite R in *. cbn [fits] in *. rewrite take_ge in * by lia.
  rewrite bool_decide_eq_true_2 in * by lia.
  exists o'. split_and!; try done. split; [done|by apply R'].
Qed.
Lemma does_erase base key o : calm o ->
  does o (p_erase base key) (st_erase base (view o) key).
Proof.
  intros [I R]. destruct (run_erase base key o I) as (o' & E & V & I' & R').
  exists o'. split_and!; try done. split; [done|congruence].
Qed.

Section Operations.
  Context (H : hier).

  Lemma does_get_array_metadata path rs o : calm o ->
    does o (p_get_array_metadata H path rs) (view o, get_array_metadata H (view o) path).
  Proof.
    intros C. unfold p_get_array_metadata, get_array_metadata.
    by apply (does_bind_pure o _ (st_get _ _ _)), does_get.
  Qed.

  Lemma does_read_chunk C h t path m pos rs o : calm o ->
    does o (p_read_chunk H C h t path m pos rs) (view o, read_chunk C h H (view o) t path m pos).
  Proof.
    intros K. unfold p_read_chunk, read_chunk.
    destruct (in_bounds (h_prof h) m pos) as [b|e|]; cbn [mbind res_bind]; [|by exists o|by exists o].
    destruct (assert_ b) as [[]|e|]; cbn [pres mbind res_bind]; [|by exists o|by exists o].
    by apply (does_bind_pure o _ (st_get _ _ _)), does_get.
  Qed.

  Lemma does_node_key path o : calm o ->
    does o (p_node_key H path) (view o, node_key H (view o) path).
  Proof.
    intros K. unfold p_node_key, node_key.
    assert (forall r (k : bool -> res bytes),
      (view o, r ≫= k) = on (view o) r (fun a => (view o, k a))) as B1.
    { intros r k. by destruct r. }
    rewrite B1. apply does_on; [by apply does_exists|].
    intros o1 a C1 V1 _. rewrite <- V1. destruct a; [by apply does_ret|].
    assert (forall r (k : bool -> res bytes),
      (view o1, r ≫= k) = on (view o1) r (fun a => (view o1, k a))) as B2.
    { intros r k. by destruct r. }
    rewrite B2. apply does_on; [by apply does_exists|].
    intros o2 g C2 V2 _. rewrite <- V2. destruct g; by apply does_ret.
  Qed.

  Lemma does_list_attributes path rs o : calm o ->
    does o (p_list_attributes H path rs) (view o, list_attributes H (view o) path).
  Proof.
    intros K. unfold p_list_attributes, list_attributes.
    assert (forall r (k : bytes -> res jmap),
      (view o, r ≫= k) = on (view o) r (fun a => (view o, k a))) as B1.
    { intros r k. by destruct r. }
    rewrite B1. apply does_on; [by apply does_node_key|].
    intros o1 k C1 V1 _. rewrite <- V1.
    by apply (does_bind_pure o1 _ (st_get _ _ _)), does_get.
  Qed.

  Context (sl : bytes -> list bytes) (SL : forall b, concat (sl b) = b).

  Lemma does_set_attributes path attrs rs o : calm o ->
    does o (p_set_attributes H sl path attrs rs) (set_attributes H (view o) path attrs).
  Proof.
    intros K. unfold p_set_attributes, set_attributes.
    apply does_on; [by apply does_node_key|]. intros o1 k C1 V1 _. rewrite <- V1.
    apply does_on; [by apply does_get|]. intros o2 x C2 V2 _. rewrite <- V2.
    apply does_pres; [done|]. intros text _.
    apply does_pres; [done|]. intros existing _.
    destruct (json_eqb _ _); [by apply does_ret|].
    rewrite <- (SL (print _)) at 2. by apply does_set.
  Qed.

  Lemma does_create_group path o : calm o ->
    does o (p_create_group H sl path) (create_group H (view o) path).
  Proof.
    intros K. unfold p_create_group, create_group.
    apply does_on; [by apply does_exists|]. intros o1 a C1 V1 _. rewrite <- V1.
    destruct a; [by apply does_ret|].
    apply does_on; [by apply does_exists|]. intros o2 g C2 V2 _. rewrite <- V2.
    destruct g; [by apply does_ret|].
    rewrite <- (SL (print _)) at 2. by apply does_set.
  Qed.

  Lemma does_create_array path m o : calm o ->
    does o (p_create_array H sl path m) (create_array H (view o) path m).
  Proof.
    intros K. unfold p_create_array, create_array.
    apply does_on; [by apply does_exists|]. intros o1 a C1 V1 _. rewrite <- V1.
    destruct a; [by apply does_ret|].
    apply does_on; [by apply does_exists|]. intros o2 g C2 V2 _. rewrite <- V2.
    destruct g; [by apply does_ret|].
    rewrite <- (SL (print _)) at 2. by apply does_set.
  Qed.

  Lemma does_write_chunk C h t path m ck ws o : calm o ->
    concat ws = fst (encode_chunk C h t m ck) ->
    does o (p_write_chunk H C h t path m ck ws) (write_chunk C h H (view o) t path m ck).
  Proof.
    intros K E. unfold p_write_chunk, write_chunk.
    rewrite (surjective_pairing (encode_chunk C h t m ck)), <- E. by apply does_set.
  Qed.

  Lemma does_delete_chunk path m pos o : calm o ->
    does o (p_delete_chunk H path m pos) (delete_chunk H (view o) path m pos).
  Proof. apply does_erase. Qed.
End Operations.

Lemma does_read_entry_point base rs o : calm o ->
  does o (p_read_entry_point base rs) (view o, read_entry_point base (view o)).
Proof.
  intros [(K & F & L) R]. unfold p_read_entry_point, read_entry_point, open_read.
  set (cs := comps (path_join base ENTRY_POINT_KEY)). unfold does. cbn [fst snd]. rewrite run_try.
  destruct (walk (view o) [] cs) as [p|e|] eqn:W;
    [|cbn [run sys_step]; rewrite W; by exists o|cbn [run sys_step]; rewrite W; by exists o].
  cbn [mbind res_bind].
  destruct (node_at (view o) p) as [[|c]|] eqn:E.
  - cbn [run sys_step]. rewrite W, E. by exists o.
  - destruct (run_openr o cs p c false K W E) as (i & T & D & S).
    cbn [run]. rewrite S. cbn [run]. rewrite run_bind.
    rewrite (run_read_all _ i c).
    2:{ cbn. by rewrite lookup_insert. }
    2:{ cbn. by rewrite D. }
    cbn [run sys_step mbind res_bind].
    eexists. split; [done|]. split; [done|]. split; [|done]. split_and!.
    + apply ok_close, ok_open_fd; [done|by rewrite D].
    + cbn. rewrite F. rewrite delete_insert; [done|]. apply lookup_empty.
    + cbn. by rewrite L, delete_empty.
  - cbn [run sys_step]. rewrite W, E. by exists o.
Qed.

Lemma does_open_or_create V sl base rs o : (forall b, concat (sl b) = b) ->
  calm o -> wf_fs (view o) -> plain base ->
  does o (p_open_or_create V sl base rs) (open_or_create V base (view o)).
Proof.
  intros SL C W PB. unfold p_open_or_create, open_or_create. cbv zeta.
  set (cs := comps (path_join base ENTRY_POINT_KEY)).
  unfold does at 1. cbn [run sys_step]. fold (@does (res hier)).
  destruct (path_exists (view o) cs) eqn:PE.
  { apply (does_on o _ _ _ (fun e => (view o, _ ← check_version V e; Ok (Hier base e)))).
    - by apply does_read_entry_point.
    - intros o1 e C1 V1 _. rewrite <- V1. by apply does_ret. }
  destruct C as [(K & F & L) R].
  destruct (run_mkdir_all (comps base) (length (comps base)) o K) as (o1 & E1 & V1 & K1 & F1 & L1 & R1).
  rewrite run_try, E1. unfold create_dir_all.
  destruct (mkdir_all (view o) (comps base) (length (comps base))) as [s1 [[]|e|]] eqn:M;
    cbn [fst snd andthen] in *; subst s1.
  2,3: exists o1; split_and!; try done; split; [split; [done|split; congruence]|congruence].
  (* the file is new *)
  set (zloc := pieces base ++ [ENTRY_POINT_KEY]).
  assert (EC : cs = map Normal zloc) by by apply entry_comps.
  assert (NZ : node_at (view o) zloc = None).
  { rewrite EC, path_exists_plain in PE by done. by destruct (node_at (view o) zloc). }
  assert (FN : forall k, file_at (view o) (take k (pieces base)) = None).
  { intros k. destruct (file_at (view o) (take k (pieces base))) as [c|] eqn:X; [|done].
    destruct (mkdir_all_blocked _ (pieces base) k c W X) as [e B].
    rewrite (comps_plain base PB), map_length, B in M. done. }
  assert (node_at (view o1) zloc = None /\ walk (view o1) [] cs = Ok zloc) as [N2 WK].
  { rewrite (comps_plain base PB), map_length in M.
    destruct (mkdir_all_plain (view o) (pieces base) (length (pieces base)) W) as (s1 & E & W1 & N1);
      [done|by intros k _|].
    rewrite E in M. injection M as <-. rewrite firstn_all in N1.
    assert (X : ~ zloc `prefix_of` pieces base).
    { intros X%prefix_length. unfold zloc in X. rewrite app_length in X. cbn in X. lia. }
    split; [by rewrite N1, decide_False|].
    assert (D2 : node_at s1 (pieces base) = Some Dir) by by rewrite N1, decide_True.
    rewrite EC. unfold zloc. rewrite map_app, walk_app.
    rewrite (walk_present s1 (pieces base) [] _ W1 D2). cbn [mbind res_bind app map walk]. by rewrite D2. }
  rewrite run_try. cbn [run].
  unfold create_file. pose proof (run_openw o1 cs K1) as OW.
  assert (OP : snd (open_truncate (view o1) cs) = Ok zloc \/ exists e, snd (open_truncate (view o1) cs) = Err e).
  { unfold open_truncate. rewrite WK, N2. destruct (is_dir_at _ _); [by left|right; by eexists]. }
  destruct (open_truncate (view o1) cs) as [s2 [p|e|]]; cbn [snd] in OP.
  - assert (p = zloc) as -> by (destruct OP as [[= ->]|[e [=]]]; done). clear OP.
    destruct OW as (o2 & i & fd & c & E2 & (N & K2 & T2 & D2 & F2 & FNn & L2 & R2 & S2 & V2) & -> & CC).
    assert (c = []) as ->.
    { destruct CC as [CC|[_ CC]]; [|done]. unfold file_at in CC. by rewrite N2 in CC. }
    assert (file_at (view o1) zloc = None) as -> by (unfold file_at; by rewrite N2).
    rewrite E2. cbn [run andthen default]. rewrite drop_nil, app_nil_r.
    assert (Fd : o_fds o2 !! fd = Some i) by (rewrite F2; apply lookup_insert).
    cbn [sys_step run]. rewrite Fd, no_conflict by congruence. cbn [run].
    rewrite run_try.
    destruct (run_buffered fd i (Ok tt) (sl (print (enc_ep ep_default))) [] (set_lock o2 fd true) []) as [sh E];
      [done|done|done|].
    rewrite !app_nil_l, SL in E. change (length (@nil ascii)) with 0%nat in E.
    assert (RN : o_room (set_lock o2 fd true) = None) by (cbn; congruence).
    rewrite RN in E. cbn [fits less_room fmap option_fmap option_map] in E.
    rewrite firstn_all, bool_decide_eq_true_2 in E by lia. rewrite E. clear E.
    cbn [run andthen]. eexists. split; [reflexivity|]. cbn [fst]. split.
    + rewrite view_close. set (text := print _).
      assert (view (wrote (set_lock o2 fd true) i text sh None) = view (set_data o2 i text)) as -> by done.
      rewrite (view_set_data _ zloc) by done. rewrite V2. by rewrite !insert_insert.
    + split; [|done]. split_and!.
      * apply ok_close. set (text := print _).
        assert (os_ok (set_data (set_lock o2 fd true) i text)) as [].
        { apply ok_set_data; [apply ok_set_lock; [done|by rewrite Fd]|]. cbn. by rewrite D2. }
        by split.
      * cbn. rewrite F2, F1, F. rewrite delete_insert; [done|]. apply lookup_empty.
      * cbn. rewrite L2, L1, L. rewrite delete_insert; [done|]. apply lookup_empty.
  - destruct OW as [-> ->]. exists o1. split_and!; try done; split; [split; [done|split; congruence]|congruence].
  - destruct OP as [|[]]; done.
Qed.

Lemma does_store base key ws rs r o : calm o ->
  does o (p_get base key rs) (view o, st_get base (view o) key)
  /\ does o (p_exists base key) (view o, st_exists base (view o) key)
  /\ does o (p_set base key ws r) (st_set base (view o) key (concat ws, r))
  /\ does o (p_erase base key) (st_erase base (view o) key).
Proof. intros C. split_and!; [by apply does_get|by apply does_exists|by apply does_set|by apply does_erase]. Qed.
Lemma does_operations H sl : (forall b, concat (sl b) = b) ->
  forall C h t path m attrs pos ck ws rs o, calm o -> concat ws = fst (encode_chunk C h t m ck) ->
  does o (p_get_array_metadata H path rs) (view o, get_array_metadata H (view o) path)
  /\ does o (p_read_chunk H C h t path m pos rs) (view o, read_chunk C h H (view o) t path m pos)
  /\ does o (p_list_attributes H path rs) (view o, list_attributes H (view o) path)
  /\ does o (p_set_attributes H sl path attrs rs) (set_attributes H (view o) path attrs)
  /\ does o (p_create_group H sl path) (create_group H (view o) path)
  /\ does o (p_create_array H sl path m) (create_array H (view o) path m)
  /\ does o (p_write_chunk H C h t path m ck ws) (write_chunk C h H (view o) t path m ck)
  /\ does o (p_delete_chunk H path m pos) (delete_chunk H (view o) path m pos).
Proof.
  intros SL C h t path m attrs pos ck ws rs o K E. split_and!.
  - by apply does_get_array_metadata.
  - by apply does_read_chunk.
  - by apply does_list_attributes.
  - by apply does_set_attributes.
  - by apply does_create_group.
  - by apply does_create_array.
  - by apply does_write_chunk.
  - by apply does_delete_chunk.
Qed.
