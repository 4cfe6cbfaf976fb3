(** Runs in which looking at files is never refused (C68): a refused call ends
    the whole call with an error, in the state of some crash point. *)
From Verif Require Import BaseFacts PathFacts FSFacts KeyFacts HierFacts Spec SpecMeta SpecHier.
From Verif Require Import JsonFacts MetaJsonFacts JsonPrefix NodeFacts RefFacts OpsFacts StoreFacts CoordIterFacts NdFacts.
From Verif Require Import Sys SysOpen SysNd SpecSys SpecFault SysFacts SysOps SysNdOps CrashFacts CrashOps CrashMeta CrashOpen
  CrashRemove ConcOpen OpenFacts FaultFacts.
Local Open Scope Z_scope.

Lemma visible_inv {A} o (p : proc A) o' a : visible o p o' a ->
  match p with
  | Ret b => o' = o /\ a = b
  | Call c k => (exists o1 x, sys_step c o = Some (o1, x) /\ visible o1 (k x) o' a)
                \/ (looks c = false /\ exists x, refused c = Some x /\ visible o (k x) o' a)
  end.
Proof. intros S. destruct S as [| |]; [done|left; by eauto|right; by eauto]. Qed.
Lemma visible_look {A T} (c : sys T) (k : T -> proc A) o o' a : looks c = true -> visible o (Call c k) o' a ->
  exists o1 x, sys_step c o = Some (o1, x) /\ visible o1 (k x) o' a.
Proof. intros L S. apply visible_inv in S as [S|[X _]]; [done|congruence]. Qed.

Lemma visible_bind {A D} (f : A -> proc D) : forall (p : proc A) o o' a, visible o (pbind p f) o' a ->
  exists o1 x, visible o p o1 x /\ visible o1 (f x) o' a.
Proof.
  induction p as [b|T c k IH]; intros o o' a S; cbn [pbind] in S.
  - exists o, b. split; [constructor|done].
  - apply visible_inv in S as [(o1 & x & E & S)|(L & x & E & S)]; apply IH in S as (o2 & y & S1 & S2); exists o2, y;
      (split; [|done]); [by eapply visible_call|by eapply visible_refused].
Qed.

(** Done as without refusals, or given up with an error and in the state of a
    crash point. *)
Definition sound {A} (o : os) (p : proc (res A)) : Prop :=
  os_ok o -> forall o' r, visible o p o' r ->
  run o p = Some (o', r) \/ ((exists e, r = Err e) /\ exists o2, stops o p o2 /\ view o' = view o2).
Lemma sound_ret {A} o (r : res A) : sound o (Ret r).
Proof. intros K o' x S. apply visible_inv in S as [-> ->]. by left. Qed.
(** From here on only errors, and no effects. *)
Fixpoint fails {A} (p : proc (res A)) : Prop :=
  match p with
  | Ret r => exists e, r = Err e
  | Call c k => reading _ c /\ forall x, fails (k x)
  end.
Lemma fails_visible {A} (p : proc (res A)) o o' r : fails p -> os_ok o -> visible o p o' r ->
  (exists e, r = Err e) /\ view o' = view o.
Proof.
  intros F K S. revert F K. induction S as [o r|T c k o o1 x o2 r E S IH|T c k o x o2 r L E S IH]; cbn [fails]; intros F K.
  - done.
  - destruct (reading_step (view o) _ c o o1 x (proj1 F) (conj K eq_refl) E) as [K1 V1]. rewrite <- V1.
    apply IH; [apply F|done].
  - apply IH; [apply F|done].
Qed.
Lemma sound_call {A T} (c : sys T) (k : T -> proc (res A)) o :
  (forall o1 x, sys_step c o = Some (o1, x) -> sound o1 (k x)) ->
  (looks c = false -> forall x, refused c = Some x -> fails (k x)) -> sound o (Call c k).
Proof.
  intros P F K o' r S. apply visible_inv in S as [(o1 & x & E & S)|(L & x & E & S)].
  - assert (K1 : os_ok o1) by by eapply sys_step_ok. destruct (P o1 x E K1 o' r S) as [X|(X & o2 & S2 & V2)].
    + left. cbn [run]. by rewrite E.
    + right. split; [done|]. exists o2. split; [|done]. eapply stops_later; [|exact S2]. cbn. by rewrite E.
  - right. destruct (fails_visible _ _ _ _ (F L x E) K S) as [X V]. split; [done|]. exists o. split; [constructor|done].
Qed.
Lemma sound_soft {A T} (c : sys T) (k : T -> proc (res A)) o :
  looks c = true \/ refused c = None -> (forall o1 x, sys_step c o = Some (o1, x) -> sound o1 (k x)) -> sound o (Call c k).
Proof. intros SF P. apply sound_call; [done|]. intros L x E. destruct SF; congruence. Qed.
Lemma sound_try {A D} (p : proc (res A)) (f : A -> proc (res D)) o :
  sound o p -> (forall o1 a, run o p = Some (o1, Ok a) -> sound o1 (f a)) -> sound o (ptry p f).
Proof.
  intros P F K o' r S. unfold ptry in S |- *. apply visible_bind in S as (o1 & x & S1 & S2).
  destruct (P K o1 x S1) as [X|((e & ->) & o2 & S3 & V3)].
  - assert (K1 : os_ok o1) by (eapply stops_ok; [exact K|by eapply stops_run]).
    rewrite run_bind, X. destruct x as [a|e|].
    + destruct (F o1 a X K1 o' r S2) as [Y|(Y & o2 & S3 & V3)]; [by left|right]. split; [done|].
      exists o2. split; [|done]. by eapply stops_bind_r.
    + apply visible_inv in S2 as [-> ->]. by left.
    + apply visible_inv in S2 as [-> ->]. by left.
  - right. apply visible_inv in S2 as [-> ->]. split; [by exists e|]. exists o2. split; [|done]. by apply stops_bind_l.
Qed.
Lemma sound_pres {A D} (r : res A) (f : A -> proc (res D)) o : (forall a, sound o (f a)) -> sound o (pres r f).
Proof. intros F. destruct r; [apply F|apply sound_ret|apply sound_ret]. Qed.
(** Looking, and calls on open files, before going on. *)
Definition soft (T : Type) (c : sys T) : Prop := looks c = true \/ refused c = None.
Lemma sound_bind {A D} (p : proc A) (f : A -> proc (res D)) : forall o,
  calls soft p -> (forall o1 a, run o p = Some (o1, a) -> sound o1 (f a)) -> sound o (pbind p f).
Proof.
  induction p as [a|T c k IH]; intros o P F; [by apply F|]. destruct P as [P1 P2]. cbn [pbind].
  apply sound_soft; [exact P1|]. intros o1 x E. apply IH; [apply P2|]. intros o2 a R. apply F. cbn [run]. by rewrite E.
Qed.
Lemma calls_weaken {A} (P Q : forall T, sys T -> Prop) (p : proc A) : (forall T c, P T c -> Q T c) -> calls P p -> calls Q p.
Proof.
  intros PQ. induction p as [a|T c k IH]; [done|]. intros [Hc Hk]. split; [by apply PQ|]. intros x. by apply IH.
Qed.
Lemma firm_soft {A} (p : proc A) : calls firm p -> calls soft p.
Proof. apply calls_weaken. intros T c F. by right. Qed.
Lemma sound_firm {A} (p : proc (res A)) o : calls firm p -> sound o p.
Proof.
  intros F K o' r S. left. apply firm_run; [done|]. by apply visible_faulty.
Qed.

Ltac refusal := let L := fresh in let E := fresh in intros L ? E; cbn in L, E; try done; injection E as <-; cbn; eauto.
Lemma sound_openr b cs o : sound o (Call (SOpenR b cs) (fun r => Ret r)).
Proof. apply sound_call; [intros; apply sound_ret|]. refusal. Qed.
Lemma sound_exists base key o : sound o (p_exists base key).
Proof. apply sound_pres. intros cs. apply sound_soft; [by left|]. intros. apply sound_ret. Qed.
Lemma sound_get base key rs o : sound o (p_get base key rs).
Proof.
  apply sound_pres. intros cs. apply sound_soft; [by left|]. intros o1 [|] E; [|apply sound_ret]. apply sound_try; [apply sound_openr|].
  intros o2 fd _. apply sound_soft; [by right|]. intros o3 _ _. apply sound_bind; [apply firm_soft, read_all_firm|].
  intros o4 c _. apply sound_soft; [by right|]. intros. apply sound_ret.
Qed.
Lemma sound_erase base key o : sound o (p_erase base key).
Proof.
  apply sound_pres. intros cs. cbv zeta.
  assert (FIN : forall o1, sound o1 (Call (SExists cs) (fun b => Ret (Ok (negb b)))))
    by (intros o1; apply sound_soft; [by left|]; intros; apply sound_ret).
  apply sound_soft; [by left|]. intros o1 [|] _; [|apply FIN]. apply sound_try; [apply sound_openr|]. intros o2 fd _.
  apply sound_soft; [by right|]. intros o3 _ _. apply sound_call; [|refusal].
  intros o4 r _. apply sound_soft; [by right|]. intros o5 _ _. by apply sound_pres.
Qed.
Lemma sound_each {A} (f : A -> proc (res unit)) es : (forall o e, sound o (f e)) -> forall o, sound o (p_each f es).
Proof.
  intros F. induction es as [|e es IH]; intros o; [apply sound_ret|]. cbn [p_each]. apply sound_try; [apply F|].
  intros. apply IH.
Qed.
Lemma sound_rm_tree ord fuel : forall cs dir o, sound o (p_rm_tree ord fuel cs dir).
Proof.
  induction fuel as [|f IH]; intros cs dir o; [apply sound_ret|]. cbn [p_rm_tree]. destruct dir.
  - apply sound_try; [apply sound_call; [intros; apply sound_ret|refusal]|]. intros o1 es _.
    apply sound_try; [apply sound_each; intros; apply IH|]. intros o2 _ _.
    apply sound_call; [intros; apply sound_ret|refusal].
  - apply sound_try; [apply sound_openr|]. intros o1 fd _. apply sound_soft; [by right|]. intros o2 _ _.
    apply sound_call; [|refusal]. intros o3 r _. apply sound_soft; [by right|]. intros. apply sound_ret.
Qed.
Lemma sound_erase_prefix ord fuel base key o : sound o (p_erase_prefix ord fuel base key).
Proof.
  apply sound_pres. intros cs. cbv zeta.
  assert (FIN : forall o1, sound o1 (Call (SExists cs) (fun b => Ret (Ok (negb b)))))
    by (intros o1; apply sound_soft; [by left|]; intros; apply sound_ret).
  apply sound_soft; [by left|]. intros o1 [|] _; [|apply FIN]. apply sound_soft; [by left|].
  intros o2 [dir|] _; [|apply sound_ret]. apply sound_try; [apply sound_rm_tree|]. intros. apply FIN.
Qed.
Lemma sound_mkdir_all cs n : forall o, sound o (p_mkdir_all cs n).
Proof.
  induction n as [|n IH]; intros o; [apply sound_ret|]. cbn [p_mkdir_all].
  set (here := take (Datatypes.S n) cs).
  assert (OR : forall (e : res unit) o1, sound o1 (Call (SIsDir here) (fun d : bool => Ret (if d then Ok tt else e))))
    by (intros; apply sound_soft; [by left|]; intros; apply sound_ret).
  assert (AGAIN : forall o1 (k : res unit -> proc (res unit)),
    (forall o2 r, sys_step (SMkdir here) o1 = Some (o2, r) -> sound o2 (k r)) ->
    k (Err Other) = Call (SIsDir here) (fun d : bool => Ret (if d then Ok tt else Err Other)) ->
    k (Err AlreadyExists) = Call (SIsDir here) (fun d : bool => Ret (if d then Ok tt else Err AlreadyExists)) ->
    sound o1 (Call (SMkdir here) k)).
  { intros o1 k F KO KA K o' r S. apply visible_inv in S as [(o2 & x & E & S)|(_ & x & E & S)].
    - assert (K2 : os_ok o2) by by eapply sys_step_ok. destruct (F o2 x E K2 o' r S) as [X|(X & o3 & S3 & V3)].
      + left. cbn [run]. by rewrite E.
      + right. split; [done|]. exists o3. split; [|done]. eapply stops_later; [|exact S3]. cbn [pstep]. by rewrite E.
    - cbn in E. injection E as <-. rewrite KO in S. apply visible_look in S as (o2 & d & E & S); [|done].
      cbn [sys_step] in E. injection E as <- <-. apply visible_inv in S as [-> ->].
      destruct (path_is_dir (view o1) here) eqn:D.
      + left. assert (E : sys_step (SMkdir here) o1 = Some (o1, Err AlreadyExists)).
        { cbn [sys_step]. unfold path_is_dir, stat in D. destruct (walk (view o1) [] here) as [p|e|]; cbn in D; try done.
          by destruct (node_at (view o1) p). }
        cbn [run]. rewrite E, KA. cbn [run sys_step]. by rewrite D.
      + right. split; [by exists Other|]. exists o1. split; [constructor|done]. }
  apply AGAIN; [|done|done]. intros o1 r E. destruct r as [[]|e|]; [apply sound_ret| |apply OR].
  destruct e; try apply OR. apply sound_try; [apply IH|]. intros o2 _ _.
  apply AGAIN; [|done|done]. intros o3 r E3. destruct r; [apply sound_ret|apply OR|apply OR].
Qed.
Lemma sound_openw cs o : sound o (Call (SOpenW cs) (fun r => Ret r)).
Proof. apply sound_call; [intros; apply sound_ret|]. refusal. Qed.
Lemma sound_set base key ws r o : sound o (p_set base key ws r).
Proof.
  apply sound_pres. intros cs. cbv zeta. apply sound_try.
  - destruct cs as [|c cs]; [apply sound_ret|]. apply sound_soft; [by left|]. intros o1 [|] _; [apply sound_ret|apply sound_mkdir_all].
  - intros o1 _ _. apply sound_try; [apply sound_openw|]. intros o2 fd _. apply sound_soft; [by right|]. intros o3 _ _.
    apply sound_soft; [by right|]. intros o4 _ _. apply sound_firm, buffered_firm.
Qed.

Section Calls.
  Context (H : hier).
  Lemma sound_remove ord fuel path o : sound o (p_remove H ord fuel path).
  Proof.
    apply sound_try; [apply sound_erase|]. intros o1 _ _. apply sound_try; [apply sound_erase|]. intros o2 _ _.
    apply sound_try; [apply sound_erase_prefix|]. intros. apply sound_ret.
  Qed.
  Lemma sound_read_chunk C h t path m pos rs o : sound o (p_read_chunk H C h t path m pos rs).
  Proof. apply sound_pres. intros _. apply sound_try; [apply sound_get|]. intros. apply sound_ret. Qed.
  Lemma sound_get_array_metadata path rs o : sound o (p_get_array_metadata H path rs).
  Proof. apply sound_try; [apply sound_get|]. intros. apply sound_ret. Qed.
  Lemma sound_node_key path o : sound o (p_node_key H path).
  Proof.
    apply sound_try; [apply sound_exists|]. intros o1 [|] _; [apply sound_ret|]. apply sound_try; [apply sound_exists|].
    intros o2 [|] _; apply sound_ret.
  Qed.
  Lemma sound_list_attributes path rs o : sound o (p_list_attributes H path rs).
  Proof. apply sound_try; [apply sound_node_key|]. intros. apply sound_try; [apply sound_get|]. intros. apply sound_ret. Qed.
  Lemma sound_list_nodes ord p path o : sound o (p_list_nodes H ord p path).
  Proof.
    apply sound_try; [|intros; apply sound_ret]. apply sound_pres. intros cs.
    apply sound_try; [apply sound_call; [intros; apply sound_ret|refusal]|]. intros o1 es _.
    apply sound_bind; [|intros; apply sound_ret]. generalize (ord cs es). intros l.
    induction l as [|e l IH]; [done|]. cbn [p_stats]. split; [by left|]. intros d. by apply calls_bind.
  Qed.
  Lemma sound_meta_op sl rs op o : sound o (p_meta_op H sl rs op).
  Proof.
    destruct op as [path m|path|path attrs]; cbn [p_meta_op].
    - apply sound_try; [apply sound_exists|]. intros o1 [|] _; [apply sound_ret|]. apply sound_try; [apply sound_exists|].
      intros o2 [|] _; [apply sound_ret|apply sound_set].
    - apply sound_try; [apply sound_exists|]. intros o1 [|] _; [apply sound_ret|]. apply sound_try; [apply sound_exists|].
      intros o2 [|] _; [apply sound_ret|apply sound_set].
    - apply sound_try; [apply sound_node_key|]. intros o1 k _. apply sound_try; [apply sound_get|]. intros o2 x _.
      apply sound_pres. intros text. apply sound_pres. intros doc. cbv zeta. destruct (json_eqb _ _); [apply sound_ret|apply sound_set].
  Qed.

  Context (C : codec) (h : host) (rsf : list Z -> list nat) (sl : bytes -> list bytes).
  Lemma sound_read_chunk_into t path m pos old o : sound o (p_read_chunk_into H C h rsf t path m pos old).
  Proof. apply sound_pres. intros _. apply sound_try; [apply sound_get|]. intros. apply sound_ret. Qed.
  Lemma sound_read_ndarray flit t path m bb o : sound o (p_read_ndarray H C h rsf flit t path m bb).
  Proof.
    apply sound_pres. intros fill. apply sound_pres. intros arr. apply sound_try; [|intros; apply sound_ret].
    unfold p_read_ndarray_into_with_buffer. destruct (_ || _); [apply sound_ret|]. destruct (negb _); [apply sound_ret|].
    apply sound_pres. intros coords. generalize (arr, @None chunk). revert o. induction coords as [|c r IH]; intros o st; [apply sound_ret|].
    cbn [p_read_loop]. apply sound_try; [|intros; apply IH]. apply sound_try; [|intros; apply sound_ret].
    destruct (snd st) as [old|]; [apply sound_read_chunk_into|apply sound_read_chunk].
  Qed.
  Lemma sound_write_step t path m arr bb fill buf coord o : sound o (p_write_step H C h rsf sl t path m arr bb fill buf coord).
  Proof.
    unfold p_write_step. do 4 (apply sound_pres; intros ?). destruct (bool_decide _).
    - apply sound_try; [apply sound_set|]. intros. apply sound_ret.
    - apply sound_try; [apply sound_read_chunk_into|]. intros o1 x _. apply sound_pres. intros [[cb ca] mem].
      do 2 (apply sound_pres; intros ?). apply sound_try; [apply sound_set|]. intros. apply sound_ret.
  Qed.
  Lemma sound_write_ndarray flit t path m off arr o : sound o (p_write_ndarray H C h rsf sl flit t path m off arr).
  Proof.
    unfold p_write_ndarray. destruct (negb _); [apply sound_ret|]. cbv zeta. apply sound_pres. intros fill. apply sound_pres.
    intros coords. generalize (@nil Z). revert o. induction coords as [|c r IH]; intros o buf; [apply sound_ret|].
    cbn [p_write_loop]. apply sound_try; [apply sound_write_step|]. intros. apply IH.
  Qed.
End Calls.
Lemma sound_read_entry_point base rs o : sound o (p_read_entry_point base rs).
Proof.
  apply sound_try; [apply sound_openr|]. intros o1 fd _. apply sound_bind; [apply firm_soft, read_all_firm|].
  intros o2 text _. apply sound_soft; [by right|]. intros. apply sound_ret.
Qed.
Lemma sound_open V base rs o : sound o (p_open V base rs).
Proof. apply sound_try; [apply sound_read_entry_point|]. intros. apply sound_ret. Qed.
Lemma sound_open_or_create V sl base rs o : sound o (p_open_or_create V sl base rs).
Proof.
  unfold p_open_or_create. cbv zeta. apply sound_soft; [by left|]. intros o1 [|] _.
  - apply sound_try; [apply sound_read_entry_point|]. intros. apply sound_ret.
  - apply sound_try; [apply sound_mkdir_all|]. intros o2 _ _. apply sound_try; [apply sound_openw|]. intros o3 fd _.
    apply sound_soft; [by right|]. intros o4 _ _. apply sound_try; [apply sound_firm, buffered_firm|]. intros. apply sound_ret.
Qed.

(** ** Region writes *)

Section Region.
  Context (H : hier) (PB : plain (hy_base H)) (C : codec) (h : host) (rsf : list Z -> list nat) (sl : bytes -> list bytes).
  Context (SL : forall b, concat (sl b) = b).
  Context (t : rty) (path : bytes) (m : array_meta) (PP : plain path) (GSp : good_sep (am_sep m)).
  Notation base := (hy_base H).
  Notation at_ pos := (loc base (get_chunk_key path m pos)).
  Definition unchanged (o o' : os) : Prop := forall q, file_at (view o') q = file_at (view o) q.

  Lemma set_visible key ws r o o' x : plain key -> idle o -> wf_fs (view o) ->
    visible o (p_set base key ws r) o' x ->
    run o (p_set base key ws r) = Some (o', x) \/ ((exists e, x = Err e) /\ unchanged o o').
  Proof.
    intros PK I W S. assert (K := proj1 I). unfold p_set in *. rewrite key_comps_plain in * by done. cbn [pres] in *. cbv zeta in *.
    unfold ptry in S. apply visible_bind in S as (o1 & y & S1 & S2).
    assert (G := visible_faulty _ _ _ _ S1). apply (parent_faulty base key) in G as (K1 & _ & G1 & _); [|done|done].
    destruct (grown_files _ _ _ G1) as [FE _].
    assert (sound o (match map Normal (loc base key) with
      | [] => Ret (Ok tt)
      | _ => Call (SExists (parent_comps (map Normal (loc base key)))) (fun b : bool =>
             if b then Ret (Ok tt)
             else p_mkdir_all (parent_comps (map Normal (loc base key))) (length (parent_comps (map Normal (loc base key)))))
      end)) as SO.
    { destruct (map Normal (loc base key)); [apply sound_ret|]. apply sound_soft; [by left|].
      intros o2 [|] _; [apply sound_ret|apply sound_mkdir_all]. }
    destruct (SO K o1 y S1) as [R1|((e & ->) & _)].
    2:{ right. apply visible_inv in S2 as [-> ->]. split; [by exists e|exact FE]. }
    unfold ptry. rewrite run_bind, R1. destruct y as [u|e|].
    2-3: apply visible_inv in S2 as [-> ->]; by left.
    apply visible_bind in S2 as (o2 & z & S2 & S3).
    apply visible_inv in S2 as [(o3 & z' & E & S2)|(_ & z' & E & S2)]; apply visible_inv in S2 as [-> ->].
    - left. rewrite run_bind. cbn [run]. rewrite E. cbn [run]. destruct z' as [fd|e|].
      + apply visible_faulty in S3. apply firm_run in S3; [done|]. split; [done|]. intros _. split; [done|]. intros _. apply buffered_firm.
      + apply visible_inv in S3 as [-> ->]. done.
      + apply visible_inv in S3 as [-> ->]. done.
    - cbn in E. injection E as <-. apply visible_inv in S3 as [-> ->]. right. split; [by exists Other|exact FE].
  Qed.
  Lemma get_visible key rs o o' x : plain key -> idle o -> wf_fs (view o) -> visible o (p_get base key rs) o' x ->
    run o (p_get base key rs) = Some (o', x) \/ ((exists e, x = Err e) /\ unchanged o o').
  Proof.
    intros PK I W S. destruct (sound_get base key rs o (proj1 I) o' x S) as [R|[E _]]; [by left|right].
    split; [done|]. apply visible_faulty, get_faulty in S as [(V & _) _]; [|done]. intros q. by rewrite V.
  Qed.

  (** As without refusals, or an error and no file changed. *)
  Definition step_ok {A} (o : os) (p : proc (res A)) : Prop := forall o' x, visible o p o' x ->
    run o p = Some (o', x) \/ ((exists e, x = Err e) /\ unchanged o o').
  Lemma step_ret {A} o (r : res A) : step_ok o (Ret r).
  Proof. intros o' x S. apply visible_inv in S as [-> ->]. by left. Qed.
  Lemma step_pres {A D} (r : res A) (f : A -> proc (res D)) o : (forall a, step_ok o (f a)) -> step_ok o (pres r f).
  Proof. intros F. destruct r; [apply F|apply step_ret|apply step_ret]. Qed.
  Lemma step_last {A D} (p : proc (res A)) (f : A -> res D) o : step_ok o p -> step_ok o (ptry p (fun a => Ret (f a))).
  Proof.
    intros P o' x S. unfold ptry in *. apply visible_bind in S as (o1 & y & S1 & S2). rewrite run_bind.
    destruct (P _ _ S1) as [R|((e & ->) & U)].
    - rewrite R. destruct y; apply visible_inv in S2 as [-> ->]; by left.
    - apply visible_inv in S2 as [-> ->]. right. split; [by exists e|done].
  Qed.
  Lemma step_read {A D} (p : proc (res A)) (f : A -> proc (res D)) o : step_ok o p ->
    (forall o1 a, run o p = Some (o1, Ok a) -> view o1 = view o /\ step_ok o1 (f a)) -> step_ok o (ptry p f).
  Proof.
    intros P F o' x S. unfold ptry in *. apply visible_bind in S as (o1 & y & S1 & S2). rewrite run_bind.
    destruct (P _ _ S1) as [R|((e & ->) & U)].
    - rewrite R. destruct y as [a|e|]; [|apply visible_inv in S2 as [-> ->]; by left..].
      destruct (F _ _ R) as [V F']. destruct (F' _ _ S2) as [Y|[Y U]]; [by left|right]. split; [done|].
      intros q. by rewrite U, V.
    - apply visible_inv in S2 as [-> ->]. right. split; [by exists e|done].
  Qed.

  Lemma put_visible ck o : pos_ok (ck_pos ck) -> calm o -> wf_fs (view o) -> step_ok o (p_put H C h sl t path m ck).
  Proof. intros Q CA W o' x S. apply set_visible in S; [done|by apply plain_chunk_key; [|apply GSp|]|apply CA|done]. Qed.
  Lemma write_step_visible arr bb fill buf pos o : pos_ok pos -> calm o -> wf_fs (view o) ->
    step_ok o (p_write_step H C h rsf sl t path m arr bb fill buf pos).
  Proof.
    intros Q CA W. unfold p_write_step. do 4 (apply step_pres; intros ?). destruct (bool_decide _).
    - apply (step_last _ (fun _ => Ok buf)). by apply put_visible.
    - apply step_read.
      + unfold p_read_chunk_into. apply step_pres. intros _. apply (step_last _ (fun x => match x with
          | None => Ok None | Some content => c ← decode_chunk_into C h t m content pos (Chunk pos buf); Ok (Some c) end)).
        intros o' x S. apply get_visible in S; [done|by apply plain_chunk_key; [|apply GSp|]|apply CA|done].
      + intros o1 x R. destruct (does_read_chunk_into H C h rsf t path m pos (Chunk pos buf) o CA) as (o2 & R2 & V2 & C2).
        rewrite R in R2. injection R2 as <- _. cbn [fst] in V2. split; [done|].
        apply step_pres. intros [[cb ca] mem]. do 2 (apply step_pres; intros ?).
        apply (step_last _ (fun _ => Ok (flatten mem _))). apply put_visible; [done|done|by rewrite V2].
  Qed.
  Lemma write_loop_visible arr bb fill coords : NoDup coords -> Forall pos_ok coords -> forall buf o o' x,
    calm o -> wf_fs (view o) -> visible o (p_write_loop H C h rsf sl t path m arr bb fill coords buf) o' x ->
    run o (p_write_loop H C h rsf sl t path m arr bb fill coords buf) = Some (o', x) \/
    ((exists e, x = Err e) /\ forall q, file_at (view o') q = file_at (view o) q \/
      file_at (view o') q = file_at (fst (write_loop C h H t path m arr bb fill coords (view o) buf)) q).
  Proof.
    induction coords as [|c coords IH]; intros ND PO buf o o' x CA W S.
    { apply visible_inv in S as [-> ->]. by left. }
    apply list.NoDup_cons in ND as [NI ND]. apply list.Forall_cons in PO as [PO1 PO2].
    cbn [p_write_loop write_loop] in *. unfold ptry in *. apply visible_bind in S as (o1 & y & S1 & S2). rewrite run_bind.
    destruct (write_step_visible _ _ _ _ _ _ PO1 CA W _ _ S1) as [R|((e & ->) & U)].
    2:{ apply visible_inv in S2 as [-> ->]. right. split; [by exists e|]. intros q. left. apply U. }
    rewrite R. destruct y as [buf'|e|]; [|apply visible_inv in S2 as [-> ->]; by left..].
    destruct (does_write_step H C h rsf sl SL t path m arr bb fill buf c o CA) as (o2 & R2 & V2 & C2).
    rewrite R in R2. injection R2 as <- E2.
    destruct (write_step C h H t path m arr bb fill (view o) buf c) as [s1 r1] eqn:E1. cbn [fst snd] in *. subst r1.
    assert (F1 : wf_fs s1 /\ forall q, q <> at_ c -> file_at s1 q = file_at (view o) q).
    { apply write_step_frame in E1 as [->|(data & r' & E1)]; [done|].
      pose proof (write_chunk_effect C h H (view o) t path m (Chunk c data) s1 r' W PB PP (proj2 (proj2 (proj2 GSp))) PO1 E1) as (W1 & SE & _).
      split; [done|]. intros q N. by apply SE. }
    destruct F1 as [W1 F1]. cbn [andthen].
    apply IH in S2; [|done|done|done|by rewrite V2]. destruct S2 as [S2|[X U]]; [by left|right]. split; [done|].
    intros q. destruct (U q) as [Uq|Uq]; [|right; by rewrite Uq, V2].
    destruct (decide (q = at_ c)) as [->|N]; [right|left; by rewrite Uq, V2, F1].
    rewrite Uq, V2. destruct (write_loop C h H t path m arr bb fill coords s1 buf') as [s2 r2] eqn:E3.
    apply write_loop_frame in E3 as (_ & _ & F3); [|done|done|apply GSp|done|done]. cbn [fst]. symmetry. apply F3.
    intros pos Hp E. assert (pos_ok pos) by (rewrite list.Forall_forall in PO2; by apply PO2).
    apply loc_chunk_inj in E as [_ E]; [|done..]. congruence.
  Qed.
  Lemma region_visible flit off arr o o' x : bounded_ok (am_shape m) (am_chunk_shape m) off (nd_shape arr) ->
    calm o -> wf_fs (view o) -> visible o (p_write_ndarray H C h rsf sl flit t path m off arr) o' x ->
    run o (p_write_ndarray H C h rsf sl flit t path m off arr) = Some (o', x) \/
    ((exists e, x = Err e) /\ forall q, file_at (view o') q = file_at (view o) q \/
      exists o2 r2, run o (p_write_ndarray H C h rsf sl flit t path m off arr) = Some (o2, r2) /\
        file_at (view o') q = file_at (view o2) q).
  Proof.
    intros B CA W S. destruct (does_write_ndarray H C h rsf sl SL flit t path m off arr o CA) as (o2 & R2 & V2 & _).
    unfold p_write_ndarray in S, R2 |- *. unfold write_ndarray in R2, V2. destruct (negb _).
    { apply visible_inv in S as [-> ->]. by left. }
    cbv zeta in S, R2, V2 |- *. destruct (effective_fill flit t m) as [fill|e|]; cbn [pres on] in S, R2, V2 |- *.
    2-3: apply visible_inv in S as [-> ->]; by left.
    assert (BO : bok m (BBox off (nd_shape arr))) by done.
    rewrite (bounded_coords_eq (h_prof h) m _ BO) in S, R2, V2 |- *.
    destruct (mbind _ _) as [coords|e|] eqn:Ec; cbn [pres on] in S, R2, V2 |- *.
    2-3: apply visible_inv in S as [-> ->]; by left.
    apply bind_ok_inv in Ec as (n & _ & [= <-]).
    apply write_loop_visible in S; [| | |done|done].
    - destruct S as [S|[X U]]; [by left|right]. split; [done|]. intros q. destruct (U q) as [Uq|Uq]; [by left|right].
      eexists _, _. split; [exact R2|]. by rewrite V2.
    - unfold product_items. destruct (branges _ _); [constructor|]. apply sorted_NoDup, box_coords_sorted.
    - apply list.Forall_forall. intros pos Hp. eapply ranges_pos; [exact BO|]. by apply visited_ranges.
  Qed.
End Region.

(** ** The creating calls *)

Lemma visible_keeps :
  forall H, plain (hy_base H) -> good_suffix (ep_suffix (hy_ep H)) ->
  forall sl, (forall b, concat (sl b) = b) ->
  forall path m o o' r, calm o -> wf_fs (view o) -> plain path -> meta_value m -> nesting_ok m ->
  visible o (p_create_array H sl path m) o' r \/ visible o (p_create_group H sl path) o' r ->
  forall p c, file_at (view o) p = Some c -> file_at (view o') p = Some c.
Proof.
  intros H PB GS sl SL path m o o' r CA W PP MV NO D p c F.
  assert (PG : plain (gkey H path)) by (apply (nloc_plain H GS); [by right|done]).
  assert (PA : plain (akey H path)) by (apply (nloc_plain H GS); [by left|done]).
  assert (LOOK : forall k (f : bool -> proc (res unit)), plain k ->
    visible o (ptry (p_exists (hy_base H) k) f) o' r -> visible o (f (is_some (file_at (view o) (loc (hy_base H) k)))) o' r).
  { intros k f PK S. unfold p_exists in S. rewrite key_comps_plain in S by done. cbn [pres ptry pbind] in S.
    apply visible_look in S as (o1 & x & E & S); [|done]. cbn in E. injection E as <- <-.
    rewrite path_is_file_plain in S by done. by destruct (file_at (view o) (loc (hy_base H) k)). }
  assert (SAME : forall q, visible o (Ret q) o' r -> file_at (view o') p = Some c).
  { intros q S. apply visible_inv in S as [-> _]. done. }
  assert (STORE : forall k ws, plain k -> file_at (view o) (loc (hy_base H) k) = None ->
    visible o (p_set (hy_base H) k ws (Ok tt)) o' r -> file_at (view o') p = Some c).
  { intros k ws PK N S. apply visible_faulty in S. apply set_faulty in S as (_ & _ & SE & _); [|done..].
    rewrite SE; [done|]. intros ->. congruence. }
  destruct D as [D|D].
  - apply LOOK in D; [|done]. destruct (is_some _) in D; [by eapply SAME|]. apply LOOK in D; [|done].
    destruct (file_at (view o) (loc (hy_base H) (akey H path))) eqn:E; cbn [is_some] in D; [by eapply SAME|].
    by eapply STORE; [exact PA|..].
  - apply LOOK in D; [|done]. destruct (is_some _) in D; [by eapply SAME|]. apply LOOK in D; [|done].
    destruct (file_at (view o) (loc (hy_base H) (gkey H path))) eqn:E; cbn [is_some] in D; [by eapply SAME|].
    by eapply STORE; [exact PG|..].
Qed.
Lemma visible_open_or_create :
  forall V base, plain base -> forall sl rs o o' r, calm o -> wf_fs (view o) ->
  file_at (view o) (pieces base ++ [B "zarr.json"]) <> None ->
  visible o (p_open_or_create V sl base rs) o' r ->
  view o' = view o /\ (answers o (p_open_or_create V sl base rs) r \/ exists e, r = Err e).
Proof.
  intros V base PB sl rs o o' r CA W F S. change (B "zarr.json") with ENTRY_POINT_KEY in *.
  assert (S0 := S). unfold p_open_or_create in S |- *. cbv zeta in S |- *.
  apply visible_look in S as (o1 & x & E & S); [|done]. cbn [sys_step] in E. injection E as <- <-.
  assert (X : path_exists (view o) (comps (path_join base ENTRY_POINT_KEY)) = true).
  { rewrite entry_comps, path_exists_plain by done. unfold file_at in F.
    by destruct (node_at (view o) (pieces base ++ [ENTRY_POINT_KEY])). }
  rewrite X in S. split.
  - apply visible_faulty, faulty_try in S as (o1 & x & S1 & S2).
    apply read_entry_point_faulty in S1 as (_ & V1 & _); [|done].
    destruct x; [by apply faulty_done in S2 as [-> _]|by destruct S2 as [-> _]..].
  - apply (sound_open_or_create V sl base rs o (proj1 (proj1 CA))) in S0 as [S0|[S0 _]]; [left|by right].
    exists o'. unfold p_open_or_create in S0. exact S0.
Qed.

Lemma visible_sound :
  forall H C h t path m pos ck rs ws sl o, os_ok o ->
  (forall V, done_or_failed o (p_open V (hy_base H) rs))
  /\ (forall V, done_or_failed o (p_open_or_create V sl (hy_base H) rs))
  /\ done_or_failed o (p_get_array_metadata H path rs)
  /\ done_or_failed o (p_list_attributes H path rs)
  /\ (forall ord, done_or_failed o (p_list_nodes H ord (h_prof h) path))
  /\ done_or_failed o (p_read_chunk H C h t path m pos rs)
  /\ (forall rsf flit bb, done_or_failed o (p_read_ndarray H C h rsf flit t path m bb))
  /\ done_or_failed o (p_write_chunk H C h t path m ck ws)
  /\ (forall rsf flit off arr, done_or_failed o (p_write_ndarray H C h rsf sl flit t path m off arr))
  /\ (forall op, done_or_failed o (p_meta_op H sl rs op))
  /\ done_or_failed o (p_delete_chunk H path m pos)
  /\ (forall ord fuel, done_or_failed o (p_remove H ord fuel path)).
Proof.
  intros H C h t path m pos ck rs ws sl o K.
  split; [intros V; exact (sound_open V (hy_base H) rs o K)|]. split; [intros V; exact (sound_open_or_create V sl (hy_base H) rs o K)|].
  split; [exact (sound_get_array_metadata H path rs o K)|]. split; [exact (sound_list_attributes H path rs o K)|].
  split; [intros ord; exact (sound_list_nodes H ord (h_prof h) path o K)|]. split; [exact (sound_read_chunk H C h t path m pos rs o K)|].
  split; [intros rsf flit bb; exact (sound_read_ndarray H C h rsf flit t path m bb o K)|]. split; [exact (sound_set _ _ _ _ o K)|].
  split; [intros rsf flit off arr; exact (sound_write_ndarray H C h rsf sl flit t path m off arr o K)|]. split; [intros op; exact (sound_meta_op H sl rs op o K)|].
  split; [exact (sound_erase _ _ o K)|]. intros ord fuel. exact (sound_remove H ord fuel path o K).
Qed.

(** A given schedule, for witnesses: [true] refuses the call if it does not look. *)
Fixpoint vrun {A} (nos : list bool) (o : os) (p : proc A) : option (os * A) :=
  match nos, p with
  | [], _ => run o p
  | _, Ret _ => None
  | no :: r, Call c k =>
      if no then
        if looks c then None else match refused c with Some x => vrun r o (k x) | None => None end
      else match sys_step c o with Some (o1, x) => vrun r o1 (k x) | None => None end
  end.
Definition vafter {A} (nos : list bool) (o : os) (p : proc A) : os :=
  match vrun nos o p with Some (o', _) => o' | None => o end.
Lemma run_visible {A} (p : proc A) : forall o o' a, run o p = Some (o', a) -> visible o p o' a.
Proof.
  induction p as [b|T c k IH]; intros o o' a E; cbn [run] in E; [injection E as <- <-; constructor|].
  destruct (sys_step c o) as [[o1 x]|] eqn:S; [|done]. by eapply visible_call, IH.
Qed.
Lemma vrun_visible {A} nos : forall o (p : proc A) o' a, vrun nos o p = Some (o', a) -> visible o p o' a.
Proof.
  induction nos as [|no nos IH]; intros o p o' a E; cbn [vrun] in E; [by apply run_visible|].
  destruct p as [b|T c k]; [done|]. destruct no.
  - destruct (looks c) eqn:L; [done|]. destruct (refused c) as [x|] eqn:R; [|done]. by eapply visible_refused, IH.
  - destruct (sys_step c o) as [[o1 x]|] eqn:S; [|done]. by eapply visible_call, IH.
Qed.
Lemma vafter_run {A} nos o (p : proc A) a : snd <$> vrun nos o p = Some a -> visible o p (vafter nos o p) a.
Proof.
  intros E. unfold vafter. destruct (vrun nos o p) as [[o' b]|] eqn:F; [|done]. cbn in E. injection E as ->.
  by eapply vrun_visible.
Qed.
