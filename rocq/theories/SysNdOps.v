(** Region reads and writes as processes running alone. *)
From Verif Require Import BaseFacts PathFacts FSFacts Spec.
From Verif Require Import Sys SysNd SpecSys SysFacts SysOps.
Local Open Scope Z_scope.

Section Regions.
  Context (H : hier) (C : codec) (h : host).
  Context (rsf : list Z -> list nat) (sl : bytes -> list bytes) (SL : forall b, concat (sl b) = b).

  Lemma does_read_chunk_into t path m pos old o : calm o ->
    does o (p_read_chunk_into H C h rsf t path m pos old)
      (view o, read_chunk_into C h H (view o) t path m pos old).
  Proof.
    intros K. unfold p_read_chunk_into, read_chunk_into.
    destruct (in_bounds (h_prof h) m pos) as [b|e|]; cbn [mbind res_bind]; [|by exists o|by exists o].
    destruct (assert_ b) as [[]|e|]; cbn [pres mbind res_bind]; [|by exists o|by exists o].
    by apply (does_bind_pure o _ (st_get _ _ _)), does_get.
  Qed.

  Lemma read_step_merge s t path m bb st coord :
    read_step C h H s t path m bb st coord =
    (o ← match snd st with
         | None => read_chunk C h H s t path m coord
         | Some old => read_chunk_into C h H s t path m coord old
         end; read_merge h m bb st o).
  Proof. by destruct st. Qed.

  Lemma does_read_step t path m bb st coord o : calm o ->
    does o (p_read_step H C h rsf t path m bb st coord)
      (view o, read_step C h H (view o) t path m bb st coord).
  Proof.
    intros K. unfold p_read_step. rewrite read_step_merge. apply does_bind_pure.
    destruct (snd st); [by apply does_read_chunk_into|by apply does_read_chunk].
  Qed.

  Lemma does_bind_read {A D} o (p : proc (res A)) r (f : A -> proc (res D)) (g : A -> res D) :
    does o p (view o, r) ->
    (forall o1 a, calm o1 -> view o1 = view o -> r = Ok a -> does o1 (f a) (view o1, g a)) ->
    does o (ptry p f) (view o, r ≫= g).
  Proof.
    intros (o1 & E & V & C1) N. unfold does in *. rewrite run_try, E. cbn [fst snd] in *.
    destruct r as [a|e|]; cbn [mbind res_bind].
    - destruct (N o1 a C1 V eq_refl) as (o2 & E2 & V2 & C2). exists o2.
      cbn [fst snd] in *. split_and!; [done|congruence|done].
    - by exists o1.
    - by exists o1.
  Qed.

  Lemma does_read_loop t path m bb coords : forall st o, calm o ->
    does o (p_read_loop H C h rsf t path m bb coords st)
      (view o, foldM_res (read_step C h H (view o) t path m bb) coords st).
  Proof.
    induction coords as [|c r IH]; intros st o K; cbn [p_read_loop foldM_res]; [by apply does_ret|].
    apply does_bind_read; [by apply does_read_step|].
    intros o1 a K1 V1 _. rewrite <- V1. by apply IH.
  Qed.

  Lemma does_read_with_buffer t path m bb arr buf o : calm o ->
    does o (p_read_ndarray_into_with_buffer H C h rsf t path m bb arr buf)
      (view o, read_ndarray_into_with_buffer C h H (view o) t path m bb arr buf).
  Proof.
    intros K. unfold p_read_ndarray_into_with_buffer, read_ndarray_into_with_buffer.
    destruct (_ || _); [by apply does_ret|]. destruct (negb _); [by apply does_ret|].
    destruct (bounded_coords _ _ _) as [coords|e|]; cbn [pres mbind res_bind];
      [by apply does_read_loop|by apply does_ret|by apply does_ret].
  Qed.

  Lemma does_read_into t path m bb arr o : calm o ->
    does o (p_read_ndarray_into H C h rsf t path m bb arr)
      (view o, read_ndarray_into C h H (view o) t path m bb arr).
  Proof.
    intros K. unfold p_read_ndarray_into, read_ndarray_into.
    apply does_bind_read; [by apply does_read_with_buffer|].
    intros o1 [a b] K1 V1 _. by apply does_ret.
  Qed.

  Lemma does_read_ndarray flit t path m bb o : calm o ->
    does o (p_read_ndarray H C h rsf flit t path m bb)
      (view o, read_ndarray flit C h H (view o) t path m bb).
  Proof.
    intros K. unfold p_read_ndarray, read_ndarray.
    destruct (effective_fill _ _ _) as [fill|e|]; cbn [pres mbind res_bind]; [|by apply does_ret|by apply does_ret].
    destruct (from_elem _ _) as [arr|e|]; cbn [pres mbind res_bind]; [|by apply does_ret|by apply does_ret].
    by apply does_read_into.
  Qed.

  Lemma does_put t path m ck o : calm o ->
    does o (p_put H C h sl t path m ck) (write_chunk C h H (view o) t path m ck).
  Proof. intros K. unfold p_put. by apply does_write_chunk. Qed.

  Lemma does_andthen {A D} o (p : proc (res A)) w (f : A -> proc (res D)) g :
    does o p w ->
    (forall o1 a, calm o1 -> view o1 = fst w -> snd w = Ok a -> does o1 (f a) (g (view o1) a)) ->
    does o (ptry p f) (andthen w g).
  Proof.
    intros (o1 & E & V & C1) N. unfold does in *. rewrite run_try, E.
    destruct w as [s1 [a|e|]]; cbn [andthen fst snd] in *.
    - rewrite <- V. by apply N.
    - by exists o1.
    - by exists o1.
  Qed.

  Lemma does_write_step t path m arr bb fill buf coord o : calm o ->
    does o (p_write_step H C h rsf sl t path m arr bb fill buf coord)
      (write_step C h H t path m arr bb fill (view o) buf coord).
  Proof.
    intros K. unfold p_write_step, write_step. cbv zeta.
    apply does_pres; [done|]. intros nom _. apply does_pres; [done|]. intros wb _.
    apply does_pres; [done|]. intros ab _. apply does_pres; [done|]. intros vw _.
    destruct (bool_decide _).
    - apply does_andthen; [by apply does_put|]. intros o1 _ K1 V1 _. by apply does_ret.
    - apply does_on; [by apply does_read_chunk_into|]. intros o1 x K1 V1 _. rewrite <- V1.
      apply does_pres; [done|]. intros [[cb ca] mem] _.
      apply does_pres; [done|]. intros cwb _. apply does_pres; [done|]. intros ca' _.
      apply does_andthen; [by apply does_put|]. intros o2 _ K2 V2 _. by apply does_ret.
  Qed.

  Lemma does_write_loop t path m arr bb fill coords : forall buf o, calm o ->
    does o (p_write_loop H C h rsf sl t path m arr bb fill coords buf)
      (write_loop C h H t path m arr bb fill coords (view o) buf).
  Proof.
    induction coords as [|c r IH]; intros buf o K; cbn [p_write_loop write_loop]; [by apply does_ret|].
    apply does_andthen; [by apply does_write_step|]. intros o1 buf' K1 V1 _. by apply IH.
  Qed.

  Lemma does_write_ndarray flit t path m off arr o : calm o ->
    does o (p_write_ndarray H C h rsf sl flit t path m off arr)
      (write_ndarray flit C h H (view o) t path m off arr).
  Proof.
    intros K. unfold p_write_ndarray, write_ndarray.
    destruct (negb _); [by apply does_ret|]. cbv zeta.
    apply does_pres; [done|]. intros fill _. apply does_pres; [done|]. intros coords _.
    by apply does_write_loop.
  Qed.
End Regions.

Lemma does_regions : forall H C h rsf sl, (forall b, concat (sl b) = b) ->
  forall flit t path m bb off arr o, calm o ->
  does o (p_read_ndarray H C h rsf flit t path m bb)
    (view o, read_ndarray flit C h H (view o) t path m bb)
  /\ does o (p_read_ndarray_into H C h rsf t path m bb arr)
    (view o, read_ndarray_into C h H (view o) t path m bb arr)
  /\ does o (p_write_ndarray H C h rsf sl flit t path m off arr)
    (write_ndarray flit C h H (view o) t path m off arr).
Proof.
  intros H C h rsf sl SL flit t path m bb off arr o K. split_and!.
  - by apply does_read_ndarray.
  - by apply does_read_into.
  - by apply does_write_ndarray.
Qed.
