(** Chunks and documents are where the format puts them (C78). *)
From Verif Require Import MetaJson Hier Spec SpecMeta SpecDoc SpecPlace BaseFacts JsonFacts PathFacts FSFacts KeyFacts HierFacts
  MetaJsonFacts NodeFacts OpenFacts NdSafe StoreFacts DocFacts.
Local Open Scope Z_scope.

Notation dval := (foldl (fun v c => 10 * v + (Z_of_byte c - 48)) 0).
Lemma show_decimal z : 0 <= z -> decimal z (show_nat z).
Proof.
  intros Z. destruct (show_nat_spec z Z) as (D & V & N & P & O). split; [done|]. split.
  { eapply Forall_impl; [|exact D]. intros c X. unfold is_digit in X. lia. }
  split; [|exact V]. intros E. destruct (Z.eq_dec z 0) as [->|NZ]; [by apply O|]. exfalso. by apply (P ltac:(lia) _ E).
Qed.
Lemma dval_nonneg w : Forall (fun c => 48 <= Z_of_byte c <= 57) w -> 0 <= dval w.
Proof.
  induction w as [|c w IH] using rev_ind; intros F; [done|]. rewrite foldl_app. cbn [foldl].
  apply list.Forall_app in F as [F1 F2]. rewrite list.Forall_singleton in F2; cbn beta in F2. specialize (IH F1). lia.
Qed.
Lemma dval_pos w : w <> [] -> Forall (fun c => 48 <= Z_of_byte c <= 57) w -> head w <> Some "0"%char -> 0 < dval w.
Proof.
  induction w as [|c w IH] using rev_ind; intros N F H; [done|]. rewrite foldl_app. cbn [foldl].
  apply list.Forall_app in F as [F1 F2]. rewrite list.Forall_singleton in F2; cbn beta in F2.
  destruct w as [|d w].
  - cbn [foldl app] in *. assert (Z_of_byte c <> 48); [|lia]. intros X. apply H. cbn [head].
    f_equal. rewrite <- (byte_of_Z_of_byte c), X. done.
  - assert (0 < dval (d :: w)) by (apply IH; done). lia.
Qed.
Lemma decimal_unique z w1 : forall w2, decimal z w1 -> decimal z w2 -> w1 = w2.
Proof.
  assert (G : forall w1 w2, Forall (fun c => 48 <= Z_of_byte c <= 57) w1 -> Forall (fun c => 48 <= Z_of_byte c <= 57) w2 ->
    w1 <> [] -> w2 <> [] -> (head w1 = Some "0"%char -> w1 = ["0"%char]) -> (head w2 = Some "0"%char -> w2 = ["0"%char]) ->
    dval w1 = dval w2 -> w1 = w2).
  { clear. induction w1 as [|c w1 IH] using rev_ind; intros w2 F1 F2 N1 N2 H1 H2 E; [done|].
    destruct w2 as [|d w2 _] using rev_ind; [done|]. rewrite !foldl_app in E. cbn [foldl] in E.
    apply list.Forall_app in F1 as [F1 C1]. rewrite list.Forall_singleton in C1; cbn beta in C1.
    apply list.Forall_app in F2 as [F2 C2]. rewrite list.Forall_singleton in C2; cbn beta in C2.
    pose proof (dval_nonneg w1 F1). pose proof (dval_nonneg w2 F2).
    assert (EV : dval w1 = dval w2) by lia. assert (EC : Z_of_byte c = Z_of_byte d) by lia.
    assert (c = d) as -> by (rewrite <- (byte_of_Z_of_byte c), EC; apply byte_of_Z_of_byte). f_equal.
    assert (P : forall x (w : bytes), w <> [] -> (head (w ++ [x]) = Some "0"%char -> w ++ [x] = ["0"%char]) -> head w <> Some "0"%char).
    { intros x [|y w] NW HW E0; [done|]. cbn [head app] in *. specialize (HW E0). by destruct w. }
    destruct w1 as [|y1 w1], w2 as [|y2 w2].
    - done.
    - exfalso. assert (0 < dval (y2 :: w2)) by (apply dval_pos; [done|done|by eapply P]). cbn [foldl] in *. lia.
    - exfalso. assert (0 < dval (y1 :: w1)) by (apply dval_pos; [done|done|by eapply P]). cbn [foldl] in *. lia.
    - apply IH; try done; intros E0; exfalso; [by apply (P d (y1 :: w1))|by apply (P d (y2 :: w2))]. }
  intros w2 (A1 & A2 & A3 & A4) (B1 & B2 & B3 & B4). apply G; congruence || done.
Qed.
Lemma position_shown sep pos : pos_ok pos -> position_text sep pos (coords_str sep pos).
Proof.
  induction pos as [|z pos IH]; intros P; [constructor|]. apply list.Forall_cons in P as [P1 P2].
  destruct pos as [|y pos]; [constructor; apply show_decimal, P1|].
  change (coords_str sep (z :: y :: pos)) with (show_nat z ++ sep ++ coords_str sep (y :: pos)).
  constructor; [apply show_decimal, P1|by apply IH].
Qed.
Lemma position_only sep pos w : pos_ok pos -> position_text sep pos w -> w = coords_str sep pos.
Proof.
  intros P T. induction T as [|z w D|z w y pos w' D T IH]; [done|..]; apply list.Forall_cons in P as [P1 P2].
  - eapply decimal_unique; [exact D|apply show_decimal, P1].
  - change (coords_str sep (z :: y :: pos)) with (show_nat z ++ sep ++ coords_str sep (y :: pos)).
    rewrite (IH P2). f_equal. eapply decimal_unique; [exact D|apply show_decimal, P1].
Qed.
Lemma one_position_text sep pos : pos_ok pos -> exists w, position_text sep pos w /\ forall w', position_text sep pos w' -> w' = w.
Proof. intros P. exists (coords_str sep pos). split; [by apply position_shown|]. intros w'. by apply position_only. Qed.
Lemma chunk_place H path m pos w : pos_ok pos -> position_text (am_sep m) pos w ->
  loc (hy_base H) (get_chunk_key path m pos) = chunk_file H path w.
Proof. intros P T. rewrite loc_chunk. by rewrite (position_only _ _ _ P T). Qed.

Section place.
  Context (H : hier) (s : fs) (path : bytes).
  Hypothesis W : wf_fs s.
  Hypothesis PB : plain (hy_base H).
  Hypothesis PP : plain path.

  Lemma chunk_written C h t m ck s' w : plain (am_sep m) -> pos_ok (ck_pos ck) -> position_text (am_sep m) (ck_pos ck) w ->
    write_chunk C h H s t path m ck = (s', Ok tt) ->
    file_at s' (chunk_file H path w) = Some (fst (encode_chunk C h t m ck))
    /\ forall q, q <> chunk_file H path w -> file_at s' q = file_at s q.
  Proof.
    intros PS PO T E. apply write_chunk_effect in E as (W' & SE & _ & X); [|done..].
    rewrite (chunk_place H path m _ w PO T) in SE, X. split; [|done].
    destruct X as [(_ & F & _)|(_ & _ & e & X)]; done.
  Qed.
  Lemma chunk_read C h t m pos w : plain (am_sep m) -> pos_ok pos -> position_text (am_sep m) pos w -> in_bounds (h_prof h) m pos = Ok true ->
    read_chunk C h H s t path m pos
    = match file_at s (chunk_file H path w) with
      | None => Ok None
      | Some content => c ← decode_chunk C h t m content pos; Ok (Some c)
      end.
  Proof.
    intros PS PO T B. unfold read_chunk. rewrite B, bind_ok. cbn [assert_]. rewrite bind_ok.
    rewrite st_get_plain by first [done|by apply plain_chunk_key]. rewrite bind_ok. by rewrite (chunk_place H path m pos w PO T).
  Qed.
  Lemma chunk_deleted m pos s' b w : plain (am_sep m) -> pos_ok pos -> position_text (am_sep m) pos w ->
    delete_chunk H s path m pos = (s', Ok b) ->
    file_at s' (chunk_file H path w) = None
    /\ forall q, q <> chunk_file H path w -> file_at s' q = file_at s q.
  Proof.
    intros PS PO T E. apply st_erase_effect in E as (W' & SE & _ & X); [|done|done|by apply plain_chunk_key].
    rewrite (chunk_place H path m _ w PO T) in SE, X. split; [|done].
    destruct X as [(_ & F & _)|(_ & _ & X)]; done.
  Qed.
  Lemma chunk_uri m pos w : plain (am_sep m) -> pos_ok pos -> position_text (am_sep m) pos w ->
    exists p, get_chunk_uri H path m pos = Ok (B "file://" ++ p) /\ pieces p = chunk_file H path w.
  Proof.
    intros PS PO T. destruct (uri_plain H path m pos PB PP PS PO) as (p & E & L). exists p.
    by rewrite <- (chunk_place H path m pos w PO T).
  Qed.
  Hypothesis PS : slash ∉ strip_dot (ep_suffix (hy_ep H)).
  Lemma array_written m s' : meta_value m -> nesting_ok m -> no_raw (am_dtype m) -> create_array H s path m = (s', Ok tt) ->
    (forall q, q <> document H "array" path -> file_at s' q = file_at s q)
    /\ exists text m', file_at s' (document H "array" path) = Some text /\ reads_as array_says text m' /\ same_meta m m'.
  Proof.
    intros H1 H2 H3 E. rewrite <- akey_document by done.
    assert (X : wf_fs s' /\ same_except s s' (loc (hy_base H) (akey H path))).
    { revert E. unfold create_array. destruct (st_exists _ s (gkey H path)) as [[]| |]; cbn [on]; [done| |done..].
      destruct (st_exists _ s (akey H path)) as [[]| |]; cbn [on]; [done| |done..].
      intros E. apply st_set_effect in E as (W' & SE & _); [done|done|done|by apply akey_plain]. }
    destruct X as (W' & SE). split; [exact SE|].
    apply create_array_get in E. rewrite st_get_plain in E by first [done|by apply akey_plain].
    injection E as E. destruct (read_enc_meta m H1 H3 H2) as (m' & Hm & Hs).
    exists (print (enc_meta m)), m'. split; [done|]. split; [|done]. by apply (read_iff dec_meta array_says _ _ meta_iff).
  Qed.
  Lemma group_written s' : file_at s (document H "group" path) = None -> create_group H s path = (s', Ok tt) ->
    (forall q, q <> document H "group" path -> file_at s' q = file_at s q)
    /\ exists text, file_at s' (document H "group" path) = Some text /\ reads_as attributes_say text [].
  Proof.
    rewrite <- gkey_document by done. intros NG. unfold create_group.
    destruct (st_exists _ s (akey H path)) as [[]| |]; cbn [on]; [done| |done..].
    rewrite st_exists_plain by first [done|by apply gkey_plain]. cbn [on]. rewrite NG.
    intros E. apply st_set_effect in E as (W' & SE & _ & X); [|done|done|by apply gkey_plain].
    split; [exact SE|]. destruct X as [(_ & F & _)|(_ & _ & e & X)]; [|done].
    eexists. split; [exact F|]. apply (read_iff dec_attrs attributes_say _ _ attrs_iff). vm_compute. reflexivity.
  Qed.
End place.

Lemma entry_written V base s : wf_fs s -> plain base -> V (B "3.0") = Some true ->
  node_at s (pieces base ++ [B "zarr.json"]) = None -> (forall k, file_at s (take k (pieces base)) = None) ->
  exists s' H text, open_or_create V base s = (s', Ok H)
  /\ (forall q, q <> pieces base ++ [B "zarr.json"] -> file_at s' q = file_at s q)
  /\ file_at s' (pieces base ++ [B "zarr.json"]) = Some text
  /\ reads_as entry_says text (EntryPoint (B "https://purl.org/zarr/spec/protocol/core/3.0")
       (B "https://purl.org/zarr/spec/protocol/core/3.0") (B ".json") []).
Proof.
  intros W PB HV NZ F. destruct (create_ok V base s W PB HV F NZ) as (s1 & E1 & W1 & N1).
  exists s1, (Hier base ep_default), (print (enc_ep ep_default)). split; [done|]. split; [|split].
  - intros q NQ. unfold file_at. rewrite N1, decide_False by done. case_decide as P; [|done].
    destruct P as [r EP]. specialize (F (length q)). rewrite EP, take_app in F. unfold file_at in F.
    by rewrite F.
  - unfold file_at. by rewrite N1, decide_True.
  - apply (read_iff dec_ep entry_says _ _ ep_iff). exact default_reads.
Qed.
