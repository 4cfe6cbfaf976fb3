(** Facts about MetaJson.v: metadata documents read back; decoding depends only
    on the map a document denotes. *)
From Verif Require Import MetaJson Hier Spec SpecMeta BaseFacts DataTypeFacts JsonFacts JsonPrefix.
Local Open Scope Z_scope.

(** ** Fields *)

Lemma field_skip k k' v m : beq k k' = false -> field k ((k', v) :: m) = field k m.
Proof. intros H. unfold field. rewrite filter_cons. cbn [fst]. rewrite decide_False by congruence. done. Qed.
Lemma field_absent k m : existsb (beq k) (map fst m) = false -> field k m = Ok None.
Proof.
  induction m as [|[k' v] m IH]; [done|]. cbn [map fst existsb].
  rewrite orb_false_iff. intros [H1 H2]. rewrite field_skip by done. by apply IH.
Qed.
Lemma filter_absent k (m : jmap) : existsb (beq k) (map fst m) = false ->
  filter (fun kv => beq k kv.1 = true) m = [].
Proof.
  induction m as [|[k' v] m IH]; [done|]. cbn [map fst existsb].
  rewrite orb_false_iff. intros [H1 H2]. rewrite filter_cons. cbn [fst].
  rewrite decide_False by congruence. by apply IH.
Qed.
Lemma field_hit k v m : existsb (beq k) (map fst m) = false -> field k ((k, v) :: m) = Ok (Some v).
Proof.
  intros H. unfold field. rewrite filter_cons. cbn [fst]. rewrite decide_True by apply beq_refl.
  by rewrite filter_absent.
Qed.

Lemma below_absent {A} k (m : list (bytes * A)) : below k m -> existsb (beq k) (map fst m) = false.
Proof.
  induction 1 as [|[k' v] m Hk _ IH]; [done|]. cbn [map fst existsb]. rewrite IH, orb_false_r.
  apply beq_false. intros ->. by apply blt_irrefl in Hk.
Qed.
Lemma sorted_field k (m : jmap) : sorted m -> field k m = Ok (mget k m).
Proof.
  induction 1 as [|k' v m Hb Hs IH]; [done|]. cbn [mget].
  destruct (beq k k') eqn:E.
  - apply beq_true in E as ->. by rewrite field_hit by by apply below_absent.
  - by rewrite field_skip.
Qed.
(** Merging a list in which [k] occurs at most once. *)
Lemma mget_mmerge_field k b o : field k b = Ok o -> forall a, sorted a ->
  mget k (mmerge a b) = match o with Some v => Some v | None => mget k a end.
Proof.
  revert o. induction b as [|[k' v] b IH]; intros o Ho a Ha.
  - injection Ho as <-. done.
  - unfold mmerge in *. cbn [foldl fst snd]. destruct (beq k k') eqn:E.
    + apply beq_true in E as ->. unfold field in Ho. rewrite filter_cons in Ho. cbn [fst] in Ho.
      rewrite decide_True in Ho by apply beq_refl.
      destruct (filter _ b) as [|? ?] eqn:Ef; [|done]. injection Ho as <-.
      rewrite (IH None); [|unfold field; by rewrite Ef|by apply minsert_sorted].
      rewrite mget_minsert by done. by rewrite beq_refl.
    + rewrite field_skip in Ho by done. rewrite (IH _ Ho) by by apply minsert_sorted.
      rewrite mget_minsert by done. by rewrite E.
Qed.
Definition norm_map (m : jmap) : jmap := mmerge [] (map (fun kv => (fst kv, norm (snd kv))) m).
Lemma norm_map_sorted m : sorted (norm_map m).
Proof. apply mmerge_sorted. constructor. Qed.
Lemma field_map k (m : jmap) :
  field k (map (fun kv => (fst kv, norm (snd kv))) m)
  = (o ← field k m; Ok (match o with Some v => Some (norm v) | None => None end)).
Proof.
  assert (filter (fun kv => beq k kv.1 = true) (map (fun kv => (kv.1, norm kv.2)) m)
    = map (fun kv => (kv.1, norm kv.2)) (filter (fun kv => beq k kv.1 = true) m)) as Hf.
  { induction m as [|[k' v] m IH]; [done|]. cbn [map fst snd]. rewrite !filter_cons. cbn [fst].
    destruct (decide (beq k k' = true)); cbn [map fst snd]; by rewrite IH. }
  unfold field. rewrite Hf.
  destruct (filter (fun kv => beq k kv.1 = true) m) as [|[? ?] [|? ?]]; done.
Qed.
Lemma norm_map_field k m o : field k m = Ok o ->
  field k (norm_map m) = Ok (match o with Some v => Some (norm v) | None => None end).
Proof.
  intros H. rewrite sorted_field by apply norm_map_sorted. f_equal. unfold norm_map.
  rewrite (mget_mmerge_field k _ (match o with Some v => Some (norm v) | None => None end)); [|
    rewrite field_map, H; done|constructor].
  by destruct o.
Qed.

(** ** Decoding is invariant under [norm] *)

Definition stable {A} (f : json -> res A) : Prop := forall j a, f j = Ok a -> f (norm j) = Ok a.

Lemma required_norm k m j : required k m = Ok j -> required k (norm_map m) = Ok (norm j).
Proof.
  unfold required. intros H. apply bind_ok_inv in H as (o & H1 & H2).
  rewrite (norm_map_field _ _ _ H1). by destruct o; [injection H2 as <-|].
Qed.
Lemma as_obj_inv j m : as_obj j = Ok m -> j = JObj m.
Proof. destruct j; try done. by intros [= ->]. Qed.
(** [m'] has the members of [m] with normalized values. *)
Definition normed (m m' : jmap) : Prop := forall k o, field k m = Ok o ->
  field k m' = Ok (match o with Some v => Some (norm v) | None => None end).
Lemma required_normed m m' k j : normed m m' -> required k m = Ok j -> required k m' = Ok (norm j).
Proof.
  intros N. unfold required. intros H. apply bind_ok_inv in H as (o & H1 & H2).
  rewrite (N _ _ H1). by destruct o; [injection H2 as <-|].
Qed.
Lemma as_struct_norm names req j m : as_struct names req j = Ok m ->
  exists m', as_struct names req (norm j) = Ok m' /\ normed m m'.
Proof.
  destruct j as [| | | | |l|m0]; try done.
  - cbn [as_struct]. destruct (_ && _) eqn:E; [|done]. intros [= <-].
    exists (map (fun kv => (fst kv, norm (snd kv))) (zip names l)). split.
    + change (norm (JArr l)) with (JArr (map norm l)). cbn [as_struct]. rewrite map_length, E. f_equal. clear E.
      revert l. induction names as [|n names IH]; intros [|v l]; try done. cbn [map zip zip_with fst snd].
      f_equal. apply IH.
    + intros k o Ho. by rewrite field_map, Ho.
  - intros [= ->]. exists (norm_map m). split; [done|]. intros k o. apply norm_map_field.
Qed.
Lemma stable_as_str : stable as_str.
Proof. intros j a. by destruct j. Qed.
Lemma stable_as_bool : stable as_bool.
Proof. intros j a. by destruct j. Qed.
Lemma stable_as_int lo hi : stable (as_int lo hi).
Proof. intros j a. by destruct j. Qed.
Lemma stable_as_map : stable as_map.
Proof. intros j a. unfold as_map. rewrite (norm_value (norm j)); [done|apply norm_is_value]. Qed.
Lemma stable_dec_value : stable dec_value.
Proof. intros j a. unfold dec_value. rewrite (norm_value (norm j)); [done|apply norm_is_value]. Qed.
Lemma norm_null j : norm j = JNull <-> j = JNull.
Proof. by destruct j. Qed.
Lemma stable_option {A} (f : json -> res A) o a : stable f -> as_option f o = Ok a ->
  as_option f (match o with Some v => Some (norm v) | None => None end) = Ok a.
Proof.
  intros Hf H. destruct o as [v|]; [|done].
  assert (v = JNull \/ (as_option f (Some v) = (a ← f v; Ok (Some a))
    /\ as_option f (Some (norm v)) = (a ← f (norm v); Ok (Some a)))) as [->|[E1 E2]];
    [destruct v; auto|done|].
  rewrite E1 in H. rewrite E2. apply bind_ok_inv in H as (b & H1 & H2).
  by rewrite (Hf _ _ H1).
Qed.
Lemma mapM_stable {A} (f : json -> res A) l r : stable f -> mapM_res f l = Ok r ->
  mapM_res f (map norm l) = Ok r.
Proof.
  intros Hf. revert r. induction l as [|j l IH]; intros r; [done|]. cbn [mapM_res map].
  intros H. apply bind_ok_inv in H as (a & H1 & H). apply bind_ok_inv in H as (b & H2 & H3).
  rewrite (Hf _ _ H1), bind_ok. by rewrite (IH _ H2), bind_ok.
Qed.
Lemma stable_dec_core : stable dec_core.
Proof. intros j a. by destruct j. Qed.
Lemma stable_dec_order : stable dec_order.
Proof. intros j a. destruct j as [| | | | | |[|[k v] [|]]]; try done; by destruct v. Qed.

Ltac bstep H x Hx := apply bind_ok_inv in H as (x & Hx & H).

Lemma stable_dec_extended : stable dec_extended.
Proof.
  intros j a. unfold dec_extended. intros H.
  bstep H m Hm. apply as_obj_inv in Hm as ->. cbn [norm as_obj]. rewrite bind_ok.
  change (mmerge [] _) with (norm_map m).
  bstep H e He. rewrite (required_norm _ _ _ He), bind_ok.
  bstep H e' He'. rewrite (stable_as_str _ _ He'), bind_ok.
  bstep H t Ht. rewrite (required_norm _ _ _ Ht), bind_ok.
  bstep H t' Ht'. rewrite (stable_as_str _ _ Ht'), bind_ok.
  bstep H o Ho. rewrite (norm_map_field _ _ _ Ho), bind_ok.
  bstep H o' Ho'. rewrite (stable_option _ _ _ stable_dec_core Ho'), bind_ok. done.
Qed.
Lemma stable_dec_dtype : stable dec_dtype.
Proof.
  intros j a. unfold dec_dtype. intros H.
  destruct (dec_core j) as [d|e|] eqn:E; [|destruct (dec_core (norm j)) as [d'|e'|] eqn:E'|done].
  - by rewrite (stable_dec_core _ _ E).
  - exfalso. destruct j; cbn in E, E'; congruence.
  - by apply stable_dec_extended.
  - exfalso. destruct j; cbn in E, E'; congruence.
Qed.
Lemma stable_dec_cfg k lo hi dflt : stable (dec_cfg k lo hi dflt).
Proof.
  intros j a. unfold dec_cfg. intros H.
  bstep H m Hm. destruct (as_struct_norm _ _ _ _ Hm) as (m' & -> & N). rewrite bind_ok.
  bstep H o Ho. rewrite (N _ _ Ho), bind_ok.
  destruct o; [by apply stable_as_int|done].
Qed.
Lemma stable_dec_comp : stable dec_comp.
Proof.
  intros j a. unfold dec_comp. intros H.
  bstep H m Hm. destruct (as_struct_norm _ _ _ _ Hm) as (m' & -> & N). rewrite bind_ok.
  bstep H e He. rewrite (required_normed _ _ _ _ N He), bind_ok.
  bstep H e' He'. rewrite (stable_as_str _ _ He'), bind_ok.
  bstep H t Ht. rewrite (required_normed _ _ _ _ N Ht), bind_ok.
  destruct (beq e' (B "raw")); [by destruct t|].
  destruct (beq e' (B "bzip2")); [bstep H b Hb; by rewrite (stable_dec_cfg _ _ _ _ _ _ Hb)|].
  destruct (beq e' GZIP_ID); [bstep H b Hb; by rewrite (stable_dec_cfg _ _ _ _ _ _ Hb)|].
  destruct (beq e' (B "lz4")); [bstep H b Hb; by rewrite (stable_dec_cfg _ _ _ _ _ _ Hb)|].
  destruct (beq e' (B "xz")); [bstep H b Hb; by rewrite (stable_dec_cfg _ _ _ _ _ _ Hb)|done].
Qed.
Lemma stable_dec_ext : stable dec_ext.
Proof.
  intros j a. unfold dec_ext. intros H.
  bstep H m Hm. destruct (as_struct_norm _ _ _ _ Hm) as (m' & -> & N). rewrite bind_ok.
  bstep H e He. rewrite (required_normed _ _ _ _ N He), bind_ok.
  bstep H e' He'. rewrite (stable_as_str _ _ He'), bind_ok.
  bstep H t Ht. rewrite (required_normed _ _ _ _ N Ht), bind_ok.
  bstep H t' Ht'. rewrite (stable_as_bool _ _ Ht'), bind_ok.
  bstep H o Ho. rewrite (N _ _ Ho), bind_ok.
  bstep H o' Ho'. rewrite (stable_option _ _ _ stable_as_map Ho'), bind_ok. done.
Qed.
Lemma stable_dec_meta : stable dec_meta.
Proof.
  intros j a. unfold dec_meta. intros H.
  bstep H m Hm. destruct (as_struct_norm _ _ _ _ Hm) as (m' & -> & N). rewrite bind_ok.
  bstep H sh0 H1. rewrite (required_normed _ _ _ _ N H1), bind_ok.
  bstep H sh1 H2. destruct sh0 as [| | | | |sh0|]; try done. injection H2 as <-.
  cbn [norm as_arr]. rewrite bind_ok.
  bstep H sh H3. rewrite (mapM_stable _ _ _ (stable_as_int _ _) H3), bind_ok.
  bstep H dt0 H4. rewrite (required_normed _ _ _ _ N H4), bind_ok.
  bstep H dt H5. rewrite (stable_dec_dtype _ _ H5), bind_ok.
  bstep H g0 H6. rewrite (required_normed _ _ _ _ N H6), bind_ok.
  bstep H g H7. destruct (as_struct_norm _ _ _ _ H7) as (g' & -> & NG). rewrite bind_ok.
  bstep H gty0 H8. rewrite (required_normed _ _ _ _ NG H8), bind_ok.
  bstep H gty H9. rewrite (stable_as_str _ _ H9), bind_ok.
  bstep H cs0 H10. rewrite (required_normed _ _ _ _ NG H10), bind_ok.
  bstep H cs1 H11. destruct cs0 as [| | | | |cs0|]; try done. injection H11 as <-.
  cbn [norm as_arr]. rewrite bind_ok.
  bstep H cs H12. rewrite (mapM_stable _ _ _ (stable_as_int _ _) H12), bind_ok.
  bstep H sp0 H13. rewrite (required_normed _ _ _ _ NG H13), bind_ok.
  bstep H sp H14. rewrite (stable_as_str _ _ H14), bind_ok.
  bstep H ol0 H15. rewrite (required_normed _ _ _ _ N H15), bind_ok.
  bstep H ol H16. rewrite (stable_dec_order _ _ H16), bind_ok.
  bstep H fv0 H17. rewrite (N _ _ H17), bind_ok.
  bstep H fv H18. rewrite (stable_option _ _ _ stable_dec_value H18), bind_ok.
  bstep H ex0 H19. rewrite (required_normed _ _ _ _ N H19), bind_ok.
  bstep H ex1 H20. destruct ex0 as [| | | | |ex0|]; try done. injection H20 as <-.
  cbn [norm as_arr]. rewrite bind_ok.
  bstep H exs H21. rewrite (mapM_stable _ _ _ stable_dec_ext H21), bind_ok.
  bstep H at0 H22. rewrite (required_normed _ _ _ _ N H22), bind_ok.
  bstep H at1 H23. rewrite (stable_as_map _ _ H23), bind_ok.
  bstep H cp0 H24. rewrite (N _ _ H24), bind_ok.
  bstep H cp H25. destruct cp0 as [cp0|].
  - rewrite (stable_dec_comp _ _ H25), bind_ok. done.
  - rewrite H25, bind_ok. done.
Qed.

(** ** Documents the library writes read back *)

Lemma required_eval k m v : field k m = Ok (Some v) -> required k m = Ok v.
Proof. intros H. unfold required. by rewrite H. Qed.
Ltac hit_by tac :=
  repeat (rewrite field_skip by reflexivity); rewrite field_hit by tac; reflexivity.
Ltac fld_by tac :=
  lazymatch goal with
  | |- context [field ?k ?m ≫= _] =>
      let H := fresh in
      eassert (field k m = Ok (Some _)) as H by hit_by tac; rewrite H, bind_ok; clear H
  end.
Ltac req_by tac :=
  lazymatch goal with
  | |- context [required ?k ?m ≫= _] =>
      let H := fresh in
      eassert (required k m = Ok _) as H by (apply required_eval; hit_by tac);
      rewrite H, bind_ok; clear H
  end.
Ltac fld := fld_by ltac:(reflexivity).
Ltac req := req_by ltac:(reflexivity).

Lemma dec_enc_dtype x : no_raw x ->
  exists x', dec_dtype (enc_dtype x) = Ok x' /\ ext_dtype_same x x'.
Proof.
  intros Hx. destruct x as [d|e t [d|]]; cbn [no_raw] in Hx.
  - destruct (dtype_roundtrip_spec d Hx) as (d' & E & H1 & H2 & H3).
    exists (Core d'). unfold dec_dtype, dec_core, enc_dtype. cbn [as_str]. rewrite bind_ok, E.
    done.
  - destruct (dtype_roundtrip_spec d Hx) as (d' & E & H1 & H2 & H3).
    exists (Extended e t (Some d')). split; [|done].
    unfold dec_dtype. cbn [enc_dtype].
    change (dec_core (JObj _)) with (@Err data_type InvalidData). cbv iota.
    unfold dec_extended. cbn [as_obj app]. rewrite bind_ok.
    req. cbn [as_str]. rewrite bind_ok. req. cbn [as_str]. rewrite bind_ok.
    fld. cbn [as_option]. unfold dec_core. cbn [as_str]. rewrite bind_ok, E. done.
  - exists (Extended e t None). split; [|done].
    unfold dec_dtype. cbn [enc_dtype].
    change (dec_core (JObj _)) with (@Err data_type InvalidData). cbv iota.
    unfold dec_extended. cbn [as_obj app]. rewrite bind_ok.
    req. cbn [as_str]. rewrite bind_ok. req. cbn [as_str]. rewrite bind_ok.
    rewrite field_absent by reflexivity. done.
Qed.
Lemma as_int_ok lo hi z : lo <= z < hi -> as_int lo hi (JInt z) = Ok z.
Proof. intros H. cbn. rewrite (proj2 (Z.leb_le _ _)), (proj2 (Z.ltb_lt _ _)); [done|lia|lia]. Qed.
Lemma mapM_as_int lo hi l : Forall (fun z => lo <= z < hi) l ->
  mapM_res (as_int lo hi) (map JInt l) = Ok l.
Proof.
  induction 1 as [|z l Hz _ IH]; [done|]. cbn [map mapM_res].
  by rewrite as_int_ok, bind_ok, IH, bind_ok.
Qed.
Lemma dec_enc_comp c : comp_typed c -> dec_comp (enc_comp c) = Ok c.
Proof.
  intros Hc. unfold dec_comp, enc_comp.
  assert (forall k lo hi dflt z, lo <= z < hi -> dec_cfg k lo hi dflt (JObj [(k, JInt z)]) = Ok z) as Hcfg.
  { intros k lo hi dflt z Hz. unfold dec_cfg. cbn [as_struct]. rewrite bind_ok.
    rewrite field_hit by done. rewrite bind_ok. by apply as_int_ok. }
  destruct c as [|b|l|b|p]; cbn [as_struct comp_typed] in *; rewrite bind_ok;
    req; cbn [as_str]; rewrite bind_ok; req.
  - done.
  - change (beq (B "bzip2") (B "raw")) with false. change (beq (B "bzip2") (B "bzip2")) with true.
    cbv iota. by rewrite Hcfg.
  - change (beq (B _) (B "raw")) with false. change (beq (B _) (B "bzip2")) with false.
    change (beq (B _) GZIP_ID) with true. cbv iota. rewrite Hcfg; [done|exact Hc].
  - change (beq (B _) (B "raw")) with false. change (beq (B _) (B "bzip2")) with false.
    change (beq (B _) GZIP_ID) with false. change (beq (B "lz4") (B "lz4")) with true.
    cbv iota. rewrite Hcfg; [done|exact Hc].
  - change (beq (B _) (B "raw")) with false. change (beq (B _) (B "bzip2")) with false.
    change (beq (B _) GZIP_ID) with false. change (beq (B _) (B "lz4")) with false.
    change (beq (B "xz") (B "xz")) with true.
    cbv iota. rewrite Hcfg; [done|exact Hc].
Qed.
Lemma as_map_value m : is_value (JObj m) = true -> as_map (JObj m) = Ok m.
Proof. intros H. unfold as_map. by rewrite norm_value. Qed.
Lemma dec_enc_ext e : (forall c, em_configuration e = Some c -> value_ok (JObj c)) ->
  dec_ext (enc_ext e) = Ok e.
Proof.
  intros He. destruct e as [x u [c|]]; unfold dec_ext, enc_ext;
    cbn [as_struct app em_extension em_must_understand em_configuration] in *; rewrite bind_ok.
  - req. cbn [as_str]. rewrite bind_ok. req. cbn [as_bool]. rewrite bind_ok. fld.
    cbn [as_option]. destruct (He c eq_refl) as [Hv _]. rewrite as_map_value by done. done.
  - req. cbn [as_str]. rewrite bind_ok. req. cbn [as_bool]. rewrite bind_ok.
    rewrite field_absent by reflexivity. done.
Qed.
Lemma mapM_dec_ext l : exts_typed l -> mapM_res dec_ext (map enc_ext l) = Ok l.
Proof.
  induction 1 as [|e l He _ IH]; [done|]. cbn [map mapM_res].
  by rewrite dec_enc_ext, bind_ok, IH, bind_ok by apply He.
Qed.

Lemma dec_enc_meta m : meta_value m -> no_raw (am_dtype m) ->
  exists m', dec_meta (enc_meta m) = Ok m' /\ same_meta m m'.
Proof.
  intros ((Hsh & Hcs) & Hf & Ha & He & Hc & _) Hr.
  destruct (dec_enc_dtype (am_dtype m) Hr) as (dt & Hdt & Hs).
  exists (ArrayMeta (am_shape m) dt (am_grid_type m) (am_chunk_shape m) (am_sep m) (am_order m)
    (match am_fill m with Some JNull => None | f => f end) (am_exts m) (am_attrs m) (am_comp m)).
  split; [|by repeat split].
  assert (forall m1, m1 = (if compression_is_default (am_comp m) then []
                           else [(B "compressor", enc_comp (am_comp m))]) ->
    existsb (beq (B "compressor")) (map fst m1) = negb (compression_is_default (am_comp m))
    /\ (cp ← field (B "compressor") m1;
        match cp with None => Ok compression_default | Some v => dec_comp v end) = Ok (am_comp m)) as Hcomp.
  { intros m1 ->. destruct (compression_is_default _) eqn:E.
    - apply bool_decide_eq_true in E. split; [done|]. by rewrite E.
    - split; [done|]. fld. by apply dec_enc_comp. }
  assert (exists m1, m1 = (if compression_is_default (am_comp m) then []
                           else [(B "compressor", enc_comp (am_comp m))])) as [m1 Em1] by by eexists.
  unfold dec_meta, enc_meta. rewrite <- Em1. cbn [as_struct app]. rewrite bind_ok.
  destruct (Hcomp m1 Em1) as [_ Hcp].
  assert (forall k, beq k (B "compressor") = false -> existsb (beq k) (map fst m1) = false) as Hm1.
  { intros k Hk. subst m1. destruct (compression_is_default _); [done|]. cbn [map fst existsb].
    by rewrite Hk. }
  clear Hcomp Em1.
  Local Ltac hit Hm1 := cbn [map fst existsb]; rewrite Hm1 by reflexivity; reflexivity.
  Local Ltac req1 Hm1 := req_by ltac:(hit Hm1).
  req1 Hm1. cbn [as_arr]. rewrite bind_ok. rewrite mapM_as_int by exact Hsh. rewrite bind_ok.
  req1 Hm1. rewrite Hdt, bind_ok.
  req1 Hm1. cbn [as_struct]. rewrite bind_ok.
  req. cbn [as_str]. rewrite bind_ok.
  req. cbn [as_arr]. rewrite bind_ok. rewrite mapM_as_int by exact Hcs. rewrite bind_ok.
  req. cbn [as_str]. rewrite bind_ok.
  req1 Hm1. assert (dec_order (enc_order (am_order m)) = Ok (am_order m)) as ->
    by by destruct (am_order m). rewrite bind_ok.
  fld_by ltac:(hit Hm1).
  assert (as_option dec_value (Some match am_fill m with Some v => v | None => JNull end)
    = Ok match am_fill m with Some JNull => None | f => f end) as ->.
  { destruct (am_fill m) as [v|]; [|done]. destruct (Hf v eq_refl) as [Hv _].
    assert (dec_value v = Ok v) as Hd by (unfold dec_value; by rewrite norm_value).
    destruct v; try done; unfold as_option; by rewrite Hd. }
  rewrite bind_ok.
  req1 Hm1. cbn [as_arr]. rewrite bind_ok. rewrite mapM_dec_ext by done. rewrite bind_ok.
  req1 Hm1. rewrite as_map_value by apply Ha. rewrite bind_ok.
  repeat (rewrite (field_skip (B "compressor")) by reflexivity).
  apply bind_ok_inv in Hcp as (cp & -> & Hcp). rewrite bind_ok, Hcp, bind_ok. done.
Qed.

(** ** The written documents are values serde_json can read *)

Lemma forallb_all {A} (f : A -> bool) l : Forall (fun x => f x = true) l -> forallb f l = true.
Proof. intros H. by apply forallb_Forall. Qed.
Lemma jdepth_le_obj m d : Forall (fun kv => (jdepth (snd kv) <= d)%nat) m -> (jdepth (JObj m) <= S d)%nat.
Proof. apply jdepth_obj. Qed.
Lemma jdepth_ints l : (jdepth (JArr (map JInt l)) <= 1)%nat.
Proof. apply jdepth_arr. rewrite Forall_map. apply list.Forall_forall. intros x _. cbn. lia. Qed.
Lemma json_ok_ints lo hi l : int_lo <= lo -> hi <= two64 -> Forall (fun z => lo <= z < hi) l ->
  json_ok (JArr (map JInt l)) = true.
Proof.
  intros Hl Hh H. cbn. apply forallb_all. rewrite Forall_map. eapply list.Forall_impl; [exact H|].
  intros z Hz. cbn in *. apply andb_true_iff. rewrite Z.leb_le, Z.ltb_lt. lia.
Qed.
Lemma enc_exts_ok l : exts_typed l -> json_ok (JArr (map enc_ext l)) = true.
Proof.
  intros H. cbn [json_ok]. apply forallb_all. rewrite Forall_map. eapply list.Forall_impl; [exact H|].
  intros [x u [c|]] [Hx Hc]; cbn [enc_ext json_ok em_configuration em_extension em_must_understand app forallb fst snd] in *;
    rewrite Hx; [|by rewrite ?utf8_B by done]. destruct (Hc c eq_refl) as [_ H1]. cbn [json_ok] in H1. by rewrite H1.
Qed.
Lemma enc_exts_depth l : exts_nesting_ok l -> (jdepth (JArr (map enc_ext l)) <= 126)%nat.
Proof.
  intros H. apply jdepth_arr. rewrite Forall_map. eapply list.Forall_impl; [exact H|].
  intros [x u [c|]] Hc; apply jdepth_le_obj; cbn [enc_ext em_configuration em_extension em_must_understand app] in *;
    (constructor; [cbn; lia|]); (constructor; [cbn; lia|]); [|constructor].
  constructor; [|constructor]. cbn [snd]. by apply Hc.
Qed.
Lemma ascii_utf8 s : Forall (fun b => Z_of_byte b < 128) s -> utf8_ok s = true.
Proof. induction 1 as [|b s Hb _ IH]; [done|]. cbn [utf8_ok]. apply Z.ltb_lt in Hb. by rewrite Hb. Qed.
Lemma dec_fuel_ascii n z acc : Forall (fun b => Z_of_byte b < 128) acc ->
  Forall (fun b => Z_of_byte b < 128) (dec_fuel n z acc).
Proof.
  revert z acc. induction n as [|n IH]; intros z acc H; cbn [dec_fuel]; [done|].
  assert (Forall (fun b => Z_of_byte b < 128) (digit (z mod 10) :: acc)) as H'.
  { constructor; [|done]. unfold digit. rewrite Z_of_byte_of_Z.
    pose proof (Z.mod_pos_bound z 10 ltac:(lia)). rewrite Z.mod_small; lia. }
  destruct (_ =? 0); [done|by apply IH].
Qed.
Lemma dtype_string_utf8 d : utf8_ok (dtype_to_string d) = true.
Proof.
  destruct d as [|s e|s e|s e|n]; [done|by destruct s, e..|].
  apply ascii_utf8. unfold dtype_to_string, in_buffer. apply Forall_take.
  apply Forall_app. split.
  - constructor; [done|]. apply dec_fuel_ascii. constructor.
  - apply Forall_replicate. done.
Qed.
Lemma enc_dtype_depth x : (jdepth (enc_dtype x) <= 1)%nat.
Proof. destruct x as [d|e t [d|]]; cbn; lia. Qed.
Lemma enc_dtype_ok x : dtype_typed x -> json_ok (enc_dtype x) = true.
Proof.
  destruct x as [d|e t [d|]]; cbn [dtype_typed enc_dtype json_ok app forallb fst snd].
  - intros _. apply dtype_string_utf8.
  - intros [-> ->]. by rewrite dtype_string_utf8.
  - by intros [-> ->].
Qed.
Lemma enc_comp_ok c : comp_typed c -> json_ok (enc_comp c) = true /\ (jdepth (enc_comp c) <= 2)%nat.
Proof.
  intros Hc. destruct c; cbn [enc_comp json_ok forallb fst snd comp_typed] in *; (split; [|cbn; lia]); try done.
  all: repeat (replace (utf8_ok (B _)) with true by reflexivity); cbn [andb]; rewrite ?andb_true_r; apply andb_true_iff; rewrite Z.leb_le, Z.ltb_lt;
    unfold int_lo, two64; lia.
Qed.
Lemma enc_meta_ok m : meta_value m -> json_ok (enc_meta m) = true.
Proof.
  intros ((Hsh & Hcs) & Hf & Ha & He & Hc & Hd & Hg & Hp). unfold enc_meta.
  assert (json_ok (JArr (map JInt (am_shape m))) = true) as H1 by (by eapply (json_ok_ints 0 two64)).
  assert (json_ok (JArr (map JInt (am_chunk_shape m))) = true) as H2 by (by eapply (json_ok_ints 0 two32)).
  pose proof (enc_exts_ok _ He) as H3. destruct Ha as [_ H4].
  pose proof (enc_dtype_ok _ Hd) as H5. destruct (enc_comp_ok _ Hc) as [H6 _].
  assert (json_ok match am_fill m with Some v => v | None => JNull end = true) as H7.
  { destruct (am_fill m) as [v|]; [|done]. by apply Hf. }
  assert (forall l : jmap, json_ok (JObj l) = forallb (fun kv => utf8_ok (fst kv) && json_ok (snd kv)) l) as Hj by done.
  rewrite Hj. rewrite forallb_app. cbn [forallb fst snd]. rewrite H1, H3, H4, H5, H7.
  rewrite Hj. cbn [forallb fst snd]. rewrite H2. cbn [json_ok]. rewrite Hg, Hp.
  replace (json_ok (enc_order (am_order m))) with true by by destruct (am_order m).
  destruct (compression_is_default _); [done|]. cbn [forallb fst snd]. by rewrite H6.
Qed.
Lemma enc_meta_depth m : comp_typed (am_comp m) -> nesting_ok m -> (jdepth (enc_meta m) <= 127)%nat.
Proof.
  intros Hc (Hf & Ha & He). apply jdepth_le_obj.
  apply Forall_app. split.
  - repeat (apply Forall_cons_2; cbn [snd]).
    + etransitivity; [apply jdepth_ints|lia].
    + etransitivity; [apply enc_dtype_depth|lia].
    + apply (jdepth_le_obj _ 125). constructor; [cbn; lia|]. constructor; [|constructor; [cbn; lia|constructor]].
      cbn [snd]. etransitivity; [apply jdepth_ints|lia].
    + destruct (am_order m); cbn; lia.
    + destruct (am_fill m) as [v|]; [by apply Hf|cbn; lia].
    + by apply enc_exts_depth.
    + done.
    + constructor.
  - destruct (compression_is_default _); constructor; [|constructor]. cbn [snd].
    etransitivity; [by apply enc_comp_ok|lia].
Qed.

Lemma from_text_print {A} (dec : json -> res A) j :
  json_ok j = true -> (jdepth j <= 127)%nat -> from_text dec (print j) = dec j.
Proof. intros H1 H2. unfold from_text. by rewrite parse_print. Qed.

(** The entry point. *)
Lemma dec_enc_ep e : exts_typed (ep_exts e) -> dec_ep (enc_ep e) = Ok e.
Proof.
  intros He. destruct e as [f en sfx exts]. unfold dec_ep, enc_ep. cbn [as_struct ep_format ep_encoding ep_suffix ep_exts] in *.
  rewrite bind_ok. do 3 (req; cbn [as_str]; rewrite bind_ok). req. cbn [as_arr]. rewrite bind_ok.
  by rewrite mapM_dec_ext, bind_ok.
Qed.
Lemma enc_ep_ok e : ep_typed e -> json_ok (enc_ep e) = true.
Proof.
  intros (Hf & Hn & Hs & He). pose proof (enc_exts_ok _ He) as H. unfold enc_ep.
  change (forallb (fun kv : bytes * json => utf8_ok kv.1 && json_ok kv.2)
    [(B "zarr_format", JStr (ep_format e)); (B "metadata_encoding", JStr (ep_encoding e));
     (B "metadata_key_suffix", JStr (ep_suffix e)); (B "extensions", JArr (map enc_ext (ep_exts e)))] = true).
  cbn [forallb fst snd]. rewrite H. cbn [json_ok]. by rewrite Hf, Hn, Hs.
Qed.
Lemma enc_ep_depth e : exts_nesting_ok (ep_exts e) -> (jdepth (enc_ep e) <= 127)%nat.
Proof.
  intros He. apply jdepth_le_obj. do 3 (constructor; [cbn; lia|]). constructor; [|constructor].
  cbn [snd]. by apply enc_exts_depth.
Qed.
Lemma read_enc_ep e : ep_typed e -> exts_nesting_ok (ep_exts e) ->
  from_text dec_ep (print (enc_ep e)) = Ok e.
Proof.
  intros H1 H2. rewrite from_text_print; [by apply dec_enc_ep, H1|by apply enc_ep_ok|by apply enc_ep_depth].
Qed.
Lemma read_enc_meta m : meta_value m -> no_raw (am_dtype m) -> nesting_ok m ->
  exists m', from_text dec_meta (print (enc_meta m)) = Ok m' /\ same_meta m m'.
Proof.
  intros H1 H2 H3. rewrite from_text_print; [by apply dec_enc_meta|by apply enc_meta_ok|].
  apply enc_meta_depth; [apply H1|done].
Qed.
