(** Facts about Chunk.v. *)
From Verif Require Import Chunk Spec BaseFacts DataTypeFacts.
From Coq Require Import ZifyBool ZifyNat ZifyN.

(** ** Elements *)
Lemma le_bytes_length n z : length (le_bytes n z) = n.
Proof. revert z. induction n as [|n IH]; intros z; cbn; [done|]. by rewrite IH. Qed.
Lemma elt_bytes_length e t z : length (elt_bytes e t z) = rty_size t.
Proof. unfold elt_bytes. destruct e; rewrite ?rev_length; apply le_bytes_length. Qed.

Lemma pow256 n : 2 ^ (8 * Z.of_nat n) = 256 ^ Z.of_nat n.
Proof. change 256 with (2 ^ 8). rewrite <- Z.pow_mul_r; lia. Qed.

Lemma le_val_le_bytes n z : le_val (le_bytes n z) = z mod 256 ^ Z.of_nat n.
Proof.
  revert z. induction n as [|n IH]; intros z; cbn [le_bytes le_val].
  - change (256 ^ Z.of_nat 0) with 1. by rewrite Z.mod_1_r.
  - rewrite Z_of_byte_of_Z, IH. rewrite Nat2Z.inj_succ, Z.pow_succ_r by lia.
    rewrite Z.rem_mul_r by lia. done.
Qed.
Lemma le_val_range l : 0 <= le_val l < 256 ^ Z.of_nat (length l).
Proof.
  induction l as [|b l IH]; cbn [le_val length]; [cbn; lia|].
  rewrite Nat2Z.inj_succ, Z.pow_succ_r by lia. pose proof (Z_of_byte_range b). lia.
Qed.

Lemma be_value_snoc l b : be_value (l ++ [b]) = 256 * be_value l + Z_of_byte b.
Proof. unfold be_value. rewrite foldl_app. done. Qed.
Lemma be_value_rev l : be_value (rev l) = le_val l.
Proof.
  induction l as [|b l IH]; [done|]. cbn [rev le_val]. rewrite be_value_snoc, IH. lia.
Qed.
Lemma elt_bytes_encodes e t z : encodes e (rty_size t) z (elt_bytes e t z).
Proof.
  split; [apply elt_bytes_length|].
  rewrite pow256, <- (le_val_le_bytes (rty_size t) z), <- be_value_rev.
  unfold bytes_value, elt_bytes. by destruct e.
Qed.

(** An encoding is determined by the value. *)
Lemma le_val_inj a b : length a = length b -> le_val a = le_val b -> a = b.
Proof.
  revert b. induction a as [|x a IH]; intros [|y b]; cbn [length le_val]; try done.
  intros [= Hl] Hv. pose proof (Z_of_byte_range x). pose proof (Z_of_byte_range y).
  assert (Z_of_byte x = Z_of_byte y /\ le_val a = le_val b) as [H1 H2] by lia.
  apply Z_of_byte_inj in H1 as ->. by rewrite (IH b).
Qed.
Lemma encodes_inj e n z a b : encodes e n z a -> encodes e n z b -> a = b.
Proof.
  intros [La Va] [Lb Vb]. rewrite <- Vb in Va. unfold bytes_value in Va. destruct e.
  - rewrite <- (rev_involutive a), <- (rev_involutive b), !be_value_rev in Va.
    apply le_val_inj in Va; [|rewrite !rev_length; lia].
    by rewrite <- (rev_involutive a), <- (rev_involutive b), Va.
  - rewrite !be_value_rev in Va. apply le_val_inj; [lia|done].
Qed.

Lemma to_signed_mod n z :
  (0 < n)%nat -> - 2 ^ (8 * Z.of_nat n - 1) <= z < 2 ^ (8 * Z.of_nat n - 1) ->
  to_signed n (z mod 2 ^ (8 * Z.of_nat n)) = z.
Proof.
  intros Hn Hz. unfold to_signed.
  assert (2 ^ (8 * Z.of_nat n) = 2 * 2 ^ (8 * Z.of_nat n - 1)) as ->.
  { rewrite <- Z.pow_succ_r by lia. f_equal. lia. }
  revert Hz. generalize (2 ^ (8 * Z.of_nat n - 1)) as M. intros M Hz.
  destruct (Z.ltb_spec z 0).
  - rewrite <- (Z.mod_unique z (2 * M) (-1) (z + 2 * M)) by lia.
    destruct (_ <? _) eqn:E; lia.
  - rewrite Z.mod_small by lia. destruct (_ <? _) eqn:E; lia.
Qed.
Lemma elt_val_bytes e t z : elt_ok t z -> elt_val e t (elt_bytes e t z) = z.
Proof.
  intros Hz. unfold elt_val, elt_bytes.
  assert (match e with
          | Big => rev (match e with Big => rev (le_bytes (rty_size t) z)
                        | Little => le_bytes (rty_size t) z end)
          | Little => match e with Big => rev (le_bytes (rty_size t) z)
                      | Little => le_bytes (rty_size t) z end
          end = le_bytes (rty_size t) z) as -> by (destruct e; rewrite ?rev_involutive; done).
  rewrite le_val_le_bytes. cbv zeta. unfold elt_ok, rty_signed in *.
  rewrite <- pow256.
  destruct t; [by destruct Hz as [-> | ->]|..];
    lazymatch goal with
    | |- to_signed _ _ = _ => apply to_signed_mod; [cbn; lia|exact Hz]
    | |- _ mod _ = _ => by apply Z.mod_small
    end.
Qed.

(** ** Slices *)
Lemma chunks_fuel_concat {A} f n (l : list A) :
  (0 < n)%nat -> (length l <= f)%nat -> concat (chunks_fuel f n l) = l.
Proof.
  intros Hn. revert l. induction f as [|f IH]; intros l Hf.
  - destruct l; [done|cbn in Hf; lia].
  - destruct l as [|a l]; [done|].
    cbn [chunks_fuel concat]. rewrite IH.
    + apply take_drop.
    + rewrite drop_length. cbn [length] in *. lia.
Qed.
Lemma chunks_concat {A} n (l : list A) : (0 < n)%nat -> concat (chunks n l) = l.
Proof. intros. apply chunks_fuel_concat; lia. Qed.

Lemma concat_concat_map {A B} (f : A -> list B) (ls : list (list A)) :
  concat (map (fun c => concat (map f c)) ls) = concat (map f (concat ls)).
Proof.
  induction ls as [|l ls IH]; [done|]. cbn. by rewrite map_app, concat_app, IH.
Qed.

(** The staging buffer is invisible. *)
Lemma write_calls_concat e t data :
  concat (write_calls e t data) = concat (map (elt_bytes e t) data).
Proof.
  unfold write_calls.
  assert (concat (map (fun c => concat (map (elt_bytes e t) c)) (chunks 256 data))
          = concat (map (elt_bytes e t) data)) as Hc.
  { rewrite concat_concat_map, chunks_concat by lia. done. }
  destruct t; try exact Hc; [|done].
  destruct data; [done|]. cbn [concat]. by rewrite app_nil_r.
Qed.

Lemma concat_elt_bytes_length e t data :
  length (concat (map (elt_bytes e t) data)) = (length data * rty_size t)%nat.
Proof.
  induction data as [|z data IH]; [done|]. cbn [map concat length].
  rewrite app_length, elt_bytes_length, IH. lia.
Qed.

(** ** Reading *)
Lemma decode_elts_length e t n l : length (decode_elts e t n l) = n.
Proof. revert l. induction n as [|n IH]; intros; cbn; [done|]. by rewrite IH. Qed.

Lemma decode_elts_take e t n l l' :
  take (n * rty_size t) l = take (n * rty_size t) l' ->
  decode_elts e t n l = decode_elts e t n l'.
Proof.
  revert l l'. induction n as [|n IH]; intros l l' H; [done|].
  cbn [decode_elts]. f_equal.
  - f_equal. apply (f_equal (take (rty_size t))) in H. rewrite !take_take in H.
    rewrite Nat.min_l in H by (cbn; lia). exact H.
  - apply IH. apply (f_equal (drop (rty_size t))) in H.
    change (S n * rty_size t)%nat with (rty_size t + n * rty_size t)%nat in H.
    rewrite <- !take_drop_commute in H. exact H.
Qed.
Lemma decode_elts_app e t n k l :
  decode_elts e t (n + k) l
  = decode_elts e t n l ++ decode_elts e t k (drop (n * rty_size t) l).
Proof.
  revert l. induction n as [|n IH]; intros l; [by rewrite drop_0|].
  cbn [Nat.add decode_elts app]. f_equal. rewrite IH, drop_drop. done.
Qed.

Lemma decode_elts_enc e t data rest :
  Forall (elt_ok t) data ->
  decode_elts e t (length data) (concat (map (elt_bytes e t) data) ++ rest) = data.
Proof.
  induction 1 as [|z data Hz _ IH]; [done|].
  cbn [length decode_elts map concat]. rewrite <- app_assoc.
  rewrite take_app_alt by (by rewrite elt_bytes_length).
  rewrite drop_app_alt by (by rewrite elt_bytes_length).
  by rewrite elt_val_bytes, IH.
Qed.

Definition eof_error (s : stream) : ekind :=
  match st_err s with None => UnexpectedEof | Some e => e end.

Lemma read_exact_spec n s :
  read_exact n s =
  if (n <=? length (st_bytes s))%nat
  then Ok (take n (st_bytes s), Stream (drop n (st_bytes s)) (st_err s))
  else Err (eof_error s).
Proof. unfold read_exact, eof_error. destruct (_ <=? _)%nat; [done|]. by destruct (st_err s). Qed.

Lemma read_pieces_spec e pieces s :
  read_pieces e pieces s =
  if (length (concat pieces) <=? length (st_bytes s))%nat
  then Ok (decode_elts e RBool (length (concat pieces)) (st_bytes s))
  else Err (eof_error s).
Proof.
  revert s. induction pieces as [|c pieces IH]; intros s; [done|].
  cbn [read_pieces concat]. rewrite read_exact_spec, app_length.
  destruct (length c <=? length (st_bytes s))%nat eqn:E1.
  - rewrite bind_ok, IH. cbn [st_bytes st_err].
    rewrite drop_length.
    destruct (length (concat pieces) <=? length (st_bytes s) - length c)%nat eqn:E2.
    + rewrite bind_ok.
      replace (_ <=? _)%nat with true by lia.
      rewrite decode_elts_app. cbn [rty_size]. rewrite Nat.mul_1_r.
      do 2 f_equal. apply decode_elts_take. cbn [rty_size].
      rewrite Nat.mul_1_r, take_take, Nat.min_id. done.
    + cbn. replace (_ <=? _)%nat with false by lia. done.
  - cbn. replace (_ <=? _)%nat with false by lia. done.
Qed.
Lemma read_each_spec e old s :
  read_each e old s =
  if (length old * 2 <=? length (st_bytes s))%nat
  then Ok (decode_elts e RF16 (length old) (st_bytes s))
  else Err (eof_error s).
Proof.
  revert s. induction old as [|z old IH]; intros s; [done|].
  cbn [read_each length]. rewrite read_exact_spec.
  destruct (2 <=? length (st_bytes s))%nat eqn:E1.
  - rewrite bind_ok, IH. cbn [st_bytes st_err]. rewrite drop_length.
    destruct (length old * 2 <=? length (st_bytes s) - 2)%nat eqn:E2.
    + rewrite bind_ok. replace (_ <=? _)%nat with true by lia. done.
    + destruct (S (length old) * 2 <=? length (st_bytes s))%nat eqn:E3; [lia|done].
  - destruct (S (length old) * 2 <=? length (st_bytes s))%nat eqn:E2; [lia|done].
Qed.
Lemma read_data_spec e t old s :
  read_data e t old s =
  if (length old * rty_size t <=? length (st_bytes s))%nat
  then Ok (decode_elts e t (length old) (st_bytes s))
  else Err (eof_error s).
Proof.
  unfold read_data.
  assert ((('(b, _) ← read_exact (length old * rty_size t) s;
         Ok (decode_elts e t (length old) b)) =
  if (length old * rty_size t <=? length (st_bytes s))%nat
  then Ok (decode_elts e t (length old) (st_bytes s))
  else Err (eof_error s))) as H.
  { rewrite read_exact_spec. destruct (_ <=? _)%nat; [|done].
    rewrite bind_ok. f_equal. apply decode_elts_take. by rewrite take_take, Nat.min_id. }
  destruct t; try exact H.
  - rewrite read_pieces_spec, chunks_concat by lia. cbn [rty_size]. by rewrite Nat.mul_1_r.
  - apply read_each_spec.
Qed.

(** ** Types *)
Lemma same_kind_width_iff h d t :
  eq_modulo_endian d (zarr_type h t) = true <-> same_kind_width d t.
Proof.
  unfold same_kind_width. destruct d as [|[]|[]|[]|n], t; cbn; split; intros H; try done;
    by destruct H.
Qed.
Lemma effective_ok m d : effective m d -> effective_type (am_dtype m) = Ok d.
Proof. unfold effective. by intros [->|(? & ? & ->)]. Qed.
Lemma effective_inv m d : effective_type (am_dtype m) = Ok d -> effective m d.
Proof.
  unfold effective. destruct (am_dtype m) as [d'|ext ty [d'|]]; cbn; [|intros [= ->]; right; eauto|done].
  intros [= ->]. by left.
Qed.
Lemma check_type_ok h m d t :
  effective m d -> same_kind_width d t -> check_array_type h m t = Ok tt.
Proof.
  intros He Hk. unfold check_array_type. rewrite (effective_ok _ _ He), bind_ok.
  by rewrite (proj2 (same_kind_width_iff h d t) Hk).
Qed.
Lemma check_type_bad h m d t :
  effective m d -> ~ same_kind_width d t -> check_array_type h m t = Err InvalidInput.
Proof.
  intros He Hk. unfold check_array_type. rewrite (effective_ok _ _ He), bind_ok.
  destruct (eq_modulo_endian _ _) eqn:E; [|done]. by apply same_kind_width_iff in E.
Qed.
Lemma check_type_inv h m t :
  check_array_type h m t = Ok tt -> exists d, effective m d /\ same_kind_width d t.
Proof.
  unfold check_array_type. intros H. apply bind_ok_inv in H as (d & Hd & H).
  exists d. split; [by apply effective_inv|].
  destruct (eq_modulo_endian _ _) eqn:E; [|done]. by apply same_kind_width_iff in E.
Qed.
Lemma meta_endian_ok h m d : effective m d -> meta_endian h m = Ok (dtype_endian h d).
Proof. intros He. unfold meta_endian. by rewrite (effective_ok _ _ He). Qed.
Lemma same_kind_width_size d t : same_kind_width d t -> dtype_size d = Z.of_nat (rty_size t).
Proof.
  intros H. apply (same_kind_width_iff (Host Debug Big)) in H.
  rewrite (eq_modulo_endian_size _ _ H). apply zarr_type_size.
Qed.

(** ** Element counts *)
Lemma product64_val_gen p l a r :
  foldl (fun acc d => a ← acc; mul64 p a d) (Ok a) l = Ok r ->
  p = Debug -> r = a * prodZ l.
Proof.
  intros H ->. revert a H. induction l as [|x l IH]; intros a H.
  - cbn in *. injection H as ->. lia.
  - cbn [foldl] in H. rewrite bind_ok in H. rewrite prodZ_cons.
    unfold mul64, chk64 in H. destruct (_ && _).
    + rewrite (IH _ H). lia.
    + exfalso. clear IH. induction l as [|y l IH]; cbn in H; done.
Qed.
Lemma product64_val p l r :
  product64 p l = Ok r -> 0 <= prodZ l < two64 -> r = prodZ l.
Proof.
  intros H Hb. destruct p.
  - unfold product64 in H. apply product64_val_gen in H; [lia|done].
  - rewrite product64_release, Z.mod_small in H by done. by injection H.
Qed.
Lemma product64_val_mod p l r : product64 p l = Ok r -> r mod two64 = prodZ l mod two64.
Proof.
  intros H. destruct p.
  - unfold product64 in H. apply product64_val_gen in H; [|done]. f_equal. lia.
  - rewrite product64_release in H. injection H as <-. by rewrite Z.mod_mod.
Qed.

Lemma chunk_num_ok p m :
  chunk_shape_ok m -> chunk_num_elements p m = Ok (prodZ (am_chunk_shape m)).
Proof.
  intros [H1 H2]. unfold chunk_num_elements. apply product64_ok; [done|].
  unfold two32, two64 in *. lia.
Qed.
Lemma as_u32_small z : 0 <= z < two32 -> as_u32 z = z.
Proof. intros. unfold as_u32. by apply Z.mod_small. Qed.
Lemma chunk_shape_prod_pos m : chunk_shape_ok m -> 0 < prodZ (am_chunk_shape m).
Proof. intros [H _]. by apply prodZ_pos. Qed.

Lemma resize_vec_length n l : length (resize_vec n l) = n.
Proof. unfold resize_vec. rewrite app_length, take_length, replicate_length. lia. Qed.

(** ** Whole chunks *)

(** Reading by value and into a buffer agree, whatever the buffer held. *)
Lemma decode_into_eq C h t m content pos old :
  decode_chunk_into C h t m content pos old = decode_chunk C h t m content pos.
Proof.
  unfold decode_chunk_into, decode_chunk.
  destruct (check_array_type h m t); try done. rewrite !bind_ok.
  destruct (chunk_num_elements (h_prof h) m); try done. rewrite !bind_ok.
  destruct (decode_with C (am_comp m) content); try done. rewrite !bind_ok.
  destruct (meta_endian h m); try done. rewrite !bind_ok.
  rewrite !read_data_spec, replicate_length, resize_vec_length. done.
Qed.

Lemma encode_chunk_ok C h t m d data pos :
  effective m d -> same_kind_width d t ->
  chunk_shape_ok m -> full_chunk m data ->
  encode_chunk C h t m (Chunk pos data)
  = encode_with C (am_comp m) (write_calls (dtype_endian h d) t data).
Proof.
  intros He Hk Hs Hf. unfold encode_chunk. cbn [ck_data].
  rewrite (check_type_ok h m d t He Hk), bind_ok, chunk_num_ok, bind_ok by done.
  rewrite Hf, as_u32_small.
  2:{ pose proof (chunk_shape_prod_pos m Hs). destruct Hs. lia. }
  rewrite Z.eqb_refl, (meta_endian_ok h m d He). done.
Qed.

Lemma encode_chunk_inv C h t m ck bs :
  encode_chunk C h t m ck = (bs, Ok tt) ->
  exists d n, effective m d /\ same_kind_width d t
    /\ chunk_num_elements (h_prof h) m = Ok n /\ as_u32 (lenZ (ck_data ck)) = n
    /\ encode_with C (am_comp m) (write_calls (dtype_endian h d) t (ck_data ck)) = (bs, Ok tt).
Proof.
  unfold encode_chunk. intros H.
  destruct (check_array_type h m t) as [[]| |] eqn:E1; [|done|done].
  rewrite bind_ok in H. apply check_type_inv in E1 as (d & He & Hk).
  destruct (chunk_num_elements (h_prof h) m) as [n| |] eqn:E2; [|done|done].
  rewrite bind_ok in H. rewrite (meta_endian_ok h m d He) in H.
  destruct (as_u32 (lenZ (ck_data ck)) =? n) eqn:E3; [|done].
  exists d, n. repeat split; try done; try apply Hk. lia.
Qed.

Lemma raw_lossless C : lossless C CRaw.
Proof. intros ws bs [= <-]. by eexists. Qed.

Lemma chunk_roundtrip C h t m data bs pos pos' :
  lossless C (am_comp m) ->
  Forall (elt_ok t) data -> lenZ data < two64 -> full_chunk m data ->
  encode_chunk C h t m (Chunk pos data) = (bs, Ok tt) ->
  decode_chunk C h t m bs pos' = Ok (Chunk pos' data).
Proof.
  intros HC Hd Hlen Hf Henc.
  apply encode_chunk_inv in Henc as (d & n & He & Hk & Hn & Hln & Hw). cbn [ck_data] in *.
  assert (n = lenZ data) as Hnd.
  { rewrite Hf. eapply product64_val; [exact Hn|]. rewrite <- Hf. unfold lenZ in *. lia. }
  assert (as_u32 n = n) as Hu by (rewrite <- Hln at 1; unfold as_u32 in *; rewrite Z.mod_mod; [lia|done]).
  unfold decode_chunk. rewrite (check_type_ok h m d t He Hk), bind_ok, Hn, bind_ok.
  destruct (HC _ _ Hw) as (s & -> & Hs). rewrite bind_ok, (meta_endian_ok h m d He), bind_ok.
  rewrite read_data_spec, replicate_length, Hu, Hnd. unfold lenZ. rewrite Nat2Z.id.
  rewrite Hs, write_calls_concat, concat_elt_bytes_length, Nat.leb_refl, bind_ok.
  rewrite <- (app_nil_r (concat _)), decode_elts_enc by done. done.
Qed.

(** ** Layout of uncompressed chunks *)
Lemma elt_bytes_endian_irrel e e' t z : rty_size t = 1%nat -> elt_bytes e t z = elt_bytes e' t z.
Proof. unfold elt_bytes. intros ->. by destruct e, e'. Qed.

Lemma names_byte_order_bytes h d e t z :
  same_kind_width d t -> names_byte_order d e ->
  elt_bytes (dtype_endian h d) t z = elt_bytes e t z.
Proof.
  intros Hk Hn. destruct d; cbn in Hn; subst; try done.
  - apply elt_bytes_endian_irrel. by destruct Hk, t.
  - by destruct Hk, t.
Qed.

Lemma raw_layout C h t m d e data pos :
  effective m d -> same_kind_width d t -> am_comp m = CRaw ->
  names_byte_order d e -> chunk_shape_ok m -> full_chunk m data ->
  exists groups, encode_chunk C h t m (Chunk pos data) = (concat groups, Ok tt)
    /\ Forall2 (encodes e (rty_size t)) data groups
    /\ lenZ (concat groups) = lenZ data * dtype_size d.
Proof.
  intros He Hk Hraw Hn Hs Hf.
  exists (map (elt_bytes e t) data). split; [|split].
  - rewrite (encode_chunk_ok C h t m d data pos He Hk Hs Hf), Hraw. cbn [encode_with].
    rewrite write_calls_concat. do 2 f_equal. apply map_ext. intros z.
    by apply names_byte_order_bytes.
  - clear. induction data as [|z data IH]; cbn; constructor; [apply elt_bytes_encodes|done].
  - unfold lenZ. rewrite concat_elt_bytes_length, (same_kind_width_size d t Hk). lia.
Qed.

(** ** Decoding uncompressed chunks *)
Lemma decode_raw_eq C h t m d content pos :
  effective m d -> same_kind_width d t -> am_comp m = CRaw -> chunk_shape_ok m ->
  decode_chunk C h t m content pos =
  if lenZ content <? prodZ (am_chunk_shape m) * Z.of_nat (rty_size t)
  then Err UnexpectedEof
  else Ok (Chunk pos (decode_elts (dtype_endian h d) t
                        (Z.to_nat (prodZ (am_chunk_shape m))) content)).
Proof.
  intros He Hk Hraw Hs. unfold decode_chunk.
  rewrite (check_type_ok h m d t He Hk), bind_ok, chunk_num_ok, bind_ok by done.
  rewrite Hraw. cbn [decode_with]. rewrite bind_ok, (meta_endian_ok h m d He), bind_ok.
  pose proof (chunk_shape_prod_pos m Hs). destruct Hs as [_ Hs].
  rewrite as_u32_small by lia.
  rewrite read_data_spec, replicate_length. cbn [st_bytes eof_error st_err].
  unfold lenZ.
  destruct (_ <=? _)%nat eqn:E1, (_ <? _) eqn:E2; try done; exfalso; nia.
Qed.

Lemma decode_raw_short C h t m d content pos :
  effective m d -> same_kind_width d t -> am_comp m = CRaw -> chunk_shape_ok m ->
  lenZ content < prodZ (am_chunk_shape m) * dtype_size d ->
  decode_chunk C h t m content pos = Err UnexpectedEof.
Proof.
  intros He Hk Hraw Hs Hl. rewrite (decode_raw_eq C h t m d) by done.
  rewrite (same_kind_width_size d t Hk) in Hl. replace (_ <? _) with true by lia. done.
Qed.
Lemma decode_raw_long C h t m d content :
  effective m d -> same_kind_width d t -> am_comp m = CRaw -> chunk_shape_ok m ->
  prodZ (am_chunk_shape m) * dtype_size d <= lenZ content ->
  exists data, full_chunk m data /\
    forall content' pos',
      take (Z.to_nat (prodZ (am_chunk_shape m) * dtype_size d)) content'
      = take (Z.to_nat (prodZ (am_chunk_shape m) * dtype_size d)) content ->
      decode_chunk C h t m content' pos' = Ok (Chunk pos' data).
Proof.
  intros He Hk Hraw Hs Hl. rewrite (same_kind_width_size d t Hk) in *.
  pose proof (chunk_shape_prod_pos m Hs).
  eexists (decode_elts (dtype_endian h d) t (Z.to_nat (prodZ (am_chunk_shape m))) content).
  split.
  - unfold full_chunk, lenZ. rewrite decode_elts_length. lia.
  - intros content' pos' Ht. rewrite (decode_raw_eq C h t m d) by done.
    assert (lenZ content' <? prodZ (am_chunk_shape m) * Z.of_nat (rty_size t) = false) as ->.
    { apply (f_equal length) in Ht. rewrite !take_length in Ht. unfold lenZ in *. lia. }
    do 2 f_equal. apply decode_elts_take.
    rewrite Z2Nat.inj_mul, Nat2Z.id in Ht by lia. done.
Qed.

(** ** Rejections *)
Lemma wrong_type_rejected C h t m d content pos old ck :
  effective m d -> ~ same_kind_width d t ->
  decode_chunk C h t m content pos = Err InvalidInput
  /\ decode_chunk_into C h t m content pos old = Err InvalidInput
  /\ encode_chunk C h t m ck = ([], Err InvalidInput).
Proof.
  intros He Hk. rewrite decode_into_eq.
  unfold decode_chunk, encode_chunk. rewrite (check_type_bad h m d t He Hk). done.
Qed.
Lemma product64_not_err p e l : product64 p l <> Err e.
Proof.
  unfold product64. generalize 1 as a. induction l as [|x l IH]; intros a; [done|].
  cbn [foldl]. rewrite bind_ok. unfold mul64, chk64.
  destruct (_ && _); [apply IH|]. destruct p; [|apply IH].
  clear. induction l; cbn; done.
Qed.
Lemma right_type_accepted C h t m d content pos old ck :
  effective m d -> same_kind_width d t -> codec_quiet C (am_comp m) InvalidInput ->
  decode_chunk C h t m content pos <> Err InvalidInput
  /\ decode_chunk_into C h t m content pos old <> Err InvalidInput
  /\ snd (encode_chunk C h t m ck) <> Err InvalidInput.
Proof.
  intros He Hk [Hq1 Hq2]. rewrite decode_into_eq.
  enough (decode_chunk C h t m content pos <> Err InvalidInput
          /\ snd (encode_chunk C h t m ck) <> Err InvalidInput) by tauto. split.
  -     unfold decode_chunk.
    rewrite (check_type_ok h m d t He Hk), !bind_ok, (meta_endian_ok h m d He).
    unfold chunk_num_elements.
    pose proof (product64_not_err (h_prof h) InvalidInput (am_chunk_shape m)) as Hp.
    destruct (product64 (h_prof h) (am_chunk_shape m)) as [n| |]; [|cbn; congruence|done].
    rewrite bind_ok. destruct (Hq2 content) as [Hq3 Hq4].
    destruct (decode_with C (am_comp m) content) as [s|e|]; cbn; [|congruence|done].
    rewrite read_data_spec. destruct (_ <=? _)%nat; [done|].
    specialize (Hq4 s eq_refl). unfold eof_error. destruct (st_err s); cbn; congruence.
  - unfold encode_chunk.
    rewrite (check_type_ok h m d t He Hk), !bind_ok, (meta_endian_ok h m d He).
    unfold chunk_num_elements.
    pose proof (product64_not_err (h_prof h) InvalidInput (am_chunk_shape m)) as Hp.
    destruct (product64 (h_prof h) (am_chunk_shape m)) as [n| |]; [|cbn; congruence|done].
    rewrite bind_ok. destruct (_ =? n); [|done]. apply Hq1.
Qed.
Lemma raw_quiet C e : e <> UnexpectedEof -> codec_quiet C CRaw e.
Proof. intros. split; [done|]. intros b. cbn. split; [done|]. by intros s [= <-]. Qed.

(** Host byte order does not matter. *)
Lemma encode_host_indep C p e e' t m ck :
  encode_chunk C (Host p e) t m ck = encode_chunk C (Host p e') t m ck.
Proof.
  unfold encode_chunk, check_array_type, meta_endian.
  destruct (effective_type (am_dtype m)) as [d| |] eqn:Hd; [|done..]. rewrite !bind_ok.
  destruct (eq_modulo_endian d (zarr_type (Host p e) t)) eqn:E1.
  - apply same_kind_width_iff in E1.
    assert (eq_modulo_endian d (zarr_type (Host p e') t) = true) as -> by by apply same_kind_width_iff.
    rewrite !bind_ok. cbn [h_prof]. destruct (chunk_num_elements p m) as [n| |]; [|done..].
    rewrite !bind_ok. destruct (_ =? n); [|done].
    f_equal. assert (forall z, elt_bytes (dtype_endian (Host p e) d) t z
                          = elt_bytes (dtype_endian (Host p e') d) t z) as Hz.
    { intros z. apply names_byte_order_bytes; [done|]. by destruct d. }
    unfold write_calls. destruct t, (ck_data ck); try done;
      repeat first [ by rewrite !(map_ext _ _ Hz)
                   | apply map_ext; intros ?; by rewrite !(map_ext _ _ Hz)
                   | by apply map_ext ].
  - destruct (eq_modulo_endian d (zarr_type (Host p e') t)) eqn:E2; [|done].
    apply same_kind_width_iff in E2. apply (same_kind_width_iff (Host p e)) in E2. congruence.
Qed.
Lemma elt_val_endian_irrel e e' t l : length l = 1%nat -> elt_val e t l = elt_val e' t l.
Proof. destruct l as [|a [|]]; cbn [length]; try lia. by destruct e, e'. Qed.
Lemma decode_elts_1 e e' t n l : rty_size t = 1%nat -> (n <= length l)%nat ->
  decode_elts e t n l = decode_elts e' t n l.
Proof.
  intros H1. revert l. induction n as [|n IH]; intros l Hl; [done|]. cbn [decode_elts].
  rewrite H1. rewrite (elt_val_endian_irrel e e') by (rewrite take_length; lia).
  f_equal. apply IH. rewrite drop_length. lia.
Qed.
Lemma decode_host_indep C p e e' t m b pos :
  decode_chunk C (Host p e) t m b pos = decode_chunk C (Host p e') t m b pos.
Proof.
  unfold decode_chunk, check_array_type, meta_endian.
  destruct (effective_type (am_dtype m)) as [d| |] eqn:Hd; [|done..]. rewrite !bind_ok.
  destruct (eq_modulo_endian d (zarr_type (Host p e) t)) eqn:E1.
  - apply same_kind_width_iff in E1.
    assert (eq_modulo_endian d (zarr_type (Host p e') t) = true) as -> by by apply same_kind_width_iff.
    rewrite !bind_ok. cbn [h_prof]. destruct (chunk_num_elements p m) as [n| |]; [|done..].
    rewrite !bind_ok. destruct (decode_with C (am_comp m) b) as [s| |]; [|done..].
    rewrite !bind_ok, !read_data_spec, replicate_length.
    destruct (_ <=? length (st_bytes s))%nat eqn:El; [|done]. rewrite !bind_ok.
    do 2 f_equal. destruct (decide (rty_size t = 1%nat)) as [H1|H1].
    + apply decode_elts_1; [done|]. rewrite H1 in El. apply leb_complete in El. lia.
    + f_equal. by destruct E1 as [E1 E2], d, t.
  - destruct (eq_modulo_endian d (zarr_type (Host p e') t)) eqn:E2; [|done].
    apply same_kind_width_iff in E2. apply (same_kind_width_iff (Host p e)) in E2. congruence.
Qed.

Lemma wrong_length_rejected C h t m d data pos :
  effective m d -> same_kind_width d t -> chunk_shape_ok m ->
  lenZ data < two32 -> ~ full_chunk m data ->
  encode_chunk C h t m (Chunk pos data) = ([], Err InvalidData).
Proof.
  intros He Hk Hs Hl Hf. unfold encode_chunk. cbn [ck_data].
  rewrite (check_type_ok h m d t He Hk), bind_ok, chunk_num_ok, bind_ok by done.
  rewrite as_u32_small by (unfold lenZ in *; lia).
  unfold full_chunk in Hf. replace (_ =? _) with false by lia. done.
Qed.

(** A buffer 2^32 elements too long passes the length check. *)
Lemma overlong_accepted C h m d data pos t :
  effective m d -> same_kind_width d t -> chunk_shape_ok m -> am_comp m = CRaw ->
  lenZ data = prodZ (am_chunk_shape m) + two32 ->
  exists bs, encode_chunk C h t m (Chunk pos data) = (bs, Ok tt)
    /\ lenZ bs = lenZ data * dtype_size d.
Proof.
  intros He Hk Hs Hraw Hl. unfold encode_chunk. cbn [ck_data].
  rewrite (check_type_ok h m d t He Hk), bind_ok, chunk_num_ok, bind_ok by done.
  pose proof (chunk_shape_prod_pos m Hs).
  assert (as_u32 (lenZ data) = prodZ (am_chunk_shape m)) as ->.
  { rewrite Hl. unfold as_u32. rewrite <- (Z.mul_1_l two32) at 1.
    rewrite Z.mod_add by done. destruct Hs. apply Z.mod_small. lia. }
  rewrite Z.eqb_refl, (meta_endian_ok h m d He), Hraw. cbn [encode_with].
  eexists. split; [done|].
  rewrite write_calls_concat. unfold lenZ.
  rewrite concat_elt_bytes_length, (same_kind_width_size d t Hk). lia.
Qed.

Lemma chunk_roundtrip_both C h t m data bs pos pos' old :
  lossless C (am_comp m) ->
  Forall (elt_ok t) data -> lenZ data < two64 -> full_chunk m data ->
  encode_chunk C h t m (Chunk pos data) = (bs, Ok tt) ->
  decode_chunk C h t m bs pos' = Ok (Chunk pos' data)
  /\ decode_chunk_into C h t m bs pos' old = Ok (Chunk pos' data).
Proof. intros. rewrite decode_into_eq. split; by eapply chunk_roundtrip. Qed.

Lemma right_length_accepted C h t m d data pos :
  effective m d -> same_kind_width d t -> chunk_shape_ok m -> full_chunk m data ->
  am_comp m = CRaw ->
  snd (encode_chunk C h t m (Chunk pos data)) = Ok tt.
Proof. intros. erewrite encode_chunk_ok by done. by rewrite H3. Qed.

Lemma overlong_witness :
  exists C h t m d data pos,
  effective m d /\ same_kind_width d t /\ chunk_shape_ok m /\ am_comp m = CRaw
  /\ Forall (elt_ok t) data /\ ~ full_chunk m data
  /\ snd (encode_chunk C h t m (Chunk pos data)) = Ok tt.
Proof.
  assert (exists k : nat, Z.of_nat k = 1 + two32) as [k Hk].
  { exists (Z.to_nat (1 + two32)). apply Z2Nat.id. unfold two32. lia. }
  set (C := Codec (fun _ ws => (concat ws, Ok tt)) (fun _ b => Ok (Stream b None))).
  set (m := ArrayMeta [1] (Core DBool) (B "regular") [1] (B "/") RowMajor None [] [] CRaw).
  assert (effective m DBool) as He by by left.
  assert (same_kind_width DBool RBool) as Hw by done.
  assert (chunk_shape_ok m) as Hs by (split; [by repeat constructor|done]).
  assert (lenZ (replicate k 0) = 1 + two32) as Hl by (unfold lenZ; by rewrite replicate_length).
  exists C, (Host Debug Little), RBool, m, DBool, (replicate k 0), [0].
  do 4 (split; [done|]). split; [|split].
  - apply Forall_replicate. by left.
  - unfold full_chunk. rewrite Hl. cbn. unfold two32. lia.
  - destruct (overlong_accepted C (Host Debug Little) m DBool (replicate k 0) [0] RBool)
      as (bs & -> & _); done.
Qed.

Lemma host_independent C p e e' t m :
  (forall ck, encode_chunk C (Host p e) t m ck = encode_chunk C (Host p e') t m ck)
  /\ (forall b pos, decode_chunk C (Host p e) t m b pos = decode_chunk C (Host p e') t m b pos).
Proof. split; intros; [apply encode_host_indep|apply decode_host_indep]. Qed.

Lemma dtype_size_spec d t :
  same_kind_width d t ->
  8 * dtype_size d = rbits t /\ forall e z, lenZ (elt_bytes e t z) = dtype_size d.
Proof.
  intros H. pose proof (same_kind_width_size d t H) as Hs. split.
  - rewrite Hs. by destruct t.
  - intros e z. unfold lenZ. by rewrite elt_bytes_length.
Qed.
