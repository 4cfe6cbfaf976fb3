(** Facts about the pure-Rust LZ4 backend. *)
From Verif Require Import Lz Hier Spec SpecLz BaseFacts ChunkFacts FSFacts HierFacts.
Local Open Scope Z_scope.

Lemma chunks_head {A} n (l : list A) : (0 < n)%nat -> l <> [] ->
  exists r, chunks n l = take n l :: r /\ ((length l <= n)%nat -> r = []) .
Proof.
  intros N L. unfold chunks. destruct l as [|a l]; [done|]. cbn [length chunks_fuel].
  exists (chunks_fuel (length l) n (drop n (a :: l))). split; [done|].
  intros X. rewrite drop_ge by done. by destruct (length l).
Qed.

(** The first slice written. *)
Lemma write_calls_head e t data : data <> [] ->
  exists n r, write_calls e t data = concat (map (elt_bytes e t) (take n data)) :: r
    /\ (per_write t < lenZ data -> lenZ data < two64 -> (n < length data)%nat)
    /\ (lenZ data <= per_write t -> (length data <= n)%nat /\ r = []).
Proof.
  intros N.
  assert (forall l : list Z, l <> [] -> exists r,
    map (fun c => concat (map (elt_bytes e t) c)) (chunks 256 l)
    = concat (map (elt_bytes e t) (take 256 l)) :: r /\ ((length l <= 256)%nat -> r = [])) as G.
  { intros l NL. destruct (chunks_head 256 l) as (r & -> & R); [lia|done|].
    cbn [map]. eexists. split; [reflexivity|]. intros X. by rewrite R. }
  assert (exists r, map (fun c => concat (map (elt_bytes e t) c)) (chunks 256 data)
    = concat (map (elt_bytes e t) (take 256 data)) :: r /\ ((length data <= 256)%nat -> r = [])) as (r & E & R)
    by by apply G.
  unfold lenZ.
  destruct t; try (exists 256%nat, r; split; [exact E|]; cbn [per_write]; split; [lia|]; intros; split; [lia|]; apply R; lia).
  - exists (length data), []. unfold write_calls. destruct data; [done|].
    rewrite take_ge by done. split; [done|]. cbn [per_write]. split; [lia|]. intros; split; [lia|done].
  - unfold write_calls. destruct data as [|a l]; [done|]. exists 1%nat, (map (elt_bytes e RF16) l).
    split; [by cbn; rewrite app_nil_r|]. cbn [per_write length]. split; [lia|].
    intros X. destruct l; [split; [cbn; lia|done]|cbn in X; lia].
Qed.

Lemma nonempty_elts m (data : list Z) : chunk_shape_ok m -> full_chunk m data -> data <> [] /\ lenZ data < two32.
Proof.
  intros S U. pose proof (chunk_shape_prod_pos m S) as P. destruct S as [_ S]. rewrite <- U in *.
  split; [|done]. by intros ->.
Qed.

Lemma lz_decode F C h t m size data bs pos :
  reads_one_frame F -> am_comp m = CLz4 size -> chunk_shape_ok m -> full_chunk m data ->
  encode_chunk (lz_pure_codec F C) h t m (Chunk pos data) = (bs, Ok tt) ->
  exists d n, effective m d /\ same_kind_width d t
    /\ (per_write t < lenZ data -> (n < length data)%nat) /\ (lenZ data <= per_write t -> (length data <= n)%nat)
    /\ forall data', length data' = length data ->
       read_data (dtype_endian h d) t data' (Stream (concat (map (elt_bytes (dtype_endian h d) t) (take n data))) None)
       = (_ ← check_array_type h m t; s ← decode_with (lz_pure_codec F C) (am_comp m) bs;
          read_data (dtype_endian h d) t data' s).
Proof.
  intros RF CM SH FU E. destruct (nonempty_elts m data SH FU) as [NE L32].
  apply encode_chunk_inv in E as (d & k & ED & SK & _ & _ & W). cbn [ck_data] in W.
  destruct (write_calls_head (dtype_endian h d) t data NE) as (n & r & WC & N1 & N2).
  exists d, n. split; [done|]. split; [done|]. split; [intros; apply N1; [done|unfold two32, two64 in *; lia]|].
  split; [intros; by apply N2|]. intros data' _.
  rewrite (check_type_ok h m d t ED SK), bind_ok.
  rewrite CM in W |- *. cbn [encode_with decode_with lz_pure_codec c_enc c_dec] in W |- *. rewrite WC in W.
  cbn [lz_writes] in W. destruct (fl_compress F (size mod two64) _) as [out q] eqn:FC. destruct q as [[]| |]; [|done|done].
  destruct (lz_writes F size r) as [out' r'] eqn:LW. injection W as <- ->.
  by rewrite (RF _ _ _ out' FC).
Qed.

Lemma lz_decode_chunk F C h t m size data bs pos pos' :
  reads_one_frame F -> am_comp m = CLz4 size -> chunk_shape_ok m -> full_chunk m data ->
  encode_chunk (lz_pure_codec F C) h t m (Chunk pos data) = (bs, Ok tt) ->
  (per_write t < lenZ data -> decode_chunk (lz_pure_codec F C) h t m bs pos' = Err UnexpectedEof)
  /\ (lenZ data <= per_write t -> Forall (elt_ok t) data ->
      decode_chunk (lz_pure_codec F C) h t m bs pos' = Ok (Chunk pos' data)).
Proof.
  intros RF CM SH FU E. destruct (nonempty_elts m data SH FU) as [NE L32].
  destruct (lz_decode F C h t m size data bs pos RF CM SH FU E) as (d & n & ED & SK & N1 & N2 & D).
  specialize (D (replicate (length data) 0) (replicate_length _ _)).
  assert (decode_chunk (lz_pure_codec F C) h t m bs pos' =
    (x ← read_data (dtype_endian h d) t (replicate (length data) 0)
      (Stream (concat (map (elt_bytes (dtype_endian h d) t) (take n data))) None); Ok (Chunk pos' x))) as X.
  { rewrite D. unfold decode_chunk. rewrite (check_type_ok h m d t ED SK), !bind_ok, chunk_num_ok, bind_ok by done.
    destruct (decode_with _ _ _); [|done|done]. rewrite !bind_ok, (meta_endian_ok h m d ED), bind_ok.
    replace (Z.to_nat (as_u32 (prodZ (am_chunk_shape m)))) with (length data); [done|].
    rewrite <- FU, as_u32_small; unfold lenZ in *; lia. }
  rewrite X, read_data_spec, replicate_length. cbn [st_bytes]. rewrite concat_elt_bytes_length, take_length.
  assert (0 < rty_size t)%nat by (destruct t; cbn; lia). split.
  - intros G. specialize (N1 G). replace (_ <=? _)%nat with false; [done|]. symmetry. apply Nat.leb_gt.
    rewrite Nat.min_l by lia. nia.
  - intros G F'. specialize (N2 G). rewrite Nat.min_r by lia. rewrite Nat.leb_refl, bind_ok, take_ge by lia.
    rewrite <- (app_nil_r (concat _)), decode_elts_enc by done. done.
Qed.

Lemma lz_small F C h t m size data bs pos pos' :
  reads_one_frame F -> am_comp m = CLz4 size -> chunk_shape_ok m -> full_chunk m data ->
  lenZ data <= per_write t -> Forall (elt_ok t) data ->
  encode_chunk (lz_pure_codec F C) h t m (Chunk pos data) = (bs, Ok tt) ->
  decode_chunk (lz_pure_codec F C) h t m bs pos' = Ok (Chunk pos' data).
Proof. intros RF CM SH FU L F' E. by eapply lz_decode_chunk. Qed.

Lemma lz_large F C h t m size data bs pos pos' :
  reads_one_frame F -> am_comp m = CLz4 size -> chunk_shape_ok m -> full_chunk m data ->
  per_write t < lenZ data ->
  encode_chunk (lz_pure_codec F C) h t m (Chunk pos data) = (bs, Ok tt) ->
  decode_chunk (lz_pure_codec F C) h t m bs pos' = Err UnexpectedEof.
Proof. intros RF CM SH FU L E. by eapply lz_decode_chunk. Qed.

(** Through the store. *)
Lemma lz_store F C h H s t path m size data pos s' :
  reads_one_frame F -> am_comp m = CLz4 size -> chunk_shape_ok m -> full_chunk m data ->
  in_bounds (h_prof h) m pos = Ok true ->
  write_chunk (lz_pure_codec F C) h H s t path m (Chunk pos data) = (s', Ok tt) ->
  (per_write t < lenZ data -> read_chunk (lz_pure_codec F C) h H s' t path m pos = Err UnexpectedEof)
  /\ (lenZ data <= per_write t -> Forall (elt_ok t) data ->
      read_chunk (lz_pure_codec F C) h H s' t path m pos = Ok (Some (Chunk pos data))).
Proof.
  intros RF CM SH FU I E. unfold write_chunk in E. cbn [ck_pos] in E.
  pose proof (st_set_get _ _ _ _ _ _ E eq_refl) as G.
  assert (X : exists bs, encode_chunk (lz_pure_codec F C) h t m (Chunk pos data) = (bs, Ok tt)).
  { destruct (encode_chunk (lz_pure_codec F C) h t m (Chunk pos data)) as [bs r] eqn:Q.
    revert E. unfold st_set. destruct (key_comps _ _); [|done|done].
    destruct (match _ with [] => _ | _ => _ end) as [s1 [[]| |]]; [|done|done].
    destruct (open_truncate s1 _) as [s2 [p| |]]; [|done|done].
    cbn [snd]. intros [= _ ->]. by eexists. }
  destruct X as [bs X]. rewrite X in G. cbn [fst] in G.
  destruct (lz_decode_chunk F C h t m size data bs pos pos RF CM SH FU X) as [D1 D2].
  unfold read_chunk. rewrite I. cbn [mbind res_bind assert_]. rewrite G. cbn [mbind res_bind]. split.
  - intros L. by rewrite D1.
  - intros L F'. by rewrite D2.
Qed.
Lemma lz_store_large F C h H s t path m size data pos s' :
  reads_one_frame F -> am_comp m = CLz4 size -> chunk_shape_ok m -> full_chunk m data ->
  in_bounds (h_prof h) m pos = Ok true -> per_write t < lenZ data ->
  write_chunk (lz_pure_codec F C) h H s t path m (Chunk pos data) = (s', Ok tt) ->
  read_chunk (lz_pure_codec F C) h H s' t path m pos = Err UnexpectedEof.
Proof. intros. by eapply lz_store. Qed.
Lemma lz_store_small F C h H s t path m size data pos s' :
  reads_one_frame F -> am_comp m = CLz4 size -> chunk_shape_ok m -> full_chunk m data ->
  in_bounds (h_prof h) m pos = Ok true -> lenZ data <= per_write t -> Forall (elt_ok t) data ->
  write_chunk (lz_pure_codec F C) h H s t path m (Chunk pos data) = (s', Ok tt) ->
  read_chunk (lz_pure_codec F C) h H s' t path m pos = Ok (Some (Chunk pos data)).
Proof. intros. by eapply lz_store. Qed.

(** Chunks without elements. *)
Lemma lz_empty F C h t m d size pos pos' e :
  fl_open F [] = Err e -> am_comp m = CLz4 size -> effective m d -> same_kind_width d t ->
  chunk_num_elements (h_prof h) m = Ok 0 ->
  encode_chunk (lz_pure_codec F C) h t m (Chunk pos []) = ([], Ok tt)
  /\ decode_chunk (lz_pure_codec F C) h t m [] pos' = Panic.
Proof.
  intros O CM ED SK N. split.
  - unfold encode_chunk. rewrite (check_type_ok h m d t ED SK), bind_ok, N, bind_ok. cbn [ck_data].
    rewrite Z.eqb_refl, (meta_endian_ok h m d ED), CM. cbn [encode_with lz_pure_codec c_enc]. by destruct t.
  - unfold decode_chunk. rewrite (check_type_ok h m d t ED SK), bind_ok, N, bind_ok, CM.
    cbn [decode_with lz_pure_codec c_dec]. by rewrite O.
Qed.

(** A frame format for the examples: every byte is preceded by a marker. *)
Definition toy_frame (b : bytes) : bytes := flat_map (fun c => [byte_of_Z 1; c]) b ++ [byte_of_Z 0].
Fixpoint toy_open (l : bytes) : option bytes :=
  match l with
  | [] => None
  | x :: l' => if Z_of_byte x =? 0 then Some []
               else match l' with [] => None | c :: l'' => (fun r => c :: r) <$> toy_open l'' end
  end.
Definition toy_lib : frame_lib :=
  FrameLib (fun _ b => (toy_frame b, Ok tt))
           (fun l => match toy_open l with Some b => Ok (Stream b None) | None => Err InvalidData end).
Lemma toy_one_frame : reads_one_frame toy_lib.
Proof.
  intros size b out rest [= <-]. cbn [fl_open toy_lib].
  assert (toy_open (toy_frame b ++ rest) = Some b) as ->; [|done].
  induction b as [|c b IH]; [done|]. cbn. change (toy_open (toy_frame b ++ rest)) with (toy_open (toy_frame b ++ rest)) in IH.
  unfold toy_frame in IH. by rewrite IH.
Qed.
