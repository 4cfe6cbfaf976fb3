(** Facts about n-dimensional arrays and region access (Nd.v). *)
From Verif Require Import Nd Spec BaseFacts BBoxFacts CoordIterFacts ChunkFacts.
From Coq Require Import ZifyBool ZifyNat ZifyN Sorting.Sorted.
Local Open Scope Z_scope.

(** ** Indices *)

Definition inb (shape i : list Z) : Prop := Forall2 (fun s x => 0 <= x < s) shape i.

Lemma inb_index shape i : index_of shape i <-> inb shape i.
Proof.
  unfold index_of, inb. revert i. induction shape as [|s shape IH]; intros i.
  - cbn. split; [intros H%in_box_nil_inv; subst; constructor|].
    inversion 1; subst. apply in_box_nil.
  - cbn [length replicate]. split.
    + intros (y & ys & -> & Hy & H)%in_box_cons_inv. constructor; [lia|]. by apply IH.
    + inversion 1 as [|? x ? i' Hx Hi]; subst. apply in_box_cons. split; [lia|]. by apply IH.
Qed.
Lemma inb_ranges shape i : inb shape i <-> in_ranges (map (pair 0) shape) i.
Proof.
  unfold inb, in_ranges. split.
  - induction 1; cbn; constructor; done.
  - revert i. induction shape as [|s shape IH]; intros i; cbn; inversion 1; subst; constructor; [done|].
    by apply IH.
Qed.
Lemma inb_length shape i : inb shape i -> length i = length shape.
Proof. intros H. symmetry. by eapply Forall2_length. Qed.
Lemma inb_rev shape i : inb shape i -> inb (rev shape) (rev i).
Proof.
  unfold inb. induction 1; [constructor|]. cbn [rev]. apply Forall2_app; [done|].
  constructor; [done|constructor].
Qed.
Lemma inb_rev_iff shape i : inb (rev shape) (rev i) <-> inb shape i.
Proof.
  split; [|apply inb_rev]. intros H%inb_rev. by rewrite !rev_involutive in H.
Qed.
Lemma inb_pos shape i : inb shape i -> Forall (fun s => 0 < s) shape.
Proof. induction 1; constructor; [lia|done]. Qed.

(** ** Ranks *)

Lemma c_rank_range shape i : inb shape i -> 0 <= c_rank shape i < prodZ shape.
Proof.
  induction 1 as [|s x shape i Hx Hi IH]; [cbn; lia|].
  cbn [c_rank]. rewrite prodZ_cons. nia.
Qed.
Lemma prodZ_rev l : prodZ (rev l) = prodZ l.
Proof. induction l as [|x l IH]; [done|]. cbn [rev]. rewrite prodZ_app, IH, !prodZ_cons. cbn. lia. Qed.
Lemma layout_rank_range o shape i : inb shape i -> 0 <= layout_rank o shape i < prodZ shape.
Proof.
  intros H. destruct o; [by apply c_rank_range|]. cbn. rewrite <- (prodZ_rev shape).
  by apply c_rank_range, inb_rev.
Qed.
Lemma c_rank_app a b i j : length i = length a ->
  c_rank (a ++ b) (i ++ j) = c_rank a i * prodZ b + c_rank b j.
Proof.
  revert i. induction a as [|s a IH]; intros [|x i]; cbn [length]; try done.
  intros [= Hl]. cbn [app c_rank]. rewrite IH by done. rewrite prodZ_app. lia.
Qed.

Lemma dot_c_strides shape i : length i = length shape ->
  dot_product i (c_strides shape) = c_rank shape i.
Proof.
  revert i. induction shape as [|s shape IH]; intros [|x i]; cbn [length]; try done.
  intros [= Hl]. cbn [c_strides dot_product c_rank]. by rewrite IH.
Qed.
Lemma dot_f_strides k shape i : length i = length shape ->
  dot_product i (f_strides k shape) = k * c_rank (rev shape) (rev i).
Proof.
  revert k i. induction shape as [|s shape IH]; intros k [|x i]; cbn [length]; try done.
  - intros _. cbn. lia.
  - intros [= Hl]. cbn [f_strides dot_product rev]. rewrite IH by done.
    rewrite c_rank_app by (by rewrite !rev_length). cbn. lia.
Qed.
Lemma dot_strides o shape i : length i = length shape ->
  dot_product i (strides o shape) = layout_rank o shape i.
Proof.
  intros Hl. destruct o; cbn; [by apply dot_c_strides|]. rewrite dot_f_strides by done. lia.
Qed.

(** The index of rank k is the k-th in lexicographic order. *)
Lemma flat_map_const_lookup {A B} (f : A -> list B) l n k j x y :
  (forall a, length (f a) = n) -> l !! k = Some x -> f x !! j = Some y ->
  flat_map f l !! (k * n + j)%nat = Some y.
Proof.
  intros Hn. revert k. induction l as [|a l IH]; intros k Hk Hj; [done|].
  cbn [flat_map]. destruct k as [|k]; cbn in Hk.
  - injection Hk as ->. cbn. by apply lookup_app_l_Some.
  - rewrite lookup_app_r by (rewrite Hn; lia). rewrite Hn.
    replace (S k * n + j - n)%nat with (k * n + j)%nat by lia. by apply IH.
Qed.
Lemma box_len shape : Forall (fun s => 0 <= s) shape ->
  length (box_coords (map (pair 0) shape)) = Z.to_nat (prodZ shape).
Proof.
  intros H. pose proof (box_coords_length (map (pair 0) shape)) as Hl. unfold lenZ in Hl.
  rewrite map_map in Hl.
  assert (map (fun x => let '(f, c) := (0, x) in sat_sub c f) shape = shape) as E.
  { clear Hl. induction H as [|s shape Hs _ IH]; [done|]. cbn. rewrite IH. f_equal. unfold sat_sub. lia. }
  rewrite E in Hl. lia.
Qed.
Lemma zrange_lookup c x : 0 <= x < c -> zrange 0 c !! Z.to_nat x = Some x.
Proof.
  intros H. unfold zrange. rewrite list_lookup_fmap.
  rewrite lookup_seq_lt by lia. cbn. f_equal. lia.
Qed.
Lemma box_coords_rank shape i : inb shape i ->
  box_coords (map (pair 0) shape) !! Z.to_nat (c_rank shape i) = Some i.
Proof.
  induction 1 as [|s x shape i Hx Hi IH]; [done|].
  cbn [map box_coords c_rank].
  pose proof (c_rank_range shape i Hi). assert (Hp := inb_pos shape i Hi).
  assert (0 <= prodZ shape) by lia.
  rewrite Z2Nat.inj_add, Z2Nat.inj_mul by nia.
  eapply (flat_map_const_lookup _ _ (Z.to_nat (prodZ shape)) _ _ x).
  - intros a. rewrite map_length. apply box_len. eapply list.Forall_impl; [done|]. cbn. lia.
  - by apply zrange_lookup.
  - rewrite list_lookup_fmap, IH. done.
Qed.

(** ** Vectors and arrays *)

Lemma of_vec_at o shape data i : inb shape i -> prodZ shape <= lenZ data ->
  data !! Z.to_nat (layout_rank o shape i) = Some (nd_at (of_vec o shape data) i).
Proof.
  intros Hi Hl. cbn [of_vec nd_at]. rewrite dot_strides by by apply inb_length.
  pose proof (layout_rank_range o shape i Hi). unfold lenZ in Hl.
  rewrite nth_lookup.
  destruct (data !! Z.to_nat (layout_rank o shape i)) as [v|] eqn:E; [done|].
  apply lookup_ge_None in E. lia.
Qed.
Lemma nd_iter_at a i : inb (nd_shape a) i ->
  nd_iter a !! Z.to_nat (c_rank (nd_shape a) i) = Some (nd_at a i).
Proof.
  intros Hi. unfold nd_iter. rewrite list_lookup_fmap, box_coords_rank by done. done.
Qed.
Lemma flatten_at o a i : inb (nd_shape a) i ->
  flatten o a !! Z.to_nat (layout_rank o (nd_shape a) i) = Some (nd_at a i).
Proof.
  intros Hi. destruct o; cbn [flatten layout_rank]; [by apply nd_iter_at|].
  pose proof (nd_iter_at (nd_t a) (rev i)) as H. cbn [nd_t nd_shape nd_at] in H.
  rewrite rev_involutive in H. apply H. by apply inb_rev.
Qed.
Lemma flatten_length o a : Forall (fun s => 0 <= s) (nd_shape a) ->
  length (flatten o a) = Z.to_nat (prodZ (nd_shape a)).
Proof.
  intros H. destruct o; cbn [flatten]; unfold nd_iter; rewrite map_length.
  - by apply box_len.
  - cbn [nd_t nd_shape]. rewrite box_len; [by rewrite prodZ_rev|].
    by apply Forall_rev.
Qed.
Lemma flatten_elem o a v : Forall (fun s => 0 <= s) (nd_shape a) -> v ∈ flatten o a ->
  exists i, inb (nd_shape a) i /\ v = nd_at a i.
Proof.
  intros _. destruct o; cbn [flatten]; unfold nd_iter; intros (i & -> & Hi)%elem_of_list_fmap;
    apply elem_of_box_coords, inb_ranges in Hi.
  - by exists i.
  - exists (rev i). cbn [nd_t nd_shape nd_at] in *. split; [|done].
    apply inb_rev in Hi. by rewrite rev_involutive in Hi.
Qed.

(** Indices in the order of the layout. *)
Definition layout_indices (o : order) (shape : list Z) : list (list Z) :=
  match o with
  | RowMajor => box_coords (map (pair 0) shape)
  | ColumnMajor => map (@rev Z) (box_coords (map (pair 0) (rev shape)))
  end.
Lemma flatten_indices o a : flatten o a = map (nd_at a) (layout_indices o (nd_shape a)).
Proof. destruct o; [done|]. cbn. unfold nd_iter. by rewrite map_map. Qed.
Lemma layout_indices_elem o shape i : i ∈ layout_indices o shape <-> index_of shape i.
Proof.
  rewrite inb_index. destruct o; cbn.
  - by rewrite elem_of_box_coords, inb_ranges.
  - rewrite elem_of_list_fmap. split.
    + intros (j & -> & Hj). apply elem_of_box_coords, inb_ranges in Hj.
      apply inb_rev in Hj. by rewrite rev_involutive in Hj.
    + intros Hi. exists (rev i). rewrite rev_involutive. split; [done|].
      apply elem_of_box_coords, inb_ranges. by apply inb_rev.
Qed.
Lemma sorted_map {A B} (R : A -> A -> Prop) (Q : B -> B -> Prop) (f : A -> B) l :
  (forall x y, R x y -> Q (f x) (f y)) -> StronglySorted R l -> StronglySorted Q (map f l).
Proof.
  intros H. induction 1 as [|x l _ IH Hx]; cbn; constructor; [done|].
  apply Forall_map. eapply list.Forall_impl; [done|]. cbn. auto.
Qed.
Lemma layout_indices_sorted o shape : StronglySorted (layout_lt o) (layout_indices o shape).
Proof.
  destruct o; cbn [layout_lt layout_indices]; [apply box_coords_sorted|].
  eapply sorted_map; [|apply box_coords_sorted]. intros x y. cbn.
  by rewrite !rev_involutive.
Qed.
Lemma layout_indices_lookup o shape i : inb shape i ->
  layout_indices o shape !! Z.to_nat (layout_rank o shape i) = Some i.
Proof.
  intros Hi. destruct o; cbn; [by apply box_coords_rank|].
  rewrite list_lookup_fmap, box_coords_rank by by apply inb_rev. cbn. by rewrite rev_involutive.
Qed.
Lemma layout_indices_length o shape : Forall (fun s => 0 <= s) shape ->
  length (layout_indices o shape) = Z.to_nat (prodZ shape).
Proof.
  intros H. destruct o; cbn; [by apply box_len|]. rewrite map_length, box_len by by apply Forall_rev.
  by rewrite prodZ_rev.
Qed.
(** The k-th index in layout order has rank k. *)
Lemma layout_indices_rank o shape k i : Forall (fun s => 0 <= s) shape ->
  layout_indices o shape !! k = Some i -> inb shape i /\ Z.to_nat (layout_rank o shape i) = k.
Proof.
  intros Hs Hk. assert (inb shape i) as Hi.
  { apply inb_index, (layout_indices_elem o), elem_of_list_lookup. by exists k. }
  split; [done|]. pose proof (layout_indices_lookup o shape i Hi) as Hr.
  assert (NoDup (layout_indices o shape)) as Hn.
  { destruct o; cbn; [apply sorted_NoDup, box_coords_sorted|].
    apply NoDup_fmap_2; [|apply sorted_NoDup, box_coords_sorted].
    intros x y E. by rewrite <- (rev_involutive x), E, rev_involutive. }
  by eapply NoDup_lookup.
Qed.
Lemma flatten_of_vec o shape data : Forall (fun s => 0 <= s) shape ->
  lenZ data = prodZ shape -> flatten o (of_vec o shape data) = data.
Proof.
  intros Hs Hl. unfold lenZ in Hl. apply list_eq. intros k.
  destruct (decide (k < length data)%nat) as [Hk|Hk].
  - rewrite flatten_indices. cbn [of_vec nd_shape]. rewrite list_lookup_fmap.
    destruct (layout_indices o shape !! k) as [i|] eqn:E.
    + apply layout_indices_rank in E as [Hi <-]; [|done]. cbn [fmap option_fmap option_map].
      symmetry. apply (of_vec_at o shape data i Hi). unfold lenZ. lia.
    + apply lookup_ge_None in E. rewrite layout_indices_length in E by done. lia.
  - rewrite !lookup_ge_None_2; [done|lia|]. rewrite flatten_length by done. cbn [of_vec nd_shape]. lia.
Qed.

(** ** Parallel lists as maps over one list *)

Lemma zip_with_map {A X Y W} (h : X -> Y -> W) (f : A -> X) (g : A -> Y) l :
  zip_with h (map f l) (map g l) = map (fun a => h (f a) (g a)) l.
Proof. induction l as [|a l IH]; [done|]. cbn. by rewrite IH. Qed.
Lemma mapM_res_map {A X Y} (f : X -> res Y) (g : A -> X) (k : A -> Y) l :
  Forall (fun a => f (g a) = Ok (k a)) l -> mapM_res f (map g l) = Ok (map k l).
Proof. induction 1 as [|a l Ha _ IH]; [done|]. cbn. rewrite Ha. cbn. rewrite IH. done. Qed.
Lemma zip_dims_map {A} f (s o os oo : A -> Z) (g : A -> Z * Z) l :
  Forall (fun a => f (s a) (o a) (os a) (oo a) = Ok (g a)) l ->
  zip_dims f (map s l) (map o l) (map os l) (map oo l)
  = Ok (map (fun a => fst (g a)) l, map (fun a => snd (g a)) l).
Proof.
  induction 1 as [|a l Ha _ IH]; [done|]. cbn [map zip_dims]. rewrite Ha, bind_ok.
  destruct (g a) as [u v]. rewrite IH, bind_ok. done.
Qed.
Lemma forallb_map_iff {A X} (f : X -> bool) (g : A -> X) l :
  forallb f (map g l) = true <-> Forall (fun a => f (g a) = true) l.
Proof. rewrite forallb_Forall. by rewrite Forall_map. Qed.
Lemma Forall2_map_iff {A X Y} (R : X -> Y -> Prop) (f : A -> X) (g : A -> Y) l :
  Forall2 R (map f l) (map g l) <-> Forall (fun a => R (f a) (g a)) l.
Proof.
  split.
  - induction l as [|a l IH]; cbn; inversion 1; subst; constructor; [done|]. by apply IH.
  - induction 1; cbn; constructor; done.
Qed.
Lemma map_eq_iff {A X} (f g : A -> X) l : map f l = map g l <-> Forall (fun a => f a = g a) l.
Proof.
  split.
  - induction l as [|a l IH]; cbn; [constructor|]. intros [= H1 H2]. constructor; [done|]. by apply IH.
  - induction 1; cbn; [done|]. by f_equal.
Qed.
Lemma split_zip {A X} (l : list A) (i : list X) : length i = length l ->
  exists z, l = map fst z /\ i = map snd z.
Proof.
  revert i. induction l as [|a l IH]; intros [|x i]; cbn [length]; try done.
  - intros _. by exists [].
  - intros [= H]. destruct (IH i H) as (z & -> & ->). by exists ((a, x) :: z).
Qed.

(** ** Slices *)

Lemma slice_axes_map {A} p (n a l : A -> Z) (D : list A) :
  Forall (fun x => 0 <= a x /\ 0 <= l x /\ a x + l x <= n x /\ n x < 2 ^ 63) D ->
  slice_axes p (map n D) (BBox (map a D) (map l D)) = Ok (map (fun x => (a x, l x)) D).
Proof.
  intros H. unfold slice_axes, to_slice, bb_end. cbn [bb_off bb_shape].
  rewrite zip_with_map.
  rewrite (mapM_res_map _ _ (fun x => a x + l x)).
  2:{ eapply list.Forall_impl; [done|]. cbn. intros x Hx. apply add64_ok. unfold is_u64, two64. lia. }
  rewrite !bind_ok, zip_with_map, !map_length, bool_decide_eq_true_2 by done.
  cbn [assert_]. rewrite bind_ok, zip_with_map. apply mapM_res_map.
  eapply list.Forall_impl; [done|]. intros x (H1 & H2 & H3 & H4). cbn [slice_dim].
  unfold as_isize, abs_index.
  replace (a x <? 2 ^ 63) with true by lia. replace (a x + l x <? 2 ^ 63) with true by lia.
  replace (a x <? 0) with false by lia. rewrite bind_ok.
  replace (a x + l x <? 0) with false by lia. rewrite bind_ok. cbv zeta.
  rewrite Z.max_r by lia.
  replace ((a x <=? n x) && (a x + l x <=? n x)) with true by lia. cbn [assert_]. rewrite bind_ok.
  f_equal. f_equal. lia.
Qed.
Lemma on_axes_map {A} (a l i : A -> Z) (D : list A) :
  on_axes (map (fun x => (a x, l x)) D) (map i D) = true <->
  Forall (fun x => a x <= i x < a x + l x) D.
Proof.
  unfold on_axes. rewrite zip_with_map, forallb_map_iff.
  split; (intros H; eapply list.Forall_impl; [done|]; cbn; intros x; lia).
Qed.

(** ** Stored chunks *)

Lemma elt_val_ok e t l : length l = rty_size t -> elt_ok t (elt_val e t l).
Proof.
  intros Hl. unfold elt_val.
  assert (forall l', length l' = rty_size t -> 0 <= le_val l' < 2 ^ (8 * Z.of_nat (rty_size t))) as Hr.
  { intros l' Hl'. rewrite pow256, <- Hl'. apply le_val_range. }
  specialize (Hr (match e with Little => l | Big => rev l end)).
  assert (length (match e with Little => l | Big => rev l end) = rty_size t) as Hl2.
  { destruct e; rewrite ?rev_length; done. }
  specialize (Hr Hl2). revert Hr. generalize (le_val (match e with Little => l | Big => rev l end)).
  intros z Hz. unfold elt_ok. destruct t; cbn [rty_signed rty_size] in *; cbv zeta;
    try (destruct (z =? 0); lia); try exact Hz;
    unfold to_signed; cbn in Hz |- *; (destruct (_ <? _) eqn:E; lia).
Qed.
Lemma decode_elts_ok e t n l : (n * rty_size t <= length l)%nat ->
  Forall (elt_ok t) (decode_elts e t n l).
Proof.
  revert l. induction n as [|n IH]; intros l Hl; cbn [decode_elts]; constructor.
  - apply elt_val_ok. rewrite take_length. lia.
  - apply IH. rewrite drop_length. lia.
Qed.
Lemma decode_chunk_inv C h t m content pos ck :
  chunk_shape_ok m -> decode_chunk C h t m content pos = Ok ck ->
  ck_pos ck = pos /\ full_chunk m (ck_data ck) /\ Forall (elt_ok t) (ck_data ck).
Proof.
  intros Hs. unfold decode_chunk. rewrite chunk_num_ok by done.
  pose proof (chunk_shape_prod_pos m Hs). destruct Hs as [_ Hs].
  intros E. apply bind_ok_inv in E as (? & _ & E). rewrite bind_ok in E.
  rewrite as_u32_small in E by lia.
  apply bind_ok_inv in E as (st & _ & E). apply bind_ok_inv in E as (e & _ & E).
  apply bind_ok_inv in E as (d & Hd & [= <-]). cbn [ck_pos ck_data].
  rewrite read_data_spec, replicate_length in Hd.
  destruct (_ <=? _)%nat eqn:El; [|done]. injection Hd as <-.
  split; [done|]. split; [|apply decode_elts_ok; lia].
  unfold full_chunk, lenZ. rewrite decode_elts_length. lia.
Qed.
Lemma read_chunk_inv C h H s t path m pos ck :
  chunk_shape_ok m -> read_chunk C h H s t path m pos = Ok (Some ck) ->
  ck_pos ck = pos /\ full_chunk m (ck_data ck) /\ Forall (elt_ok t) (ck_data ck).
Proof.
  intros Hs E. unfold read_chunk in E.
  apply bind_ok_inv in E as (b & _ & E). apply bind_ok_inv in E as (? & _ & E).
  apply bind_ok_inv in E as ([content|] & _ & E); [|done].
  apply bind_ok_inv in E as (c & Hc & [= <-]). by eapply decode_chunk_inv.
Qed.
Lemma read_into_eq C h H s t path m pos old :
  read_chunk_into C h H s t path m pos old = read_chunk C h H s t path m pos.
Proof.
  unfold read_chunk_into, read_chunk.
  destruct (in_bounds (h_prof h) m pos) as [[]| |]; try done. rewrite !bind_ok. cbn [assert_].
  rewrite !bind_ok. destruct (st_get _ _ _) as [[content|]| |]; try done. rewrite !bind_ok.
  by rewrite decode_into_eq.
Qed.

(** ** One chunk of a region *)

(** A dimension of a region operation: chunk extent, box offset and extent,
    chunk coordinate. *)
Record dim := Dim { d_s : Z; d_o : Z; d_e : Z; d_c : Z }.
Definition dim_ok (x : dim) : Prop :=
  0 < d_s x < 2 ^ 63 /\ 0 <= d_o x /\ 0 <= d_e x < 2 ^ 63 /\ d_o x + d_e x < two64
  /\ 0 <= d_c x /\ (d_c x + 1) * d_s x < two64
  /\ d_c x * d_s x <= d_o x + d_e x /\ d_o x < (d_c x + 1) * d_s x.
Definition d_lo (x : dim) : Z := Z.max (d_o x) (d_c x * d_s x).
Definition d_len (x : dim) : Z :=
  Z.max 0 (Z.min (d_o x + d_e x) ((d_c x + 1) * d_s x) - d_lo x).

Section region.
Context (p : profile) (m : array_meta) (D : list dim).
Hypothesis OK : Forall dim_ok D.
Hypothesis CS : am_chunk_shape m = map d_s D.
Let bb := BBox (map d_o D) (map d_e D).
Let coord := map d_c D.
Let cb := BBox (map (fun x => d_c x * d_s x) D) (map d_s D).
Let rb := BBox (map d_lo D) (map d_len D).

Lemma chunk_bounds_dim : chunk_bounds p m coord = Ok cb.
Proof.
  unfold chunk_bounds, coord. rewrite CS, zip_with_map.
  rewrite (mapM_res_map _ _ (fun x => d_c x * d_s x)); [done|].
  eapply list.Forall_impl; [done|]. intros x Hx. cbn. apply mul64_ok.
  unfold dim_ok, is_u64 in *. nia.
Qed.
Lemma intersect_dim_eq : intersect p bb cb = Ok rb.
Proof.
  unfold intersect, bb, cb. cbn [bb_off bb_shape].
  rewrite bool_decide_eq_true_2 by by rewrite !map_length. cbn [assert_]. rewrite bind_ok.
  rewrite (zip_dims_map _ d_e d_o d_s (fun x => d_c x * d_s x) (fun x => (d_lo x, d_len x))); [done|].
  eapply list.Forall_impl; [done|]. intros x (H1 & H2 & H3 & H4 & H5 & H6 & _).
  unfold intersect_dim. cbv zeta. u64.
  unfold d_len, d_lo, sat_sub. do 2 f_equal; lia.
Qed.
Lemma intersect_dim_eq' : intersect p cb bb = Ok rb.
Proof.
  unfold intersect, bb, cb. cbn [bb_off bb_shape].
  rewrite bool_decide_eq_true_2 by by rewrite !map_length. cbn [assert_]. rewrite bind_ok.
  rewrite (zip_dims_map _ d_s (fun x => d_c x * d_s x) d_e d_o (fun x => (d_lo x, d_len x))); [done|].
  eapply list.Forall_impl; [done|]. intros x (H1 & H2 & H3 & H4 & H5 & H6 & _).
  unfold intersect_dim. cbv zeta. u64.
  unfold d_len, d_lo, sat_sub. do 2 f_equal; lia.
Qed.
Lemma sub_off : bb_sub rb (bb_off bb) = Ok (BBox (map (fun x => d_lo x - d_o x) D) (map d_len D)).
Proof.
  unfold bb_sub, rb, bb. cbn [bb_off bb_shape]. rewrite zip_with_map.
  rewrite (mapM_res_map _ _ (fun x => d_lo x - d_o x)); [done|].
  eapply list.Forall_impl; [done|]. intros x Hx. unfold d_lo.
  replace (_ <=? _) with true by lia. done.
Qed.
Lemma sub_chunk : bb_sub rb (bb_off cb)
  = Ok (BBox (map (fun x => d_lo x - d_c x * d_s x) D) (map d_len D)).
Proof.
  unfold bb_sub, rb, cb. cbn [bb_off bb_shape]. rewrite zip_with_map.
  rewrite (mapM_res_map _ _ (fun x => d_lo x - d_c x * d_s x)); [done|].
  eapply list.Forall_impl; [done|]. intros x Hx. unfold d_lo.
  replace (_ <=? _) with true by lia. done.
Qed.
Lemma axes_off : slice_axes p (map d_e D) (BBox (map (fun x => d_lo x - d_o x) D) (map d_len D))
  = Ok (map (fun x => (d_lo x - d_o x, d_len x)) D).
Proof.
  apply slice_axes_map. eapply list.Forall_impl; [done|].
  unfold dim_ok, d_len, d_lo. intros x Hx. nia.
Qed.
Lemma axes_chunk :
  slice_axes p (map d_s D) (BBox (map (fun x => d_lo x - d_c x * d_s x) D) (map d_len D))
  = Ok (map (fun x => (d_lo x - d_c x * d_s x, d_len x)) D).
Proof.
  apply slice_axes_map. eapply list.Forall_impl; [done|].
  unfold dim_ok, d_len, d_lo. intros x Hx. nia.
Qed.
End region.

(** In-chunk indices of the voxels of a box. *)
Lemma div_eq_iff x s c : 0 < s -> x / s = c <-> c * s <= x < (c + 1) * s.
Proof.
  intros Hs. split.
  - intros <-. pose proof (Z.mod_pos_bound x s Hs). pose proof (Z_div_mod_eq_full x s). nia.
  - intros H. symmetry. apply (Z.div_unique_pos _ _ _ (x - c * s)); lia.
Qed.
Lemma mod_eq x s c : 0 < s -> c * s <= x < (c + 1) * s -> x mod s = x - c * s.
Proof. intros Hs H. symmetry. apply (Z.mod_unique_pos _ _ c); lia. Qed.

(** The element of a chunk at the in-chunk index of voxel [x]. *)
Definition cell (m : array_meta) (ck : chunk) (x : list Z) : Z :=
  nd_at (of_vec (am_order m) (am_chunk_shape m) (ck_data ck))
        (zip_with Z.modulo x (am_chunk_shape m)).

Lemma in_chunk_box (D : list dim) (I : list Z) :
  Forall dim_ok D -> inb (map d_e D) I ->
  exists Z', D = map fst Z' /\ I = map snd Z'
    /\ Forall (fun z => dim_ok (fst z) /\ 0 <= snd z < d_e (fst z)) Z'.
Proof.
  intros OK Hi. destruct (split_zip D I) as (z & -> & ->).
  { apply inb_length in Hi. by rewrite map_length in Hi. }
  exists z. split; [done|]. split; [done|].
  unfold inb in Hi. rewrite map_map in Hi. apply Forall2_map_iff in Hi.
  rewrite Forall_map in OK. apply list.Forall_and. split; [exact OK|exact Hi].
Qed.
Lemma on_axes_chunk (z : list (dim * Z)) :
  Forall (fun z => dim_ok (fst z) /\ 0 <= snd z < d_e (fst z)) z ->
  on_axes (map (fun x => (d_lo x - d_o x, d_len x)) (map fst z)) (map snd z) = true
  <-> zip_with Z.div (zip_with Z.add (map d_o (map fst z)) (map snd z)) (map d_s (map fst z))
      = map d_c (map fst z).
Proof.
  intros H. rewrite !map_map, !zip_with_map, map_eq_iff, on_axes_map.
  split; intros H2; (eapply list.Forall_impl; [apply list.Forall_and; split; [exact H|exact H2]|]);
    cbn; intros [x i] [[Hx Hi] Hq]; cbn in *;
    rewrite div_eq_iff in * by (unfold dim_ok in Hx; lia);
    unfold dim_ok, d_len, d_lo in *; lia.
Qed.

Lemma read_any C h H s t path m pos buf :
  match buf with
  | None => read_chunk C h H s t path m pos
  | Some old => read_chunk_into C h H s t path m pos old
  end = read_chunk C h H s t path m pos.
Proof. destruct buf; [apply read_into_eq|done]. Qed.

Section step.
Context (C : codec) (h : host) (H : hier) (s : fs) (t : rty) (path : bytes) (m : array_meta).
Context (D : list dim).
Hypothesis OK : Forall dim_ok D.
Hypothesis CS : am_chunk_shape m = map d_s D.
Hypothesis CK : chunk_shape_ok m.
Let bb := BBox (map d_o D) (map d_e D).
Let coord := map d_c D.
Let rd := read_chunk C h H s t path m coord.

Lemma read_step_none arr buf : rd = Ok None ->
  read_step C h H s t path m bb (arr, buf) coord = Ok (arr, buf).
Proof.
  intros E. unfold read_step. cbv zeta. rewrite read_any. fold rd. by rewrite E.
Qed.
Lemma read_step_fail arr buf :
  (forall e, rd = Err e -> read_step C h H s t path m bb (arr, buf) coord = Err e)
  /\ (rd = Panic -> read_step C h H s t path m bb (arr, buf) coord = Panic).
Proof.
  unfold read_step. cbv zeta. rewrite read_any. fold rd.
  split; [intros e E|intros E]; by rewrite E.
Qed.
Lemma read_step_some arr buf ck : rd = Ok (Some ck) -> nd_shape arr = map d_e D ->
  exists arr', read_step C h H s t path m bb (arr, buf) coord = Ok (arr', Some ck)
    /\ nd_shape arr' = map d_e D
    /\ forall i, inb (map d_e D) i ->
       nd_at arr' i =
       if decide (zip_with Z.div (zip_with Z.add (map d_o D) i) (am_chunk_shape m) = coord)
       then cell m ck (zip_with Z.add (map d_o D) i) else nd_at arr i.
Proof.
  intros E SH. destruct (read_chunk_inv C h H s t path m coord ck CK E) as (P1 & P2 & _).
  unfold read_step. cbv zeta. rewrite read_any. fold rd. rewrite E.
  rewrite bind_ok. unfold chunk_get_bounds, bb in *. rewrite P1. unfold coord in *.
  rewrite (chunk_bounds_dim (h_prof h) m D OK CS), bind_ok.
  rewrite (intersect_dim_eq (h_prof h) D OK), bind_ok.
  destruct (is_empty _) eqn:EM.
  - exists arr. split; [done|]. split; [done|]. intros i Hi.
    rewrite decide_False; [done|]. intros X.
    destruct (in_chunk_box D i OK Hi) as (z & -> & -> & F).
    rewrite CS in X. apply on_axes_chunk in X; [|done].
    unfold is_empty in EM. cbn [bb_shape] in EM. apply existsb_exists in EM as (l & Hl & El).
    apply in_map_iff in Hl as (d & Hd & Hin).
    rewrite !map_map in X. apply on_axes_map in X.
    apply in_map_iff in Hin as (w & Hw & Hin).
    rewrite Forall_forall in X. specialize (X w Hin). cbn in X.
    rewrite Hw in X. lia.
  - rewrite (sub_off D OK), bind_ok.
    pose proof (sub_chunk D OK) as SC. cbn [bb_off] in SC |- *. rewrite SC, bind_ok.
    unfold as_ndarray, chunk_get_bounds. rewrite P1.
    rewrite (chunk_bounds_dim (h_prof h) m D OK CS), bind_ok.
    unfold from_shape. cbn [bb_shape]. rewrite <- CS.
    unfold full_chunk in P2. replace (prodZ (am_chunk_shape m) <=? lenZ (ck_data ck)) with true by lia.
    cbn [assert_]. rewrite bind_ok, bind_ok.
    unfold nd_slice. cbn [of_vec nd_shape]. rewrite CS, (axes_chunk (h_prof h) D OK), !bind_ok.
    unfold nd_assign. cbn [nd_shape nd_at]. rewrite SH, (axes_off (h_prof h) D OK), !bind_ok.
    rewrite !map_map. cbn [snd fst]. rewrite bool_decide_eq_true_2 by done. cbn [assert_].
    rewrite !bind_ok. eexists. split; [done|]. split; [done|].
    intros i Hi. cbn [nd_at].
    destruct (in_chunk_box D i OK Hi) as (z & EZ1 & EZ2 & F).
    destruct (on_axes _ i) eqn:ON.
    + rewrite EZ1, EZ2 in ON. assert (X := ON). apply on_axes_chunk in X; [|done].
      rewrite decide_True by (unfold coord; rewrite EZ1, EZ2; exact X).
      unfold cell. rewrite CS. cbn [of_vec nd_at]. f_equal. f_equal. f_equal.
      subst D i. rewrite !map_map, !zip_with_map. apply map_eq_iff.
      rewrite map_map in ON. apply on_axes_map in ON.
      eapply list.Forall_impl; [apply list.Forall_and; split; [exact F|exact ON]|].
      cbn. intros [x i] [[Hx Hi2] Hq]. cbn in *.
      rewrite (mod_eq _ _ (d_c x)); unfold dim_ok, d_len, d_lo in *; lia.
    + rewrite decide_False; [done|]. intros X. unfold coord in X. rewrite EZ1, EZ2 in X, ON.
      apply on_axes_chunk in X; [|done]. congruence.
Qed.
End step.

(** ** All chunks of a region *)

Definition fits (l : list Z) : Prop := Forall (fun z => z < 2 ^ 63) l.

Lemma dims_of m b pos : bok m b -> fits (bb_shape b) -> fits (am_chunk_shape m) ->
  in_ranges (branges m b) pos ->
  exists D, Forall dim_ok D /\ am_chunk_shape m = map d_s D
    /\ bb_off b = map d_o D /\ bb_shape b = map d_e D /\ pos = map d_c D.
Proof.
  unfold bok, fits, in_ranges, branges. intros Hok. revert Hok pos.
  generalize (am_shape m) (am_chunk_shape m) (bb_off b) (bb_shape b).
  induction 1 as [|d cs oo os shape chunks off oshape H1 H2 H3 H4 H5 H6 H7 Hok IH];
    intros pos F1 F2 Hp; cbn [b_ranges] in Hp.
  - inversion Hp; subst. exists []. repeat split; constructor.
  - inversion Hp as [|? c ? pos' Hc Hp']; subst.
    apply Forall_cons_1 in F1 as [F1 F1']. apply Forall_cons_1 in F2 as [F2 F2'].
    destruct (IH pos' F1' F2' Hp') as (D & OK & E1 & E2 & E3 & E4).
    cbn [fst snd] in Hc. destruct Hc as [C1 C2]. unfold b_floor, b_ceil in *.
    apply (ceil_div_lt (oo + b_shape d oo os) cs) in C2; [|done|by apply ceil_div_spec].
    pose proof (Z.mod_pos_bound oo cs H2) as M1. pose proof (Z_div_mod_eq_full oo cs) as M2.
    assert (0 <= oo / cs) by (apply Z.div_pos; lia).
    exists (Dim cs oo os c :: D). cbn [map d_s d_o d_e d_c]. rewrite <- E1, <- E2, <- E3, <- E4.
    split; [|done]. constructor; [|done].
    unfold dim_ok. cbn [d_s d_o d_e d_c]. unfold b_shape in *.
    split; [lia|]. split; [lia|]. split; [lia|]. split; [lia|]. split; [lia|].
    split; [|split]; nia.
Qed.

Definition chunk_of (m : array_meta) (x : list Z) : list Z := zip_with Z.div x (am_chunk_shape m).

Lemma voxel_some C h H s t path m fill x ck : chunk_shape_ok m ->
  length x = length (am_chunk_shape m) ->
  read_chunk C h H s t path m (chunk_of m x) = Ok (Some ck) ->
  voxel C h H s t path m fill x = Ok (cell m ck x).
Proof.
  intros CK Hl E. unfold voxel, chunk_of in *. rewrite E, bind_ok.
  destruct (read_chunk_inv _ _ _ _ _ _ _ _ _ CK E) as (_ & P2 & _). unfold cell.
  rewrite (of_vec_at (am_order m) _ (ck_data ck) (zip_with Z.modulo x (am_chunk_shape m))); [done| |].
  - destruct CK as [CK _]. unfold inb. revert Hl CK. clear. intros Hl CK. revert x Hl.
    induction CK as [|c cs Hc _ IH]; intros [|y x]; cbn [length]; try done; [constructor|].
    intros [= Hl]. cbn [zip_with]. constructor; [|by apply IH]. apply Z.mod_pos_bound. lia.
  - unfold full_chunk in P2. lia.
Qed.
Lemma voxel_none C h H s t path m fill x :
  read_chunk C h H s t path m (chunk_of m x) = Ok None ->
  voxel C h H s t path m fill x = Ok fill.
Proof. intros E. unfold voxel, chunk_of in *. by rewrite E. Qed.

Lemma chunk_fits m : chunk_shape_ok m -> fits (am_chunk_shape m).
Proof.
  intros CK. destruct CK as [H1 H2]. unfold fits. revert H2. induction H1 as [|c cs Hc Hcs IH]; [constructor|].
  rewrite prodZ_cons. intros H2. pose proof (prodZ_pos cs Hcs). unfold two32 in *.
  constructor; [nia|]. apply IH. nia.
Qed.

Section read.
Context (C : codec) (h : host) (H : hier) (s : fs) (t : rty) (path : bytes) (m : array_meta) (bb : bbox).
Hypothesis BO : bok m bb.
Hypothesis F1 : fits (bb_shape bb).
Hypothesis CK : chunk_shape_ok m.
Let rd pos := read_chunk C h H s t path m pos.
Let step := read_step C h H s t path m bb.
Let vx (i : list Z) : list Z := zip_with Z.add (bb_off bb) i.

Lemma step_cases arr buf pos : in_ranges (branges m bb) pos -> nd_shape arr = bb_shape bb ->
  match rd pos with
  | Ok o => exists arr' buf', step (arr, buf) pos = Ok (arr', buf')
      /\ nd_shape arr' = bb_shape bb
      /\ forall i, inb (bb_shape bb) i ->
         nd_at arr' i = match o with
                        | Some ck => if decide (chunk_of m (vx i) = pos) then cell m ck (vx i)
                                     else nd_at arr i
                        | None => nd_at arr i
                        end
  | Err e => step (arr, buf) pos = Err e
  | Panic => step (arr, buf) pos = Panic
  end.
Proof.
  intros Hr SH. destruct (dims_of m bb pos BO F1 (chunk_fits m CK) Hr) as (D & OK & E1 & E2 & E3 & ->).
  assert (bb = BBox (map d_o D) (map d_e D)) as BE by (destruct bb; cbn in *; congruence).
  unfold step, vx, chunk_of. rewrite BE in SH |- *. cbn [bb_off bb_shape] in *.
  destruct (rd (map d_c D)) as [[ck|]|e|] eqn:E.
  - destruct (read_step_some C h H s t path m D OK E1 CK arr buf ck E SH) as (arr' & Q1 & Q2 & Q3).
    exists arr', (Some ck). done.
  - exists arr, buf. split; [by apply read_step_none|]. done.
  - by apply read_step_fail.
  - by apply read_step_fail.
Qed.

Lemma read_fold coords arr buf : (forall pos, pos ∈ coords -> in_ranges (branges m bb) pos) ->
  nd_shape arr = bb_shape bb ->
  match foldM_res step coords (arr, buf) with
  | Ok (arr', buf') =>
      (forall pos, pos ∈ coords -> exists o, rd pos = Ok o)
      /\ nd_shape arr' = bb_shape bb
      /\ forall i, inb (bb_shape bb) i ->
         nd_at arr' i = match rd (chunk_of m (vx i)) with
                        | Ok (Some ck) => if decide (chunk_of m (vx i) ∈ coords)
                                          then cell m ck (vx i) else nd_at arr i
                        | _ => nd_at arr i
                        end
  | Err e => exists pos, pos ∈ coords /\ rd pos = Err e
  | Panic => exists pos, pos ∈ coords /\ rd pos = Panic
  end.
Proof.
  revert arr buf. induction coords as [|pos coords IH]; intros arr buf Hc SH; cbn [foldM_res].
  - split; [|split; [done|]].
    + intros pos Hp. by apply elem_of_nil in Hp.
    + intros i Hi. destruct (rd _) as [[ck|]| |]; done.
  - pose proof (step_cases arr buf pos (Hc pos (elem_of_list_here _ _)) SH) as HS.
    destruct (rd pos) as [o|e|] eqn:E.
    + destruct HS as (arr1 & buf1 & -> & SH1 & V1). rewrite bind_ok.
      specialize (IH arr1 buf1 (fun q Hq => Hc q (elem_of_list_further _ _ _ Hq)) SH1).
      destruct (foldM_res step coords (arr1, buf1)) as [[arr' buf']|e|].
      * destruct IH as (I1 & I2 & I3). split; [|split; [done|]].
        -- intros q [->|Hq]%elem_of_cons; [by exists o|]. by apply I1.
        -- intros i Hi. rewrite I3, V1 by done.
           destruct (rd (chunk_of m (vx i))) as [[ck|]|e|] eqn:E2.
           ++ destruct (decide (chunk_of m (vx i) ∈ coords)) as [Y|N].
              ** rewrite decide_True; [done|]. by right.
              ** destruct (decide (chunk_of m (vx i) = pos)) as [X|N2].
                 --- rewrite X, E in E2. injection E2 as ->. rewrite decide_True; [done|].
                     rewrite X. left.
                 --- rewrite decide_False.
                     +++ by destruct o.
                     +++ intros [X|X]%elem_of_cons; done.
           ++ destruct o as [ck|]; [|done]. rewrite decide_False; [done|]. intros X.
              rewrite X, E in E2. done.
           ++ destruct o as [ck|]; [|done]. rewrite decide_False; [done|]. intros X.
              rewrite X, E in E2. done.
           ++ destruct o as [ck|]; [|done]. rewrite decide_False; [done|]. intros X.
              rewrite X, E in E2. done.
      * destruct IH as (q & Hq & Eq). exists q. split; [by right|done].
      * destruct IH as (q & Hq & Eq). exists q. split; [by right|done].
    + rewrite HS. exists pos. split; [left|done].
    + rewrite HS. exists pos. split; [left|done].
Qed.
End read.

(** ** Statements about region reads *)

Lemma index_length shape i : index_of shape i -> length i = length shape.
Proof. intros (_ & H & _). done. Qed.
Lemma chunk_of_covers m x : Forall (fun s => 0 < s) (am_chunk_shape m) ->
  length x = length (am_chunk_shape m) -> in_chunk (am_chunk_shape m) (chunk_of m x) x.
Proof.
  intros Hs Hl. unfold chunk_of, in_chunk. rewrite zip_with_length, Hl.
  split; [lia|]. split; [done|]. intros i ci si xi E1 E2 E3.
  rewrite lookup_zip_with in E1. rewrite E3, E2 in E1. cbn in E1. injection E1 as <-.
  apply div_eq_iff; [|done]. rewrite Forall_forall in Hs. apply (Hs si).
  apply elem_of_list_In, elem_of_list_lookup. by exists i.
Qed.
Lemma in_box_shift off shape i : length off = length shape -> index_of shape i ->
  in_box off shape (zip_with Z.add off i).
Proof.
  intros Hl (H1 & H2 & H3). rewrite replicate_length in H1.
  unfold in_box. rewrite zip_with_length. split; [lia|]. split; [lia|].
  intros k x o s E1 E2 E3. rewrite lookup_zip_with, E2 in E1. cbn in E1.
  destruct (i !! k) as [ik|] eqn:E4; [|done]. cbn in E1. injection E1 as <-.
  specialize (H3 k ik 0 s E4). rewrite lookup_replicate_2 in H3.
  - specialize (H3 eq_refl E3). lia.
  - by eapply lookup_lt_Some.
Qed.
Lemma in_box_unshift off shape x : in_box off shape x ->
  index_of shape (zip_with Z.sub x off) /\ zip_with Z.add off (zip_with Z.sub x off) = x.
Proof.
  intros (H1 & H2 & H3). split.
  - unfold index_of, in_box. rewrite replicate_length, zip_with_length.
    split; [lia|]. split; [lia|]. intros k y z s E1 E2 E3.
    apply lookup_replicate in E2 as [-> _]. rewrite lookup_zip_with in E1.
    destruct (x !! k) as [xk|] eqn:E4; [|done]. destruct (off !! k) as [ok|] eqn:E5; [|done].
    cbn in E1. injection E1 as <-. specialize (H3 k xk ok s E4 E5 E3). lia.
  - assert (length x = length off) as Hl by done. clear -Hl. revert off Hl.
    induction x as [|a x IH]; intros [|b off]; cbn [length]; try done.
    intros [= Hl]. cbn. f_equal; [lia|]. by apply IH.
Qed.

Lemma in_chunk_of m pos x : Forall (fun s => 0 < s) (am_chunk_shape m) ->
  in_chunk (am_chunk_shape m) pos x -> chunk_of m x = pos /\ length x = length (am_chunk_shape m).
Proof.
  intros Hs (H1 & H2 & H3). split; [|done]. unfold chunk_of.
  apply list_eq. intros i. rewrite lookup_zip_with.
  destruct (decide (i < length pos)%nat) as [L|L].
  - destruct (lookup_lt_is_Some_2 pos i L) as [c Ec].
    destruct (lookup_lt_is_Some_2 x i) as [y Ey]; [lia|].
    destruct (lookup_lt_is_Some_2 (am_chunk_shape m) i) as [s Es]; [lia|].
    rewrite Ec, Ey, Es. cbn. f_equal. apply div_eq_iff; [|by eapply H3].
    rewrite Forall_lookup in Hs. by eapply Hs.
  - rewrite !lookup_ge_None_2 by lia. done.
Qed.
Lemma bok_chunk_pos m bb : bok m bb -> Forall (fun s => 0 < s) (am_chunk_shape m).
Proof.
  intros IO%bok_dims. induction IO; constructor; [lia|done].
Qed.
Lemma index_grid m x : Forall (fun s => 0 < s) (am_chunk_shape m) ->
  length (am_chunk_shape m) = length (am_shape m) -> index_of (am_shape m) x -> grid_voxel m x.
Proof.
  intros Hs Hl Hx. assert (in_chunk (am_chunk_shape m) (chunk_of m x) x) as Hc.
  { apply chunk_of_covers; [done|]. apply index_length in Hx. lia. }
  exists (chunk_of m x). split; [done|]. exists x. done.
Qed.
Lemma grid_visited m bb x : bok m bb -> in_box (bb_off bb) (bb_shape bb) x -> grid_voxel m x ->
  in_ranges (branges m bb) (chunk_of m x).
Proof.
  intros BO HB (pos & Hc & y & Hy & HA).
  pose proof (bok_chunk_pos m bb BO) as Hs.
  destruct (in_chunk_of m pos x Hs Hc) as [E1 _]. destruct (in_chunk_of m pos y Hs Hy) as [E2 _].
  rewrite <- E2 in E1. clear Hc Hy E2 pos Hs. revert x y HB HA E1.
  unfold bok in BO. unfold branges, chunk_of, in_ranges.
  generalize dependent (bb_shape bb). generalize (bb_off bb).
  generalize (am_shape m) (am_chunk_shape m). intros shape chunks off oshape BO.
  induction BO as [|d s o e shape chunks off oshape Hd Hs Hds Ho He Hoe Hos _ IH]; intros x y HB HA E.
  - apply in_box_nil_inv in HB as ->. constructor.
  - apply in_box_cons_inv in HB as (a & x' & -> & Ha & HB).
    cbn [length replicate] in HA. apply in_box_cons_inv in HA as (b & y' & -> & Hb & HA).
    cbn in E. injection E as E1 E2. cbn [b_ranges zip_with]. constructor; [|by eapply IH].
    cbn [fst snd]. unfold b_floor, b_ceil. split; [apply Z.div_le_mono; lia|].
    apply (ceil_div_lt (o + b_shape d o e) s); [done|by apply ceil_div_spec|].
    pose proof (Z.mod_pos_bound a s Hs). pose proof (Z_div_mod_eq_full a s).
    pose proof (Z.mod_pos_bound b s Hs). pose proof (Z_div_mod_eq_full b s).
    unfold b_shape. nia.
Qed.
Lemma visited m bb x : bok m bb -> am_shape m <> [] ->
  in_box (bb_off bb) (bb_shape bb) x -> grid_voxel m x ->
  chunk_of m x ∈ product_items (branges m bb).
Proof.
  intros BO NE HB HA. rewrite (branges_nonnil m bb BO NE).
  by apply elem_of_box_coords, grid_visited.
Qed.
Lemma visited_ranges m bb pos : pos ∈ product_items (branges m bb) -> in_ranges (branges m bb) pos.
Proof.
  unfold product_items. destruct (branges m bb); [by intros ?%elem_of_nil|].
  apply elem_of_box_coords.
Qed.

(** What reading a region into a view does to it. *)
Lemma read_into_spec C h H s t path m bb arr buf arr' buf' :
  bok m bb -> chunk_shape_ok m -> am_shape m <> [] -> fits (nd_shape arr) ->
  read_ndarray_into_with_buffer C h H s t path m bb arr buf = Ok (arr', buf') ->
  nd_shape arr = bb_shape bb /\ nd_shape arr' = bb_shape bb /\
  forall i, index_of (bb_shape bb) i ->
  let x := zip_with Z.add (bb_off bb) i in
  (grid_voxel m x -> exists o, read_chunk C h H s t path m (chunk_of m x) = Ok o /\
     nd_at arr' i = match o with Some ck => cell m ck x | None => nd_at arr i end)
  /\ (nd_at arr' i = nd_at arr i \/
      exists ck, read_chunk C h H s t path m (chunk_of m x) = Ok (Some ck)
                 /\ nd_at arr' i = cell m ck x).
Proof.
  intros BO CK NE FI E. unfold read_ndarray_into_with_buffer in E.
  destruct (_ || _); [done|]. destruct (negb (bool_decide _)) eqn:SH; [done|].
  apply negb_false_iff, bool_decide_eq_true in SH.
  rewrite (bounded_coords_eq (h_prof h) m bb BO) in E.
  apply bind_ok_inv in E as (coords & Ec & E). apply bind_ok_inv in Ec as (n & _ & [= <-]).
  rewrite <- SH in FI.
  pose proof (read_fold C h H s t path m bb BO FI CK (product_items (branges m bb)) arr buf
    (fun pos => visited_ranges m bb pos) (eq_sym SH)) as RF.
  rewrite E in RF. destruct RF as (R1 & R2 & R3). split; [done|]. split; [done|].
  intros i Hi x. specialize (R3 i (proj1 (inb_index _ _) Hi)).
  fold x in R3. split.
  - intros HA. assert (chunk_of m x ∈ product_items (branges m bb)) as V.
    { apply visited; try done. apply in_box_shift; [|done].
      pose proof (bok_length m bb BO). lia. }
    destruct (R1 _ V) as [o Eo]. exists o. split; [done|].
    rewrite R3, Eo. destruct o as [ck|]; [|done]. by rewrite decide_True.
  - rewrite R3. destruct (read_chunk _ _ _ _ _ _ _ _) as [[ck|]| |]; [|by left..].
    case_decide; [right|by left]. by exists ck.
Qed.

Lemma from_elem_inv shape v a : Forall (fun s => 0 <= s) shape -> from_elem shape v = Ok a ->
  a = Nd shape (fun _ => v) /\ fits shape.
Proof.
  intros Hs E. unfold from_elem in E. destruct (_ <? _) eqn:P; [|done].
  cbn [assert_] in E. rewrite bind_ok in E. injection E as <-. split; [done|].
  unfold fits. assert (prodZ (filter (fun s => s <> 0) shape) < 2 ^ 63) as Q by lia. clear P.
  revert Q. induction Hs as [|x l Hx Hl IH]; [constructor|]. rewrite filter_cons.
  assert (0 < prodZ (filter (fun s => s <> 0) l)) as Q1.
  { apply prodZ_pos, Forall_forall. intros y Hy%elem_of_list_In%elem_of_list_filter.
    rewrite Forall_forall in Hl. destruct Hy as [Hy1 Hy2]. apply elem_of_list_In in Hy2.
    specialize (Hl y Hy2). cbn in Hl. lia. }
  case_decide as Q2.
  - rewrite prodZ_cons. intros Q. constructor; [nia|]. apply IH. nia.
  - intros Q. constructor; [lia|]. by apply IH.
Qed.
Lemma bok_shape_nonneg m bb : bok m bb -> Forall (fun s => 0 <= s) (bb_shape bb).
Proof.
  unfold bok. generalize (am_shape m) (am_chunk_shape m) (bb_off bb) (bb_shape bb).
  induction 1; constructor; done.
Qed.

Lemma read_region flit C h H s t path m bb a :
  bok m bb -> chunk_shape_ok m -> am_shape m <> [] ->
  read_ndarray flit C h H s t path m bb = Ok a ->
  exists fill, effective_fill flit t m = Ok fill
  /\ nd_shape a = bb_shape bb
  /\ forall i, index_of (bb_shape bb) i ->
     let x := zip_with Z.add (bb_off bb) i in
     (grid_voxel m x -> voxel C h H s t path m fill x = Ok (nd_at a i))
     /\ (nd_at a i = fill \/ voxel C h H s t path m fill x = Ok (nd_at a i)).
Proof.
  intros BO CK NE E. unfold read_ndarray in E.
  apply bind_ok_inv in E as (fill & Ef & E). apply bind_ok_inv in E as (arr & Ea & E).
  unfold read_ndarray_into in E. apply bind_ok_inv in E as ([a' b'] & Er & [= ->]).
  apply from_elem_inv in Ea as [-> FI]; [|by eapply bok_shape_nonneg].
  exists fill. split; [done|].
  assert (fits (nd_shape (Nd (bb_shape bb) (fun _ => fill)))) as FI' by done.
  destruct (read_into_spec _ _ _ _ _ _ _ _ _ _ _ _ BO CK NE FI' Er) as (_ & S1 & V).
  split; [done|]. intros i Hi x. destruct (V i Hi) as [V1 V2]. cbn [nd_at] in *. fold x in V1, V2.
  assert (length x = length (am_chunk_shape m)) as Lx.
  { pose proof (bok_length m bb BO) as (L1 & L2 & L3). unfold x. rewrite zip_with_length.
    rewrite (index_length _ _ Hi). lia. }
  split.
  - intros HA. destruct (V1 HA) as ([ck|] & Eo & ->); [by apply voxel_some|by apply voxel_none].
  - destruct V2 as [->|(ck & Eo & ->)]; [by left|right]. by apply voxel_some.
Qed.
