(** Equivalent path strings; staying inside the base directory. *)
From Verif Require Export HierFacts.
Local Open Scope Z_scope.

(** ** Operations depend on the components of a path only *)

Lemma st_exists_ext base s k k' : pieces k = pieces k' -> st_exists base s k = st_exists base s k'.
Proof. intros E. unfold st_exists. by rewrite (key_comps_ext base k k') by by rewrite !comps_pieces, E. Qed.
Lemma st_get_ext base s k k' : pieces k = pieces k' -> st_get base s k = st_get base s k'.
Proof. intros E. unfold st_get. by rewrite (key_comps_ext base k k') by by rewrite !comps_pieces, E. Qed.
Lemma st_set_ext base s k k' v : pieces k = pieces k' -> st_set base s k v = st_set base s k' v.
Proof. intros E. unfold st_set. by rewrite (key_comps_ext base k k') by by rewrite !comps_pieces, E. Qed.
Lemma st_erase_ext base s k k' : pieces k = pieces k' -> st_erase base s k = st_erase base s k'.
Proof. intros E. unfold st_erase. by rewrite (key_comps_ext base k k') by by rewrite !comps_pieces, E. Qed.
Lemma st_erase_prefix_ext base s k k' : pieces k = pieces k' ->
  st_erase_prefix base s k = st_erase_prefix base s k'.
Proof. intros E. unfold st_erase_prefix. by rewrite (key_comps_ext base k k') by by rewrite !comps_pieces, E. Qed.

Section equiv.
Context (H : hier) (path path' : bytes).
Hypothesis SF : slash ∉ strip_dot (ep_suffix (hy_ep H)).
Hypothesis E : pieces path = pieces path'.

Lemma chunk_key_equiv m pos : pieces (get_chunk_key path m pos) = pieces (get_chunk_key path' m pos).
Proof. by rewrite !pieces_chunk_key, E. Qed.
Lemma akey_equiv : pieces (akey H path) = pieces (akey H path').
Proof. unfold akey, array_metadata_key. rewrite !pieces_node_key by (try done; by left). by rewrite E. Qed.
Lemma gkey_equiv : pieces (gkey H path) = pieces (gkey H path').
Proof. unfold gkey, group_metadata_key. rewrite !pieces_node_key by (try done; by right). by rewrite E. Qed.
Lemma ekey_equiv : pieces (ekey H path) = pieces (ekey H path').
Proof.
  unfold ekey. rewrite (set_ext_pieces (set_extension (gkey H path) [])).
  rewrite (set_ext_pieces (set_extension (gkey H path') [])).
  rewrite !set_ext_pieces. by rewrite gkey_equiv.
Qed.

Lemma equiv_chunk_ops C h s t m :
  (forall pos, read_chunk C h H s t path m pos = read_chunk C h H s t path' m pos)
  /\ (forall pos old, read_chunk_into C h H s t path m pos old = read_chunk_into C h H s t path' m pos old)
  /\ (forall ck, write_chunk C h H s t path m ck = write_chunk C h H s t path' m ck)
  /\ (forall pos, delete_chunk H s path m pos = delete_chunk H s path' m pos).
Proof.
  split; [|split; [|split]]; intros.
  - unfold read_chunk. by rewrite (st_get_ext _ _ _ _ (chunk_key_equiv m pos)).
  - unfold read_chunk_into. by rewrite (st_get_ext _ _ _ _ (chunk_key_equiv m pos)).
  - unfold write_chunk. by apply st_set_ext, chunk_key_equiv.
  - unfold delete_chunk. by apply st_erase_ext, chunk_key_equiv.
Qed.

Lemma equiv_node_key s :
  match node_key H s path, node_key H s path' with
  | Ok k, Ok k' => pieces k = pieces k'
  | Err e, Err e' => e = e'
  | Panic, Panic => True
  | _, _ => False
  end.
Proof.
  unfold node_key. rewrite (st_exists_ext _ _ _ _ akey_equiv), (st_exists_ext _ _ _ _ gkey_equiv).
  destruct (st_exists _ s (akey H path')) as [[]| |]; cbn [mbind res_bind]; [apply akey_equiv| |done|done].
  destruct (st_exists _ s (gkey H path')) as [[]| |]; cbn [mbind res_bind]; [apply gkey_equiv|done..].
Qed.

Lemma equiv_node_ops s :
  get_array_metadata H s path = get_array_metadata H s path'
  /\ node_exists H s path = node_exists H s path'
  /\ array_exists H s path = array_exists H s path'
  /\ list_attributes H s path = list_attributes H s path'
  /\ (forall attrs, set_attributes H s path attrs = set_attributes H s path' attrs)
  /\ (forall k v, set_attribute H s path k v = set_attribute H s path' k v)
  /\ create_group H s path = create_group H s path'
  /\ (forall m, create_array H s path m = create_array H s path' m)
  /\ Hier.remove H s path = Hier.remove H s path'.
Proof.
  assert (A := akey_equiv). assert (Gk := gkey_equiv). assert (K := equiv_node_key s).
  assert (E1 : get_array_metadata H s path = get_array_metadata H s path').
  { unfold get_array_metadata. by rewrite (st_get_ext _ _ _ _ A). }
  assert (E2 : node_exists H s path = node_exists H s path').
  { unfold node_exists. fold (ekey H path) (ekey H path').
    by rewrite (st_exists_ext _ _ _ _ A), (st_exists_ext _ _ _ _ Gk), (st_exists_ext _ _ _ _ ekey_equiv). }
  assert (E3 : forall attrs, set_attributes H s path attrs = set_attributes H s path' attrs).
  { intros attrs. unfold set_attributes.
    destruct (node_key H s path) as [k|e|], (node_key H s path') as [k'|e'|]; try done; [|by subst].
    cbn [on]. rewrite (st_get_ext _ _ _ _ K).
    destruct (st_get _ s k') as [o| |]; [|done|done]. cbn [on].
    destruct (of_option NotFound o); [|done|done]. cbn [on].
    destruct (from_text as_map a); [|done|done]. cbn [on].
    destruct (json_eqb _ _); [done|]. by apply st_set_ext. }
  split; [done|]. split; [done|]. split; [unfold array_exists; by rewrite E1, E2|].
  split; [|split; [done|split; [intros; apply E3|split; [|split]]]].
  - unfold list_attributes.
    destruct (node_key H s path) as [k|e|], (node_key H s path') as [k'|e'|]; try done; [|by subst].
    cbn [mbind res_bind]. by rewrite (st_get_ext _ _ _ _ K).
  - unfold create_group. rewrite (st_exists_ext _ _ _ _ A), (st_exists_ext _ _ _ _ Gk).
    destruct (st_exists _ s (akey H path')) as [[]| |]; [done| |done|done]. cbn [on].
    destruct (st_exists _ s (gkey H path')) as [[]| |]; [done| |done|done]. cbn [on].
    by apply st_set_ext.
  - intros m. unfold create_array. rewrite (st_exists_ext _ _ _ _ A), (st_exists_ext _ _ _ _ Gk).
    destruct (st_exists _ s (gkey H path')) as [[]| |]; [done| |done|done]. cbn [on].
    destruct (st_exists _ s (akey H path')) as [[]| |]; [done| |done|done]. cbn [on].
    by apply st_set_ext.
  - unfold Hier.remove. rewrite (st_erase_ext _ _ _ _ Gk).
    destruct (st_erase _ s (gkey H path')) as [s1 [b| |]]; [|done|done]. cbn [andthen].
    rewrite (st_erase_ext _ _ _ _ A).
    destruct (st_erase _ s1 (akey H path')) as [s2 [b2| |]]; [|done|done]. cbn [andthen].
    rewrite (st_erase_prefix_ext _ _ (data_path_key path) (data_path_key path')); [done|].
    by rewrite !pieces_data_key, E.
Qed.
End equiv.

(** ** Containment *)

(** No prefix of the components climbs above the start. *)
Definition stays (z : Z) (cs : list comp) : Prop :=
  forall k, 0 <= z + nest (take k cs).

Lemma nest_from z cs :
  foldl (fun acc c => match c with Up => acc - 1 | Normal _ => acc + 1 end) z cs = z + nest cs.
Proof.
  unfold nest. revert z. induction cs as [|c cs IH]; intros z; simpl; [lia|].
  rewrite IH. symmetry. rewrite IH. destruct c; lia.
Qed.
Lemma nest_cons c cs : nest (c :: cs) = match c with Up => -1 | Normal _ => 1 end + nest cs.
Proof. unfold nest at 1. simpl. rewrite nest_from. destruct c; lia. Qed.
Lemma nest_app a b : nest (a ++ b) = nest a + nest b.
Proof. induction a as [|c a IH]; [done|]. cbn [app]. rewrite !nest_cons, IH. lia. Qed.
Lemma nest_normals ns : nest (map Normal ns) = Z.of_nat (length ns).
Proof. induction ns as [|x ns IH]; [done|]. cbn [map]. rewrite nest_cons, IH. simpl. lia. Qed.
Lemma stays_full z cs : stays z cs -> 0 <= z + nest cs.
Proof. intros S. specialize (S (length cs)). by rewrite firstn_all in S. Qed.
Lemma stays_start z cs : stays z cs -> 0 <= z.
Proof. intros S. specialize (S 0%nat). unfold nest in S. simpl in S. lia. Qed.
Lemma stays_cons z c cs : stays z (c :: cs) -> stays (z + match c with Up => -1 | Normal _ => 1 end) cs.
Proof. intros S k. specialize (S (Datatypes.S k)). cbn [take] in S. rewrite nest_cons in S. lia. Qed.
Lemma stays_app z a b : stays z a -> stays (z + nest a) b -> stays z (a ++ b).
Proof.
  intros A Bb k. destruct (Nat.le_gt_cases k (length a)).
  - rewrite take_app_le by done. apply A.
  - rewrite take_app_ge by lia. rewrite nest_app. specialize (Bb (k - length a)%nat). lia.
Qed.
Lemma stays_normals z ns : 0 <= z -> stays z (map Normal ns).
Proof.
  intros Z k. rewrite <- (fmap_take Normal). change (Normal <$> take k ns) with (map Normal (take k ns)).
  rewrite nest_normals. lia.
Qed.
Lemma stays_mono z z' cs : z <= z' -> stays z cs -> stays z' cs.
Proof. intros L S k. specialize (S k). lia. Qed.
Lemma stays_take z n cs : stays z cs -> stays z (take n cs).
Proof. intros S k. rewrite take_take. apply S. Qed.

Lemma walk_inside s b cs : forall d p, walk s (b ++ d) cs = Ok p ->
  stays (Z.of_nat (length d)) cs -> exists d', p = b ++ d'.
Proof.
  induction cs as [|c cs IH]; intros d p E S; simpl in E.
  - injection E as <-. by exists d.
  - destruct (node_at s (b ++ d)) as [[|]|]; [|done|done].
    apply stays_cons in S. destruct c as [x|].
    + cbn [step] in E. rewrite <- app_assoc in E. eapply IH; [exact E|].
      rewrite app_length. simpl. eapply stays_mono; [|exact S]. lia.
    + cbn [step] in E. pose proof (stays_start _ _ S) as L.
      destruct d as [|y d _] using rev_ind; [simpl in L; lia|].
      rewrite app_assoc, parent_snoc in E. eapply IH; [exact E|].
      rewrite app_length in S. simpl in S. eapply stays_mono; [|exact S]. lia.
Qed.

(** A key's components below the base. *)
Lemma walk_key s b cs p : walk s [] (map Normal b ++ cs) = Ok p -> stays 0 cs -> exists d, p = b ++ d.
Proof.
  rewrite walk_app. destruct (walk s [] (map Normal b)) as [q| |] eqn:Q; [|done|done].
  apply walk_normal_target in Q. cbn [app] in Q. subst q. cbn [mbind res_bind]. intros E S.
  rewrite <- (app_nil_r b) in E. by eapply walk_inside.
Qed.

Lemma outside_refl b s : outside_same b s s.
Proof. by intros q. Qed.
Lemma outside_trans b s1 s2 s3 : outside_same b s1 s2 -> outside_same b s2 s3 -> outside_same b s1 s3.
Proof. intros A B q N. rewrite (B q N). by apply A. Qed.
Lemma outside_insert b d n s : b ++ d <> [] -> outside_same b s (<[b ++ d := n]> s).
Proof.
  intros NE q N. rewrite node_at_insert, decide_False; [done| |done]. intros ->. apply N. by eexists.
Qed.
Lemma outside_delete b d s : b ++ d <> [] -> outside_same b s (delete (b ++ d) s).
Proof.
  intros NE q N. rewrite node_at_delete, decide_False; [done| |done]. intros ->. apply N. by eexists.
Qed.

Section contain.
Context (b : fpath).

Lemma base_insert s d n : base_ok b s -> node_at s (b ++ d) <> Some Dir -> base_ok b (<[b ++ d := n]> s).
Proof.
  intros O N k. assert (NE : b ++ d <> []) by (intros E; rewrite E in N; done).
  rewrite node_at_insert, decide_False; [by apply O| |done]. intros E. rewrite <- E in N. by rewrite O in N.
Qed.

Lemma walk_base s cs : base_ok b s -> walk s [] (map Normal b ++ cs) = walk s b cs.
Proof.
  intros O. rewrite walk_app.
  assert (W : forall k, (k <= length b)%nat -> walk s [] (map Normal (take k b)) = Ok (take k b)).
  { induction k as [|k IH]; intros L; [done|].
    destruct (take_S_snoc b k) as [x X]; [lia|]. rewrite X, map_app, walk_app, IH by lia.
    cbn [mbind res_bind map walk]. by rewrite O. }
  specialize (W (length b) (le_n _)). rewrite firstn_all in W. by rewrite W.
Qed.

(** Prefixes of a key's components. *)
Lemma take_key cs n : take n (map Normal b ++ cs) =
  if (n <=? length b)%nat then map Normal (take n b) else map Normal b ++ take (n - length b) cs.
Proof.
  destruct (n <=? length b)%nat eqn:L.
  - rewrite take_app_le by (rewrite map_length; lia). by rewrite <- (fmap_take Normal).
  - rewrite take_app_ge, map_length by (rewrite map_length; lia). done.
Qed.

Definition kept (s s' : fs) : Prop := outside_same b s s' /\ base_ok b s'.

Lemma mkdir_contained s cs n s' r : base_ok b s -> stays 0 cs ->
  mkdir s (take n (map Normal b ++ cs)) = (s', r) -> kept s s'.
Proof.
  intros O S. rewrite take_key. unfold mkdir. destruct (n <=? length b)%nat eqn:L.
  - assert (X : walk s [] (map Normal (take n b)) = walk s [] (map Normal (take n b))) by done.
    destruct (walk s [] (map Normal (take n b))) as [p| |] eqn:Wk; [|by intros [= <- _]..].
    apply walk_normal_target in Wk. cbn [app] in Wk. subst p. rewrite O. intros [= <- _]. done.
  - destruct (walk s [] _) as [p| |] eqn:Wk; [|by intros [= <- _]..].
    apply walk_key in Wk as [d ->]; [|by apply stays_take].
    destruct (node_at s (b ++ d)) as [nd|] eqn:Nd; [by intros [= <- _]|].
    assert (NE : b ++ d <> []) by (intros E; rewrite E in Nd; done).
    destruct (is_dir_at s _); [|by intros [= <- _]]. intros [= <- _]. split.
    + by apply outside_insert.
    + apply base_insert; [done|]. by rewrite Nd.
Qed.

Lemma kept_trans s1 s2 s3 : kept s1 s2 -> kept s2 s3 -> kept s1 s3.
Proof. intros [A _] [B O]. split; [by eapply outside_trans|done]. Qed.

Lemma mkdir_all_contained cs : forall n s s' r, base_ok b s -> stays 0 cs ->
  mkdir_all s (map Normal b ++ cs) n = (s', r) -> kept s s'.
Proof.
  induction n as [|n IH]; intros s s' r O S; cbn [mkdir_all]; [by intros [= <- _]|].
  destruct (mkdir s (take (Datatypes.S n) (map Normal b ++ cs))) as [s1 r1] eqn:M1.
  pose proof (mkdir_contained _ _ _ _ _ O S M1) as K1.
  destruct r1 as [u|e|]; [by intros [= <- _]| |].
  - assert (Z : forall r0, (if path_is_dir s (take (Datatypes.S n) (map Normal b ++ cs))
        then (s, Ok tt) else (s, r0)) = (s', r) -> kept s s').
    { intros r0. destruct (path_is_dir _ _); by intros [= <- _]. }
    destruct e; try by apply Z.
    destruct (mkdir_all s (map Normal b ++ cs) n) as [s2 r2] eqn:M2.
    pose proof (IH _ _ _ O S M2) as K2.
    destruct r2 as [u2|e2|]; [|by intros [= <- _]..].
    destruct (mkdir s2 (take (Datatypes.S n) (map Normal b ++ cs))) as [s3 r3] eqn:M3.
    pose proof (mkdir_contained _ _ _ _ _ (proj2 K2) S M3) as K3.
    destruct r3; [intros [= <- _]; by eapply kept_trans| |];
      (destruct (path_is_dir s2 _); by intros [= <- _]).
  - destruct (path_is_dir _ _); by intros [= <- _].
Qed.

Lemma create_dir_all_contained s cs n s' r : base_ok b s -> stays 0 cs ->
  create_dir_all s (take n (map Normal b ++ cs)) = (s', r) -> kept s s'.
Proof.
  intros O S. unfold create_dir_all. rewrite take_key. destruct (n <=? length b)%nat eqn:L.
  - (* a prefix of the base: it exists *)
    assert (G : forall j, mkdir_all s (map Normal (take n b)) j
      = (s, Ok tt) \/ True) by (intros; by right).
    clear G.
    assert (K : forall j s1 r1, (j <= length (take n b))%nat ->
      mkdir_all s (map Normal (take n b)) j = (s1, r1) -> s1 = s).
    { intros [|j] s1 r1 J; cbn [mkdir_all]; [by intros [= <- _]|].
      rewrite <- (fmap_take Normal). change (Normal <$> ?l) with (map Normal l).
      rewrite take_take. unfold mkdir.
      assert (Wk : walk s [] (map Normal (take (Datatypes.S j `min` n) b)) = Ok (take (Datatypes.S j `min` n) b)).
      { assert (Y := walk_base s [] O). rewrite app_nil_r in Y. cbn [walk] in Y.
        rewrite <- (take_drop (Datatypes.S j `min` n) b) in Y at 1.
        rewrite map_app, walk_app in Y.
        destruct (walk s [] (map Normal (take (Datatypes.S j `min` n) b))) as [p| |] eqn:Q; [|done|done].
        by apply walk_normal_target in Q as ->. }
      rewrite Wk, O.
      destruct (path_is_dir s _); by intros [= <- _]. }
    intros E. apply K in E; [subst; done|]. by rewrite map_length.
  - apply mkdir_all_contained; [done|]. by apply stays_take.
Qed.

Lemma set_contained s cs v s' r : base_ok b s -> stays 0 cs ->
  (let cs := map Normal b ++ cs in
   let parent_ok := match cs with
                    | [] => (s, Ok tt)
                    | _ => if path_exists s (parent_comps cs) then (s, Ok tt)
                           else create_dir_all s (parent_comps cs)
                    end in
   match parent_ok with
   | (s1, Ok _) =>
       match open_truncate s1 cs with
       | (s2, Ok p) => (<[p := File (fst v)]> s2, snd v)
       | (s2, Err e) => (s2, Err e)
       | (s2, Panic) => (s2, Panic)
       end
   | (s1, e) => (s1, e)
   end) = (s', r) -> kept s s'.
Proof.
  intros O S. cbv zeta.
  destruct (match map Normal b ++ cs with [] => _ | _ => _ end) as [s1 r1] eqn:P.
  assert (K1 : kept s s1).
  { destruct (map Normal b ++ cs) eqn:X; [by injection P as <- _|]. rewrite <- X in P.
    destruct (path_exists s _); [by injection P as <- _|].
    unfold parent_comps in P. by eapply create_dir_all_contained. }
  destruct r1 as [u|e|]; [|by intros [= <- _]..].
  unfold open_truncate. destruct (walk s1 [] _) as [p| |] eqn:Wk; [|by intros [= <- _]..].
  apply walk_key in Wk as [d ->]; [|done].
  assert (I : forall c c', node_at s1 (b ++ d) <> Some Dir ->
     kept s (<[b ++ d := File c]> (<[b ++ d := File c']> s1))).
  { intros c c' N. rewrite insert_insert. eapply kept_trans; [exact K1|].
    assert (NE : b ++ d <> []) by (intros E; rewrite E in N; done). split.
    - by apply outside_insert.
    - apply base_insert; [apply K1|done]. }
  destruct (node_at s1 (b ++ d)) as [[|c]|] eqn:Nd; [by intros [= <- _]|intros [= <- _]; by apply I|].
  destruct (is_dir_at s1 _); [intros [= <- _]; by apply I|by intros [= <- _]].
Qed.
End contain.

Section contain_store.
Context (base : bytes).
Hypothesis PB : plain base.
Notation b := (pieces base).

Lemma key_comps_stays key : stays 0 (comps key) ->
  key_comps base key = Ok (map Normal b ++ comps key).
Proof.
  intros S. rewrite key_comps_ok by (by apply stays_full in S). by rewrite (comps_plain base).
Qed.

Lemma st_set_contained s key v s' r : base_ok b s -> stays 0 (comps key) ->
  st_set base s key v = (s', r) -> kept b s s'.
Proof.
  intros O S. unfold st_set. rewrite key_comps_stays by done. by apply set_contained.
Qed.

Lemma st_erase_contained s key s' r : base_ok b s -> stays 0 (comps key) ->
  st_erase base s key = (s', r) -> kept b s s'.
Proof.
  intros O S. unfold st_erase. rewrite key_comps_stays by done.
  destruct (path_exists s _); [|by intros [= <- _]].
  unfold remove_file. destruct (walk s [] _) as [p| |] eqn:Wk; [|by intros [= <- _]..].
  apply walk_key in Wk as [d ->]; [|done].
  destruct (node_at s (b ++ d)) as [[|c]|] eqn:Nd; [by intros [= <- _]| |by intros [= <- _]].
  intros [= <- _]. assert (NE : b ++ d <> []) by (intros E; rewrite E in Nd; done). split.
  - by apply outside_delete.
  - intros k. rewrite node_at_delete, decide_False; [by apply O| |done].
    intros E. specialize (O k). rewrite E, Nd in O. done.
Qed.

Lemma is_prefix_spec p q : is_prefix p q = true <-> p `prefix_of` q.
Proof.
  revert q. induction p as [|x p IH]; intros [|y q]; simpl.
  - split; [intros; by exists []|done].
  - split; [intros; by eexists|done].
  - split; [done|]. by intros [k ?].
  - rewrite andb_true_iff, IH. split.
    + intros [E [k ->]]. apply beq_true in E as ->. by exists k.
    + intros [k E]. injection E as -> ->. rewrite beq_refl. split; [done|by eexists].
Qed.

Lemma st_erase_prefix_contained s key s' r : base_ok b s -> stays 0 (comps key) ->
  st_erase_prefix base s key = (s', r) -> outside_same b s s'.
Proof.
  intros O S. unfold st_erase_prefix. rewrite key_comps_stays by done.
  unfold stat. destruct (walk s [] _) as [p| |] eqn:Wk; [|by intros [= <- _]..].
  destruct (node_at s p) as [nd|] eqn:Nd; [|by intros [= <- _]].
  pose proof Wk as Wk2. apply walk_key in Wk2 as [d ->]; [|done].
  destruct (existsb _ _) eqn:X; [by intros [= <- _]|]. intros [= <- _].
  assert (F : forall q, is_prefix (b ++ d) q = false ->
    node_at (filter (fun kv : fpath * node => is_prefix (b ++ d) kv.1 = false) s) q = node_at s q).
  { intros q Hq. destruct q as [|x q]; [done|]. cbn [node_at].
    destruct (s !! (x :: q)) as [n|] eqn:Y.
    - by apply map_filter_lookup_Some.
    - apply map_filter_lookup_None. by left. }
  intros q N. apply F. destruct (is_prefix (b ++ d) q) eqn:Y; [|done]. exfalso. apply N.
  apply is_prefix_spec in Y as [k ->]. exists (d ++ k). by rewrite app_assoc.
Qed.

(** Reading: only what lies inside the base matters. *)

Lemma walk_same s1 s2 cs : inside_same b s1 s2 -> forall d, stays (Z.of_nat (length d)) cs ->
  walk s1 (b ++ d) cs = walk s2 (b ++ d) cs.
Proof.
  intros I. induction cs as [|c cs IH]; intros d S; [done|]. cbn [walk].
  rewrite (I (b ++ d)) by by eexists.
  destruct (node_at s2 (b ++ d)) as [[|]|]; [|done|done].
  apply stays_cons in S. destruct c as [x|]; cbn [step].
  - rewrite <- app_assoc. apply IH. rewrite app_length. simpl. eapply stays_mono; [|exact S]. lia.
  - pose proof (stays_start _ _ S) as L.
    destruct d as [|y d _] using rev_ind; [simpl in L; lia|].
    rewrite app_assoc, parent_snoc. apply IH.
    rewrite app_length in S. simpl in S. eapply stays_mono; [|exact S]. lia.
Qed.

Section two.
Context (s1 s2 : fs).
Hypothesis O1 : base_ok b s1.
Hypothesis O2 : base_ok b s2.
Hypothesis I : inside_same b s1 s2.

Lemma walk_same_key cs : stays 0 cs -> walk s1 [] (map Normal b ++ cs) = walk s2 [] (map Normal b ++ cs).
Proof.
  intros S. rewrite !walk_base by done. rewrite <- (app_nil_r b). by apply walk_same.
Qed.
Lemma stat_same_key cs : stays 0 cs -> stat s1 (map Normal b ++ cs) = stat s2 (map Normal b ++ cs).
Proof.
  intros S. unfold stat. rewrite walk_same_key by done.
  destruct (walk s2 [] _) as [p| |] eqn:Wk; [|done|done].
  apply walk_key in Wk as [d ->]; [|done]. rewrite (I (b ++ d)); [done|by eexists].
Qed.
Lemma st_get_local key : stays 0 (comps key) -> st_get base s1 key = st_get base s2 key.
Proof.
  intros S. unfold st_get. rewrite key_comps_stays by done. cbn [mbind res_bind].
  unfold path_is_file. rewrite stat_same_key by done.
  destruct (stat s2 _) as [[p [|c]]|] eqn:St; [done| |done].
  unfold open_read. rewrite walk_same_key by done.
  destruct (walk s2 [] _) as [q| |] eqn:Wk; [|done|done].
  apply walk_key in Wk as [d ->]; [|done]. cbn [mbind res_bind].
  rewrite (I (b ++ d)); [done|by eexists].
Qed.
Lemma st_exists_local key : stays 0 (comps key) -> st_exists base s1 key = st_exists base s2 key.
Proof.
  intros S. unfold st_exists. rewrite key_comps_stays by done. cbn [mbind res_bind].
  unfold path_is_file. by rewrite stat_same_key.
Qed.
End two.
End contain_store.

(** ** Keys of staying paths stay *)

Lemma stays_chunk path m pos : stays 2 (comps path) -> plain (am_sep m) -> pos_ok pos ->
  stays 0 (comps (get_chunk_key path m pos)).
Proof.
  intros S P Q. rewrite comps_pieces, pieces_chunk_key, !map_app, <- !comps_pieces.
  apply (stays_app 0 [Normal (B "data"); Normal (B "root")]).
  - by apply (stays_normals 0 [B "data"; B "root"]).
  - apply stays_app; [done|].
    rewrite (comps_plain ("c"%char :: coords_str (am_sep m) pos)) by by apply cpieces_plain.
    apply stays_normals. apply stays_full in S. done.
Qed.

Lemma stays_meta ext sfx path : is_node_ext ext -> slash ∉ strip_dot sfx -> stays 2 (comps path) ->
  stays 0 (comps (metadata_key ext sfx path)).
Proof.
  intros E SF S. rewrite comps_pieces, pieces_node_key by done.
  assert (B2 : map comp_of [B "meta"; B "root"] = map Normal [B "meta"; B "root"]) by done.
  assert (TAG : forall n, comp_of (n ++ dot :: ext ++ dot :: strip_dot sfx)
            = Normal (n ++ dot :: ext ++ dot :: strip_dot sfx)).
  { intros n. unfold comp_of. destruct (node_ext_ok ext E) as (? & ? & ?).
    by rewrite (proj2 (beq_false _ _)) by by apply tag_not_dotdot. }
  rewrite comps_pieces in S.
  unfold meta_pieces. destruct (rev (pieces path)) as [|n r] eqn:R.
  - cbn [map]. rewrite TAG. by apply (stays_normals 0 [_; _]).
  - apply rev_eq_cons in R. destruct (beq n dotdot).
    + rewrite map_app, B2. apply stays_app; [by apply stays_normals|done].
    + rewrite !map_app, B2. apply stays_app; [by apply stays_normals|].
      rewrite R, map_app in S. 
      assert (S1 : stays 2 (map comp_of (rev r))).
      { intros k. specialize (S (k `min` length (map comp_of (rev r)))%nat).
        rewrite take_app_le in S by lia.
        destruct (Nat.le_gt_cases k (length (map comp_of (rev r)))).
        - rewrite Nat.min_l in S by done. done.
        - rewrite Nat.min_r, firstn_all in S by lia. by rewrite take_ge by lia. }
      apply stays_app; [done|]. cbn [map]. rewrite TAG.
      apply (stays_normals _ [_]). apply stays_full in S1. done.
Qed.

Lemma stays_data path : stays 2 (comps path) -> stays 0 (comps (data_path_key path)).
Proof.
  intros S. rewrite comps_pieces, pieces_data_key, map_app, <- comps_pieces.
  apply (stays_app 0 [Normal (B "data"); Normal (B "root")]); [|done].
  by apply (stays_normals 0 [B "data"; B "root"]).
Qed.

Lemma stays_ekey H path : good_suffix (ep_suffix (hy_ep H)) -> stays 2 (comps path) ->
  stays 0 (comps (ekey H path)).
Proof.
  intros G S. rewrite comps_pieces, pieces_ekey, map_app, <- comps_pieces by done.
  apply (stays_app 0 [Normal (B "meta"); Normal (B "root")]); [|done].
  by apply (stays_normals 0 [B "meta"; B "root"]).
Qed.

Lemma never_above_stays ps : forall n, never_above n ps -> stays (Z.of_nat n) (map comp_of ps).
Proof.
  induction ps as [|p ps IH]; intros n N.
  - intros k. cbn [map]. rewrite take_nil. unfold nest. simpl. lia.
  - cbn [never_above] in N. intros [|k]; [unfold nest; simpl; lia|].
    cbn [map take]. rewrite nest_cons. unfold comp_of at 1. case_decide as E.
    + subst. rewrite beq_refl. destruct n as [|n]; [done|]. specialize (IH n N k). lia.
    + rewrite (proj2 (beq_false _ _) E). specialize (IH _ N k). lia.
Qed.
Lemma never_above_path path : never_above 2 (pieces path) -> stays 2 (comps path).
Proof. intros N. rewrite comps_pieces. by apply (never_above_stays _ 2). Qed.
Lemma plain_never_above ps : dotdot ∉ ps -> forall n, never_above n ps.
Proof.
  induction ps as [|p ps IH]; intros N n; [done|]. cbn [never_above]. rewrite decide_False.
  - apply IH. intros I. apply N. by right.
  - intros ->. apply N. left.
Qed.

Section ops.
Context (H : hier) (path : bytes).
Hypothesis PB : plain (hy_base H).
Hypothesis G : good_suffix (ep_suffix (hy_ep H)).
Hypothesis S : stays 2 (comps path).
Notation b := (pieces (hy_base H)).

Lemma stays_a : stays 0 (comps (akey H path)).
Proof. apply stays_meta; [by left|apply G|done]. Qed.
Lemma stays_g : stays 0 (comps (gkey H path)).
Proof. apply stays_meta; [by right|apply G|done]. Qed.

Lemma node_key_stays s k : node_key H s path = Ok k -> stays 0 (comps k).
Proof.
  unfold node_key. destruct (st_exists _ s (akey H path)) as [[]| |]; cbn [mbind res_bind];
    [intros [= <-]; apply stays_a| |done|done].
  destruct (st_exists _ s (gkey H path)) as [[]| |]; cbn [mbind res_bind];
    [intros [= <-]; apply stays_g|done..].
Qed.

Lemma writes_contained s : base_ok b s ->
  (forall attrs, outside_same b s (fst (set_attributes H s path attrs)))
  /\ outside_same b s (fst (create_group H s path))
  /\ (forall m, outside_same b s (fst (create_array H s path m)))
  /\ outside_same b s (fst (Hier.remove H s path))
  /\ (forall C h t m ck, plain (am_sep m) -> pos_ok (ck_pos ck) ->
        outside_same b s (fst (write_chunk C h H s t path m ck)))
  /\ (forall m pos, plain (am_sep m) -> pos_ok pos ->
        outside_same b s (fst (delete_chunk H s path m pos))).
Proof.
  intros O.
  assert (SET : forall k v, stays 0 (comps k) -> outside_same b s (fst (st_set (hy_base H) s k v))).
  { intros k v Sk. destruct (st_set (hy_base H) s k v) as [s' r] eqn:E.
    by apply st_set_contained in E as [? _]. }
  assert (RF : outside_same b s s) by apply outside_refl.
  split; [|split; [|split; [|split; [|split]]]].
  - intros attrs. unfold set_attributes. destruct (node_key H s path) as [k| |] eqn:K; [|done|done].
    apply node_key_stays in K. cbn [on]. destruct (st_get _ s k) as [o| |]; [|done|done]. cbn [on].
    destruct (of_option NotFound o); [|done|done]. cbn [on].
    destruct (from_text as_map a); [|done|done]. cbn [on]. cbv zeta.
    destruct (json_eqb _ _); [done|]. by apply SET.
  - unfold create_group. destruct (st_exists _ s (akey H path)) as [[]| |]; [done| |done|done]. cbn [on].
    destruct (st_exists _ s (gkey H path)) as [[]| |]; [done| |done|done]. cbn [on].
    apply SET, stays_g.
  - intros m. unfold create_array. destruct (st_exists _ s (gkey H path)) as [[]| |]; [done| |done|done]. cbn [on].
    destruct (st_exists _ s (akey H path)) as [[]| |]; [done| |done|done]. cbn [on].
    apply SET, stays_a.
  - unfold Hier.remove. destruct (st_erase _ s (gkey H path)) as [s1 r1] eqn:E1.
    apply st_erase_contained in E1 as [K1 O1]; [|done|done|apply stays_g].
    destruct r1 as [b1| |]; [|done|done]. cbn [andthen].
    destruct (st_erase _ s1 (akey H path)) as [s2 r2] eqn:E2.
    apply st_erase_contained in E2 as [K2 O2]; [|done|done|apply stays_a].
    pose proof (outside_trans _ _ _ _ K1 K2) as K12.
    destruct r2 as [b2| |]; [|done|done]. cbn [andthen].
    destruct (st_erase_prefix _ s2 _) as [s3 r3] eqn:E3.
    apply st_erase_prefix_contained in E3 as K3; [|done|done|by apply stays_data].
    pose proof (outside_trans _ _ _ _ K12 K3). destruct r3; done.
  - intros. apply SET. by apply stays_chunk.
  - intros m pos P Q. unfold delete_chunk.
    destruct (st_erase _ s _) as [s1 r1] eqn:E1.
    apply st_erase_contained in E1 as [K1 O1]; [done|done|done|by apply stays_chunk].
Qed.

Lemma reads_local s1 s2 : base_ok b s1 -> base_ok b s2 -> inside_same b s1 s2 ->
  get_array_metadata H s1 path = get_array_metadata H s2 path
  /\ node_exists H s1 path = node_exists H s2 path
  /\ list_attributes H s1 path = list_attributes H s2 path
  /\ (forall C h t m pos, plain (am_sep m) -> pos_ok pos ->
        read_chunk C h H s1 t path m pos = read_chunk C h H s2 t path m pos)
  /\ (forall C h t m pos old, plain (am_sep m) -> pos_ok pos ->
        read_chunk_into C h H s1 t path m pos old = read_chunk_into C h H s2 t path m pos old).
Proof.
  intros O1 O2 I.
  assert (SG : forall k, stays 0 (comps k) -> st_get (hy_base H) s1 k = st_get (hy_base H) s2 k)
    by (intros; by apply st_get_local).
  assert (SE : forall k, stays 0 (comps k) -> st_exists (hy_base H) s1 k = st_exists (hy_base H) s2 k)
    by (intros; by apply st_exists_local).
  split; [|split; [|split; [|split]]].
  - unfold get_array_metadata. by rewrite (SG _ stays_a).
  - unfold node_exists. fold (ekey H path).
    by rewrite (SE _ stays_a), (SE _ stays_g), (SE _ (stays_ekey H path G S)).
  - unfold list_attributes.
    assert (K : node_key H s1 path = node_key H s2 path).
    { unfold node_key. by rewrite (SE _ stays_a), (SE _ stays_g). }
    rewrite K. destruct (node_key H s2 path) as [k| |] eqn:Q; [|done|done].
    apply node_key_stays in Q. cbn [mbind res_bind]. by rewrite SG.
  - intros. unfold read_chunk. rewrite SG; [done|by apply stays_chunk].
  - intros. unfold read_chunk_into. rewrite SG; [done|by apply stays_chunk].
Qed.
End ops.
