(** Facts about compressor settings (Meta.v). *)
From Verif Require Import Meta Spec BaseFacts.
From Coq Require Import ZifyBool.

Lemma lz4_block_size_spec bs :
  lz4_effective_block_size bs ∈ lz4_sizes
  /\ (forall s, s ∈ lz4_sizes -> bs <= s -> bs <= lz4_effective_block_size bs <= s)
  /\ ((forall s, s ∈ lz4_sizes -> s < bs) ->
      forall s, s ∈ lz4_sizes -> s <= lz4_effective_block_size bs).
Proof.
  assert (forall s, s ∈ lz4_sizes <-> s = 65536 \/ s = 262144 \/ s = 1048576 \/ s = 4194304) as Hs.
  { intros s. unfold lz4_sizes. rewrite !elem_of_cons, elem_of_nil. tauto. }
  setoid_rewrite Hs. unfold lz4_effective_block_size.
  destruct (bs <=? 65536) eqn:E1; [|destruct (bs <=? 262144) eqn:E2; [|destruct (bs <=? 1048576) eqn:E3]];
    (split; [tauto|split; intros; lia]).
Qed.

Lemma gzip_level_spec l :
  (0 <= l <= 9 -> gzip_effective_level l = Some l)
  /\ (~ 0 <= l <= 9 -> gzip_effective_level l = None).
Proof.
  unfold gzip_effective_level.
  destruct ((l <? 0) || (9 <? l)) eqn:E; split; intros; try done; lia.
Qed.

Lemma from_str_display c s :
  map lower_byte s = map lower_byte (compression_display c) ->
  compression_from_str true s = Ok (codec_defaults c).
Proof. intros H. unfold compression_from_str. rewrite H. by destruct c. Qed.

Lemma from_str_inv lz s c :
  compression_from_str lz s = Ok c ->
  c = codec_defaults c /\ map lower_byte s = map lower_byte (compression_display c).
Proof.
  unfold compression_from_str. cbv zeta. intros H.
  destruct (beq _ (B "raw")) eqn:E1; [apply beq_true in E1; injection H as <-; by rewrite E1|].
  destruct (beq _ (B "bzip2")) eqn:E2; [apply beq_true in E2; injection H as <-; by rewrite E2|].
  destruct (beq _ (B "gzip")) eqn:E3; [apply beq_true in E3; injection H as <-; by rewrite E3|].
  destruct (beq _ (B "xz")) eqn:E4; [apply beq_true in E4; injection H as <-; by rewrite E4|].
  destruct lz; cbn [andb] in H; [|done].
  destruct (beq _ (B "lz4")) eqn:E5; [apply beq_true in E5; injection H as <-; by rewrite E5|done].
Qed.
