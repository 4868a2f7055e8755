(** Bits of integers, used by the codec proofs. *)

From Coq Require Import ZArith List Bool Lia ZifyBool.
From Verif Require Import CodecSpec.
Import ListNotations.
Open Scope Z_scope.

Lemma pow2_pos : forall n, 0 <= n -> 0 < 2 ^ n.
Proof. intros. apply Z.pow_pos_nonneg; lia. Qed.

Lemma testbit_high : forall a n k, 0 <= a < 2 ^ n -> n <= k -> Z.testbit a k = false.
Proof.
  intros a n k H K. destruct (Z.eq_dec a 0) as [->|X]; [apply Z.bits_0|].
  apply Z.bits_above_log2; [lia|].
  apply Z.lt_le_trans with n; [|lia]. apply Z.log2_lt_pow2; lia.
Qed.

Lemma add_pow2_testbit : forall a n k, 0 <= n -> 0 <= a < 2 ^ n -> 0 <= k ->
  Z.testbit (a + 2 ^ n) k = (k =? n) || Z.testbit a k.
Proof.
  intros a n k N A K.
  assert (E : a + 2 ^ n = Z.lor a (2 ^ n)).
  { rewrite <- Z.lxor_lor.
    - apply Z.add_nocarry_lxor. apply Z.bits_inj'. intros j J. rewrite Z.land_spec, Z.bits_0.
      destruct (Z.eq_dec j n) as [->|X].
      + rewrite (testbit_high a n n); auto; lia.
      + rewrite Z.pow2_bits_false; auto with zarith. apply andb_false_r.
    - apply Z.bits_inj'. intros j J. rewrite Z.land_spec, Z.bits_0.
      destruct (Z.eq_dec j n) as [->|X].
      + rewrite (testbit_high a n n); auto; lia.
      + rewrite Z.pow2_bits_false; auto with zarith. apply andb_false_r. }
  rewrite E, Z.lor_spec, Z.pow2_bits_eqb by lia. rewrite orb_comm. f_equal.
  destruct (Z.eqb_spec n k), (Z.eqb_spec k n); auto; lia.
Qed.

Lemma bits_val_range : forall f n, 0 <= bits_val f n < 2 ^ Z.of_nat n.
Proof.
  induction n; [simpl; lia|].
  cbn [bits_val]. rewrite Nat2Z.inj_succ, Z.pow_succ_r by lia.
  pose proof (pow2_pos (Z.of_nat n) ltac:(lia)).
  destruct (f (Z.of_nat n)); lia.
Qed.

Lemma bits_val_testbit : forall f n k, 0 <= k ->
  Z.testbit (bits_val f n) k = (k <? Z.of_nat n) && f k.
Proof.
  induction n; intros k K.
  - simpl. rewrite Z.bits_0. replace (k <? 0) with false by lia. reflexivity.
  - cbn [bits_val]. pose proof (bits_val_range f n).
    destruct (Z.lt_trichotomy k (Z.of_nat n)) as [L|[E|G]].
    + replace (k <? Z.of_nat (S n)) with true by lia.
      destruct (f (Z.of_nat n)).
      * rewrite add_pow2_testbit by lia. rewrite IHn by lia.
        replace (k =? Z.of_nat n) with false by lia.
        replace (k <? Z.of_nat n) with true by lia. reflexivity.
      * rewrite Z.add_0_r, IHn by lia. replace (k <? Z.of_nat n) with true by lia. reflexivity.
    + subst k. replace (Z.of_nat n <? Z.of_nat (S n)) with true by lia.
      destruct (f (Z.of_nat n)).
      * rewrite add_pow2_testbit by lia. rewrite Z.eqb_refl. reflexivity.
      * rewrite Z.add_0_r, IHn by lia. now rewrite Z.ltb_irrefl.
    + replace (k <? Z.of_nat (S n)) with false by lia.
      destruct (f (Z.of_nat n)).
      * rewrite add_pow2_testbit by lia. rewrite IHn by lia.
        replace (k =? Z.of_nat n) with false by lia.
        replace (k <? Z.of_nat n) with false by lia. reflexivity.
      * rewrite Z.add_0_r, IHn by lia. replace (k <? Z.of_nat n) with false by lia. reflexivity.
Qed.

Lemma bits_val_ext : forall f g n, (forall k, 0 <= k < Z.of_nat n -> f k = g k) ->
  bits_val f n = bits_val g n.
Proof.
  induction n; intros H; auto. cbn [bits_val]. rewrite IHn by (intros; apply H; lia).
  rewrite H by lia. reflexivity.
Qed.

Lemma bits_val_of : forall z n, 0 <= z < 2 ^ Z.of_nat n -> bits_val (Z.testbit z) n = z.
Proof.
  intros z n H. apply Z.bits_inj'. intros k K. rewrite bits_val_testbit by auto.
  destruct (Z.ltb_spec k (Z.of_nat n)); auto. simpl. symmetry. eapply testbit_high; eauto.
Qed.

Lemma raw_value_range : forall o start len d, 0 <= len -> 0 <= raw_value o start len d < 2 ^ len.
Proof.
  intros. unfold raw_value. pose proof (bits_val_range
    (fun k => payload_bit d (sig_pos o start len k)) (Z.to_nat len)).
  now rewrite Z2Nat.id in H0 by lia.
Qed.

Lemma testbit_bound : forall z n, 0 <= n -> 0 <= z ->
  (forall k, n <= k -> Z.testbit z k = false) -> z < 2 ^ n.
Proof.
  intros z n N P H. destruct (Z.eq_dec z 0) as [->|X]; [apply pow2_pos; lia|].
  apply Z.log2_lt_pow2; [lia|].
  destruct (Z.lt_ge_cases (Z.log2 z) n); auto.
  exfalso. specialize (H (Z.log2 z) H0).
  rewrite Z.bit_log2 in H by lia. discriminate.
Qed.

Lemma lor_range : forall a b n, 0 <= n -> 0 <= a < 2 ^ n -> 0 <= b < 2 ^ n ->
  0 <= Z.lor a b < 2 ^ n.
Proof.
  intros a b n N A B. split; [apply Z.lor_nonneg; lia|].
  apply testbit_bound; auto; [apply Z.lor_nonneg; lia|].
  intros k K. rewrite Z.lor_spec, (testbit_high a n), (testbit_high b n); auto.
Qed.

Lemma land_range : forall a b n, 0 <= n -> 0 <= b < 2 ^ n -> 0 <= Z.land a b < 2 ^ n.
Proof.
  intros a b n N B. assert (0 <= Z.land a b) by (apply Z.land_nonneg; lia). split; auto.
  apply testbit_bound; auto.
  intros k K. rewrite Z.land_spec, (testbit_high b n), andb_false_r; auto.
Qed.

Lemma ones_testbit : forall n k, 0 <= n -> 0 <= k -> Z.testbit (2 ^ n - 1) k = (k <? n).
Proof.
  intros n k N K. replace (2 ^ n - 1) with (Z.ones n) by (rewrite Z.ones_equiv; lia).
  destruct (Z.ltb_spec k n).
  - apply Z.ones_spec_low; lia.
  - apply Z.ones_spec_high; lia.
Qed.

Lemma mod_testbit : forall z n k, 0 <= n -> 0 <= k ->
  Z.testbit (z mod 2 ^ n) k = (k <? n) && Z.testbit z k.
Proof.
  intros z n k N K. destruct (Z.ltb_spec k n).
  - rewrite Z.mod_pow2_bits_low by lia. reflexivity.
  - rewrite Z.mod_pow2_bits_high by lia. reflexivity.
Qed.
