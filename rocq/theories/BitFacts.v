(** Bit-level lemmas. *)
From Verif Require Import Base.
From Coq Require Import ZifyBool ZifyNat ZifyN.

Lemma testbit_high a k i : a < 2 ^ k -> k <= i -> N.testbit a i = false.
Proof.
  intros L I. destruct (N.eq_dec a 0) as [->|NZ]; [apply N.bits_0|].
  apply N.bits_above_log2. apply N.log2_lt_pow2 in L; lia.
Qed.
Lemma land_shiftl_low x k y : y < 2 ^ k -> N.land (N.shiftl x k) y = 0.
Proof.
  intros L. apply N.bits_inj. intros i. rewrite N.land_spec, N.bits_0.
  destruct (N.lt_ge_cases i k) as [H|H].
  - now rewrite N.shiftl_spec_low.
  - now rewrite (testbit_high y k i), andb_false_r.
Qed.
Lemma lor_disjoint a b : N.land a b = 0 -> N.lor a b = a + b.
Proof. intros H. rewrite N.add_nocarry_lxor, N.lxor_lor by assumption. reflexivity. Qed.
Lemma lor_shiftl_add x k y : y < 2 ^ k -> N.lor (N.shiftl x k) y = x * 2 ^ k + y.
Proof.
  intros L. rewrite lor_disjoint by now apply land_shiftl_low. now rewrite N.shiftl_mul_pow2.
Qed.
Lemma land_low_mask y k n : y < 2 ^ n -> N.land y (N.lnot (N.ones k) n) = y / 2 ^ k * 2 ^ k.
Proof.
  intros L. destruct (N.eq_dec y 0) as [->|NZ].
  - rewrite N.land_0_l. now rewrite N.div_0_l by (apply N.pow_nonzero; lia).
  - rewrite <- N.ldiff_land_low by (apply N.log2_lt_pow2; lia).
    rewrite N.ldiff_ones_r. now rewrite N.shiftl_mul_pow2, N.shiftr_div_pow2.
Qed.
Lemma pow2_pos k : 1 <= 2 ^ k.
Proof. pose proof (N.pow_nonzero 2 k ltac:(lia)). lia. Qed.
Lemma ones_sub k : N.ones k = 2 ^ k - 1.
Proof. rewrite N.ones_equiv. lia. Qed.
Lemma bit_of_pow2_plus k r : r < 2 ^ k -> N.testbit (2 ^ k + r) k = true.
Proof.
  intros L. rewrite <- (N.mul_1_l (2 ^ k)), <- lor_shiftl_add by assumption.
  rewrite N.lor_spec, N.shiftl_spec_high', N.sub_diag by lia. reflexivity.
Qed.
Lemma land_pow2_pred x : x <> 0 -> N.land x (x - 1) = 0 <-> exists k, x = 2 ^ k.
Proof.
  intros NZ. destruct (N.log2_spec x ltac:(lia)) as [L1 L2]. set (k := N.log2 x) in *.
  rewrite N.pow_succ_r' in L2. split.
  - intros H. exists k. destruct (N.eq_dec x (2 ^ k)) as [E|E]; [exact E|].
    exfalso. assert (B : N.testbit (N.land x (x - 1)) k = true).
    { rewrite N.land_spec.
      replace x with (2 ^ k + (x - 2 ^ k)) at 1 by lia. rewrite bit_of_pow2_plus by lia.
      replace (x - 1) with (2 ^ k + (x - 1 - 2 ^ k)) by lia. now rewrite bit_of_pow2_plus by lia. }
    rewrite H, N.bits_0 in B. discriminate.
  - intros [j ->]. rewrite <- ones_sub. rewrite N.land_ones.
    apply N.mod_same. apply N.pow_nonzero. lia.
Qed.
