(** Bit reversal. *)
From Coq Require Import ZArith List Bool Lia.
From Verif.Base Require Import Res CInt.
From Verif.Model Require Import Common Fft.
From Verif.Spec Require Import FftSpec.
Import ListNotations.
Open Scope Z_scope.

(** Mathematical reversal of the lowest m bits. *)
Fixpoint brev (m : nat) (x : Z) : Z :=
  match m with O => 0 | S m => (x mod 2) * 2 ^ Z.of_nat m + brev m (x / 2) end.

Lemma brev_range m x : 0 <= brev m x < 2 ^ Z.of_nat m.
Proof.
  revert x; induction m; intros; [cbn; lia|]. cbn [brev].
  rewrite Nat2Z.inj_succ, Z.pow_succ_r by lia. specialize (IHm (x / 2)).
  pose proof (Z.mod_pos_bound x 2 ltac:(lia)).
  assert (x mod 2 = 0 \/ x mod 2 = 1) as [-> | ->] by lia; lia.
Qed.

Lemma brev_even m b : brev (S m) (2 * b) = brev m b.
Proof. cbn [brev]. replace (2 * b) with (b * 2) by lia. rewrite Z.mod_mul, Z.div_mul by lia. lia. Qed.
Lemma brev_odd m b : brev (S m) (2 * b + 1) = 2 ^ Z.of_nat m + brev m b.
Proof.
  cbn [brev]. replace (2 * b + 1) with (1 + b * 2) by lia.
  rewrite Z.mod_add, Z.div_add by lia. change (1 mod 2) with 1. change (1 / 2) with 0. rewrite Z.add_0_l. lia.
Qed.

(** One step of the loop, without wrapping. *)
Lemma step_eq r x : 0 <= r < 2 ^ 63 ->
  Z.lor (to_uint64 (Z.shiftl r 1)) (Z.land x 1) = r * 2 + x mod 2.
Proof.
  intros H. change (2^63) with 9223372036854775808 in H.
  rewrite Z.shiftl_mul_pow2 by lia. change (2 ^ 1) with 2.
  unfold to_uint64, to_unsigned. change (2^64) with 18446744073709551616. rewrite Z.mod_small by lia.
  change 1 with (Z.ones 1) at 1. rewrite Z.land_ones by lia. change (2 ^ 1) with 2.
  assert (D : Z.land (r * 2) (x mod 2) = 0); [|now rewrite <- Z.lxor_lor, Z.add_nocarry_lxor by auto].
  apply Z.bits_inj'. intros i Hi. rewrite Z.land_spec, Z.bits_0.
  destruct (Z.eq_dec i 0) as [->|N].
  - replace (r * 2) with (2 * r) by lia. rewrite Z.testbit_even_0. auto.
  - assert (E : Z.testbit (x mod 2) i = false).
    { change 2 with (2 ^ 1). apply Z.mod_pow2_bits_high. lia. }
    rewrite E. apply andb_false_r.
Qed.

Lemma reverse_loop {B} (f : Z * Z -> B -> Z * Z) (Hf : forall r x b, f (r, x) b = (Z.lor (to_uint64 (Z.shiftl r 1)) (Z.land x 1), Z.shiftr x 1)) :
  forall l r x, 0 <= r -> forall k, 0 <= k -> r < 2 ^ k -> k + zlen l <= 64 ->
  fst (fold_left f l (r, x)) = r * 2 ^ zlen l + brev (length l) x.
Proof.
  induction l as [|a l IH]; intros r x H0 k Hk Hr HL.
  - cbn. unfold zlen; cbn. lia.
  - cbn [fold_left]. rewrite Hf. unfold zlen in HL; cbn [length] in HL.
    rewrite step_eq.
    2:{ split; [lia|]. apply Z.lt_le_trans with (2 ^ k); [lia|]. apply Z.pow_le_mono_r; lia. }
    pose proof (Z.mod_pos_bound x 2 ltac:(lia)) as M.
    assert (P : 0 <= r * 2 + x mod 2) by lia.
    rewrite (IH _ _ P (k + 1)); try lia.
    + rewrite <- Z.div2_spec, Z.div2_div. unfold zlen; cbn [length brev].
      rewrite Nat2Z.inj_succ, Z.pow_succ_r by lia. ring.
    + rewrite Z.pow_add_r by lia. change (2 ^ 1) with 2. pose proof (Z.mod_pos_bound x 2 ltac:(lia)). lia.
    + unfold zlen. lia.
Qed.

Lemma reverse_bits_brev x n : 0 <= n <= 64 -> reverse_bits x n = brev (Z.to_nat n) x.
Proof.
  intros H. unfold reverse_bits.
  match goal with |- fst (fold_left ?f _ _) = _ => rewrite (reverse_loop f (fun r x b => eq_refl) (zrange n) 0 x ltac:(lia) 0) end; try lia.
  - now rewrite zrange_length.
  - unfold zlen. rewrite zrange_length. lia.
Qed.

Lemma brev_bits m : forall x i, 0 <= i < Z.of_nat m -> Z.testbit (brev m x) i = Z.testbit x (Z.of_nat m - 1 - i).
Proof.
  induction m; intros x i Hi; [lia|]. cbn [brev].
  pose proof (brev_range m (x / 2)) as R. pose proof (Z.mod_pos_bound x 2 ltac:(lia)) as M.
  rewrite Z.add_nocarry_lxor.
  2:{ apply Z.bits_inj'. intros k Hk. rewrite Z.land_spec, Z.bits_0.
      destruct (Z_lt_le_dec k (Z.of_nat m)).
      - rewrite Z.mul_pow2_bits_low by lia. auto.
      - replace (brev m (x / 2)) with (brev m (x / 2) mod 2 ^ Z.of_nat m) by (apply Z.mod_small; lia).
        rewrite Z.mod_pow2_bits_high by lia. apply andb_false_r. }
  rewrite Z.lxor_spec.
  destruct (Z.eq_dec i (Z.of_nat m)) as [->|N].
  - rewrite Z.mul_pow2_bits by lia. rewrite Z.sub_diag.
    replace (brev m (x / 2)) with (brev m (x / 2) mod 2 ^ Z.of_nat m) by (apply Z.mod_small; lia).
    rewrite Z.mod_pow2_bits_high by lia. rewrite xorb_false_r.
    replace (Z.of_nat (S m) - 1 - Z.of_nat m) with 0 by lia.
    change 2 with (2 ^ 1). rewrite Z.mod_pow2_bits_low by lia. auto.
  - rewrite Z.mul_pow2_bits_low by lia. rewrite xorb_false_l. rewrite IHm by lia.
    replace (Z.of_nat (S m) - 1 - i) with (Z.of_nat m - 1 - i + 1) by lia.
    change (x / 2) with (x / 2 ^ 1). rewrite Z.div_pow2_bits by lia. auto.
Qed.

Lemma brev_invol m x : 0 <= x < 2 ^ Z.of_nat m -> brev m (brev m x) = x.
Proof.
  intros H. pose proof (brev_range m (brev m x)) as R.
  apply Z.bits_inj'. intros i Hi. destruct (Z_lt_le_dec i (Z.of_nat m)).
  - rewrite brev_bits by lia. rewrite brev_bits by lia. f_equal. lia.
  - rewrite <- (Z.mod_small _ _ R), <- (Z.mod_small _ _ H).
    rewrite !Z.mod_pow2_bits_high by lia. auto.
Qed.

Lemma reverse_bits_reversed x n : 0 <= n <= 64 -> reversed n x (reverse_bits x n).
Proof.
  intros H. rewrite reverse_bits_brev by auto. split.
  - pose proof (brev_range (Z.to_nat n) x). rewrite Z2Nat.id in H0 by lia. auto.
  - intros i Hi. rewrite brev_bits by lia. f_equal. lia.
Qed.
Lemma reverse_bits_invol x n : 0 <= n <= 64 -> 0 <= x < 2 ^ n -> reverse_bits (reverse_bits x n) n = x.
Proof. intros H Hx. rewrite !reverse_bits_brev by auto. apply brev_invol. rewrite Z2Nat.id by lia. auto. Qed.

Lemma reversed_unique n x y y' : reversed n x y -> reversed n x y' -> 0 <= n -> y = y'.
Proof.
  intros [R B] [R' B'] Hn. apply Z.bits_inj'. intros i Hi. destruct (Z_lt_le_dec i n).
  - rewrite B, B' by lia. auto.
  - rewrite <- (Z.mod_small _ _ R), <- (Z.mod_small _ _ R'). rewrite !Z.mod_pow2_bits_high by lia. auto.
Qed.
