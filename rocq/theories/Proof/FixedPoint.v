(** Proofs about fixed-point arithmetic. *)
From Coq Require Import ZArith List Bool Lia Reals Lra.
From Flocq Require Import Core BinarySingleNaN Mult_error.
From Verif.Base Require Import Res CInt Float.
From Verif.Model Require Import FixedPoint.
From Verif.Spec Require Import BayesSpec.
Import ListNotations.
Open Scope Z_scope.
Open Scope res_scope.

Lemma rdiv n c : 0 <= n -> 0 < c -> nearest_away n c ((n + c / 2) / c).
Proof.
  intros Hn Hc. unfold nearest_away.
  pose proof (Z.div_mod (n + c / 2) c ltac:(lia)) as E. pose proof (Z.mod_pos_bound (n + c / 2) c Hc) as B.
  pose proof (Z.div_mod c 2 ltac:(lia)) as E2. pose proof (Z.mod_pos_bound c 2 ltac:(lia)) as B2.
  set (r := (n + c / 2) / c) in *. rewrite (Z.mul_comm r c). set (m := (n + c / 2) mod c) in *.
  assert (D : c * r - n = c / 2 - m) by lia. rewrite D.
  split; [lia|]. intros T. assert (c * r - n > 0) by lia. lia.
Qed.
Lemma nearest_away_abs n d r : nearest_away (Z.abs n) (Z.abs d) (Z.abs r) -> 0 <= n * (r * d) -> nearest_away n d r.
Proof.
  unfold nearest_away. intros [H1 H2] S. rewrite Z.abs_involutive in *. rewrite <- Z.abs_mul in *.
  assert (E : Z.abs (r * d - n) = Z.abs (Z.abs (r * d) - Z.abs n)) by nia.
  rewrite E. split; [auto|]. intros T. apply H2 in T. rewrite !Z.abs_involutive in T. auto.
Qed.

Lemma quot_abs_case t b r : b <> 0 -> Z.quot t b = r -> Z.abs r = Z.abs t / Z.abs b.
Proof.
  intros Hb <-. rewrite <- Z.quot_abs by auto. rewrite Z.quot_div_nonneg; auto; lia.
Qed.

Theorem q16_div_ok a b : int32_ok a -> int32_ok b -> b <> 0 ->
  exists r, nearest_away (a * 65536) b r /\ eml_q16_div a b = Ret (to_int32 r).
Proof.
  intros Ha Hb Nb. unfold eml_q16_div. change (2 ^ EML_Q16_FRACT_BITS) with 65536.
  rewrite chk_int64_ok by (unfold int64_ok, int32_ok in *; lia). cbn [bind]. cbv zeta.
  set (N := a * 65536).
  assert (Hq : Z.abs (Z.quot b 2) = Z.abs b / 2).
  { rewrite <- Z.quot_abs by lia. change (Z.abs 2) with 2. apply Z.quot_div_nonneg; lia. }
  assert (Hq0 : 0 <= b * Z.quot b 2).
  { destruct (Z.lt_trichotomy b 0) as [L|[L|L]]; [|lia|].
    - assert (Z.quot b 2 <= 0). { rewrite <- (Z.opp_involutive b), Z.quot_opp_l by lia. pose proof (Z.quot_pos (- b) 2). lia. } nia.
    - pose proof (Z.quot_pos b 2). nia. }
  destruct (Z.eqb_spec b 0); [lia|].
  set (h := Z.quot b 2) in *. set (same := ((0 <=? N) && (0 <=? b)) || ((N <? 0) && (b <? 0))).
  set (t := if same then N + h else N - h).
  assert (Bh : Z.abs h <= 2 ^ 30).
  { rewrite Hq. change (2 ^ 30) with 1073741824. apply Z.div_le_upper_bound; [lia|]. unfold int32_ok in Hb. lia. }
  change (2 ^ 30) with 1073741824 in Bh.
  assert (E : (if same then chk_int64 (N + h) else chk_int64 (N - h)) = Ret t).
  { unfold t. destruct same; apply chk_int64_ok; unfold int64_ok, int32_ok, N in *; lia. }
  rewrite E. cbn [bind]. exists (Z.quot t b). split; [|reflexivity].
  assert (Hsame : same = true <-> (0 <= N /\ 0 <= b) \/ (N < 0 /\ b < 0)).
  { unfold same. rewrite orb_true_iff, !andb_true_iff, !Z.leb_le, !Z.ltb_lt. tauto. }
  assert (Hh : (0 < b -> 0 <= h) /\ (b < 0 -> h <= 0)) by nia.
  assert (At : Z.abs t = Z.abs N + Z.abs b / 2).
  { rewrite <- Hq. unfold t. destruct same.
    - destruct (proj1 Hsame eq_refl); lia.
    - destruct (Z.lt_trichotomy b 0), (Z.lt_ge_cases N 0); try (assert (false = true) by (apply Hsame; lia); discriminate); lia. }
  apply nearest_away_abs.
  - rewrite (quot_abs_case t b _ Nb eq_refl), At. apply rdiv; lia.
  - assert (Q : Z.quot t b * b = t - Z.rem t b) by (pose proof (Z.quot_rem t b Nb); lia).
    rewrite Q. pose proof (Z.rem_bound_abs t b Nb) as RB.
    assert (TS : 0 <= N * t).
    { unfold t. destruct same.
      - destruct (proj1 Hsame eq_refl); nia.
      - destruct (Z.lt_trichotomy b 0), (Z.lt_ge_cases N 0); try (assert (false = true) by (apply Hsame; lia); discriminate); nia. }
    assert (RS : 0 <= t * Z.rem t b) by (rewrite Z.mul_comm; apply Z.rem_sign_mul; lia).
    assert (RA : Z.abs (Z.rem t b) <= Z.abs t).
    { rewrite <- Z.rem_abs by lia. apply Z.rem_le; lia. }
    destruct (Z.eq_dec N 0) as [->|NN]; [lia|]. destruct (Z.lt_ge_cases N 0); nia.
Qed.
Theorem q16_div_zero a : int32_ok a -> eml_q16_div a 0 = Err DivByZero.
Proof.
  intros Ha. unfold eml_q16_div. change (2 ^ EML_Q16_FRACT_BITS) with 65536.
  rewrite chk_int64_ok by (unfold int64_ok, int32_ok in *; lia). cbn [bind]. change (Z.quot 0 2) with 0.
  rewrite !(chk_int64_ok (_ + 0)), (chk_int64_ok (_ - 0)) by (unfold int64_ok, int32_ok in *; lia).
  match goal with |- context [if ?c then _ else _] => destruct c end; reflexivity.
Qed.

(** nearest_away determines the result. *)
Lemma nearest_away_unique n d r r' : d <> 0 -> nearest_away n d r -> nearest_away n d r' -> r = r'.
Proof.
  intros Hd [A1 A2] [B1 B2].
  destruct (Z.eq_dec r r') as [|N]; auto. exfalso.
  assert (D : Z.abs d <= Z.abs (r * d - r' * d)).
  { replace (r * d - r' * d) with ((r - r') * d) by ring. rewrite Z.abs_mul.
    assert (1 <= Z.abs (r - r')) by lia. nia. }
  set (u := r * d) in *. set (v := r' * d) in *.
  assert (2 * Z.abs (u - n) = Z.abs d) by lia. assert (2 * Z.abs (v - n) = Z.abs d) by lia.
  specialize (A2 ltac:(lia)). specialize (B2 ltac:(lia)).
  assert (Q : 0 < Z.abs u < Z.abs d) by lia. unfold u in Q. rewrite Z.abs_mul in Q.
  destruct (Z.eq_dec r 0) as [->|Nr]; [change (Z.abs 0) with 0 in Q; lia|].
  assert (1 * Z.abs d <= Z.abs r * Z.abs d) by (apply Z.mul_le_mono_nonneg_r; lia). lia.
Qed.
(** Larger numerators give larger quotients (in magnitude, for the same divisor). *)
Lemma nearest_away_mono n n' d r r' : 0 < d -> nearest_away n d r -> nearest_away n' d r' ->
  Z.abs n <= Z.abs n' -> Z.abs r <= Z.abs r'.
Proof.
  intros Hd [A1 A2] [B1 B2] Hn. destruct (Z.le_gt_cases (Z.abs r) (Z.abs r')) as [|G]; auto. exfalso.
  rewrite (Z.abs_eq d) in * by lia.
  assert (U : Z.abs (r * d) = Z.abs r * d) by (rewrite Z.abs_mul, (Z.abs_eq d) by lia; auto).
  assert (U' : Z.abs (r' * d) = Z.abs r' * d) by (rewrite Z.abs_mul, (Z.abs_eq d) by lia; auto).
  assert (Gd : (Z.abs r' + 1) * d <= Z.abs r * d) by (apply Z.mul_le_mono_nonneg_r; lia).
  revert A1 B1 B2 U U' Gd. generalize (r * d) (r' * d) (Z.abs r * d). intros x y p A1 B1 B2 U U' Gd. clear A2.
  replace ((Z.abs r' + 1) * d) with (Z.abs r' * d + d) in Gd by ring. revert U' Gd. generalize (Z.abs r' * d). intros q U' Gd.
  assert (P1 : 2 * (p - Z.abs n) <= d) by (clear - A1 U; lia).
  assert (P2 : Z.abs n' - q <= Z.abs (y - n')) by (clear - U'; lia).
  assert (T : 2 * Z.abs (y - n') = d) by (clear - P1 P2 B1 Gd Hn Hd; lia).
  specialize (B2 T). clear - B2 P1 Gd Hn U' Hd. lia.
Qed.

(** ** Multiplication *)
Theorem q16_mul_ok x y : Z.abs x < 2 ^ 23 -> Z.abs y < 2 ^ 23 ->
  exists r, eml_q16_mul x y = Ret r /\ Z.abs (x * y - 65536 * r) <= 255 * (Z.abs x + Z.abs y) + 65025.
Proof.
  intros Hx Hy. unfold eml_q16_mul. change (EML_Q16_FRACT_BITS / 2) with 8.
  rewrite !Z.shiftr_div_pow2 by lia. change (2 ^ 8) with 256. change (2 ^ 23) with 8388608 in *.
  pose proof (Z.div_mod x 256 ltac:(lia)) as Ex. pose proof (Z.mod_pos_bound x 256 ltac:(lia)) as Bx.
  pose proof (Z.div_mod y 256 ltac:(lia)) as Ey. pose proof (Z.mod_pos_bound y 256 ltac:(lia)) as By.
  set (p := x / 256) in *. set (e := x mod 256) in *. set (q := y / 256) in *. set (f := y mod 256) in *.
  assert (-32768 <= p <= 32767) by lia. assert (-32768 <= q <= 32767) by lia.
  exists (p * q). split; [apply chk_int32_ok; unfold int32_ok; nia|].
  assert (E : x * y - 65536 * (p * q) = x * f + y * e - e * f) by (rewrite Ex at 1; rewrite Ey at 1; rewrite Ex at 1; rewrite Ey; ring).
  rewrite E.
  assert (Z.abs (x * f) <= 255 * Z.abs x) by (rewrite Z.abs_mul, (Z.abs_eq f) by lia; nia).
  assert (Z.abs (y * e) <= 255 * Z.abs y) by (rewrite Z.abs_mul, (Z.abs_eq e) by lia; nia).
  assert (0 <= e * f <= 65025) by nia. lia.
Qed.
Theorem q16_fromint_toint x : int16_ok x -> exists q, EML_Q16_FROMINT x = Ret q /\ EML_Q16_TOINT q = x.
Proof.
  intros H. unfold EML_Q16_FROMINT, EML_Q16_TOINT. change (2 ^ EML_Q16_FRACT_BITS) with 65536.
  rewrite chk_int32_ok by (unfold int32_ok, int16_ok in *; lia). exists (x * 65536). split; [auto|].
  rewrite Z.shiftr_div_pow2 by (unfold EML_Q16_FRACT_BITS; lia). change (2 ^ EML_Q16_FRACT_BITS) with 65536.
  apply Z.div_mul. lia.
Qed.

(** ** Floats *)
Section Scale.
Context {prec emax : Z} {Hp : Prec_gt_0 prec} {Hm : Prec_lt_emax prec emax}.
Notation fl := (binary_float prec emax).
Notation fexp := (SpecFloat.fexp prec emax).
#[local] Instance vf : Valid_exp fexp.
Proof. apply FLT_exp_valid. exact Hp. Qed.

Lemma ftrunc_R (x : fl) : ftrunc x = Ztrunc (B2R x).
Proof.
  apply eq_IZR. unfold ftrunc. rewrite Btrunc_correct by exact Hm. unfold round, F2R, scaled_mantissa, cexp, FIX_exp; simpl.
  now rewrite !Rmult_1_r.
Qed.

Lemma scale_exact (x : fl) k : is_finite x = true -> 0 <= k <= prec ->
  (Rabs (B2R x) * IZR (2 ^ k) < bpow radix2 emax)%R ->
  B2R (fmul x (f_of_Z (2 ^ k))) = (B2R x * IZR (2 ^ k))%R /\ is_finite (fmul x (f_of_Z (2 ^ k))) = true.
Proof.
  intros Fx Hk Hb.
  assert (P : 0 < 2 ^ k) by (apply Z.pow_pos_nonneg; lia).
  destruct (@f_of_Z_exact prec emax Hp Hm (2 ^ k)) as [E F].
  { rewrite Z.abs_eq by lia. apply Z.pow_le_mono_r; lia. }
  unfold fmul. pose proof (Bmult_correct prec emax Hp Hm mode_NE x (f_of_Z (2 ^ k))) as C.
  simpl round_mode in C. rewrite E in C.
  assert (G : round radix2 fexp ZnearestE (B2R x * IZR (2 ^ k)) = (B2R x * IZR (2 ^ k))%R).
  { apply round_generic; auto with typeclass_instances.
    change 2 with (radix_val radix2). rewrite IZR_Zpower by lia.
    apply mult_bpow_pos_exact_FLT; [apply generic_format_B2R|lia]. }
  rewrite G in C. rewrite Rlt_bool_true in C.
  - destruct C as (C1 & C2 & _). rewrite C2, Fx, F. auto.
  - rewrite Rabs_mult, (Rabs_pos_eq (IZR (2 ^ k))) by (apply IZR_le; lia). exact Hb.
Qed.

(** EML_Q16_FROMFLOAT truncates x * 2^16. *)
Lemma q16_fromfloat_ok (x : fl) : is_finite x = true -> 16 <= prec -> 48 <= emax -> int32_ok (Ztrunc (B2R x * 65536)) ->
  (Rabs (B2R x) < 65536)%R ->
  EML_Q16_FROMFLOAT x = Ret (Ztrunc (B2R x * 65536)).
Proof.
  intros Fx Hpr He Hi Hx. unfold EML_Q16_FROMFLOAT, cast_int, EML_Q16_FRACT_BITS.
  destruct (scale_exact x 16 Fx) as [E F]; [lia| |].
  - change (2 ^ 16) with 65536. apply Rlt_le_trans with (bpow radix2 32).
    + change (bpow radix2 32) with 4294967296%R. lra.
    + apply bpow_le. lia.
  - change (2 ^ 16) with 65536 in *. set (y := fmul x (f_of_Z 65536)) in *.
    assert (T : ftrunc y = Ztrunc (B2R x * 65536)) by (rewrite ftrunc_R, E; reflexivity).
    rewrite T. unfold int32_ok in Hi.
    destruct (Z.leb_spec (-2147483648) (Ztrunc (B2R x * 65536))), (Z.leb_spec (Ztrunc (B2R x * 65536)) 2147483647); try lia.
    destruct y; try discriminate; reflexivity.
Qed.
End Scale.

Theorem from_float_ok (x : f64) k : is_finite x = true -> 0 <= k <= 31 ->
  (Rabs (B2R x) * IZR (2 ^ k) < IZR (2 ^ 63))%R -> from_float x k = Ret (Ztrunc (B2R x * IZR (2 ^ k))).
Proof.
  intros Fx Hk Hb. unfold from_float. cbv zeta.
  destruct (scale_exact x k Fx) as [E F]; [lia| |].
  - eapply Rlt_trans; [exact Hb|]. change 2 with (radix_val radix2) at 1. rewrite IZR_Zpower by lia. apply bpow_lt. lia.
  - set (y := fmul x (f_of_Z (2 ^ k))) in *.
    assert (P : 0 < 2 ^ k) by (apply Z.pow_pos_nonneg; lia).
    assert (T : ftrunc y = Ztrunc (B2R x * IZR (2 ^ k))) by (rewrite ftrunc_R, E; reflexivity).
    rewrite T. set (t := (B2R x * IZR (2 ^ k))%R) in *.
    assert (At : (Rabs t < IZR (2 ^ 63))%R).
    { unfold t. rewrite Rabs_mult, (Rabs_pos_eq (IZR (2 ^ k))) by (apply IZR_le; lia). exact Hb. }
    assert (Bt : Z.abs (Ztrunc t) < 2 ^ 63).
    { apply lt_IZR. rewrite abs_IZR. eapply Rle_lt_trans; [|exact At].
      rewrite <- abs_IZR, <- Ztrunc_abs. rewrite Ztrunc_floor by apply Rabs_pos. apply Zfloor_lb. }
    destruct (Z.leb_spec (- 2 ^ 63) (Ztrunc t)), (Z.ltb_spec (Ztrunc t) (2 ^ 63)); try lia.
    destruct y; try discriminate; reflexivity.
Qed.

Theorem to_float_ok n k : 0 <= k <= 31 -> Z.abs n < 2 ^ 53 ->
  is_finite (to_float n k) = true /\ B2R (to_float n k) = (IZR n / IZR (2 ^ k))%R.
Proof.
  intros Hk Hn. unfold to_float.
  assert (P : 0 < 2 ^ k) by (apply Z.pow_pos_nonneg; lia).
  destruct (@f_of_Z_exact 53 1024 _ _ n) as [En Fn]; [lia|].
  destruct (@f_of_Z_exact 53 1024 _ _ (2 ^ k)) as [Ek Fk].
  { rewrite Z.abs_eq by lia. apply Z.pow_le_mono_r; lia. }
  assert (Pk : (0 < IZR (2 ^ k))%R) by (apply IZR_lt; lia).
  destruct (@fdiv_correct 53 1024 _ _ (f_of_Z n) (f_of_Z (2 ^ k))) as [D F].
  - exact Fn.
  - rewrite Ek. lra.
  - rewrite En, Ek. unfold Rdiv. rewrite Rabs_mult, (Rabs_pos_eq (/ _)) by (left; now apply Rinv_0_lt_compat).
    apply Rle_trans with (Rabs (IZR n) * 1)%R.
    + apply Rmult_le_compat_l; [apply Rabs_pos|]. rewrite <- Rinv_1. apply Rinv_le; [lra|]. apply IZR_le. lia.
    + rewrite Rmult_1_r, <- abs_IZR. apply IZR_le. lia.
  - split; [exact F|]. rewrite D, En, Ek. apply round_generic; auto with typeclass_instances.
    apply (generic_format_FLT radix2 (SpecFloat.emin 53 1024) 53). exists (Float radix2 n (- k)); simpl; [|exact Hn|].
      * unfold F2R, Rdiv; simpl. rewrite bpow_opp. change 2 with (radix_val radix2). rewrite IZR_Zpower by lia. reflexivity.
      * unfold SpecFloat.emin. lia.
Qed.

Theorem from_to n k : 0 <= k <= 31 -> Z.abs n < 2 ^ 53 -> from_float (to_float n k) k = Ret n.
Proof.
  intros Hk Hn. destruct (to_float_ok n k Hk Hn) as [F E].
  assert (P : 0 < 2 ^ k) by (apply Z.pow_pos_nonneg; lia).
  assert (Pk : (0 < IZR (2 ^ k))%R) by (apply IZR_lt; lia).
  assert (V : (B2R (to_float n k) * IZR (2 ^ k) = IZR n)%R) by (rewrite E; field; lra).
  rewrite from_float_ok by (auto; rewrite <- (Rabs_pos_eq (IZR (2 ^ k))), <- Rabs_mult, V, <- abs_IZR by (left; auto); apply IZR_lt; lia).
  rewrite V, Ztrunc_IZR. reflexivity.
Qed.

Theorem to_from (x : f64) k : is_finite x = true -> 0 <= k <= 31 -> (Rabs (B2R x) * IZR (2 ^ k) < IZR (2 ^ 53))%R ->
  exists n, from_float x k = Ret n /\ (Rabs (B2R (to_float n k) - B2R x) < / IZR (2 ^ k))%R /\
    (Rabs (B2R (to_float n k)) <= Rabs (B2R x))%R.
Proof.
  intros Fx Hk Hb.
  assert (P : 0 < 2 ^ k) by (apply Z.pow_pos_nonneg; lia).
  assert (Pk : (0 < IZR (2 ^ k))%R) by (apply IZR_lt; lia).
  rewrite from_float_ok; [|auto|auto|].
  2:{ eapply Rlt_trans; [exact Hb|]. apply IZR_lt. reflexivity. }
  set (t := (B2R x * IZR (2 ^ k))%R). exists (Ztrunc t). split; [reflexivity|].
  assert (At : (Rabs t < IZR (2 ^ 53))%R).
  { unfold t. rewrite Rabs_mult, (Rabs_pos_eq (IZR (2 ^ k))) by (left; auto). exact Hb. }
  assert (AT : (Rabs (IZR (Ztrunc t)) <= Rabs t)%R).
  { rewrite <- abs_IZR, <- Ztrunc_abs. rewrite Ztrunc_floor by apply Rabs_pos. apply Zfloor_lb. }
  assert (Bt : Z.abs (Ztrunc t) < 2 ^ 53).
  { apply lt_IZR. rewrite abs_IZR. lra. }
  destruct (to_float_ok (Ztrunc t) k Hk Bt) as [F E]. rewrite E.
  assert (X : B2R x = (t / IZR (2 ^ k))%R) by (unfold t; field; lra).
  split.
  - rewrite X. replace (IZR (Ztrunc t) / IZR (2 ^ k) - t / IZR (2 ^ k))%R with ((IZR (Ztrunc t) - t) * / IZR (2 ^ k))%R by (field; lra).
    rewrite Rabs_mult, (Rabs_pos_eq (/ _)) by (left; now apply Rinv_0_lt_compat).
    rewrite <- (Rmult_1_l (/ IZR (2 ^ k))) at 2. apply Rmult_lt_compat_r; [now apply Rinv_0_lt_compat|].
    destruct (Rle_or_lt 0 t) as [T0|T0].
    + rewrite Ztrunc_floor by auto. pose proof (Zfloor_lb t). pose proof (Zfloor_ub t). apply Rabs_def1; lra.
    + rewrite Ztrunc_ceil by lra. pose proof (Zceil_ub t). pose proof (Zceil_lb t). apply Rabs_def1; lra.
  - rewrite X. unfold Rdiv. rewrite !Rabs_mult. apply Rmult_le_compat_r; [apply Rabs_pos|exact AT].
Qed.
