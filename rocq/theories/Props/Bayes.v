(** Fixed-point arithmetic and Naive Bayes: properties C28-C31, C56. *)
From Coq Require Import ZArith List Bool Lia Reals Lra.
From Flocq Require Import Core BinarySingleNaN.
From Verif.Base Require Import Res CInt ListX Loops Float.
From Verif.Model Require Import Common FixedPoint Bayes.
From Verif.Spec Require Import BayesSpec.
From Verif.Proof Require Import FixedPoint Log2 Bayes.
Import ListNotations.
Open Scope Z_scope.
Open Scope res_scope.

(** ** C28: division *)
Theorem C28_q16_div a b : int32_ok a -> int32_ok b -> b <> 0 ->
  exists r, nearest_away (a * 65536) b r /\ (int32_ok r -> eml_q16_div a b = Ret r).
Proof.
  intros Ha Hb Nb. destruct (q16_div_ok a b Ha Hb Nb) as (r & N & E). exists r. split; [exact N|].
  intros F. rewrite E, to_int32_id by exact F. reflexivity.
Qed.
(** nearest_away leaves no choice. *)
Theorem C28_nearest_unique n d r r' : d <> 0 -> nearest_away n d r -> nearest_away n d r' -> r = r'.
Proof. apply nearest_away_unique. Qed.
(** Outside the claim: a result too large for 32 bits is wrapped, and division by zero is undefined. *)
Theorem C28_q16_div_wraps a b r : int32_ok a -> int32_ok b -> b <> 0 -> nearest_away (a * 65536) b r ->
  eml_q16_div a b = Ret (to_int32 r).
Proof.
  intros Ha Hb Nb H. destruct (q16_div_ok a b Ha Hb Nb) as (r' & N & E).
  rewrite (nearest_away_unique _ _ _ _ Nb H N). exact E.
Qed.
Theorem C28_q16_div_by_zero a : int32_ok a -> eml_q16_div a 0 = Err DivByZero.
Proof. apply q16_div_zero. Qed.
Example C28_instance : eml_q16_div (-5) 131072 = Ret (-3) /\ eml_q16_div 65536 196608 = Ret 21845 /\
  eml_q16_div 2147483647 (-65536) = Ret (-2147483647) /\ eml_q16_div 65536 1 = Ret 0.
Proof. vm_compute. auto. Qed.

(** ** C29: multiplication and conversions *)
Theorem C29_fromint_toint x : int16_ok x -> exists q, EML_Q16_FROMINT x = Ret q /\ EML_Q16_TOINT q = x.
Proof. apply q16_fromint_toint. Qed.
(** the error, times 2^16: |x*y - 2^16 r| <= 2^16 ((|x|+|y|)/2^8 + 1) *)
Theorem C29_q16_mul x y : Z.abs x < 2 ^ 23 -> Z.abs y < 2 ^ 23 ->
  exists r, eml_q16_mul x y = Ret r /\ int32_ok r /\
    Z.abs (x * y - 65536 * r) <= 256 * (Z.abs x + Z.abs y) + 65536.
Proof.
  intros Hx Hy. destruct (q16_mul_ok x y Hx Hy) as (r & E & B). exists r. split; [exact E|]. split; [|lia].
  unfold eml_q16_mul in E. apply chk_int32_Ret in E. destruct E as [-> E]. exact E.
Qed.
Theorem C29_from_float_exact n k : 0 <= k <= 31 -> Z.abs n < 2 ^ 53 ->
  B2R (to_float n k) = (IZR n / IZR (2 ^ k))%R /\ from_float (to_float n k) k = Ret n.
Proof. intros Hk Hn. split; [apply to_float_ok; auto|apply from_to; auto]. Qed.
Theorem C29_from_float_error (x : f64) k : is_finite x = true -> 0 <= k <= 31 ->
  (Rabs (B2R x) * IZR (2 ^ k) < IZR (2 ^ 53))%R ->
  exists n, from_float x k = Ret n /\ (Rabs (B2R (to_float n k) - B2R x) < / IZR (2 ^ k))%R.
Proof. intros F Hk H. destruct (to_from x k F Hk H) as (n & E & L & _). exists n. auto. Qed.
Example C29_instance :
  (let* q := EML_Q16_FROMINT (-32768) in Ret (EML_Q16_TOINT q)) = Ret (-32768) /\
  eml_q16_mul (-98304) 131073 = Ret (-196608) /\
  from_float (to_float (-12345) 16) 16 = Ret (-12345) /\
  from_float (fdiv (f_of_Z (-7)) (f_of_Z 3)) 4 = Ret (-37).
Proof. vm_compute. auto. Qed.

(** ** C30: logarithm *)
(** [fuel] bounds the loop iterations: with 33 or more the result does not depend on it, that is,
    the loops have ended. The result is right up to wrapping to 32 bits, which does not happen up
    to precision 26. *)
Theorem C30_log2_partial fuel x p : (33 <= fuel)%nat -> 1 <= p <= 30 -> 1 <= x < 2 ^ 32 ->
  exists y, eml_bayes_log2fix fuel x p = Ret (to_int32 y) /\ (p <= 26 -> to_int32 y = y) /\
    (IZR y / IZR (2 ^ p) <= log2R (IZR x / IZR (2 ^ p)) < (IZR y + 4) / IZR (2 ^ p))%R.
Proof.
  intros Hf Hp Hx. destruct (log2fix_ok fuel x p Hf Hp Hx) as (Y & E & B). exists Y. split; [exact E|]. split.
  - intros P. apply to_int32_id. exact (log2fix_range x p Y ltac:(lia) Hx B).
  - assert (Q : (0 < IZR (2 ^ p))%R) by (apply IZR_lt, Z.pow_pos_nonneg; lia).
    assert (I : (0 < / IZR (2 ^ p))%R) by now apply Rinv_0_lt_compat.
    replace (log2R (IZR x / IZR (2 ^ p))) with (log2R (IZR x / IZR (2 ^ p)) * IZR (2 ^ p) / IZR (2 ^ p))%R by (field; lra).
    destruct B as [B1 B2]. split; [apply Rmult_le_compat_r; lra|apply Rmult_lt_compat_r; lra].
Qed.
(** Missing: precisions 27 to 30 wrap for small x, e.g. the logarithm of 2^-27 comes out positive ... *)
Theorem C30_log2_wraps_refuted : eml_bayes_log2fix 33 1 27 = Ret 671088640 /\
  (log2R (IZR 1 / IZR (2 ^ 27)) < IZR 671088640 / IZR (2 ^ 27))%R.
Proof.
  split; [vm_compute; reflexivity|].
  apply Rlt_trans with 0%R.
  - rewrite <- log2_1. apply log2_lt; change (2 ^ 27) with 134217728; lra.
  - change (2 ^ 27) with 134217728. lra.
Qed.
(** ... and precision 31, which the range check accepts, never terminates. *)
Theorem C30_precision_31_refuted fuel x : 1 <= x < 2 ^ 32 -> eml_bayes_log2fix fuel x 31 = Err NoFuel.
Proof. apply log2fix_31_loops. Qed.
(** The range check comes after the shift it should guard. *)
Theorem C30_range_check fuel x p :
  (p < 1 \/ 32 < p -> eml_bayes_log2fix fuel x p = Err BadShift) /\
  (p = 32 -> eml_bayes_log2fix fuel x p = Ret 2147483647) /\
  (1 <= p <= 31 -> eml_bayes_log2fix fuel 0 p = Ret (-2147483648)).
Proof.
  split; [|split].
  - intros H. unfold eml_bayes_log2fix, shl1U. destruct (Z.leb_spec 0 (p - 1)), (Z.ltb_spec (p - 1) 32); try lia; reflexivity.
  - intros ->. reflexivity.
  - intros H. unfold eml_bayes_log2fix, shl1U. destruct (Z.leb_spec 0 (p - 1)), (Z.ltb_spec (p - 1) 32); try lia. cbn [andb bind].
    destruct (Z.ltb_spec p 1), (Z.ltb_spec 31 p); try lia. reflexivity.
Qed.
Example C30_instance : eml_bayes_log2fix 33 (10 * 65536) 16 = Ret 217705 /\ eml_bayes_log2fix 33 6554 16 = Ret (-217701) /\
  eml_bayes_log2fix 33 4294967295 8 = Ret 6143.
Proof. vm_compute. auto. Qed.

(** ** C31: prediction *)
(** [junk] is whatever the local array holds at the start. *)
Theorem C31_predict_partial junk model values :
  zlen junk >= 10 -> model_ok model -> 2 <= bm_n_classes model <= 10 ->
  zlen values = bm_n_features model -> input_fits model values ->
  exists c, eml_bayes_predict junk model values (zlen values) = Ret c /\ best_class model values c.
Proof. apply predict_ok. Qed.
(** A value nearer to the mean never scores lower. *)
Theorem C31_nearer_partial v v' s : feature_fits v s -> feature_fits v' s ->
  Z.abs (v - s_mean s) <= Z.abs (v' - s_mean s) ->
  exists sc sc', eml_bayes_logpdf v (s_mean s) (s_std s) (s_stdlog2 s) = Ret sc /\
    eml_bayes_logpdf v' (s_mean s) (s_std s) (s_stdlog2 s) = Ret sc' /\ sc' <= sc.
Proof.
  intros H H' N. exists (feature_score v s), (feature_score v' s). split; [apply logpdf_ok; auto|]. split; [apply logpdf_ok; auto|].
  apply feature_score_mono; auto. apply H.
Qed.
(** Missing, because false. A value 65536 standard deviations away scores like the mean itself
    (the division wraps), and better than one at 100: *)
Theorem C31_nearer_refuted : exists v v' s sc sc', Z.abs (v - s_mean s) <= Z.abs (v' - s_mean s) /\ 1 <= s_std s /\
  eml_bayes_logpdf v (s_mean s) (s_std s) (s_stdlog2 s) = Ret sc /\
  eml_bayes_logpdf v' (s_mean s) (s_std s) (s_stdlog2 s) = Ret sc' /\ sc < sc'.
Proof. exists 100, 65536, (mk_summary 0 1 0), (-473686884), (-86884). simpl. repeat split; try lia; vm_compute; reflexivity. Qed.

Definition sample : bayes_model := mk_bayes 2 2
  [mk_summary 65536 65536 0; mk_summary (-131072) 32768 (-65536);
   mk_summary 262144 65536 0; mk_summary 131072 131072 65536].
Definition junk10 : list Z := [7; -7; 7; -7; 7; -7; 7; -7; 7; -7].
(** A value 182 standard deviations away: the square overflows. *)
Theorem C31_far_value_refuted : model_ok sample /\
  eml_bayes_predict junk10 sample [f_of_Z 183; f_of_Z 0] 2 = Err SignedOverflow.
Proof. split; [vm_compute; intuition congruence|]. vm_compute. reflexivity. Qed.
(** A value of 32768 or more does not fit Q16.16. *)
Theorem C31_large_value_refuted : eml_bayes_predict junk10 sample [f_of_Z 32768; f_of_Z 0] 2 = Err BadCast.
Proof. vm_compute. reflexivity. Qed.
(** The number of classes is not checked against the local array. *)
Theorem C31_many_classes_refuted : let m := mk_bayes 11 1 (repeat (mk_summary 0 65536 0) 11) in
  model_ok m /\ eml_bayes_predict junk10 m [f_of_Z 0] 1 = Err OutOfBounds.
Proof. split; [vm_compute; intuition congruence|]. vm_compute. reflexivity. Qed.
(** A standard deviation below 2^-16 becomes 0 in the table. *)
Theorem C31_small_std_refuted :
  (let* m := generate_bayes [[(f_of_Z 1, f_of_ZE 1 (-17), f_of_Z (-17))]; [(f_of_Z 2, f_of_Z 1, f_of_Z 0)]] 1 in
   eml_bayes_predict junk10 m [f_of_Z 1] 1) = Err DivByZero.
Proof. vm_compute. reflexivity. Qed.
(** The length of the input is not compared with the number of features. *)
Theorem C31_length_refuted : eml_bayes_predict junk10 sample [f_of_Z 1; f_of_Z 0; f_of_Z 0] 3 = Err OutOfBounds.
Proof. vm_compute. reflexivity. Qed.
Theorem C31_too_few_classes junk model values n : bm_n_classes model < 2 ->
  eml_bayes_predict junk model values n = Ret (-3).
Proof. apply predict_few. Qed.

Lemma q16_int z : Z.abs z < 32768 -> q16 (f_of_Z z : f32) = z * 65536 /\ q16_fits (f_of_Z z : f32).
Proof.
  intros H. destruct (@f_of_Z_exact 24 128 _ _ z) as [E F]; [change (2 ^ 24) with 16777216; lia|].
  unfold q16, q16_fits. rewrite E, F. split.
  - rewrite <- mult_IZR. apply Ztrunc_IZR.
  - split; [auto|]. rewrite <- abs_IZR. apply IZR_lt. lia.
Qed.
Example C31_instance : model_ok sample /\ 2 <= bm_n_classes sample <= 10 /\ input_fits sample [f_of_Z 3; f_of_Z 1] /\
  eml_bayes_predict junk10 sample [f_of_Z 3; f_of_Z 1] 2 = Ret 1.
Proof.
  split; [vm_compute; intuition congruence|]. split; [simpl; lia|]. split; [|vm_compute; reflexivity].
  destruct (q16_int 3 ltac:(lia)) as [Q3 F3]. destruct (q16_int 1 ltac:(lia)) as [Q1 F1].
  intros c i Hc Hi. simpl bm_n_classes in Hc. simpl length in Hi.
  assert (c = 0 \/ c = 1) as C by lia. assert (i = 0 \/ i = 1)%nat as I by lia.
  destruct C as [-> | ->], I as [-> | ->]; cbn [nth sum_scores]; rewrite ?Q3, ?Q1;
    (split; [assumption|split; [vm_compute; intuition congruence|vm_compute; intuition congruence]]).
Qed.

(** ** C56: the generated table *)
Theorem C56_generated_table (m : list (list (f64 * f64 * f64))) nf :
  Forall (Forall (fun '(mean, std, stdlog2) => q16_fits mean /\ q16_fits std /\ q16_fits stdlog2)) m ->
  Forall (fun row => zlen row = nf) m ->
  exists t, generate_bayes m nf = Ret t /\ bm_n_classes t = zlen m /\ bm_n_features t = nf /\
    zlen (bm_summaries t) = zlen m * nf /\
    forall c i row mean std stdlog2, zget m c = Ret row -> zget row i = Ret (mean, std, stdlog2) ->
      zget (bm_summaries t) (c * nf + i) = Ret (mk_summary (q16 mean) (q16 std) (q16 stdlog2)).
Proof.
  exact (generated_table m nf).
Qed.
Example C56_instance :
  (let* t := generate_bayes [[(f_of_Z 1, f_of_Z 2, f_of_Z 1)]; [(f_of_ZE (-3) (-1), f_of_Z 1, f_of_Z 0)]] 1 in
   Ret (bm_summaries t)) = Ret [mk_summary 65536 131072 65536; mk_summary (-98304) 65536 0].
Proof. vm_compute. reflexivity. Qed.
