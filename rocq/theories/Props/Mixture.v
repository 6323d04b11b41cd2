(** Gaussian mixtures: properties C44, C59, C60. *)
From Coq Require Import ZArith List Bool Lia Reals Lra.
From Flocq Require Import Core.
From Verif.Base Require Import Res CInt ListX Loops Arith Kernels RealSum.
From Verif.Model Require Import Common Mixture.
From Verif.Spec Require Import RealSpec DistanceSpec MixtureSpec.
From Verif.Proof Require Import Distance Mixture.
Import ListNotations.
Open Scope Z_scope.
Open Scope res_scope.

(** A fitted model: [k] components, [n] features, positive diagonals of the Cholesky factors; sizes that
    fit in int. *)
Definition fitted (p : rchol) (n : Z) (means : list (list R)) (logw : list R) : Prop :=
  1 <= zlen means /\ 1 <= n /\ zlen means * n * n < 2 ^ 31 /\ Forall (fun r => zlen r = n) means /\
  shape_ok p (zlen means) n /\ positive_chol p (zlen means) n /\ zlen logw = zlen means.
Lemma fitted_kn p n means logw : fitted p n means logw -> zlen means * n < 2 ^ 31.
Proof. intros (A & B & C & _). nia. Qed.

(** ** C44, exact arithmetic *)
(** Conversion succeeds; for every component the program gives the logarithm of weight times density,
    with the original precision matrix, up to n/2 * 10^-13 (the decimal constant in the C code). *)
Theorem C44_log_proba p n means logw x out : fitted p n means logw -> zlen x = n -> @zlen xreal out = zlen means ->
  exists m lps, wrapper_model real_arith (map (map Fin) means) n (chol_of p) (map Fin logw) = Ret m /\
    eml_mixture_predict_log_proba real_arith log_density_real m (map Fin x) out = Ret (0, map Fin lps) /\
    zlen lps = zlen means /\
    (forall c, 0 <= c < zlen means -> (Rabs (vec lps c - ln (weighted p n means logw x c)) <= IZR n / 2 * (1 / 10000000000000))%R).
Proof.
  intros F Lx LO. pose proof (fitted_kn _ _ _ _ F) as KN. destruct F as (Hk & Hn & B & SM & SH & P & LW).
  exists (model_of p n means logw), (logps p n means logw x). split; [apply wrapper_ok; auto; lia|]. split; [apply mixture_log_proba; auto; lia|]. split.
  - unfold logps. rewrite zlen_map, zlen_zrange'. lia.
  - intros c Hc. unfold vec, logps. rewrite nth_map_zrange by auto.
    replace (ln (weighted p n means logw x c) + IZR n / 2 * log2pi_err - ln (weighted p n means logw x c))%R with (IZR n / 2 * log2pi_err)%R by ring.
    assert (IN : (0 <= IZR n / 2)%R) by (apply (IZR_le 1 n) in Hn; lra). rewrite Rabs_mult, (Rabs_pos_eq (IZR n / 2)) by auto. apply Rmult_le_compat_l; auto. apply log2pi_err_small.
Qed.
(** The score is the logarithm of the density of the mixture. *)
Theorem C44_score p n means logw x out s0 : fitted p n means logw -> zlen x = n -> @zlen xreal out = zlen means ->
  exists m lps s, wrapper_model real_arith (map (map Fin) means) n (chol_of p) (map Fin logw) = Ret m /\
    eml_mixture_score real_arith log_density_real m (map Fin x) out s0 = Ret (0, map Fin lps, Fin s) /\
    s = ln (rsum (map exp lps)) /\
    (Rabs (s - ln (total p n means logw x)) <= IZR n / 2 * (1 / 10000000000000))%R.
Proof.
  intros F Lx LO. pose proof (fitted_kn _ _ _ _ F) as KN. destruct F as (Hk & Hn & B & SM & SH & P & LW).
  exists (model_of p n means logw), (logps p n means logw x), (ln (total p n means logw x) + IZR n / 2 * log2pi_err)%R.
  split; [apply wrapper_ok; auto; lia|]. split; [apply mixture_score; auto; lia|]. split.
  - rewrite sum_exp_logps by auto. rewrite ln_mult; [|now apply total_pos|apply exp_pos]. now rewrite ln_exp.
  - replace (ln (total p n means logw x) + IZR n / 2 * log2pi_err - ln (total p n means logw x))%R with (IZR n / 2 * log2pi_err)%R by ring.
    assert (IN : (0 <= IZR n / 2)%R) by (apply (IZR_le 1 n) in Hn; lra). rewrite Rabs_mult, (Rabs_pos_eq (IZR n / 2)) by auto. apply Rmult_le_compat_l; auto. apply log2pi_err_small.
Qed.
(** The responsibilities are the posterior probabilities, exactly: not negative, summing to 1. *)
Theorem C44_predict_proba p n means logw x out s0 r0 : fitted p n means logw -> zlen x = n -> @zlen xreal out = zlen means -> @zlen xreal r0 = zlen means ->
  exists m o s resp, wrapper_model real_arith (map (map Fin) means) n (chol_of p) (map Fin logw) = Ret m /\
    eml_mixture_predict_proba real_arith log_density_real m (map Fin x) out s0 r0 = Ret (0, o, s, map Fin resp) /\
    resp = map (fun c => weighted p n means logw x c / total p n means logw x)%R (zrange (zlen means)) /\
    Forall (fun r => 0 < r)%R resp /\ rsum resp = 1%R.
Proof.
  intros F Lx LO LR. pose proof (fitted_kn _ _ _ _ F) as KN. destruct F as (Hk & Hn & B & SM & SH & P & LW).
  eexists (model_of p n means logw), _, _, _. split; [apply wrapper_ok; auto; lia|]. split; [apply mixture_proba; auto; lia|]. split; [reflexivity|].
  pose proof (total_pos p n means logw x Hk P) as TP. split.
  - apply Forall_forall. intros r Hr. apply in_map_iff in Hr as (c & <- & Hc). apply Kernels.zrange_In in Hc.
    apply Rdiv_lt_0_compat; auto. now apply weighted_pos.
  - fold (sumr (zlen means) (fun c => weighted p n means logw x c / total p n means logw x)%R). unfold Rdiv. rewrite sumr_scal_r. fold (total p n means logw x).
    apply Rinv_r. lra.
Qed.
(** log-sum-exp alone: no overflow of the exponential, for any list. *)
Theorem C44_logsumexp (xs : list R) : xs <> [] -> eml_logsumexp real_arith (map Fin xs) (zlen xs) = Ret (Fin (ln (rsum (map exp xs)))).
Proof. intros H. pose proof (logsumexp_ok xs [] H) as E. rewrite app_nil_r in E. exact E. Qed.
(** Other covariance types and empty models are refused and nothing is written, in any arithmetic. *)
Theorem C44_refused A ld (m : mixture A) x out s r :
  m_n_components A m <= 0 \/ m_covariance_type A m <> CovFull ->
  exists code, code <> 0 /\ eml_mixture_predict_log_proba A ld m x out = Ret (code, out) /\
    eml_mixture_score A ld m x out s = Ret (code, out, s) /\
    eml_mixture_predict_proba A ld m x out s r = Ret (code, out, s, r).
Proof.
  intros H. unfold eml_mixture_predict_proba, eml_mixture_score, eml_mixture_predict_log_proba.
  destruct (Z.ltb_spec 0 (m_n_components A m)); cbn [negb].
  - exists 2. destruct H as [H|H]; [lia|]. destruct (m_covariance_type A m); [congruence| | |]; repeat split; lia.
  - exists (-3). repeat split; lia.
Qed.
Example C44_instance : fitted (RDiag [[1; 2]; [3; 1 / 2]]%R) 2 [[0; 1]; [5; 6]]%R [-1; -2]%R.
Proof.
  unfold fitted, zlen. simpl. repeat split; try lia; repeat constructor; auto. intros c f Hc Hf. unfold zlen in Hc. simpl in Hc.
  assert (c = 0 \/ c = 1) as [-> | ->] by lia; assert (f = 0 \/ f = 1) as [-> | ->] by lia; simpl; unfold mat, vec; simpl; lra.
Qed.

(** ** C59: Wrapper.predict *)
(** The chosen component has the greatest responsibility up to one millionth. *)
Theorem C59_predict_partial p n means logw x : fitted p n means logw -> zlen x = n ->
  exists m c, wrapper_model real_arith (map (map Fin) means) n (chol_of p) (map Fin logw) = Ret m /\
    wrapper_predict_row real_arith log_density_real print6R m (map Fin x) = Ret c /\ 0 <= c < zlen means /\
    forall j, 0 <= j < zlen means ->
      (weighted p n means logw x j / total p n means logw x <= weighted p n means logw x c / total p n means logw x + 1 / 1000000)%R.
Proof.
  intros F Lx. pose proof (fitted_kn _ _ _ _ F) as KN. destruct F as (Hk & Hn & B & SM & SH & P & LW).
  set (resp := map (fun c => weighted p n means logw x c / total p n means logw x)%R (zrange (zlen means))).
  exists (model_of p n means logw), (argmaxZ (map print6R (map Fin resp))). split; [apply wrapper_ok; auto; lia|].
  assert (LR : zlen resp = zlen means) by (unfold resp; rewrite zlen_map, zlen_zrange'; lia).
  split.
  { unfold wrapper_predict_row, exec_predict_proba. replace (m_n_features real_arith (model_of p n means logw)) with n by reflexivity.
    replace (m_n_components real_arith (model_of p n means logw)) with (zlen means) by reflexivity.
    change (num real_arith) with xreal. rewrite zlen_Fin, Lx, Z.eqb_refl. cbn [negb]. cbv zeta. change (nzero real_arith) with (Fin 0).
    rewrite mixture_proba; [reflexivity|..]; auto; try lia; unfold zlen; rewrite repeat_length; unfold zlen; lia. }
  assert (NE : map print6R (map Fin resp) <> []).
  { intros E. assert (Z0 : zlen (map print6R (map Fin resp)) = 0) by now rewrite E. rewrite !zlen_map, LR in Z0. lia. }
  destruct (argmaxZ_ok _ NE) as (b & Eb & M). set (c := argmaxZ (map print6R (map Fin resp))) in *.
  assert (Hc : 0 <= c < zlen means) by (apply zget_bound in Eb; rewrite !zlen_map, LR in Eb; exact Eb). split; [exact Hc|].
  assert (G : forall j, 0 <= j < zlen means -> zget (map print6R (map Fin resp)) j = Ret (ZnearestE (weighted p n means logw x j / total p n means logw x * 1000000))).
  { intros j Hj. rewrite zget_map, zget_vec by lia. cbn [bind print6R]. do 3 f_equal. unfold vec, resp. now rewrite nth_map_zrange. }
  intros j Hj. destruct (M j _ (G j Hj)) as [Le _]. rewrite (G c Hc) in Eb. injection Eb as <-. apply IZR_le in Le.
  pose proof (Znearest_half (fun x => negb (Z.even x)) (weighted p n means logw x j / total p n means logw x * 1000000)) as E1.
  pose proof (Znearest_half (fun x => negb (Z.even x)) (weighted p n means logw x c / total p n means logw x * 1000000)) as E2.
  apply Rabs_le_inv in E1, E2. lra.
Qed.
(** Not always the greatest: weights 0.49999999 and 0.50000001, otherwise equal components. *)
Theorem C59_predict_refuted : exists p n means logw x m,
  fitted p n means logw /\ zlen x = n /\ wrapper_model real_arith (map (map Fin) means) n (chol_of p) (map Fin logw) = Ret m /\
  wrapper_predict_row real_arith log_density_real print6R m (map Fin x) = Ret 0 /\
  (weighted p n means logw x 0 < weighted p n means logw x 1)%R.
Proof.
  pose (w0 := (49999999 / 100000000)%R). pose (w1 := (50000001 / 100000000)%R).
  pose (p := RSpherical [1; 1]%R). pose (means := [[0]; [0]]%R). pose (lw := [ln w0; ln w1]). pose (x := [0%R]).
  assert (F : fitted p 1 means lw).
  { unfold fitted, means, p, lw, zlen. simpl. repeat split; try lia; repeat constructor; auto. intros c f Hc Hf. unfold zlen in Hc. simpl in Hc.
    assert (c = 0 \/ c = 1) as [-> | ->] by lia; simpl; unfold vec; simpl; lra. }
  exists p, 1, means, lw, x, (model_of p 1 means lw). split; [exact F|]. split; [reflexivity|].
  destruct F as (Hk & Hn & B & SM & SH & P & LW). split; [apply wrapper_ok; auto; lia|].
  pose (D := density p 1 0 [0%R] x). assert (DP : (0 < D)%R).
  { pose proof (weighted_pos p 1 means lw x 0 P ltac:(unfold means, zlen; simpl; lia)) as W. unfold weighted in W. change (nth (Z.to_nat 0) means []) with [0%R] in W. fold D in W.
    pose proof (exp_pos (vec lw 0)) as E. nra. }
  assert (W0 : weighted p 1 means lw x 0 = (w0 * D)%R). { unfold weighted. change (vec lw 0) with (ln w0). rewrite exp_ln by (unfold w0; lra). reflexivity. }
  assert (W1 : weighted p 1 means lw x 1 = (w1 * D)%R). { unfold weighted. change (vec lw 1) with (ln w1). rewrite exp_ln by (unfold w1; lra). reflexivity. }
  split; [|rewrite W0, W1; unfold w0, w1; nra].
  assert (T : total p 1 means lw x = D).
  { unfold total. replace (zlen means) with (0 + 1 + 1) by reflexivity. rewrite !sumr_S by lia. rewrite sumr_0 by lia. change (0 + 1) with 1. rewrite W0, W1. unfold w0, w1. lra. }
  unfold wrapper_predict_row, exec_predict_proba. replace (m_n_features real_arith (model_of p 1 means lw)) with 1 by reflexivity.
  replace (m_n_components real_arith (model_of p 1 means lw)) with (zlen means) by reflexivity.
  change (num real_arith) with xreal. rewrite zlen_Fin. change (zlen x) with 1. change (1 =? 1) with true. cbn [negb]. cbv zeta. change (nzero real_arith) with (Fin 0).
  rewrite mixture_proba; auto; try (vm_compute; congruence); try lia. cbn [bind]. change (negb (0 =? 0)) with false. cbv iota.
  change (zrange (zlen means)) with [0; 1]. cbn [map print6R]. rewrite W0, W1, T.
  assert (Z0 : ZnearestE (w0 * D / D * 1000000) = 500000).
  { apply Znearest_imp. replace (w0 * D / D * 1000000)%R with (w0 * 1000000)%R by (field; lra). unfold w0. apply Rabs_lt. simpl. lra. }
  assert (Z1 : ZnearestE (w1 * D / D * 1000000) = 500000).
  { apply Znearest_imp. replace (w1 * D / D * 1000000)%R with (w1 * 1000000)%R by (field; lra). unfold w1. apply Rabs_lt. simpl. lra. }
  cbn [bind map print6R]. rewrite Z0, Z1. reflexivity.
Qed.

(** ** C60: the number of values *)
(** values_length is not looked at: with fewer values than features, memory behind them is read. *)
Theorem C60_values_length_refuted A ld (m : mixture A) x out :
  0 < m_n_components A m -> m_covariance_type A m = CovFull -> zlen x < m_n_features A m -> m_n_features A m <= 46340 ->
  m_n_features A m * m_n_features A m <= zlen (m_precisions A m) -> m_n_features A m <= zlen (m_means A m) ->
  eml_mixture_predict_log_proba A ld m x out = Err OutOfBounds.
Proof.
  intros K C L B LP LM. set (n := m_n_features A m) in *. pose proof (zlen_nonneg x) as NX.
  unfold eml_mixture_predict_log_proba. destruct (Z.ltb_spec 0 (m_n_components A m)); [|lia]. cbn [negb]. cbv zeta. rewrite C. fold n.
  replace (m_n_components A m) with (Z.of_nat (S (Z.to_nat (m_n_components A m - 1)))) by lia.
  unfold zrange at 3. rewrite Nat2Z.id. cbn [seq map foldM]. change (Z.of_nat 0) with 0. rewrite Z.mul_0_l. change (chk_int32 0) with (@Ret Z 0). cbn [bind].
  assert (Z3 : zrange n = 0 :: map Z.of_nat (seq 1 (Z.to_nat (n - 1)))).
  { unfold zrange. replace (Z.to_nat n) with (S (Z.to_nat (n - 1))) by lia. reflexivity. }
  match goal with |- context [foldM ?f (nzero A) (zrange n)] => assert (E2 : foldM f (nzero A) (zrange n) = Err OutOfBounds) end.
  2:{ rewrite E2. reflexivity. }
  match goal with |- foldM ?f _ _ = _ => set (body1 := f) end. rewrite Z3. cbn [foldM]. unfold body1 at 1. rewrite Z.mul_0_l. change (chk_int32 0) with (@Ret Z 0). cbn [bind].
  match goal with |- context [foldM ?f (nzero A, nzero A) (zrange n)] => assert (E : foldM f (nzero A, nzero A) (zrange n) = Err OutOfBounds) end.
  { match goal with |- foldM ?f _ _ = _ => set (body := f) end.
    assert (G : forall l (s : num A * num A), (forall i, In i l -> 0 <= i < n) -> In (zlen x) l -> (foldM body s l) = Err OutOfBounds).
    { induction l as [|i l IH]; intros s Hl Hin; [destruct Hin|]. cbn [foldM]. assert (Hi : 0 <= i < n) by (apply Hl; now left).
      unfold body at 1. destruct s as [u v]. rewrite chk_int32_ok by (unfold int32_ok; nia). cbn [bind]. rewrite chk_int32_ok by (unfold int32_ok; nia). cbn [bind].
      destruct (Z.lt_ge_cases i (zlen x)) as [Li|Li].
      - destruct (zget_ok x i ltac:(lia)) as [xv Ex]. rewrite Ex. cbn [bind].
        destruct (zget_ok (m_precisions A m) (0 + (i * n + 0))) as [q Eq]; [nia|]. rewrite Eq. cbn [bind].
        destruct (zget_ok (m_means A m) (0 + i)) as [mu Em]; [lia|]. rewrite Em. cbn [bind]. apply IH; [intros; apply Hl; now right|].
        destruct Hin as [->|Hin]; [lia|auto].
      - unfold zget at 1. destruct (Z.ltb_spec i 0); [lia|]. destruct (nth_error x (Z.to_nat i)) eqn:EN; [|reflexivity].
        exfalso. assert (nth_error x (Z.to_nat i) <> None) by congruence. apply nth_error_Some in H1. unfold zlen in Li. lia. }
    apply G.
    - intros i Hi. apply Kernels.zrange_In in Hi. exact Hi.
    - apply Res.zrange_In. lia. }
  rewrite E. reflexivity.
Qed.
(** The Python wrapper does reject rows of the wrong length. *)
Theorem C60_wrapper_partial A ld (m : mixture A) x : zlen x <> m_n_features A m ->
  exec_predict_proba A ld m x = Err RuntimeError_ /\ exec_score A ld m x = Err RuntimeError_.
Proof. intros H. unfold exec_predict_proba, exec_score. destruct (Z.eqb_spec (zlen x) (m_n_features A m)); [contradiction|]. split; reflexivity. Qed.
