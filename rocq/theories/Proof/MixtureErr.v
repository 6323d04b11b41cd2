(** Rounding errors of the Gaussian mixture in float32. *)
From Coq Require Import ZArith List Bool Lia Reals Lra.
From Flocq Require Import Core BinarySingleNaN.
From Flocq.Prop Require Import Relative.
From Verif.Base Require Import Res CInt ListX Loops Float FloatOrder Arith Kernels RealSum.
From Verif.Model Require Import Common Mixture.
From Verif.Spec Require Import RealSpec DistanceSpec RoundingSpec MixtureSpec.
From Verif.Proof Require Import FloatMean TreesRunTop FloatErr NetErr Distance.
Import ListNotations.
Open Scope Z_scope.
Open Scope res_scope.

Lemma fold_left_pair {X Y} (f : X -> Z -> X) (g : Y -> Z -> Y) l : forall a b,
  fold_left (fun '(a, b) i => (f a i, g b i)) l (a, b) = (fold_left f l a, fold_left g l b).
Proof. induction l as [|i l IH]; intros a b; cbn [fold_left]; [reflexivity|apply IH]. Qed.
Lemma list_set_twice {X} (l : list X) : forall i v w, list_set (list_set l i v) i w = list_set l i w.
Proof. induction l as [|a l IH]; destruct i; simpl; intros; auto. f_equal. apply IH. Qed.

Section Sums.
Context (ef lf tf : f32 -> f32) (ld : Z -> f32 -> f32 -> f32).
Notation A := (f32_arith ef lf tf).
Notation fn := (znth (fzero : f32)).
Context (k n : Z) (ms qs lds lws x : list f32).
Definition f_dotx c f : f32 := fold_left (fun s p => fadd s (fmul (fn x p) (fn qs (c * n * n + (p * n + f))))) (zrange n) fzero.
Definition f_dotm c f : f32 := fold_left (fun s p => fadd s (fmul (fn ms (c * n + p)) (fn qs (c * n * n + (p * n + f))))) (zrange n) fzero.
Definition f_y c f : f32 := fsub (f_dotx c f) (f_dotm c f).
Definition f_lp c : f32 := fold_left (fun s f => fadd s (fmul (f_y c f) (f_y c f))) (zrange n) fzero.
Definition f_out c : f32 := fadd (ld n (f_lp c) (fn lds c)) (fn lws c).
Hypothesis Hk : 1 <= k.
Hypothesis Hn : 1 <= n.
Hypothesis B1 : k * n * n < 2 ^ 31.
Hypothesis LX : zlen x = n.
Hypothesis LM : zlen ms = k * n.
Hypothesis LQ : zlen qs = k * n * n.
Hypothesis LD : zlen lds = k.
Hypothesis LW : zlen lws = k.
Lemma log_proba_run out : @zlen f32 out = k ->
  eml_mixture_predict_log_proba A ld (mk_mixture A k n CovFull ms qs lds lws) x out = Ret (0, map f_out (zrange k)).
Proof using Hk Hn B1 LX LM LQ LD LW.
  intros LO. unfold eml_mixture_predict_log_proba. cbn [m_n_components m_n_features m_covariance_type m_means m_precisions m_log_dets m_log_weights].
  destruct (Z.ltb_spec 0 k); [|lia]. cbn [negb]. cbv zeta. change (num A) with f32.
  rewrite (fill_app_ext _ f_out out k); [cbn [bind]; rewrite (skipn_all2 out) by (unfold zlen in *; lia); rewrite app_nil_r; reflexivity|lia|].
  intros o c Hc. cbv beta. assert (KN : 0 <= c * n < k * n) by nia. assert (KN2 : c * n + n <= k * n) by nia.
  rewrite chk_int32_ok by (unfold int32_ok; nia). cbn [bind].
  rewrite (foldM_pure_ext _ (fun (s : f32) f => fadd s (fmul (f_y c f) (f_y c f)))).
  - cbn [bind]. change (fold_left (fun (s : f32) f => fadd s (fmul (f_y c f) (f_y c f))) (zrange n) (nzero A)) with (f_lp c).
    rewrite (zget_znth (fzero : f32) lds) by lia. cbn [bind].
    destruct (Z.lt_ge_cases c (@zlen f32 o)) as [Lc|Lc].
    + rewrite zset_ok by lia. cbn [bind]. rewrite zget_list_set by lia. rewrite Z.eqb_refl. cbn [bind].
      change (num A) with f32. rewrite (zget_znth (fzero : f32) lws) by lia. cbn [bind].
      rewrite zset_ok by (rewrite zlen_list_set; lia). rewrite zset_ok by lia. f_equal. rewrite list_set_twice. reflexivity.
    + unfold zset. destruct (Z.ltb_spec c (Z.of_nat (length o))); [unfold zlen in *; lia|]. rewrite !andb_false_r. reflexivity.
  - intros s f Hf. apply Kernels.zrange_In in Hf. rewrite chk_int32_ok by (unfold int32_ok; nia). cbn [bind].
    rewrite (foldM_pure_ext _ (fun '(a, b) p => (fadd a (fmul (fn x p) (fn qs (c * n * n + (p * n + f)))), fadd b (fmul (fn ms (c * n + p)) (fn qs (c * n * n + (p * n + f))))) : f32 * f32)).
    + rewrite (fold_left_pair (fun (a : f32) p => fadd a (fmul (fn x p) (fn qs (c * n * n + (p * n + f))))) (fun (b : f32) p => fadd b (fmul (fn ms (c * n + p)) (fn qs (c * n * n + (p * n + f)))))).
      reflexivity.
    + intros [a b] p Hp. apply Kernels.zrange_In in Hp. assert (p * n + f < n * n) by nia. assert (n * n <= k * n * n) by nia.
      assert (c * n * n + n * n <= k * n * n) by nia.
      rewrite chk_int32_ok by (unfold int32_ok; nia). cbn [bind]. rewrite chk_int32_ok by (unfold int32_ok; nia). cbn [bind].
      change (num A) with f32. rewrite (zget_znth (fzero : f32) x) by lia. cbn [bind]. rewrite (zget_znth (fzero : f32) qs) by nia. cbn [bind].
      rewrite (zget_znth (fzero : f32) ms) by nia. reflexivity.
Qed.

Hypothesis FX : Forall (fun v : f32 => is_finite v = true) x.
Hypothesis FM : Forall (fun v : f32 => is_finite v = true) ms.
Hypothesis FQ : Forall (fun v : f32 => is_finite v = true) qs.
Hypothesis Nb : n <= 46340.
(** The same on real numbers. *)
Definition r_q c p f : R := B2R (fn qs (c * n * n + (p * n + f))).
Definition r_m c p : R := B2R (fn ms (c * n + p)).
Definition r_x p : R := B2R (fn x p).
Definition r_mag c f : R :=
  (sumr n (fun p => Rabs (r_x p) * Rabs (r_q c p f) + tiny32) + sumr n (fun p => Rabs (r_m c p) * Rabs (r_q c p f) + tiny32))%R.
Definition r_sqmag c : R := sumr n (fun f => r_mag c f * r_mag c f + tiny32)%R.
Definition r_y c f : R := (sumr n (fun p => r_x p * r_q c p f) - sumr n (fun p => r_m c p * r_q c p f))%R.
Lemma dot_tracks (u : Z -> f32) c f : 0 <= c < k -> 0 <= f < n -> (forall p, 0 <= p < n -> is_finite (u p) = true) ->
  (sumr n (fun p => Rabs (B2R (u p)) * Rabs (r_q c p f) + tiny32) <= max32)%R ->
  tracks (Z.to_nat (n + 1)) (sumr n (fun p => Rabs (B2R (u p)) * Rabs (r_q c p f) + tiny32)%R) (sumr n (fun p => B2R (u p) * r_q c p f)%R)
    (fold_left (fun s p => fadd s (fmul (u p) (fn qs (c * n * n + (p * n + f))))) (zrange n) fzero).
Proof using B1 FQ Hk Hn LQ LW LX Nb LD LM.
  intros Hc Hf FU M. pose proof tiny32_pos as PT. pose proof max32_pos as PM.
  replace (Z.to_nat (n + 1)) with (1 + Z.to_nat n)%nat by lia.
  apply tracks_sum with (term := fun p => fmul (u p) (fn qs (c * n * n + (p * n + f)))); [reflexivity| | |lra|lia].
  - intros p Hp. change 1%nat with (S (0 + 0)). apply tracks_mul.
    + apply tracks_exact. auto.
    + apply tracks_exact. apply (Forall_znth (fun v : f32 => is_finite v = true)); auto. rewrite LQ. assert (p * n + f < n * n) by nia. assert (c * n * n + n * n <= k * n * n) by nia. nia.
    + simpl. lra.
    + pose proof (sumr_le1 n (fun p => Rabs (B2R (u p)) * Rabs (r_q c p f) + tiny32)%R p Hp) as Q. cbv beta in Q.
      eapply Rle_trans; [|apply Rle_trans with (1 := M); lra].
      apply Rle_trans with (Rabs (B2R (u p)) * Rabs (r_q c p f) + tiny32)%R; [unfold r_q; lra|]. apply Q.
      intros j Hj. assert (0 <= Rabs (B2R (u j)) * Rabs (r_q c j f))%R by (apply Rmult_le_pos; apply Rabs_pos). lra.
  - rewrite INR_IZR_INZ. apply IZR_le. lia.
Qed.
Lemma half_mags c f : (0 <= sumr n (fun p => Rabs (r_x p) * Rabs (r_q c p f) + tiny32))%R /\ (0 <= sumr n (fun p => Rabs (r_m c p) * Rabs (r_q c p f) + tiny32))%R.
Proof using.
  pose proof tiny32_pos as PT. split; apply sumr_nonneg; intros p Hp.
  - assert (0 <= Rabs (r_x p) * Rabs (r_q c p f))%R by (apply Rmult_le_pos; apply Rabs_pos). lra.
  - assert (0 <= Rabs (r_m c p) * Rabs (r_q c p f))%R by (apply Rmult_le_pos; apply Rabs_pos). lra.
Qed.
Lemma r_mag_nonneg c f : (0 <= r_mag c f)%R.
Proof using. destruct (half_mags c f). unfold r_mag. lra. Qed.
Lemma y_tracks c f : 0 <= c < k -> 0 <= f < n -> (r_mag c f <= max32)%R -> tracks (Z.to_nat (n + 2)) (r_mag c f) (r_y c f) (f_y c f).
Proof using B1 Hk LW LD Hn LQ FQ LM LX FX FM Nb.
  intros Hc Hf M. destruct (half_mags c f) as [P1 P2]. pose proof max32_pos as PM. unfold r_mag in *.
  replace (Z.to_nat (n + 2)) with (S (Z.to_nat (n + 1))) by lia. unfold f_y, r_y. apply tracks_sub.
  - apply (dot_tracks (fun p => fn x p)); auto; [|unfold r_x in *; lra]. intros p Hp. apply (Forall_znth (fun v : f32 => is_finite v = true)); auto. lia.
  - apply (dot_tracks (fun p => fn ms (c * n + p))); auto; [|unfold r_m in *; lra]. intros p Hp. apply (Forall_znth (fun v : f32 => is_finite v = true)); auto. rewrite LM. nia.
  - rewrite INR_IZR_INZ. apply IZR_le. lia.
  - lra.
Qed.
Lemma lp_tracks c : 0 <= c < k -> (forall f, 0 <= f < n -> (r_mag c f <= max32)%R) -> (r_sqmag c <= max32)%R ->
  tracks (Z.to_nat (3 * n + 5)) (r_sqmag c) (sumr n (fun f => r_y c f * r_y c f)%R) (f_lp c).
Proof using B1 Hk LW LD Hn LQ FQ LM LX FX FM Nb.
  intros Hc M MS. pose proof tiny32_pos as PT. pose proof max32_pos as PM.
  replace (Z.to_nat (3 * n + 5)) with (S (Z.to_nat (n + 2) + Z.to_nat (n + 2)) + Z.to_nat n)%nat by lia. unfold f_lp, r_sqmag.
  apply tracks_sum with (term := fun f => fmul (f_y c f) (f_y c f)); [reflexivity| | |unfold r_sqmag in MS; lra|lia].
  - intros f Hf. apply tracks_mul; [apply y_tracks; auto|apply y_tracks; auto| |].
    + rewrite INR_IZR_INZ. apply IZR_le. lia.
    + pose proof (sumr_le1 n (fun f => r_mag c f * r_mag c f + tiny32)%R f Hf) as Q. cbv beta in Q. unfold r_sqmag in MS.
      assert (r_mag c f * r_mag c f + tiny32 <= max32)%R; [|lra]. eapply Rle_trans; [apply Q|exact MS].
      intros j Hj. pose proof (r_mag_nonneg c j). assert (0 <= r_mag c j * r_mag c j)%R by (apply Rmult_le_pos; auto). lra.
  - rewrite INR_IZR_INZ. apply IZR_le. lia.
Qed.
End Sums.

(** ** The double part *)
Lemma round53_err (v : R) : (Rabs (round radix2 (SpecFloat.fexp 53 1024) ZnearestE v - v) <= Rabs v * / 9007199254740992 + / 1152921504606846976 * / 1152921504606846976)%R.
Proof.
  assert (T74 : (bpow radix2 (-1074) <= / 1152921504606846976 * / 1152921504606846976)%R).
  { change (/ 1152921504606846976)%R with (bpow radix2 (-60)). rewrite <- bpow_plus. apply bpow_le. lia. }
  pose proof (@error_N_FLT radix2 (-1074) 53 ltac:(reflexivity) (fun x => negb (Z.even x)) v) as (eps & eta & E1 & E2 & E3 & Q).
  change (round radix2 (FLT_exp (-1074) 53) (Znearest (fun x => negb (Z.even x))) v) with (round radix2 (SpecFloat.fexp 53 1024) ZnearestE v) in Q. rewrite Q.
  change (Rabs eps <= / 2 * / 4503599627370496)%R in E1. replace (v * (1 + eps) + eta - v)%R with (v * eps + eta)%R by ring.
  eapply Rle_trans; [apply Rabs_triang|]. rewrite Rabs_mult. pose proof (Rmult_le_compat_l (Rabs v) _ _ (Rabs_pos v) E1). pose proof (bpow_gt_0 radix2 (-1074)). lra.
Qed.
Lemma log2pi_double : is_finite EML_LOG_2PI_double = true /\ (Rabs (B2R EML_LOG_2PI_double - EML_LOG_2PI) <= / 4503599627370496)%R.
Proof.
  split; [vm_compute; reflexivity|].
  assert (E : B2SF EML_LOG_2PI_double = SpecFloat.S754_finite false 8277062471433908 (-52)) by (vm_compute; reflexivity).
  rewrite <- SF2R_B2SF, E. cbn [SF2R]. unfold F2R. cbn [Fnum Fexp cond_Zopp]. change (bpow radix2 (-52)) with (/ 4503599627370496)%R. unfold EML_LOG_2PI. apply Rabs_le. lra.
Qed.
Lemma dbl_half : B2R (f_of_ZE (-1) (-1) : f64) = (- / 2)%R /\ is_finite (f_of_ZE (-1) (-1) : f64) = true.
Proof.
  split; [|vm_compute; reflexivity].
  assert (E : B2SF (f_of_ZE (-1) (-1) : f64) = SpecFloat.S754_finite true 4503599627370496 (-53)) by (vm_compute; reflexivity).
  rewrite <- SF2R_B2SF, E. cbn [SF2R]. unfold F2R. cbn [Fnum Fexp cond_Zopp]. change (bpow radix2 (-53)) with (/ 9007199254740992)%R.
  match goal with |- (IZR ?z * _ = _)%R => change z with (-4503599627370496) end. lra.
Qed.

Lemma f_of_Z53 (z : Z) : Z.abs z <= 2 ^ 53 -> B2R (f_of_Z z : f64) = IZR z /\ is_finite (f_of_Z z : f64) = true.
Proof. intros H. apply (@f_of_Z_exact 53 1024 _ _ z H). Qed.
Lemma log_density_near n (lp ld : f32) : 1 <= n <= 46340 -> is_finite lp = true -> is_finite ld = true ->
  (IZR n + Rabs (B2R lp) / 2 + Rabs (B2R ld) <= 4194304)%R ->
  is_finite (log_density_c n lp ld) = true /\
  (Rabs (B2R (log_density_c n lp ld) - (- (1 / 2) * (IZR n * EML_LOG_2PI + B2R lp) + B2R ld)) <= 2 * u24 * (IZR n + Rabs (B2R lp) / 2 + Rabs (B2R ld)))%R.
Proof.
  intros Hn Fp Fd LW. destruct log2pi_double as [Fc Dc]. destruct dbl_half as [Vh Fh].
  destruct (f64_of_f32_ok lp Fp) as [Vp F1]. destruct (f64_of_f32_ok ld Fd) as [Vd F2]. destruct (f_of_Z53 n ltac:(lia)) as [Vn Fn].
  unfold log_density_c. set (c := EML_LOG_2PI_double) in *. clearbody c. set (h := f_of_ZE (-1) (-1) : f64) in *. clearbody h.
  set (nn := f_of_Z n : f64) in *. clearbody nn. set (p := f64_of_f32 lp) in *. clearbody p. set (d := f64_of_f32 ld) in *. clearbody d.
  rewrite <- Vp, <- Vd in *. clear Vp Vd Fp Fd lp ld.
  assert (N1 : (1 <= IZR n <= 46340)%R) by (split; apply IZR_le; lia). set (N := IZR n) in *. clearbody N. clear Hn.
  set (P := B2R p) in *. set (D := B2R d) in *. set (W := (N + Rabs P / 2 + Rabs D)%R) in *.
  pose proof (Rabs_pos P) as P0. pose proof (Rabs_pos D) as D0.
  assert (W1 : (1 <= W)%R) by (unfold W; lra).
  change (IZR (2 ^ 53)) with 9007199254740992%R in *.
  assert (L2 : (0 <= EML_LOG_2PI <= 19 / 10)%R) by (unfold EML_LOG_2PI; lra).
  set (L := EML_LOG_2PI) in *. clearbody L.
  assert (CB : (Rabs (B2R c) <= 2)%R). { apply Rabs_le_inv in Dc. apply Rabs_le. lra. }
  (* n * LOG_2PI *)
  assert (A1 : (Rabs (N * B2R c - N * L) <= N * / 4503599627370496)%R).
  { rewrite <- Rmult_minus_distr_l, Rabs_mult, (Rabs_pos_eq N) by lra. apply Rmult_le_compat_l; lra. }
  assert (A0 : (Rabs (N * B2R c) <= 2 * N)%R).
  { rewrite Rabs_mult, (Rabs_pos_eq N) by lra. nra. }
  destruct (fmul_correct nn c Fn Fc) as [V1 G1]. { rewrite Vn. change (IZR (2 ^ 53)) with 9007199254740992%R. lra. }
  rewrite Vn in V1. pose proof (round53_err (N * B2R c)) as E1. rewrite <- V1 in E1.
  set (t1 := B2R (fmul nn c)) in *.
  assert (B1 : (Rabs (t1 - N * L) <= 4 * W * / 4503599627370496)%R).
  { replace (t1 - N * L)%R with ((t1 - N * B2R c) + (N * B2R c - N * L))%R by ring. eapply Rle_trans; [apply Rabs_triang|]. unfold W. lra. }
  assert (B1' : (Rabs (t1) <= 2 * W)%R).
  { replace t1 with ((t1 - N * L) + N * L)%R by ring. eapply Rle_trans; [apply Rabs_triang|]. assert (Rabs (N * L) <= 19 / 10 * N)%R; [|unfold W in *; lra].
    rewrite Rabs_mult, !Rabs_pos_eq by lra. nra. }
  (* + log_prob *)
  assert (A2 : (Rabs (t1 + P) <= 4 * W)%R) by (eapply Rle_trans; [apply Rabs_triang|]; unfold W in *; lra).
  destruct (fadd_correct (fmul nn c) p G1 F1) as [V2 G2]. { fold t1 P. change (IZR (2 ^ 53)) with 9007199254740992%R. lra. }
  fold t1 P in V2. pose proof (round53_err (t1 + P)) as E2. rewrite <- V2 in E2. set (t2 := B2R (fadd (fmul nn c) p)) in *.
  assert (B2 : (Rabs (t2 - (N * L + P)) <= 8 * W * / 4503599627370496)%R).
  { replace (t2 - (N * L + P))%R with ((t2 - (t1 + P)) + (t1 - N * L))%R by ring. eapply Rle_trans; [apply Rabs_triang|]. lra. }
  assert (B2' : (Rabs t2 <= 5 * W)%R).
  { replace t2 with ((t2 - (t1 + P)) + (t1 + P))%R by ring. eapply Rle_trans; [apply Rabs_triang|]. lra. }
  (* * -0.5 *)
  destruct (fmul_correct h (fadd (fmul nn c) p) Fh G2) as [V3 G3].
  { fold t2. rewrite Vh, Rabs_mult, Rabs_Ropp, (Rabs_pos_eq (/ 2)) by lra. change (IZR (2 ^ 53)) with 9007199254740992%R. lra. }
  fold t2 in V3. rewrite Vh in V3. pose proof (round53_err (- / 2 * t2)) as E3. rewrite <- V3 in E3. set (t3 := B2R (fmul h (fadd (fmul nn c) p))) in *.
  rewrite Rabs_mult, Rabs_Ropp, (Rabs_pos_eq (/ 2)) in E3 by lra.
  assert (B3 : (Rabs (t3 - (- (1 / 2)) * (N * L + P)) <= 12 * W * / 4503599627370496)%R).
  { replace (t3 - (- (1 / 2)) * (N * L + P))%R with ((t3 - - / 2 * t2) + - / 2 * (t2 - (N * L + P)))%R by field. eapply Rle_trans; [apply Rabs_triang|].
    rewrite (Rabs_mult (- / 2)), Rabs_Ropp, (Rabs_pos_eq (/ 2)) by lra. lra. }
  assert (B3' : (Rabs t3 <= 4 * W)%R).
  { replace t3 with ((t3 - - / 2 * t2) + - / 2 * t2)%R by ring. eapply Rle_trans; [apply Rabs_triang|]. rewrite (Rabs_mult (- / 2)), Rabs_Ropp, (Rabs_pos_eq (/ 2)) by lra. lra. }
  (* + log_det *)
  destruct (fadd_correct (fmul h (fadd (fmul nn c) p)) d G3 F2) as [V4 G4].
  { fold t3 D. change (IZR (2 ^ 53)) with 9007199254740992%R. eapply Rle_trans; [apply Rabs_triang|]. unfold W in *. lra. }
  fold t3 D in V4. pose proof (round53_err (t3 + D)) as E4. rewrite <- V4 in E4. set (r := fadd (fmul h (fadd (fmul nn c) p)) d) in *.
  set (E := (- (1 / 2) * (N * L + P) + D)%R).
  assert (EW : (Rabs E <= W)%R).
  { unfold E. eapply Rle_trans; [apply Rabs_triang|]. rewrite Rabs_mult, Rabs_Ropp, (Rabs_pos_eq (1 / 2)) by lra.
    assert (Rabs (N * L + P) <= 2 * N + Rabs P)%R; [|unfold W; lra]. eapply Rle_trans; [apply Rabs_triang|]. rewrite Rabs_mult, !(Rabs_pos_eq N), (Rabs_pos_eq L) by lra. nra. }
  assert (AT : (Rabs (t3 + D) <= 5 * W)%R) by (eapply Rle_trans; [apply Rabs_triang|]; unfold W in *; lra).
  assert (B4 : (Rabs (B2R r - E) <= 16 * W * / 4503599627370496)%R).
  { replace (B2R r - E)%R with ((B2R r - (t3 + D)) + (t3 - - (1 / 2) * (N * L + P)))%R by (unfold E; ring). eapply Rle_trans; [apply Rabs_triang|]. lra. }
  assert (B4' : (Rabs (B2R r) <= W * (1 + 16 * / 4503599627370496))%R).
  { replace (B2R r) with ((B2R r - E) + E)%R by ring. eapply Rle_trans; [apply Rabs_triang|]. lra. }
  destruct (f32_close r G4) as [Fr Dr].
  { apply Rle_trans with (bpow radix2 40); [change (bpow radix2 40) with 1099511627776%R; lra|apply bpow_le; lia]. }
  split; [exact Fr|].
  assert (T150 : (bpow radix2 (-150) <= / 1152921504606846976)%R).
  { change (/ 1152921504606846976)%R with (bpow radix2 (-60)). apply bpow_le. lia. }
  replace (B2R (f32_of_f64 r) - E)%R with ((B2R (f32_of_f64 r) - B2R r) + (B2R r - E))%R by ring. eapply Rle_trans; [apply Rabs_triang|]. lra.
Qed.
