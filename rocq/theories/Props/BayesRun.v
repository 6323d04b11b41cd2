(** Converted GaussianNB end to end: properties C112-C115. *)
From Coq Require Import String ZArith List Bool Lia Reals Lra.
From Flocq Require Import Core BinarySingleNaN.
From Verif.Base Require Import Res CInt ListX Loops Float Kernels RealSum.
From Verif.Model Require Import Common Text TreesConvert TreesC FixedPoint Bayes Harness TreesRun DistanceRun BayesRun.
From Verif.Spec Require Import BayesSpec RunSpec NetRunSpec StrSpec BayesRunSpec.
From Verif.Proof Require Import Bayes Log2 NormalConst NetClose Str BayesErr BayesRun.
From Verif.Props Require Import NetRun.
Import ListNotations.
Open Scope Z_scope.
Open Scope res_scope.

(** ** C112: the fixed-point score approximates the logarithm of the normal density *)
(** All numbers are in units of 2^-16. The value is at z standard deviations from the mean; the standard normal density
    there is exp (-z^2/2) / sqrt (2 pi), and the density of the feature is that divided by the standard deviation. *)
Theorem C112_score v mean std stdlog2 : feature_fits v (mk_summary mean std stdlog2) ->
  exists sc, eml_bayes_logpdf v mean std stdlog2 = Ret sc /\
    let z := (Rabs (IZR v - IZR mean) / IZR std)%R in
    (Rabs (IZR sc / 65536 - (log_density z 0 1 - IZR stdlog2 / 65536)) <= (z + 2) ^ 2 / 700)%R.
Proof.
  intros F. exists (feature_score v (mk_summary mean std stdlog2)). split; [exact (logpdf_ok v _ F)|]. cbv zeta.
  pose proof (score_real v _ (proj1 F)) as [S _]. cbv zeta in S. cbn [s_mean s_std s_stdlog2] in S.
  rewrite log_density_eq by lra. rewrite log2_1. replace (((_ - 0) / 1))%R with (Rabs (IZR v - IZR mean) / IZR std)%R by (field; apply IZR_neq; pose proof (proj1 F) as H; cbn in H; lia).
  rewrite Rminus_0_r. exact S.
Qed.
(** The value 3, mean 1, standard deviation 2: one standard deviation, -2.049 of log2 (0.2420) = -2.0471, and 1 for log2 2. *)
Example C112_instance : feature_fits (3 * 65536) (mk_summary 65536 131072 65536) /\
  eml_bayes_logpdf (3 * 65536) 65536 131072 65536 = Ret (-199780).
Proof. split; [vm_compute; intuition congruence|reflexivity]. Qed.

(** ** C113: predict returns a class of highest likelihood *)
(** Hypotheses: [str_reads_back]: str() of the fitted numbers reads back; [log2_accurate]: numpy's log2 is accurate to 2^-20;
    [good_nb nc nf f]: nc by nf matrices of moderate numbers, 2 to 10 classes; [row_fits]: scores fit 32 bits; [junk]:
    what a local array holds at first. The class returned has the highest likelihood, up to the errors of the
    fixed-point scores of the two classes compared. *)
Theorem C113_predict_partial float_str log2_fn nc nf f method junk X :
  str_reads_back float_str -> log2_accurate log2_fn -> good_nb nc nf f ->
  In method [None; Some "loadable"%string] -> zlen junk >= 10 -> float_rows nf X -> Forall (row_fits nc f) X ->
  exists m out, nb_init float_str log2_fn method f = Ret m /\ nb_predict junk m X = Ret out /\ zlen out = zlen X /\
  forall i row, zget X i = Ret row -> exists c, zget out i = Ret (PyInt c) /\ 0 <= c < nc /\
    forall d, 0 <= d < nc -> (log_likelihood f row d <= log_likelihood f row c + (class_err f row c + class_err f row d))%R.
Proof. intros H1 H2 H3. exact (nb_run float_str log2_fn nc nf f H1 H2 H3 method junk X). Qed.
(** So a class that leads by more than the errors is returned. *)
Theorem C113_leader_partial float_str log2_fn nc nf f method junk X i row c :
  str_reads_back float_str -> log2_accurate log2_fn -> good_nb nc nf f ->
  In method [None; Some "loadable"%string] -> zlen junk >= 10 -> float_rows nf X -> Forall (row_fits nc f) X ->
  zget X i = Ret row -> 0 <= c < nc ->
  (forall d, 0 <= d < nc -> d <> c -> (log_likelihood f row d + (class_err f row c + class_err f row d) < log_likelihood f row c)%R) ->
  exists m out, nb_init float_str log2_fn method f = Ret m /\ nb_predict junk m X = Ret out /\ zget out i = Ret (PyInt c).
Proof.
  intros H1 H2 H3 H4 H5 H6 H7 Hr Hc LD. destruct (C113_predict_partial float_str log2_fn nc nf f method junk X H1 H2 H3 H4 H5 H6 H7) as (m & out & E & P & _ & Q).
  exists m, out. split; [exact E|]. split; [exact P|]. destruct (Q i row Hr) as (c' & O & B & D). destruct (Z.eq_dec c' c) as [->|NE]; [exact O|].
  exfalso. specialize (LD c' B NE). specialize (D c Hc). lra.
Qed.
(** The assumption about log2 can be met. *)
Definition log2_floor (x : f64) : f64 := f_of_ZE (Zfloor (log2R (B2R x) * 1048576)) (-20).
Theorem C113_log2_exists : log2_accurate log2_floor.
Proof.
  intros x F [L U]. assert (P : (0 < B2R x)%R) by (pose proof (bpow_gt_0 radix2 (-15)); lra).
  assert (LR : (Rabs (log2R (B2R x)) <= 15)%R).
  { assert (P2 : forall n, log2R (2 ^ n) = INR n).
    { induction n as [|n IH]; [apply log2_1|]. cbn [pow]. rewrite log2_mult by (try apply pow_lt; lra). rewrite log2_2, IH, S_INR. ring. }
    assert (E15 : log2R 32768 = 15%R). { replace 32768%R with (2 ^ 15)%R by (cbn; lra). rewrite P2. cbn. lra. }
    assert (EM : log2R (/ 32768) = (-15)%R) by (unfold log2R in *; rewrite ln_Rinv by lra; lra).
    change (bpow radix2 (-15)) with (/ 32768)%R in L. change (bpow radix2 15) with 32768%R in U.
    pose proof (log2_le (/ 32768) (B2R x) ltac:(lra) L). pose proof (log2_le (B2R x) 32768 ltac:(lra) U). apply Rabs_le. lra. }
  set (r := log2R (B2R x)) in *. unfold log2_floor. fold r. set (z := Zfloor (r * 1048576)).
  pose proof (Zfloor_lb (r * 1048576)) as FL. pose proof (Zfloor_ub (r * 1048576)) as FU. fold z in FL, FU. apply Rabs_le_inv in LR.
  assert (BZ : Z.abs z <= 2 ^ 24).
  { assert (-15728641 <= z <= 15728640); [|lia]. split; [assert (-15728641 < z); [|lia]; apply lt_IZR|apply le_IZR]; lra. }
  pose proof (binary_normalize_correct 53 1024 _ _ mode_NE z (-20) false) as N. cbv zeta in N. cbn [round_mode] in N.
  assert (V : (F2R (Float radix2 z (-20)) = IZR z / 1048576)%R) by (unfold F2R; cbn [Fnum Fexp]; change (bpow radix2 (-20)) with (/ 1048576)%R; reflexivity).
  assert (GF : round radix2 (SpecFloat.fexp 53 1024) ZnearestE (F2R (Float radix2 z (-20))) = F2R (Float radix2 z (-20))).
  { apply round_generic; [apply valid_rnd_N|]. change (generic_format radix2 (FLT_exp (-1074) 53) (F2R (Float radix2 z (-20)))). apply generic_format_FLT.
    exists (Float radix2 z (-20)); [reflexivity| |cbn; lia]. cbn [Fnum]. change (radix2 ^ 53) with (2 ^ 53). lia. }
  rewrite GF in N. rewrite Rlt_bool_true in N.
  - destruct N as (N1 & N2 & _). split; [exact N2|]. change (Rabs (B2R (binary_normalize 53 1024 _ _ mode_NE z (-20) false) - r) <= bpow radix2 (-20))%R. rewrite N1, V.
    change (bpow radix2 (-20)) with (/ 1048576)%R. apply Rabs_le. lra.
  - rewrite V. apply Rle_lt_trans with 16%R; [apply Rabs_le; lra|]. change 16%R with (bpow radix2 4). apply bpow_lt. lia.
Qed.
(** Missing: estimators with one class return -3 for every row, and with more than ten classes an array is written past its
    end. *)
Theorem C113_one_class_refuted :
  (let* m := nb_init (fmt_fixed 1) (fun _ => d 0) None (mk_nb [[d 0]] [[d 1]] [d 1]) in nb_predict (repeat 0 10) m [[d 0]; [d 5]]) = Ret [PyInt (-3); PyInt (-3)].
Proof. vm_compute. reflexivity. Qed.
Theorem C113_many_classes_refuted :
  (let* m := nb_init (fmt_fixed 1) (fun _ => d 0) None (mk_nb (repeat [d 0] 11) (repeat [d 1] 11) (repeat (d 0) 11)) in nb_predict (repeat 0 10) m [[d 0]]) = Err OutOfBounds.
Proof. vm_compute. reflexivity. Qed.

(** An estimator with means 0 and 10, standard deviations 1, and the row 6. *)
Definition nb2 : fitted_nb := mk_nb [[d 0]; [d 10]] [[d 1]; [d 1]] [d 1; f_of_ZE 1 (-20)].
Definition six : list f64 := [d 6].
Lemma nb2_good : good_nb 2 1 nb2.
Proof.
  assert (ONE : (bpow radix2 (-28) <= 1 <= bpow radix2 28)%R) by (split; change 1%R with (bpow radix2 0); apply bpow_le; lia).
  split; [lia|]. split; [lia|]. split; [split; [reflexivity|repeat constructor]|]. split; [split; [reflexivity|repeat constructor]|]. split.
  - apply Forall_cons; [|apply Forall_cons; [|constructor]]; (apply Forall_cons; [|constructor]).
    + destruct (B2R_d 0 ltac:(lia)) as [-> F]. split; [exact F|]. rewrite Rabs_R0. lra.
    + destruct (B2R_d 10 ltac:(lia)) as [-> F]. split; [exact F|]. rewrite Rabs_pos_eq; lra.
  - destruct (B2R_d 1 ltac:(lia)) as [V F]. apply Forall_cons; [|apply Forall_cons; [|constructor]]; (apply Forall_cons; [|constructor]); (split; [exact F|rewrite V; exact ONE]).
Qed.
Lemma nb2_vals : at1 six 0 = 6%R /\ mean_of nb2 0 0 = 0%R /\ mean_of nb2 1 0 = 10%R /\ std_of nb2 0 0 = 1%R /\ std_of nb2 1 0 = 1%R.
Proof.
  destruct (B2R_d 0 ltac:(lia)) as [V0 _]. destruct (B2R_d 10 ltac:(lia)) as [V10 _]. destruct (B2R_d 1 ltac:(lia)) as [V1 _]. destruct (B2R_d 6 ltac:(lia)) as [V6 _].
  split; [exact V6|]. split; [exact V0|]. split; [exact V10|]. unfold std_of, at2. cbn [nth Z.to_nat nb_var nb2].
  change (Pos.to_nat 1) with 1%nat. cbn [nth]. rewrite V1, sqrt_1. auto.
Qed.
Lemma nb2_err : (away_std 6 0 1 = 6 /\ away_std 6 10 1 = 4 /\ 0 <= away_err 6 0 1 <= / 2000 /\ 0 <= away_err 6 10 1 <= / 2000)%R.
Proof.
  assert (A6 : away_std 6 0 1 = 6%R) by (unfold away_std; rewrite Rabs_pos_eq; lra).
  assert (A4 : away_std 6 10 1 = 4%R) by (unfold away_std; rewrite Rabs_left1; lra).
  unfold away_err. rewrite A6, A4. unfold print8. rewrite Rabs_pos_eq by lra. lra.
Qed.
Lemma six_fits : row_fits 2 nb2 six.
Proof.
  destruct nb2_vals as (V6 & M0 & M1 & S0 & S1). destruct nb2_err as (A6 & A4 & E0 & E1). split; [|split].
  - intros i Hi. change (zlen six) with 1 in Hi. replace i with 0 by lia. rewrite V6, Rabs_pos_eq; lra.
  - intros c i Hc Hi. change (zlen six) with 1 in Hi. replace i with 0 by lia. rewrite V6. assert (c = 0 \/ c = 1) as [->| ->] by lia; rewrite ?M0, ?M1, ?S0, ?S1; lra.
  - intros c Hc. change (zlen six) with 1. rewrite sumr_1, V6. assert (c = 0 \/ c = 1) as [->| ->] by lia; rewrite ?M0, ?M1, ?S0, ?S1, ?A6, ?A4.
    + assert (((6 + away_err 6 0 1) ^ 2 <= 100)%R) by nra. lra.
    + assert (((4 + away_err 6 10 1) ^ 2 <= 100)%R) by nra. lra.
Qed.
Lemma nb2_likelihood : log_likelihood nb2 six 0 = (- kk * 36 - cc)%R /\ log_likelihood nb2 six 1 = (- kk * 16 - cc)%R /\
  (class_err nb2 six 0 + class_err nb2 six 1 <= 1)%R.
Proof.
  destruct nb2_vals as (V6 & M0 & M1 & S0 & S1). destruct nb2_err as (A6 & A4 & E0 & E1).
  unfold log_likelihood, class_err. change (zlen six) with 1. rewrite !sumr_1, V6, M0, M1, S0, S1, !log_density_eq, !log2_1 by lra.
  split; [field|]. split; [field|]. unfold score_err. rewrite A6, A4. set (a := away_err 6 0 1) in *. set (b := away_err 6 10 1) in *. clearbody a b.
  assert ((6 + a + 2) ^ 2 <= 81)%R by nra. assert ((4 + b + 2) ^ 2 <= 81)%R by nra. assert (a ^ 2 <= / 2000)%R by nra. assert (b ^ 2 <= / 2000)%R by nra. lra.
Qed.
Lemma six_rows : float_rows 1 [six].
Proof.
  split; [discriminate|]. split; [vm_compute; discriminate|]. apply Forall_cons; [|constructor]. split; [reflexivity|]. split; [|vm_compute; discriminate].
  apply Forall_cons; [exact (good_d 6 ltac:(lia))|constructor].
Qed.
Example C113_instance float_str log2_fn method junk : str_reads_back float_str -> log2_accurate log2_fn ->
  In method [None; Some "loadable"%string] -> zlen junk >= 10 ->
  exists m out, nb_init float_str log2_fn method nb2 = Ret m /\ nb_predict junk m [six] = Ret out /\ zget out 0 = Ret (PyInt 1).
Proof.
  intros SR LG IM HJ. destruct nb2_likelihood as (L0 & L1 & LE). pose proof kk_bounds as KB.
  apply (C113_leader_partial float_str log2_fn 2 1 nb2 method junk [six] 0 six 1 SR LG nb2_good IM HJ six_rows); [|reflexivity|lia|].
  - apply Forall_cons; [exact six_fits|constructor].
  - intros c Hc NE. replace c with 0 by lia. rewrite L0, L1. lra.
Qed.

(** ** C114: the class of highest posterior probability *)
Definition log_posterior (f : fitted_nb) (row : list f64) (c : Z) : R :=
  (log2R (B2R (nth (Z.to_nat c) (nb_class_prior f) (fzero : f64))) + log_likelihood f row c)%R.
(** With equal priors. *)
Theorem C114_equal_priors_partial float_str log2_fn nc nf f p method junk X :
  str_reads_back float_str -> log2_accurate log2_fn -> good_nb nc nf f ->
  (forall c, 0 <= c < nc -> nth (Z.to_nat c) (nb_class_prior f) (fzero : f64) = p) ->
  In method [None; Some "loadable"%string] -> zlen junk >= 10 -> float_rows nf X -> Forall (row_fits nc f) X ->
  exists m out, nb_init float_str log2_fn method f = Ret m /\ nb_predict junk m X = Ret out /\ zlen out = zlen X /\
  forall i row, zget X i = Ret row -> exists c, zget out i = Ret (PyInt c) /\ 0 <= c < nc /\
    forall d, 0 <= d < nc -> (log_posterior f row d <= log_posterior f row c + (class_err f row c + class_err f row d))%R.
Proof.
  intros H1 H2 H3 HP H4 H5 H6 H7. destruct (C113_predict_partial float_str log2_fn nc nf f method junk X H1 H2 H3 H4 H5 H6 H7) as (m & out & E & P & L & Q).
  exists m, out. split; [exact E|]. split; [exact P|]. split; [exact L|]. intros i row Hr. destruct (Q i row Hr) as (c & O & B & D). exists c. split; [exact O|]. split; [exact B|].
  intros e He. unfold log_posterior. rewrite (HP e He), (HP c B). specialize (D e He). lra.
Qed.
(** The priors are not read. *)
Theorem C114_priors_ignored float_str log2_fn method theta var p1 p2 :
  nb_init float_str log2_fn method (mk_nb theta var p1) = nb_init float_str log2_fn method (mk_nb theta var p2).
Proof. reflexivity. Qed.
(** Missing, because false: with the priors 1 and 2^-20 the row 6 most probably belongs to class 0, but 1 is returned. *)
Theorem C114_posterior_refuted float_str log2_fn junk : str_reads_back float_str -> log2_accurate log2_fn -> zlen junk >= 10 ->
  (log_posterior nb2 six 1 + 5 <= log_posterior nb2 six 0)%R /\
  exists m out, nb_init float_str log2_fn None nb2 = Ret m /\ nb_predict junk m [six] = Ret out /\ zget out 0 = Ret (PyInt 1).
Proof.
  intros SR LG HJ. split; [|apply C113_instance; auto; left; reflexivity].
  destruct nb2_likelihood as (L0 & L1 & _). pose proof kk_bounds as KB. unfold log_posterior. rewrite L0, L1. cbn [nth Z.to_nat nb_class_prior nb2].
  change (Pos.to_nat 1) with 1%nat. cbn [nth]. destruct (B2R_d 1 ltac:(lia)) as [-> _]. rewrite log2_1.
  assert (V : B2R (f_of_ZE 1 (-20) : f64) = (/ 1048576)%R).
  { pose proof (binary_normalize_correct 53 1024 _ _ mode_NE 1 (-20) false) as N. cbv zeta in N. cbn [round_mode] in N.
    replace (F2R (Float radix2 1 (-20))) with (bpow radix2 (-20)) in N by (rewrite F2R_bpow; reflexivity).
    rewrite (round_generic radix2 _ ZnearestE (bpow radix2 (-20))) in N by (try apply valid_rnd_N; apply generic_format_bpow; vm_compute; discriminate).
    rewrite Rlt_bool_true in N by (rewrite Rabs_pos_eq by apply bpow_ge_0; apply bpow_lt; lia). apply N. }
  rewrite V. assert (E : log2R (/ 1048576) = (-20)%R).
  { assert (P2 : forall n, log2R (2 ^ n) = INR n).
    { induction n as [|n IH]; [apply log2_1|]. cbn [pow]. rewrite log2_mult by (try apply pow_lt; lra). rewrite log2_2, IH, S_INR. ring. }
    assert (E20 : log2R 1048576 = 20%R). { replace 1048576%R with (2 ^ 20)%R by (cbn; lra). rewrite P2. cbn. lra. }
    unfold log2R in *. rewrite ln_Rinv by lra. lra. }
  rewrite E. lra.
Qed.

(** ** C115: what is refused *)
(** Methods other than the default. *)
Theorem C115_inline float_str log2_fn f t : nb_table log2_fn f = Ret t -> nb_init float_str log2_fn (Some "inline"%string) f = Err RuntimeError_.
Proof. intros H. unfold nb_init. rewrite H. reflexivity. Qed.
Theorem C115_other float_str log2_fn f t s : nb_table log2_fn f = Ret t -> s <> "inline"%string -> s <> "loadable"%string ->
  nb_init float_str log2_fn (Some s) f = Err ValueError_.
Proof.
  intros H N1 N2. unfold nb_init. rewrite H. cbn [bind]. destruct (String.eqb_spec s "loadable"); [contradiction|]. destruct (String.eqb_spec s "inline"); [contradiction|]. reflexivity.
Qed.
Theorem C115_default float_str log2_fn f : nb_init float_str log2_fn None f = nb_init float_str log2_fn (Some "loadable"%string) f.
Proof. reflexivity. Qed.
(** A variance of zero (or below) in any class and feature: no model is made. *)
Lemma mapM_all {X Y} (g : X -> res Y) l ys : mapM g l = Ret ys -> forall x, In x l -> exists y, g x = Ret y.
Proof.
  revert ys. induction l as [|a l IH]; intros ys E x I; [destruct I|]. cbn [mapM] in E. apply bind_Ret in E as (b & Eb & E). apply bind_Ret in E as (bs & Ebs & _).
  destruct I as [->|I]; [eauto|]. eapply IH; eauto.
Qed.
Theorem C115_zero_variance float_str log2_fn nc nf f method c i v m :
  matrix_of nc nf (nb_theta f) -> zget (nb_var f) c = Ret v -> zlen v = nf -> 0 <= c < nc -> 0 <= i < nf ->
  is_finite (nth (Z.to_nat i) v (fzero : f64)) = true -> (B2R (nth (Z.to_nat i) v (fzero : f64)) <= 0)%R ->
  nb_init float_str log2_fn method f <> Ret m.
Proof.
  intros MT Hv LV Hc Hi F Z E. unfold nb_init in E. apply bind_Ret in E as (t & E & _). unfold nb_table in E. apply bind_Ret in E as (r0 & E0 & E).
  assert (L0 : zlen r0 = nf).
  { destruct MT as [LT M]. destruct (zget_ok (nb_theta f) 0 ltac:(lia)) as [r Hr]. rewrite (pyget_zget _ _ _ Hr) in E0. injection E0 as <-. rewrite Forall_forall in M. apply M. eapply zget_In. exact Hr. }
  rewrite L0, (proj1 MT) in E. destruct (mapM_all _ _ _ E c) as (y & Ey); [apply Res.zrange_In; exact Hc|].
  destruct (mapM_all _ _ _ Ey i) as (e & Ee); [apply Res.zrange_In; exact Hi|].
  apply bind_Ret in Ee as (a1 & _ & Ee). apply bind_Ret in Ee as (a2 & _ & Ee). apply bind_Ret in Ee as (vr & Ev & Ee). rewrite (pyget_zget _ _ _ Hv) in Ev. injection Ev as <-.
  apply bind_Ret in Ee as (va & Ea & Ee). rewrite (pyget_zget v i _ (zget_nth v i fzero ltac:(lia))) in Ea. injection Ea as <-.
  set (x := nth (Z.to_nat i) v fzero) in *. clearbody x. apply bind_Ret in Ee as (s & Es & Ee). apply bind_Ret in Ee as (l & El & _).
  destruct x as [sg|sg| |sg mm ee Hb]; try discriminate F.
  - unfold np_sqrt in Es. cbn in Es. injection Es as <-. discriminate El.
  - destruct sg; [unfold np_sqrt in Es; cbn in Es; discriminate Es|]. exfalso.
    apply (Rlt_irrefl 0). eapply Rlt_le_trans; [|exact Z]. apply F2R_gt_0. cbn. lia.
Qed.
Example C115_instance : matrix_of 2 1 (nb_theta (mk_nb [[d 0]; [d 10]] [[d 1]; [d 0]] [])) /\
  nb_init (fmt_fixed 1) (fun _ => d 0) None (mk_nb [[d 0]; [d 10]] [[d 1]; [d 0]] []) = Err FloatingPointError_.
Proof. split; [split; [reflexivity|repeat constructor]|vm_compute; reflexivity]. Qed.
(** Missing: a row with a column too few is classified by the columns there are. *)
Theorem C115_short_row_refuted :
  (let* m := nb_init (fmt_fixed 1) (fun _ => d 0) None (mk_nb [[d 0; d 9]; [d 4; d 0]] [[d 1; d 1]; [d 1; d 1]] []) in nb_predict (repeat 0 10) m [[d 3]]) = Ret [PyInt 1] /\
  (let* m := nb_init (fmt_fixed 1) (fun _ => d 0) None (mk_nb [[d 0; d 9]; [d 4; d 0]] [[d 1; d 1]; [d 1; d 1]] []) in nb_predict (repeat 0 10) m [[d 3; d 9]]) = Ret [PyInt 0].
Proof. split; vm_compute; reflexivity. Qed.
