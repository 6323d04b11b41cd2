(** Converted Gaussian mixtures end to end: properties C116-C119. *)
From Coq Require Import String ZArith List Bool Lia Reals Lra.
From Flocq Require Import Core BinarySingleNaN.
From Verif.Base Require Import Res CInt ListX Loops Float Arith Kernels RealSum.
From Verif.Model Require Import Common Text Cgen Mixture Harness NetRun DistanceRun MixtureRun.
From Verif.Spec Require Import RealSpec DistanceSpec MixtureSpec RoundingSpec NetRunSpec StrSpec MixtureRunSpec.
From Verif.Proof Require Import FloatErr RoundingTop NetClose Libm Str MixtureErr MixtureRun MixtureRunTop.
From Verif.Props Require Import Rounding NetRun.
Import ListNotations.
Open Scope Z_scope.
Open Scope res_scope.

(** Hypotheses common to the theorems: [str_reads_back]: str() of a finite number reads back as the number; [good_gmm k n f]:
    k components and n features, any covariance type, finite numbers, positive diagonals; expf has relative error [ge], logf
    absolute error [gl]; [log_dets_good]: the logarithms of the determinants that sklearn's function gave have errors at most
    [gd]; [mixture_fits]: no overflow. *)

(** ** C116: score_samples *)
Theorem C116_score_samples float_str log_det_fn ef lf tf k n f ge gl gd classifier X :
  str_reads_back float_str -> good_gmm k n f -> expf_ok (ef:=ef) ge -> (0 <= ge <= / 4)%R -> logf_ok (lf:=lf) gl ->
  exists w, gmm_init log_det_fn classifier f = Ret w /\
  (X <> [] -> Forall (fun row => zlen row = n /\ Forall good_number row /\ mixture_fits f row ge gl gd /\ log_dets_good f row gd (w_log_det w)) X ->
   exists out, gmm_score_samples float_str ef lf tf w X = Ret out /\ zlen out = zlen X /\
     forall i row, zget X i = Ret row -> exists o, zget out i = Ret o /\ returned (ln (fitted_total f row)) (score_bound f row ge gl gd) o).
Proof.
  intros SR G EF GE LF. assert (K : k = zlen (gm_means f)) by (symmetry; apply G). subst k.
  destruct (init_ok log_det_fn f n G classifier) as (w & E & IW). exists w. split; [exact E|]. intros NX RX.
  exact (score_run float_str log_det_fn ef lf tf f n ge gl gd SR G EF GE LF w X IW NX RX).
Qed.

(** ** C117: predict_proba and predict_log_proba *)
Theorem C117_predict_proba float_str log_det_fn ef lf tf k n f ge gl gd classifier X :
  str_reads_back float_str -> good_gmm k n f -> expf_ok (ef:=ef) ge -> (0 <= ge <= / 4)%R -> logf_ok (lf:=lf) gl ->
  exists w, gmm_init log_det_fn classifier f = Ret w /\
  (X <> [] -> Forall (fun row => zlen row = n /\ Forall good_number row /\ mixture_fits f row ge gl gd /\ log_dets_good f row gd (w_log_det w)) X ->
   exists out, gmm_predict_proba float_str ef lf tf w X = Ret out /\ zlen out = zlen X /\
     forall i row, zget X i = Ret row -> exists ps, zget out i = Ret ps /\ zlen ps = k /\
       forall c, 0 <= c < k -> exists o, zget ps c = Ret o /\ returned (posterior f row c) (proba_bound f row ge gl gd) o).
Proof.
  intros SR G EF GE LF. assert (K : k = zlen (gm_means f)) by (symmetry; apply G). subst k.
  destruct (init_ok log_det_fn f n G classifier) as (w & E & IW). exists w. split; [exact E|]. intros NX RX.
  exact (proba_run float_str log_det_fn ef lf tf f n ge gl gd SR G EF GE LF w X IW NX RX).
Qed.
Theorem C117_predict_log_proba float_str log_det_fn ef lf tf k n f ge gl gd classifier X :
  str_reads_back float_str -> good_gmm k n f -> expf_ok (ef:=ef) ge -> (0 <= ge <= / 4)%R -> logf_ok (lf:=lf) gl ->
  exists w, gmm_init log_det_fn classifier f = Ret w /\
  (X <> [] -> Forall (fun row => zlen row = n /\ Forall good_number row /\ mixture_fits f row ge gl gd /\ log_dets_good f row gd (w_log_det w)) X ->
   exists out, gmm_predict_log_proba float_str ef lf tf w X = Ret out /\ zlen out = zlen X /\
     forall i row, zget X i = Ret row -> exists ps, zget out i = Ret ps /\ zlen ps = k /\
       forall c, 0 <= c < k -> exists o, zget ps c = Ret o /\ returned (ln (fitted_weighted f row c)) (component_err f row gd c) o).
Proof.
  intros SR G EF GE LF. assert (K : k = zlen (gm_means f)) by (symmetry; apply G). subst k.
  destruct (init_ok log_det_fn f n G classifier) as (w & E & IW). exists w. split; [exact E|]. intros NX RX.
  exact (logproba_run float_str log_det_fn ef lf tf f n ge gl gd SR G EF GE LF w X IW NX RX).
Qed.

(** ** C118: predict *)
(** No component has a probability greater than that of the returned one by more than twice the error. *)
Theorem C118_predict_partial float_str log_det_fn ef lf tf k n f ge gl gd classifier X :
  str_reads_back float_str -> good_gmm k n f -> expf_ok (ef:=ef) ge -> (0 <= ge <= / 4)%R -> logf_ok (lf:=lf) gl ->
  exists w, gmm_init log_det_fn classifier f = Ret w /\
  (X <> [] -> Forall (fun row => zlen row = n /\ Forall good_number row /\ mixture_fits f row ge gl gd /\ log_dets_good f row gd (w_log_det w)) X ->
   exists out, gmm_predict float_str ef lf tf w X = Ret out /\ zlen out = zlen X /\
     forall i row, zget X i = Ret row -> exists b, zget out i = Ret b /\ 0 <= b < k /\
       forall c, 0 <= c < k -> (posterior f row c <= posterior f row b + 2 * (proba_bound f row ge gl gd + 1 / 1000000))%R).
Proof.
  intros SR G EF GE LF. assert (K : k = zlen (gm_means f)) by (symmetry; apply G). subst k.
  destruct (init_ok log_det_fn f n G classifier) as (w & E & IW). exists w. split; [exact E|]. intros NX RX.
  exact (predict_run float_str log_det_fn ef lf tf f n ge gl gd SR G EF GE LF w X IW NX RX).
Qed.
(** So a component that leads by more is returned. *)
Theorem C118_leader_partial float_str log_det_fn ef lf tf k n f ge gl gd classifier X :
  str_reads_back float_str -> good_gmm k n f -> expf_ok (ef:=ef) ge -> (0 <= ge <= / 4)%R -> logf_ok (lf:=lf) gl ->
  exists w, gmm_init log_det_fn classifier f = Ret w /\
  (Forall (fun row => zlen row = n /\ Forall good_number row /\ mixture_fits f row ge gl gd /\ log_dets_good f row gd (w_log_det w)) X ->
   forall i row b, zget X i = Ret row -> 0 <= b < k ->
   (forall c, 0 <= c < k -> c <> b -> (posterior f row c + 2 * (proba_bound f row ge gl gd + 1 / 1000000) < posterior f row b)%R) ->
   exists out, gmm_predict float_str ef lf tf w X = Ret out /\ zget out i = Ret b).
Proof.
  intros SR G EF GE LF. destruct (C118_predict_partial float_str log_det_fn ef lf tf k n f ge gl gd classifier X SR G EF GE LF) as (w & E & H).
  exists w. split; [exact E|]. intros RX i row b Hr Hb LD. destruct H as (out & P & _ & Q); [intros ->; apply zget_bound in Hr; change (zlen (@nil (list f64))) with 0 in Hr; lia|exact RX|].
  exists out. split; [exact P|]. destruct (Q i row Hr) as (c & O & B & D). destruct (Z.eq_dec c b) as [->|NE]; [exact O|].
  exfalso. specialize (LD c B NE). specialize (D b Hb). lra.
Qed.

(** It is not always the component of highest probability: two components around 0 and 2^28 with standard deviation 2^24.
    The Cholesky factors 2^-24 are written as 0.000000, so that the components cannot be told apart, and 0 is returned
    for the centre of component 1. *)
Definition wide_gmm : fitted_gmm := mk_gmm [[d 0]; [d 268435456]] "spherical" (Arr1 [f_of_ZE 1 (-24); f_of_ZE 1 (-24)])
  [f_of_dec true 6931471805599453 16; f_of_dec true 6931471805599453 16].
Definition wide_dets (full : list (list (list f64))) (n_features : Z) : list f64 := [f_of_dec true 166355323334 10; f_of_dec true 166355323334 10].
Lemma wide_chol : B2R (f_of_ZE 1 (-24) : f64) = (/ 16777216)%R /\ is_finite (f_of_ZE 1 (-24) : f64) = true.
Proof.
  split; [|reflexivity]. assert (E : B2SF (f_of_ZE 1 (-24) : f64) = SpecFloat.S754_finite false 4503599627370496 (-76)) by (vm_compute; reflexivity).
  rewrite <- SF2R_B2SF, E. unfold SF2R, F2R. cbn [cond_Zopp Fnum Fexp]. change (bpow radix2 (-76)) with (/ 75557863725914323419136)%R. lra.
Qed.
Lemma wide_good : good_gmm 2 1 wide_gmm.
Proof.
  split; [lia|]. split; [lia|]. split; [reflexivity|]. split; [reflexivity|]. split; [repeat constructor|]. split; [reflexivity|]. split; [reflexivity|].
  destruct wide_chol as [V F].
  split. { intros c p Hc Hp. assert (C : c = 0 \/ c = 1) by lia. destruct C as [->| ->]; change (0 < B2R (f_of_ZE 1 (-24) : f64))%R; rewrite V; lra. }
  split; [reflexivity|]. split. { assert (B : forall z, 0 <= z <= 268435456 -> good_number (d z)).
    { intros z Hz. destruct (B2R_d z ltac:(lia)) as [Vz Fz]. split; [exact Fz|]. rewrite Vz, <- abs_IZR. apply Rle_trans with (IZR (2 ^ 30)); [apply IZR_le; lia|]. change (IZR (2 ^ 30)) with (bpow radix2 30). apply bpow_le; lia. }
    repeat (apply Forall_cons; [apply Forall_cons; [apply B; lia|constructor]|]). constructor. }
  split. { assert (GD : good_number (f_of_ZE 1 (-24) : f64)). { split; [exact F|]. rewrite V, Rabs_pos_eq by lra. apply Rle_trans with (bpow radix2 0); [change (bpow radix2 0) with 1%R; lra|apply bpow_le; lia]. }
    apply Forall_cons; [exact GD|apply Forall_cons; [exact GD|constructor]]. }
  set (v := f_of_dec true 6931471805599453 16 : f64).
  assert (GD : good_number v).
  { assert (E : B2SF v = SpecFloat.S754_finite true 6243314768165359 (-53)) by (vm_compute; reflexivity).
    split; [rewrite <- is_finite_SF_B2SF, E; reflexivity|]. rewrite <- SF2R_B2SF, E. unfold SF2R, F2R. cbn [cond_Zopp Fnum Fexp Z.opp].
    change (bpow radix2 (-53)) with (/ 9007199254740992)%R. rewrite Rabs_left by lra. apply Rle_trans with (bpow radix2 0); [change (bpow radix2 0) with 1%R; lra|apply bpow_le; lia]. }
  apply Forall_cons; [exact GD|apply Forall_cons; [exact GD|constructor]].
Qed.
Lemma wide_weights : (100 * fitted_weighted wide_gmm [d 268435456] 0 < fitted_weighted wide_gmm [d 268435456] 1)%R.
Proof.
  destruct wide_chol as [V F]. pose proof (B2R_d 0 ltac:(lia)) as [D0 _]. pose proof (B2R_d 268435456 ltac:(lia)) as [D1 _].
  unfold fitted_weighted, weighted, density, quad, precision, chol_diag, rprod. change (zlen [d 268435456]) with 1.
  cbv [fitted_chol wide_gmm gm_precisions_cholesky gm_means gm_log_weights map]. cbv [sumr rsum zrange map fold_right vec nth Z.to_nat Z.eqb Z.of_nat seq List.seq Z.add].
  set (v := f_of_dec true 6931471805599453 16 : f64). generalize (B2R v). intros lw. clear v. rewrite V, D0, D1. simpl.
  replace (- (1 / 2) * ((268435456 - 0) * (/ 16777216 * (/ 16777216 * 1)) * (268435456 - 0) + 0 + 0))%R with (-128)%R by lra.
  replace (- (1 / 2) * ((268435456 - 268435456) * (/ 16777216 * (/ 16777216 * 1)) * (268435456 - 268435456) + 0 + 0))%R with 0%R by lra.
  rewrite exp_0. pose proof (exp_pos lw) as EL. assert (E : (100 * exp (-128) < 1)%R).
  { pose proof (exp_ineq1 128 ltac:(lra)) as X. replace (-128)%R with (Ropp 128) by lra. rewrite exp_Ropp. apply Rmult_lt_reg_r with (exp 128); [lra|]. rewrite Rmult_assoc, Rinv_l by lra. lra. }
  assert (S : (0 < sqrt (2 * PI))%R) by (apply sqrt_lt_R0; pose proof PI_RGT_0; lra).
  assert (Q : (0 < exp lw * / 16777216 / (sqrt (2 * PI) * 1))%R) by (apply Rmult_lt_0_compat; [lra|apply Rinv_0_lt_compat; lra]).
  match goal with |- (?a < ?b)%R => replace a with (exp lw * / 16777216 / (sqrt (2 * PI) * 1) * (100 * exp (-128)))%R by (field; lra); replace b with (exp lw * / 16777216 / (sqrt (2 * PI) * 1) * 1)%R by (field; lra) end.
  apply Rmult_lt_compat_l; assumption.
Qed.

Lemma argmax_same (v : f64) : np_argmax [v; v] = Ret 0.
Proof.
  unfold np_argmax. cbn [fold_left]. destruct (is_nan v) eqn:N; [reflexivity|]. cbn [negb andb orb].
  assert (E : fltb v v = false) by (unfold fltb, Bltb, SpecFloat.SFltb; rewrite <- ?Bcompare_correct; destruct v as [s|s| |s m e B]; try discriminate N; try (destruct s; reflexivity);
    cbn; destruct s; rewrite Z.compare_refl, Pos.compare_refl; reflexivity). rewrite E. reflexivity.
Qed.

Lemma literal_is (v : f64) s n k : scan_decimal (fmt_fixed 6 v ++ txt "f") = Some (s, n, k, txt "f") -> gcc_float_const v = Ret (f_of_dec s n k).
Proof. unfold gcc_float_const, gcc_float_literal. intros ->. reflexivity. Qed.
Theorem C118_wide_refuted ef lf tf classifier :
  good_gmm 2 1 wide_gmm /\ (100 * posterior wide_gmm [d 268435456] 0 < posterior wide_gmm [d 268435456] 1)%R /\
  (let* w := gmm_init wide_dets classifier wide_gmm in gmm_predict (fmt_fixed 6) ef lf tf w [[d 268435456]]) = Ret [0].
Proof.
  split; [exact wide_good|]. split.
  { unfold posterior. assert (P : (0 < fitted_total wide_gmm [d 268435456])%R).
    { pose proof (wpos wide_gmm [d 268435456] wide_good 0 ltac:(change (zlen (gm_means wide_gmm)) with 2; lia)) as P0. pose proof wide_weights. unfold fitted_total, total.
      change (zlen (map (map B2R) (gm_means wide_gmm))) with 2. change (0 < sumr 2 (fitted_weighted wide_gmm [d 268435456]))%R. assert (S2 : forall g, sumr 2 g = (g 0%Z + g 1%Z)%R) by (intros g; unfold sumr; change (zrange 2) with [0; 1]; cbn [map]; change (rsum [g 0%Z; g 1%Z]) with (g 0%Z + (g 1%Z + 0))%R; lra). rewrite S2. lra. }
    pose proof wide_weights. unfold Rdiv. rewrite <- Rmult_assoc. apply Rmult_lt_compat_r; [apply Rinv_0_lt_compat; exact P|assumption]. }
  set (q := nmul f64_arith (f_of_ZE 1 (-24)) (none_ f64_arith)).
  set (w := mk_wrapper [[d 0]; [d 268435456]] [[[q]]; [[q]]] (wide_dets [[[q]]; [[q]]] 1) (gm_log_weights wide_gmm)).
  assert (E1 : gmm_init wide_dets classifier wide_gmm = Ret w) by reflexivity.
  set (ms := [f_of_dec false 0 6; f_of_dec false 268435456000000 6] : list f32). set (lds := [f_of_dec true 16635532 6; f_of_dec true 16635532 6] : list f32).
  set (lws := [f_of_dec true 693147 6; f_of_dec true 693147 6] : list f32). set (qs := [f_of_dec false 0 6; f_of_dec false 0 6] : list f32).
  assert (E2 : build_executable ef lf tf w = Ret (mk_mixture (f32_arith ef lf tf) 2 1 CovFull ms qs lds lws)).
  { unfold build_executable, w. cbn [w_means w_precisions_col w_log_det w_log_weights]. cbn [concat app zlen Datatypes.length]. unfold wide_dets, wide_gmm. cbn [gm_log_weights].
    change (pyget [[d 0]; [d 268435456]] 0) with (Ret [d 0]). cbn [bind]. change (2 * 1 =? 2) with true.
    match goal with |- bind (py_assert ?b) _ = _ => change b with true end. cbn [py_assert bind mapM].
    rewrite (literal_is (d 0) false 0 6), (literal_is (d 268435456) false 268435456000000 6), (literal_is q false 0 6), (literal_is (f_of_dec true 166355323334 10) true 16635532 6),
      (literal_is (f_of_dec true 6931471805599453 16) true 693147 6) by (vm_compute; reflexivity). reflexivity. }
  rewrite E1. cbn [bind]. unfold gmm_predict, gmm_predict_proba, gmm_run. rewrite E2. cbn [bind mapM].
  unfold gmm_predict_one, gmm_main. cbv zeta.
  match goal with |- context [exec_predict_proba _ _ _ ?y] => pose (x := y : list f32); change y with x end.
  rewrite (exec_proba_run ef lf tf log_density_c 2 1 ms qs lds lws x) by (try lia; reflexivity).
  assert (E3 : f_outs log_density_c 2 1 ms qs lds lws x = [f_out log_density_c 1 ms qs lds lws x 0; f_out log_density_c 1 ms qs lds lws x 0]).
  { assert (E4 : f_out log_density_c 1 ms qs lds lws x 0 = f_out log_density_c 1 ms qs lds lws x 1) by (apply B2SF_inj; vm_compute; reflexivity). rewrite E4 at 2. reflexivity. }
  rewrite E3. cbn [map bind]. set (v := ef _). change [fmt_fixed 6 v; fmt_fixed 6 v] with (map (fmt_fixed 6) [v; v]).
  pose proof (printed_list [v; v] ltac:(discriminate)) as PL. cbv zeta in PL. rewrite PL. cbn [map bind mapM]. rewrite argmax_same. reflexivity.
Qed.

(** ** C119: what is not accepted *)
(** Rows with a wrong number of columns: the program ends with an exit status, wherever the row is in X. *)
Theorem C119_wrong_columns float_str log_det_fn ef lf tf k n f classifier X x :
  good_gmm k n f -> In x X -> zlen x <> n ->
  exists w, gmm_init log_det_fn classifier f = Ret w /\
  (zlen (w_log_det w) = k -> Forall good_number (w_log_det w) ->
   gmm_score_samples float_str ef lf tf w X = Err RuntimeError_ /\ gmm_predict_log_proba float_str ef lf tf w X = Err RuntimeError_ /\
   gmm_predict_proba float_str ef lf tf w X = Err RuntimeError_ /\ gmm_predict float_str ef lf tf w X = Err RuntimeError_).
Proof. exact (wrong_columns float_str log_det_fn ef lf tf k n f classifier X x). Qed.
(** A fitted number that is infinite or not a number: the program does not compile. *)
Theorem C119_not_finite float_str ef lf tf w X m0 : pyget (w_means w) 0 = Ret m0 -> Forall (fun r => zlen r = zlen m0) (w_means w) ->
  Exists (fun v : f64 => is_finite v = false) (concat (w_means w) ++ w_log_det w ++ concat (concat (w_precisions_col w)) ++ w_log_weights w) ->
  gmm_score_samples float_str ef lf tf w X = Err CompileError /\ gmm_predict_log_proba float_str ef lf tf w X = Err CompileError /\
  gmm_predict_proba float_str ef lf tf w X = Err CompileError /\ gmm_predict float_str ef lf tf w X = Err CompileError.
Proof. exact (not_finite float_str ef lf tf w X m0). Qed.
(** Covariance types *)
Theorem C119_unknown_type log_det_fn classifier f m0 : pyget (gm_means f) 0 = Ret m0 ->
  ~ In (gm_covariance_type f) ["full"; "tied"; "diag"; "spherical"]%string -> gmm_init log_det_fn classifier f = Err ValueError_.
Proof.
  intros E N. unfold gmm_init, typed_chol. rewrite E. cbn [bind].
  repeat match goal with |- context [String.eqb ?a ?b] => destruct (String.eqb_spec a b) as [Q|_]; [exfalso; apply N; rewrite Q; cbn; tauto|] end. reflexivity.
Qed.
Theorem C119_wrong_dimensions log_det_fn classifier f m0 : pyget (gm_means f) 0 = Ret m0 ->
  In (gm_covariance_type f) ["full"; "tied"; "diag"; "spherical"]%string -> ~ typed f -> gmm_init log_det_fn classifier f = Err AssertionError_.
Proof.
  intros E I N. unfold typed in N. unfold gmm_init, typed_chol. rewrite E. cbn [bind].
  destruct I as [Q|[Q|[Q|[Q|[]]]]]; rewrite <- Q in *; destruct (gm_precisions_cholesky f); try reflexivity; exfalso; apply N; auto.
Qed.
(** No rows *)
Theorem C119_no_rows float_str ef lf tf w m : build_executable ef lf tf w = Ret m ->
  gmm_predict_log_proba float_str ef lf tf w [] = Ret [] /\ gmm_predict_proba float_str ef lf tf w [] = Ret [] /\
  gmm_predict float_str ef lf tf w [] = Err IndexError_ /\ gmm_score_samples float_str ef lf tf w [] = Err IndexError_.
Proof. intros E. unfold gmm_predict_log_proba, gmm_predict, gmm_predict_proba, gmm_score_samples, gmm_run. rewrite E. auto. Qed.
(** The method given to convert() makes no difference. *)
Theorem C119_method log_det_fn c1 c2 f : gmm_init log_det_fn c1 f = gmm_init log_det_fn c2 f.
Proof. reflexivity. Qed.

(** ** Instances *)
(** Two components around -2 and 2 with standard deviation 1; the row 2. *)
Definition two_gmm : fitted_gmm := mk_gmm [[d (-2)]; [d 2]] "spherical" (Arr1 [d 1; d 1]) [d (-1); d (-1)].
Definition zero_dets (full : list (list (list f64))) (n_features : Z) : list f64 := map (fun _ => d 0) full.
Lemma two_good : good_gmm 2 1 two_gmm.
Proof.
  split; [lia|]. split; [lia|]. split; [reflexivity|]. split; [reflexivity|]. split; [repeat constructor|]. split; [reflexivity|]. split; [reflexivity|].
  split. { intros c p Hc Hp. assert (C : c = 0 \/ c = 1) by lia. destruct (B2R_d 1 ltac:(lia)) as [V _]. destruct C as [->| ->]; change (0 < B2R (d 1))%R; rewrite V; lra. }
  split; [reflexivity|]. split; [|split].
  - repeat (apply Forall_cons; [apply Forall_cons; [apply good_d; lia|constructor]|]). constructor.
  - repeat (apply Forall_cons; [apply good_d; lia|]). constructor.
  - repeat (apply Forall_cons; [apply good_d; lia|]). constructor.
Qed.
Lemma sumr_one g : sumr 1 g = g 0.
Proof. unfold sumr. change (zrange 1) with [0]. cbn [map]. change (rsum [g 0]) with (g 0%Z + 0)%R. apply Rplus_0_r. Qed.
Lemma sumr_two g : sumr 2 g = (g 0%Z + g 1%Z)%R.
Proof. unfold sumr. change (zrange 2) with [0; 1]. cbn [map]. change (rsum [g 0; g 1]) with (g 0%Z + (g 1%Z + 0))%R. ring. Qed.
Lemma two_entries c : 0 <= c < 2 -> x_at [d 2] 0 = 2%R /\ mean_at two_gmm c 0 = (4 * IZR c - 2)%R /\ chol_at two_gmm c 0 0 = 1%R /\ log_det_at two_gmm [d 2] c = 0%R /\ weight_at two_gmm c = (-1)%R.
Proof.
  intros Hc. destruct (B2R_d 1 ltac:(lia)) as [V1 _]. destruct (B2R_d 2 ltac:(lia)) as [V2 _]. destruct (B2R_d (-2) ltac:(lia)) as [V3 _]. destruct (B2R_d (-1) ltac:(lia)) as [V4 _].
  split; [exact V2|]. assert (LD : forall v, chol_diag (fitted_chol two_gmm) c v = 1%R).
  { intros v. assert (C : c = 0 \/ c = 1) by lia. destruct C as [->| ->]; exact V1. }
  split; [|split; [|split]].
  - assert (C : c = 0 \/ c = 1) by lia. destruct C as [->| ->]; [change (B2R (d (-2)) = 4 * 0 - 2)%R|change (B2R (d 2) = 4 * 1 - 2)%R]; rewrite ?V2, ?V3; lra.
  - assert (C : c = 0 \/ c = 1) by lia. destruct C as [->| ->]; exact V1.
  - unfold log_det_at. change (zlen [d 2]) with 1. rewrite sumr_one, LD. apply ln_1.
  - assert (C : c = 0 \/ c = 1) by lia. destruct C as [->| ->]; exact V4.
Qed.
Lemma two_component c : 0 <= c < 2 -> (0 <= component_mag two_gmm [d 2] 0 c <= 20)%R /\ (0 <= component_err two_gmm [d 2] 0 c <= / 1000)%R.
Proof.
  intros Hc. pose proof tiny32_small as T0. destruct (two_entries c Hc) as (E1 & E2 & E3 & E4 & E5).
  assert (T : (0 <= tiny32 <= / 1000000000)%R) by (split; [apply bpow_ge_0|apply Rle_trans with (bpow radix2 (-30)); [apply bpow_le; lia|change (bpow radix2 (-30)) with (/ 1073741824)%R; lra]]).
  assert (P : (0 <= bpow radix2 (-140) <= / 1000000000)%R) by (split; [apply bpow_ge_0|apply Rle_trans with (bpow radix2 (-30)); [apply bpow_le; lia|change (bpow radix2 (-30)) with (/ 1073741824)%R; lra]]).
  assert (R8 : (0 <= rel (Z.to_nat (3 * 1 + 5)) <= / 1000000)%R) by (split; [apply rel_nonneg|pose proof (rel_le (3 * 1 + 5) ltac:(lia)) as Q; change (IZR (3 * 1 + 5)) with 8%R in Q; lra]).
  assert (AE : (0 <= argv_err 2 <= / 1000000)%R) by (unfold argv_err; rewrite Rabs_pos_eq by lra; lra).
  assert (BG : forall v, (Rabs v <= 2)%R -> (0 <= print6 v <= / 1000000)%R) by (intros v Hv; unfold print6; pose proof (Rabs_pos v); lra).
  assert (CC : IZR c = 0%R \/ IZR c = 1%R) by (assert (C : c = 0 \/ c = 1) by lia; destruct C as [->| ->]; auto).
  assert (AM : (Rabs (4 * IZR c - 2) = 2)%R) by (destruct CC as [-> | ->]; [rewrite Rabs_left by lra; lra|rewrite Rabs_pos_eq by lra; lra]).
  assert (YM : (0 <= y_mag two_gmm [d 2] c 0 <= 4 + / 10000)%R).
  { unfold y_mag, big. change (zlen [d 2]) with 1. rewrite !sumr_one, E1, E2, E3. rewrite AM, (Rabs_pos_eq 1), (Rabs_pos_eq 2) by lra.
    pose proof (BG 1%R ltac:(rewrite Rabs_pos_eq; lra)). pose proof (BG (4 * IZR c - 2)%R ltac:(lra)). set (p1 := print6 1) in *. set (p2 := print6 (4 * IZR c - 2)) in *. clearbody p1 p2. nra. }
  assert (YA : (Rabs (y_at two_gmm [d 2] c 0) <= 4)%R) by (unfold y_at; change (zlen [d 2]) with 1; rewrite sumr_one, E1, E2, E3; destruct CC as [-> | ->]; apply Rabs_le; lra).
  assert (YO : (0 <= y_off two_gmm [d 2] c 0 <= / 20000)%R).
  { unfold y_off, big. change (zlen [d 2]) with 1. rewrite sumr_one, E1, E2, E3. rewrite (Rabs_pos_eq 1) by lra.
    pose proof (BG 1%R ltac:(rewrite Rabs_pos_eq; lra)). pose proof (BG (4 * IZR c - 2)%R ltac:(lra)). set (p1 := print6 1) in *. set (p2 := print6 (4 * IZR c - 2)) in *. clearbody p1 p2.
    set (ae := argv_err 2) in *. clearbody ae.
    assert (AB : (0 <= Rabs (2 - (4 * IZR c - 2)) <= 4)%R) by (split; [apply Rabs_pos|destruct CC as [-> | ->]; apply Rabs_le; lra]). set (ab := Rabs _) in *. clearbody ab.
    assert (B1 : (0 <= ab * p1 <= 4 * / 1000000)%R) by nra. assert (B2 : (0 <= (ae + p2) * p1 <= / 1000000)%R) by nra. split; nra. }
  assert (SM : (0 <= square_mag two_gmm [d 2] c <= 16 + / 100)%R). { unfold square_mag. change (zlen [d 2]) with 1. rewrite sumr_one. nra. }
  assert (SE : (0 <= square_err two_gmm [d 2] c <= / 1500)%R).
  { unfold square_err. change (zlen [d 2]) with 1. rewrite sumr_one. pose proof (Rabs_pos (y_at two_gmm [d 2] c 0)).
    set (ya := Rabs _) in *. set (yo := y_off _ _ _ _) in *. set (sm := square_mag _ _ _) in *. set (re := rel _) in *. clearbody ya yo sm re.
    assert (0 <= ya * yo <= 4 * / 20000)%R by nra. assert (0 <= yo * yo <= / 400000000)%R by nra. assert (0 <= re * sm <= / 1000000 * 17)%R by nra. nra. }
  assert (DO : (0 <= det_off two_gmm [d 2] 0 c <= / 1000000)%R).
  { unfold det_off. rewrite E4. replace (Rabs 0 + 0)%R with 0%R by (rewrite Rabs_R0; lra). pose proof (BG 0%R ltac:(rewrite Rabs_R0; lra)). lra. }
  assert (CM : (0 <= component_mag two_gmm [d 2] 0 c <= 19)%R).
  { unfold component_mag, big. rewrite E4, E5, Rabs_R0, Rabs_left by lra. change (IZR (zlen [d 2])) with 1%R. pose proof (BG (-1)%R ltac:(rewrite Rabs_left; lra)). lra. }
  split; [lra|]. unfold component_err. rewrite E5. change (IZR (zlen [d 2])) with 1%R. pose proof (BG (-1)%R ltac:(rewrite Rabs_left; lra)). set (cm := component_mag _ _ _ _) in *. clearbody cm. lra.
Qed.
Lemma two_weights : (9 * fitted_weighted two_gmm [d 2] 0 < fitted_weighted two_gmm [d 2] 1)%R.
Proof.
  destruct (B2R_d 1 ltac:(lia)) as [V1 _]. destruct (B2R_d 2 ltac:(lia)) as [V2 _]. destruct (B2R_d (-2) ltac:(lia)) as [V3 _]. destruct (B2R_d (-1) ltac:(lia)) as [V4 _].
  unfold fitted_weighted, weighted, density, quad, precision, chol_diag, rprod. change (zlen [d 2]) with 1.
  cbv [fitted_chol two_gmm gm_precisions_cholesky gm_means gm_log_weights map]. cbv [sumr rsum zrange map fold_right vec nth Z.to_nat Z.eqb Z.of_nat seq List.seq Z.add].
  rewrite V1, V2, V3, V4. simpl.
  match goal with |- context [exp (- (1 / 2) * ?a)%R] => replace (- (1 / 2) * a)%R with (Ropp 8) by lra end.
  match goal with |- context [exp (- (1 / 2) * ?a)%R] => replace (- (1 / 2) * a)%R with 0%R by lra end.
  rewrite exp_0. pose proof (exp_pos (-1)) as EL. assert (E : (9 * exp (Ropp 8) < 1)%R).
  { pose proof (exp_ineq1 8 ltac:(lra)) as X. rewrite exp_Ropp. apply Rmult_lt_reg_r with (exp 8); [lra|]. rewrite Rmult_assoc, Rinv_l by lra. lra. }
  assert (S : (0 < sqrt (2 * PI))%R) by (apply sqrt_lt_R0; pose proof PI_RGT_0; lra).
  assert (Q : (0 < exp (-1) / (sqrt (2 * PI) * 1))%R) by (apply Rmult_lt_0_compat; [lra|apply Rinv_0_lt_compat; lra]).
  match goal with |- (?a < ?b)%R => replace a with (exp (-1) / (sqrt (2 * PI) * 1) * (9 * exp (Ropp 8)))%R by (field; lra); replace b with (exp (-1) / (sqrt (2 * PI) * 1) * 1)%R by (field; lra) end.
  apply Rmult_lt_compat_l; assumption.
Qed.
(** All hypotheses of C116-C118 hold; the score error is below 1/100; component 1 leads. *)
Example C116_instance : let ge := (/ 16777216)%R in let gl := (18 * / 16777216)%R in
  str_reads_back (fmt_fixed 1074) /\ good_gmm 2 1 two_gmm /\ expf_ok (ef:=expf_cr) ge /\ logf_ok (lf:=logf_cr) gl /\
  (exists w, gmm_init zero_dets None two_gmm = Ret w /\ log_dets_good two_gmm [d 2] 0 (w_log_det w)) /\
  Forall good_number [d 2] /\ mixture_fits two_gmm [d 2] ge gl 0 /\
  (score_bound two_gmm [d 2] ge gl 0 <= / 100)%R /\
  (forall c, 0 <= c < 2 -> c <> 1 -> (posterior two_gmm [d 2] c + 2 * (proba_bound two_gmm [d 2] ge gl 0 + 1 / 1000000) < posterior two_gmm [d 2] 1)%R).
Proof.
  intros ge gl. pose proof max32_big as MB. destruct C88_libm_exists as (L1 & _ & L2).
  split; [apply fixed_reads_back; reflexivity|]. split; [exact two_good|]. split; [exact L1|]. split; [exact L2|].
  split. { eexists. split; [reflexivity|]. split; [reflexivity|]. intros c Hc. change (zlen (gm_means two_gmm)) with 2 in Hc.
    destruct (two_entries c Hc) as (_ & _ & _ & E4 & _). rewrite E4. destruct (B2R_d 0 ltac:(lia)) as [V0 F0]. cbn [w_log_det zero_dets map].
    match goal with |- context [nth (Z.to_nat c) ?l ?z] => assert (N : nth (Z.to_nat c) l z = d 0) by (assert (C : c = 0 \/ c = 1) by lia; destruct C as [->| ->]; reflexivity); rewrite N end.
    split; [exact F0|]. rewrite V0. replace (0 - 0)%R with 0%R by ring. rewrite Rabs_R0. split; [lra|]. pose proof (bpow_ge_0 radix2 126). lra. }
  split; [apply Forall_cons; [apply good_d; lia|constructor]|].
  destruct (two_component 0 ltac:(lia)) as [M0 E0]. destruct (two_component 1 ltac:(lia)) as [M1 E1].
  assert (MM : (0 <= mixture_mag two_gmm [d 2] 0 <= 40)%R).
  { unfold mixture_mag. change (map (component_mag two_gmm [d 2] 0) (zrange (zlen (gm_means two_gmm)))) with [component_mag two_gmm [d 2] 0 0; component_mag two_gmm [d 2] 0 1].
    unfold maxl. cbn [fold_right]. match goal with |- (0 <= 2 * ?a <= 40)%R => assert (0 <= a <= 20)%R; [|lra] end.
    split; [eapply Rle_trans; [|apply Rmax_l]; lra|]. repeat apply Rmax_lub; lra. }
  assert (ME : (0 <= mixture_err two_gmm [d 2] 0 <= / 1000)%R).
  { unfold mixture_err. change (map (component_err two_gmm [d 2] 0) (zrange (zlen (gm_means two_gmm)))) with [component_err two_gmm [d 2] 0 0; component_err two_gmm [d 2] 0 1].
    unfold maxl. cbn [fold_right]. split; [eapply Rle_trans; [|apply Rmax_l]; lra|]. repeat apply Rmax_lub; lra. }
  assert (SS : (0 <= softmax_sum_err ge 2 <= / 100000)%R).
  { unfold softmax_sum_err. pose proof (rel_le 2 ltac:(lia)) as Q. pose proof (rel_nonneg (Z.to_nat 2)) as Q0. unfold ge. set (r := rel _) in *. clearbody r. split; lra. }
  assert (SA : (softmax_arg_err ge gl 2 (mixture_mag two_gmm [d 2] 0) <= / 1000)%R).
  { unfold softmax_arg_err, gl. set (m := mixture_mag _ _ _) in *. clearbody m. lra. }
  split; [|split].
  - unfold mixture_fits. change (zlen (gm_means two_gmm)) with 2. split; [lia|]. split; [lra|]. split; lra.
  - unfold score_bound. change (zlen (gm_means two_gmm)) with 2. unfold gl. lra.
  - assert (PB : (proba_bound two_gmm [d 2] ge gl 0 <= / 100)%R).
    { unfold proba_bound, softmax_err. change (zlen (gm_means two_gmm)) with 2. unfold ge. unfold ge in SA. lra. }
    intros c Hc NC. assert (c = 0) by lia. subst c. unfold posterior.
    pose proof (wpos two_gmm [d 2] two_good 0 ltac:(change (zlen (gm_means two_gmm)) with 2; lia)) as P0. pose proof two_weights as TW.
    assert (FT : fitted_total two_gmm [d 2] = (fitted_weighted two_gmm [d 2] 0%Z + fitted_weighted two_gmm [d 2] 1%Z)%R).
    { unfold fitted_total, total. change (zlen (map (map B2R) (gm_means two_gmm))) with 2. apply sumr_two. }
    rewrite FT. set (a := fitted_weighted two_gmm [d 2] 0) in *. set (b := fitted_weighted two_gmm [d 2] 1) in *. clearbody a b.
    apply Rmult_lt_reg_r with (a + b)%R; [lra|]. replace (b / (a + b) * (a + b))%R with b by (field; lra).
    set (pb := proba_bound _ _ _ _ _) in *. clearbody pb. replace ((a / (a + b) + 2 * (pb + 1 / 1000000)) * (a + b))%R with (a + 2 * (pb + 1 / 1000000) * (a + b))%R by (field; lra).
    assert ((2 * (pb + 1 / 1000000)) * (a + b) <= / 40 * (a + b))%R by (apply Rmult_le_compat_r; lra). lra.
Qed.
(** C119: a row of two columns; a mean that is not a number. *)
Example C119_instance : In [d 1; d 2] [[d 1]; [d 1; d 2]] /\ zlen [d 1; d 2] <> 1 /\
  Exists (fun v : f64 => is_finite v = false) (concat [[d 0]; [B754_nan : f64]]).
Proof. split; [cbn; tauto|]. split; [discriminate|]. apply Exists_cons_tl, Exists_cons_hd. reflexivity. Qed.
