(** Rounding errors: properties C86-C88. *)
From Coq Require Import ZArith String List Bool Lia Reals Lra.
From Flocq Require Import Core BinarySingleNaN.
From Verif.Base Require Import Res CInt ListX Loops Float Arith Kernels RealSum.
From Verif.Model Require Import Common Net Distance.
From Verif.Spec Require Import RealSpec NetSpec DistanceSpec RoundingSpec.
From Verif.Proof Require Import Net NetApi FloatErr NetErr NetClose DistanceErr Libm RoundingTop.
From Verif.Props Require Import Net Distance.
Import ListNotations.
Open Scope Z_scope.
Open Scope res_scope.

(** ** C86: float32 networks of relu and identity layers *)
(** [exact_outputs m x] is the network evaluated on real numbers with the very weights stored in [m];
    the bound for each output is rel(g) times the output computed with absolute values. *)
Theorem C86_infer ef lf tf (m : net (f32_arith ef lf tf)) (x : list f32) : net_ok _ m (zlen x) -> 2 <= n_layers _ m -> relu_net_fits m x ->
  exists m' (ys rest : list f32), eml_net_infer _ m x (zlen x) = Ret (EmlOk, m') /\ activations2 _ m' = ys ++ rest /\
    close_all (relu_bound m x) (exact_outputs m x) ys.
Proof.
  intros OK H F. destruct (infer_close m x _ _ OK H (relu_close m x OK F)) as (m' & ys & rest & E & _ & E2 & C). exists m', ys, rest. auto.
Qed.
Theorem C86_regress ef lf tf (m : net (f32_arith ef lf tf)) (x out : list f32) : net_ok _ m (zlen x) -> 2 <= n_layers _ m -> relu_net_fits m x ->
  zlen out = zlen (exact_outputs m x) ->
  exists m' (ys : list f32), eml_net_regress _ m x (zlen x) out (zlen out) = Ret (EmlOk, m', ys) /\
    close_all (relu_bound m x) (exact_outputs m x) ys.
Proof. intros OK H F L. exact (regress_close m x out _ _ OK H (relu_close m x OK F) L). Qed.
Theorem C86_regress1 ef lf tf junk (m : net (f32_arith ef lf tf)) (x : list f32) : net_ok _ m (zlen x) -> 2 <= n_layers _ m -> relu_net_fits m x ->
  zlen (exact_outputs m x) = 1 ->
  exists m' (y : f32), eml_net_regress1 _ junk m x (zlen x) = Ret (y, m') /\ is_finite y = true /\
    (Rabs (B2R y - nthr (exact_outputs m x) 0) <= nthr (relu_bound m x) 0)%R.
Proof. intros OK H F L. exact (regress1_close junk m x _ _ OK H (relu_close m x OK F) L). Qed.
(** predict: the class of the largest exact output, whenever it leads by more than the two bounds; with
    a single output, the exact comparison with 1/2 whenever it is further from 1/2 than the bound. *)
Theorem C86_predict ef lf tf (m : net (f32_arith ef lf tf)) (x : list f32) c : net_ok _ m (zlen x) -> 2 <= n_layers _ m -> relu_net_fits m x ->
  let Y := exact_outputs m x in let e := relu_bound m x in
  2 <= zlen Y -> 0 <= c < zlen Y ->
  (forall k, 0 <= k < zlen Y -> k <> c -> (nthr Y k + nthr e k + nthr e c < nthr Y c)%R) ->
  exists m', eml_net_predict _ m x (zlen x) = Ret (c, m').
Proof.
  intros OK H F Y e N2 Hc G. destruct (predict_close m x e Y c OK H (relu_close m x OK F) N2 Hc G) as (m' & E & _). eauto.
Qed.
Theorem C86_predict_single ef lf tf (m : net (f32_arith ef lf tf)) (x : list f32) : net_ok _ m (zlen x) -> 2 <= n_layers _ m -> relu_net_fits m x ->
  let Y := exact_outputs m x in let e := relu_bound m x in
  zlen Y = 1 -> (nthr e 0 < Rabs (nthr Y 0 - 1 / 2))%R ->
  exists m' c, eml_net_predict _ m x (zlen x) = Ret (c, m') /\ (c = 1 <-> (1 / 2 < nthr Y 0)%R) /\ (c = 0 <-> (nthr Y 0 < 1 / 2)%R).
Proof.
  intros OK H F Y e N1 G. destruct (predict1_close m x e Y OK H (relu_close m x OK F) N1 G) as (m' & E & _). exists m'. eexists. split; [exact E|].
  destruct (Rlt_dec (1 / 2) (nthr Y 0)); split; split; intros; try lra; try lia; try discriminate; auto.
  destruct (Req_dec (nthr Y 0) (1 / 2)) as [Q|Q]; [|lra]. exfalso. rewrite Q in G. unfold Rminus in G. rewrite Rplus_opp_r, Rabs_R0 in G.
  assert (0 <= nthr e 0)%R; [|lra]. destruct (relu_close m x OK F) as (_ & L & K). change (num (f32_arith ef lf tf)) with f32 in *.
  fold Y in L. rewrite N1 in L. destruct (K 0 ltac:(lia)) as [_ D]. eapply Rle_trans; [apply Rabs_pos|exact D].
Qed.
(** The bound in simple terms: g roundings cost at most 2 g 2^-24. *)
Theorem C86_relative (g : Z) : 0 <= g <= 8388608 -> (rel (Z.to_nat g) <= 2 * IZR g / 16777216)%R.
Proof. apply rel_le. Qed.

Lemma B2R_fz z : Z.abs z <= 2 ^ 24 -> B2R (Net.fz z) = IZR z /\ is_finite (Net.fz z) = true.
Proof. intros H. destruct (@f_of_Z_exact 24 128 _ _ z ltac:(simpl; lia)) as [V F]. split; [exact V|exact F]. Qed.
Ltac fz_vals := repeat match goal with |- context [@B2R 24 128 (Net.fz ?z)] => rewrite (proj1 (B2R_fz z ltac:(simpl; lia))) end.
Ltac net_eval :=
  cbv [mags_ok net_mag fold_left layer_mag as_real r_weight r_bias r_inputs r_outputs r_activation l_n_inputs l_n_outputs l_weights l_biases l_activation n_layers_arr sumr rsum nthr znth map zrange py_n_in py_weights py_n_out py_biases zlen Datatypes.length
    net_err net_small layer_err layer_small layer_bound pre_err plus_list sums_mag maxl fold_right];
  simpl; fz_vals.
Lemma max32_big : (1000000 <= max32)%R.
Proof. apply Rle_trans with (bpow radix2 20); [change (bpow radix2 20) with (IZR 1048576); lra|apply bpow_le; lia]. Qed.
Lemma tiny32_small : (0 <= tiny32 <= 1)%R.
Proof. split; [apply bpow_ge_0|]. change 1%R with (bpow radix2 0). apply bpow_le. lia. Qed.

Example C86_instance ef lf tf : exists m, c_generate_net_loadable _ (sample_layers ef lf tf) = Ret m /\ net_ok _ m 2 /\ 2 <= n_layers _ m /\
  relu_net_fits m [Net.fz 1; Net.fz 2] /\ exact_outputs m [Net.fz 1; Net.fz 2] = [2%R] /\ (nthr (relu_bound m [Net.fz 1; Net.fz 2]) 0 <= / 50000)%R.
Proof.
  destruct (sample_hyps ef lf tf) as (H1 & H2 & H3). eexists. split; [reflexivity|].
  split; [apply (C32_generated _ _ _ 2 H1 H2 H3); reflexivity|]. split; [cbn [n_layers zlen Datatypes.length sample_layers]; unfold zlen; cbn; lia|].
  Opaque Net.fz.
  pose proof max32_big. pose proof tiny32_small.
  assert (ABS : forall z, Rabs (IZR z) = IZR (Z.abs z)) by (intros; symmetry; apply abs_IZR).
  split; [|split].
  - unfold relu_net_fits. cbn [n_layers_arr]. split; [|split; [|split; [|split]]].
    + unfold finite_layer. repeat constructor; apply B2R_fz; lia.
    + constructor; [left; reflexivity|constructor; [right; reflexivity|constructor]].
    + repeat constructor; apply B2R_fz; lia.
    + cbv [mags_ok layer_mag as_real r_weight r_bias l_n_inputs l_n_outputs l_weights l_biases sumr rsum nthr znth map zrange py_n_in py_weights py_n_out py_biases zlen Datatypes.length].
      simpl. fz_vals.
      rewrite !ABS. cbn [Z.abs]. repeat constructor; lra.
    + vm_compute. discriminate.
  - unfold exact_outputs, rnet_fun, rlayer_fun, rlinear, sumr. simpl. unfold nthr, znth. simpl. fz_vals. f_equal.
    assert (M1 : Rmax 0 (1 * 1 + (2 * 2 + 0) + 0) = 5%R) by (rewrite Rmax_right; lra).
    assert (M2 : Rmax 0 (-1 * 1 + (3 * 2 + 0) + 1) = 6%R) by (rewrite Rmax_right; lra).
    rewrite M1, M2. lra.
  - unfold relu_bound. change (net_depth _) with 8. change (Z.to_nat 8) with 8%nat.
    net_eval. rewrite !ABS. cbn [Z.abs]. unfold rel. cbn [pow].
    assert (T : (tiny32 <= / 100)%R) by (apply Rle_trans with (bpow radix2 (-7)); [apply bpow_le; lia|change (bpow radix2 (-7)) with (/ 128)%R; lra]).
    match goal with |- (?a * ?b <= _)%R => assert (a <= / 2000000 /\ b <= 18)%R as [Q1 Q2]; [split; lra|assert (0 <= a)%R by lra; apply Rle_trans with (/ 2000000 * 18)%R; [apply Rmult_le_compat; lra|lra]] end.
Qed.


(** ** C87: the elliptic envelope in float32 *)
(** The distance is within rel(2n+4) times the distance computed with absolute values of the exact one;
    and when the exact decision is clearer than that, the float decision is right. *)
Theorem C87_distance ef lf tf (P : list (list f32)) (x m : list f32) :
  let n := zlen x in let PR := map (map B2R) P in let xr := map B2R x in let mr := map B2R m in
  square n PR -> zlen m = n -> n < 46341 -> all_finite (List.concat P ++ x ++ m) -> mahalanobis_small PR xr mr ->
  exists d : f32, eml_mahalanobis_distance_squared (f32_arith ef lf tf) x m (List.concat P) n = Ret d /\ is_finite d = true /\
    (Rabs (B2R d - mahalanobis2 PR xr mr) <= rel (Z.to_nat (2 * n + 4)) * mahalanobis_mag PR xr mr)%R.
Proof. apply mahalanobis_close. Qed.
Theorem C87_outlier ef lf tf (P : list (list f32)) (x m : list f32) (b : f32) :
  let n := zlen x in let PR := map (map B2R) P in let xr := map B2R x in let mr := map B2R m in
  square n PR -> zlen m = n -> n < 46341 -> all_finite (List.concat P ++ x ++ m) -> mahalanobis_small PR xr mr -> is_finite b = true ->
  let D := mahalanobis2 PR xr mr in
  (rel (Z.to_nat (2 * n + 4)) * mahalanobis_mag PR xr mr < Rabs (- D - B2R b))%R ->
  exists o d, eml_elliptic_envelope_predict (f32_arith ef lf tf) (generate_code (f32_arith ef lf tf) m P b) x n = Ret (o, d) /\
    (o = 1 <-> (- D < B2R b)%R) /\ (o = 0 <-> (B2R b < - D)%R).
Proof. apply envelope_close. Qed.

Example C87_instance : let P := [[Net.fz 2; Net.fz 1]; [Net.fz 0; Net.fz 1]] in let x := [Net.fz 3; Net.fz 2] in let m := [Net.fz 1; Net.fz 1] in let b := Net.fz (-10) in
  let PR := map (map B2R) P in let xr := map B2R x in let mr := map B2R m in
  square (zlen x) PR /\ zlen m = zlen x /\ all_finite (List.concat P ++ x ++ m) /\ mahalanobis_small PR xr mr /\ is_finite b = true /\
  mahalanobis2 PR xr mr = 11%R /\ (rel (Z.to_nat (2 * zlen x + 4)) * mahalanobis_mag PR xr mr < Rabs (- mahalanobis2 PR xr mr - B2R b))%R.
Proof.
  cbv zeta. pose proof max32_big. pose proof tiny32_small.
  assert (ABS : forall z, Rabs (IZR z) = IZR (Z.abs z)) by (intros; symmetry; apply abs_IZR).
  cbn [map]. fz_vals.
  assert (D : mahalanobis2 [[2%R; 1%R]; [0%R; 1%R]] [3%R; 2%R] [1%R; 1%R] = 11%R).
  { unfold mahalanobis2, quad, sumr, zlen. simpl. unfold vec, mat, vec. simpl. unfold vec. simpl. lra. }
  assert (V0 : forall i, 0 <= i < 2 -> (Rabs (vec [3%R; 2%R] i - vec [1%R; 1%R] i) <= 2)%R).
  { intros i Hi. assert (HI : i = 0 \/ i = 1) by lia. destruct HI as [->| ->]; unfold vec; simpl; apply Rabs_le; lra. }
  assert (MG : (mahalanobis_mag [[2%R; 1%R]; [0%R; 1%R]] [3%R; 2%R] [1%R; 1%R] <= 40)%R).
  { unfold mahalanobis_mag, zlen, sumr. simpl. unfold vec, mat, vec. simpl. unfold vec. simpl.
    replace (3 - 1)%R with 2%R by lra. replace (2 - 1)%R with 1%R by lra. rewrite !ABS. cbn [Z.abs]. lra. }
  repeat match goal with |- _ /\ _ => split end; try reflexivity; try exact D.
  - split; [reflexivity|repeat constructor].
  - repeat constructor; apply B2R_fz; lia.
  - unfold mahalanobis_small. change (zlen [3%R; 2%R]) with 2. split; [intros i Hi; specialize (V0 i Hi); lra|]. split; [|lra].
    change (zlen [3%R; 2%R]) with 2. intros i Hi. assert (HI : i = 0 \/ i = 1) by lia. unfold sumr. destruct HI as [->| ->]; simpl; unfold vec, mat, vec; simpl; unfold vec; simpl;
      replace (3 - 1)%R with 2%R by lra; replace (2 - 1)%R with 1%R by lra; rewrite !ABS; cbn [Z.abs]; lra.
  - rewrite D. change (zlen [Net.fz 3; Net.fz 2]) with 2. pose proof (rel_le (2 * 2 + 4) ltac:(lia)) as Q. pose proof (rel_nonneg (Z.to_nat (2 * 2 + 4))).
    replace (- (11) - -10)%R with (-1)%R by lra. rewrite ABS. cbn [Z.abs]. change (IZR (2 * 2 + 4)) with 8%R in Q.
    apply Rle_lt_trans with (rel (Z.to_nat (2 * 2 + 4)) * 40)%R; [apply Rmult_le_compat_l; assumption|lra].
Qed.

(** ** C88: any activation, weights and inputs that are only close to the intended ones *)
(** [ge] bounds the relative error of expf, [gl] and [gt] the absolute errors of logf and tanhf. *)
Theorem C88_infer ef lf tf ge gl gt (m : net (f32_arith ef lf tf)) (x : list f32) Ls b e X : net_ok _ m (zlen x) -> 2 <= n_layers _ m ->
  (0 <= ge <= / 4)%R -> net_fits ge gl gt m Ls b e X x ->
  exists m' (ys rest : list f32), eml_net_infer _ m x (zlen x) = Ret (EmlOk, m') /\ activations2 _ m' = ys ++ rest /\
    close_all (net_err ge gl gt (n_layers_arr _ m) Ls b e) (rnet_fun Ls X) ys.
Proof.
  intros OK H G F. destruct (infer_close m x _ _ OK H (fits_close ge gl gt m Ls b e X x G OK F)) as (m' & ys & rest & E & _ & E2 & C). exists m', ys, rest. auto.
Qed.
Theorem C88_proba ef lf tf ge gl gt (m : net (f32_arith ef lf tf)) (x out : list f32) Ls b e X : net_ok _ m (zlen x) -> 2 <= n_layers _ m ->
  (0 <= ge <= / 4)%R -> net_fits ge gl gt m Ls b e X x -> 3 <= zlen (rnet_fun Ls X) -> zlen out = zlen (rnet_fun Ls X) ->
  exists st m' (ps : list f32), eml_net_predict_proba _ m x (zlen x) out (zlen out) = Ret (st, m', ps) /\
    close_all (net_err ge gl gt (n_layers_arr _ m) Ls b e) (rnet_fun Ls X) ps.
Proof. intros OK H G F N3 LO. exact (proba_close m x out _ _ OK H (fits_close ge gl gt m Ls b e X x G OK F) N3 LO). Qed.
Theorem C88_predict ef lf tf ge gl gt (m : net (f32_arith ef lf tf)) (x : list f32) Ls b e X c : net_ok _ m (zlen x) -> 2 <= n_layers _ m ->
  (0 <= ge <= / 4)%R -> net_fits ge gl gt m Ls b e X x ->
  let Y := rnet_fun Ls X in let d := net_err ge gl gt (n_layers_arr _ m) Ls b e in
  2 <= zlen Y -> 0 <= c < zlen Y ->
  (forall k, 0 <= k < zlen Y -> k <> c -> (nthr Y k + nthr d k + nthr d c < nthr Y c)%R) ->
  exists m', eml_net_predict _ m x (zlen x) = Ret (c, m').
Proof.
  intros OK H G F Y d N2 Hc K. destruct (predict_close m x d Y c OK H (fits_close ge gl gt m Ls b e X x G OK F) N2 Hc K) as (m' & E & _). eauto.
Qed.
Theorem C88_predict_single ef lf tf ge gl gt (m : net (f32_arith ef lf tf)) (x : list f32) Ls b e X : net_ok _ m (zlen x) -> 2 <= n_layers _ m ->
  (0 <= ge <= / 4)%R -> net_fits ge gl gt m Ls b e X x ->
  let Y := rnet_fun Ls X in let d := net_err ge gl gt (n_layers_arr _ m) Ls b e in
  zlen Y = 1 -> (nthr d 0 < Rabs (nthr Y 0 - 1 / 2))%R ->
  exists m' c, eml_net_predict _ m x (zlen x) = Ret (c, m') /\ (c = 1 <-> (1 / 2 < nthr Y 0)%R) /\ (c = 0 <-> (nthr Y 0 <= 1 / 2)%R).
Proof.
  intros OK H G F Y d N1 K. destruct (predict1_close m x d Y OK H (fits_close ge gl gt m Ls b e X x G OK F) N1 K) as (m' & E & _). exists m'. eexists. split; [exact E|].
  destruct (Rlt_dec (1 / 2) (nthr Y 0)); split; split; intros; try lra; try lia; try discriminate; auto.
Qed.
(** A libm meeting the hypotheses: the correctly rounded functions. *)
Theorem C88_libm_exists : @expf_ok expf_cr (/ 16777216) /\ @tanhf_ok tanhf_cr (2 * / 16777216) /\ @logf_ok logf_cr (18 * / 16777216).
Proof. split; [apply expf_cr_ok|split; [apply tanhf_cr_ok|apply logf_cr_ok]]. Qed.

(** 3 softmax outputs; the intended weights and input differ by 10^-6 from the ones in use. *)
Definition mixed_layers ef lf tf : list (py_layer (sampleA ef lf tf)) := [
  mk_pylayer (sampleA ef lf tf) "tanh" [[Net.fz 1]] 1 [Net.fz 0];
  mk_pylayer (sampleA ef lf tf) "softmax" [[Net.fz 4; Net.fz 0; Net.fz (-4)]] 3 [Net.fz 0; Net.fz 0; Net.fz 0] ].
Definition mixed_intended : list rlayer := [
  mk_rlayer 1 1 ActTanh (fun _ _ => 1 + / 1000000)%R (fun _ => 0%R);
  mk_rlayer 1 3 ActSoftmax (fun _ o => 4 - 4 * IZR o)%R (fun _ => 0%R) ].
Example C88_instance : let ef := expf_cr in let lf := logf_cr in let tf := tanhf_cr in
  let ge := (/ 16777216)%R in let gl := (18 * / 16777216)%R in let gt := (2 * / 16777216)%R in
  exists m, c_generate_net_loadable _ (mixed_layers ef lf tf) = Ret m /\ net_ok _ m 1 /\ 2 <= n_layers _ m /\
    net_fits ge gl gt m mixed_intended [2%R] [(/ 1000000)%R] [(1 + / 1000000)%R] [Net.fz 1] /\
    (nthr (net_err ge gl gt (n_layers_arr _ m) mixed_intended [2%R] [(/ 1000000)%R]) 0 <= / 1000)%R.
Proof.
  intros ef lf tf ge gl gt. eexists. split; [reflexivity|]. split; [|split; [unfold zlen; cbn; lia|]].
  { eapply (C32_generated _ (mixed_layers ef lf tf)); [| | |reflexivity].
    - repeat constructor; simpl; try lia.
    - apply Forall_cons; [|apply Forall_cons; [|constructor]]; (split; [|split]); vm_compute; congruence.
    - simpl. auto. }
  pose proof max32_big. pose proof tiny32_small.
  assert (T : (tiny32 <= / 1000000000)%R) by (apply Rle_trans with (bpow radix2 (-30)); [apply bpow_le; lia|change (bpow radix2 (-30)) with (/ 1073741824)%R; lra]).
  assert (ABS : forall z, Rabs (IZR z) = IZR (Z.abs z)) by (intros; symmetry; apply abs_IZR).
  assert (R3 : (0 <= rel (Pos.to_nat 3) <= / 2000000)%R).
  { split; [apply rel_nonneg|]. pose proof (rel_le 3 ltac:(lia)) as Q. change (Z.to_nat 3) with (Pos.to_nat 3) in Q. lra. }
  set (d1 := (1 * / 1000000 + Rabs (1 - (1 + / 1000000)) * 2 + 0 + Rabs (0 - 0) + rel (Pos.to_nat 3) * (1 * (2 + / 1000000) + tiny32 + 0 + 0) + gt)%R).
  assert (D1 : (0 <= d1 <= / 100000)%R).
  { unfold d1, gt. rewrite (Rabs_left1 (1 - _)) by lra. rewrite Rminus_0_r, Rabs_R0.
    assert (0 <= rel (Pos.to_nat 3) * (1 * (2 + / 1000000) + tiny32 + 0 + 0) <= / 2000000 * 3)%R by (split; [apply Rmult_le_pos; lra|apply Rmult_le_compat; lra]). lra. }
  assert (ARG : forall M, (0 <= M)%R -> (M <= 20)%R -> (softmax_sum_err ge 3 <= / 4)%R /\ (softmax_arg_err ge gl 3 M <= / 10000)%R).
  { intros M M0 M1. assert (Q : (softmax_sum_err ge 3 <= / 100000)%R).
    { unfold softmax_sum_err, ge. change (Z.to_nat 3) with (Pos.to_nat 3). lra. }
    split; [lra|]. unfold softmax_arg_err, gl. lra. }
  assert (SMALL : forall M, (0 <= M)%R -> (M <= 20)%R -> softmax_small ge gl 3 M).
  { intros M M0 M1. destruct (ARG M M0 M1). split; [lia|]. split; [lra|]. split; lra. }
  split.
  - unfold net_fits. split; [|split; [|split; [|split; [|split; [|split; [|split]]]]]].
    + unfold finite_layer. repeat constructor; apply B2R_fz; lia.
    + destruct C88_libm_exists as (E1 & E2 & E3). unfold libm_ok. apply Forall_cons; [|apply Forall_cons; [|apply Forall_nil]]; (split; [|split]); intros; first [exact E1|exact E2|exact E3|discriminate].
    + apply Forall_cons; [|apply Forall_cons; [|apply Forall_nil]]; vm_compute; discriminate.
    + apply Forall2_cons; [|apply Forall2_cons; [|apply Forall2_nil]]; (split; [|split]); reflexivity.
    + reflexivity.
    + intros i Hi. change (zlen _) with 1 in Hi. replace i with 0 by lia. cbn. apply Rabs_le. lra.
    + split; [reflexivity|]. split; [reflexivity|]. intros i Hi. change (zlen _) with 1 in Hi. replace i with 0 by lia.
      split; [apply B2R_fz; lia|]. cbn [nthr znth nth Z.to_nat]. fz_vals. apply Rabs_le. cbn. lra.
    + net_eval. rewrite !ABS. cbn [Z.abs]. fold d1. split; [|split; [|exact I]].
      * split; [repeat constructor; lra|discriminate].
      * split; [repeat constructor; lra|]. intros _. apply SMALL; [apply Rmult_le_pos; [lra|]; eapply Rle_trans; [|apply Rmax_l]; lra|].
        match goal with |- (2 * ?a <= _)%R => assert (a <= 5)%R; [repeat apply Rmax_lub; lra|lra] end.
  - net_eval. rewrite !ABS. cbn [Z.abs]. fold d1. unfold softmax_err.
    match goal with |- context [softmax_arg_err _ _ _ ?M] => assert (MB : (0 <= M <= 20)%R) end.
    { split; [apply Rmult_le_pos; [lra|]; eapply Rle_trans; [|apply Rmax_l]; lra|]. match goal with |- (2 * ?a <= _)%R => assert (a <= 5)%R; [repeat apply Rmax_lub; lra|lra] end. }
    destruct (ARG _ (proj1 MB) (proj2 MB)) as [_ AB]. assert (GEV : ge = (/ 16777216)%R) by reflexivity.
    match goal with |- (?a / 2 + _ + _ + _ <= _)%R => assert (a <= / 2000)%R end.
    { assert (RR : forall t, (0 <= t <= 10)%R -> (0 <= rel (Pos.to_nat 3) * t <= / 2000000 * 10)%R) by (intros t Ht; split; [apply Rmult_le_pos; lra|apply Rmult_le_compat; lra]).
      assert (Z0 : forall a b : R, a = b -> Rabs (a - b) = 0%R) by (intros a b ->; rewrite Rminus_diag_eq, Rabs_R0; reflexivity).
      change (Z.of_nat 0) with 0; change (Z.of_nat 1) with 1; change (Z.of_nat 2) with 2. rewrite !Z0 by lra.
      repeat apply Rmax_lub; try lra; match goal with |- context [(rel (Pos.to_nat 3) * ?t)%R] => pose proof (RR t ltac:(lra)); lra end. }
    lra.
Qed.
