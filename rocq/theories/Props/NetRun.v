(** Converted neural networks end to end: properties C89-C95. *)
From Coq Require Import String ZArith List Bool Lia Reals Lra.
From Flocq Require Import Core BinarySingleNaN.
From Verif.Base Require Import Res CInt ListX Loops Float Arith Kernels RealSum.
From Verif.Model Require Import Common TreesConvert TreesC Net Harness TreesRun NetRun.
From Verif.Spec Require Import RealSpec NetSpec RunSpec RoundingSpec NetRunSpec.
From Verif.Proof Require Import Net NetApi Libm FloatErr RoundingTop Harness RunRows TreesFloatRun NetRun NetRunTop NetRunOptions.
From Verif.Props Require Import Net Rounding.
Import ListNotations.
Open Scope Z_scope.
Open Scope res_scope.

(** [fitted_net ls row] is the fitted network on real numbers; [row_bound] the error bound of RoundingSpec's kind:
    decimals in the generated code and in the text given to the program, and float32 rounding. *)

(** ** C89: regression *)
Theorem C89_regressor ef lf tf ge gl gt method nf ls X :
  In method [None; Some "loadable"%string] -> good_net nf ls -> n_out ls = 1 -> libm_good ge gl gt ef lf tf ls ->
  float_rows nf X -> Forall (row_fits ge gl gt ls) X ->
  Forall (fun row => (Rabs (nthr (fitted_net ls row) 0) + nthr (row_bound ge gl gt ls row) 0 <= IZR (2 ^ 53))%R) X ->
  exists w out, net_wrapper ef lf tf method "regressor" false ls = Ret w /\ net_predict ef lf tf w X = Ret out /\ zlen out = zlen X /\
    forall i row, zget X i = Ret row -> exists o, zget out i = Ret (PyFloat o) /\
      returned (nthr (fitted_net ls row) 0) (nthr (row_bound ge gl gt ls row) 0) o.
Proof.
  intros IM G N1 LM FX FT BD. destruct (compiled_exists ef lf tf ge gl gt nf ls G LM) as (m & CM).
  destruct (regressor_run ef lf tf ge gl gt nf ls G X FX FT m CM N1 BD) as (out & E & L & P).
  exists (NetRegressor ef lf tf m), out. split; [|auto]. destruct CM as (SV & _). destruct (last_get nf ls G) as (l & El & _).
  destruct IM as [<-|[<-|[]]]; unfold net_wrapper; rewrite El; cbn; rewrite SV; reflexivity.
Qed.
(** An MLPRegressor or MLPClassifier is the network of its layers, all but the last with the hidden activation. *)
Theorem C89_sklearn ef lf tf act out_act (ws : list (list (list f64) * Z)) (bs : list (list f64)) wl bl method rt fx :
  ws <> [] -> length bs = length ws ->
  convert_sklearn_mlp ef lf tf (zlen ws + 2) act out_act (ws ++ [wl]) (bs ++ [bl]) method rt fx =
  net_wrapper ef lf tf method rt fx
    (map (fun '(w, b) => mk_pylayer f64_arith act (fst w) (snd w) b) (combine ws bs) ++ [mk_pylayer f64_arith out_act (fst wl) (snd wl) bl]).
Proof. apply mlp_layers. Qed.
Theorem C89_no_hidden_layer ef lf tf n act out_act ws bs method rt fx : n < 3 ->
  convert_sklearn_mlp ef lf tf n act out_act ws bs method rt fx = Err ValueError_.
Proof. intros H. unfold convert_sklearn_mlp. destruct (Z.ltb_spec n 3); [reflexivity|lia]. Qed.

(** ** C90: classes *)
(** One output: class 1 when it is above 1/2 by more than the error bound, class 0 when it is below by more than that.
    More outputs: the class whose output leads all others by more than the bounds. *)
Definition right_class (ge gl gt : R) (ls : list fit_layer) (row : list f64) (c : Z) : Prop :=
  let Y := fitted_net ls row in let E := row_bound ge gl gt ls row in
  if n_out ls =? 1 then (c = 1 /\ (1 / 2 + nthr E 0 < nthr Y 0)%R) \/ (c = 0 /\ (nthr Y 0 < 1 / 2 - nthr E 0)%R)
  else 0 <= c < n_out ls /\ forall k, 0 <= k < n_out ls -> k <> c -> (nthr Y k + nthr E k + nthr E c < nthr Y c)%R.
Theorem C90_classes ef lf tf ge gl gt method nf ls X cs :
  In method [None; Some "loadable"%string; Some "inline"%string] -> good_net nf ls -> libm_good ge gl gt ef lf tf ls -> n_out ls <= 2 ^ 53 ->
  float_rows nf X -> Forall (row_fits ge gl gt ls) X -> Forall2 (right_class ge gl gt ls) X cs ->
  exists w, net_wrapper ef lf tf method "classifier" false ls = Ret w /\ net_predict ef lf tf w X = Ret (map PyInt cs).
Proof.
  intros IM G LM NB FX FT FC. destruct (compiled_exists ef lf tf ge gl gt nf ls G LM) as (m & CM).
  pose proof (classes_run ef lf tf ge gl gt nf ls G X FX FT m CM NB cs FC) as P. destruct CM as (SV & _). destruct (last_get nf ls G) as (l & El & _).
  destruct IM as [<-|[<-|[<-|[]]]]; eexists; (split; [unfold net_wrapper; rewrite El; cbn; rewrite SV; reflexivity|exact P]).
Qed.

(** ** C91: probabilities *)
Theorem C91_outputs ef lf tf ge gl gt method nf ls X :
  In method [None; Some "loadable"%string] -> good_net nf ls -> libm_good ge gl gt ef lf tf ls -> 3 <= n_out ls ->
  float_rows nf X -> Forall (row_fits ge gl gt ls) X ->
  Forall (fun row => forall k, 0 <= k < n_out ls -> (Rabs (nthr (fitted_net ls row) k) + nthr (row_bound ge gl gt ls row) k <= IZR (2 ^ 53))%R) X ->
  exists w out, net_wrapper ef lf tf method "classifier" false ls = Ret w /\ net_predict_proba ef lf tf w X = Ret out /\ zlen out = zlen X /\
    forall i row, zget X i = Ret row -> exists r, zget out i = Ret r /\ forall k, 0 <= k < n_out ls ->
      exists q, zget r k = Ret (Some q) /\ returned (nthr (fitted_net ls row) k) (nthr (row_bound ge gl gt ls row) k) q.
Proof.
  intros IM G LM N3 FX FT BD. destruct (compiled_exists ef lf tf ge gl gt nf ls G LM) as (m & CM).
  destruct (proba_run ef lf tf ge gl gt nf ls G X FX FT m CM N3 BD) as (out & E & L & P).
  exists (NetClassifier ef lf tf m (n_out ls)), out. split; [|auto]. destruct CM as (SV & _). destruct (last_get nf ls G) as (l & El & Nl).
  assert (N1 : (n_out ls =? 1) = false) by (apply Z.eqb_neq; lia).
  destruct IM as [<-|[<-|[]]]; unfold net_wrapper; rewrite El; cbn [bind]; rewrite Nl, N1; cbn; rewrite SV; reflexivity.
Qed.
(** One output y: the probabilities of class 0 and class 1 are 1 - y and y. *)
Theorem C91_binary ef lf tf ge gl gt method nf ls X :
  In method [None; Some "loadable"%string] -> good_net nf ls -> libm_good ge gl gt ef lf tf ls -> n_out ls = 1 ->
  float_rows nf X -> Forall (row_fits ge gl gt ls) X ->
  Forall (fun row => (1 + 2 * (Rabs (nthr (fitted_net ls row) 0) + nthr (row_bound ge gl gt ls row) 0) <= IZR (2 ^ 53))%R) X ->
  exists w out, net_wrapper ef lf tf method "classifier" false ls = Ret w /\ net_predict_proba ef lf tf w X = Ret out /\ zlen out = zlen X /\
    forall i row, zget X i = Ret row -> exists r q0 q1, zget out i = Ret r /\ zget r 0 = Ret (Some q0) /\ zget r 1 = Ret (Some q1) /\
      let Y := nthr (fitted_net ls row) 0 in let E := nthr (row_bound ge gl gt ls row) 0 in
      returned (1 - Y) (E + (1 + Rabs Y + E) / 16777216) q0 /\ returned Y E q1.
Proof.
  intros IM G LM N1 FX FT BD. destruct (compiled_exists ef lf tf ge gl gt nf ls G LM) as (m & CM).
  destruct (proba2_run ef lf tf ge gl gt nf ls G X FX FT m CM ltac:(lia) BD) as (out & E & L & P).
  exists (NetClassifier ef lf tf m 2), out. split; [|auto]. destruct CM as (SV & _). destruct (last_get nf ls G) as (l & El & Nl).
  destruct IM as [<-|[<-|[]]]; unfold net_wrapper; rewrite El; cbn [bind]; rewrite Nl, N1; cbn; rewrite SV; reflexivity.
Qed.
(** ** C94: two outputs (a softmax over two classes, as Keras models have): what comes out is 1 - y0 and y0, so the two
    probabilities are exchanged. *)
Theorem C94_two_outputs_partial ef lf tf ge gl gt method nf ls X :
  In method [None; Some "loadable"%string] -> good_net nf ls -> libm_good ge gl gt ef lf tf ls -> n_out ls = 2 ->
  float_rows nf X -> Forall (row_fits ge gl gt ls) X ->
  Forall (fun row => (1 + 2 * (Rabs (nthr (fitted_net ls row) 0) + nthr (row_bound ge gl gt ls row) 0) <= IZR (2 ^ 53))%R) X ->
  exists w out, net_wrapper ef lf tf method "classifier" false ls = Ret w /\ net_predict_proba ef lf tf w X = Ret out /\ zlen out = zlen X /\
    forall i row, zget X i = Ret row -> exists r q0 q1, zget out i = Ret r /\ zget r 0 = Ret (Some q0) /\ zget r 1 = Ret (Some q1) /\
      let Y := nthr (fitted_net ls row) 0 in let E := nthr (row_bound ge gl gt ls row) 0 in
      returned (1 - Y) (E + (1 + Rabs Y + E) / 16777216) q0 /\ returned Y E q1.
Proof.
  intros IM G LM N1 FX FT BD. destruct (compiled_exists ef lf tf ge gl gt nf ls G LM) as (m & CM).
  destruct (proba2_run ef lf tf ge gl gt nf ls G X FX FT m CM ltac:(lia) BD) as (out & E & L & P).
  exists (NetClassifier ef lf tf m 2), out. split; [|auto]. destruct CM as (SV & _). destruct (last_get nf ls G) as (l & El & Nl).
  destruct IM as [<-|[<-|[]]]; unfold net_wrapper; rewrite El; cbn [bind]; rewrite Nl, N1; cbn; rewrite SV; reflexivity.
Qed.

(** ** C92: the options of convert for networks *)
(** Exactly which options are accepted, for any network that is well formed. *)
Theorem C92_accepted ef lf tf nf ls method rt fx : good_net nf ls ->
  ((exists w, net_wrapper ef lf tf method rt fx ls = Ret w) <->
   fx = false /\ ((In method [None; Some "loadable"%string] /\ In rt ["classifier"%string; "regressor"%string]) \/
                  (method = Some "inline"%string /\ rt = "classifier"%string))).
Proof. apply accepted. Qed.
(** Every option that is accepted predicts the same classes. *)
Theorem C92_same_classes ef lf tf ls method method' w w' X :
  net_wrapper ef lf tf method "classifier" false ls = Ret w -> net_wrapper ef lf tf method' "classifier" false ls = Ret w' ->
  net_predict ef lf tf w X = net_predict ef lf tf w' X.
Proof. apply same_classes. Qed.
(** A wrong method or return type is a ValueError. *)
Theorem C92_unknown ef lf tf nf ls method rt : good_net nf ls -> method <> None -> method <> Some "loadable"%string -> method <> Some "inline"%string ->
  net_wrapper ef lf tf method rt false ls = Err ValueError_.
Proof. apply unknown_method. Qed.
(** An unknown activation function raises, whatever the options. *)
Theorem C92_activation ef lf tf ls method rt w : net_wrapper ef lf tf method rt false ls = Ret w ->
  Forall (fun l => In (py_activation f64_arith l) ["identity"; "relu"; "logistic"; "tanh"; "softmax"]%string) ls.
Proof. apply known_activations. Qed.
(** ** C95: use_fixedpoint is an option of net.Wrapper; no network can be converted with it. *)
Theorem C95_fixedpoint_refuted ef lf tf nf ls method rt : good_net nf ls -> forall w, net_wrapper ef lf tf method rt true ls <> Ret w.
Proof. intros G w E. destruct (proj1 (accepted ef lf tf nf ls method rt true G)) as [H _]; [eauto|discriminate]. Qed.

(** ** C93: rows with a wrong number of columns *)
Theorem C93_classes_partial ef lf tf ge gl gt method nf ls nf' X : In method [None; Some "loadable"%string; Some "inline"%string] ->
  good_net nf ls -> libm_good ge gl gt ef lf tf ls -> 1 <= nf' -> nf' <> nf -> float_rows nf' X ->
  exists w, net_wrapper ef lf tf method "classifier" false ls = Ret w /\ net_predict ef lf tf w X = Ret (map (fun _ => PyInt (-1)) X).
Proof.
  intros IM G LM P1 P2 FX. destruct (compiled_exists ef lf tf ge gl gt nf ls G LM) as (m & CM).
  pose proof (wrong_columns ef lf tf ge gl gt nf ls G m nf' X CM P1 P2 FX) as P. destruct CM as (SV & _). destruct (last_get nf ls G) as (l & El & _).
  destruct IM as [<-|[<-|[<-|[]]]]; eexists; (split; [unfold net_wrapper; rewrite El; cbn; rewrite SV; reflexivity|exact P]).
Qed.

(** ** Instances *)
Definition d (z : Z) : f64 := f_of_Z z.
Lemma B2R_d z : Z.abs z <= 2 ^ 53 -> B2R (d z) = IZR z /\ is_finite (d z) = true.
Proof. intros H. destruct (@f_of_Z_exact 53 1024 _ _ z ltac:(lia)) as [V F]. split; [exact V|exact F]. Qed.
Lemma good_d z : Z.abs z <= 1000 -> good_number (d z).
Proof.
  intros H. destruct (B2R_d z ltac:(lia)) as [V F]. split; [exact F|]. rewrite V, <- abs_IZR. apply Rle_trans with (IZR 1024); [apply IZR_le; lia|].
  change (IZR 1024) with (bpow radix2 10). apply bpow_le. lia.
Qed.
Lemma good_list zs : Forall (fun z => Z.abs z <= 1000) zs -> Forall good_number (map d zs).
Proof. intros H. apply Forall_map. eapply Forall_impl; [|exact H]. intros z Hz. now apply good_d. Qed.
Definition layer_of (a : string) (w : list (list Z)) (n : Z) (b : list Z) : fit_layer := mk_pylayer f64_arith a (map (map d) w) n (map d b).
Lemma good_layer_of a w n b : 1 <= n -> Forall (fun r => zlen r = n) w -> 1 <= zlen w -> zlen b = n -> zlen w * n < 2 ^ 31 -> zlen w <= 8388606 ->
  Forall (Forall (fun z => Z.abs z <= 1000)) w -> Forall (fun z => Z.abs z <= 1000) b -> In a ["identity"; "relu"; "logistic"; "tanh"; "softmax"]%string ->
  good_layer (layer_of a w n b).
Proof.
  intros H1 H2 H3 H4 H5 H6 H7 H8 H9. unfold good_layer, layer_of, py_matrix, py_sizes, py_n_in. cbn [py_activation py_weights py_n_out py_biases].
  change (num f64_arith) with f64. repeat rewrite zlen_map. split; [split; [exact H1|]|split; [auto|split; [exact H6|split; [|split; [now apply good_list|exact H9]]]]].
  - apply Forall_map. eapply Forall_impl; [|exact H2]. intros r Hr. now rewrite zlen_map.
  - apply Forall_map. eapply Forall_impl; [|exact H7]. intros r Hr. now apply good_list.
Qed.
Ltac d_vals := repeat match goal with |- context [@B2R 53 1024 (d ?z)] => rewrite (proj1 (B2R_d z ltac:(simpl; lia))) end.
Ltac run_eval :=
  unfold row_bound, row_fits, fitted_net, rnet_fun;
  cbv [run_err run_fits run_layer run_pre run_sums run_sum layer_bound big print6 print8 real_layer layer_of rlayer_fun rlinear rsoftmax
    r_weight r_bias r_inputs r_outputs r_activation py_weights py_n_out py_biases py_activation activation_named act_err act_fun maxl fold_right fold_left
    sumr rsum nthr znth map zrange zlen Datatypes.length];
  simpl; d_vals; rewrite <- ?abs_IZR; cbn [Z.abs].
Ltac rel_atoms := repeat match goal with |- context [(rel ?n * ?e)%R] =>
  let x := fresh "x" in let H := fresh in
  assert (H : (0 <= rel n * e <= / 20000)%R) by (split; [apply Rmult_le_pos; lra|apply Rle_trans with (/ 1000000 * 50)%R; [apply Rmult_le_compat; lra|lra]]);
  set (x := (rel n * e)%R) in *; clearbody x end.
Definition reg_net : list fit_layer := [layer_of "relu" [[1; -1]; [2; 3]] 2 [0; 1]; layer_of "identity" [[1]; [-1]] 1 [3]].
Lemma reg_net_good : good_net 2 reg_net.
Proof.
  split; [vm_compute; discriminate|]. split; [|cbn; auto].
  apply Forall_cons; [|apply Forall_cons; [|apply Forall_nil]]; apply good_layer_of; try (vm_compute; congruence); try (cbn; tauto); repeat (apply Forall_cons || apply Forall_nil); try reflexivity; cbn; lia.
Qed.
Opaque d.
(** 1*1+2*2 = 5, -1*1+3*2+1 = 6, 5-6+3 = 2. *)
Example C89_instance ge gl gt (G : (0 <= ge <= / 4)%R) ef lf tf :
  good_net 2 reg_net /\ n_out reg_net = 1 /\ libm_good ge gl gt ef lf tf reg_net /\ float_rows 2 [[d 1; d 2]] /\ row_fits ge gl gt reg_net [d 1; d 2] /\
  fitted_net reg_net [d 1; d 2] = [2%R] /\ (0 <= nthr (row_bound ge gl gt reg_net [d 1; d 2]) 0 <= / 5000)%R.
Proof.
  pose proof max32_big as MB. pose proof tiny32_small as T0.
  assert (T : (tiny32 <= / 1000000000)%R) by (apply Rle_trans with (bpow radix2 (-30)); [apply bpow_le; lia|change (bpow radix2 (-30)) with (/ 1073741824)%R; lra]).
  assert (R4 : (0 <= rel (Pos.to_nat 4) <= / 1000000)%R).
  { split; [apply rel_nonneg|]. pose proof (rel_le 4 ltac:(lia)) as Q. change (Z.to_nat 4) with (Pos.to_nat 4) in Q. lra. }
  split; [exact reg_net_good|]. split; [reflexivity|].
  split. { split; [exact G|]. split; [|split]; intros HX; exfalso; apply Exists_exists in HX as (l & [<-|[<-|[]]] & Q); cbn in Q; try discriminate; destruct Q; discriminate. }
  split. { split; [discriminate|]. split; [vm_compute; discriminate|]. apply Forall_cons; [|constructor]. split; [reflexivity|]. split; [|vm_compute; discriminate].
    apply Forall_cons; [apply good_d; lia|apply Forall_cons; [apply good_d; lia|constructor]]. }
  split; [|split].
  - run_eval. rel_atoms. split; [split; [apply Forall_cons; [lra|apply Forall_cons; [lra|constructor]]|discriminate]|]. split; [|exact I].
    split; [apply Forall_cons; [lra|constructor]|discriminate].
  - run_eval. f_equal. rewrite (Rmax_right 0 (1 * 1 + (2 * 2 + 0) + 0)) by lra. rewrite (Rmax_right 0 (-1 * 1 + (3 * 2 + 0) + 1)) by lra. lra.
  - run_eval. rel_atoms. lra.
Qed.
Definition class_net : list fit_layer := [layer_of "relu" [[1]] 1 [0]; layer_of "softmax" [[4; 0; -4]] 3 [0; 0; 0]].
Lemma class_net_good : good_net 1 class_net.
Proof.
  split; [vm_compute; discriminate|]. split; [|cbn; auto].
  apply Forall_cons; [|apply Forall_cons; [|apply Forall_nil]]; apply good_layer_of; try (vm_compute; congruence); try (cbn; tauto); repeat (apply Forall_cons || apply Forall_nil); try reflexivity; cbn; lia.
Qed.
Lemma class_net_libm : libm_good (/ 16777216) (18 * / 16777216) (2 * / 16777216) expf_cr logf_cr tanhf_cr class_net.
Proof. destruct C88_libm_exists as (E1 & E2 & E3). split; [lra|]. split; [|split]; intros _; assumption. Qed.
Example C90_instance : let ge := (/ 16777216)%R in let gl := (18 * / 16777216)%R in let gt := (2 * / 16777216)%R in
  good_net 1 class_net /\ libm_good ge gl gt expf_cr logf_cr tanhf_cr class_net /\ n_out class_net = 3 /\ float_rows 1 [[d 1]] /\
  row_fits ge gl gt class_net [d 1] /\ right_class ge gl gt class_net [d 1] 0.
Proof.
  intros ge gl gt. pose proof max32_big as MB. pose proof tiny32_small as T0.
  assert (T : (tiny32 <= / 1000000000)%R) by (apply Rle_trans with (bpow radix2 (-30)); [apply bpow_le; lia|change (bpow radix2 (-30)) with (/ 1073741824)%R; lra]).
  assert (R4 : (0 <= rel (Pos.to_nat 3) <= / 1000000)%R).
  { split; [apply rel_nonneg|]. pose proof (rel_le 3 ltac:(lia)) as Q. change (Z.to_nat 3) with (Pos.to_nat 3) in Q. lra. }
  split; [exact class_net_good|]. split; [exact class_net_libm|]. split; [reflexivity|].
  split. { split; [discriminate|]. split; [vm_compute; discriminate|]. apply Forall_cons; [|constructor]. split; [reflexivity|]. split; [|vm_compute; discriminate].
    apply Forall_cons; [apply good_d; lia|constructor]. }
  assert (ARG : forall M, (0 <= M)%R -> (M <= 20)%R -> (softmax_sum_err ge 3 <= / 4)%R /\ (softmax_arg_err ge gl 3 M <= / 10000)%R).
  { intros M M0 M1. assert (Q : (softmax_sum_err ge 3 <= / 100000)%R).
    { unfold softmax_sum_err, ge. change (Z.to_nat 3) with (Pos.to_nat 3). lra. }
    split; [lra|]. unfold softmax_arg_err, gl. lra. }
  assert (SMALL : forall M, (0 <= M)%R -> (M <= 20)%R -> softmax_small ge gl 3 M).
  { intros M M0 M1. destruct (ARG M M0 M1). split; [lia|]. split; [lra|]. split; lra. }
  split.
  - run_eval. rel_atoms. split; [split; [apply Forall_cons; [lra|constructor]|discriminate]|]. split; [|exact I].
    split; [repeat (apply Forall_cons; [lra|]); constructor|]. intros _. apply SMALL.
    + apply Rmult_le_pos; [lra|]. eapply Rle_trans; [|apply Rmax_l]. lra.
    + match goal with |- (2 * ?a <= _)%R => assert (a <= 5)%R; [repeat apply Rmax_lub; lra|lra] end.
  - unfold right_class. change (n_out class_net =? 1) with false. cbv iota. split; [vm_compute; split; congruence|]. intros k Hk N. change (n_out class_net) with 3 in Hk.
    assert (ER : forall j, 0 <= j < 3 -> (nthr (row_bound ge gl gt class_net [d 1]) j <= / 100)%R).
    { intros j Hj. assert (HJ : j = 0 \/ j = 1 \/ j = 2) by lia. destruct HJ as [->|[->| ->]]; run_eval; rel_atoms; unfold softmax_err;
      (match goal with |- context [softmax_arg_err _ _ _ ?M] => assert (MB2 : (0 <= M <= 20)%R);
        [split; [apply Rmult_le_pos; [lra|]; eapply Rle_trans; [|apply Rmax_l]; lra|];
         match goal with |- (2 * ?a <= _)%R => assert (a <= 5)%R; [repeat apply Rmax_lub; lra|lra] end|] end);
      destruct (ARG _ (proj1 MB2) (proj2 MB2)) as [_ AB]; assert (GEV : ge = (/ 16777216)%R) by reflexivity;
      (match goal with |- (?a / 2 + _ + _ + _ <= _)%R => assert (a <= / 500)%R; [repeat apply Rmax_lub; lra|lra] end). }
    set (Su := (exp 4 + (exp 0 + (exp (-4) + 0)))%R).
    assert (FN : fitted_net class_net [d 1] = [exp 4 / Su; exp 0 / Su; exp (-4) / Su]%R).
    { run_eval. rewrite (Rmax_right 0 (1 * 1 + 0 + 0)) by lra.
      replace (4 * (1 * 1 + 0 + 0) + 0 + 0)%R with 4%R by lra. replace (0 * (1 * 1 + 0 + 0) + 0 + 0)%R with 0%R by lra. replace (-4 * (1 * 1 + 0 + 0) + 0 + 0)%R with (-4)%R by lra. reflexivity. }
    rewrite FN. pose proof (ER 0 ltac:(lia)) as E0. pose proof (ER k Hk) as Ek.
    pose proof (exp_ineq1 4 ltac:(lra)) as X4. pose proof (exp_pos (-4)) as X0.
    assert (X1 : (exp (-4) < 1)%R) by (rewrite <- exp_0; apply exp_increasing; lra). pose proof exp_0 as X2.
    assert (SP : (7 <= Su + 1 /\ Su <= exp 4 + 2)%R) by (unfold Su; lra).
    assert (MAIN : forall t, (t <= 1)%R -> (t / Su + / 50 < exp 4 / Su)%R).
    { intros t Ht. apply Rmult_lt_reg_r with Su; [unfold Su; lra|]. replace ((t / Su + / 50) * Su)%R with (t + Su * / 50)%R by (field; unfold Su; lra).
      replace (exp 4 / Su * Su)%R with (exp 4) by (field; unfold Su; lra). unfold Su in *. lra. }
    assert (HK : k = 1 \/ k = 2) by lia. 
    destruct HK as [->| ->].
    + change (nthr [(exp 4 / Su)%R; (exp 0 / Su)%R; (exp (-4) / Su)%R] 1) with (exp 0 / Su)%R. change (nthr [(exp 4 / Su)%R; (exp 0 / Su)%R; (exp (-4) / Su)%R] 0) with (exp 4 / Su)%R.
      pose proof (MAIN (exp 0) ltac:(lra)). lra.
    + change (nthr [(exp 4 / Su)%R; (exp 0 / Su)%R; (exp (-4) / Su)%R] 2) with (exp (-4) / Su)%R. change (nthr [(exp 4 / Su)%R; (exp 0 / Su)%R; (exp (-4) / Su)%R] 0) with (exp 4 / Su)%R.
      pose proof (MAIN (exp (-4)) ltac:(lra)). lra.
Qed.
(** The outputs 1/4 and 3/4: the class is 1, and the probabilities that come out are 3/4 and 1/4. *)
Definition quarter (k : Z) : f64 := f_of_ZE k (-2).
Definition two_net : list fit_layer := [layer_of "relu" [[1]] 1 [0]; mk_pylayer f64_arith "identity" [[quarter 1; quarter 3]] 2 [d 0; d 0]].
Definition num_is (v : f64) (o : option f64) : bool := match o with Some x => Beqb x v | None => false end.
Theorem C94_two_outputs_refuted ef lf tf :
  (let* w := net_wrapper ef lf tf None "classifier" false two_net in
   let* c := net_predict ef lf tf w [[d 1]] in
   let* p := net_predict_proba ef lf tf w [[d 1]] in
   Ret (c, map (map (num_is (quarter 3))) p, map (map (num_is (quarter 1))) p)) = Ret ([PyInt 1], [[true; false]], [[false; true]]).
Proof. vm_compute. reflexivity. Qed.
(** Wrong number of columns: a regressor returns nan, predict_proba returns zeros; none raises. *)
Theorem C93_raises_refuted ef lf tf :
  (let* w := net_wrapper ef lf tf None "classifier" false two_net in
   let* v := net_wrapper ef lf tf None "regressor" false reg_net in
   let* c := net_predict ef lf tf w [[d 1; d 2]] in
   let* r := net_predict ef lf tf v [[d 1]] in
   let* p := net_predict_proba ef lf tf w [[d 1; d 2]] in
   Ret (c, match r with [PyFloat x] => is_nan x | _ => false end, map (map (num_is (d 0))) p)) = Ret ([PyInt (-1)], true, [[true; true]]).
Proof. vm_compute. reflexivity. Qed.
