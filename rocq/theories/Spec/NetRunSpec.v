(** What a converted network is measured against: the network on real numbers with the weights of the fitted
    estimator itself, and how far printing and rounding can take the results away from it. *)
From Coq Require Import String ZArith List Bool Reals.
From Flocq Require Import Core BinarySingleNaN.
From Verif.Base Require Import Res Float Arith Kernels RealSum.
From Verif.Model Require Import Common Net NetRun.
From Verif.Spec Require Import RealSpec NetSpec RoundingSpec.
Import ListNotations.
Open Scope Z_scope.

(** The activation functions by their scikit-learn names. *)
Definition activation_named (s : string) : activation :=
  if String.eqb s "identity" then ActIdentity else if String.eqb s "relu" then ActRelu
  else if String.eqb s "logistic" then ActLogistic else if String.eqb s "tanh" then ActTanh
  else if String.eqb s "softmax" then ActSoftmax else ActOther 0.
(** The layer on real numbers. *)
Definition real_layer (l : fit_layer) : rlayer :=
  mk_rlayer (zlen (py_weights f64_arith l)) (py_n_out f64_arith l) (activation_named (py_activation f64_arith l))
    (fun i o => B2R (znth (fzero : f64) (nth (Z.to_nat i) (py_weights f64_arith l) []) o))
    (fun o => B2R (znth (fzero : f64) (py_biases f64_arith l) o)).
(** The fitted network applied to a row. *)
Definition fitted_net (ls : list fit_layer) (row : list f64) : list R := rnet_fun (map real_layer ls) (map B2R row).

(** A network as fitted: matrices of the right shapes, finite numbers, known activations, at least one hidden layer. *)
Definition good_number (v : f64) : Prop := is_finite v = true /\ (Rabs (B2R v) <= bpow radix2 126)%R.
Definition good_layer (l : fit_layer) : Prop :=
  py_matrix f64_arith l /\ py_sizes f64_arith l /\ zlen (py_weights f64_arith l) <= 8388606 /\
  Forall (Forall good_number) (py_weights f64_arith l) /\ Forall good_number (py_biases f64_arith l) /\
  In (py_activation f64_arith l) ["identity"; "relu"; "logistic"; "tanh"; "softmax"]%string.
Definition good_net (nf : Z) (ls : list fit_layer) : Prop :=
  2 <= zlen ls /\ Forall good_layer ls /\ py_chain f64_arith nf ls.

(** How far a number written with 6 (weights) or 8 (features) decimals and read as float can be from the number. *)
Definition print6 (v : R) : R := (500001 / 1000000000000 + Rabs v / 16777216)%R.
Definition print8 (v : R) : R := (500001 / 100000000000000 + Rabs v / 16777216)%R.

(** Errors through the layers, for weights so printed. Inputs are bounded by [m] and off by at most [e]; [ge], [gl],
    [gt] are the errors of expf, logf and tanhf. *)
Section Err.
Context (ge gl gt : R).
Definition big (v : R) : R := (Rabs v + print6 v)%R.
(** Bound for the sum of the magnitudes at output [o]. *)
Definition run_sum (L : rlayer) (m e : list R) (o : Z) : R :=
  (sumr (r_inputs L) (fun i => big (r_weight L i o) * (nthr m i + nthr e i) + tiny32) + big (r_bias L o))%R.
Definition run_sums (L : rlayer) (m e : list R) : list R := map (run_sum L m e) (zrange (r_outputs L)).
(** Error of the sum at output [o]: inputs, weights, bias, and float32 rounding. *)
Definition run_pre (L : rlayer) (m e : list R) : list R :=
  map (fun o => sumr (r_inputs L) (fun i => big (r_weight L i o) * nthr e i + print6 (r_weight L i o) * nthr m i)
       + print6 (r_bias L o) + rel (Z.to_nat (r_inputs L + 2)) * run_sum L m e o)%R (zrange (r_outputs L)).
Definition run_layer (L : rlayer) (m e : list R) : list R :=
  match r_activation L with
  | ActSoftmax => map (fun _ => softmax_err ge gl (r_outputs L) (2 * maxl (run_sums L m e)) (maxl (run_pre L m e))) (zrange (r_outputs L))
  | a => map (act_err ge gt a) (run_pre L m e)
  end.
Fixpoint run_err (Ls : list rlayer) (m e : list R) : list R :=
  match Ls with
  | [] => e
  | L :: Ls => run_err Ls (layer_bound L m) (run_layer L m e)
  end.
(** Nothing comes near overflow. *)
Fixpoint run_fits (Ls : list rlayer) (m e : list R) : Prop :=
  match Ls with
  | [] => True
  | L :: Ls =>
      (Forall (fun t => (t <= max32)%R) (run_sums L m e) /\
       (r_activation L = ActSoftmax -> softmax_small ge gl (r_outputs L) (2 * maxl (run_sums L m e)))) /\
      run_fits Ls (layer_bound L m) (run_layer L m e)
  end.
(** The bound for the outputs of a converted network on a row, and when it applies. *)
Definition row_bound (ls : list fit_layer) (row : list f64) : list R :=
  run_err (map real_layer ls) (map (fun v => Rabs (B2R v)) row) (map (fun v => print8 (B2R v)) row).
Definition row_fits (ls : list fit_layer) (row : list f64) : Prop :=
  run_fits (map real_layer ls) (map (fun v => Rabs (B2R v)) row) (map (fun v => print8 (B2R v)) row).
(** The C library is as good as assumed, where the network uses it. *)
Definition libm_good (ef lf tf : f32 -> f32) (ls : list fit_layer) : Prop :=
  (0 <= ge <= / 4)%R /\
  (Exists (fun l => py_activation f64_arith l = "logistic"%string \/ py_activation f64_arith l = "softmax"%string) ls -> expf_ok (ef:=ef) ge) /\
  (Exists (fun l => py_activation f64_arith l = "tanh"%string) ls -> tanhf_ok (tf:=tf) gt) /\
  (Exists (fun l => py_activation f64_arith l = "softmax"%string) ls -> logf_ok (lf:=lf) gl).
End Err.

(** Number of outputs of the network. *)
Definition n_out (ls : list fit_layer) : Z := match rev ls with l :: _ => py_n_out f64_arith l | [] => 0 end.
(** A returned number is [E] plus the error of printing six decimals away from [Y]. *)
Definition returned (Y E : R) (o : f64) : Prop :=
  is_finite o = true /\ (Rabs (B2R o - Y) <= E + 500001 / 1000000000000 + (Rabs Y + E) / 9007199254740992)%R.
