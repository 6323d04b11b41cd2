(** What a Keras Sequential model computes, on real numbers, with its own weights. *)
From Coq Require Import String ZArith List Bool Reals.
From Flocq Require Import Core BinarySingleNaN.
From Verif.Base Require Import Res Float Arith Kernels RealSum.
From Verif.Model Require Import Common Net NetRun.
From Verif.Spec Require Import RealSpec NetSpec RoundingSpec NetRunSpec.
Import ListNotations.
Open Scope Z_scope.

(** The activations by their Keras names. *)
Definition keras_act (s : string) (x : list R) : list R :=
  if String.eqb s "softmax" then rsoftmax x
  else if String.eqb s "relu" then map (Rmax 0) x
  else if String.eqb s "sigmoid" then map sigma x
  else if String.eqb s "tanh" then map tanh x
  else x.
(** One layer; Dropout does nothing when predicting. *)
Definition klayer := keras_layer f64_arith.
Definition keras_step_real (l : klayer) (x : list R) : list R :=
  match l with
  | KDense _ a _ w n b =>
      keras_act a (map (fun o => sumr (zlen w) (fun i => B2R (znth (fzero : f64) (nth (Z.to_nat i) w []) o) * nthr x i) + B2R (znth (fzero : f64) b o))%R (zrange n))
  | KActivation _ a => keras_act a x
  | KReLU _ _ => keras_act "relu" x
  | KSoftmax _ _ => keras_act "softmax" x
  | _ => x
  end.
Definition keras_real (ls : list klayer) (row : list f64) : list R := fold_left (fun v l => keras_step_real l v) ls (map B2R row).

(** The layers that are supported: Dense with a bias, Activation, ReLU with default slope and threshold, Softmax over the
    last axis, Dropout; activations known. *)
Definition keras_names : list string := ["linear"; "relu"; "sigmoid"; "tanh"; "softmax"]%string.
Definition keras_ok_layer (l : klayer) : Prop :=
  match l with
  | KDense _ a ub _ _ _ => ub = true /\ In a keras_names
  | KActivation _ a => In a keras_names
  | KReLU _ d => d = true
  | KSoftmax _ axis => axis = -1
  | KDropout _ => True
  | KOther _ => False
  end.
(** The Dense layers, each with its activation: its own, or that of the activation layer after it. *)
Definition sklearn_name (a : string) : string :=
  if String.eqb a "linear" then "identity"%string else if String.eqb a "sigmoid" then "logistic"%string else a.
Fixpoint activation_after (ls : list klayer) : string :=
  match ls with
  | KDropout _ :: r => activation_after r
  | KActivation _ a :: r => if String.eqb a "linear" then activation_after r else a
  | KReLU _ _ :: _ => "relu"
  | KSoftmax _ _ :: _ => "softmax"
  | _ => "linear"
  end.
Fixpoint dense_layers (ls : list klayer) : list fit_layer :=
  match ls with
  | [] => []
  | KDense _ a _ w n b :: r =>
      mk_pylayer f64_arith (sklearn_name (if String.eqb a "linear" then activation_after r else a)) w n b :: dense_layers r
  | _ :: r => dense_layers r
  end.
