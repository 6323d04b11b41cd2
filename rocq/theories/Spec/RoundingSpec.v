(** What rounding errors are measured against: the exact value, and the same formula with every
    number replaced by its absolute value. *)
From Coq Require Import ZArith List Bool Reals.
From Flocq Require Import Core BinarySingleNaN.
From Verif.Base Require Import Res Float Arith Kernels RealSum.
From Verif.Model Require Import Common Net.
From Verif.Spec Require Import RealSpec DistanceSpec.
Import ListNotations.
Open Scope Z_scope.

(** Half a unit in the last place of 1.0f. *)
Notation u24 := (/ 16777216)%R.
(** Relative error after [g] roundings. *)
Definition rel (g : nat) : R := ((1 + u24) ^ g - 1)%R.
Definition max32 : R := bpow radix2 100.       (* far from overflow *)
Definition tiny32 : R := bpow radix2 (-126).   (* the smallest normal float32 *)

(** ** Networks on real numbers *)
Record rlayer : Type := mk_rlayer {
  r_inputs : Z; r_outputs : Z; r_activation : activation; r_weight : Z -> Z -> R; r_bias : Z -> R }.
Definition nthr (x : list R) (i : Z) : R := znth 0%R x i.
Definition sigma (v : R) : R := (/ (1 + exp (- v)))%R.
Definition act_fun (a : activation) (v : R) : R :=
  match a with ActRelu => Rmax 0 v | ActLogistic => sigma v | ActTanh => tanh v | _ => v end.
(** Weight [r_weight i o] goes from input i to output o. *)
Definition rlinear (L : rlayer) (x : list R) : list R :=
  map (fun o => sumr (r_inputs L) (fun i => r_weight L i o * nthr x i) + r_bias L o)%R (zrange (r_outputs L)).
Definition rlayer_fun (L : rlayer) (x : list R) : list R :=
  match r_activation L with
  | ActSoftmax => rsoftmax (rlinear L x)
  | a => map (act_fun a) (rlinear L x)
  end.
Definition rnet_fun (Ls : list rlayer) (x : list R) : list R := fold_left (fun v L => rlayer_fun L v) Ls x.

Section Net.
Context {ef lf tf : f32 -> f32}.
Notation A := (f32_arith ef lf tf).
(** The real numbers stored in a layer. *)
Definition as_real (l : net_layer A) : rlayer :=
  mk_rlayer (l_n_inputs A l) (l_n_outputs A l) (l_activation A l)
    (fun i o => B2R (znth (fzero : f32) (l_weights A l) (o + i * l_n_outputs A l)))
    (fun o => B2R (znth (fzero : f32) (l_biases A l) o)).
(** The layer with absolute values; each product counts for at least the smallest normal number. *)
Definition layer_mag (l : net_layer A) (a : list R) : list R :=
  map (fun o => sumr (l_n_inputs A l) (fun i => Rabs (r_weight (as_real l) i o) * nthr a i + tiny32) + Rabs (r_bias (as_real l) o))%R (zrange (l_n_outputs A l)).
Definition net_mag (ls : list (net_layer A)) (x : list R) : list R := fold_left (fun v l => layer_mag l v) ls x.
(** Roundings on the longest path from an input to an output. *)
Definition net_depth (ls : list (net_layer A)) : Z := fold_left (fun g l => g + l_n_inputs A l + 2) ls 0.
(** Nothing comes near overflow, in any layer. *)
Fixpoint mags_ok (ls : list (net_layer A)) (a : list R) : Prop :=
  match ls with
  | [] => True
  | l :: r => Forall (fun t => (t <= max32)%R) (layer_mag l a) /\ mags_ok r (layer_mag l a)
  end.
Definition finite_layer (l : net_layer A) : Prop :=
  Forall (fun w : f32 => is_finite w = true) (l_weights A l) /\ Forall (fun w : f32 => is_finite w = true) (l_biases A l).
Definition piecewise_linear (l : net_layer A) : Prop := l_activation A l = ActRelu \/ l_activation A l = ActIdentity.

(** ** Bounds with any activation, and with weights and inputs that are themselves only close to the
    intended ones *)
Context (ge gl gt : R).   (* relative error of expf; absolute errors of logf and tanhf *)
Definition maxl (l : list R) : R := fold_right Rmax 0%R l.
(** Inputs bounded by [m]: outputs bounded by this. *)
Definition layer_bound (L : rlayer) (m : list R) : list R :=
  map (fun o => match r_activation L with
                | ActLogistic | ActTanh | ActSoftmax => 1
                | _ => sumr (r_inputs L) (fun i => Rabs (r_weight L i o) * nthr m i) + Rabs (r_bias L o)
                end)%R (zrange (r_outputs L)).
(** Error of the activation for an error [d] of its argument. *)
Definition act_err (a : activation) (d : R) : R :=
  match a with ActLogistic => d / 4 + ge + 4 * u24 | ActTanh => d + gt | _ => d end%R.
(** Errors of the sums: [l] is the float32 layer, [L] the intended one; inputs bounded by [m], with errors
    at most [e]. *)
Definition pre_err (l : net_layer A) (L : rlayer) (m e : list R) : list R :=
  let w := r_weight (as_real l) in let b := r_bias (as_real l) in
  map (fun o => sumr (l_n_inputs A l) (fun i => Rabs (w i o) * nthr e i + Rabs (w i o - r_weight L i o) * nthr m i)
       + Rabs (b o - r_bias L o)
       + rel (Z.to_nat (l_n_inputs A l + 2)) *
           (sumr (l_n_inputs A l) (fun i => Rabs (w i o) * (nthr m i + nthr e i) + tiny32) + Rabs (b o)))%R (zrange (l_n_outputs A l)).
Definition plus_list (m e : list R) : list R := map (fun i => nthr m i + nthr e i)%R (zrange (zlen m)).
(** Softmax of [n] numbers of magnitude at most [M]: error of the sum of exponentials, and of the exponents. *)
Definition softmax_sum_err (n : Z) : R := (IZR n * (ge + 2 * u24) + rel (Z.to_nat n) * (IZR n * (1 + ge + 2 * u24)))%R.
Definition softmax_arg_err (n : Z) (M : R) : R := (gl + 2 * softmax_sum_err n + u24 * (4 * M + 4 * (IZR n + 1 + gl)))%R.
Definition softmax_err (n : Z) (M d : R) : R := (d / 2 + 2 * ge + 2 * softmax_arg_err n M + 2 * u24)%R.
Definition softmax_small (n : Z) (M : R) : Prop :=
  n <= 65536 /\ (M <= max32 /\ softmax_sum_err n <= / 4 /\ softmax_arg_err n M <= / 2)%R.
(** A bound for the magnitude of the sums of a layer. *)
Definition sums_mag (l : net_layer A) (m e : list R) : R := (2 * maxl (layer_mag l (plus_list m e)))%R.
Definition layer_err (l : net_layer A) (L : rlayer) (m e : list R) : list R :=
  match l_activation A l with
  | ActSoftmax => map (fun _ => softmax_err (l_n_outputs A l) (sums_mag l m e) (maxl (pre_err l L m e))) (zrange (l_n_outputs A l))
  | a => map (act_err a) (pre_err l L m e)
  end.
Definition layer_small (l : net_layer A) (m e : list R) : Prop :=
  Forall (fun t => (t <= max32)%R) (layer_mag l (plus_list m e)) /\
  (l_activation A l = ActSoftmax -> softmax_small (l_n_outputs A l) (sums_mag l m e)).
(** Error bound for the whole network, and the condition that nothing comes near overflow. *)
Fixpoint net_err (ls : list (net_layer A)) (Ls : list rlayer) (m e : list R) : list R :=
  match ls, Ls with
  | l :: ls, L :: Ls => net_err ls Ls (layer_bound L m) (layer_err l L m e)
  | _, _ => e
  end.
Fixpoint net_small (ls : list (net_layer A)) (Ls : list rlayer) (m e : list R) : Prop :=
  match ls, Ls with
  | l :: ls, L :: Ls => layer_small l m e /\ net_small ls Ls (layer_bound L m) (layer_err l L m e)
  | _, _ => True
  end.
(** The same shape and activation. *)
Definition same_shape (l : net_layer A) (L : rlayer) : Prop :=
  r_inputs L = l_n_inputs A l /\ r_outputs L = l_n_outputs A l /\ r_activation L = l_activation A l.
(** Float numbers close to real numbers. *)
Definition close_all (e X : list R) (xs : list f32) : Prop :=
  zlen e = zlen xs /\ zlen X = zlen xs /\
  forall i, 0 <= i < zlen xs -> is_finite (znth (fzero : f32) xs i) = true /\ (Rabs (B2R (znth (fzero : f32) xs i) - nthr X i) <= nthr e i)%R.

(** What is needed of the C library: expf has relative error at most [ge] between -64 and 64, is huge (possibly
    infinite) above and almost 0 below; tanhf has absolute error at most [gt]; logf has absolute error at most
    [gl] between 1/2 and 2^17. *)
Definition expf_ok : Prop := forall x : f32, is_finite x = true ->
  ((Rabs (B2R x) <= 64)%R -> is_finite (ef x) = true /\ (Rabs (B2R (ef x) - exp (B2R x)) <= ge * exp (B2R x))%R) /\
  ((64 < B2R x)%R -> fleb (f_of_ZE 1 80) (ef x) = true) /\
  ((B2R x < -64)%R -> is_finite (ef x) = true /\ (0 <= B2R (ef x) <= bpow radix2 (-80))%R).
Definition tanhf_ok : Prop := forall x : f32, is_finite x = true ->
  is_finite (tf x) = true /\ (Rabs (B2R (tf x) - tanh (B2R x)) <= gt)%R.
Definition logf_ok : Prop := forall x : f32, is_finite x = true -> (/ 2 <= B2R x <= 131072)%R ->
  is_finite (lf x) = true /\ (Rabs (B2R (lf x) - ln (B2R x)) <= gl)%R.
Definition libm_ok (l : net_layer A) : Prop :=
  (l_activation A l = ActLogistic \/ l_activation A l = ActSoftmax -> expf_ok) /\
  (l_activation A l = ActTanh -> tanhf_ok) /\ (l_activation A l = ActSoftmax -> logf_ok).
End Net.

(** The squared Mahalanobis distance with absolute values. *)
Definition mahalanobis_mag (P : list (list R)) (x m : list R) : R :=
  let n := zlen x in let d := fun i => Rabs (vec x i - vec m i) in
  sumr n (fun i => sumr n (fun j => Rabs (mat P j i) * d j + tiny32) * d i + tiny32)%R.

(** ** When the bounds apply *)
Section Fits.
Context {ef lf tf : f32 -> f32}.
Notation A := (f32_arith ef lf tf).
Definition all_finite (xs : list f32) : Prop := Forall (fun x : f32 => is_finite x = true) xs.
(** A network of relu and identity layers with finite numbers, well sized, never near overflow on [x]. *)
Definition relu_net_fits (m : net A) (x : list f32) : Prop :=
  Forall finite_layer (n_layers_arr A m) /\ Forall piecewise_linear (n_layers_arr A m) /\ all_finite x /\
  mags_ok (n_layers_arr A m) (map Rabs (map B2R x)) /\ net_depth (n_layers_arr A m) <= 8388608.
(** One bound per output: relative error [rel] of the number of roundings, times the output computed
    with absolute values. *)
Definition relu_bound (m : net A) (x : list f32) : list R :=
  map (fun t => rel (Z.to_nat (net_depth (n_layers_arr A m))) * t)%R (net_mag (n_layers_arr A m) (map Rabs (map B2R x))).
(** What the network computes with its numbers, in exact arithmetic. *)
Definition exact_outputs (m : net A) (x : list f32) : list R := rnet_fun (map as_real (n_layers_arr A m)) (map B2R x).
(** A network that was meant to be [Ls] and an input meant to be [X] with |X| at most [b]: weights and
    inputs may differ from the intended ones. *)
Definition net_fits (ge gl gt : R) (m : net A) (Ls : list rlayer) (b e X : list R) (x : list f32) : Prop :=
  Forall finite_layer (n_layers_arr A m) /\ Forall (libm_ok ge gl gt) (n_layers_arr A m) /\
  Forall (fun l => l_n_inputs A l <= 8388606) (n_layers_arr A m) /\ Forall2 same_shape (n_layers_arr A m) Ls /\
  zlen b = zlen X /\ (forall i, 0 <= i < zlen X -> (Rabs (nthr X i) <= nthr b i)%R) /\
  close_all e X x /\ net_small ge gl gt (n_layers_arr A m) Ls b e.
End Fits.
(** The computation of the distance never comes near overflow. *)
Definition mahalanobis_small (P : list (list R)) (x m : list R) : Prop :=
  let n := zlen x in
  (forall i, 0 <= i < n -> (Rabs (vec x i - vec m i) <= max32)%R) /\
  (forall i, 0 <= i < n -> (sumr n (fun j => Rabs (mat P j i) * Rabs (vec x j - vec m j) + tiny32) <= max32)%R) /\
  (mahalanobis_mag P x m <= max32)%R.
