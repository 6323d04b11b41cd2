(** What a feed-forward network computes, in any number system. *)
From Coq Require Import ZArith List Bool String.
From Verif.Base Require Import Res CInt Arith Kernels.
From Verif.Model Require Import Common Net.
Import ListNotations.
Open Scope Z_scope.

Section Spec.
Context (A : arith).
Notation num := (num A).
Notation nth0 := (znth (nzero A)).

(** Element-wise or whole-vector activation. *)
Definition vmax (x : list num) : num := fold_left (fun m v => if nltb A m v then v else m) x (nneginf A).
Definition softmax (x : list num) : list num :=
  let m := vmax x in
  let s := fold_left (fun s v => nadd A s (nexp A (nsub A v m))) x (nzero A) in
  map (fun v => nexp A (nsub A v (nadd A m (nlog A s)))) x.
Definition activate (a : activation) (x : list num) : list num :=
  match a with
  | ActRelu => map (fun v => if nleb A v (nzero A) then nzero A else v) x
  | ActLogistic => map (fun v => ndiv A (none_ A) (nadd A (none_ A) (nexp A (nneg A v)))) x
  | ActTanh => map (ntanh A) x
  | ActSoftmax => softmax x
  | _ => x
  end.
(** Output o of a layer before the activation: sum over i of w[i][o] * x[i], plus b[o]; the
    weights are stored row by row (one row per input). *)
Definition linear (l : net_layer A) (x : list num) : list num :=
  map (fun o =>
      nadd A
        (fold_left (fun s i => nadd A s (nmul A (nth0 (l_weights A l) (o + i * l_n_outputs A l)) (nth0 x i)))
           (zrange (l_n_inputs A l)) (nzero A))
        (nth0 (l_biases A l) o))
    (zrange (l_n_outputs A l)).
Definition layer_fun (l : net_layer A) (x : list num) : list num := activate (l_activation A l) (linear l x).
(** The network: one layer after the other. *)
Definition net_fun (ls : list (net_layer A)) (x : list num) : list num :=
  fold_left (fun v l => layer_fun l v) ls x.

(** A layer whose arrays have the right sizes and whose activation is one of the five. *)
Definition layer_ok (l : net_layer A) : Prop :=
  1 <= l_n_inputs A l /\ 1 <= l_n_outputs A l /\
  zlen (l_weights A l) = l_n_inputs A l * l_n_outputs A l /\ zlen (l_weights A l) < 2 ^ 31 /\
  zlen (l_biases A l) = l_n_outputs A l /\ (forall c, l_activation A l <> ActOther c).
(** Each layer takes what the previous one gives; [n] is the number of inputs. *)
Fixpoint chain (n : Z) (ls : list (net_layer A)) : Prop :=
  match ls with
  | [] => True
  | l :: r => l_n_inputs A l = n /\ chain (l_n_outputs A l) r
  end.
Definition n_outputs_of (ls : list (net_layer A)) (n : Z) : Z :=
  fold_left (fun _ l => l_n_outputs A l) ls n.

(** The parts of a network struct that inference never changes. *)
Definition net_ok (m : net A) (n_inputs : Z) : Prop :=
  n_layers A m = zlen (n_layers_arr A m) /\
  Forall layer_ok (n_layers_arr A m) /\ chain n_inputs (n_layers_arr A m) /\
  Forall (fun l => l_n_inputs A l <= activations_length A m /\ l_n_outputs A l <= activations_length A m) (n_layers_arr A m) /\
  zlen (activations1 A m) = activations_length A m /\ zlen (activations2 A m) = activations_length A m.
(** Two structs that differ at most in the contents of the activation buffers. *)
Definition same_net (m m' : net A) : Prop :=
  n_layers A m' = n_layers A m /\ n_layers_arr A m' = n_layers_arr A m /\
  activations_length A m' = activations_length A m /\
  zlen (activations1 A m') = zlen (activations1 A m) /\ zlen (activations2 A m') = zlen (activations2 A m).

(** ** Keras *)
(** What a Keras layer does; [sem] gives the meaning of an activation by its name. *)
Definition keras_fun (sem : string -> list num -> list num) (l : keras_layer A) (x : list num) : list num :=
  match l with
  | KDense _ a _ w n b =>
      sem a (map (fun o =>
        nadd A (fold_left (fun s i => nadd A s (nmul A (nth0 (nth (Z.to_nat i) w []) o) (nth0 x i)))
                 (zrange (zlen w)) (nzero A)) (nth0 b o)) (zrange n))
  | KActivation _ a => sem a x
  | KReLU _ _ => sem "relu"%string x
  | KSoftmax _ _ => sem "softmax"%string x
  | _ => x
  end.
Definition keras_net (sem : string -> list num -> list num) (ls : list (keras_layer A)) (x : list num) : list num :=
  fold_left (fun v l => keras_fun sem l v) ls x.
(** The activation names mean what they say. *)
Definition sem_ok (sem : string -> list num -> list num) : Prop :=
  (forall x, sem "linear"%string x = x) /\ (forall x, sem "identity"%string x = x) /\
  (forall x, sem "relu"%string x = activate ActRelu x) /\
  (forall x, sem "sigmoid"%string x = activate ActLogistic x) /\ (forall x, sem "logistic"%string x = activate ActLogistic x) /\
  (forall x, sem "softmax"%string x = activate ActSoftmax x) /\ (forall x, sem "tanh"%string x = activate ActTanh x).
(** Every activation layer follows (Dropout aside) a Dense layer that has no activation of its own
    and no activation layer yet. *)
Fixpoint mergeable (pending : bool) (ls : list (keras_layer A)) : Prop :=
  match ls with
  | [] => True
  | KDense _ a _ _ _ _ :: r => mergeable (String.eqb a "linear") r
  | KActivation _ a :: r => pending = true /\ mergeable (String.eqb a "linear") r
  | KReLU _ _ :: r => pending = true /\ mergeable false r
  | KSoftmax _ _ :: r => pending = true /\ mergeable false r
  | KDropout _ :: r => mergeable pending r
  | KOther _ :: r => mergeable pending r
  end.
(** Weight matrices are matrices. *)
Definition rectangular (l : keras_layer A) : Prop :=
  match l with
  | KDense _ _ _ w n _ => 1 <= n /\ Forall (fun row => zlen row = n) w
  | _ => True
  end.
(** Each Dense layer takes what the previous one gives, with one bias per output; [n] inputs. *)
Fixpoint keras_chain (n : Z) (ls : list (keras_layer A)) : Prop :=
  match ls with
  | [] => True
  | KDense _ _ _ w no b :: r => zlen w = n /\ 1 <= n /\ zlen b = no /\ n * no < 2 ^ 31 /\ keras_chain no r
  | _ :: r => keras_chain n r
  end.
Definition n_dense (ls : list (keras_layer A)) : Z :=
  zlen (filter (fun l => match l with KDense _ _ _ _ _ _ => true | _ => false end) ls).
(** ** Layers as the converters hand them to the code generator *)
Definition py_matrix (l : py_layer A) : Prop :=
  1 <= py_n_out A l /\ Forall (fun row => zlen row = py_n_out A l) (py_weights A l).
Definition py_sizes (l : py_layer A) : Prop :=
  1 <= py_n_in A l /\ zlen (py_biases A l) = py_n_out A l /\ py_n_in A l * py_n_out A l < 2 ^ 31.
Fixpoint py_chain (n : Z) (ls : list (py_layer A)) : Prop :=
  match ls with [] => True | l :: r => py_n_in A l = n /\ py_chain (py_n_out A l) r end.
End Spec.

(** The first position of a largest element, given "less than". *)
Definition first_max {T} (lt : T -> T -> bool) (l : list T) (r : Z) : Prop :=
  exists v, zget l r = Ret v /\
    (forall i w, zget l i = Ret w -> lt v w = false) /\
    (forall i w, 0 <= i < r -> zget l i = Ret w -> lt w v = true).

(** ** Sessions: any sequence of API calls on one network. *)
Section Session.
Context (A : arith).
Inductive net_call : Type :=
  | CallInfer (x : list (num A))
  | CallPredict (x : list (num A))
  | CallProba (x out : list (num A))
  | CallRegress (x out : list (num A)).
(** The network after the call, whatever it returned. *)
Definition do_call (m : net A) (c : net_call) : res (net A) :=
  match c with
  | CallInfer x => bind (eml_net_infer A m x (zlen x)) (fun '(_, m) => Ret m)
  | CallPredict x => bind (eml_net_predict A m x (zlen x)) (fun '(_, m) => Ret m)
  | CallProba x out => bind (eml_net_predict_proba A m x (zlen x) out (zlen out)) (fun '(_, m, _) => Ret m)
  | CallRegress x out => bind (eml_net_regress A m x (zlen x) out (zlen out)) (fun '(_, m, _) => Ret m)
  end.
Definition do_calls (m : net A) (cs : list net_call) : res (net A) := foldM do_call m cs.
End Session.
