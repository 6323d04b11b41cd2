(** What the C text written by save() of a neural network should define. *)
From Coq Require Import String ZArith List Bool.
From Verif.Base Require Import Res CInt Float Arith.
From Verif.Model Require Import Text Net NetRun.
From Verif.Spec Require Import CTextSpec.
Import ListNotations.
Open Scope Z_scope.

(** [n] = { x, y, ... };  with float literals, as many as declared *)
Definition float_array (rest : list tok) : option (list f32) :=
  let? (n, lits) := array_def rest in
  let? n := int_lit n in
  if n =? Z.of_nat (length lits) then opt_all float_lit lits else None.
(** [n];  an array at file scope without initialiser: n zeros *)
Definition plain_array (rest : list tok) : option Z :=
  let? ts := expect [ch "["] rest in
  let? (n, ts) := literal ts in
  let? ts := expect [ch "]"; ch ";"] ts in
  match ts with [] => int_lit n | _ => None end.
(** The enumerators of eml_net_common.h and the functions they stand for in eml_net.h *)
Definition activation_named (w : list Z) : option activation :=
  fold_right (fun '(n, a) r => if list_eq_dec Z.eq_dec w (txt n) then Some a else r) None
    [("EmlNetActivationIdentity"%string, ActIdentity); ("EmlNetActivationRelu"%string, ActRelu); ("EmlNetActivationLogistic"%string, ActLogistic);
     ("EmlNetActivationSoftmax"%string, ActSoftmax); ("EmlNetActivationTanh"%string, ActTanh)].
(** (params) { return F(args); }  the tokens of the parameters, F, the tokens of the arguments *)
Definition returns (rest : list tok) : option (list (list tok) * list Z * list (list tok)) :=
  let? ts := expect [ch "("] rest in
  let? (params, ts) := up_to 41 ts in
  match ts with
  | P o :: W k :: W f :: P p :: ts =>
      if (o =? 123) && is_word k (W (txt "return")) && (p =? 40) then
        let? (args, ts) := up_to 41 ts in
        let? ts := expect [ch ";"; ch "}"] ts in
        match ts with [] => Some (split_at 44 params, f, split_at 44 args) | _ => None end
      else None
  | _ => None
  end.

Section Load.
(** The C library of the machine. *)
Context (expf logf tanhf : f32 -> f32).
Notation A := (f32_arith expf logf tanhf).
(** One EmlNetLayer initialiser { n_outputs, n_inputs, weights, biases, activation } of the file [t] *)
Definition layer_of (t : list Z) (row : list (list Z)) : option (net_layer A) :=
  match row with
  | [n_outputs; n_inputs; weights; biases; act] =>
      let? a := int_lit n_outputs in let? b := int_lit n_inputs in
      let? wr := lookup_def weights (definitions t) in let? ws := float_array wr in
      let? br := lookup_def biases (definitions t) in let? bs := float_array br in
      let? f := activation_named act in
      Some (mk_layer A (to_int32 a) (to_int32 b) ws bs f)
  | _ => None
  end.
(** The EmlNet model [name] a C program that includes the file [t] gets *)
Definition load_net (t name : list Z) : option (net A) :=
  let? rest := lookup_def name (definitions t) in
  let? fields := struct_def rest in
  match fields with
  | [n_layers; layers; buf1; buf2; buf_length] =>
      let? a := field_int n_layers in
      let? ln := field_name layers in let? lr := lookup_def ln (definitions t) in
      let? (n, rows) := table_def lr in let? n := int_lit n in
      let? ls := opt_all (layer_of t) rows in
      let? n1 := field_name buf1 in let? r1 := lookup_def n1 (definitions t) in let? b1 := plain_array r1 in
      let? n2 := field_name buf2 in let? r2 := lookup_def n2 (definitions t) in let? b2 := plain_array r2 in
      let? b := field_int buf_length in
      if n =? Z.of_nat (length rows) then
        Some (mk_net A (to_int32 a) ls (repeat (fzero : f32) (Z.to_nat b1)) (repeat (fzero : f32) (Z.to_nat b2)) (to_int32 b))
      else None
  | _ => None
  end.
End Load.

(** The functions of the file: name, parameters, the function each calls and with what. *)
Definition net_functions (name : list Z) : list (list Z * (list (list tok) * list Z * list (list tok))) :=
  let row := [[W (txt "const"); W (txt "float"); P 42; W (txt "features")]; [W (txt "int32_t"); W (txt "n_features")]] in
  let self := [[P 38; W name]; [W (txt "features")]; [W (txt "n_features")]] in
  [(name ++ txt "_predict", (row, txt "eml_net_predict", self));
   (name ++ txt "_regress", (row ++ [[W (txt "float"); P 42; W (txt "out")]; [W (txt "int32_t"); W (txt "out_length")]],
      txt "eml_net_regress", self ++ [[W (txt "out")]; [W (txt "out_length")]]));
   (name ++ txt "_regress1", (row, txt "eml_net_regress1", self))].

(** The number of layers and the sizes of each fit in int32_t. *)
Definition int32_sizes (ls : list fit_layer) : Prop :=
  zlen ls <= 2147483647 /\
  Forall (fun l => py_n_in f64_arith l <= 2147483647 /\ -2147483648 <= py_n_out f64_arith l <= 2147483647) ls.
