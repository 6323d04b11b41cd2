(** Model of eml_net.h, eml_net_fixedpoint.h, templates/net_float.jinja and emlearn/net.py.

    Everything is over an arbitrary number system [A]. Pointers are assumed not to be NULL and
    the two activation buffers not to overlap each other or the inputs, as in the generated code. *)
From Coq Require Import ZArith List Bool String Ascii.
From Verif.Base Require Import Res CInt Arith.
From Verif.Model Require Import Common.
Import ListNotations.
Open Scope Z_scope.
Open Scope res_scope.

(** eml_net_common.h:8-15; any other value of the int is [ActOther]. *)
Inductive activation : Type := ActIdentity | ActRelu | ActLogistic | ActSoftmax | ActTanh | ActOther (code : Z).

Section Net.
Context (A : arith).
Notation num := (num A).

(** eml_net.h:25-31 *)
Record net_layer : Type := mk_layer {
  l_n_outputs : Z; l_n_inputs : Z; l_weights : list num; l_biases : list num; l_activation : activation }.
(** eml_net.h:39-47 *)
Record net : Type := mk_net {
  n_layers : Z; n_layers_arr : list net_layer;
  activations1 : list num; activations2 : list num; activations_length : Z }.
Definition set_buffers (m : net) b1 b2 : net :=
  mk_net (n_layers m) (n_layers_arr m) b1 b2 (activations_length m).

(** eml_net.h:50-53 *)
Definition eml_net_relu (x : num) : num := if nleb A x (nzero A) then nzero A else x.
(** eml_net.h:55-58 *)
Definition eml_net_expit (x : num) : num :=
  ndiv A (none_ A) (nadd A (none_ A) (nexp A (nneg A x))).
(** eml_net.h:60-63 *)
Definition eml_net_tanh (x : num) : num := ntanh A x.

(** eml_net.h:65-90 *)
Definition eml_net_softmax (input : list num) (input_length : Z) : res (list num) :=
  let* input_max := foldM (fun m i =>
      let* x := zget input i in Ret (if nltb A m x then x else m)) (nneginf A) (zrange input_length) in
  let* sum := foldM (fun s i =>
      let* x := zget input i in Ret (nadd A s (nexp A (nsub A x input_max)))) (nzero A) (zrange input_length) in
  let offset := nadd A input_max (nlog A sum) in
  foldM (fun input i => let* x := zget input i in zset input i (nexp A (nsub A x offset)))
    input (zrange input_length).

(** eml_net.h:92-104 *)
Definition eml_net_argmax (values : list num) (values_length : Z) : res Z :=
  let* (vmax, argmax) := foldM (fun '(vmax, argmax) i =>
      let* v := zget values i in
      if nltb A vmax v then Ret (v, i) else Ret (vmax, argmax)) (nneginf A, -1) (zrange values_length) in
  Ret argmax.

(** eml_net.h:113-116 *)
Definition eml_net_outputs (m : net) : res Z :=
  let* l := zget (n_layers_arr m) (n_layers m - 1) in Ret (l_n_outputs l).
(** eml_net.h:119-126 *)
Definition eml_net_outputs_proba (m : net) : res Z :=
  let* n := eml_net_outputs m in Ret (if n =? 1 then 2 else n).
(** eml_net.h:133-145 *)
Definition eml_net_find_largest_layer (m : net) : res Z :=
  foldM (fun largest i =>
      let* l := zget (n_layers_arr m) i in
      let largest := if largest <? l_n_inputs l then l_n_inputs l else largest in
      Ret (if largest <? l_n_outputs l then l_n_outputs l else largest)) (-1) (zrange (n_layers m)).

(** eml_net.h:172-216; returns the error and the output buffer. *)
Definition map_first (f : num -> num) (out : list num) (n : Z) : res (list num) :=
  foldM (fun out i => let* x := zget out i in zset out i (f x)) out (zrange n).
Definition eml_net_forward (inp : list num) (in_length : Z) (weights biases : list num)
    (act : activation) (out : list num) (out_length : Z) : res (eml_error * list num) :=
  let* out := foldM (fun out o =>
      let* sum := foldM (fun sum i =>
          let* m := chk_int32 (i * out_length) in
          let* w_idx := chk_int32 (o + m) in
          let* w := zget weights w_idx in
          let* x := zget inp i in
          Ret (nadd A sum (nmul A w x))) (nzero A) (zrange in_length) in
      let* b := zget biases o in
      zset out o (nadd A sum b)) out (zrange out_length) in
  match act with
  | ActIdentity => Ret (EmlOk, out)
  | ActRelu => let* out := map_first eml_net_relu out out_length in Ret (EmlOk, out)
  | ActLogistic => let* out := map_first eml_net_expit out out_length in Ret (EmlOk, out)
  | ActTanh => let* out := map_first eml_net_tanh out out_length in Ret (EmlOk, out)
  | ActSoftmax => let* out := eml_net_softmax out out_length in Ret (EmlOk, out)
  | ActOther _ => Ret (EmlUnsupported, out)
  end.

(** eml_net.h:219-238 *)
Definition eml_net_layer_forward (layer : net_layer) (inp : list num) (in_length : Z)
    (out : list num) (out_length : Z) : res (eml_error * list num) :=
  if negb (l_n_inputs layer <=? in_length) then Ret (EmlSizeMismatch, out)
  else if negb (l_n_outputs layer <=? out_length) then Ret (EmlSizeMismatch, out)
  else eml_net_forward inp (l_n_inputs layer) (l_weights layer) (l_biases layer) (l_activation layer)
         out (l_n_outputs layer).

(** for (i<n) dst[i] = src[i]; *)
Definition copy_buf (dst src : list num) (n : Z) : res (list num) :=
  foldM (fun d i => let* x := zget src i in zset d i x) dst (zrange n).

(** eml_net.h:248-281  eml_net_infer. Leaves the results in activations2. *)
Definition eml_net_infer (m : net) (features : list num) (features_length : Z) : res (eml_error * net) :=
  if negb (2 <=? n_layers m) then Ret (EmlUnsupported, m)
  else
    let* l0 := zget (n_layers_arr m) 0 in
    if negb (features_length =? l_n_inputs l0) then Ret (EmlSizeMismatch, m)
    else
      let* largest := eml_net_find_largest_layer m in
      if negb (largest <=? activations_length m) then Ret (EmlSizeMismatch, m)
      else
        let bl := activations_length m in
        let* (e, b1) := eml_net_layer_forward l0 features features_length (activations1 m) bl in
        match e with
        | EmlOk =>
          let* (e, b1, b2) := foldM (fun '(e, b1, b2) k =>
              match e with
              | EmlOk =>
                let* layer := zget (n_layers_arr m) (k + 1) in
                let* (e, b2) := eml_net_layer_forward layer b1 bl b2 bl in
                match e with
                | EmlOk => let* b1 := copy_buf b1 b2 bl in Ret (EmlOk, b1, b2)
                | _ => Ret (e, b1, b2)
                end
              | _ => Ret (e, b1, b2)
              end) (EmlOk, b1, activations2 m) (zrange (n_layers m - 2)) in
          match e with
          | EmlOk =>
            let* last := zget (n_layers_arr m) (n_layers m - 1) in
            let* (e, b2) := eml_net_layer_forward last b1 bl b2 bl in
            Ret (e, set_buffers m b1 b2)
          | _ => Ret (e, set_buffers m b1 b2)
          end
        | _ => Ret (e, set_buffers m b1 (activations2 m))
        end.

(** eml_net.h:294-327  eml_net_predict_proba *)
Definition eml_net_predict_proba (m : net) (features : list num) (features_length : Z)
    (out : list num) (out_length : Z) : res (eml_error * net * list num) :=
  let* n_outputs := eml_net_outputs_proba m in
  if negb (out_length =? n_outputs) then Ret (EmlSizeMismatch, m, out)
  else
    let* (e, m) := eml_net_infer m features features_length in
    match e with
    | EmlOk =>
      let* (out, proba_sum) :=
        (if n_outputs =? 2 then
           let* a0 := zget (activations2 m) 0 in
           let* out := zset out 1 a0 in
           let* o1 := zget out 1 in
           let* out := zset out 0 (nsub A (none_ A) o1) in
           let* o0 := zget out 0 in
           Ret (out, nadd A o0 o1)
         else
           foldM (fun '(out, s) i =>
             let* p := zget (activations2 m) i in
             let* out := zset out i p in
             Ret (out, nadd A s p)) (out, nzero A) (zrange n_outputs)) in
      if nltb A (nabs A (nsub A proba_sum (none_ A))) (nmilli A) then Ret (EmlOk, m, out)
      else Ret (EmlPostconditionFailed, m, out)
    | _ => Ret (e, m, out)
    end.

(** eml_net.h:339-358  eml_net_predict *)
Definition predict_class (outputs : list num) (n_outputs : Z) : res Z :=
  if n_outputs =? 1 then
    let* a := zget outputs 0 in Ret (if nltb A (nhalf A) a then 1 else 0)
  else if 1 <? n_outputs then eml_net_argmax outputs n_outputs
  else Ret (- eml_error_code EmlUnknownError).
Definition eml_net_predict (m : net) (features : list num) (features_length : Z) : res (Z * net) :=
  let* (e, m) := eml_net_infer m features features_length in
  match e with
  | EmlOk =>
    let* n_outputs := eml_net_outputs m in
    let* c := predict_class (activations2 m) n_outputs in
    Ret (c, m)
  | _ => Ret (- eml_error_code e, m)
  end.

(** eml_net.h:371-387  eml_net_regress *)
Definition eml_net_regress (m : net) (features : list num) (features_length : Z)
    (out : list num) (out_length : Z) : res (eml_error * net * list num) :=
  let* n_outputs := eml_net_outputs m in
  if negb (out_length =? n_outputs) then Ret (EmlSizeMismatch, m, out)
  else
    let* (e, m) := eml_net_infer m features features_length in
    match e with
    | EmlOk => let* out := copy_buf out (activations2 m) n_outputs in Ret (EmlOk, m, out)
    | _ => Ret (e, m, out)
    end.
(** eml_net.h:398-408  eml_net_regress1; [junk] is what the local array holds. *)
Definition eml_net_regress1 (junk : num) (m : net) (features : list num) (features_length : Z) : res (num * net) :=
  let* (e, m, out) := eml_net_regress m features features_length [junk] 1 in
  match e with
  | EmlOk => let* x := zget out 0 in Ret (x, m)
  | _ => Ret (nnan A, m)
  end.

(** ** templates/net_float.jinja:18-52  the generated infer function *)
Definition inline_infer (layers : list net_layer) (inp : list num) (in_length : Z)
    (a1 a2 : list num) (buffer_length : Z) : res (eml_error * list num * list num) :=
  let* b1 := copy_buf a1 inp in_length in
  foldM (fun '(e, b1, b2) l =>
      match e with
      | EmlOk =>
        let* (e, b2) := eml_net_forward b1 (l_n_inputs l) (l_weights l) (l_biases l) (l_activation l)
                          b2 (l_n_outputs l) in
        match e with
        | EmlOk => let* b1 := copy_buf b1 b2 buffer_length in Ret (EmlOk, b1, b2)
        | _ => Ret (e, b1, b2)
        end
      | _ => Ret (e, b1, b2)
      end) (EmlOk, b1, a2) layers.
(** templates/net_float.jinja:56-83  the generated predict function *)
Definition inline_predict (layers : list net_layer) (n_outputs : Z) (a1 a2 : list num) (buffer_length : Z)
    (inp : list num) (in_length : Z) : res (Z * list num * list num) :=
  let* (e, b1, b2) := inline_infer layers inp in_length a1 a2 buffer_length in
  match e with
  | EmlOk => let* c := predict_class b2 n_outputs in Ret (c, b1, b2)
  | _ => Ret (- eml_error_code e, b1, b2)
  end.

(** ** emlearn/net.py *)
(** A layer as the Python code holds it: activation name, weight matrix (one row per input, all of
    length [py_n_out]) and biases. *)
Record py_layer : Type := mk_pylayer {
  py_activation : string; py_weights : list (list num); py_n_out : Z; py_biases : list num }.
Definition py_n_in (l : py_layer) : Z := zlen (py_weights l).

(** net.py:16-22, 136-142  c_activation_function: the enumerator's name, and the value that name
    has in eml_net_common.h *)
Definition c_activation_function (name : string) : res (string * activation) :=
  if String.eqb name "identity" then Ret ("EmlNetActivationIdentity"%string, ActIdentity)
  else if String.eqb name "relu" then Ret ("EmlNetActivationRelu"%string, ActRelu)
  else if String.eqb name "logistic" then Ret ("EmlNetActivationLogistic"%string, ActLogistic)
  else if String.eqb name "softmax" then Ret ("EmlNetActivationSoftmax"%string, ActSoftmax)
  else if String.eqb name "tanh" then Ret ("EmlNetActivationTanh"%string, ActTanh)
  else Err ValueError_.

(** cgen.py:44-54  constant(val, dtype='int') with a string: int(val). Python's int() accepts
    surrounding white space, a sign, digits and single underscores between digits; no letter. *)
Definition is_letter (c : ascii) : bool :=
  let n := nat_of_ascii c in ((65 <=? n) && (n <=? 90) || (97 <=? n) && (n <=? 122))%nat%bool.
Fixpoint has_letter (s : string) : bool :=
  match s with EmptyString => false | String c r => is_letter c || has_letter r end.
Definition py_int_of_str (s : string) : res Z :=
  if has_letter s then Err ValueError_ else Ret 0 (* value not modelled *).

(** net.py:145-190  c_generate_layer_data and the struct of one layer (net.py:270-278): weights in
    row-major order. [include_constants] is set by the inline generator only. Simplified: the
    weights are the values themselves; printing with six decimals and reading back is C49. *)
Definition layer_data (include_constants : bool) (l : py_layer) : res net_layer :=
  let* (name, act) := c_activation_function (py_activation l) in
  let* _ := (if include_constants then py_int_of_str name else Ret 0) in
  if negb (zlen (List.concat (py_weights l)) =? py_n_in l * py_n_out l) then Err AssertionError_
  else Ret (mk_layer (py_n_out l) (py_n_in l) (List.concat (py_weights l)) (py_biases l) act).

(** net.py:250-252 *)
Definition buffer_size (ls : list py_layer) : res Z :=
  match map py_n_in ls ++ map py_n_out ls with
  | [] => Err ValueError_
  | x :: r => Ret (fold_left Z.max r x)
  end.
(** net.py:236-330  c_generate_net_loadable; the static buffers start as zeros. *)
Definition c_generate_net_loadable (ls : list py_layer) : res net :=
  let* bs := buffer_size ls in
  let* layers := mapM (layer_data false) ls in
  let zeros := repeat (nzero A) (Z.to_nat bs) in
  Ret (mk_net (zlen ls) layers zeros zeros bs).
(** net.py:192-233  c_generate_net_inline: layers, number of outputs, buffers. *)
Definition c_generate_net_inline (ls : list py_layer) : res (list net_layer * Z * list num) :=
  let* bs := buffer_size ls in
  let* last := pyget ls (-1) in
  let* layers := mapM (layer_data true) ls in
  Ret (layers, py_n_out last, repeat (nzero A) (Z.to_nat bs)).

(** net.py:24-31  argmax *)
Definition py_argmax (sequence : list num) : res Z :=
  let* v0 := pyget sequence 0 in
  Ret (fst (fold_left (fun '(max_idx, max_value) '(i, value) =>
      if nltb A max_value value then (i, value) else (max_idx, max_value))
    (combine (zrange (zlen sequence)) sequence) (0, v0))).

(** ** Keras (net.py:352-424) *)
(** A Keras layer; activations are Python functions, known by __name__. *)
Inductive keras_layer : Type :=
  | KDense (activation : string) (use_bias : bool) (weights : list (list num)) (n_out : Z) (bias : list num)
  | KActivation (activation : string)
  | KReLU (default_slope_and_threshold : bool)
  | KSoftmax (axis : Z)
  | KDropout
  | KOther.
(** net.py:342-348 *)
Definition from_keras_activation (name : string) : string :=
  if String.eqb name "sigmoid" then "logistic"%string
  else if String.eqb name "linear" then "identity"%string else name.
(** activations[-1] = activation; IndexError on an empty list. The list is kept in reverse. *)
Definition set_activation (acc : list py_layer) (a : string) : res (list py_layer) :=
  match acc with
  | [] => Err IndexError_
  | l :: r => Ret (mk_pylayer a (py_weights l) (py_n_out l) (py_biases l) :: r)
  end.
Definition keras_step (acc : list py_layer) (l : keras_layer) : res (list py_layer) :=
  match l with
  | KDense a ub w n b => if ub then Ret (mk_pylayer (from_keras_activation a) w n b :: acc) else Err AssertionError_
  | KActivation a => set_activation acc (from_keras_activation a)
  | KReLU d => if d then set_activation acc "relu" else Err AssertionError_
  | KSoftmax axis => if axis =? -1 then set_activation acc "softmax" else Err AssertionError_
  | KDropout => Ret acc
  | KOther => Err RuntimeError_ (* NotImplementedError *)
  end.
Definition convert_keras (layers : list keras_layer) : res (list py_layer) :=
  let* acc := foldM keras_step [] layers in Ret (rev acc).
End Net.

(** eml_net_fixedpoint.h:66-83  eml_argmax_fixed32 *)
Definition eml_argmax_fixed32 (values : list Z) (values_length : Z) : res Z :=
  if values_length <=? 0 then Ret (-1)
  else
    let* v0 := zget values 0 in
    let* (vmax, argmax) := foldM (fun '(vmax, argmax) i =>
        let* v := zget values i in
        if vmax <? v then Ret (v, i) else Ret (vmax, argmax)) (v0, -1) (zrange values_length) in
    Ret argmax.

(** eml_net_fixedpoint.h:16-64  eml_net_forward_q16. What is between #if 0 and #endif is not compiled: the loops
    have empty bodies. *)
Definition eml_net_forward_q16 (inp : list Z) (in_length : Z) (weights biases : list Z)
    (act : activation) (out : list Z) (out_length : Z) : res (eml_error * list Z) :=
  let* out := foldM (fun out o => Ret out) out (zrange out_length) in
  match act with
  | ActIdentity => Ret (EmlOk, out)
  | ActRelu => let* out := foldM (fun out i => Ret out) out (zrange out_length) in Ret (EmlOk, out)
  | ActLogistic => let* out := foldM (fun out i => Ret out) out (zrange out_length) in Ret (EmlOk, out)
  | ActSoftmax => Ret (EmlOk, out)
  | _ => Ret (EmlUnsupported, out)
  end.
