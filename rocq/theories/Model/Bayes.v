(** Model of eml_bayes.h and of the table generated by emlearn/bayes.py. *)
From Coq Require Import ZArith List Bool.
From Flocq Require Import Core BinarySingleNaN.
From Verif.Base Require Import Res CInt Float.
From Verif.Model Require Import Common FixedPoint.
Import ListNotations.
Open Scope Z_scope.
Open Scope res_scope.

(** eml_bayes.h:10-12 *)
Definition EML_MAX_CLASSES : Z := 10.

(** ** eml_bayes.h:33-72  eml_bayes_log2fix. x is a uint32_t, y an int32_t; `1U << n` is reduced
    modulo 2^32 and undefined for n >= 32. *)
Definition shl1U (k n : Z) : res Z :=
  if (0 <=? n) && (n <? 32) then Ret (to_uint32 (k * 2 ^ n)) else Err BadShift.
(** y -= k for an unsigned k: computed modulo 2^32 and converted back. *)
Definition y_sub (y k : Z) : Z := to_int32 (to_uint32 (to_uint32 y - k)).
Definition y_add (y k : Z) : Z := to_int32 (to_uint32 (to_uint32 y + k)).

(** eml_bayes.h:48-51; [fuel] bounds the number of iterations. *)
Fixpoint log2_up (fuel : nat) (p1 : Z) (x y : Z) : res (Z * Z) :=
  match fuel with
  | O => Err NoFuel
  | S fuel' => if x <? p1 then log2_up fuel' p1 (to_uint32 (x * 2)) (y_sub y p1) else Ret (x, y)
  end.
(** eml_bayes.h:53-56; p2 is 2U << precision *)
Fixpoint log2_down (fuel : nat) (p1 p2 : Z) (x y : Z) : res (Z * Z) :=
  match fuel with
  | O => Err NoFuel
  | S fuel' => if p2 <=? x then log2_down fuel' p1 p2 (Z.shiftr x 1) (y_add y p1) else Ret (x, y)
  end.
(** eml_bayes.h:60-67  one iteration; z is a uint64_t, b an int32_t. *)
Definition log2_step (precision p2 : Z) (st : Z * Z * Z) (i : Z) : res (Z * Z * Z) :=
  let '(z, y, b) := st in
  let z := Z.shiftr (to_uint64 (z * z)) precision in
  let* (z, y) := (if p2 <=? z then let* y' := chk_int32 (y + b) in Ret (Z.shiftr z 1, y')
                  else Ret (z, y)) in
  Ret (z, y, Z.shiftr b 1).

Definition eml_bayes_log2fix (fuel : nat) (x : Z) (precision : Z) : res Z :=
  let* b0 := shl1U 1 (precision - 1) in
  let b := to_int32 b0 in
  if (precision <? 1) || (31 <? precision) then Ret 2147483647
  else if x =? 0 then Ret (-2147483648)
  else
    let* p1 := shl1U 1 precision in
    let* (x, y) := log2_up fuel p1 x 0 in
    let* p2 := shl1U 2 precision in
    let* (x, y) := log2_down fuel p1 p2 x y in
    let* (z, y, b) := foldM (log2_step precision p2) (x, y, b) (zrange precision) in
    Ret y.

(** ** Class scores *)
(** eml_bayes.h:78-80: EML_Q16_FROMFLOAT of the double constants -0.7213475204444817,
    -1.0005845727355313e-15 and -1.3257480647361592 (truncation of -47274.23.., -6.5e-11, -86884.22..). *)
Definition logpdf_a : Z := -47274.
Definition logpdf_b : Z := 0.
Definition logpdf_c : Z := -86884.

(** eml_bayes.h:75-86  eml_bayes_logpdf_std *)
Definition eml_bayes_logpdf_std (x : Z) : res Z :=
  let* xx := eml_q16_mul x x in
  let* axx := eml_q16_mul logpdf_a xx in
  let* bx := eml_q16_mul logpdf_b x in
  let* s := chk_int32 (axx + bx) in
  chk_int32 (s + logpdf_c).

(** eml_bayes.h:90-97  eml_bayes_logpdf *)
Definition eml_bayes_logpdf (x mean std stdlog2 : Z) : res Z :=
  let* d := chk_int32 (x - mean) in
  let* xm := eml_q16_div d std in
  let* xx := (if 0 <? xm then Ret xm else chk_int32 (- xm)) in
  let* p := eml_bayes_logpdf_std xx in
  chk_int32 (p - stdlog2).

(** eml_bayes.h:14-18, 25-29 *)
Record summary : Type := mk_summary { s_mean : Z; s_std : Z; s_stdlog2 : Z }.
Record bayes_model : Type := mk_bayes {
  bm_n_classes : Z; bm_n_features : Z; bm_summaries : list summary }.

(** eml_bayes.h:122-132  the loop over the values of one class *)
Definition class_score (model : bayes_model) (values : list f32) (values_length class_idx : Z) : res Z :=
  foldM (fun class_p value_idx =>
      let* m := chk_int32 (class_idx * bm_n_features model) in
      let* summary_idx := chk_int32 (m + value_idx) in
      let* s := zget (bm_summaries model) summary_idx in
      let* v := zget values value_idx in
      let* val := EML_Q16_FROMFLOAT v in
      let* plog := eml_bayes_logpdf val (s_mean s) (s_std s) (s_stdlog2 s) in
      chk_int32 (class_p + plog)) 0 (zrange values_length).

(** eml_bayes.h:109-149  eml_bayes_predict (model and values are not NULL). The local array
    class_probabilities has EML_MAX_CLASSES entries; [junk] is what they hold initially. *)
Definition eml_bayes_predict (junk : list Z) (model : bayes_model) (values : list f32) (values_length : Z)
  : res Z :=
  if negb (2 <=? bm_n_classes model) then Ret (- eml_error_code EmlUninitialized)
  else
    let class_probabilities := firstn (Z.to_nat EML_MAX_CLASSES) junk in
    let* probs := foldM (fun cp class_idx =>
        let* class_p := class_score model values values_length class_idx in
        zset cp class_idx class_p) class_probabilities (zrange (bm_n_classes model)) in
    let* p0 := zget probs 0 in
    let* (idx, best) := foldM (fun '(idx, best) k =>
        let class_idx := k + 1 in
        let* p := zget probs class_idx in
        if best <? p then Ret (class_idx, p) else Ret (idx, best))
      (0, p0) (zrange (bm_n_classes model - 1)) in
    Ret idx.

(** ** bayes.py:29-60, 98-112  generate_c: the summaries in class-major order. [q16] is the C
    compiler's evaluation of EML_Q16_FROMFLOAT on a printed double. *)
Definition generate_summaries (model : list (list (f64 * f64 * f64))) : res (list summary) :=
  mapM (fun '(mean, std, stdlog2) =>
      let* m := EML_Q16_FROMFLOAT mean in
      let* s := EML_Q16_FROMFLOAT std in
      let* l := EML_Q16_FROMFLOAT stdlog2 in
      Ret (mk_summary m s l)) (concat model).
Definition generate_bayes (model : list (list (f64 * f64 * f64))) (n_features : Z) : res bayes_model :=
  let* s := generate_summaries model in
  Ret (mk_bayes (zlen model) n_features s).
