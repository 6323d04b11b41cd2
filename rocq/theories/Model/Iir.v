(** Model of eml_iir.h and of iirfilter in bindings/eml_signal.cpp.

    Over an arbitrary number system [A]. Memory is one list of numbers; the states of a filter
    start at an offset in it, so that several filters can live in the same memory. The
    coefficients are const and kept apart. *)
From Coq Require Import ZArith List Bool.
From Verif.Base Require Import Res CInt Arith.
From Verif.Model Require Import Common.
Import ListNotations.
Open Scope Z_scope.
Open Scope res_scope.

Section Iir.
Context (A : arith).
Notation num := (num A).

(** eml_iir.h:15-26  eml_biquad_tdf2; [s1], [s2] are offsets in memory, [a], [b] in the coefficients. *)
Definition eml_biquad_tdf2 (mem : list num) (s1 s2 : Z) (coef : list num) (a b : Z) (inp : num) : res (num * list num) :=
  let* v1 := zget mem (s1 + 1) in
  let* b0 := zget coef (b + 0) in
  let out := nadd A v1 (nmul A b0 inp) in
  let* v2 := zget mem (s2 + 1) in
  let* b1 := zget coef (b + 1) in
  let* a1 := zget coef (a + 1) in
  let* mem := zset mem (s1 + 0) (nsub A (nadd A v2 (nmul A b1 inp)) (nmul A a1 out)) in
  let* b2 := zget coef (b + 2) in
  let* a2 := zget coef (a + 2) in
  let* mem := zset mem (s2 + 0) (nsub A (nmul A b2 inp) (nmul A a2 out)) in
  let* w1 := zget mem (s1 + 0) in
  let* mem := zset mem (s1 + 1) w1 in
  let* w2 := zget mem (s2 + 0) in
  let* mem := zset mem (s2 + 1) w2 in
  Ret (out, mem).

(** eml_iir.h:39-45  EmlIIR; pointers are not NULL. *)
Record iir : Type := mk_iir {
  i_n_stages : Z; i_states : Z; i_states_length : Z; i_coefficients : list num; i_coefficients_length : Z }.

(** eml_iir.h:55-63  eml_iir_check *)
Definition eml_iir_check (f : iir) : res eml_error :=
  if negb (1 <=? i_n_stages f) then Ret EmlUninitialized
  else
    let* n4 := chk_int32 (i_n_stages f * 4) in
    if negb (i_states_length f =? n4) then Ret EmlSizeMismatch
    else
      let* n6 := chk_int32 (i_n_stages f * 6) in
      if negb (i_coefficients_length f =? n6) then Ret EmlSizeMismatch
      else Ret EmlOk.

(** eml_iir.h:76-88  eml_iir_filter *)
Definition eml_iir_filter (f : iir) (mem : list num) (inp : num) : res (num * list num) :=
  foldM (fun '(out, mem) stage =>
      let* c0 := chk_int32 (6 * stage + 0) in
      let* c3 := chk_int32 (6 * stage + 3) in
      let* t0 := chk_int32 (4 * stage + 0) in
      let* t2 := chk_int32 (4 * stage + 2) in
      eml_biquad_tdf2 mem (i_states f + t0) (i_states f + t2) (i_coefficients f) c3 c0 out)
    (inp, mem) (zrange (i_n_stages f)).

(** bindings/eml_signal.cpp:18-51  iirfilter(sos, data): [n_stages] rows, the numbers of the matrix
    row after row in [sos]. EMLPY_CHECK_ERROR throws when the check is not EmlOk. Simplified:
    the vectors have sizes below 2^31. *)
Definition iirfilter_py (sos : list num) (n_stages : Z) (data : list num) : res (list num) :=
  let* coefficients := mapM (fun i => zget sos i) (zrange (6 * n_stages)) in
  let states := repeat (nzero A) (Z.to_nat (4 * n_stages)) in
  let f := mk_iir n_stages 0 (zlen states) coefficients (zlen coefficients) in
  let* e := eml_iir_check f in
  match e with
  | EmlOk =>
    let* (ret, _) := foldM (fun '(ret, mem) x =>
        let* (y, mem) := eml_iir_filter f mem x in Ret (ret ++ [y], mem)) ([], states) data in
    Ret ret
  | _ => Err RuntimeError_
  end.
End Iir.
