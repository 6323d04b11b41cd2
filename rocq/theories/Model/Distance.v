(** Model of eml_distance.h and distance.py, over an arbitrary number system [A]. *)
From Coq Require Import ZArith List Bool.
From Verif.Base Require Import Res CInt Arith.
From Verif.Model Require Import Common.
Import ListNotations.
Open Scope Z_scope.
Open Scope res_scope.

Section Distance.
Context (A : arith).
Notation num := (num A).

(** eml_distance.h:22-37  eml_mahalanobis_distance_squared *)
Definition eml_mahalanobis_distance_squared (x1 x2 precision : list num) (n_features : Z) : res num :=
  foldM (fun distance i =>
      let* accumulate := foldM (fun acc j =>
          let* k := chk_int32 (j * n_features) in
          let* k := chk_int32 (k + i) in
          let* p := zget precision k in
          let* a := zget x1 j in
          let* b := zget x2 j in
          Ret (nadd A acc (nmul A p (nsub A a b)))) (nzero A) (zrange n_features) in
      let* a := zget x1 i in
      let* b := zget x2 i in
      Ret (nadd A distance (nmul A accumulate (nsub A a b)))) (nzero A) (zrange n_features).

(** eml_distance.h:44-49  EmlEllipticEnvelope *)
Record envelope : Type := mk_envelope {
  e_n_features : Z; e_decision_boundary : num; e_means : list num; e_precision : list num }.

(** eml_distance.h:62-82  eml_elliptic_envelope_predict; the answer and what is stored in *out_dist
    ([None]: nothing). EML_PRECONDITION returns the error code as an int. *)
Definition eml_elliptic_envelope_predict (self : envelope) (features : list num) (n_features : Z) : res (Z * option num) :=
  if negb (n_features =? e_n_features self) then Ret (eml_error_code EmlSizeMismatch, None)
  else
    let* dist := eml_mahalanobis_distance_squared features (e_means self) (e_precision self) n_features in
    let dist_from_boundary := nsub A (nneg A dist) (e_decision_boundary self) in
    let outlier := if nltb A dist_from_boundary (nzero A) then 1 else 0 in
    Ret (outlier, Some dist).

(** distance.py:15-41  squared_mahalanobis_distance; the matrix is a list of rows. *)
Definition squared_mahalanobis_distance (x1 x2 : list num) (precision : list (list num)) : res num :=
  let size := zlen x1 in
  do* py_assert (zlen x1 =? zlen x2);
  do* py_assert (forallb (fun r => zlen precision =? zlen r) precision);
  do* py_assert (size =? zlen precision);
  foldM (fun distance i =>
      let* accumulate := foldM (fun acc j =>
          let* row := pyget precision i in
          let* p := pyget row j in
          let* a := pyget x1 j in
          let* b := pyget x2 j in
          Ret (nadd A acc (nmul A p (nsub A a b)))) (nzero A) (zrange size) in
      let* a := pyget x1 i in
      let* b := pyget x2 i in
      Ret (nadd A distance (nmul A accumulate (nsub A a b)))) (nzero A) (zrange size).

(** distance.py:43-92  generate_code: the constants of the generated C program. Simplified: numbers
    are not turned into text and back. *)
Definition generate_code (means : list num) (precision : list (list num)) (offset : num) : envelope :=
  mk_envelope (zlen means) offset means (List.concat precision).
(** distance.py:81-87  the generated C function {name}_predict *)
Definition generated_predict (self : envelope) (features : list num) (n_features : Z) : res num :=
  let* (_, o) := eml_elliptic_envelope_predict self features n_features in
  Ret (match o with Some d => d | None => nzero A end).

(** distance.py:96-102  what Wrapper.__init__ keeps: the fitted numbers, and the compiled program. *)
Record wrapper : Type := mk_wrapper { w_means : list num; w_precision : list (list num); w_offset : num; w_code : envelope }.
Definition make_wrapper (means : list num) (precision : list (list num)) (offset : num) : wrapper :=
  mk_wrapper means precision offset (generate_code means precision offset).
(** distance.py:112-118  Wrapper.mahalanobis: the distances are first calculated in Python and thrown away, then by the
    compiled program. Simplified: rows and results are not turned into text and back (see Model/DistanceRun.v). *)
Definition wrapper_mahalanobis (self : wrapper) (X : list (list num)) : res (list num) :=
  let* _ := mapM (fun x => squared_mahalanobis_distance x (w_means self) (w_precision self)) X in
  mapM (fun x => generated_predict (w_code self) x (zlen x)) X.
(** distance.py:120-122  Wrapper.score_samples *)
Definition wrapper_score_samples (self : wrapper) (X : list (list num)) : res (list num) :=
  let* d := wrapper_mahalanobis self X in Ret (map (nneg A) d).
(** distance.py:124-133  Wrapper.predict: 1 inlier, -1 outlier. *)
Definition wrapper_predict (self : wrapper) (X : list (list num)) : res (list Z) :=
  let* ds := wrapper_mahalanobis self X in
  Ret (map (fun d => let dd := nsub A (nneg A d) (w_offset self) in
                     if nltb A (nzero A) dd then 1 else -1) ds).
End Distance.
