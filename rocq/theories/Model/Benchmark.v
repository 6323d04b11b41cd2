(** Model of eml_benchmark.h (the pseudo-random test data; the clocks are not modelled). *)
From Coq Require Import ZArith List Bool.
From Verif.Base Require Import Res CInt Float.
From Verif.Model Require Import Common.
Import ListNotations.
Open Scope Z_scope.
Open Scope res_scope.

(** eml_benchmark.h:55-66  eml_lcg_parkmiller: the new state, which is also the result. All arithmetic
    is in uint32_t, modulo 2^32. *)
Definition eml_lcg_parkmiller (state : Z) : Z :=
  let N := 2147483647 in
  let G := 48271 in
  let div := state / (N / G) in
  let rem := state mod (N / G) in
  let a := to_uint32 (rem * G) in
  let b := to_uint32 (div * (N mod G)) in
  if b <? a then to_uint32 (a - b) else to_uint32 (a + to_uint32 (N - b)).

(** eml_benchmark.h:68-76  eml_benchmark_fill: the buffer holds [values]. *)
Definition eml_benchmark_fill (values : list f32) (features : Z) : res (eml_error * list f32) :=
  let* (values, rng_state) := foldM (fun '(values, rng_state) i =>
      let rng_state := eml_lcg_parkmiller rng_state in
      let* values := zset values i (f_of_Z rng_state) in
      Ret (values, rng_state)) (values, 1) (zrange features) in
  Ret (EmlOk, values).
