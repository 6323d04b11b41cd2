(** C96: the pseudo-random benchmark data. *)
From Coq Require Import ZArith List Bool Lia Reals.
From Flocq Require Import Core BinarySingleNaN.
From Verif.Base Require Import Res CInt ListX Loops Float Kernels.
From Verif.Model Require Import Common Benchmark.
From Verif.Proof Require Benchmark.
Import ListNotations.
Open Scope Z_scope.

(** One call: multiplication by 48271 modulo the prime 2^31-1, although only 32-bit unsigned arithmetic
    is used; states stay in 1..2^31-2. *)
Theorem C96_step : forall x, 1 <= x <= 2147483646 ->
  eml_lcg_parkmiller x = (48271 * x) mod 2147483647 /\ 1 <= eml_lcg_parkmiller x <= 2147483646.
Proof.
  intros x Hx. rewrite Benchmark.lcg_ok by lia. split; [reflexivity|].
  pose proof (Z.mod_pos_bound (48271 * x) 2147483647 ltac:(lia)).
  destruct (Z.eq_dec ((48271 * x) mod 2147483647) 0) as [Q|Q]; [exfalso|lia].
  apply Znumtheory.Zmod_divide in Q; [|lia]. apply Znumtheory.Gauss in Q.
  - apply Z.divide_pos_le in Q; lia.
  - apply Znumtheory.Zgcd_1_rel_prime. vm_compute. reflexivity.
Qed.
Example C96_step_instance : eml_lcg_parkmiller 2147483646 = 2147435376. Proof. vm_compute. reflexivity. Qed.

(** From state 1, all 2^31-2 states are different, and then the first one comes again. *)
Theorem C96_period : forall i j,
  0 <= i < 2147483646 -> 0 <= j < 2147483646 -> i <> j ->
  Nat.iter (Z.to_nat i) eml_lcg_parkmiller 1 <> Nat.iter (Z.to_nat j) eml_lcg_parkmiller 1.
Proof.
  intros i j Hi Hj N E. rewrite !Benchmark.iter_pw, !Z2Nat.id in E by lia.
  apply N. apply Benchmark.pw_inj; [lia|lia|exact E].
Qed.
Theorem C96_returns : forall i, 0 <= i ->
  Nat.iter (Z.to_nat (i + 2147483646)) eml_lcg_parkmiller 1 = Nat.iter (Z.to_nat i) eml_lcg_parkmiller 1.
Proof.
  intros i Hi. rewrite !Benchmark.iter_pw, !Z2Nat.id by lia.
  rewrite Benchmark.pw_add by lia. change 2147483646 with (2147483647 - 1). rewrite Benchmark.pw_full, Z.mul_1_r.
  apply Z.mod_small. apply Benchmark.pw_range.
Qed.

(** Filling writes exactly the first [n] elements, value i being the nearest float32 to
    48271^(i+1) mod (2^31-1), and leaves the rest of the buffer alone. *)
Theorem C96_fill : forall (values : list f32) n, 0 <= n <= zlen values ->
  exists out, eml_benchmark_fill values n = Ret (EmlOk, out) /\ zlen out = zlen values /\
    (forall i, 0 <= i < n -> zget out i = Ret (f_of_Z (48271 ^ (i + 1) mod 2147483647))) /\
    (forall i, n <= i -> zget out i = zget values i).
Proof.
  intros values n Hn. eexists. split; [apply Benchmark.fill_ok; exact Hn|].
  pose proof (zlen_zrange' n) as Zr.
  assert (L : zlen (map (fun i => f_of_Z (Benchmark.pw (i + 1)) : f32) (zrange n)) = n) by (rewrite zlen_map; lia).
  assert (L2 : zlen (skipn (Z.to_nat n) values) = zlen values - n).
  { unfold zlen in *. rewrite skipn_length. lia. }
  split; [|split].
  - rewrite zlen_app, L. unfold zlen in *. rewrite skipn_length. lia.
  - intros i Hi. rewrite zget_app_l by lia. rewrite zget_map, zget_zrange' by lia. reflexivity.
  - intros i Hi. rewrite zget_app_r by lia. rewrite L, zget_skipn by lia. f_equal. lia.
Qed.
(** No value is infinite or NaN, whatever the number of features. *)
Theorem C96_finite : forall (values : list f32) n out i x, 0 <= n <= zlen values ->
  eml_benchmark_fill values n = Ret (EmlOk, out) -> 0 <= i < n -> zget out i = Ret x ->
  is_finite x = true /\ (0 < B2R x <= 2147483648)%R.
Proof.
  intros values n out i x Hn E Hi Hx. destruct (C96_fill values n Hn) as (o & E' & _ & H1 & _).
  rewrite E in E'. injection E' as <-. rewrite (H1 i Hi) in Hx. injection Hx as <-.
  apply Benchmark.f_of_state. pose proof (Benchmark.pw_pos (i + 1) ltac:(lia)). pose proof (Benchmark.pw_range (i + 1)).
  unfold Benchmark.pw in *. lia.
Qed.
Example C96_instance : exists out, eml_benchmark_fill [f_of_Z 7; f_of_Z 8; f_of_Z 9] 2 = Ret (EmlOk, out) /\
  zget out 1 = Ret (f_of_Z 182605794) /\ zget out 2 = Ret (f_of_Z 9).
Proof.
  destruct (C96_fill [f_of_Z 7; f_of_Z 8; f_of_Z 9] 2) as (out & E & _ & H1 & H2); [vm_compute; split; discriminate|].
  exists out. split; [exact E|]. split.
  - rewrite H1 by lia. change (48271 ^ (1 + 1) mod 2147483647) with 182605794. reflexivity.
  - rewrite H2 by lia. reflexivity.
Qed.
