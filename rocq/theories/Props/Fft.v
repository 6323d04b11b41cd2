(** FFT: properties C39, C40, C61. *)
From Coq Require Import ZArith List Bool Lia Reals Lra.
From Flocq Require Import Core BinarySingleNaN.
From Verif.Base Require Import Res CInt ListX Loops Float Arith Kernels.
From Verif.Model Require Import Common Fft.
From Verif.Spec Require Import RealSpec FftSpec.
From Verif.Proof Require Import BitRev Fft FftReal.
Import ListNotations.
Open Scope Z_scope.
Open Scope res_scope.

(** ** C39 *)
(** Exact arithmetic: the table filled for n, whatever was in it, makes the transform the DFT.
    Missing: lengths of 2^32 and more. *)
Theorem C39_dft_partial n s0 c0 (xr xi : list R) :
  power_of_two n -> n < 2 ^ 32 -> zlen s0 = n / 2 -> zlen c0 = n / 2 -> zlen xr = n -> zlen xi = n ->
  exists t, eml_fft_fill real_arith real_trig (mk_fft real_arith (n / 2) s0 c0) n = Ret (EmlOk, t) /\
  eml_fft_forward real_arith t (map Fin xr) (map Fin xi) n =
  Ret (EmlOk, map (fun k => Fin (dft_re n xr xi k)) (zrange n), map (fun k => Fin (dft_im n xr xi k)) (zrange n)).
Proof.
  intros (m & Hm & En) B. apply (fft_dft n m); auto. split; auto.
  apply (Z.pow_lt_mono_r_iff 2); lia.
Qed.
(** Any arithmetic, any table of the right size, any contents: no access out of bounds, buffers of the
    same lengths, EmlOk. *)
Theorem C39_in_bounds_partial A n (t : fft A) re im :
  power_of_two n -> n < 2 ^ 32 -> fft_length A t = n / 2 -> zlen (fft_sin A t) = n / 2 -> zlen (fft_cos A t) = n / 2 ->
  zlen re = n -> zlen im = n ->
  exists re' im', eml_fft_forward A t re im n = Ret (EmlOk, re', im') /\ zlen re' = n /\ zlen im' = n.
Proof.
  intros (m & Hm & En) B L Ls Lc Lr Li. destruct t as [tl s c]. cbn [fft_length fft_sin fft_cos] in *.
  assert (0 <= m < 32) by (split; auto; apply (Z.pow_lt_mono_r_iff 2); lia).
  assert (0 < n) by (subst n; apply Z.pow_pos_nonneg; lia).
  rewrite (buf_of (nzero A) s), (buf_of (nzero A) c), (buf_of (nzero A) re), (buf_of (nzero A) im), Ls, Lc, Lr, Li.
  rewrite (forward_ok A n m tl) by auto. cbv zeta. do 2 eexists. split; [reflexivity|]. rewrite !zlen_buf by lia. auto.
Qed.
Theorem C39_refuses_partial A (t : fft A) re im n :
  0 <= n < 2 ^ 32 -> ~ power_of_two n \/ to_uint64 (fft_length A t) <> n / 2 ->
  eml_fft_forward A t re im n = Ret (EmlSizeMismatch, re, im).
Proof. apply forward_refuses. Qed.
Theorem C39_fill A (T : trig A) (t : fft A) n : 0 <= n < 2 ^ 64 ->
  (to_uint64 (fft_length A t) <> n / 2 -> eml_fft_fill A T t n = Ret (EmlSizeMismatch, t)) /\
  (fft_length A t = n / 2 -> zlen (fft_sin A t) = n / 2 -> zlen (fft_cos A t) = n / 2 ->
   exists t', eml_fft_fill A T t n = Ret (EmlOk, t') /\ fft_length A t' = n / 2 /\
     zlen (fft_sin A t') = n / 2 /\ zlen (fft_cos A t') = n / 2).
Proof.
  intros Hn. split.
  - intros N. unfold eml_fft_fill. destruct (Z.eqb_spec (to_uint64 (fft_length A t)) (n / 2)); [contradiction|]. auto.
  - intros E Ls Lc. destruct t as [tl s c]. cbn [fft_length fft_sin fft_cos] in *. rewrite fill_ok by auto.
    eexists. split; [reflexivity|]. cbn [fft_length fft_sin fft_cos].
    assert (0 <= n / 2) by (apply Z.div_pos; lia). rewrite !zlen_buf by lia. auto.
Qed.
(** From 2^32 on every call has undefined behaviour, whatever the buffers: 1U is shifted by 32 or more. *)
Theorem C39_long_refuted A (t : fft A) re im n : 2 ^ 32 <= n < 2 ^ 64 -> eml_fft_forward A t re im n = Err BadShift.
Proof. apply forward_big. Qed.

(** Four points in float32 with the exact table (1, 0), (0, 1): the transform of 1, 2, 3, 4 is
    10, -2 + 2i, -2, -2 - 2i. *)
Definition ff (z : Z) : f32 := f_of_Z z.
Definition is_f (x : f32) (z : Z) : bool := fleb x (ff z) && fleb (ff z) x.
Definition A32 := f32_arith (fun x => x) (fun x => x) (fun x => x).
Example C39_ex : (let* (e, re, im) := eml_fft_forward A32 (mk_fft A32 2 [ff 0; ff 1] [ff 1; ff 0]) (map ff [1;2;3;4]) (map ff [0;0;0;0]) 4 in
  Ret (match e with EmlOk => true | _ => false end, forallb (fun p => is_f (fst p) (snd p)) (combine re [10; -2; -2; -2]),
       forallb (fun p => is_f (fst p) (snd p)) (combine im [0; 2; 0; -2]))) = Ret (true, true, true).
Proof. vm_compute. reflexivity. Qed.
Example C39_ex_hyps : power_of_two 8 /\ ~ power_of_two 6.
Proof.
  split; [exists 3; split; [lia|reflexivity]|]. intros (m & Hm & E).
  destruct (Z_lt_le_dec m 3).
  - assert (m = 0 \/ m = 1 \/ m = 2) as [-> | [-> | ->]] by lia; discriminate.
  - pose proof (Z.pow_le_mono_r 2 3 m ltac:(lia) ltac:(lia)). change (2 ^ 3) with 8 in H. lia.
Qed.

(** ** C40 *)
Theorem C40_reverse levels x : 0 <= levels <= 64 -> reversed levels x (reverse_bits x levels).
Proof. intros; now apply reverse_bits_reversed. Qed.
Theorem C40_involution levels x : 0 <= levels <= 64 -> 0 <= x < 2 ^ levels ->
  0 <= reverse_bits x levels < 2 ^ levels /\ reverse_bits (reverse_bits x levels) levels = x.
Proof. intros H Hx. split; [apply (reverse_bits_reversed x levels H)|now apply reverse_bits_invol]. Qed.
(** The swap loop: entry p afterwards is the entry at the reversed index before, in both buffers. *)
Theorem C40_swap_loop A n levels re im : 0 <= levels <= 64 -> n = 2 ^ levels -> zlen re = n -> zlen im = n ->
  exists re' im', fft_permute A n levels re im = Ret (re', im') /\ zlen re' = n /\ zlen im' = n /\
    forall p q, 0 <= p < n -> reversed levels p q -> zget re' p = zget re q /\ zget im' p = zget im q.
Proof.
  intros H En Lr Li. rewrite (buf_of (nzero A) re), (buf_of (nzero A) im), Lr, Li.
  rewrite (permute_ok A n levels) by auto. assert (0 < n) by (subst n; apply Z.pow_pos_nonneg; lia).
  do 2 eexists. split; [reflexivity|]. rewrite !zlen_buf by lia. split; auto. split; auto.
  intros p q Hp Hq. pose proof (reverse_bits_reversed p levels H) as R.
  assert (reverse_bits p levels = q) as E by (apply (reversed_unique levels p); auto; lia).
  assert (0 <= q < n) by (subst n; apply Hq).
  rewrite !buf_get by lia. rewrite E. auto.
Qed.
Example C40_ex : map (fun x => reverse_bits x 3) [0;1;2;3;4;5;6;7] = [0;4;2;6;1;5;3;7].
Proof. vm_compute. reflexivity. Qed.

(** ** C61 *)
(** rfft of a signal: the real part of its DFT when the length is a power of two, RuntimeError
    otherwise. *)
Theorem C61_rfft (x : list R) : power_of_two (zlen x) -> zlen x < 2 ^ 31 ->
  rfft_py real_arith real_trig (map Fin x) =
  Ret (map (fun k => Fin (rsum (map (fun j => entry x j * cos (theta (zlen x) j k))%R (zrange (zlen x))))) (zrange (zlen x))).
Proof.
  intros (m & Hm & En) B. unfold rfft_py. assert (zlen (map Fin x) = zlen x) as L by (unfold zlen; now rewrite map_length).
  change (num real_arith) with xreal. rewrite L. set (n := zlen x) in *.
  change (2 ^ 31) with 2147483648 in B. assert (0 < n) by (rewrite En; apply Z.pow_pos_nonneg; lia).
  rewrite chk_int32_ok by (unfold int32_ok; lia). cbn [bind]. cbv zeta.
  assert (0 <= n / 2) by (apply Z.div_pos; lia).
  destruct (fft_dft n m (repeat (Fin 0) (Z.to_nat (n / 2))) (repeat (Fin 0) (Z.to_nat (n / 2))) x (repeat 0%R (Z.to_nat n))) as (t & F1 & F2); auto.
  - split; auto. apply (Z.pow_lt_mono_r_iff 2); lia.
  - rewrite zlen_repeat. lia.
  - rewrite zlen_repeat. lia.
  - rewrite zlen_repeat. lia.
  - change (nzero real_arith) with (Fin 0). rewrite F1. cbn [bind].
    assert (map Fin (repeat 0%R (Z.to_nat n)) = repeat (Fin 0) (Z.to_nat n)) as R by (generalize (Z.to_nat n); intros k; induction k as [|k IH]; [reflexivity|cbn [repeat map]; now rewrite IH]).
    rewrite <- R. rewrite F2. cbn [bind]. f_equal. apply map_ext_in. intros k Hk. f_equal. unfold dft_re. f_equal.
    apply map_ext_in. intros j Hj. apply Res.zrange_In in Hj.
    assert (entry (repeat 0%R (Z.to_nat n)) j = 0%R) as ->; [|ring]. unfold entry.
    apply nth_repeat.
Qed.
Theorem C61_raises A (T : trig A) (x : list (num A)) : ~ power_of_two (zlen x) -> zlen x < 2 ^ 31 ->
  rfft_py A T x = Err RuntimeError_.
Proof.
  intros N B. unfold rfft_py. pose proof (zlen_nonneg x). change (2 ^ 31) with 2147483648 in B.
  rewrite chk_int32_ok by (unfold int32_ok; lia). cbn [bind]. cbv zeta.
  assert (0 <= zlen x / 2) by (apply Z.div_pos; lia).
  rewrite fill_ok; auto; try (rewrite zlen_repeat; lia).
  - cbn [bind]. rewrite forward_refuses; auto. change (2 ^ 32) with 4294967296. lia.
  - change (2 ^ 64) with 18446744073709551616. lia.
Qed.
Example C61_ex : power_of_two (zlen [1%R; 2%R; 3%R; 4%R]) /\ ~ power_of_two (zlen [1%R; 2%R; 3%R; 4%R; 5%R; 6%R]).
Proof. split; [exists 2; split; [lia|reflexivity]|]. apply C39_ex_hyps. Qed.
