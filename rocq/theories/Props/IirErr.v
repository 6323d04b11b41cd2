(** IIR filters in float32: properties C137 and C138. *)
From Coq Require Import ZArith List Bool Lia Reals Lra.
From Flocq Require Import Core BinarySingleNaN.
From Coquelicot Require Import Complex.
From Verif.Base Require Import Res CInt ListX Loops Float Arith Kernels.
From Verif.Model Require Import Common Iir.
From Verif.Spec Require Import IirSpec RoundingSpec IirErrSpec.
From Verif.Proof Require Import Iir FloatErr IirErr IirStable.
From Verif.Props Require Import Iir.
Import ListNotations.
Open Scope R_scope.

(** ** C137 *)
(** However long the stream is: every output is finite, and within the same distance of the cascade of difference
    equations with the stored coefficients. *)
Theorem C137_accurate ef lf tf (ss : list (sos f32)) (Gs : list R) X off (mem : list f32) (xs : list f32) y :
  let A := f32_arith ef lf tf in
  (6 * zlen ss < 2 ^ 31)%Z -> region_ok A mem off (zlen ss) ->
  (forall i, (off <= i < off + 4 * zlen ss)%Z -> zget mem i = Ret fzero) ->
  Forall (fun s => Forall (fun c => is_finite c = true) (sos_list s)) ss ->
  length Gs = length ss -> 0 <= X -> cascade_fits (combine (map (sos_map B2R) ss) Gs) X 0 ->
  Forall (fun v => is_finite v = true /\ Rabs (B2R v) <= X) xs -> cascade (map (sos_map B2R) ss) (map B2R xs) y ->
  exists ys mem', feed A (filter_of A ss off) mem xs = Ret (ys, mem') /\
    Forall2 (fun a b => is_finite a = true /\ Rabs (B2R a - b) <= cascade_err (combine (map (sos_map B2R) ss) Gs) X 0) ys y.
Proof. intros A. apply filter32. Qed.
(** Through the Python binding. *)
Theorem C137_binding ef lf tf (ss : list (sos f32)) (Gs : list R) X (xs : list f32) y :
  let A := f32_arith ef lf tf in
  (1 <= zlen ss)%Z -> (6 * zlen ss < 2 ^ 31)%Z ->
  Forall (fun s => Forall (fun c => is_finite c = true) (sos_list s)) ss ->
  length Gs = length ss -> 0 <= X -> cascade_fits (combine (map (sos_map B2R) ss) Gs) X 0 ->
  Forall (fun v => is_finite v = true /\ Rabs (B2R v) <= X) xs -> cascade (map (sos_map B2R) ss) (map B2R xs) y ->
  exists ys, iirfilter_py A (flat_map sos_list ss) (zlen ss) xs = Ret ys /\
    Forall2 (fun a b => is_finite a = true /\ Rabs (B2R a - b) <= cascade_err (combine (map (sos_map B2R) ss) Gs) X 0) ys y.
Proof.
  intros A L1 L2 FS LG X0 CF FX CA. destruct (C57_iirfilter_partial A ss xs L1 L2) as (ys & mem' & E1 & E2).
  set (mem := repeat (nzero A) (Z.to_nat (4 * zlen ss))) in *.
  assert (LM : zlen mem = (4 * zlen ss)%Z) by (unfold mem, zlen at 1; rewrite repeat_length; lia).
  destruct (C137_accurate ef lf tf ss Gs X 0 mem xs y L2) as (ys' & m' & E3 & K); auto.
  - split; [lia|]. rewrite Z.add_0_l. apply Z.eq_le_incl. symmetry. exact LM.
  - intros i Hi. assert (Hi' : (0 <= i < zlen mem)%Z) by (rewrite LM; lia). destruct (zget_ok mem i Hi') as [v Ev]. assert (Iv : In v mem) by exact (zget_In mem i v Ev).
    unfold mem in Iv. apply repeat_spec in Iv. etransitivity; [exact Ev|]. f_equal. exact Iv.
  - fold A in E3. assert (EQ : Ret (ys, mem') = Ret (ys', m')) by (rewrite <- E2; exact E3). injection EQ as -> _. exists ys'. auto.
Qed.

(** ** C138 *)
(** A section keeps bounded signals bounded exactly when both poles are inside the unit circle; then its gain is at most
    1 / ((1 - |p1|) (1 - |p2|)). *)
Theorem C138_stable_iff s p1 p2 : poles s p1 p2 -> (stable s <-> Cmod p1 < 1 /\ Cmod p2 < 1).
Proof. apply stable_iff. Qed.
Theorem C138_gain s p1 p2 : poles s p1 p2 -> Cmod p1 < 1 -> Cmod p2 < 1 -> gain s (/ ((1 - Cmod p1) * (1 - Cmod p2))).
Proof. apply poles_gain. Qed.
(** Every section has its two poles. *)
Theorem C138_poles_exist s : exists p1 p2, poles s p1 p2.
Proof. apply poles_exist. Qed.
(** The outputs of a stable section are at most G (|b0| + |b1| + |b2|) times larger than its inputs. *)
Theorem C138_output s G X x y : gain s G -> 0 <= X -> Forall (fun v => Rabs v <= X) x -> section_of s x y ->
  Forall (fun v => Rabs v <= G * (b_sum s * X)) y.
Proof. apply section_bound. Qed.

(** The program in exact arithmetic, one all-pole section: bounded inputs give bounded outputs exactly when both poles
    are inside the unit circle. *)
Theorem C138_program c1 c2 p1 p2 : poles (mk_sos 1 0 0 1 c1 c2) p1 p2 ->
  ((exists M, forall xs, Forall (fun x => Rabs x <= 1) xs -> exists ys,
      iirfilter_py real_arith [Fin 1; Fin 0; Fin 0; Fin 1; Fin c1; Fin c2] 1 (map Fin xs) = Ret (map Fin ys) /\ Forall (fun y => Rabs y <= M) ys) <->
   Cmod p1 < 1 /\ Cmod p2 < 1).
Proof.
  intros P. rewrite <- (C138_stable_iff _ _ _ P). set (s := mk_sos 1 0 0 1 c1 c2) in *.
  assert (RUN : forall xs, exists ys, iirfilter_py real_arith [Fin 1; Fin 0; Fin 0; Fin 1; Fin c1; Fin c2] 1 (map Fin xs) = Ret (map Fin ys) /\ cascade [s] xs ys).
  { intros xs. exact (C57_iirfilter_exact_partial [s] xs ltac:(vm_compute; discriminate) ltac:(vm_compute; reflexivity)). }
  split.
  - intros [M H]. exists (Rmax M 0). apply gain_scale. intros w u Su Fw. destruct (H w Fw) as (ys & E & B). destruct (RUN w) as (ys' & E' & Cy).
    assert (EQ : ys = ys').
    { assert (Q : Ret (map Fin ys) = Ret (map Fin ys')) by (rewrite <- E; exact E'). injection Q as Q. clear - Q. revert ys' Q.
      induction ys as [|y ys IH]; intros [|y' ys'] Q; cbn [map] in Q; try discriminate; [reflexivity|]. injection Q as -> Q. f_equal. auto. }
    assert (EU : u = ys') by (apply (cascade_unique [s] w); [exists u; split; [exact Su|reflexivity]|exact Cy]). rewrite EU, <- EQ. exact B.
  - intros [G HG]. exists (G * 1). intros xs Fx. destruct (RUN xs) as (ys & E & z & Sz & Ez). cbn [cascade] in Ez. subst ys. exists z. split; [exact E|].
    exact (HG xs z 1 Sz Fx).
Qed.

(** *** A low-pass filter: b = 1/4, 1/2, 1/4, a1 = -1/2, a2 = 1/4; poles (1 +- i sqrt 3)/4 of modulus 1/2. *)
Definition quarter : f32 := fdiv (fz 1) (fz 4).
Definition half : f32 := fdiv (fz 1) (fz 2).
Definition low : sos f32 := mk_sos quarter half quarter (fz 1) (Bopp half) quarter.
Lemma B2R_quarter : B2R quarter = / 4.
Proof. rewrite <- SF2R_B2SF. replace (B2SF quarter) with (SpecFloat.S754_finite false 8388608 (-25)) by (vm_compute; reflexivity). unfold SF2R, F2R. cbn [cond_Zopp Fnum Fexp]. change (bpow radix2 (-25)) with (/ 33554432). lra. Qed.
Lemma B2R_half : B2R half = / 2.
Proof. rewrite <- SF2R_B2SF. replace (B2SF half) with (SpecFloat.S754_finite false 8388608 (-24)) by (vm_compute; reflexivity). unfold SF2R, F2R. cbn [cond_Zopp Fnum Fexp]. change (bpow radix2 (-24)) with (/ 16777216). lra. Qed.
Definition low_r : sos R := mk_sos (/ 4) (/ 2) (/ 4) 1 (- / 2) (/ 4).
Lemma low_map : sos_map B2R low = low_r.
Proof.
  unfold sos_map, low, low_r. cbn [b0 b1 b2 a0 a1 a2]. rewrite B2R_Bopp, B2R_quarter, B2R_half. f_equal.
  apply (f_of_Z_exact 1). vm_compute. discriminate.
Qed.
Definition pole : C := (/ 4, sqrt 3 / 4).
Lemma low_poles : poles low_r pole (Cconj pole) /\ Cmod pole = / 2 /\ Cmod (Cconj pole) = / 2.
Proof.
  assert (S3 : sqrt 3 * sqrt 3 = 3) by (apply sqrt_sqrt; lra).
  assert (M : Cmod pole = / 2).
  { unfold Cmod, pole. cbn [fst snd]. replace ((/ 4) ^ 2 + (sqrt 3 / 4) ^ 2) with ((/ 2) * (/ 2)); [apply sqrt_square; lra|].
    replace ((sqrt 3 / 4) ^ 2) with (sqrt 3 * sqrt 3 / 16) by field. rewrite S3. field. }
  split; [|split; [exact M|]].
  - unfold poles, pole, Cconj, Cplus, Cmult, RtoC, low_r. cbn [fst snd a1 a2]. split; f_equal; try field.
    replace (/ 4 * / 4 - sqrt 3 / 4 * - (sqrt 3 / 4)) with (/ 16 + sqrt 3 * sqrt 3 / 16) by field. rewrite S3. field.
  - unfold Cmod, Cconj. rewrite <- M. unfold Cmod. cbn [fst snd]. f_equal. ring.
Qed.
Lemma low_gain : gain low_r 4.
Proof.
  destruct low_poles as (P & M1 & M2). replace 4 with (/ ((1 - Cmod pole) * (1 - Cmod (Cconj pole)))) by (rewrite M1, M2; field).
  apply C138_gain; auto; lra.
Qed.
Example C138_ex : stable low_r /\ ~ stable (mk_sos 1 0 0 1 (-2) 0).
Proof.
  split; [exists 4; exact low_gain|]. intros H. assert (P : poles (mk_sos 1 0 0 1 (-2) 0) (RtoC 2) (RtoC 0)).
  { unfold poles, Cplus, Cmult, RtoC. cbn [fst snd a1 a2]. split; f_equal; ring. }
  apply (C138_stable_iff _ _ _ P) in H as [H _]. rewrite Cmod_R, Rabs_pos_eq in H by lra. lra.
Qed.
(** Twice this filter, samples up to 100: the error stays below 1/20 forever. *)
Lemma low_sums : b_sum low_r = 1 /\ a_sum low_r = 3 / 4.
Proof. unfold b_sum, a_sum, low_r. cbn [b0 b1 b2 a1 a2]. rewrite Rabs_Ropp. rewrite !Rabs_pos_eq by lra. lra. Qed.
Lemma tiny_le : 0 < tiny32 <= / 1000.
Proof.
  split; [apply tiny32_pos|]. unfold tiny32. apply Rle_trans with (bpow radix2 (-10)); [apply bpow_le; lia|]. change (bpow radix2 (-10)) with (/ 1024). lra.
Qed.
Lemma big96 : 1000000 <= bpow radix2 96.
Proof. apply Rle_trans with (bpow radix2 20); [change (bpow radix2 20) with 1048576; lra|apply bpow_le; lia]. Qed.
Example C137_ex_hyps : Forall (fun s => Forall (fun c => is_finite c = true) (sos_list s)) [low; low] /\
  cascade_fits (combine (map (sos_map B2R) [low; low]) [4; 4]) 100 0 /\ cascade_err (combine (map (sos_map B2R) [low; low]) [4; 4]) 100 0 <= / 20.
Proof.
  split. { assert (F : Forall (fun c => is_finite c = true) (sos_list low)) by (repeat constructor; vm_compute; reflexivity). repeat constructor; exact F. }
  cbn [map]. rewrite low_map. cbn [combine cascade_fits cascade_err]. unfold section_fits, section_err. destruct low_sums as [-> ->].
  pose proof tiny_le. pose proof big96. generalize dependent tiny32. intros t T.
  repeat split; try exact low_gain; try lra.
Qed.
(** An impulse of 64 through both. *)
Example C137_ex ef lf tf : let A := f32_arith ef lf tf in
  (let* ys := iirfilter_py A (flat_map sos_list [low; low]) 2 [fz 64; fz 0; fz 0; fz 0] in
   Ret (map (fun '(y, z) => fval y z) (combine ys [4; 20; 41; 43])%Z))%res = Ret [true; true; true; true].
Proof. vm_compute. reflexivity. Qed.
(** Without stability: with a1 = -2 the response to an impulse is infinite after 129 samples. *)
Example C137_ex_unstable ef lf tf : let A := f32_arith ef lf tf in
  (let* ys := iirfilter_py A [fz 1; fz 0; fz 0; fz 1; fz (-2); fz 0] 1 (fz 1 :: repeat (fz 0) 128) in
   Ret (forallb is_finite (firstn 128 ys), is_finite (last ys (fz 0))))%res = Ret (true, false).
Proof. vm_compute. reflexivity. Qed.
