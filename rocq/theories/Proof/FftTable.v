(** FFT: the table the C code fills in float32 and double, and the rfft binding. *)
From Coq Require Import ZArith QArith List Bool Lia Reals Lra Qreals.
From Flocq Require Import Core BinarySingleNaN.
From Flocq.Prop Require Import Relative.
From Verif.Base Require Import Res CInt ListX Loops Float FloatOrder Arith Kernels RealSum.
From Verif.Model Require Import Common Fft.
From Verif.Spec Require Import RealSpec RoundingSpec FftSpec.
From Verif.Proof Require Import FloatMean FloatErr Log2Pi Libm Fft FftReal FftErr.
From Verif.Proof Require TreesRunTop.
Import ListNotations.
Open Scope R_scope.
Open Scope res_scope.

(** ** Rounding to double *)
Notation u50 := (/ 1125899906842624).
Notation rnd64 := (round radix2 (SpecFloat.fexp 53 1024) ZnearestE).
Lemma rnd64_close x : Rabs (rnd64 x - x) <= u50 * (Rabs x + 1).
Proof.
  destruct (@error_N_FLT radix2 (SpecFloat.emin 53 1024) 53 eq_refl (fun x => negb (Z.even x)) x) as (eps & eta & E1 & E2 & _ & E).
  change (round radix2 (FLT_exp (SpecFloat.emin 53 1024) 53) (Znearest (fun x => negb (Z.even x))) x) with (rnd64 x) in E.
  rewrite E. replace (x * (1 + eps) + eta - x) with (x * eps + eta) by ring. eapply Rle_trans; [apply Rabs_triang|]. rewrite Rabs_mult.
  assert (E1' : Rabs eps <= u50).
  { eapply Rle_trans; [exact E1|]. change u50 with (bpow radix2 (-50)). change (/ 2) with (bpow radix2 (-1)). rewrite <- bpow_plus. apply bpow_le. lia. }
  assert (E2' : Rabs eta <= u50).
  { eapply Rle_trans; [exact E2|]. change u50 with (bpow radix2 (-50)). change (/ 2) with (bpow radix2 (-1)). rewrite <- bpow_plus. apply bpow_le. vm_compute. discriminate. }
  pose proof (Rmult_le_compat_l (Rabs x) _ _ (Rabs_pos x) E1'). lra.
Qed.

Lemma M_PI_close : is_finite M_PI = true /\ Rabs (B2R M_PI - PI) <= / 1000000000000000.
Proof.
  split; [vm_compute; reflexivity|].
  assert (V : B2R M_PI = 7074237752028440 / 2251799813685248).
  { rewrite <- SF2R_B2SF. replace (B2SF M_PI) with (SpecFloat.S754_finite false 7074237752028440 (-51)) by (vm_compute; reflexivity).
    unfold SF2R, F2R. cbn [cond_Zopp Fnum Fexp]. change (bpow radix2 (-51)) with (/ 2251799813685248). reflexivity. }
  rewrite V. destruct (pi_bounds 7) as [PL PU].
  pose proof (Qle_R _ _ check_pl) as L. pose proof (Qle_R _ _ check_ph) as U.
  assert (L' : Q2R pi_lo = 7853981633974482997 / 10000000000000000000) by (unfold Q2R, pi_lo; cbn [Qnum Qden]; reflexivity).
  assert (U' : Q2R pi_hi = 7853981633974484042 / 10000000000000000000) by (unfold Q2R, pi_hi; cbn [Qnum Qden]; reflexivity).
  rewrite L' in L. rewrite U' in U.
  generalize dependent (Q2R (machin_sum (S (2 * 7)))). generalize dependent (Q2R (machin_sum (2 * 7))). clear V L' U'. intros a PU U b PL L.
  apply Rabs_le. split; lra.
Qed.
Lemma PI_le4 : 3 <= PI <= 32 / 10.
Proof. destruct M_PI_close as [_ H]. destruct (pi_bounds 1) as [L U]. clear L U. pose proof PI_RGT_0. pose proof PI_4.
  destruct (pi_bounds 7) as [PL PU]. pose proof (Qle_R _ _ check_pl) as L. pose proof (Qle_R _ _ check_ph) as U.
  assert (L' : Q2R pi_lo = 7853981633974482997 / 10000000000000000000) by (unfold Q2R, pi_lo; cbn [Qnum Qden]; reflexivity).
  assert (U' : Q2R pi_hi = 7853981633974484042 / 10000000000000000000) by (unfold Q2R, pi_hi; cbn [Qnum Qden]; reflexivity).
  rewrite L' in L. rewrite U' in U.
  generalize dependent (Q2R (machin_sum (S (2 * 7)))). generalize dependent (Q2R (machin_sum (2 * 7))). intros a PU U b PL L. lra.
Qed.

(** 2 * M_PI * i / n in double, for counts up to 2^31. *)
Definition dturn (i n : Z) : f64 := fdiv (fmul (fmul (f_of_Z 2) M_PI) (f_of_Z i)) (f_of_Z n).
Lemma IZR_P53 : IZR (2 ^ 53) = 9007199254740992.
Proof. reflexivity. Qed.
Lemma dturn_close i n : (0 <= i <= n)%Z -> (1 <= n <= 2147483648)%Z ->
  is_finite (dturn i n) = true /\ Rabs (B2R (dturn i n) - 2 * PI * IZR i / IZR n) <= / 1000000000000.
Proof.
  intros Hi Hn. unfold dturn. pose proof M_PI_close as [FP DP]. pose proof PI_le4 as P4. apply Rabs_le_inv in DP.
  assert (Bi : (Z.abs i <= 2 ^ 53)%Z) by (change (2 ^ 53)%Z with 9007199254740992%Z; lia).
  assert (Bn : (Z.abs n <= 2 ^ 53)%Z) by (change (2 ^ 53)%Z with 9007199254740992%Z; lia).
  destruct (f_of_Z_exact (prec := 53) (emax := 1024) 2 ltac:(vm_compute; discriminate)) as [V2 F2].
  destruct (f_of_Z_exact (prec := 53) (emax := 1024) i Bi) as [Vi Fi].
  destruct (f_of_Z_exact (prec := 53) (emax := 1024) n Bn) as [Vn Fn].
  change (B2R (f_of_Z 2 : f64) = IZR 2) in V2. change (B2R (f_of_Z i : f64) = IZR i) in Vi. change (B2R (f_of_Z n : f64) = IZR n) in Vn.
  assert (I0 : 0 <= IZR i) by (apply IZR_le; lia). assert (IN : IZR i <= IZR n) by (apply IZR_le; lia).
  assert (N1 : 1 <= IZR n) by (apply IZR_le; lia). assert (N31 : IZR n <= 2147483648) by (apply IZR_le; lia).
  (* 2 * M_PI *)
  destruct (fmul_correct (prec := 53) (emax := 1024) (f_of_Z 2) M_PI F2 FP) as [V1 F1].
  { rewrite V2, IZR_P53. rewrite Rabs_pos_eq; lra. }
  change (B2R (fmul (f_of_Z 2) M_PI : f64) = rnd64 (B2R (f_of_Z 2 : f64) * B2R M_PI)) in V1. rewrite V2 in V1.
  pose proof (rnd64_close (IZR 2 * B2R M_PI)) as R1. rewrite <- V1 in R1. rewrite (Rabs_pos_eq (IZR 2 * _)) in R1 by lra. apply Rabs_le_inv in R1.
  set (a1 := fmul (f_of_Z 2) M_PI : f64) in *. clearbody a1. clear V1.
  assert (D1 : - / 100000000000000 <= B2R a1 - 2 * PI <= / 100000000000000) by lra. clear R1 DP.
  (* * i *)
  assert (P1 : 0 <= B2R a1 * IZR i <= 7 * IZR n) by (split; [apply Rmult_le_pos; lra|apply Rmult_le_compat; lra]).
  destruct (fmul_correct (prec := 53) (emax := 1024) a1 (f_of_Z i) F1 Fi) as [V3 F3].
  { rewrite Vi, IZR_P53. rewrite Rabs_pos_eq; lra. }
  change (B2R (fmul a1 (f_of_Z i) : f64) = rnd64 (B2R a1 * B2R (f_of_Z i : f64))) in V3. rewrite Vi in V3.
  pose proof (rnd64_close (B2R a1 * IZR i)) as R3. rewrite <- V3 in R3. rewrite (Rabs_pos_eq (B2R a1 * IZR i)) in R3 by lra. apply Rabs_le_inv in R3.
  set (a3 := fmul a1 (f_of_Z i) : f64) in *. clearbody a3. clear V3.
  assert (D3 : - (IZR n * / 10000000000000) <= B2R a3 - 2 * PI * IZR i <= IZR n * / 10000000000000).
  { assert (- (/ 100000000000000 * IZR n) <= (B2R a1 - 2 * PI) * IZR i <= / 100000000000000 * IZR n) by (split; nra). lra. }
  clear R3 D1.
  (* / n *)
  assert (Q : B2R a3 / IZR n - 2 * PI * IZR i / IZR n = (B2R a3 - 2 * PI * IZR i) / IZR n) by (field; lra).
  assert (D4 : - / 10000000000000 <= B2R a3 / IZR n - 2 * PI * IZR i / IZR n <= / 10000000000000).
  { rewrite Q. split.
    - apply Rmult_le_reg_r with (IZR n); [lra|]. unfold Rdiv. rewrite Rmult_assoc, Rinv_l by lra. lra.
    - apply Rmult_le_reg_r with (IZR n); [lra|]. unfold Rdiv. rewrite Rmult_assoc, Rinv_l by lra. lra. }
  assert (B4 : 0 <= 2 * PI * IZR i / IZR n <= 2 * PI).
  { assert (P2 : 0 <= 2 * PI * IZR i) by (apply Rmult_le_pos; lra). split; [apply Rmult_le_pos; [exact P2|left; apply Rinv_0_lt_compat; lra]|].
    apply Rmult_le_reg_r with (IZR n); [lra|]. unfold Rdiv. rewrite Rmult_assoc, Rinv_l by lra. rewrite Rmult_1_r. apply Rmult_le_compat_l; lra. }
  destruct (fdiv_correct (prec := 53) (emax := 1024) a3 (f_of_Z n) F3) as [V5 F5].
  { rewrite Vn. lra. }
  { rewrite Vn, IZR_P53. apply Rabs_le. lra. }
  change (B2R (fdiv a3 (f_of_Z n) : f64) = rnd64 (B2R a3 / B2R (f_of_Z n : f64))) in V5. rewrite Vn in V5.
  split; [exact F5|]. change (Rabs (B2R (fdiv a3 (f_of_Z n) : f64) - 2 * PI * IZR i / IZR n) <= / 1000000000000).
  pose proof (rnd64_close (B2R a3 / IZR n)) as R5. rewrite <- V5 in R5.
  assert (Rabs (B2R a3 / IZR n) <= 7) by (apply Rabs_le; lra). apply Rabs_le_inv in R5. apply Rabs_le. lra.
Qed.

(** cos and sin do not spread out distances. *)
Lemma cos_lip a b : Rabs (cos a - cos b) <= Rabs (a - b).
Proof.
  destruct (MVT_abs cos (fun x => - sin x) b a) as (c & E & _). { intros; apply derivable_pt_lim_cos. }
  rewrite E, Rabs_Ropp. rewrite <- (Rmult_1_l (Rabs (a - b))) at 2. apply Rmult_le_compat_r; [apply Rabs_pos|].
  apply Rabs_le. apply SIN_bound.
Qed.
Lemma sin_lip a b : Rabs (sin a - sin b) <= Rabs (a - b).
Proof.
  destruct (MVT_abs sin cos b a) as (c & E & _). { intros; apply derivable_pt_lim_sin. }
  rewrite E. rewrite <- (Rmult_1_l (Rabs (a - b))) at 2. apply Rmult_le_compat_r; [apply Rabs_pos|].
  apply Rabs_le. apply COS_bound.
Qed.

Section Platform.
Context (ef lf tf cosf sinf : f32 -> f32) (ed ld td cosd : f64 -> f64).
Notation A32 := (f32_arith ef lf tf).
Notation T := (c_trig ef lf tf cosf sinf ed ld td cosd).

Lemma angle_close i n : (0 <= i < n / 2)%Z -> (1 <= n <= 2147483648)%Z ->
  let a := fft_angle A32 T i n : f32 in
  is_finite a = true /\ Rabs (B2R a) <= 4 /\ Rabs (B2R a - 2 * PI * IZR i / IZR n) <= 4 * u24.
Proof.
  intros Hi Hn. assert (H2 : (2 * i <= n)%Z) by (pose proof (Z.mul_div_le n 2 ltac:(lia)); lia).
  cbv zeta. change (fft_angle A32 T i n) with (f32_of_f64 (dturn i n)).
  destruct (dturn_close i n ltac:(lia) Hn) as [F D]. pose proof PI_le4 as P4.
  assert (N1 : 1 <= IZR n) by (apply IZR_le; lia). assert (I0 : 0 <= IZR i) by (apply IZR_le; lia).
  assert (I2 : 2 * IZR i <= IZR n) by (rewrite <- mult_IZR; apply IZR_le; lia).
  assert (B4 : 0 <= 2 * PI * IZR i / IZR n <= PI).
  { assert (P2 : 0 <= 2 * PI * IZR i) by (apply Rmult_le_pos; lra). split; [apply Rmult_le_pos; [exact P2|left; apply Rinv_0_lt_compat; lra]|].
    apply Rmult_le_reg_r with (IZR n); [lra|]. unfold Rdiv. rewrite Rmult_assoc, Rinv_l by lra. nra. }
  apply Rabs_le_inv in D.
  assert (B : Rabs (B2R (dturn i n)) <= 33 / 10) by (apply Rabs_le; lra).
  assert (P126 : 4 <= bpow radix2 126) by (change 4 with (bpow radix2 2); apply bpow_le; lia).
  destruct (f32_close (dturn i n) F ltac:(lra)) as [F' D']. split; [exact F'|].
  assert (P150 : bpow radix2 (-150) <= / 1073741824) by (change (/ 1073741824) with (bpow radix2 (-30)); apply bpow_le; lia).
  assert (Rabs (B2R (dturn i n)) * u24 <= 33 / 10 * u24) by (apply Rmult_le_compat_r; lra).
  apply Rabs_le_inv in D'. split; apply Rabs_le; lra.
Qed.

Lemma filled_close e n : cosf_within e cosf -> sinf_within e sinf -> (1 <= n <= 2147483648)%Z ->
  close_table n (e + 4 * u24) (fun i => cosf (fft_angle A32 T i n)) (fun i => sinf (fft_angle A32 T i n)).
Proof.
  intros HC HS Hn k Hk. destruct (angle_close k n Hk Hn) as (F & B & D). cbv zeta in F, B, D.
  destruct (HC _ F B) as [F1 D1]. destruct (HS _ F B) as [F2 D2].
  split; [exact F1|]. split; [exact F2|]. set (a := fft_angle A32 T k n : f32) in *. set (t := 2 * PI * IZR k / IZR n) in *.
  pose proof (cos_lip (B2R a) t) as L1. pose proof (sin_lip (B2R a) t) as L2. split.
  - replace (B2R (cosf a) - cos t) with ((B2R (cosf a) - cos (B2R a)) + (cos (B2R a) - cos t)) by ring. eapply Rle_trans; [apply Rabs_triang|]. lra.
  - replace (B2R (sinf a) - sin t) with ((B2R (sinf a) - sin (B2R a)) + (sin (B2R a) - sin t)) by ring. eapply Rle_trans; [apply Rabs_triang|]. lra.
Qed.

Lemma entry_vals (x : list f32) j : entry (vals x) j = B2R (znth (fzero : f32) x j).
Proof. unfold entry, vals, znth. change 0 with (B2R (fzero : f32)). apply map_nth. Qed.
Lemma Forall_at (x : list f32) j : Forall (fun x => is_finite x = true) x -> (0 <= j < zlen x)%Z -> is_finite (znth (fzero : f32) x j) = true.
Proof. intros H Hj. rewrite Forall_forall in H. apply H. unfold znth. apply nth_In. unfold zlen in Hj. lia. Qed.
Lemma at_Forall (x : list f32) n : zlen x = n -> (forall j, (0 <= j < n)%Z -> is_finite (znth (fzero : f32) x j) = true) -> Forall (fun x => is_finite x = true) x.
Proof.
  intros L H. apply Forall_forall. intros y Hy. apply (In_nth _ _ (fzero : f32)) in Hy. destruct Hy as (j & Hj & <-).
  specialize (H (Z.of_nat j)). unfold znth in H. rewrite Nat2Z.id in H. apply H. unfold zlen in L. lia.
Qed.

(** Any table that is near enough. *)
Lemma forward_any n m t tau B re im : (0 <= m < 32)%Z -> n = (2 ^ m)%Z -> (fft_length A32 t = n / 2)%Z ->
  all_within (n / 2) tau (fft_cos A32 t) (fun k => cos (2 * PI * IZR k / IZR n)) ->
  all_within (n / 2) tau (fft_sin A32 t) (fun k => sin (2 * PI * IZR k / IZR n)) -> 0 <= tau <= / 64 ->
  signal_bounded n B re im -> fft_scale n B ->
  exists re' im', eml_fft_forward A32 t re im n = Ret (EmlOk, re', im') /\ zlen re' = n /\ zlen im' = n /\
  Forall (fun x => is_finite x = true) re' /\ Forall (fun x => is_finite x = true) im' /\
  forall k, (0 <= k < n)%Z ->
    modulus (entry (vals re') k - dft_re n (vals re) (vals im) k) (entry (vals im') k - dft_im n (vals re) (vals im) k)
      <= 2 * IZR m * (tau + 4 * u24) * (IZR n * B).
Proof.
  intros Hm En Et (Lc & Fc & Dc) (Ls & Fs & Ds) Ht (Lr & Li & Fr & Fi & HB) (S1 & S2). destruct t as [tl s c]. cbn [fft_length fft_cos fft_sin] in *.
  assert (Hn : (0 < n)%Z) by (subst n; apply Z.pow_pos_nonneg; lia).
  destruct (forward_err ef lf tf n m tl (znth (fzero : f32) c) (znth (fzero : f32) s) re im B tau) as (re' & im' & E & L1 & L2 & D); auto.
  - intros k Hk. split; [apply Forall_at; [exact Fc|exact (eq_ind_r (fun z => (0 <= k < z)%Z) Hk Lc)]|].
    split; [apply Forall_at; [exact Fs|exact (eq_ind_r (fun z => (0 <= k < z)%Z) Hk Ls)]|].
    rewrite <- !entry_vals. split; auto.
  - intros j Hj. split; [apply Forall_at; [exact Fr|lia]|]. split; [apply Forall_at; [exact Fi|lia]|]. rewrite <- !entry_vals. auto.
  - exists re', im'. split.
    { rewrite <- E. f_equal. f_equal; [rewrite <- Ls|rewrite <- Lc]; apply buf_of. }
    split; [exact L1|]. split; [exact L2|]. split; [apply (at_Forall re' n L1); intros; now apply D|]. split; [apply (at_Forall im' n L2); intros; now apply D|].
    intros k Hk. rewrite !entry_vals. now apply D.
Qed.

(** rfft *)
Lemma rfft_err e m B (x : list f32) : cosf_within e cosf -> sinf_within e sinf -> 0 <= e <= / 128 ->
  (0 <= m)%Z -> zlen x = (2 ^ m)%Z -> (zlen x < 2 ^ 31)%Z -> Forall (fun v => is_finite v = true /\ Rabs (B2R v) <= B) x -> fft_scale (zlen x) B ->
  exists y, rfft_py A32 T x = Ret y /\ zlen y = zlen x /\ Forall (fun v => is_finite v = true) y /\
  forall k, (0 <= k < zlen x)%Z ->
    Rabs (entry (vals y) k - rsum (map (fun j => entry (vals x) j * cos (theta (zlen x) j k)) (zrange (zlen x))))
      <= 2 * IZR m * (e + 8 * u24) * (IZR (zlen x) * B).
Proof.
  intros HC HS He Hm En Hl HX HSc. set (n := zlen x) in *. change (2 ^ 31)%Z with 2147483648%Z in Hl.
  assert (Hn : (0 < n)%Z) by (rewrite En; apply Z.pow_pos_nonneg; lia).
  assert (M31 : (m < 31)%Z) by (apply (Z.pow_lt_mono_r_iff 2); [lia|lia|rewrite <- En; exact Hl]).
  unfold rfft_py. change (Arith.num A32) with f32. fold n.
  rewrite chk_int32_ok by (unfold int32_ok; lia). cbn [bind]. cbv zeta. change (Arith.nzero A32) with (fzero : f32).
  assert (N2 : (0 <= n / 2)%Z) by (apply Z.div_pos; lia).
  rewrite (fill_ok A32 T n (n / 2)); try reflexivity.
  2:{ change (2 ^ 64)%Z with 18446744073709551616%Z. lia. }
  2,3: change (Arith.num A32) with f32; rewrite zlen_repeat; lia.
  cbn [bind]. set (zs := repeat (fzero : f32) (Z.to_nat n)).
  assert (Lz : zlen zs = n) by (unfold zs; rewrite zlen_repeat; lia).
  assert (Nz : forall j, znth (fzero : f32) zs j = fzero) by (intros; unfold znth, zs; apply nth_repeat).
  destruct (forward_err ef lf tf n m (n / 2) (fun i => cosf (fft_angle A32 T i n)) (fun i => sinf (fft_angle A32 T i n)) x zs B (e + 4 * u24)) as (re' & im' & E & L1 & L2 & D); auto; try lia.
  - apply filled_close; auto. lia.
  - lra.
  - intros j Hj. assert (J : is_finite (znth (fzero : f32) x j) = true /\ Rabs (B2R (znth (fzero : f32) x j)) <= B).
    { rewrite Forall_forall in HX. apply HX. unfold znth. apply nth_In. unfold n, zlen in Hj. lia. }
    rewrite Nz. split; [apply J|]. split; [reflexivity|]. cbn [B2R fzero].
    unfold modulus. rewrite Rmult_0_l, Rplus_0_r. change (B2R (znth fzero x j) * B2R (znth fzero x j)) with (Rsqr (B2R (znth (fzero : f32) x j))). rewrite sqrt_Rsqr_abs. apply J.
  - apply HSc.
  - apply HSc.
  - exists re'. split; [exact (f_equal (fun r => let* (status, real, _) := r in match status with EmlOk => Ret real | _ => Err RuntimeError_ end) E)|]. split; [exact L1|]. split; [apply (at_Forall re' n L1); intros; now apply D|].
    intros k Hk. destruct (D k Hk) as (_ & _ & DD). rewrite entry_vals.
    replace (rsum (map (fun j => entry (vals x) j * cos (theta n j k)) (zrange n))) with (dft_re n (map B2R x) (map B2R zs) k).
    + eapply Rle_trans; [apply cm_x|]. eapply Rle_trans; [exact DD|]. apply Rmult_le_compat_r.
      * destruct HSc as [S1 S2]. pose proof (bpow_gt_0 radix2 (-120)). assert (0 < IZR n) by (apply IZR_lt; lia). apply Rmult_le_pos; lra.
      * apply Rmult_le_compat_l; [|lra]. assert (0 <= IZR m) by (apply IZR_le; lia). lra.
    + unfold dft_re. f_equal. apply map_ext_in. intros j Hj. rewrite (entry_vals zs j : entry (map B2R zs) j = _), Nz. cbn [B2R fzero]. unfold vals. ring.
Qed.
(** eml_fft_fill leaves a table that is near enough, whatever was in it. *)
Lemma fill_within e n (s0 c0 : list f32) : cosf_within e cosf -> sinf_within e sinf -> (1 <= n <= 2147483648)%Z -> zlen s0 = (n / 2)%Z -> zlen c0 = (n / 2)%Z ->
  exists t, eml_fft_fill A32 T (mk_fft A32 (n / 2) s0 c0) n = Ret (EmlOk, t) /\ fft_length A32 t = (n / 2)%Z /\
    all_within (n / 2) (e + 4 * u24) (fft_cos A32 t) (fun k => cos (2 * PI * IZR k / IZR n)) /\
    all_within (n / 2) (e + 4 * u24) (fft_sin A32 t) (fun k => sin (2 * PI * IZR k / IZR n)).
Proof.
  intros HC HS Hn Ls Lc. pose proof (filled_close e n HC HS Hn) as K.
  assert (N2 : (0 <= n / 2)%Z) by (apply Z.div_pos; lia).
  pose proof (fill_ok A32 T n (n / 2) s0 c0 ltac:(change (2 ^ 64)%Z with 18446744073709551616%Z; lia) eq_refl Ls Lc) as E.
  eexists. split; [exact E|]. cbn [fft_length fft_cos fft_sin]. split; [reflexivity|].
  assert (G : forall g : Z -> f32, (forall k, (0 <= k < n / 2)%Z -> znth (fzero : f32) (buf (n / 2) g) k = g k)).
  { intros g k Hk. pose proof (buf_get (n / 2) g k Hk) as H. rewrite (zget_znth (fzero : f32)) in H by (rewrite zlen_buf; lia). now injection H. }
  split; split; [rewrite zlen_buf; lia| |rewrite zlen_buf; lia|]; split.
  - apply (at_Forall _ (n / 2)); [rewrite zlen_buf; lia|]. intros j Hj. change (is_finite (znth (fzero : f32) (buf (n / 2) (fun i => cosf (fft_angle A32 T i n) : f32)) j) = true). rewrite (G (fun i => cosf (fft_angle A32 T i n)) j Hj). apply (K j Hj).
  - intros k Hk. rewrite entry_vals. change (Rabs (B2R (znth (fzero : f32) (buf (n / 2) (fun i => cosf (fft_angle A32 T i n) : f32)) k) - cos (2 * PI * IZR k / IZR n)) <= e + 4 * u24). rewrite (G (fun i => cosf (fft_angle A32 T i n)) k Hk). apply (K k Hk).
  - apply (at_Forall _ (n / 2)); [rewrite zlen_buf; lia|]. intros j Hj. change (is_finite (znth (fzero : f32) (buf (n / 2) (fun i => sinf (fft_angle A32 T i n) : f32)) j) = true). rewrite (G (fun i => sinf (fft_angle A32 T i n)) j Hj). apply (K j Hj).
  - intros k Hk. rewrite entry_vals. change (Rabs (B2R (znth (fzero : f32) (buf (n / 2) (fun i => sinf (fft_angle A32 T i n) : f32)) k) - sin (2 * PI * IZR k / IZR n)) <= e + 4 * u24). rewrite (G (fun i => sinf (fft_angle A32 T i n)) k Hk). apply (K k Hk).
Qed.
(** Fill, then transform. *)
Lemma fill_forward e n m B s0 c0 re im : cosf_within e cosf -> sinf_within e sinf -> 0 <= e <= / 128 -> (0 <= m)%Z -> n = (2 ^ m)%Z -> (n <= 2 ^ 31)%Z ->
  zlen s0 = (n / 2)%Z -> zlen c0 = (n / 2)%Z -> signal_bounded n B re im -> fft_scale n B ->
  exists t re' im', eml_fft_fill A32 T (mk_fft A32 (n / 2) s0 c0) n = Ret (EmlOk, t) /\
  eml_fft_forward A32 t re im n = Ret (EmlOk, re', im') /\ zlen re' = n /\ zlen im' = n /\
  Forall (fun x => is_finite x = true) re' /\ Forall (fun x => is_finite x = true) im' /\
  forall k, (0 <= k < n)%Z ->
    modulus (entry (vals re') k - dft_re n (vals re) (vals im) k) (entry (vals im') k - dft_im n (vals re) (vals im) k)
      <= 2 * IZR m * (e + 8 * u24) * (IZR n * B).
Proof.
  intros HC HS He Hm En Hl Ls Lc HB HSc.
  assert (Hn : (0 < n)%Z) by (rewrite En; apply Z.pow_pos_nonneg; lia).
  assert (M32 : (m < 32)%Z). { apply (Z.pow_lt_mono_r_iff 2); [lia|lia|]. rewrite <- En. change (2 ^ 31)%Z with 2147483648%Z in Hl. change (2 ^ 32)%Z with 4294967296%Z. lia. }
  change (2 ^ 31)%Z with 2147483648%Z in Hl.
  destruct (fill_within e n s0 c0 HC HS ltac:(lia) Ls Lc) as (t & E & Lt & W1 & W2).
  destruct (forward_any n m t (e + 4 * u24) B re im ltac:(lia) En Lt W1 W2 ltac:(lra) HB HSc) as (re' & im' & E' & L1 & L2 & F1 & F2 & D).
  exists t, re', im'. split; [exact E|]. split; [exact E'|]. split; [exact L1|]. split; [exact L2|]. split; [exact F1|]. split; [exact F2|].
  intros k Hk. replace (e + 8 * u24) with (e + 4 * u24 + 4 * u24) by ring. exact (D k Hk).
Qed.
End Platform.

(** Correctly rounded functions are within u24. *)
Definition cosf_cr (x : f32) : f32 := f_of_R (cos (B2R x)).
Definition sinf_cr (x : f32) : f32 := f_of_R (sin (B2R x)).
Lemma unit_cr t : -1 <= t <= 1 -> is_finite (f_of_R t) = true /\ Rabs (B2R (f_of_R t) - t) <= u24.
Proof.
  intros Ht. destruct (f_of_R_correct t) as [C _].
  assert (R1 : rn32 1 = 1) by (change 1 with (bpow radix2 0); apply rn32_bpow; lia).
  assert (B : -1 <= rn32 t <= 1).
  { split; [replace (-1) with (rn32 (-1)); [apply round_le; [apply FLT_exp_valid; reflexivity|typeclasses eauto|lra]|]|rewrite <- R1; apply round_le; [apply FLT_exp_valid; reflexivity|typeclasses eauto|lra]].
    change (-1) with (- (1)) || replace (-1) with (- (1)) by lra. rewrite round_NE_opp. now rewrite R1. }
  assert (bpow radix2 128 > 4) by (change 4 with (bpow radix2 2); apply bpow_lt; lia).
  destruct C as [V F]; [apply Rle_lt_trans with 1; [apply Rabs_le; lra|lra]|]. split; [exact F|]. rewrite V.
  destruct (@error_N_FLT radix2 (SpecFloat.emin 24 128) 24 eq_refl (fun x => negb (Z.even x)) t) as (eps & eta & E1 & E2 & Z0 & E).
  change (round radix2 (FLT_exp (SpecFloat.emin 24 128) 24) (Znearest (fun x => negb (Z.even x))) t) with (rn32 t) in E.
  rewrite E. replace (t * (1 + eps) + eta - t) with (t * eps + eta) by ring.
  assert (E1' : Rabs eps <= u24) by (change (bpow radix2 (Z.opp 24 + 1)) with (/ 8388608) in E1; lra).
  apply Rmult_integral in Z0. destruct Z0 as [Z0|Z0]; rewrite Z0.
  - rewrite Rmult_0_r, Rplus_0_l. eapply Rle_trans; [exact E2|]. change (/ 2) with (bpow radix2 (-1)). change u24 with (bpow radix2 (-24)). rewrite <- bpow_plus. apply bpow_le. vm_compute. discriminate.
  - rewrite Rplus_0_r, Rabs_mult. assert (Rabs t <= 1) by (apply Rabs_le; lra).
    replace u24 with (1 * u24) by ring. apply Rmult_le_compat; auto using Rabs_pos.
Qed.
Lemma cosf_cr_ok : cosf_within u24 cosf_cr.
Proof. intros x _ _. apply unit_cr. pose proof (COS_bound (B2R x)). lra. Qed.
Lemma sinf_cr_ok : sinf_within u24 sinf_cr.
Proof. intros x _ _. apply unit_cr. pose proof (SIN_bound (B2R x)). lra. Qed.

(** A double cos within u24. *)
Definition cos_cr (x : f64) : f64 := f64_of_f32 (f_of_R (cos (B2R x))).
Lemma cos_cr_ok : cos_within u24 cos_cr.
Proof.
  intros x _ _. destruct (unit_cr (cos (B2R x))) as [F D]. { pose proof (COS_bound (B2R x)). lra. }
  unfold cos_cr. destruct (TreesRunTop.f64_of_f32_ok _ F) as [V F']. split; [exact F'|]. now rewrite V.
Qed.
