(** The Park-Miller generator of eml_benchmark.h. *)
From Coq Require Import ZArith List Bool Lia Znumtheory.
From Verif.Base Require Import Res CInt ListX Loops Float Kernels.
From Verif.Model Require Import Common Benchmark.
Import ListNotations.
Open Scope Z_scope.

Notation P := 2147483647 (only parsing).
Notation G := 48271 (only parsing).

Lemma lcg_ok x : 1 <= x <= P - 1 -> eml_lcg_parkmiller x = (G * x) mod P.
Proof.
  intros Hx. unfold eml_lcg_parkmiller, to_uint32, to_unsigned.
  change (P / G) with 44488. change (P mod G) with 3399. change (2 ^ 32) with 4294967296. cbv zeta.
  pose proof (Z.div_mod x 44488 ltac:(lia)) as D. pose proof (Z.mod_pos_bound x 44488 ltac:(lia)) as M.
  set (d := x / 44488) in *. set (r := x mod 44488) in *.
  assert (Hd : 0 <= d <= 48271) by lia.
  rewrite (Z.mod_small (r * G)) by lia. rewrite (Z.mod_small (d * 3399)) by lia.
  assert (E : G * x = r * G - d * 3399 + d * P) by lia.
  destruct (Z.ltb_spec (d * 3399) (r * G)).
  - rewrite Z.mod_small by lia. rewrite E, Z_mod_plus_full. symmetry. apply Z.mod_small. lia.
  - rewrite (Z.mod_small (P - d * 3399)) by lia.
    rewrite Z.mod_small by lia.
    destruct (Z.eq_dec (r * G) (d * 3399)) as [Q|Q].
    + (* then x is a multiple of P *)
      exfalso. assert (G * x = d * P) by lia.
      assert (r = 0 \/ r > 0) by lia. lia.
    + rewrite E. replace (r * G - d * 3399 + d * P) with (r * G - d * 3399 + P + (d - 1) * P) by lia.
      rewrite Z_mod_plus_full. symmetry. rewrite Z.mod_small by lia. lia.
Qed.

(** ** Powers of G modulo P *)
Definition pw (e : Z) : Z := G ^ e mod P.

Fixpoint powm (a : Z) (e : positive) : Z :=
  match e with
  | xH => a mod P
  | xO e => let h := powm a e in (h * h) mod P
  | xI e => let h := powm a e in ((h * h) mod P * a) mod P
  end.
Lemma powm_ok a e : powm a e = a ^ Zpos e mod P.
Proof.
  induction e as [e IH|e IH|]; cbn [powm].
  - rewrite IH. assert (E : a ^ Zpos (xI e) = a ^ Zpos e * a ^ Zpos e * a).
    { rewrite Pos2Z.inj_xI, Z.pow_add_r, Z.pow_1_r, Z.pow_twice_r by lia. reflexivity. }
    rewrite E. rewrite <- Zmult_mod. rewrite Zmult_mod_idemp_l. reflexivity.
  - rewrite IH. assert (E : a ^ Zpos (xO e) = a ^ Zpos e * a ^ Zpos e).
    { rewrite Pos2Z.inj_xO, Z.pow_twice_r. reflexivity. }
    rewrite E. rewrite <- Zmult_mod. reflexivity.
  - rewrite Z.pow_1_r. reflexivity.
Qed.

Lemma pw_0 : pw 0 = 1. Proof. reflexivity. Qed.
Lemma pw_add a b : 0 <= a -> 0 <= b -> pw (a + b) = (pw a * pw b) mod P.
Proof. intros. unfold pw. rewrite Z.pow_add_r by lia. apply Zmult_mod. Qed.
Lemma pw_range a : 0 <= pw a < P. Proof. apply Z.mod_pos_bound. lia. Qed.
Lemma pw_full : pw (P - 1) = 1.
Proof. unfold pw. change (P - 1) with (Zpos 2147483646). rewrite <- powm_ok. vm_compute. reflexivity. Qed.

Lemma pw_mult a k : 0 <= a -> 0 <= k -> pw a = 1 -> pw (k * a) = 1.
Proof.
  intros Ha Hk H1. pattern k. revert k Hk. apply natlike_ind.
  - reflexivity.
  - intros k Hk IH. replace (Z.succ k * a) with (k * a + a) by lia. rewrite pw_add by nia.
    rewrite IH, H1. reflexivity.
Qed.
Lemma pw_gcd a b : 1 <= a -> 1 <= b -> pw a = 1 -> pw b = 1 -> pw (Z.gcd a b) = 1.
Proof.
  intros Ha Hb H1 H2.
  destruct (Zis_gcd_bezout a b (Z.gcd a b) (Zgcd_is_gcd a b)) as [u v E].
  pose (k := Z.abs u + Z.abs v). pose (u' := u + k * b). pose (v' := k * a - v).
  assert (Hu : 0 <= u') by (unfold u', k; nia). assert (Hv : 0 <= v') by (unfold v', k; nia).
  assert (E' : u' * a = Z.gcd a b + v' * b) by (unfold u', v'; nia).
  pose proof (pw_mult a u' ltac:(lia) Hu H1) as A1. pose proof (pw_mult b v' ltac:(lia) Hv H2) as A2.
  rewrite E' in A1. rewrite pw_add in A1 by (try apply Z.gcd_nonneg; nia).
  rewrite A2, Z.mul_1_r in A1. rewrite Z.mod_small in A1; [exact A1|apply pw_range].
Qed.

(** The prime factors of P - 1. *)
Definition small_prime_b (q : Z) : bool := (1 <? q) && forallb (fun n => Z.gcd n q =? 1) (map (fun k => k + 1) (zrange (q - 1))).
Lemma small_prime q : small_prime_b q = true -> prime q.
Proof.
  unfold small_prime_b. rewrite andb_true_iff, forallb_forall. intros [H1 H2].
  apply Z.ltb_lt in H1. constructor; [exact H1|]. intros n Hn.
  apply Zgcd_1_rel_prime. apply Z.eqb_eq. apply H2. apply in_map_iff. exists (n - 1).
  split; [lia|]. apply Res.zrange_In. lia.
Qed.
Definition factors : list Z := [2; 3; 7; 11; 31; 151; 331].
Lemma factors_prime : Forall prime factors.
Proof. repeat (apply Forall_cons; [apply small_prime; vm_compute; reflexivity|]). apply Forall_nil. Qed.

Lemma proper_divisor k : (k | P - 1) -> 1 < k -> exists q, In q factors /\ (q | k).
Proof.
  intros D Hk.
  destruct (Exists_dec (fun q => (q | k)) factors (fun q => Zdivide_dec q k)) as [Q|Q].
  - apply Exists_exists in Q. exact Q.
  - exfalso. assert (F : Forall (fun q => rel_prime k q) factors).
    { apply Forall_forall. intros q Hq. pose proof (proj1 (Forall_forall _ _) factors_prime q Hq) as Pq.
      apply rel_prime_sym. apply prime_rel_prime; [exact Pq|]. intros Dq. apply Q. apply Exists_exists. exists q. auto. }
    assert (RP : rel_prime k (P - 1)).
    { change (P - 1) with (2 * (3 * (3 * (7 * (11 * (31 * (151 * 331))))))).
      rewrite Forall_forall in F.
      repeat (apply rel_prime_mult; [apply F; cbn; tauto|]). apply F. cbn. tauto. }
    assert (rel_prime k k).
    { apply rel_prime_sym. eapply rel_prime_div; [apply rel_prime_sym; exact RP|exact D]. }
    apply Zgcd_1_rel_prime in H. rewrite Z.gcd_diag in H. lia.
Qed.

Lemma no_factor : forallb (fun q => negb (powm G (Z.to_pos ((P - 1) / q)) =? 1)) factors = true.
Proof. vm_compute. reflexivity. Qed.
Lemma no_factor_ok q : In q factors -> pw ((P - 1) / q) <> 1.
Proof.
  intros Hq H. pose proof (proj1 (forallb_forall _ _) no_factor q Hq) as N. cbv beta in N.
  rewrite powm_ok in N. rewrite Z2Pos.id in N.
  - unfold pw in H. rewrite H in N. discriminate.
  - cbn in Hq. repeat (destruct Hq as [<-|Hq]; [vm_compute; reflexivity|]). destruct Hq.
Qed.

Lemma pw_order e : 0 < e < P - 1 -> pw e <> 1.
Proof.
  intros He H. pose proof (pw_gcd e (P - 1) ltac:(lia) ltac:(lia) H pw_full) as Hg.
  set (g := Z.gcd e (P - 1)) in *.
  assert (G0 : 0 < g) by (pose proof (Z.gcd_nonneg e (P - 1)); destruct (Z.eq_dec g 0) as [Q|Q]; [apply Z.gcd_eq_0_l in Q; lia|lia]).
  destruct (Z.gcd_divide_l e (P - 1)) as [a Ea]. destruct (Z.gcd_divide_r e (P - 1)) as [k Ek].
  fold g in Ea, Ek.
  assert (Ha : 1 <= a) by nia. assert (Hge : g <= e) by nia.
  assert (Hk : 1 < k). { destruct (Z.le_gt_cases k 1) as [Q|Q]; [exfalso|exact Q]. assert (k * g <= 1 * g) by (apply Z.mul_le_mono_nonneg_r; lia). lia. }
  destruct (proper_divisor k) as (q & Hq & [c Ec]); [exists g; lia|exact Hk|].
  apply (no_factor_ok q Hq).
  assert (q0 : 0 < q) by (apply (Forall_forall prime factors) in Hq; [apply prime_ge_2 in Hq; lia|exact factors_prime]).
  replace ((P - 1) / q) with (c * g).
  - apply pw_mult; [lia|nia|exact Hg].
  - apply Z.div_unique_exact; [lia|]. rewrite Ek, Ec. ring.
Qed.

Lemma pw_pos e : 0 <= e -> 1 <= pw e.
Proof.
  intros He. pose proof (pw_range e). destruct (Z.eq_dec (pw e) 0) as [Q|Q]; [exfalso|lia].
  pose proof (pw_mult (P - 1) (e + 1) ltac:(lia) ltac:(lia) pw_full) as H1.
  replace ((e + 1) * (P - 1)) with (e + ((e + 1) * (P - 1) - e)) in H1 by lia.
  rewrite pw_add in H1 by nia. rewrite Q in H1. cbn in H1. discriminate.
Qed.

Lemma pw_inj i j : 0 <= i < P - 1 -> 0 <= j < P - 1 -> pw i = pw j -> i = j.
Proof.
  assert (W : forall i j, 0 <= i -> i <= j -> j < P - 1 -> pw i = pw j -> i = j).
  { clear. intros i j Hi Hij Hj E. destruct (Z.eq_dec i j) as [|N]; [assumption|exfalso].
    apply (pw_order (j - i) ltac:(lia)).
    (* multiply by the inverse of pw i *)
    pose proof (pw_add i (P - 1 - i) ltac:(lia) ltac:(lia)) as H1. replace (i + (P - 1 - i)) with (P - 1) in H1 by lia.
    rewrite pw_full in H1.
    pose proof (pw_add j (P - 1 - i) ltac:(lia) ltac:(lia)) as H2. rewrite <- E, <- H1 in H2.
    replace (j + (P - 1 - i)) with ((j - i) + (P - 1)) in H2 by lia.
    rewrite pw_add, pw_full, Z.mul_1_r in H2 by lia. rewrite Z.mod_small in H2 by apply pw_range. exact H2. }
  intros Hi Hj E. destruct (Z.le_gt_cases i j); [apply W; auto; lia|symmetry; apply W; auto; lia].
Qed.

Lemma lcg_pw e : 0 <= e -> eml_lcg_parkmiller (pw e) = pw (e + 1).
Proof.
  intros He. pose proof (pw_pos e He). pose proof (pw_range e).
  rewrite lcg_ok by lia. rewrite pw_add by lia. f_equal. rewrite Z.mul_comm. f_equal.
Qed.

Lemma iter_pw k : Nat.iter k eml_lcg_parkmiller 1 = pw (Z.of_nat k).
Proof.
  induction k as [|k IH]; [reflexivity|].
  change (Nat.iter (S k) eml_lcg_parkmiller 1) with (eml_lcg_parkmiller (Nat.iter k eml_lcg_parkmiller 1)).
  rewrite IH, lcg_pw by lia. f_equal. lia.
Qed.

(** eml_benchmark_fill *)
Lemma fill_ok (values : list f32) n : 0 <= n <= zlen values ->
  eml_benchmark_fill values n = Ret (EmlOk, map (fun i => f_of_Z (pw (i + 1))) (zrange n) ++ skipn (Z.to_nat n) values).
Proof.
  intros Hn. unfold eml_benchmark_fill.
  assert (K : forall m, 0 <= m ->
    foldM (fun '(values, rng_state) i =>
      let rng_state := eml_lcg_parkmiller rng_state in
      bind (zset values i (f_of_Z rng_state)) (fun values => Ret (values, rng_state))) (values, 1) (zrange m)
    = bind (foldM (fun o i => zset o i (f_of_Z (pw (i + 1)) : f32)) values (zrange m)) (fun v => Ret (v, pw m))).
  { intros m Hm. pattern m. revert m Hm. apply natlike_ind.
    - reflexivity.
    - intros m Hm IH. unfold Z.succ. rewrite zrange_S by lia. cbv zeta in IH. rewrite !foldM_app, IH.
      destruct (foldM (fun o i => zset o i (f_of_Z (pw (i + 1)) : f32)) values (zrange m)) as [v|e]; cbn [bind foldM]; [|reflexivity].
      rewrite lcg_pw by lia. destruct (zset v m (f_of_Z (pw (m + 1)))); reflexivity. }
  rewrite K by lia. rewrite (fill_app (fun i => f_of_Z (pw (i + 1)) : f32)) by exact Hn. reflexivity.
Qed.

From Coq Require Import Reals Lra.
From Flocq Require Import Core BinarySingleNaN.
#[local] Instance vexp24 : Valid_exp (SpecFloat.fexp 24 128).
Proof. apply FLT_exp_valid. reflexivity. Qed.
Lemma f_of_state z : 1 <= z <= P - 1 -> is_finite (f_of_Z z : f32) = true /\ (0 < B2R (f_of_Z z : f32) <= 2147483648)%R.
Proof.
  intros Hz. unfold f_of_Z.
  pose proof (binary_normalize_correct 24 128 _ _ mode_NE z 0 false) as C.
  simpl round_mode in C. unfold F2R in C; simpl Fnum in C; simpl Fexp in C. rewrite Rmult_1_r in C.
  assert (B1 : (1 <= round radix2 (SpecFloat.fexp 24 128) ZnearestE (IZR z))%R).
  { rewrite <- (rnd_int (prec := 24) (emax := 128) 1) by (vm_compute; discriminate).
    apply round_le; [exact vexp24|exact (valid_rnd_N _)|]. apply IZR_le. lia. }
  assert (B2 : (round radix2 (SpecFloat.fexp 24 128) ZnearestE (IZR z) <= 2147483648)%R).
  { change 2147483648%R with (bpow radix2 31).
    apply round_le_generic; [exact vexp24|exact (valid_rnd_N _)| |].
    - apply generic_format_bpow. vm_compute. discriminate.
    - change (bpow radix2 31) with 2147483648%R. apply IZR_le. lia. }
  rewrite Rlt_bool_true in C.
  - destruct C as (C1 & C2 & _). split; [exact C2|]. rewrite C1. lra.
  - rewrite Rabs_pos_eq by lra. eapply Rle_lt_trans; [exact B2|]. change 2147483648%R with (bpow radix2 31). apply bpow_lt. lia.
Qed.
