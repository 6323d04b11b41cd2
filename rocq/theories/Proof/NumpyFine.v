(** numpy's float64 arithmetic raises nothing on numbers of moderate size. *)
From Coq Require Import String ZArith List Bool Lia Reals Lra.
From Flocq Require Import Core BinarySingleNaN.
From Verif.Base Require Import Res CInt ListX Loops Float FloatOrder Arith Kernels RealSum.
From Verif.Model Require Import Common Text TreesConvert TreesC Cgen Distance Harness TreesRun DistanceRun.
From Verif.Spec Require Import RealSpec DistanceSpec RoundingSpec NetRunSpec EnvelopeSpec.
From Verif.Proof Require Import NetErr.
Import ListNotations.
Open Scope Z_scope.
Open Scope res_scope.

Notation fexp := (SpecFloat.fexp 53 1024).
Notation rnd := (round radix2 fexp ZnearestE).
Local Instance VE : Valid_exp fexp. Proof. apply fexp_correct; reflexivity. Qed.
Local Instance ME : Monotone_exp fexp. Proof. apply fexp_monotone. Qed.

(** A finite float64, a multiple of 2^k, at most B in magnitude. *)
Definition tame (k : Z) (B : R) (x : f64) : Prop :=
  is_finite x = true /\ (exists z, B2R x = IZR z * bpow radix2 k)%R /\ (Rabs (B2R x) <= B)%R.

Lemma rnd_mult k v : (exists z, v = IZR z * bpow radix2 k)%R -> exists z, (rnd v = IZR z * bpow radix2 k)%R.
Proof.
  intros (z & E).
  assert (G : generic_format radix2 (FIX_exp k) v) by (apply generic_format_FIX; exists (Float radix2 z k); [exact E|reflexivity]).
  assert (G2 : generic_format radix2 (FIX_exp k) (rnd v)) by (apply generic_round_generic; auto with typeclass_instances).
  apply FIX_format_generic in G2 as [[z2 k2] E2 E3]. simpl in E3. subst k2. exists z2. exact E2.
Qed.
(** The bound M * 2^e survives rounding. *)
Definition round_bound (B : R) : Prop := exists M e, 0 <= M < 2 ^ 53 /\ -1074 <= e /\ (B = IZR M * bpow radix2 e)%R /\ (B < bpow radix2 1024)%R.
Lemma rnd_bound B v : round_bound B -> (Rabs v <= B)%R -> (Rabs (rnd v) <= B)%R.
Proof.
  intros (M & e & HM & He & -> & _) H. apply abs_round_le_generic; auto with typeclass_instances.
  apply generic_format_FLT. exists (Float radix2 M e); [reflexivity| |exact He]. cbn [Fnum].
  change (radix2 ^ 53) with (2 ^ 53). rewrite Z.abs_eq; lia.
Qed.
Lemma no_fault a b (r : f64) : is_finite r = true -> np_invalid a b r = false /\ np_overflow a b r = false.
Proof. intros F. unfold np_invalid, np_overflow. destruct r; try discriminate; split; try reflexivity; apply andb_false_r. Qed.

Lemma np_sub_tame k B1 B2 B a b : tame k B1 a -> tame k B2 b -> (B1 + B2 <= B)%R -> round_bound B -> exists r, np_sub a b = Ret r /\ tame k B r.
Proof.
  intros (Fa & (za & Ea) & Ba) (Fb & (zb & Eb) & Bb) HB RB. exists (fsub a b).
  assert (LE : (Rabs (B2R a - B2R b) <= B)%R).
  { unfold Rminus. eapply Rle_trans; [apply Rabs_triang|]. rewrite Rabs_Ropp. lra. }
  pose proof (rnd_bound B _ RB LE) as LR.
  pose proof (Bminus_correct 53 1024 _ _ mode_NE a b Fa Fb) as M. change (round_mode mode_NE) with ZnearestE in M.
  rewrite Rlt_bool_true in M by (destruct RB as (? & ? & ? & ? & ? & ?); lra). destruct M as (M & F & _). change (Bminus mode_NE a b) with (fsub a b) in *.
  split; [|split; [exact F|split; [|rewrite M; exact LR]]].
  - unfold np_sub. cbv zeta. destruct (no_fault a b _ F) as [-> ->]. reflexivity.
  - rewrite M. apply rnd_mult. exists (za - zb). rewrite Ea, Eb, minus_IZR. ring.
Qed.
Lemma np_add_tame k B1 B2 B a b : tame k B1 a -> tame k B2 b -> (B1 + B2 <= B)%R -> round_bound B -> exists r, np_add a b = Ret r /\ tame k B r.
Proof.
  intros (Fa & (za & Ea) & Ba) (Fb & (zb & Eb) & Bb) HB RB. exists (fadd a b).
  assert (LE : (Rabs (B2R a + B2R b) <= B)%R) by (eapply Rle_trans; [apply Rabs_triang|lra]).
  pose proof (rnd_bound B _ RB LE) as LR.
  pose proof (Bplus_correct 53 1024 _ _ mode_NE a b Fa Fb) as M. change (round_mode mode_NE) with ZnearestE in M.
  rewrite Rlt_bool_true in M by (destruct RB as (? & ? & ? & ? & ? & ?); lra). destruct M as (M & F & _). change (Bplus mode_NE a b) with (fadd a b) in *.
  split; [|split; [exact F|split; [|rewrite M; exact LR]]].
  - unfold np_add. cbv zeta. destruct (no_fault a b _ F) as [-> ->]. reflexivity.
  - rewrite M. apply rnd_mult. exists (za + zb). rewrite Ea, Eb, plus_IZR. ring.
Qed.
Lemma mult_zero z k : -1022 <= k -> (Rabs (IZR z * bpow radix2 k) < bpow radix2 (-1022))%R -> z = 0.
Proof.
  intros Hk H. rewrite Rabs_mult, (Rabs_pos_eq (bpow radix2 k)) in H by apply bpow_ge_0.
  destruct (Z.eq_dec z 0) as [E|E]; [exact E|]. exfalso.
  assert (1 <= Rabs (IZR z))%R by (rewrite <- abs_IZR; apply (IZR_le 1); lia).
  pose proof (bpow_gt_0 radix2 k) as P. pose proof (bpow_le radix2 (-1022) k Hk).
  pose proof (Rmult_le_compat_r (bpow radix2 k) _ _ (Rlt_le _ _ P) H0). lra.
Qed.
Lemma np_mul_tame k1 k2 B1 B2 B a b : tame k1 B1 a -> tame k2 B2 b -> -1022 <= k1 + k2 -> (B1 * B2 <= B)%R -> round_bound B ->
  exists r, np_mul a b = Ret r /\ tame (k1 + k2) B r.
Proof.
  intros (Fa & (za & Ea) & Ba) (Fb & (zb & Eb) & Bb) HK HB RB. exists (fmul a b).
  assert (LE : (Rabs (B2R a * B2R b) <= B)%R).
  { rewrite Rabs_mult. eapply Rle_trans; [apply Rmult_le_compat; [apply Rabs_pos|apply Rabs_pos|exact Ba|exact Bb]|exact HB]. }
  pose proof (rnd_bound B _ RB LE) as LR.
  pose proof (Bmult_correct 53 1024 _ _ mode_NE a b) as M. change (round_mode mode_NE) with ZnearestE in M.
  rewrite Rlt_bool_true in M by (destruct RB as (? & ? & ? & ? & ? & ?); lra). destruct M as (M & F & _). change (Bmult mode_NE a b) with (fmul a b) in *.
  rewrite Fa, Fb in F. cbn [andb] in F.
  assert (EX : (B2R a * B2R b = IZR (za * zb) * bpow radix2 (k1 + k2))%R) by (rewrite Ea, Eb, mult_IZR, bpow_plus; ring).
  destruct (rnd_mult (k1 + k2) (B2R a * B2R b)) as (z & EZ); [eexists; exact EX|].
  split; [|split; [exact F|split; [|rewrite M; exact LR]]]; [|rewrite M; exists z; exact EZ].
  unfold np_mul. cbv zeta. destruct (no_fault a b _ F) as [-> ->]. cbn [orb].
  replace (np_underflow a b (fmul a b)) with false; [reflexivity|]. symmetry. unfold np_underflow.
  destruct (fltb (Babs (fmul a b)) (f_of_ZE 1 (-1022))) eqn:LT; [|reflexivity]. cbn [andb].
  assert (F1 : is_finite (f_of_ZE 1 (-1022) : f64) = true) by reflexivity.
  assert (V1 : B2R (f_of_ZE 1 (-1022) : f64) = bpow radix2 (-1022)).
  { unfold f_of_ZE. pose proof (binary_normalize_correct 53 1024 _ _ mode_NE 1 (-1022) false) as N. cbv zeta in N. change (round_mode mode_NE) with ZnearestE in N.
    replace (F2R (Float radix2 1 (-1022))) with (bpow radix2 (-1022)) in N by (unfold F2R; cbn [Fnum Fexp]; ring).
    rewrite (round_generic radix2 fexp ZnearestE (bpow radix2 (-1022))) in N by (apply generic_format_bpow; vm_compute; discriminate).
    rewrite Rlt_bool_true in N by (rewrite Rabs_pos_eq by apply bpow_ge_0; apply bpow_lt; lia). exact (proj1 N). }
  rewrite fltb_correct in LT by (rewrite ?is_finite_Babs; auto). rewrite B2R_Babs, V1, M, EZ in LT.
  destruct (Rlt_bool_spec (Rabs (IZR z * bpow radix2 (k1 + k2))) (bpow radix2 (-1022))) as [L|L]; [|discriminate].
  apply mult_zero in L; [|exact HK]. subst z. rewrite Rmult_0_l in EZ.
  assert (Z0 : za * zb = 0).
  { destruct (Z.eq_dec (za * zb) 0) as [E|E]; [exact E|]. exfalso.
    assert (P : (bpow radix2 (k1 + k2) <= Rabs (rnd (B2R a * B2R b)))%R).
    { apply abs_round_ge_generic; auto with typeclass_instances.
      - apply generic_format_bpow. unfold SpecFloat.fexp, SpecFloat.emin. lia.
      - rewrite EX, Rabs_mult, (Rabs_pos_eq (bpow radix2 (k1 + k2))) by apply bpow_ge_0.
        assert (1 <= Rabs (IZR (za * zb)))%R by (rewrite <- abs_IZR; apply (IZR_le 1); lia). pose proof (bpow_gt_0 radix2 (k1 + k2)) as P.
        pose proof (Rmult_le_compat_r (bpow radix2 (k1 + k2)) _ _ (Rlt_le _ _ P) H). lra. }
    rewrite EZ, Rabs_R0 in P. pose proof (bpow_gt_0 radix2 (k1 + k2)). lra. }
  apply negb_false_iff. unfold np_exact_mul.
  destruct a as [| | |sa ma ea ha]; try reflexivity; destruct b as [| | |sb mb eb hb]; try reflexivity. exfalso.
  assert (forall s m e, F2R (Float radix2 (SpecFloat.cond_Zopp s (Zpos m)) e) <> 0%R).
  { intros s m e Q. apply eq_0_F2R in Q. destruct s; discriminate. }
  apply Z.mul_eq_0 in Z0 as [->| ->]; rewrite Rmult_0_l in *; [exact (H sa ma ea Ea)|exact (H sb mb eb Eb)].
Qed.

Lemma moderate_tame x : moderate x -> tame (-192) (bpow radix2 126) x.
Proof.
  intros (F & Z & B). split; [exact F|split; [|exact B]]. destruct Z as [Z|Z]; [exists 0; rewrite Z; ring|].
  pose proof (generic_format_B2R 53 1024 x) as G. unfold generic_format in G. set (m := Ztrunc (scaled_mantissa radix2 fexp (B2R x))) in *. set (c := cexp radix2 fexp (B2R x)) in *.
  assert (C : -192 <= c).
  { unfold c, cexp, SpecFloat.fexp, SpecFloat.emin. assert (-139 <= mag radix2 (B2R x)); [|lia]. change (-139) with (-140 + 1). apply mag_ge_bpow. change (-140 + 1 - 1) with (-140). exact Z. }
  exists (m * 2 ^ (c - -192)). rewrite G at 1. unfold F2R. cbn [Fnum Fexp]. rewrite mult_IZR, Rmult_assoc. f_equal.
  replace c with ((c - -192) + -192) at 1 by ring. rewrite bpow_plus. f_equal. rewrite (IZR_Zpower radix2) by lia. reflexivity.
Qed.
Lemma rb M e : 0 <= M < 2 ^ 53 -> -1074 <= e <= 900 -> round_bound (IZR M * bpow radix2 e).
Proof.
  intros HM He. exists M, e. split; [exact HM|split; [lia|split; [reflexivity|]]].
  apply Rle_lt_trans with (bpow radix2 53 * bpow radix2 e)%R.
  - apply Rmult_le_compat_r; [apply bpow_ge_0|]. change (bpow radix2 53) with (IZR (2 ^ 53)). apply IZR_le. lia.
  - rewrite <- bpow_plus. apply bpow_lt. lia.
Qed.
Lemma rb1 e : -1074 <= e <= 900 -> round_bound (bpow radix2 e).
Proof. intros He. replace (bpow radix2 e) with (IZR 1 * bpow radix2 e)%R by ring. apply rb; [lia|exact He]. Qed.

Theorem numpy_ok n f row : good_envelope n f -> zlen row = n -> Forall moderate row -> Forall moderate (fe_location f) ->
  Forall (Forall moderate) (fe_precision f) -> numpy_fine f row.
Proof.
  intros (L1 & L2 & L3 & L4 & _ & _) LR MR ML MP. unfold numpy_fine, np_squared_mahalanobis_distance. cbv zeta.
  rewrite LR, L1, L3, Z.eqb_refl. cbn [py_assert bind].
  assert (E : forallb (fun r : list f64 => n =? zlen r) (fe_precision f) = true).
  { apply forallb_forall. intros r I. rewrite Forall_forall in L4. rewrite (L4 r I). apply Z.eqb_refl. }
  rewrite E. cbn [py_assert bind]. assert (N0 : 0 <= n) by (rewrite <- LR; apply zlen_nonneg).
  assert (SUB : forall i, 0 <= i < n -> exists a b d, pyget row i = Ret a /\ pyget (fe_location f) i = Ret b /\ np_sub a b = Ret d /\ tame (-192) (bpow radix2 127) d).
  { intros i Hi. destruct (zget_ok row i ltac:(lia)) as (a & Ha). destruct (zget_ok (fe_location f) i ltac:(lia)) as (b & Hb).
    rewrite Forall_forall in MR, ML. pose proof (moderate_tame a (MR _ (zget_In _ _ _ Ha))) as TA. pose proof (moderate_tame b (ML _ (zget_In _ _ _ Hb))) as TB.
    destruct (np_sub_tame _ _ _ (bpow radix2 127) a b TA TB) as (d & Ed & Td); [|apply rb1; lia|].
    - change 127 with (1 + 126). rewrite (bpow_plus radix2 1 126). change (bpow radix2 1) with 2%R. lra.
    - exists a, b, d. auto using pyget_zget. }
  match goal with |- exists p, foldM ?g _ _ = _ => destruct (foldM_range_inv g (fun i s => tame (-576) (IZR (i * n) * bpow radix2 380) s) n (fzero : f64)) as (s' & E1 & _) end.
  - exact N0.
  - split; [reflexivity|split; [exists 0; change (B2R (fzero : f64)) with 0%R; ring|]]. change (B2R (fzero : f64)) with 0%R. rewrite Rabs_R0, Z.mul_0_l. lra.
  - intros i s Hi Ts. destruct (SUB i Hi) as (a & b & d & Ea & Eb & Ed & Td).
    assert (INNER : exists acc, foldM (fun acc j => let* row0 := pyget (fe_precision f) i in let* p := pyget row0 j in let* a := pyget row j in
        let* b := pyget (fe_location f) j in let* d := np_sub a b in let* pd := np_mul p d in np_add acc pd) fzero (zrange n) = Ret acc /\
        tame (-384) (IZR n * bpow radix2 253) acc).
    { match goal with |- exists acc, foldM ?g _ _ = _ /\ _ => destruct (foldM_range_inv g (fun j s => tame (-384) (IZR j * bpow radix2 253) s) n (fzero : f64)) as (acc & E1 & T1) end.
      - exact N0.
      - split; [reflexivity|split; [exists 0; change (B2R (fzero : f64)) with 0%R; ring|]]. change (B2R (fzero : f64)) with 0%R. rewrite Rabs_R0. lra.
      - intros j t Hj Tt. destruct (SUB j Hj) as (a' & b' & d' & Ea' & Eb' & Ed' & Td').
        destruct (zget_ok (fe_precision f) i ltac:(lia)) as (pr & Hpr). rewrite Forall_forall in L4, MP.
        pose proof (L4 pr (zget_In _ _ _ Hpr)) as Lp. pose proof (MP pr (zget_In _ _ _ Hpr)) as Mp. rewrite Forall_forall in Mp.
        destruct (zget_ok pr j ltac:(lia)) as (p & Hp). pose proof (moderate_tame p (Mp _ (zget_In _ _ _ Hp))) as TP.
        destruct (np_mul_tame _ _ _ _ (bpow radix2 253) p d' TP Td') as (pd & Epd & Tpd); [lia|rewrite <- bpow_plus; apply bpow_le; lia|apply rb1; lia|].
        destruct (np_add_tame _ _ _ (IZR (j + 1) * bpow radix2 253) t pd Tt Tpd) as (t' & Et & Tt'); [rewrite plus_IZR; lra|apply rb; lia|].
        exists t'. split; [|exact Tt']. rewrite (pyget_zget _ _ _ Hpr). cbn [bind]. rewrite (pyget_zget _ _ _ Hp). cbn [bind]. rewrite Ea'. cbn [bind].
        rewrite Eb'. cbn [bind]. rewrite Ed'. cbn [bind]. rewrite Epd. cbn [bind]. exact Et.
      - exists acc. auto. }
    destruct INNER as (acc & Eacc & Tacc).
    destruct (np_mul_tame _ _ _ _ (IZR n * bpow radix2 380) acc d Tacc Td) as (ad & Ead & Tad); [lia| |apply rb; lia|].
    { rewrite Rmult_assoc, <- bpow_plus. apply Rle_refl. }
    assert (HB : i * n + n <= 46341 * 46341) by nia.
    destruct (np_add_tame _ _ _ (IZR ((i + 1) * n) * bpow radix2 380) s ad Ts Tad) as (s' & Es & Ts').
    { replace ((i + 1) * n) with (i * n + n) by ring. rewrite plus_IZR. lra. }
    { apply rb; [|lia]. split; [nia|]. replace ((i + 1) * n) with (i * n + n) by ring. lia. }
    exists s'. split; [|exact Ts']. rewrite Eacc. cbn [bind]. rewrite Ea. cbn [bind]. rewrite Eb. cbn [bind]. rewrite Ed. cbn [bind]. rewrite Ead. cbn [bind]. exact Es.
  - exists s'. exact E1.
Qed.
