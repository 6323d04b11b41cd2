(** predict() and predict_proba(): regressors, float features, agreement with scikit-learn. *)
From Coq Require Import String ZArith List Bool Lia Reals Lra.
From Flocq Require Import Core BinarySingleNaN.
From Verif.Base Require Import Res CInt ListX Float FloatOrder Loops Arith RealSum.
From Verif.Model Require Import Common Text TreesConvert TreesC TreesInline TreesWrapper Cgen Harness TreesRun.
From Verif.Spec Require Import TreesSpec TreesCSpec VoteSpec ClassifierSpec CgenSpec HarnessSpec RunSpec RealSpec.
From Verif.Proof Require Import Text Cgen TreesFlatten TreesForest TreesLeaves TreesWalk Vote TreesEnd TreesHard
  Quantize TreesSoft TreesNodes TreesTop TreesApi TreesRegress TreesMisc TreesInlineRun Harness RunRows Through FloatMean TreesRun TreesRegRun.
Import Verif.Spec.HarnessSpec ListNotations.
Open Scope Z_scope.
Open Scope res_scope.

(** Widening a float to a double is exact. *)
Lemma f64_of_f32_ok (y : f32) : is_finite y = true -> B2R (f64_of_f32 y) = B2R y /\ is_finite (f64_of_f32 y) = true.
Proof.
  intros F. pose proof (abs_B2R_lt_emax 24 128 y) as Hlt. pose proof (generic_format_B2R 24 128 y) as Hg.
  destruct y as [s|s| |s m e Hb]; try discriminate.
  - simpl. auto.
  - unfold f64_of_f32, f_convert.
    pose proof (binary_normalize_correct 53 1024 _ _ mode_NE (cond_Zopp s (Zpos m)) e s) as C.
    cbv zeta in C. simpl round_mode in C. change (F2R (Float radix2 (cond_Zopp s (Z.pos m)) e)) with (B2R (B754_finite s m e Hb)) in C.
    rewrite round_generic in C; [|auto with typeclass_instances|].
    2: { eapply generic_inclusion_mag; [|exact Hg]. intros _. unfold SpecFloat.fexp, SpecFloat.emin; lia. }
    rewrite Rlt_bool_true in C.
    + destruct C as (C1 & C2 & _). auto.
    + eapply Rlt_trans; [exact Hlt|]. apply bpow_lt. lia.
Qed.

(** ** Regressors, int16_t features *)
Section RegTop.
Variables (nf nc : Z) (trees : sk_forest) (B : R) (lb : option Z).
Hypothesis HB : (0 <= B <= bpow radix2 50)%R.
Hypothesis Hfit : fitted nf (value_within B) trees.
Hypothesis Hnt : zlen trees <= 8388608.
Hypothesis Hlb : In lb [None; Some 32].
Hypothesis Hnf : nf <= 127.

Lemma HB99 : (0 <= B <= bpow radix2 99)%R.
Proof. assert (bpow radix2 50 <= bpow radix2 99)%R by (apply bpow_le; lia). lra. Qed.

Definition mean_of (xs : list f64) : R := (rsum (map B2R xs) / IZR (zlen xs))%R.

Lemma reg_calls method dtype : In dtype [None; Some DInt16] ->
  (In method [None; Some MInline] /\ thresholds_within (-32767) 32767 trees \/ method = Some MLoadable /\ small_model nf trees) ->
  exists w c, wrapper_init false method dtype lb trees nf nc = Ret w /\ save_code w = Ret c /\ w_classifier w = false /\ w_n_features w = nf /\
  forall row features values xs, zlen row = nf -> int16_row row features -> holds row values -> Forall2 (tree_value features) trees xs ->
    Forall (fun x => is_finite x = true /\ (Rabs (B2R x) <= B)%R) xs ->
    exists y, code_regress c nf values nf = Ret y /\ is_finite y = true /\ (Rabs (B2R y) <= 4 * (B + 1))%R /\
      (Rabs (B2R y - mean_of xs) <= (IZR (zlen trees) + 5) * B / 16777216 + 11 / 10000000)%R.
Proof.
  intros Hd [[Hm HT]|[-> HS]].
  - destruct (reg_code nf trees B HB99 Hfit py_int Z.ltb int16_test_ok) as (f & p & E & Ep & T & Lp & G).
    { eapply Forall_impl; [|exact HT]. intros t Ht. eapply Forall_impl; [|exact Ht]. intros th (k & Ek & Bk). exists k. split; [exact Ek|].
      unfold int16_test_ok. destruct (Z.leb_spec (-32767) k); [|lia]. destruct (Z.leb_spec k 32767); [reflexivity|lia]. }
    { exists 0. split; reflexivity. }
    assert (Ew : wrapper_init false method dtype lb trees nf nc = Ret (mk_wrapper false MInline DInt16 32 f nf 0)).
    { unfold wrapper_init. rewrite (val_bits lb Hlb). change (choose_leaf false 32) with LeafValue. rewrite E. cbn [bind].
      destruct Hm as [<-|[<-|[]]]; destruct Hd as [<-|[<-|[]]]; cbn [bind]; (destruct (Z.ltb_spec 10000 nf); [lia|reflexivity]). }
    eexists _, (CodeRegInt16 p). split; [exact Ew|]. split.
    { unfold save_code. cbn [w_method w_dtype w_classifier w_forest w_leaf_bits]. rewrite Ep. cbn [bind]. unfold compiles. rewrite T. reflexivity. }
    split; [reflexivity|]. split; [reflexivity|]. intros row features values xs L R Hh HX FX.
    destruct (cast_int16 nf row features values L R Hh) as (LF & _ & Ef). cbn [code_regress]. rewrite Ef. cbn [bind].
    destruct (G features xs ltac:(lia) HX) as (ks & K & Er).
    assert (LX : zlen xs = zlen trees) by (unfold zlen; now rewrite (Forall2_len _ _ _ HX)).
    pose proof (trees_pos _ _ _ Hfit).
    destruct (inline_mean B HB99 xs ks ltac:(lia) FX K) as (F1 & F2 & F3). rewrite LX in F1, F2, F3.
    eexists. split; [exact Er|]. split; [exact F1|]. split; [exact F2|]. unfold mean_of. rewrite LX. exact F3.
  - destruct HS as [Hn127 HS'] eqn:EHS. clear EHS.
    pose proof (fit_value nf trees B Hfit) as Hfv.
    destruct (val_init nf trees nc lb Hlb Hfv (Some MLoadable) dtype Hd ltac:(discriminate) Hn127) as (w & Ew & HF).
    specialize (HF (conj Hn127 HS')).
    destruct (val_api_forest nf trees dtype nc w lb Hlb Hfv ltac:(lia) Ew HF) as (_ & _ & _ & _ & _ & _ & _ & _ & _ & m & Em & _).
    destruct (wrapper_init_Ret _ _ _ _ _ _ _ _ Ew) as (_ & W1 & W2 & W3 & W4 & _).
    exists w, (CodeLoadable m). split; [exact Ew|]. split.
    { unfold save_code. assert (M : w_method w = MLoadable) by (revert Ew; unfold wrapper_init; intros Ew; invbind Ew;
        destruct (_ <? _) in Ew; [discriminate|]; inv Ew; reflexivity). rewrite M, Em. reflexivity. }
    split; [exact W4|]. split; [exact W2|]. intros row features values xs L R Hh HX FX.
    destruct (cast_int16 nf row features values L R Hh) as (LF & _ & Ef). cbn [code_regress]. rewrite Ef. cbn [bind].
    assert (LX : zlen xs = zlen trees) by (unfold zlen; now rewrite (Forall2_len _ _ _ HX)).
    pose proof (trees_pos _ _ _ Hfit).
    pose proof (regress1_ok nf trees dtype nc w m lb Hlb Hfv ltac:(lia) Ew HF Em features xs LF HX) as Er.
    destruct (loadable_mean B HB99 xs ltac:(lia) FX) as (F1 & F2 & F3). rewrite LX in F1, F2, F3.
    eexists. split; [exact Er|]. split; [exact F1|]. split; [exact F2|]. unfold mean_of. rewrite LX.
    assert (bpow radix2 (-140) <= / 1099511627776)%R by (change (/ 1099511627776)%R with (bpow radix2 (-40)); apply bpow_le; lia). lra.
Qed.

Lemma reg_close (M : R) (k : Z) (y o : f64) : (Rabs (B2R y) <= 4 * (B + 1))%R ->
  (Rabs (B2R y - M) <= (IZR k + 5) * B / 16777216 + 11 / 10000000)%R -> through_decimals 6 (B2R y) o ->
  is_finite o = true /\ (Rabs (B2R o - M) <= (IZR k + 6) * B / 16777216 + 2 / 1000000)%R.
Proof.
  intros By Dy T.
  assert (B50 : (bpow radix2 50 <= bpow radix2 1000)%R) by (apply bpow_le; lia).
  destruct (through6_f64 (B2R y) o) as [Fo Do]; [|exact T|].
  { assert (8 * bpow radix2 1000 <= bpow radix2 1022)%R.
    { replace 8%R with (bpow radix2 3) by reflexivity. rewrite <- bpow_plus. apply bpow_le. lia. }
    assert (1 <= bpow radix2 1000)%R by (change 1%R with (bpow radix2 0); apply bpow_le; lia). lra. }
  split; [exact Fo|].
  replace (B2R o - M)%R with ((B2R o - B2R y) + (B2R y - M))%R by ring.
  eapply Rle_trans; [apply Rabs_triang|].
  assert (P53 : (0 < bpow radix2 (-53) <= / 1099511627776)%R).
  { split; [apply bpow_gt_0|]. change (/ 1099511627776)%R with (bpow radix2 (-40)). apply bpow_le. lia. }
  assert (Q : (Rabs (B2R y) * bpow radix2 (-53) <= 4 * (B + 1) * / 1099511627776)%R).
  { apply Rmult_le_compat; try apply Rabs_pos; lra. }
  clear - Do Dy Q HB. unfold Rdiv in *. lra.
Qed.

Theorem regress_run method dtype X : In dtype [None; Some DInt16] ->
  (In method [None; Some MInline] /\ thresholds_within (-32767) 32767 trees \/ method = Some MLoadable /\ small_model nf trees) ->
  int16_rows nf X ->
  exists w out, wrapper_init false method dtype lb trees nf nc = Ret w /\ wrapper_predict w X = Ret out /\ zlen out = zlen X /\
  forall i row, zget X i = Ret row -> exists features xs o,
    int16_row row features /\ Forall2 (tree_value features) trees xs /\ zget out i = Ret (PyFloat o) /\ is_finite o = true /\
    (Rabs (B2R o - mean_of xs) <= (IZR (zlen trees) + 6) * B / 16777216 + 2 / 1000000)%R.
Proof.
  intros Hd Hm HX. pose proof (ft_features _ _ _ Hfit).
  destruct (reg_calls method dtype Hd Hm) as (w & c & A & E & C & D & G).
  destruct (int16_rows_fit nf X HX ltac:(lia)) as (NX & GX & AX & LX).
  exists w. unfold wrapper_predict. rewrite E, C, D. cbn [bind].
  destruct (predict_reals (fun values length => let* out := code_regress c nf values length in Ret (f64_of_f32 out)) X
     (fun row y => exists features xs, int16_row row features /\ Forall2 (tree_value features) trees xs /\
        is_finite y = true /\ (Rabs (B2R y) <= 4 * (B + 1))%R /\
        (Rabs (B2R y - mean_of xs) <= (IZR (zlen trees) + 5) * B / 16777216 + 11 / 10000000)%R) NX GX AX LX)
    as (out & Eo & Lo & Go).
  { intros row values I Hv. destruct HX as (_ & _ & FX). rewrite Forall_forall in FX. destruct (FX row I) as (L & features & R).
    destruct (value_by_total nf trees B Hfit (go_lt features)) as (xs & HC & HF).
    destruct (G row features values xs L R Hv HC HF) as (y & Ey & Fy & By & Dy).
    rewrite L, Ey. cbn [bind]. destruct (f64_of_f32_ok y Fy) as [Vy Fy'].
    exists (f64_of_f32 y). split; [reflexivity|]. rewrite Vy. split; [exact Fy'|]. split.
    - change (IZR (2 ^ 53)) with (bpow radix2 53). assert (bpow radix2 53 = 8 * bpow radix2 50)%R by (change 8%R with (bpow radix2 3); rewrite <- bpow_plus; reflexivity).
      assert (1 <= bpow radix2 50)%R by (change 1%R with (bpow radix2 0); apply bpow_le; lia). lra.
    - exists features, xs. auto. }
  exists out. split; [exact A|]. split; [exact Eo|]. split; [exact Lo|]. intros i row Z.
  destruct (Go i row Z) as (y & o & (features & xs & R & HC & Fy & By & Dy) & Zo & T).
  destruct (reg_close (mean_of xs) (zlen trees) y o By Dy T) as [Fo Do].
  exists features, xs, o. auto.
Qed.
End RegTop.
