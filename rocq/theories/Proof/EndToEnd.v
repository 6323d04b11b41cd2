(** End-to-end statements: predict() and predict_proba() against scikit-learn's own walk. *)
From Coq Require Import String ZArith List Bool Lia Reals Lra.
From Flocq Require Import Core BinarySingleNaN.
From Verif.Base Require Import Res CInt ListX Float FloatOrder Loops Arith RealSum.
From Verif.Model Require Import Common Text TreesConvert TreesC TreesInline TreesWrapper Cgen Harness TreesRun.
From Verif.Spec Require Import TreesSpec TreesCSpec VoteSpec ClassifierSpec CgenSpec HarnessSpec RunSpec RealSpec.
From Verif.Proof Require Import Text Cgen TreesFlatten TreesForest TreesLeaves TreesWalk Vote TreesEnd TreesHard
  Quantize TreesSoft TreesNodes TreesTop TreesApi TreesRegress TreesMisc TreesInlineRun Harness RunRows Through FloatMean TreesRun TreesRegRun TreesRunTop TreesFloatRun.
Import Verif.Spec.HarnessSpec ListNotations.
Open Scope Z_scope.
Open Scope res_scope.

(** The share of votes as it arrives. *)
Lemma votes_le cs k : 0 <= votes cs k <= zlen cs.
Proof.
  unfold votes, zlen.
  induction cs as [|c cs IH]; cbn; [lia|]. destruct (k =? c); cbn [length]; lia.
Qed.
Lemma share_close cs (nt : Z) k (p : f64) : zlen cs = nt -> 1 <= nt ->
  through_decimals 6 (rnd32 (IZR (votes cs k) / IZR nt)) p ->
  is_finite p = true /\ (Rabs (B2R p - IZR (votes cs k) / IZR nt) <= / 1000000)%R.
Proof.
  intros L N T. pose proof (votes_le cs k) as V. rewrite L in V.
  set (x := (IZR (votes cs k) / IZR nt)%R) in *.
  assert (BX : (0 <= x <= 1)%R).
  { unfold x. assert (0 < IZR nt)%R by (apply IZR_lt; lia). assert (0 <= IZR (votes cs k))%R by (apply IZR_le; lia).
    assert (IZR (votes cs k) <= IZR nt)%R by (apply IZR_le; lia).
    split; [apply Rmult_le_pos; [lra|apply Rlt_le, Rinv_0_lt_compat; lra]|]. apply Rmult_le_reg_r with (IZR nt); [lra|].
    unfold Rdiv. rewrite Rmult_assoc, Rinv_l by lra. lra. }
  clearbody x.
  assert (BR : (0 <= rnd32 x <= 1)%R).
  { split; [apply (@rnd_nonneg 24 128 _); lra|]. apply (@rnd_le_int 24 128 _ _ x 1); [lia|lra]. }
  assert (DR : (Rabs (rnd32 x - x) <= / 16777216)%R).
  { destruct (Rle_lt_or_eq_dec x 1 (proj2 BX)) as [H1| ->].
    - pose proof (@rnd_err 24 128 _ x) as Q. pose proof (@ulp_below_1 24 128 _ _ x ltac:(lia) ltac:(lra)) as U.
      change (bpow radix2 (- (24))) with (/ 16777216)%R in U. lra.
    - rewrite (@rnd_int 24 128 _ _ 1) by (vm_compute; discriminate). rewrite Rminus_diag_eq, Rabs_R0 by reflexivity. lra. }
  destruct (through6_f64 (rnd32 x) p) as [F D]; [|exact T|].
  { rewrite Rabs_pos_eq by lra. assert (1 <= bpow radix2 1022)%R by (change 1%R with (bpow radix2 0); apply bpow_le; lia). lra. }
  split; [exact F|]. replace (B2R p - x)%R with ((B2R p - rnd32 x) + (rnd32 x - x))%R by ring.
  eapply Rle_trans; [apply Rabs_triang|]. rewrite (Rabs_pos_eq (rnd32 x)) in D by lra.
  assert (P : (0 < bpow radix2 (-53) <= / 1099511627776)%R).
  { split; [apply bpow_gt_0|]. change (/ 1099511627776)%R with (bpow radix2 (-40)). apply bpow_le. lia. }
  assert (rnd32 x * bpow radix2 (-53) <= 1 * / 1099511627776)%R by (apply Rmult_le_compat; lra). lra.
Qed.

Lemma fitted_true nf P trees : fitted nf P trees -> fitted nf (fun _ => True) trees.
Proof.
  intros [A B C D]. constructor; auto. eapply Forall_impl; [|exact D]. intros t H. eapply Forall_impl; [|exact H].
  intros r Hr. eapply Forall_impl; [|exact Hr]. auto.
Qed.
Lemma within_int lo hi trees : thresholds_within lo hi trees ->
  Forall (fun t => Forall (fun th => exists k, py_int th = Ret k) (sk_threshold t)) trees.
Proof.
  intros H. eapply Forall_impl; [|exact H]. intros t Ht. eapply Forall_impl; [|exact Ht]. intros th (k & E & _). eauto.
Qed.
Lemma small_int nf trees : small_model nf trees ->
  Forall (fun t => Forall (fun th => exists k, py_int th = Ret k) (sk_threshold t)) trees.
Proof.
  intros (_ & _ & H). eapply Forall_impl; [|exact H]. intros t Ht. eapply Forall_impl; [|exact Ht]. intros th (k & E & _). eauto.
Qed.

(** The leaves of an inline regressor. *)
Lemma inline_leaves nf nc trees B lb method w c features xs values row :
  (0 <= B <= bpow radix2 50)%R -> fitted nf (value_within B) trees -> nf <= 10000 -> In lb [None; Some 32] ->
  In method [None; Some MInline] -> thresholds_within (-32767) 32767 trees ->
  wrapper_init false method None lb trees nf nc = Ret w -> save_code w = Ret c ->
  zlen row = nf -> int16_row row features -> holds row values -> Forall2 (tree_value_by (go_lt features)) trees xs ->
  exists ks, Forall2 (fun (x : f64) (k : f32) => is_finite k = true /\ through_decimals 6 (B2R x) k /\
       (Rabs (B2R k - B2R x) <= 500001 / 1000000000000 + Rabs (B2R x) / 16777216)%R) xs ks /\
    code_regress c nf values nf = Ret (fdiv (fold_left fadd ks fzero) (f_of_Z (zlen trees))).
Proof.
  intros HB Hfit Hnf Hlb Hm HT Ew Ec L R Hh HX. pose proof (HB99 B HB) as HB'.
  destruct (reg_code nf trees B HB' Hfit py_int Z.ltb int16_test_ok) as (f & p & E & Ep & T & Lp & G).
  { eapply Forall_impl; [|exact HT]. intros t Ht. eapply Forall_impl; [|exact Ht]. intros th (k & Ek & Bk). exists k. split; [exact Ek|].
    unfold int16_test_ok. destruct (Z.leb_spec (-32767) k); [|lia]. destruct (Z.leb_spec k 32767); [reflexivity|lia]. }
  { exists 0. split; reflexivity. }
  assert (Ew' : wrapper_init false method None lb trees nf nc = Ret (mk_wrapper false MInline DInt16 32 f nf 0)).
  { unfold wrapper_init. rewrite (val_bits lb Hlb). change (choose_leaf false 32) with LeafValue. rewrite E. cbn [bind].
    destruct Hm as [<-|[<-|[]]]; cbn [bind]; (destruct (Z.ltb_spec 10000 nf); [lia|reflexivity]). }
  rewrite Ew' in Ew. injection Ew as <-. unfold save_code in Ec. cbn [w_method w_dtype w_classifier w_forest w_leaf_bits] in Ec.
  rewrite Ep in Ec. cbn [bind] in Ec. unfold compiles in Ec. rewrite T in Ec. cbn [bind] in Ec. injection Ec as <-.
  destruct (cast_int16 nf row features values L R Hh) as (LF & _ & Ef). cbn [code_regress]. rewrite Ef. cbn [bind].
  destruct (G features xs ltac:(lia) HX) as (ks & K & Er). exists ks. split; [|exact Er].
  assert (FX : Forall (fun x : f64 => (Rabs (B2R x) <= bpow radix2 126)%R) xs).
  { destruct (value_by_total nf trees B Hfit (go_lt features)) as (xs' & HX' & FX').
    assert (xs' = xs).
    { clear - HX HX'. revert xs' HX'. induction HX as [|t x ts xs H1 H2 IH]; intros xs' HX'; inversion HX' as [|? x' ? xs0 H3 H4]; subst; [reflexivity|].
      f_equal; [|apply IH; exact H4]. pose proof (sk_reaches_det _ _ _ _ _ H1 H3). congruence. }
    subst xs'. eapply Forall_impl; [|exact FX']. intros x (_ & Bx).
    assert (bpow radix2 99 <= bpow radix2 126)%R by (apply bpow_le; lia). lra. }
  clear - K FX. induction K as [|x k xs ks (F & T) K IH]; constructor; inversion FX as [|? ? Bx FX']; subst; auto.
  split; [exact F|]. split; [exact T|]. now destruct (through6_f32 (B2R x) k Bx T).
Qed.
