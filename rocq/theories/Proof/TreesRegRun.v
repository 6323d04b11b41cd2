(** Converted regressors from the fitted model to the numbers predict() returns; inline code with float features. *)
From Coq Require Import String ZArith List Bool Lia Reals Lra.
From Flocq Require Import Core BinarySingleNaN.
From Verif.Base Require Import Res CInt ListX Float FloatOrder Loops Arith RealSum.
From Verif.Model Require Import Common Text TreesConvert TreesC TreesInline TreesWrapper Cgen Harness TreesRun.
From Verif.Spec Require Import TreesSpec TreesCSpec VoteSpec ClassifierSpec CgenSpec HarnessSpec RunSpec RealSpec.
From Verif.Proof Require Import Text Cgen TreesFlatten TreesForest TreesLeaves TreesWalk Vote TreesEnd TreesHard
  Quantize TreesSoft TreesNodes TreesTop TreesApi TreesRegress TreesMisc TreesInlineRun Harness RunRows Through FloatMean TreesRun.
Import Verif.Spec.HarnessSpec ListNotations.
Open Scope Z_scope.
Open Scope res_scope.

(** ** Float constants *)
Lemma float_const_ok v : match v with PyInt z => Z.abs z <= 2 ^ 53 | PyFloat x => is_finite x = true end ->
  (Rabs (num_val v) <= bpow radix2 126)%R ->
  exists k, float_const v = Ret k /\ is_finite k = true /\ through_decimals 6 (num_val v) k.
Proof.
  intros H L. assert (X : exists x, py_float v = Ret x /\ is_finite x = true /\ B2R x = num_val v).
  { destruct v as [z|x]; cbn [py_float num_val].
    - destruct (@f_of_Z_exact 53 1024 _ _ z H) as [A B]. rewrite B. eauto.
    - eauto. }
  destruct X as (x & E & F & V).
  pose proof (@through_ok 53 1024 24 128 _ _ _ _ 6%nat x F) as T. rewrite V in T. change (Z.of_nat 6) with 6 in T.
  set (k := f_of_dec (Bsign x) (scaled_int 6 x) 6 : f32) in *.
  destruct (through6_f32 _ k L T) as [Fk _].
  exists k. split; [|split; assumption].
  unfold float_const, constant. replace (text_eqb (txt "float") (txt "float")) with true by (symmetry; now apply text_eqb_iff).
  rewrite E. cbn [bind]. unfold c_float_literal. rewrite scan_fixed by (try exact F; reflexivity).
  replace (text_eqb (txt "f") (txt "f")) with true by (symmetry; now apply text_eqb_iff).
  change (Z.of_nat 6) with 6. fold k. rewrite Fk. reflexivity.
Qed.
Lemma float_const_zero : float_const (PyInt 0) = Ret fzero.
Proof. vm_compute. reflexivity. Qed.

Section RegRun.
Variables (nf nc : Z) (trees : sk_forest) (B : R).
Hypothesis HB : (0 <= B <= bpow radix2 99)%R.
Hypothesis Hfit : fitted nf (value_within B) trees.
Hypothesis Hnt : zlen trees <= 8388608.

Lemma fit_value : fitted nf value_row trees.
Proof.
  destruct Hfit as [A1 A2 A3 A4]. constructor; auto. eapply Forall_impl; [|exact A4]. intros t Ht.
  eapply Forall_impl; [|exact Ht]. intros r Hr. eapply Forall_impl; [|exact Hr]. intros row (x & -> & F & _). exists x. auto.
Qed.
Definition wval_leaf (l : pyleaf) : Prop := exists x, l = LValue x /\ is_finite x = true /\ (Rabs (B2R x) <= B)%R.
Lemma wval_forest : exists nodes roots leaves,
  convert_forest (PyInt 0) (mk_pyleaf LeafValue 32) pyleaf_eqb trees = Ret (nodes, roots, leaves) /\
  forest_facts nf trees wval_leaf LeafValue 32 nodes roots leaves.
Proof.
  destruct (convert_facts nf (value_within B) trees Hfit LeafValue 32 wval_leaf) as (nodes & roots & leaves & E & F & _).
  - intros row (x & -> & Fx & Bx). simpl. eexists; split; [reflexivity|]. exists x; auto.
  - intros l (x & -> & F & _). simpl. apply beqb_refl. destruct x; auto; discriminate.
  - eauto.
Qed.
Lemma wval_leaf_val l : wval_leaf l -> val_leaf l.
Proof. intros (x & E & F & _). exists x. auto. Qed.
Lemma value_by_total go : exists xs, Forall2 (tree_value_by go) trees xs /\ Forall (fun x => is_finite x = true /\ (Rabs (B2R x) <= B)%R) xs.
Proof.
  assert (X : exists xs, Forall2 (fun t x => tree_value_by go t x /\ is_finite x = true /\ (Rabs (B2R x) <= B)%R) trees xs).
  { apply Forall2_exists. intros t Ht. pose proof (ft_trees _ _ _ Hfit) as HW. rewrite Forall_forall in HW.
    destruct (reaches_total nf t go (HW t Ht)) as [row Hr].
    destruct (reach_row nf (value_within B) trees Hfit t _ row Ht Hr) as (x & -> & Q). exists x. auto. }
  destruct X as [xs H]. exists xs. clear - H. induction H as [|t x ts xs (A & C) H [I1 I2]]; split; constructor; auto.
Qed.

(** ** Inline code, any feature type *)
Section Code.
Context {K X : Type} (const : pynum -> res K) (lt : X -> K -> bool) (ok : K -> bool).
Hypothesis HQ : Forall (fun t => Forall (fun th => exists k, const th = Ret k /\ ok k = true) (sk_threshold t)) trees.
Hypothesis H0 : exists k, const (PyInt 0) = Ret k /\ ok k = true.

Lemma reg_trees : exists f p, convert_forest (PyInt 0) (mk_pyleaf LeafValue 32) pyleaf_eqb trees = Ret f /\
  generate_c_inlined_regress const f 32 = Ret p /\ forallb (tests_ok ok) p = true /\ zlen p = zlen trees /\
  forall features xs, nf <= zlen features -> Forall2 (tree_value_by (decide const lt features)) trees xs ->
    exists ks, Forall2 (fun x k => is_finite k = true /\ through_decimals 6 (B2R x) k) xs ks /\
      Forall2 (fun t k => run_tree lt features t = Ret k) p ks.
Proof.
  destruct wval_forest as (nodes & roots & leaves & E & HFF).
  pose proof HFF as (V & R & L & P & HR & _). pose proof (trees_pos _ _ _ Hfit) as Hpos.
  assert (P99 : (bpow radix2 99 <= bpow radix2 126)%R) by (apply bpow_le; lia).
  assert (HT : Forall (fun d => exists k, const (d_value d) = Ret k /\ ok k = true) nodes).
  { eapply (convert_forest_nodes (PyInt 0) (mk_pyleaf LeafValue 32) pyleaf_eqb (fun th => exists k, const th = Ret k /\ ok k = true)); [|exact E].
    eapply Forall_impl; [|exact HQ]. intros t Ht. split; auto. }
  assert (HL : forall k, 0 <= k < zlen leaves -> exists r, value_leaf_const leaves k = Ret r).
  { intros k Hk. destruct (zget_ok leaves k Hk) as [l Hl]. unfold value_leaf_const. rewrite (pyget_zget _ _ _ Hl). cbn [bind].
    rewrite Forall_forall in P. destruct (P l (zget_In _ _ _ Hl)) as (x & -> & Fx & Bx).
    destruct (float_const_ok (PyFloat x) Fx) as (r & Er & _); [cbn [num_val]; lra|]. eauto. }
  destruct (roots_gen const lt nf (zlen leaves) nodes (value_leaf_const leaves) ok V HT HL roots R) as (ts & Em & Lt & T & H).
  destruct (bytes_table leaves) as (lv & Hlv & _). { eapply Forall_impl; [|exact P]. apply wval_leaf_val. }
  exists (nodes, roots, leaves), ts. split; [exact E|]. split; [unfold generate_c_inlined_regress; rewrite Hlv; exact Em|].
  split; [exact T|]. split; [lia|]. intros features xs Hf HX. specialize (H features Hf).
  assert (Q : exists ks, Forall2 (fun x k => is_finite k = true /\ through_decimals 6 (B2R x) k) xs ks /\ Forall2 (fun t k => run_tree lt features t = Ret k) ts ks).
  { clear Em T Lt L R Hpos E HFF HQ Hfit Hnt. unfold tree_value_by in HX. revert ts roots H HR. induction HX as [|t x trs xs Hx HX IH]; intros ts roots H HR.
    - inversion HR; subst. inversion H; subst. exists []. split; constructor.
    - inversion HR as [|? r ? rs Hrep HR']; subst. inversion H as [|it ? its ? (k & v & F1 & F2 & F3 & F4) H']; subst.
      destruct (IH its rs H' HR') as (ks & K1 & K2).
      destruct Hrep as [_ Hrep]. destruct (Hrep _ _ Hx) as (l & l' & E1 & E2 & k' & E3 & E4).
      assert (k' = k) by (eapply flat_leaf_det; eauto). subst k'.
      simpl in E1. injection E1 as <-. destruct l' as [| |x']; simpl in E2; try discriminate.
      rewrite Forall_forall in P. destruct (P _ (zget_In _ _ _ E4)) as (x2 & Ex2 & Fx & Bx). injection Ex2 as <-.
      unfold value_leaf_const in F3. rewrite (pyget_zget _ _ _ E4) in F3. cbn [bind] in F3.
      destruct (float_const_ok (PyFloat x') Fx) as (v' & Ev & Fv & Tv); [cbn [num_val]; lra|]. rewrite F3 in Ev. injection Ev as <-.
      assert (VX : B2R x = B2R x').
      { assert (Fx0 : is_finite x = true) by (clear - E2 Fx; destruct x as [sx|sx| |sx mx ex bx]; auto; destruct x' as [sy|sy| |sy my ey by_]; try discriminate Fx; destruct sx; try discriminate E2; destruct sy; discriminate E2).
        pose proof (Beqb_correct _ _ x x' Fx0 Fx) as BE. rewrite E2 in BE. symmetry in BE. revert BE. unfold Req_bool. destruct (Rcompare_spec (B2R x) (B2R x')); congruence. }
      exists (v :: ks). split; constructor; auto. cbn [num_val] in Tv. rewrite VX. auto. }
  exact Q.
Qed.
Lemma reg_code : exists f p, convert_forest (PyInt 0) (mk_pyleaf LeafValue 32) pyleaf_eqb trees = Ret f /\
  generate_c_inlined_regress const f 32 = Ret p /\ forallb (tests_ok ok) p = true /\ zlen p = zlen trees /\
  forall features xs, nf <= zlen features -> Forall2 (tree_value_by (decide const lt features)) trees xs ->
    exists ks, Forall2 (fun x k => is_finite k = true /\ through_decimals 6 (B2R x) k) xs ks /\
      inline_regress lt p features = Ret (fdiv (fold_left fadd ks fzero) (f_of_Z (zlen trees))).
Proof.
  destruct reg_trees as (f & p & E & Ep & T & Lt & G). exists f, p. split; [exact E|]. split; [exact Ep|]. split; [exact T|]. split; [exact Lt|].
  intros features xs Hf HX. destruct (G features xs Hf HX) as (ks & K1 & K2). exists ks. split; [exact K1|].
  unfold inline_regress.
  assert (EF : foldM (fun avg t => let* y := run_tree lt features t in Ret (fadd avg y)) fzero p = Ret (fold_left fadd ks fzero)).
  { generalize (fzero : f32). clear - K2. induction K2 as [|t k ts ks Ht K2 IH]; intros s; [reflexivity|].
    cbn [foldM fold_left]. rewrite Ht. cbn [bind]. apply IH. }
  rewrite EF. cbn [bind]. rewrite Lt. reflexivity.
Qed.
End Code.

(** ** Accuracy *)
Lemma inline_mean xs ks : 1 <= zlen xs <= 8388608 -> Forall (fun x => is_finite x = true /\ (Rabs (B2R x) <= B)%R) xs ->
  Forall2 (fun (x : f64) (k : f32) => is_finite k = true /\ through_decimals 6 (B2R x) k) xs ks ->
  let y := fdiv (fold_left fadd ks fzero) (f_of_Z (zlen xs)) in
  is_finite y = true /\ (Rabs (B2R y) <= 4 * (B + 1))%R /\
  (Rabs (B2R y - rsum (map B2R xs) / IZR (zlen xs)) <= (IZR (zlen xs) + 5) * B / 16777216 + 11 / 10000000)%R.
Proof.
  intros HN F K. cbn zeta. pose proof (bpow_gt_0 radix2 99) as P99.
  assert (P126 : (bpow radix2 99 <= bpow radix2 126)%R) by (apply bpow_le; lia).
  assert (P100 : (bpow radix2 100 = 2 * bpow radix2 99)%R) by (change 2%R with (bpow radix2 1); rewrite <- bpow_plus; reflexivity).
  assert (P1 : (1024 <= bpow radix2 99)%R) by (change 1024%R with (bpow radix2 10); apply bpow_le; lia).
  assert (LK : zlen ks = zlen xs) by (unfold zlen; now rewrite (Forall2_len _ _ _ K)).
  set (e := (500001 / 1000000000000)%R).
  assert (C : Forall2 (fun (x : f64) (k : f32) => is_finite k = true /\ (Rabs (B2R k - B2R x) <= e + B / 16777216)%R /\ (Rabs (B2R k) <= B * (1 + u24) + e)%R) xs ks).
  { clear LK HN. induction K as [|x k xs ks (Fk & T) K IH]; [constructor|]. inversion F as [|? ? (Fx & Bx) F']; subst. constructor; [|now apply IH].
    destruct (through6_f32 (B2R x) k ltac:(lra) T) as [_ D]. fold e in D.
    assert (D' : (Rabs (B2R k - B2R x) <= e + B / 16777216)%R) by lra. split; [exact Fk|]. split; [exact D'|].
    replace (B2R k) with ((B2R k - B2R x) + B2R x)%R by ring. eapply Rle_trans; [apply Rabs_triang|]. lra. }
  destruct (mean32_gen ks (B * (1 + u24) + e)) as [Fy Ey].
  { unfold e. lra. } { lia. }
  { clear - C. induction C as [|x k xs ks (A & _ & D) C IH]; constructor; auto. }
  rewrite LK in *. split; [exact Fy|].
  assert (S1 : (Rabs (rsum (map B2R ks) - rsum (map B2R xs)) <= IZR (zlen xs) * (e + B / 16777216))%R).
  { clear - C. induction C as [|x k xs ks (_ & D & _) C IH]; cbn [map].
    - change (rsum []) with 0%R. rewrite Rminus_0_r, Rabs_R0. change (zlen (@nil f64)) with 0. lra.
    - change (rsum (B2R k :: map B2R ks)) with (B2R k + rsum (map B2R ks))%R. change (rsum (B2R x :: map B2R xs)) with (B2R x + rsum (map B2R xs))%R.
      rewrite zlen_cons, plus_IZR. replace (B2R k + rsum (map B2R ks) - (B2R x + rsum (map B2R xs)))%R with ((B2R k - B2R x) + (rsum (map B2R ks) - rsum (map B2R xs)))%R by ring.
      eapply Rle_trans; [apply Rabs_triang|]. lra. }
  assert (BX : (Rabs (rsum (map B2R xs)) <= IZR (zlen xs) * B)%R).
  { clear - F. induction F as [|x xs (_ & D) F IH]; cbn [map].
    - change (rsum []) with 0%R. rewrite Rabs_R0. change (zlen (@nil f64)) with 0. lra.
    - change (rsum (B2R x :: map B2R xs)) with (B2R x + rsum (map B2R xs))%R. rewrite zlen_cons, plus_IZR. eapply Rle_trans; [apply Rabs_triang|]. lra. }
  set (n := IZR (zlen xs)) in *. assert (N1 : (1 <= n <= 8388608)%R) by (split; apply IZR_le; lia).
  assert (IN : (0 < / n <= 1)%R) by (split; [apply Rinv_0_lt_compat; lra|]; rewrite <- Rinv_1; apply Rinv_le; lra).
  set (r1 := rsum (map B2R ks)) in *. set (r2 := rsum (map B2R xs)) in *.
  set (y := B2R (fdiv (fold_left fadd ks fzero) (f_of_Z (zlen xs)))) in *.
  assert (S2 : (Rabs (r1 / n - r2 / n) <= e + B / 16777216)%R).
  { replace (r1 / n - r2 / n)%R with ((r1 - r2) * / n)%R by (field; lra). rewrite Rabs_mult, (Rabs_pos_eq (/ n)) by lra.
    apply Rle_trans with (n * (e + B / 16777216) * / n)%R; [apply Rmult_le_compat_r; lra|]. right. field. lra. }
  assert (S3 : (Rabs (r2 / n) <= B)%R).
  { unfold Rdiv. rewrite Rabs_mult, (Rabs_pos_eq (/ n)) by lra. apply Rle_trans with (n * B * / n)%R; [apply Rmult_le_compat_r; lra|]. right. field. lra. }
  assert (NB : (n * (B * u24) <= 8388608 * (B * u24))%R) by (apply Rmult_le_compat_r; lra).
  assert (NE : (n * (e * u24) <= 8388608 * (e * u24))%R) by (apply Rmult_le_compat_r; [unfold e; lra|lra]).
  assert (Pe : (0 < bpow radix2 (-150) <= / 1099511627776)%R).
  { split; [apply bpow_gt_0|]. change (/ 1099511627776)%R with (bpow radix2 (-40)). apply bpow_le. lia. }
  replace ((n + 3) * (B * (1 + u24) + e) * u24)%R with ((n + 3) * B * u24 + (n * (B * u24) + 3 * (B * u24)) * u24 + (n * (e * u24) + 3 * (e * u24)))%R in Ey by ring.
  assert (D : (Rabs (y - r2 / n) <= (n + 5) * B / 16777216 + 11 / 10000000)%R).
  { replace (y - r2 / n)%R with ((y - r1 / n) + (r1 / n - r2 / n))%R by ring. eapply Rle_trans; [apply Rabs_triang|].
    clear - Ey S2 NB NE Pe HB N1. unfold e in *. assert (0 <= B * u24)%R by lra. lra. }
  split; [|exact D]. replace y with ((y - r2 / n) + r2 / n)%R by ring. eapply Rle_trans; [apply Rabs_triang|].
  clear - D S3 NB HB N1. unfold Rdiv in *. lra.
Qed.

Lemma loadable_mean xs : 1 <= zlen xs <= 8388608 -> Forall (fun x => is_finite x = true /\ (Rabs (B2R x) <= B)%R) xs ->
  let y := fdiv (fold_left fadd (map f32_of_f64 xs) fzero) (f_of_Z (zlen xs)) in
  is_finite y = true /\ (Rabs (B2R y) <= 4 * (B + 1))%R /\
  (Rabs (B2R y - rsum (map B2R xs) / IZR (zlen xs)) <= (IZR (zlen xs) + 5) * B / 16777216 + bpow radix2 (-140))%R.
Proof.
  intros HN F. cbn zeta. destruct (mean32 xs B HB HN F) as [Fy Ey]. split; [exact Fy|].
  assert (BX : (Rabs (rsum (map B2R xs)) <= IZR (zlen xs) * B)%R).
  { clear - F. induction F as [|x xs (_ & D) F IH]; cbn [map].
    - change (rsum []) with 0%R. rewrite Rabs_R0. change (zlen (@nil f64)) with 0. lra.
    - change (rsum (B2R x :: map B2R xs)) with (B2R x + rsum (map B2R xs))%R. rewrite zlen_cons, plus_IZR. eapply Rle_trans; [apply Rabs_triang|]. lra. }
  set (n := IZR (zlen xs)) in *. assert (N1 : (1 <= n <= 8388608)%R) by (split; apply IZR_le; lia).
  assert (IN : (0 < / n <= 1)%R) by (split; [apply Rinv_0_lt_compat; lra|]; rewrite <- Rinv_1; apply Rinv_le; lra).
  set (r2 := rsum (map B2R xs)) in *. set (y := B2R (fdiv _ _)) in *.
  assert (S3 : (Rabs (r2 / n) <= B)%R).
  { unfold Rdiv. rewrite Rabs_mult, (Rabs_pos_eq (/ n)) by lra. apply Rle_trans with (n * B * / n)%R; [apply Rmult_le_compat_r; lra|]. right. field. lra. }
  assert (NB : (n * (B * u24) <= 8388608 * (B * u24))%R) by (apply Rmult_le_compat_r; lra).
  assert (Pe : (0 < bpow radix2 (-140) <= / 1099511627776)%R).
  { split; [apply bpow_gt_0|]. change (/ 1099511627776)%R with (bpow radix2 (-40)). apply bpow_le. lia. }
  split; [|unfold Rdiv in *; lra].
  replace y with ((y - r2 / n) + r2 / n)%R by ring. eapply Rle_trans; [apply Rabs_triang|]. clear - Ey S3 NB HB N1 Pe. lra.
Qed.
End RegRun.
