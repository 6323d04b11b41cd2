(** Soft voting end to end: convert() with leaf_bits 2 to 8, generated C code, compiled test program, returned numbers. *)
From Coq Require Import String ZArith List Bool Lia Reals Lra.
From Flocq Require Import Core BinarySingleNaN.
From Verif.Base Require Import Res CInt ListX Float.
From Verif.Model Require Import TreesConvert TreesC TreesInline TreesWrapper Harness TreesRun.
From Verif.Spec Require Import TreesSpec TreesCSpec ClassifierSpec HarnessSpec RunSpec SoftSpec.
From Verif.Proof Require Import TreesTop Quantize Harness RunRows TreesFloatRun TreesRunTop EndToEnd TreesSoftRun.
From Verif.Props Require Import Samples EndToEnd.
Import Verif.Spec.HarnessSpec ListNotations.
Open Scope Z_scope.
Open Scope res_scope.

(** ** C139  predict_proba with soft voting: the mean of the class proportions *)
Theorem C139_predict_proba nf n bits trees method dtype X :
  fitted nf (proba_row n) trees -> 1 <= n <= 127 -> nf <= 127 -> zlen trees <= 8388608 -> 2 <= bits <= 8 ->
  In dtype [None; Some DInt16] ->
  (In method [None; Some MInline] /\ thresholds_within (-32767) 32767 trees /\ table_fits n trees \/
   method = Some MLoadable /\ small_model nf trees) ->
  int16_rows nf X ->
  exists w m, wrapper_init true method dtype (Some bits) trees nf n = Ret w /\ wrapper_predict_proba w X = Ret m /\ zlen m = zlen X /\
  forall i row, zget X i = Ret row -> exists features rows r,
    int16_row row features /\ Forall2 (tree_shares_by (go_lt features)) trees rows /\ zget m i = Ret r /\
    forall k, 0 <= k < n -> exists p, zget r k = Ret (Some p) /\ is_finite p = true /\
      (Rabs (B2R p - mean_share rows k) <= soft_err bits (zlen trees) + / 1000000)%R.
Proof.
  intros H1 H2 H3 H4 H5 H6 H7 H8.
  destruct (soft_proba_run nf n bits trees H1 H2 H5 H4 method dtype X H3 H6 H7 H8) as (w & m & A & B & C & G).
  exists w, m. split; [exact A|]. split; [exact B|]. split; [exact C|]. intros i row Hr.
  destruct (G i row Hr) as (go & rows & r & (fs & R & ->) & HC & E & P). exists fs, rows, r. auto.
Qed.
(** Away from the integer parts of the thresholds these are the leaves scikit-learn's own walk ends in. *)
Theorem C139_as_sklearn nf n bits trees method dtype X :
  fitted nf (proba_row n) trees -> 1 <= n <= 127 -> nf <= 127 -> zlen trees <= 8388608 -> 2 <= bits <= 8 ->
  In dtype [None; Some DInt16] ->
  (In method [None; Some MInline] /\ thresholds_within (-32767) 32767 trees /\ table_fits n trees \/
   method = Some MLoadable /\ small_model nf trees) ->
  int16_rows nf X -> Forall (fun row => clear_int16 row trees) X ->
  exists w m, wrapper_init true method dtype (Some bits) trees nf n = Ret w /\ wrapper_predict_proba w X = Ret m /\ zlen m = zlen X /\
  forall i row, zget X i = Ret row -> exists rows r,
    Forall2 (tree_shares_by (go_sk row)) trees rows /\ zget m i = Ret r /\
    forall k, 0 <= k < n -> exists p, zget r k = Ret (Some p) /\ is_finite p = true /\
      (Rabs (B2R p - mean_share rows k) <= soft_err bits (zlen trees) + / 1000000)%R.
Proof.
  intros H1 H2 H3 H4 H5 H6 H7 H8 H9.
  destruct (C139_predict_proba nf n bits trees method dtype X H1 H2 H3 H4 H5 H6 H7 H8) as (w & m & A & B & C & G).
  exists w, m. split; [exact A|]. split; [exact B|]. split; [exact C|]. intros i row Hr.
  destruct (G i row Hr) as (fs & rows & r & R & HC & E & P). exists rows, r. split; [|split; assumption].
  destruct H8 as (_ & _ & HX). rewrite Forall_forall in HX, H9. pose proof (zget_In _ _ _ Hr) as I. destruct (HX row I) as [L _].
  eapply shares_by_ext; [|exact HC].
  apply (go_lt_sk row fs trees nf (fitted_true _ _ _ H1) L R); [|exact (H9 row I)].
  destruct H7 as [(_ & T & _)|(_ & T)]; [eapply within_int; eauto|eapply small_int; eauto].
Qed.
(** With float features. *)
Theorem C139_float nf n bits trees method X :
  fitted nf (proba_row n) trees -> 1 <= n <= 127 -> nf <= 10000 -> zlen trees <= 8388608 -> 2 <= bits <= 8 ->
  In method [None; Some MInline] -> float_thresholds trees -> table_fits n trees -> float_rows nf X ->
  exists w m, wrapper_init true method (Some DFloat) (Some bits) trees nf n = Ret w /\ wrapper_predict_proba w X = Ret m /\ zlen m = zlen X /\
  forall i row, zget X i = Ret row -> exists go rows r,
    float_decisions row trees go /\ (clear_float row trees -> Forall2 (tree_shares_by (go_sk row)) trees rows) /\
    Forall2 (tree_shares_by go) trees rows /\ zget m i = Ret r /\
    forall k, 0 <= k < n -> exists p, zget r k = Ret (Some p) /\ is_finite p = true /\
      (Rabs (B2R p - mean_share rows k) <= soft_err bits (zlen trees) + / 1000000)%R.
Proof.
  intros H1 H2 H3 H4 H5 H6 H7 H8 H9.
  destruct (soft_float_run nf n bits trees H1 H2 H5 H4 method X H3 H6 H7 H8 H9) as (w & m & out & A & B & C & _ & G).
  exists w, m. split; [exact A|]. split; [exact B|]. split; [exact C|]. intros i row Hr.
  destruct (G i row Hr) as [(go & rows & r & D & HC & E & P) _]. exists go, rows, r. split; [exact D|]. split; [|split; [exact HC|split; assumption]].
  intros CL. destruct H9 as (_ & _ & HX). rewrite Forall_forall in HX. destruct (HX row (zget_In _ _ _ Hr)) as (L & FR & _).
  eapply shares_by_ext; [|exact HC]. exact (float_go_sk nf row trees go (ft_trees _ _ _ H1) L FR H7 D CL).
Qed.
(** How large the error is: with 8 bits under 0.6 %, whatever the model up to 300 trees. *)
Theorem C139_error_8 nt : 1 <= nt <= 300 -> (soft_err 8 nt + / 1000000 <= 6 / 1000)%R.
Proof.
  intros [H1 H2]. apply IZR_le in H2. unfold soft_err, level_err. change (IZR (2 ^ 8 - 2)) with 254%R. lra.
Qed.
Lemma table_abc : table_fits 3 forest_abc.
Proof. unfold table_fits. vm_compute. discriminate. Qed.
Example C139_instance :
  (exists w m, wrapper_init true None None (Some 8) forest_abc 2 3 = Ret w /\ wrapper_predict_proba w rows_ab = Ret m /\ zlen m = 2) /\
  (exists w m, wrapper_init true (Some MLoadable) None (Some 4) forest_abc 2 3 = Ret w /\ wrapper_predict_proba w rows_ab = Ret m /\ zlen m = 2).
Proof.
  assert (L : zlen forest_abc = 3) by reflexivity. split.
  - destruct (C139_predict_proba 2 3 8 forest_abc None None rows_ab fitted_proba ltac:(lia) ltac:(lia) ltac:(lia) ltac:(lia) ltac:(cbn; auto)
      (or_introl (conj (or_introl eq_refl) (conj thresholds_abc table_abc))) rows_ab_ok) as (w & m & A & B & C & _). eauto.
  - destruct (C139_predict_proba 2 3 4 forest_abc (Some MLoadable) None rows_ab fitted_proba ltac:(lia) ltac:(lia) ltac:(lia) ltac:(lia) ltac:(cbn; auto)
      (or_intror (conj eq_refl small_abc)) rows_ab_ok) as (w & m & A & B & C & _). eauto.
Qed.

(** ** C140  predict with soft voting: the class with the largest mean proportion *)
(** Not always: with leaf_bits=2 a share of 24 % is stored as 0. When every share is stored as 0 no class is found, and the
    code -1 becomes class 1, although class 0 has the largest share; predict_proba returns zeros. *)
Definition five : list f64 := [q 24 100; q 19 100; q 19 100; q 19 100; q 19 100].
Theorem C140_argmax_refuted : exists trees, fitted 1 (proba_row 5) trees /\ zlen trees = 1 /\
  (forall row, Forall2 (tree_shares_by (go_sk row)) trees [five]) /\
  (forall j, 1 <= j < 5 -> (mean_share [five] j < mean_share [five] 0)%R) /\
  (forall method, In method [None; Some MInline; Some MLoadable] ->
    (let* w := wrapper_init true method None (Some 2) trees 1 5 in wrapper_predict w [[q 3 1]]) = Ret [PyInt 1] /\
    (let* w := wrapper_init true method None (Some 2) trees 1 5 in
     let* m := wrapper_predict_proba w [[q 3 1]] in
     Ret (map (map (option_map (fun x => Bcompare x fzero))) m)) =
    Ret [[Some (Some Eq); Some (Some Eq); Some (Some Eq); Some (Some Eq); Some (Some Eq)]]).
Proof.
  exists [tree_1 five]. split.
  { constructor; try discriminate; try lia; [each ltac:(apply wf_1)|].
    each ltac:(apply rows_ok; cbn [concat sk_value app tree_1]; each ltac:(apply proba_row_ok; vm_compute; reflexivity)). }
  split; [reflexivity|]. split.
  { intros row. constructor; [|constructor]. unfold tree_shares_by. eapply sk_reaches_leaf; reflexivity. }
  split.
  { intros j Hj. assert (E : fltb (q 19 100 : f64) (q 24 100) = true) by (vm_compute; reflexivity).
    apply fltb_iff in E; [|vm_compute; reflexivity|vm_compute; reflexivity].
    unfold mean_share. cbn [map fold_right]. change (zlen [five]) with 1.
    assert (Ej : j = 1 \/ j = 2 \/ j = 3 \/ j = 4) by lia.
    assert (V0 : row_val five 0 = B2R (q 24 100)) by reflexivity.
    assert (Vj : row_val five j = B2R (q 19 100)) by (destruct Ej as [->|[->|[->| ->]]]; reflexivity).
    rewrite V0, Vj. lra. }
  intros method [<-|[<-|[<-|[]]]]; split; vm_compute; reflexivity.
Qed.
(** What holds: no class has a mean proportion larger by more than twice the error. *)
Theorem C140_predict_partial nf n bits trees method dtype X :
  fitted nf (proba_row n) trees -> 2 <= n <= 127 -> nf <= 127 -> zlen trees <= 8388608 -> 2 <= bits <= 8 ->
  In dtype [None; Some DInt16] ->
  (In method [None; Some MInline] /\ thresholds_within (-32767) 32767 trees /\ table_fits n trees \/
   method = Some MLoadable /\ small_model nf trees /\ n <= 30) ->
  int16_rows nf X ->
  exists w out, wrapper_init true method dtype (Some bits) trees nf n = Ret w /\ wrapper_predict w X = Ret out /\ zlen out = zlen X /\
  forall i row, zget X i = Ret row -> exists features rows k,
    int16_row row features /\ Forall2 (tree_shares_by (go_lt features)) trees rows /\
    (clear_int16 row trees -> Forall2 (tree_shares_by (go_sk row)) trees rows) /\
    zget out i = Ret (PyInt k) /\ 0 <= k < n /\
    forall j, 0 <= j < n -> (mean_share rows j <= mean_share rows k + 2 * soft_err bits (zlen trees))%R.
Proof.
  intros H1 H2 H3 H4 H5 H6 H7 H8.
  destruct (soft_predict_run nf n bits trees H1 ltac:(lia) H5 H4 method dtype X H3 ltac:(lia) H6 H7 H8) as (w & out & A & B & C & G).
  exists w, out. split; [exact A|]. split; [exact B|]. split; [exact C|]. intros i row Hr.
  destruct (G i row Hr) as (go & rows & k & (fs & R & ->) & HC & E & P). exists fs, rows, k. split; [exact R|]. split; [exact HC|]. split; [|split; assumption].
  intros CL. destruct H8 as (_ & _ & HX). rewrite Forall_forall in HX. destruct (HX row (zget_In _ _ _ Hr)) as [L _].
  eapply shares_by_ext; [|exact HC].
  apply (go_lt_sk row fs trees nf (fitted_true _ _ _ H1) L R); [|exact CL].
  destruct H7 as [(_ & T & _)|(_ & T & _)]; [eapply within_int; eauto|eapply small_int; eauto].
Qed.
Theorem C140_float_partial nf n bits trees method X :
  fitted nf (proba_row n) trees -> 2 <= n <= 127 -> nf <= 10000 -> zlen trees <= 8388608 -> 2 <= bits <= 8 ->
  In method [None; Some MInline] -> float_thresholds trees -> table_fits n trees -> float_rows nf X ->
  exists w out, wrapper_init true method (Some DFloat) (Some bits) trees nf n = Ret w /\ wrapper_predict w X = Ret out /\ zlen out = zlen X /\
  forall i row, zget X i = Ret row -> exists go rows k,
    float_decisions row trees go /\ (clear_float row trees -> Forall2 (tree_shares_by (go_sk row)) trees rows) /\
    Forall2 (tree_shares_by go) trees rows /\ zget out i = Ret (PyInt k) /\ 0 <= k < n /\
    forall j, 0 <= j < n -> (mean_share rows j <= mean_share rows k + 2 * soft_err bits (zlen trees))%R.
Proof.
  intros H1 H2 H3 H4 H5 H6 H7 H8 H9.
  destruct (soft_float_run nf n bits trees H1 ltac:(lia) H5 H4 method X H3 H6 H7 H8 H9) as (w & m & out & A & _ & _ & BC & G).
  destruct (BC ltac:(lia)) as [B C].
  exists w, out. split; [exact A|]. split; [exact B|]. split; [exact C|]. intros i row Hr.
  destruct (G i row Hr) as [_ G2]. destruct (G2 ltac:(lia)) as (go & rows & k & D & HC & E & P). exists go, rows, k. split; [exact D|]. split; [|split; [exact HC|split; assumption]].
  intros CL. destruct H9 as (_ & _ & HX). rewrite Forall_forall in HX. destruct (HX row (zget_In _ _ _ Hr)) as (L & FR & _).
  eapply shares_by_ext; [|exact HC]. exact (float_go_sk nf row trees go (ft_trees _ _ _ H1) L FR H7 D CL).
Qed.
Example C140_instance :
  (exists w out, wrapper_init true None None (Some 8) forest_abc 2 3 = Ret w /\ wrapper_predict w rows_ab = Ret out /\ zlen out = 2) /\
  (let* w := wrapper_init true (Some MLoadable) None (Some 8) forest_abc 2 3 in wrapper_predict w rows_ab) = Ret [PyInt 0; PyInt 1].
Proof.
  assert (L : zlen forest_abc = 3) by reflexivity. split; [|vm_compute; reflexivity].
  destruct (C140_predict_partial 2 3 8 forest_abc None None rows_ab fitted_proba ltac:(lia) ltac:(lia) ltac:(lia) ltac:(lia) ltac:(cbn; auto)
      (or_introl (conj (or_introl eq_refl) (conj thresholds_abc table_abc))) rows_ab_ok) as (w & m & A & B & C & _). eauto.
Qed.
