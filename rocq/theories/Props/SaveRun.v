(** The prediction functions of the saved C text, run as C: properties C147 and C148. *)
From Coq Require Import String ZArith List Bool Lia Reals Lra.
From Flocq Require Import Core BinarySingleNaN.
From Verif.Base Require Import Res CInt ListX Float.
From Verif.Model Require Import Common Text Cgen TreesConvert TreesC TreesInline TreesWrapper Harness TreesRun SaveText.
From Verif.Spec Require Import TreesSpec TreesCSpec VoteSpec ClassifierSpec HarnessSpec RunSpec RealSpec SoftSpec CgenSpec CTextSpec SaveSpec CRunSpec AnswerSpec.
From Verif.Proof Require Import Cgen SaveRunTop.
From Verif.Props Require Import Samples Trees EndToEnd Soft Save.
Import Verif.Spec.HarnessSpec ListNotations.
Open Scope Z_scope.
Open Scope list_scope.
Open Scope res_scope.

(** ** C147  NAME_predict *)
Theorem C147_majority nf n trees lb method dtype name pr :
  fitted nf (class_row n) trees -> 1 <= n <= 127 -> zlen trees < 2 ^ 24 -> In lb [None; Some 0; Some 1] ->
  In method [None; Some MInline] -> In dtype [None; Some DInt16] -> nf <= 10000 ->
  thresholds_within (-32767) 32767 trees -> identifier name -> ~ keyword name -> name <> txt "_Packed" ->
  exists w t, wrapper_init true method dtype lb trees nf n = Ret w /\ trees_text w name pr = Ret t /\
    forall features, nf <= zlen features -> exists cs c, Forall2 (tree_class features) trees cs /\ majority n cs c /\
      predicts int_lit int32_ret Z.ltb VI t name (txt "int16_t") features (VI c).
Proof.
  intros H1 H2 H3 H4 H5 H6 H7 H8 I1 I2 I3.
  destruct (hard_int16_runs nf n trees H1 H2 H3 lb H4 H7 method name pr H5 I1 I2 I3 dtype H6 H8) as (w & t & A & B & G).
  exists w, t. split; [exact A|]. split; [exact B|]. intros features Hf. destruct (G features Hf) as (cs & C & (c & D & E) & _). eauto 6.
Qed.
Theorem C147_majority_float nf n trees lb method name pr :
  fitted nf (class_row n) trees -> 1 <= n <= 127 -> zlen trees < 2 ^ 24 -> In lb [None; Some 0; Some 1] ->
  In method [None; Some MInline] -> nf <= 10000 ->
  float_thresholds trees -> identifier name -> ~ keyword name -> name <> txt "_Packed" ->
  exists w t, wrapper_init true method (Some DFloat) lb trees nf n = Ret w /\ trees_text w name pr = Ret t /\
    forall features : list f32, nf <= zlen features -> exists go cs c,
      decides_float features trees go /\ Forall2 (tree_class_by go) trees cs /\ majority n cs c /\
      predicts float_lit int32_ret fltb VI t name (txt "float") features (VI c).
Proof.
  intros H1 H2 H3 H4 H5 H7 H8 I1 I2 I3.
  destruct (hard_float_runs nf n trees H1 H2 H3 lb H4 H7 method name pr H5 I1 I2 I3 H8) as (w & t & A & B & G).
  exists w, t. split; [exact A|]. split; [exact B|]. intros features Hf. destruct (G features Hf) as (go & cs & C0 & C & (c & D & E) & _). eauto 8.
Qed.
Theorem C147_soft nf n bits trees method dtype name pr :
  fitted nf (proba_row n) trees -> 1 <= n <= 127 -> 2 <= bits <= 8 -> zlen trees <= 8388608 -> table_fits n trees ->
  In method [None; Some MInline] -> In dtype [None; Some DInt16] -> nf <= 10000 ->
  thresholds_within (-32767) 32767 trees -> identifier name -> ~ keyword name -> name <> txt "_Packed" ->
  exists w t, wrapper_init true method dtype (Some bits) trees nf n = Ret w /\ trees_text w name pr = Ret t /\
    forall features, nf <= zlen features -> exists rows c, Forall2 (tree_shares_by (go_lt features)) trees rows /\ chosen n bits rows c /\
      predicts int_lit int32_ret Z.ltb VI t name (txt "int16_t") features (VI c).
Proof.
  intros H1 H2 H3 H4 H5 H6 H7 H8 H9 I1 I2 I3.
  destruct (soft_int16_runs nf n bits trees H1 H2 H3 H4 H5 H8 method name pr H6 I1 I2 I3 dtype H7 H9) as (w & t & A & B & G).
  exists w, t. split; [exact A|]. split; [exact B|]. intros features Hf. destruct (G features Hf) as (rows & C & (c & D & E) & _). eauto 6.
Qed.
Theorem C147_soft_float nf n bits trees method name pr :
  fitted nf (proba_row n) trees -> 1 <= n <= 127 -> 2 <= bits <= 8 -> zlen trees <= 8388608 -> table_fits n trees ->
  In method [None; Some MInline] -> nf <= 10000 ->
  float_thresholds trees -> identifier name -> ~ keyword name -> name <> txt "_Packed" ->
  exists w t, wrapper_init true method (Some DFloat) (Some bits) trees nf n = Ret w /\ trees_text w name pr = Ret t /\
    forall features : list f32, nf <= zlen features -> exists go rows c,
      decides_float features trees go /\ Forall2 (tree_shares_by go) trees rows /\ chosen n bits rows c /\
      predicts float_lit int32_ret fltb VI t name (txt "float") features (VI c).
Proof.
  intros H1 H2 H3 H4 H5 H6 H8 H9 I1 I2 I3.
  destruct (soft_float_runs nf n bits trees H1 H2 H3 H4 H5 H8 method name pr H6 I1 I2 I3 H9) as (w & t & A & B & G).
  exists w, t. split; [exact A|]. split; [exact B|]. intros features Hf. destruct (G features Hf) as (go & rows & C0 & C & (c & D & E) & _). eauto 8.
Qed.
Theorem C147_regressor nf nc trees B lb method dtype name pr : (0 <= B <= bpow radix2 99)%R -> fitted nf (value_within B) trees -> zlen trees <= 8388608 ->
  In lb [None; Some 32] -> In method [None; Some MInline] -> In dtype [None; Some DInt16] -> nf <= 10000 ->
  thresholds_within (-32767) 32767 trees -> identifier name -> ~ keyword name -> name <> txt "_Packed" ->
  exists w t, wrapper_init false method dtype lb trees nf nc = Ret w /\ trees_text w name pr = Ret t /\
    forall features, nf <= zlen features -> exists xs y, Forall2 (tree_value_by (go_lt features)) trees xs /\
      predicts int_lit float_lit Z.ltb VF t name (txt "int16_t") features (VF y) /\ near_mean B xs y.
Proof. apply regress_runs. Qed.
Theorem C147_regressor_float nf nc trees B lb method name pr : (0 <= B <= bpow radix2 99)%R -> fitted nf (value_within B) trees -> zlen trees <= 8388608 ->
  In lb [None; Some 32] -> In method [None; Some MInline] -> nf <= 10000 ->
  float_thresholds trees -> identifier name -> ~ keyword name -> name <> txt "_Packed" ->
  exists w t, wrapper_init false method (Some DFloat) lb trees nf nc = Ret w /\ trees_text w name pr = Ret t /\
    forall features : list f32, nf <= zlen features -> exists go xs y,
      decides_float features trees go /\ Forall2 (tree_value_by go) trees xs /\
      predicts float_lit float_lit fltb VF t name (txt "float") features (VF y) /\ near_mean B xs y.
Proof. apply regress_float_runs. Qed.

(** ** C148  NAME_predict_proba *)
Theorem C148_fractions nf n trees lb method dtype name :
  fitted nf (class_row n) trees -> 1 <= n <= 127 -> zlen trees < 2 ^ 24 -> In lb [None; Some 0; Some 1] ->
  In method [None; Some MInline] -> In dtype [None; Some DInt16] -> nf <= 10000 ->
  thresholds_within (-32767) 32767 trees -> identifier name -> ~ keyword name -> name <> txt "_Packed" ->
  exists w t, wrapper_init true method dtype lb trees nf n = Ret w /\ trees_text w name true = Ret t /\
    forall features out, nf <= zlen features -> n <= zlen out -> exists cs out', Forall2 (tree_class features) trees cs /\
      probas int_lit int32_ret Z.ltb VI t name (txt "int16_t") features out n out' /\ fractions n cs out out'.
Proof.
  intros H1 H2 H3 H4 H5 H6 H7 H8 I1 I2 I3.
  destruct (hard_int16_runs nf n trees H1 H2 H3 lb H4 H7 method name true H5 I1 I2 I3 dtype H6 H8) as (w & t & A & B & G).
  exists w, t. split; [exact A|]. split; [exact B|]. intros features out Hf Ho. destruct (G features Hf) as (cs & C & _ & P).
  destruct (P eq_refl out Ho) as (out' & D & E). eauto 6.
Qed.
Theorem C148_fractions_float nf n trees lb method name :
  fitted nf (class_row n) trees -> 1 <= n <= 127 -> zlen trees < 2 ^ 24 -> In lb [None; Some 0; Some 1] ->
  In method [None; Some MInline] -> nf <= 10000 ->
  float_thresholds trees -> identifier name -> ~ keyword name -> name <> txt "_Packed" ->
  exists w t, wrapper_init true method (Some DFloat) lb trees nf n = Ret w /\ trees_text w name true = Ret t /\
    forall (features : list f32) out, nf <= zlen features -> n <= zlen out -> exists go cs out',
      decides_float features trees go /\ Forall2 (tree_class_by go) trees cs /\
      probas float_lit int32_ret fltb VI t name (txt "float") features out n out' /\ fractions n cs out out'.
Proof.
  intros H1 H2 H3 H4 H5 H7 H8 I1 I2 I3.
  destruct (hard_float_runs nf n trees H1 H2 H3 lb H4 H7 method name true H5 I1 I2 I3 H8) as (w & t & A & B & G).
  exists w, t. split; [exact A|]. split; [exact B|]. intros features out Hf Ho. destruct (G features Hf) as (go & cs & C0 & C & _ & P).
  destruct (P eq_refl out Ho) as (out' & D & E). eauto 8.
Qed.
Theorem C148_means nf n bits trees method dtype name :
  fitted nf (proba_row n) trees -> 1 <= n <= 127 -> 2 <= bits <= 8 -> zlen trees <= 8388608 -> table_fits n trees ->
  In method [None; Some MInline] -> In dtype [None; Some DInt16] -> nf <= 10000 ->
  thresholds_within (-32767) 32767 trees -> identifier name -> ~ keyword name -> name <> txt "_Packed" ->
  exists w t, wrapper_init true method dtype (Some bits) trees nf n = Ret w /\ trees_text w name true = Ret t /\
    forall features out, nf <= zlen features -> n <= zlen out -> exists rows out', Forall2 (tree_shares_by (go_lt features)) trees rows /\
      probas int_lit int32_ret Z.ltb VI t name (txt "int16_t") features out n out' /\ means_in n bits rows out out'.
Proof.
  intros H1 H2 H3 H4 H5 H6 H7 H8 H9 I1 I2 I3.
  destruct (soft_int16_runs nf n bits trees H1 H2 H3 H4 H5 H8 method name true H6 I1 I2 I3 dtype H7 H9) as (w & t & A & B & G).
  exists w, t. split; [exact A|]. split; [exact B|]. intros features out Hf Ho. destruct (G features Hf) as (rows & C & _ & P).
  destruct (P eq_refl out Ho) as (out' & D & E). eauto 6.
Qed.
Theorem C148_means_float nf n bits trees method name :
  fitted nf (proba_row n) trees -> 1 <= n <= 127 -> 2 <= bits <= 8 -> zlen trees <= 8388608 -> table_fits n trees ->
  In method [None; Some MInline] -> nf <= 10000 ->
  float_thresholds trees -> identifier name -> ~ keyword name -> name <> txt "_Packed" ->
  exists w t, wrapper_init true method (Some DFloat) (Some bits) trees nf n = Ret w /\ trees_text w name true = Ret t /\
    forall (features : list f32) out, nf <= zlen features -> n <= zlen out -> exists go rows out',
      decides_float features trees go /\ Forall2 (tree_shares_by go) trees rows /\
      probas float_lit int32_ret fltb VI t name (txt "float") features out n out' /\ means_in n bits rows out out'.
Proof.
  intros H1 H2 H3 H4 H5 H6 H8 H9 I1 I2 I3.
  destruct (soft_float_runs nf n bits trees H1 H2 H3 H4 H5 H8 method name true H6 I1 I2 I3 H9) as (w & t & A & B & G).
  exists w, t. split; [exact A|]. split; [exact B|]. intros features out Hf Ho. destruct (G features Hf) as (go & rows & C0 & C & _ & P).
  destruct (P eq_refl out Ho) as (out' & D & E). eauto 8.
Qed.

(** The sample forests. *)
Lemma few_abc : zlen forest_abc < 2 ^ 24.
Proof. reflexivity. Qed.
Lemma few_abc_soft : zlen forest_abc <= 8388608.
Proof. discriminate. Qed.
Lemma few_r : zlen forest_r <= 8388608.
Proof. discriminate. Qed.
Example C147_example :
  (exists w t c, wrapper_init true None None None forest_abc 2 3 = Ret w /\ trees_text w (txt "model") true = Ret t /\
     predicts int_lit int32_ret Z.ltb VI t (txt "model") (txt "int16_t") [5; 20] (VI c)) /\
  (exists w t c, wrapper_init true None None (Some 8) forest_abc 2 3 = Ret w /\ trees_text w (txt "model") true = Ret t /\
     predicts int_lit int32_ret Z.ltb VI t (txt "model") (txt "int16_t") [5; 20] (VI c)) /\
  (exists w t y, wrapper_init false None None None forest_r 2 0 = Ret w /\ trees_text w (txt "model") true = Ret t /\
     predicts int_lit float_lit Z.ltb VF t (txt "model") (txt "int16_t") [5; 20] (VF y)).
Proof.
  destruct model_name as (A & B & C). split; [|split].
  - destruct (C147_majority 2 3 forest_abc None None None _ true fitted_class ltac:(lia) few_abc ltac:(now left) ltac:(now left) ltac:(now left) ltac:(lia) thresholds_abc A B C)
      as (w & t & E1 & E2 & G). destruct (G [5; 20] ltac:(discriminate)) as (cs & c & Hcs & Hm & P). exists w, t, c. auto.
  - destruct (C147_soft 2 3 8 forest_abc None None _ true fitted_proba ltac:(lia) ltac:(lia) few_abc_soft table_abc ltac:(now left) ltac:(now left) ltac:(lia) thresholds_abc A B C)
      as (w & t & E1 & E2 & G). destruct (G [5; 20] ltac:(discriminate)) as (rows & c & _ & _ & P). exists w, t, c. auto.
  - assert (Q : (0 <= 10 <= bpow radix2 99)%R) by (split; [lra|apply Rle_trans with (bpow radix2 4); [change (bpow radix2 4) with 16%R; lra|apply bpow_le; lia]]).
    destruct (C147_regressor 2 0 forest_r 10 None None None _ true Q fitted_within_r few_r ltac:(now left) ltac:(now left) ltac:(now left) ltac:(lia) thresholds_r A B C) as (w & t & E1 & E2 & G).
    destruct (G [5; 20] ltac:(discriminate)) as (xs & y & _ & P & _). exists w, t, y. auto.
Qed.
Example C148_example :
  (exists w t out', wrapper_init true None None None forest_abc 2 3 = Ret w /\ trees_text w (txt "model") true = Ret t /\
     probas int_lit int32_ret Z.ltb VI t (txt "model") (txt "int16_t") [5; 20] [fzero; fzero; fzero] 3 out') /\
  (exists w t out', wrapper_init true None None (Some 8) forest_abc 2 3 = Ret w /\ trees_text w (txt "model") true = Ret t /\
     probas int_lit int32_ret Z.ltb VI t (txt "model") (txt "int16_t") [5; 20] [fzero; fzero; fzero] 3 out').
Proof.
  destruct model_name as (A & B & C). split.
  - destruct (C148_fractions 2 3 forest_abc None None None _ fitted_class ltac:(lia) few_abc ltac:(now left) ltac:(now left) ltac:(now left) ltac:(lia) thresholds_abc A B C)
      as (w & t & E1 & E2 & G). destruct (G [5; 20] [fzero; fzero; fzero] ltac:(discriminate) ltac:(discriminate)) as (cs & o & _ & P & _). exists w, t, o. auto.
  - destruct (C148_means 2 3 8 forest_abc None None _ fitted_proba ltac:(lia) ltac:(lia) few_abc_soft table_abc ltac:(now left) ltac:(now left) ltac:(lia) thresholds_abc A B C)
      as (w & t & E1 & E2 & G). destruct (G [5; 20] [fzero; fzero; fzero] ltac:(discriminate) ltac:(discriminate)) as (rows & o & _ & P & _). exists w, t, o. auto.
Qed.
