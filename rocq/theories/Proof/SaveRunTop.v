(** What the saved inline text predicts, for fitted forests. *)
From Coq Require Import String ZArith List Bool Lia Reals Lra.
From Flocq Require Import Core BinarySingleNaN.
From Verif.Base Require Import Res CInt ListX Loops Float RealSum.
From Verif.Model Require Import Common Text Cgen TreesConvert TreesC TreesInline TreesWrapper TreesRun SaveText.
From Verif.Spec Require Import TreesSpec TreesCSpec VoteSpec ClassifierSpec HarnessSpec RunSpec SoftSpec RealSpec CTextSpec CgenSpec SaveSpec CRunSpec AnswerSpec.
From Verif.Proof Require Import Text Cgen CText Vote TreesFlatten TreesNodes TreesApi TreesRegress TreesForest TreesTop TreesInlineRun Quantize RunRows Through FloatMean TreesRun TreesRegRun TreesFloatRun TreesSoftRun
  ProbaFrame CRun SaveInline SaveFile SaveInlineTop SaveProps SaveRun.
Import Verif.Spec.HarnessSpec ListNotations.
Open Scope Z_scope.
Open Scope list_scope.
Open Scope res_scope.

(** The text of the compiled program [c] does what the program does. *)
Lemma saved_predicts w name pr c : w_method w = MInline -> identifier name -> ~ keyword name -> name <> txt "_Packed" ->
  0 <= w_n_classes w <= 2147483647 -> save_code w = Ret c -> exists t, trees_text w name pr = Ret t /\
  match c with
  | CodeInt16 p => (w_leaf_bits w = 0 \/ zlen (ip_leaves p) <= 2147483647) -> forall features,
      (forall k, inline_predict Z.ltb p features = Ret k -> predicts int_lit int32_ret Z.ltb VI t name (txt "int16_t") features (VI k)) /\
      (pr = true -> forall out n_out out', n_out <= 2147483647 -> inline_predict_proba Z.ltb p features out n_out = Ret (0, out') ->
         probas int_lit int32_ret Z.ltb VI t name (txt "int16_t") features out n_out out')
  | CodeFloat p => (w_leaf_bits w = 0 \/ zlen (ip_leaves p) <= 2147483647) -> forall features,
      (forall k, inline_predict fltb p features = Ret k -> predicts float_lit int32_ret fltb VI t name (txt "float") features (VI k)) /\
      (pr = true -> forall out n_out out', n_out <= 2147483647 -> inline_predict_proba fltb p features out n_out = Ret (0, out') ->
         probas float_lit int32_ret fltb VI t name (txt "float") features out n_out out')
  | CodeRegInt16 p => forall features y, inline_regress Z.ltb p features = Ret y -> predicts int_lit float_lit Z.ltb VF t name (txt "int16_t") features (VF y)
  | CodeRegFloat p => forall features y, inline_regress fltb p features = Ret y -> predicts float_lit float_lit fltb VF t name (txt "float") features (VF y)
  | CodeLoadable _ => True
  end.
Proof.
  intros HM I1 I2 I3 Hn E. destruct (inline_reads w name pr c HM (accepted _ I1 I2 I3) I1 ltac:(lia) E) as (t & fns & lvs & funcs & bytes & F & R & B1 & B2).
  exists t. split; [apply F|]. unfold save_code in E. rewrite HM in E.
  destruct (w_dtype w) eqn:HD; try discriminate; destruct (w_classifier w) eqn:HK.
  - apply bind_Ret in E. destruct E as (p & Ep & E). apply bind_Ret in E. destruct E as ([] & _ & E). injection E as <-.
    unfold save_inline, generate_c_inlined_int16, generate_c_inlined in Ep. destruct (w_forest w) as [[nodes roots] leaves]. apply bind_Ret in Ep. destruct Ep as (lv & El & Ep).
    apply bind_Ret in Ep. destruct Ep as (Ts & Et & Ep). injection Ep as <-. intros HB features. specialize (B1 _ eq_refl). cbn [ip_leaves] in *. rewrite B1 in *.
    assert (HDT : dtype_text (w_dtype w) = Ret (txt "int16_t")) by (rewrite HD; reflexivity). split.
    + intros k Ek. exact (classifier_predicts w name pr t fns lvs funcs bytes F Z.ltb int_lit _ _ features HK HDT R eq_refl eq_refl eq_refl ltac:(lia) HB k Ek).
    + intros Hp out n_out out' Ho Ek. exact (classifier_probas w name pr t fns lvs funcs bytes F Z.ltb int_lit _ _ features HK HDT R eq_refl eq_refl eq_refl ltac:(lia) HB out n_out out' Hp Ho Ek).
  - apply bind_Ret in E. destruct E as (p & Ep & E). apply bind_Ret in E. destruct E as ([] & _ & E). injection E as <-. intros features y Ey.
    apply (regressor_predicts w name pr t fns lvs funcs bytes F Z.ltb int_lit _ p features y HK); [rewrite HD; reflexivity|exact R|exact Ey].
  - apply bind_Ret in E. destruct E as (p & Ep & E). injection E as <-.
    unfold generate_c_inlined in Ep. destruct (w_forest w) as [[nodes roots] leaves]. apply bind_Ret in Ep. destruct Ep as (lv & El & Ep).
    apply bind_Ret in Ep. destruct Ep as (Ts & Et & Ep). injection Ep as <-. intros HB features. specialize (B2 _ eq_refl). cbn [ip_leaves] in *. rewrite B2 in *.
    assert (HDT : dtype_text (w_dtype w) = Ret (txt "float")) by (rewrite HD; reflexivity). split.
    + intros k Ek. exact (classifier_predicts w name pr t fns lvs funcs bytes F fltb float_lit _ _ features HK HDT R eq_refl eq_refl eq_refl ltac:(lia) HB k Ek).
    + intros Hp out n_out out' Ho Ek. exact (classifier_probas w name pr t fns lvs funcs bytes F fltb float_lit _ _ features HK HDT R eq_refl eq_refl eq_refl ltac:(lia) HB out n_out out' Hp Ho Ek).
  - apply bind_Ret in E. destruct E as (p & Ep & E). injection E as <-. intros features y Ey.
    apply (regressor_predicts w name pr t fns lvs funcs bytes F fltb float_lit _ p features y HK); [rewrite HD; reflexivity|exact R|exact Ey].
Qed.

Lemma init_bits classifier method dtype lb trees nf n w : wrapper_init classifier method dtype lb trees nf n = Ret w -> w_leaf_bits w = choose_leaf_bits classifier lb.
Proof. intros E. now destruct (wrapper_init_Ret _ _ _ _ _ _ _ _ E) as (_ & W & _). Qed.
Lemma inline_w classifier method dtype lb trees nf n w : wrapper_init classifier method dtype lb trees nf n = Ret w -> In method [None; Some MInline] -> w_method w = MInline.
Proof. intros E Hm. destruct (init_method _ _ _ _ _ _ _ _ E) as [M _]. destruct Hm as [<-|[<-|[]]]; exact M. Qed.

Lemma float_decides trees features : float_thresholds trees -> decides_float features trees (decide float_const fltb features).
Proof.
  intros HT tree ff th x It Ith Hx Fx. unfold float_thresholds in HT. rewrite Forall_forall in HT. specialize (HT tree It). rewrite Forall_forall in HT.
  destruct (HT th Ith) as [Q1 Q2]. destruct (float_const_ok th Q1 Q2) as (k & Ek & Fk & Tk). exists k. split; [exact Fk|]. split; [exact Tk|].
  unfold decide. rewrite Hx, Ek. now apply fltb_iff.
Qed.
Section Hard.
Variables (nf n : Z) (trees : sk_forest).
Hypothesis Hfit : fitted nf (class_row n) trees.
Hypothesis Hn : 1 <= n <= 127.
Hypothesis Hnt : zlen trees < 2 ^ 24.
Variable lb : option Z.
Hypothesis Hlb : hard_args lb.
Hypothesis Hnf : nf <= 10000.
Variables (method : option method_arg) (name : text) (pr : bool).
Hypothesis Hm : In method [None; Some MInline].
Hypothesis I1 : identifier name.
Hypothesis I2 : ~ keyword name.
Hypothesis I3 : name <> txt "_Packed".
Lemma hard_int16_runs dtype : In dtype [None; Some DInt16] -> thresholds_within (-32767) 32767 trees ->
  exists w t, wrapper_init true method dtype lb trees nf n = Ret w /\ trees_text w name pr = Ret t /\
    forall features, nf <= zlen features -> exists cs, Forall2 (tree_class features) trees cs /\
      (exists c, majority n cs c /\ predicts int_lit int32_ret Z.ltb VI t name (txt "int16_t") features (VI c)) /\
      (pr = true -> forall out, n <= zlen out -> exists out', probas int_lit int32_ret Z.ltb VI t name (txt "int16_t") features out n out' /\ fractions n cs out out').
Proof using All.
  intros Hd HT. destruct (int16_code nf n trees Hfit Hn Hnt lb Hlb HT Hnf method dtype (conj Hm Hd)) as (w & p & A & B & C & D & E & G).
  destruct (saved_predicts w name pr _ (inline_w _ _ _ _ _ _ _ _ A Hm) I1 I2 I3 ltac:(lia) B) as (t & Et & P).
  specialize (P (or_introl (eq_trans (init_bits _ _ _ _ _ _ _ _ A) (hard_bits lb Hlb)))).
  exists w, t. split; [exact A|]. split; [exact Et|]. intros features Hf.
  destruct (class_by_total nf n trees Hfit Hn (go_lt features)) as (cs & HC). exists cs. split; [exact HC|].
  destruct (G features cs Hf HC) as [(c & Ec & Mc) GP]. destruct (P features) as [P1 P2]. split.
  - exists c. split; [exact Mc|]. apply P1. exact Ec.
  - intros Hp out Ho. destruct (proba_frame Z.ltb p features (fun c y => is_finite y = true /\ B2R y = rnd32 (IZR (votes cs c) / IZR (zlen trees))) n out ltac:(lia) GP) as (out' & Eo & Lo & Go & Fo).
    exists out'. split; [apply (P2 Hp); [lia|exact Eo]|]. split; [exact Lo|]. split; [|exact Fo].
    rewrite <- (Forall2_zlen _ _ _ HC). exact Go.
Qed.
Lemma hard_float_runs : float_thresholds trees ->
  exists w t, wrapper_init true method (Some DFloat) lb trees nf n = Ret w /\ trees_text w name pr = Ret t /\
    forall features : list f32, nf <= zlen features -> exists go cs, decides_float features trees go /\ Forall2 (tree_class_by go) trees cs /\
      (exists c, majority n cs c /\ predicts float_lit int32_ret fltb VI t name (txt "float") features (VI c)) /\
      (pr = true -> forall out, n <= zlen out -> exists out', probas float_lit int32_ret fltb VI t name (txt "float") features out n out' /\ fractions n cs out out').
Proof using All.
  intros HT. destruct (float_code nf n trees Hfit Hn Hnt lb Hlb HT Hnf method Hm) as (w & p & A & B & C & D & E & G).
  destruct (saved_predicts w name pr _ (inline_w _ _ _ _ _ _ _ _ A Hm) I1 I2 I3 ltac:(lia) B) as (t & Et & P).
  specialize (P (or_introl (eq_trans (init_bits _ _ _ _ _ _ _ _ A) (hard_bits lb Hlb)))).
  exists w, t. split; [exact A|]. split; [exact Et|]. intros features Hf. exists (decide float_const fltb features).
  destruct (class_by_total nf n trees Hfit Hn (decide float_const fltb features)) as (cs & HC). exists cs. split; [now apply float_decides|]. split; [exact HC|].
  destruct (G features cs Hf HC) as [(c & Ec & Mc) GP]. destruct (P features) as [P1 P2]. split.
  - exists c. split; [exact Mc|]. apply P1. exact Ec.
  - intros Hp out Ho. destruct (proba_frame fltb p features (fun c y => is_finite y = true /\ B2R y = rnd32 (IZR (votes cs c) / IZR (zlen trees))) n out ltac:(lia) GP) as (out' & Eo & Lo & Go & Fo).
    exists out'. split; [apply (P2 Hp); [lia|exact Eo]|]. split; [exact Lo|]. split; [|exact Fo].
    rewrite <- (Forall2_zlen _ _ _ HC). exact Go.
Qed.
End Hard.

Section Soft.
Variables (nf n bits : Z) (trees : sk_forest).
Hypothesis Hfit : fitted nf (proba_row n) trees.
Hypothesis Hn : 1 <= n <= 127.
Hypothesis Hbits : 2 <= bits <= 8.
Hypothesis Hnt : zlen trees <= 8388608.
Hypothesis Htab : table_fits n trees.
Hypothesis Hnf : nf <= 10000.
Variables (method : option method_arg) (name : text) (pr : bool).
Hypothesis Hm : In method [None; Some MInline].
Hypothesis I1 : identifier name.
Hypothesis I2 : ~ keyword name.
Hypothesis I3 : name <> txt "_Packed".
Lemma share_close rows k : Forall (proba_row n) rows -> zlen rows = zlen trees -> 0 <= k < n ->
  is_finite (soft_mean bits rows k) = true /\ (Rabs (B2R (soft_mean bits rows k) - mean_share rows k) <= soft_err bits (zlen rows))%R.
Proof using Hfit Hn Hbits Hnt.
  intros FR LR Hk. pose proof (trees_pos _ _ _ Hfit).
  destruct (soft_mean_close n bits Hbits rows k FR ltac:(lia) Hk) as (A & _ & B). split; [exact A|]. unfold soft_err. exact B.
Qed.
Lemma best_chosen rows c : Forall (proba_row n) rows -> zlen rows = zlen trees -> best n bits rows c -> chosen n bits rows c.
Proof using Hfit Hn Hbits Hnt.
  intros FR LR [[-> Z]|[Bk M]].
  - left. split; [reflexivity|]. intros k Hk. destruct (share_close rows k FR LR Hk) as [_ C1]. apply Rabs_le_inv in C1. pose proof (Z k Hk). lra.
  - right. split; [exact Bk|]. intros k Hk. destruct (share_close rows k FR LR Hk) as [_ C1]. destruct (share_close rows c FR LR Bk) as [_ C2].
    apply Rabs_le_inv in C1. apply Rabs_le_inv in C2. pose proof (M k Hk). lra.
Qed.
Lemma soft_int16_runs dtype : In dtype [None; Some DInt16] -> thresholds_within (-32767) 32767 trees ->
  exists w t, wrapper_init true method dtype (Some bits) trees nf n = Ret w /\ trees_text w name pr = Ret t /\
    forall features, nf <= zlen features -> exists rows, Forall2 (tree_shares_by (go_lt features)) trees rows /\
      (exists c, chosen n bits rows c /\ predicts int_lit int32_ret Z.ltb VI t name (txt "int16_t") features (VI c)) /\
      (pr = true -> forall out, n <= zlen out -> exists out', probas int_lit int32_ret Z.ltb VI t name (txt "int16_t") features out n out' /\ means_in n bits rows out out').
Proof using All.
  intros Hd HT. destruct (soft_int16_code nf n bits trees Hfit Hn Hbits Hnt Htab method dtype HT Hnf (conj Hm Hd)) as (w & p & A & B & C & D & E & TB & G).
  destruct (saved_predicts w name pr _ (inline_w _ _ _ _ _ _ _ _ A Hm) I1 I2 I3 ltac:(lia) B) as (t & Et & P). specialize (P (or_intror TB)).
  exists w, t. split; [exact A|]. split; [exact Et|]. intros features Hf. destruct (shares_total nf n trees Hfit (go_lt features)) as (rows & HC & FR & LR).
  exists rows. split; [exact HC|]. destruct (G features rows Hf HC) as [(c & Ec & Mc) GP]. destruct (P features) as [P1 P2]. split.
  - exists c. split; [exact (best_chosen _ _ FR LR Mc)|]. apply P1. exact Ec.
  - intros Hp out Ho. destruct (proba_frame Z.ltb p features (fun c y => y = soft_mean bits rows c) n out ltac:(lia)) as (out' & Eo & Lo & Go & Fo).
    { intros o0 H0. destruct (GP o0 H0) as (o & G1 & G2 & G3). exists o. split; [exact G1|]. split; [exact G2|]. intros k Hk. exists (soft_mean bits rows k). auto. }
    exists out'. split; [apply (P2 Hp); [lia|exact Eo]|]. split; [exact Lo|]. split; [|exact Fo].
    intros k Hk. destruct (Go k Hk) as (y & Hy & ->). exists (soft_mean bits rows k). split; [exact Hy|]. exact (share_close rows k FR LR Hk).
Qed.
Lemma soft_float_runs : float_thresholds trees ->
  exists w t, wrapper_init true method (Some DFloat) (Some bits) trees nf n = Ret w /\ trees_text w name pr = Ret t /\
    forall features : list f32, nf <= zlen features -> exists go rows, decides_float features trees go /\ Forall2 (tree_shares_by go) trees rows /\
      (exists c, chosen n bits rows c /\ predicts float_lit int32_ret fltb VI t name (txt "float") features (VI c)) /\
      (pr = true -> forall out, n <= zlen out -> exists out', probas float_lit int32_ret fltb VI t name (txt "float") features out n out' /\ means_in n bits rows out out').
Proof using All.
  intros HT. destruct (soft_float_code nf n bits trees Hfit Hn Hbits Hnt Htab method HT Hnf Hm) as (w & p & A & B & C & D & E & TB & G).
  destruct (saved_predicts w name pr _ (inline_w _ _ _ _ _ _ _ _ A Hm) I1 I2 I3 ltac:(lia) B) as (t & Et & P). specialize (P (or_intror TB)).
  exists w, t. split; [exact A|]. split; [exact Et|]. intros features Hf. exists (decide float_const fltb features).
  destruct (shares_total nf n trees Hfit (decide float_const fltb features)) as (rows & HC & FR & LR).
  exists rows. split; [now apply float_decides|]. split; [exact HC|]. destruct (G features rows Hf HC) as [(c & Ec & Mc) GP]. destruct (P features) as [P1 P2]. split.
  - exists c. split; [exact (best_chosen _ _ FR LR Mc)|]. apply P1. exact Ec.
  - intros Hp out Ho. destruct (proba_frame fltb p features (fun c y => y = soft_mean bits rows c) n out ltac:(lia)) as (out' & Eo & Lo & Go & Fo).
    { intros o0 H0. destruct (GP o0 H0) as (o & G1 & G2 & G3). exists o. split; [exact G1|]. split; [exact G2|]. intros k Hk. exists (soft_mean bits rows k). auto. }
    exists out'. split; [apply (P2 Hp); [lia|exact Eo]|]. split; [exact Lo|]. split; [|exact Fo].
    intros k Hk. destruct (Go k Hk) as (y & Hy & ->). exists (soft_mean bits rows k). split; [exact Hy|]. exact (share_close rows k FR LR Hk).
Qed.
End Soft.

Lemma regress_runs nf nc trees B lb method dtype name pr : (0 <= B <= bpow radix2 99)%R -> fitted nf (value_within B) trees -> zlen trees <= 8388608 ->
  In lb [None; Some 32] -> In method [None; Some MInline] -> In dtype [None; Some DInt16] -> nf <= 10000 ->
  thresholds_within (-32767) 32767 trees -> identifier name -> ~ keyword name -> name <> txt "_Packed" ->
  exists w t, wrapper_init false method dtype lb trees nf nc = Ret w /\ trees_text w name pr = Ret t /\
    forall features, nf <= zlen features -> exists xs y, Forall2 (tree_value_by (go_lt features)) trees xs /\
      predicts int_lit float_lit Z.ltb VF t name (txt "int16_t") features (VF y) /\ near_mean B xs y.
Proof.
  intros HB Hfit Hnt Hlb Hm Hd Hnf HTH I1 I2 I3.
  destruct (reg_code nf trees B HB Hfit py_int Z.ltb int16_test_ok) as (f & p & E & Ep & T & Lp & G).
  { eapply Forall_impl; [|exact HTH]. intros t Ht. eapply Forall_impl; [|exact Ht]. intros th (k & Ek & Bk). exists k. split; [exact Ek|].
    unfold int16_test_ok. destruct (Z.leb_spec (-32767) k); [|lia]. destruct (Z.leb_spec k 32767); [reflexivity|lia]. }
  { exists 0. split; reflexivity. }
  assert (Ew : wrapper_init false method dtype lb trees nf nc = Ret (mk_wrapper false MInline DInt16 32 f nf 0)).
  { unfold wrapper_init. rewrite (val_bits lb Hlb). change (choose_leaf false 32) with LeafValue. rewrite E. cbn [bind].
    destruct Hm as [<-|[<-|[]]]; destruct Hd as [<-|[<-|[]]]; cbn [bind]; (destruct (Z.ltb_spec 10000 nf); [lia|reflexivity]). }
  assert (Ec : save_code (mk_wrapper false MInline DInt16 32 f nf 0) = Ret (CodeRegInt16 p)).
  { unfold save_code. cbn [w_method w_dtype w_classifier w_forest w_leaf_bits]. rewrite Ep. cbn [bind]. unfold compiles. rewrite T. reflexivity. }
  destruct (saved_predicts (mk_wrapper false MInline DInt16 32 f nf 0) name pr _ eq_refl I1 I2 I3 ltac:(split; [apply Z.le_refl|discriminate]) Ec) as (t & Et & P).
  eexists. exists t. split; [exact Ew|]. split; [exact Et|]. intros features Hf.
  destruct (value_by_total nf trees B Hfit (go_lt features)) as (xs & HX & FX).
  destruct (G features xs Hf HX) as (ks & K & Er).
  assert (LX : zlen xs = zlen trees) by (apply Forall2_zlen in HX; lia). pose proof (trees_pos _ _ _ Hfit).
  destruct (inline_mean B HB xs ks ltac:(lia) FX K) as (F1 & _ & F3). rewrite <- LX in Er.
  exists xs. eexists. split; [exact HX|]. split; [exact (P features _ Er)|]. split; [exact F1|exact F3].
Qed.
Lemma regress_float_runs nf nc trees B lb method name pr : (0 <= B <= bpow radix2 99)%R -> fitted nf (value_within B) trees -> zlen trees <= 8388608 ->
  In lb [None; Some 32] -> In method [None; Some MInline] -> nf <= 10000 ->
  float_thresholds trees -> identifier name -> ~ keyword name -> name <> txt "_Packed" ->
  exists w t, wrapper_init false method (Some DFloat) lb trees nf nc = Ret w /\ trees_text w name pr = Ret t /\
    forall features : list f32, nf <= zlen features -> exists go xs y, decides_float features trees go /\ Forall2 (tree_value_by go) trees xs /\
      predicts float_lit float_lit fltb VF t name (txt "float") features (VF y) /\ near_mean B xs y.
Proof.
  intros HB Hfit Hnt Hlb Hm Hnf HTH I1 I2 I3.
  destruct (reg_code nf trees B HB Hfit float_const fltb (fun _ => true)) as (f & p & E & Ep & T & Lp & G).
  { eapply Forall_impl; [|exact HTH]. intros t Ht. eapply Forall_impl; [|exact Ht]. intros th (Q1 & Q2).
    destruct (float_const_ok th Q1 Q2) as (k & Ek & _). eauto. }
  { exists fzero. split; [apply float_const_zero|reflexivity]. }
  assert (Ew : wrapper_init false method (Some DFloat) lb trees nf nc = Ret (mk_wrapper false MInline DFloat 32 f nf 0)).
  { unfold wrapper_init. rewrite (val_bits lb Hlb). change (choose_leaf false 32) with LeafValue. rewrite E. cbn [bind].
    destruct Hm as [<-|[<-|[]]]; cbn [bind]; (destruct (Z.ltb_spec 10000 nf); [lia|reflexivity]). }
  assert (Ec : save_code (mk_wrapper false MInline DFloat 32 f nf 0) = Ret (CodeRegFloat p)).
  { unfold save_code. cbn [w_method w_dtype w_classifier w_forest w_leaf_bits]. rewrite Ep. cbn [bind]. reflexivity. }
  destruct (saved_predicts (mk_wrapper false MInline DFloat 32 f nf 0) name pr _ eq_refl I1 I2 I3 ltac:(split; [apply Z.le_refl|discriminate]) Ec) as (t & Et & P).
  eexists. exists t. split; [exact Ew|]. split; [exact Et|]. intros features Hf.
  destruct (value_by_total nf trees B Hfit (decide float_const fltb features)) as (xs & HX & FX).
  destruct (G features xs Hf HX) as (ks & K & Er).
  assert (LX : zlen xs = zlen trees) by (apply Forall2_zlen in HX; lia). pose proof (trees_pos _ _ _ Hfit).
  destruct (inline_mean B HB xs ks ltac:(lia) FX K) as (F1 & _ & F3). rewrite <- LX in Er.
  exists (decide float_const fltb features), xs. eexists. split; [now apply float_decides|]. split; [exact HX|]. split; [exact (P features _ Er)|]. split; [exact F1|exact F3].
Qed.
