(** Converted classifiers from the fitted model to the numbers predict() and predict_proba() return. *)
From Coq Require Import ZArith List Bool Lia Reals Lra.
From Flocq Require Import Core BinarySingleNaN.
From Verif.Base Require Import Res CInt ListX Float Loops.
From Verif.Model Require Import Common TreesConvert TreesC TreesInline TreesWrapper Harness TreesRun.
From Verif.Spec Require Import TreesSpec TreesCSpec VoteSpec ClassifierSpec HarnessSpec RunSpec.
From Verif.Proof Require Import TreesFlatten TreesForest TreesLeaves TreesWalk Vote TreesEnd TreesHard
  Quantize TreesSoft TreesNodes TreesTop TreesApi TreesMisc TreesInlineRun Harness RunRows.
Import Verif.Spec.HarnessSpec ListNotations.
Open Scope Z_scope.
Open Scope res_scope.

Section HardRun.
Variables (nf n : Z) (trees : sk_forest).
Hypothesis Hfit : fitted nf (class_row n) trees.
Hypothesis Hn : 1 <= n <= 127.
Hypothesis Hnt : zlen trees < 2 ^ 24.

Lemma class_by_leaf go nodes roots leaves cs :
  forest_facts nf trees (hard_leaf n) LeafArgmax 0 nodes roots leaves ->
  Forall2 (tree_class_by go) trees cs -> Forall2 (fun r c => flat_reaches nodes leaves go r (LClass c)) roots cs.
Proof.
  intros (_ & _ & _ & HP & HR & _) HC.
  assert (Hin : forall t, In t trees -> forall row, sk_reaches t go 0 row -> class_row n row)
    by (intros; eapply reach_row; eauto).
  clear Hfit Hn Hnt. revert roots HR cs HC. induction trees as [|t ts IH]; intros roots HR cs HC; inversion HR as [|? ? ? ? H1 HR']; inversion HC as [|? ? ? ? H3 HC']; subst; constructor.
  - destruct H3 as (row & Hr & Hc). destruct H1 as [_ H1]. destruct (H1 _ _ Hr) as (lf & lf' & E1 & E2 & E3).
    destruct (Hin t (or_introl eq_refl) row Hr) as [_ HF].
    assert (Hne : row <> []). { intros ->. simpl in E1. discriminate. }
    simpl in E1. rewrite (row_class_argmax row _ Hne HF Hc) in E1. inv E1.
    destruct lf' as [c'| |]; simpl in E2; try discriminate. apply Z.eqb_eq in E2. subst. auto.
  - apply IH; auto. intros; eapply Hin; eauto. right; auto.
Qed.
Lemma class_by_total go : exists cs, Forall2 (tree_class_by go) trees cs.
Proof.
  apply Forall2_exists. intros t Ht. destruct Hfit as [_ _ HW _]. rewrite Forall_forall in HW.
  destruct (reaches_total nf t go (HW t Ht)) as [row Hr].
  destruct (reach_row nf (class_row n) trees Hfit t _ row Ht Hr) as [Hl HF].
  assert (Hne : row <> []) by (intros ->; unfold zlen in Hl; simpl in Hl; lia).
  destruct (np_argmax_class row Hne HF) as (c & E & Hc). exists c, row. auto.
Qed.

(** The program generated for any feature type. *)
Section Code.
Context {K X : Type} (const : pynum -> res K) (lt : X -> K -> bool) (ok : K -> bool).
Hypothesis HQ : Forall (fun t => Forall (fun th => exists k, const th = Ret k /\ ok k = true) (sk_threshold t)) trees.
Hypothesis H0 : exists k, const (PyInt 0) = Ret k /\ ok k = true.

Lemma hard_code : exists f p, convert_forest (PyInt 0) (mk_pyleaf LeafArgmax 0) pyleaf_eqb trees = Ret f /\
  generate_c_inlined const f n 0 = Ret p /\ forallb (tests_ok ok) (ip_trees p) = true /\
  forall features cs, nf <= zlen features -> Forall2 (tree_class_by (decide const lt features)) trees cs ->
    (exists c, inline_predict lt p features = Ret c /\ majority n cs c) /\
    (forall out, n <= zlen out -> exists out', inline_predict_proba lt p features out n = Ret (0, out') /\ zlen out' = zlen out /\
      (forall c, 0 <= c < n -> exists y, zget out' c = Ret y /\ is_finite y = true /\
         B2R y = rnd32 (IZR (votes cs c) / IZR (zlen trees)))).
Proof.
  destruct (hard_forest nf n trees Hfit Hn) as (nodes & roots & leaves & E & HFF & _).
  pose proof HFF as (V & R & L & P & _). pose proof (trees_pos _ _ _ Hfit).
  assert (HT : Forall (fun d => exists k, const (d_value d) = Ret k /\ ok k = true) nodes).
  { eapply (convert_forest_nodes (PyInt 0) (mk_pyleaf LeafArgmax 0) pyleaf_eqb (fun th => exists k, const th = Ret k /\ ok k = true)); [|exact E].
    eapply Forall_impl; [|exact HQ]. intros t Ht. split; auto. }
  assert (Hr : 1 <= zlen roots < 2 ^ 24) by lia.
  destruct (inline_hard_gen const lt nf nodes roots leaves n ok V HT R P Hn) as (p & Ep & _ & _ & _ & T & _).
  exists (nodes, roots, leaves), p. split; [exact E|]. split; [exact Ep|]. split; [exact T|]. intros features cs Hf HC.
  pose proof (class_by_leaf _ nodes roots leaves cs HFF HC) as HC'. split.
  - eapply inline_predict_gen; eauto.
  - intros out Ho. rewrite <- L. eapply inline_proba_gen; eauto.
Qed.
End Code.

Variable lb : option Z.
Hypothesis Hlb : hard_args lb.

(** ** int16_t features, inline *)
Section Int16.
Hypothesis HTH : thresholds_within (-32767) 32767 trees.
Hypothesis Hnf : nf <= 10000.

Definition inline_args (method : option method_arg) (dtype : option dtype_arg) : Prop :=
  In method [None; Some MInline] /\ In dtype [None; Some DInt16].

Lemma int16_code method dtype : inline_args method dtype -> exists w p, wrapper_init true method dtype lb trees nf n = Ret w /\
  save_code w = Ret (CodeInt16 p) /\ w_classifier w = true /\ w_n_features w = nf /\ w_n_classes w = n /\
  forall features cs, nf <= zlen features -> Forall2 (tree_class features) trees cs ->
    (exists c, inline_predict_int16 p features = Ret c /\ majority n cs c) /\
    (forall out, n <= zlen out -> exists out', inline_predict_proba_int16 p features out n = Ret (0, out') /\ zlen out' = zlen out /\
      (forall c, 0 <= c < n -> exists y, zget out' c = Ret y /\ is_finite y = true /\
         B2R y = rnd32 (IZR (votes cs c) / IZR (zlen trees)))).
Proof.
  intros [Hm Hd].
  destruct (hard_code py_int Z.ltb int16_test_ok) as (f & p & E & Ep & T & G).
  { eapply Forall_impl; [|exact HTH]. intros t Ht. eapply Forall_impl; [|exact Ht]. intros th (k & Ek & Bk). exists k. split; [exact Ek|].
    unfold int16_test_ok. destruct (Z.leb_spec (-32767) k); [|lia]. destruct (Z.leb_spec k 32767); [reflexivity|lia]. }
  { exists 0. split; reflexivity. }
  assert (Ew : wrapper_init true method dtype lb trees nf n = Ret (mk_wrapper true MInline DInt16 0 f nf n)).
  { unfold wrapper_init. rewrite (hard_bits lb Hlb). change (choose_leaf true 0) with LeafArgmax. rewrite E. cbn [bind].
    destruct Hm as [<-|[<-|[]]]; destruct Hd as [<-|[<-|[]]]; cbn [bind]; (destruct (Z.ltb_spec 10000 nf); [lia|reflexivity]). }
  eexists _, p. split; [exact Ew|]. split.
  { unfold save_code. cbn [w_method w_dtype w_classifier]. unfold save_inline. cbn [w_forest w_n_classes w_leaf_bits].
    change (generate_c_inlined_int16 f n 0) with (generate_c_inlined py_int f n 0). rewrite Ep. cbn [bind].
    unfold compiles. rewrite T. reflexivity. }
  cbn [w_classifier w_n_features w_n_classes]. split; [reflexivity|]. split; [reflexivity|]. split; [reflexivity|].
  intros features cs Hf HC. exact (G features cs Hf HC).
Qed.
End Int16.

(** ** Loadable *)
Section Loadable.
Hypothesis HTH : small_model nf trees.

Lemma loadable_code dtype : In dtype [None; Some DInt16] -> exists w m, wrapper_init true (Some MLoadable) dtype lb trees nf n = Ret w /\
  save_code w = Ret (CodeLoadable m) /\ w_classifier w = true /\ w_n_features w = nf /\ w_n_classes w = n /\
  forall features cs, zlen features = nf -> Forall2 (tree_class features) trees cs ->
    (n <= 30 -> exists c, eml_trees_predict m features nf = Ret c /\ majority n cs c) /\
    (forall out, n <= zlen out -> exists out', eml_trees_predict_proba m features out n = Ret (EmlOk, out') /\ zlen out' = zlen out /\
      (forall c, 0 <= c < n -> exists y, zget out' c = Ret y /\ is_finite y = true /\
         B2R y = rnd32 (IZR (votes cs c) / IZR (zlen trees)))).
Proof.
  intros Hd. destruct HTH as [Hnf _].
  destruct (hard_init nf n trees Hfit Hn lb Hlb (Some MLoadable) dtype Hd ltac:(discriminate) Hnf) as (w & Ew & HF).
  specialize (HF HTH).
  destruct (api_save nf n trees lb dtype w Hfit Hn Hlb Hnt Ew HF) as [m Em].
  exists w, m. split; [exact Ew|].
  destruct (wrapper_init_Ret _ _ _ _ _ _ _ _ Ew) as (_ & W1 & W2 & W3 & W4 & _).
  split.
  { unfold save_code. assert (M : w_method w = MLoadable) by (revert Ew; unfold wrapper_init; intros Ew; invbind Ew;
      destruct (_ <? _) in Ew; [discriminate|]; inv Ew; reflexivity). rewrite M, Em. reflexivity. }
  split; [exact W4|]. split; [exact W2|]. split; [exact W3|]. intros features cs Hf HC. split.
  - intros H30. eapply (api_predict nf n trees lb dtype w m); eauto.
  - intros out Ho. destruct (api_proba nf n trees lb dtype w m Hfit Hn Hlb Hnt Ew HF Em features cs out Hf Ho HC) as (o & A & B & C & _). eauto.
Qed.
End Loadable.

(** ** predict and predict_proba *)
Hypothesis Hnf : nf <= 127.
Definition run_args (method : option method_arg) (dtype : option dtype_arg) : Prop :=
  In dtype [None; Some DInt16] /\
  (In method [None; Some MInline] /\ thresholds_within (-32767) 32767 trees \/
   method = Some MLoadable /\ small_model nf trees /\ n <= 30).

(** What one call gives, for either kind of code. *)
Lemma code_calls method dtype : In dtype [None; Some DInt16] ->
  (In method [None; Some MInline] /\ thresholds_within (-32767) 32767 trees \/ method = Some MLoadable /\ small_model nf trees) ->
  exists w c, wrapper_init true method dtype lb trees nf n = Ret w /\
  save_code w = Ret c /\ w_classifier w = true /\ w_n_features w = nf /\ w_n_classes w = n /\
  forall row features values cs, zlen row = nf -> int16_row row features -> holds row values -> Forall2 (tree_class features) trees cs ->
    (method = Some MLoadable -> n <= 30) -> 
    exists k, code_predict c nf values nf = Ret k /\ majority n cs k.
Proof.
  intros Hd [[Hm HT]|[-> HS]].
  - destruct (int16_code HT ltac:(lia) method dtype (conj Hm Hd)) as (w & p & A & B & C & D & E & G).
    exists w, (CodeInt16 p). do 5 (split; [assumption|]). intros row features values cs L R Hh HC _.
    destruct (cast_int16 nf row features values L R Hh) as (LF & _ & Ef). cbn [code_predict]. rewrite Ef. cbn [bind].
    apply G; auto; lia.
  - destruct (loadable_code HS dtype Hd) as (w & m & A & B & C & D & E & G).
    exists w, (CodeLoadable m). do 5 (split; [assumption|]). intros row features values cs L R Hh HC H30.
    destruct (cast_int16 nf row features values L R Hh) as (LF & Ef & _). cbn [code_predict]. rewrite Ef. cbn [bind].
    apply G; auto.
Qed.
Lemma proba_calls method dtype : In dtype [None; Some DInt16] ->
  (In method [None; Some MInline] /\ thresholds_within (-32767) 32767 trees \/ method = Some MLoadable /\ small_model nf trees) ->
  exists w c, wrapper_init true method dtype lb trees nf n = Ret w /\
  save_code w = Ret c /\ w_classifier w = true /\ w_n_features w = nf /\ w_n_classes w = n /\
  forall row features values cs out, zlen row = nf -> int16_row row features -> holds row values -> Forall2 (tree_class features) trees cs ->
    zlen out = n ->
    exists o, code_predict_proba c nf n out values nf = Ret o /\ zlen o = n /\
      forall k, 0 <= k < n -> exists y, zget o k = Ret y /\ is_finite y = true /\ B2R y = rnd32 (IZR (votes cs k) / IZR (zlen trees)).
Proof.
  intros Hd [[Hm HT]|[-> HS]].
  - destruct (int16_code HT ltac:(lia) method dtype (conj Hm Hd)) as (w & p & A & B & C & D & E & G).
    exists w, (CodeInt16 p). do 5 (split; [assumption|]). intros row features values cs out L R Hh HC Ho.
    destruct (cast_int16 nf row features values L R Hh) as (LF & _ & Ef). cbn [code_predict_proba]. rewrite Ef. cbn [bind].
    destruct (G features cs ltac:(lia) HC) as [_ G']. destruct (G' out ltac:(lia)) as (o & Eo & Lo & Go).
    rewrite Eo. cbn [bind]. exists o. split; [reflexivity|]. split; [lia|exact Go].
  - destruct (loadable_code HS dtype Hd) as (w & m & A & B & C & D & E & G).
    exists w, (CodeLoadable m). do 5 (split; [assumption|]). intros row features values cs out L R Hh HC Ho.
    destruct (cast_int16 nf row features values L R Hh) as (LF & _ & Ef). cbn [code_predict_proba]. rewrite Ef. cbn [bind].
    destruct (G features cs LF HC) as [_ G']. destruct (G' out ltac:(lia)) as (o & Eo & Lo & Go).
    rewrite Eo. cbn [bind]. exists o. split; [reflexivity|]. split; [lia|exact Go].
Qed.

Theorem predict_run method dtype X : run_args method dtype -> int16_rows nf X ->
  exists w out, wrapper_init true method dtype lb trees nf n = Ret w /\ wrapper_predict w X = Ret out /\ zlen out = zlen X /\
  forall i row, zget X i = Ret row -> exists features cs c,
    int16_row row features /\ Forall2 (tree_class features) trees cs /\ zget out i = Ret (PyInt c) /\ majority n cs c.
Proof.
  intros [Hd Hm] HX. pose proof (ft_features _ _ _ Hfit).
  destruct (code_calls method dtype Hd) as (w & c & A & B & C & D & E & G); [tauto|].
  destruct (int16_rows_fit nf X HX ltac:(lia)) as (NX & GX & AX & LX).
  exists w. unfold wrapper_predict. rewrite B, C, D. cbn [bind].
  destruct (predict_classes (fun values length => let* out := code_predict c nf values length in Ret (f_of_Z (flip_negative out))) X
     (fun row k => exists features cs, int16_row row features /\ Forall2 (tree_class features) trees cs /\ majority n cs k) NX GX AX LX)
    as (out & Eo & Lo & Go).
  { intros row values I Hv. destruct HX as (_ & _ & FX). rewrite Forall_forall in FX. destruct (FX row I) as (L & features & R).
    destruct (tree_class_total nf n trees Hfit Hn features) as [cs HC].
    destruct (G row features values cs L R Hv HC) as (k & Ek & Mk).
    { intros ->. destruct Hm as [[[Q|[Q|[]]] _]|(_ & _ & Q)]; [discriminate|discriminate|exact Q]. }
    rewrite L, Ek. cbn [bind]. pose proof Mk as (Bk & _). unfold flip_negative. destruct (Z.ltb_spec k 0); [lia|].
    exists k. split; [reflexivity|]. split; [lia|]. eauto. }
  exists out. split; [exact A|]. split; [exact Eo|]. split; [exact Lo|]. intros i row Z.
  destruct (Go i row Z) as (k & Ek & features & cs & R & HC & Mk). exists features, cs, k. auto.
Qed.

Theorem proba_run method dtype X : In dtype [None; Some DInt16] ->
  (In method [None; Some MInline] /\ thresholds_within (-32767) 32767 trees \/ method = Some MLoadable /\ small_model nf trees) ->
  int16_rows nf X ->
  exists w m, wrapper_init true method dtype lb trees nf n = Ret w /\ wrapper_predict_proba w X = Ret m /\ zlen m = zlen X /\
  forall i row, zget X i = Ret row -> exists features cs r,
    int16_row row features /\ Forall2 (tree_class features) trees cs /\ zget m i = Ret r /\
    forall k, 0 <= k < n -> exists p, zget r k = Ret (Some p) /\
      through_decimals 6 (rnd32 (IZR (votes cs k) / IZR (zlen trees))) p.
Proof.
  intros Hd Hm HX. pose proof (ft_features _ _ _ Hfit).
  destruct (proba_calls method dtype Hd Hm) as (w & c & A & B & C & D & E & G).
  destruct (int16_rows_fit nf X HX ltac:(lia)) as (NX & GX & AX & LX).
  pose proof HX as (_ & _ & FX). rewrite Forall_forall in FX.
  exists w. unfold wrapper_predict_proba. rewrite B, C, D, E. cbn [bind negb].
  destruct (proba_rows (code_predict_proba c nf n) n X (fun row o => exists features cs, int16_row row features /\
     Forall2 (tree_class features) trees cs /\ forall k, 0 <= k < n -> exists y, zget o k = Ret y /\ is_finite y = true /\
       B2R y = rnd32 (IZR (votes cs k) / IZR (zlen trees))) ltac:(lia) NX GX AX LX) as (m & Em & Lm & Gm).
  { intros row values before I Hv Hb. destruct (FX row I) as (L & features & R).
    destruct (tree_class_total nf n trees Hfit Hn features) as [cs HC]. rewrite L.
    destruct (G row features values cs before L R Hv HC Hb) as (o & Eo & Lo & Go). exists o. split; [exact Eo|]. split; [exact Lo|]. eauto. }
  exists m. split; [exact A|]. split; [exact Em|]. split; [exact Lm|]. intros i row Hrow.
  destruct (Gm i row Hrow) as (r & o & Er & (features & cs & R & HC & Go) & Gr).
  exists features, cs, r. split; [exact R|]. split; [exact HC|]. split; [exact Er|]. intros k Bk.
  destruct (Go k Bk) as (y & Ey & Fy & Vy). destruct (Gr k y Bk Ey) as (q & Eq & T). exists q. split; [exact Eq|]. rewrite <- Vy. auto.
Qed.
End HardRun.
