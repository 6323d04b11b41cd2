(** convert(): properties C120-C125. *)
From Coq Require Import String ZArith List Bool Lia Reals Lra.
From Flocq Require Import Core BinarySingleNaN.
From Verif.Base Require Import Res CInt ListX Loops Float Arith Kernels RealSum.
From Verif.Model Require Import Common Text TreesConvert TreesC Net Harness TreesWrapper TreesRun NetRun NeighborsRun DistanceRun BayesRun MixtureRun Convert.
From Verif.Spec Require Import TreesSpec TreesCSpec VoteSpec ClassifierSpec HarnessSpec RealSpec RunSpec NeighborsSpec KnnSpec RoundingSpec NetRunSpec EnvelopeSpec StrSpec BayesRunSpec MixtureRunSpec ConvertSpec KerasSpec NetSpec.
From Verif.Proof Require Import FloatErr Str Convert Keras.
From Verif.Props Require Import Samples Trees EndToEnd NeighborsRun Rounding NetRun DistanceRun BayesRun MixtureRun.
Import Verif.Spec.HarnessSpec ListNotations.
Open Scope Z_scope.
Open Scope res_scope.

(** [float_str], [log2_fn], [log_det_fn], [ef], [lf], [tf]: str() of a float, numpy's log2, sklearn's log-determinants, and
    the C library's expf, logf and tanhf. *)

(** ** C120: what is converted as what *)
(** Other kinds are refused; *)
Theorem C120_unknown float_str log2_fn log_det_fn ef lf tf e o : ~ In (asked_kind e o) (map fst supported) ->
  convert float_str log2_fn log_det_fn ef lf tf e o = Err ValueError_.
Proof. apply unknown_kind. Qed.
(** so is an estimator that is not of the family its kind says; *)
Theorem C120_wrong_family float_str log2_fn log_det_fn ef lf tf e o f : In (asked_kind e o, f) supported -> ~ is_family f (attrs e) ->
  forall m, convert float_str log2_fn log_det_fn ef lf tf e o <> Ret m.
Proof. apply wrong_family. Qed.
(** and an estimator of any type name, converted with an explicit kind, is converted like one of that name. For the tree models
    this needs names that agree on being a regressor's. *)
Theorem C120_kind_partial float_str log2_fn log_det_fn ef lf tf name k a o :
  In k (map fst supported) -> (In (k, FTrees) supported -> (names_regressor name <-> names_regressor k)) ->
  convert float_str log2_fn log_det_fn ef lf tf (mk_estimator name a)
    (mk_options (Some k) (o_method o) (o_dtype o) (o_return_type o) (kw_leaf_bits o) (kw_use_fixedpoint o) (kw_other o)) =
  convert float_str log2_fn log_det_fn ef lf tf (mk_estimator k a)
    (mk_options None (o_method o) (o_dtype o) (o_return_type o) (kw_leaf_bits o) (kw_use_fixedpoint o) (kw_other o)).
Proof.
  intros I T. apply kind_given; [exact I|]. intros S. apply T. cbn [SUPPORTED_ESTIMATORS In] in S. cbn [supported In].
  decompose [or] S; subst; tauto.
Qed.
(** Not so otherwise: an estimator of type MyForest, a subclass of RandomForestRegressor, is taken for a classifier even if
    kind says RandomForestRegressor. *)
Theorem C120_kind_refuted float_str log2_fn log_det_fn ef lf tf :
  let o k := mk_options k None None "classifier" None None false in
  convert float_str log2_fn log_det_fn ef lf tf (mk_estimator "MyForest" (AttrTrees forest_r 2 None)) (o (Some "RandomForestRegressor"%string)) = Err AttributeError_ /\
  exists w, convert float_str log2_fn log_det_fn ef lf tf (mk_estimator "RandomForestRegressor" (AttrTrees forest_r 2 None)) (o None) = Ret (MTrees ef lf tf w).
Proof.
  cbv zeta. split.
  - assert (E : match wrapper_init true None None None forest_r 0 0 with Ret _ => true | Err _ => false end = true) by (vm_compute; reflexivity).
    unfold convert, trees_wrapper. cbn [o_kind kw_use_fixedpoint kw_other kw_leaf_bits attrs type_name o_method o_dtype option_map].
    change (is_in "RandomForestRegressor" SUPPORTED_ESTIMATORS) with true. change (contains "Regressor" "MyForest") with false. cbn [negb].
    destruct (wrapper_init true None None None forest_r 0 0); [reflexivity|discriminate].
  - assert (E : match wrapper_init false None None None forest_r 2 0 with Ret _ => true | Err _ => false end = true) by (vm_compute; reflexivity).
    unfold convert, trees_wrapper. cbn [o_kind kw_use_fixedpoint kw_other kw_leaf_bits attrs type_name o_method o_dtype option_map].
    change (is_in "RandomForestRegressor" SUPPORTED_ESTIMATORS) with true. change (contains "Regressor" "RandomForestRegressor") with true. cbn [negb].
    destruct (wrapper_init false None None None forest_r 2 0) as [w|]; [exists w; reflexivity|discriminate].
Qed.

(** ** C121: convert, then predict *)
(** Trees: the class most of them vote for; the mean of their values. *)
Theorem C121_tree_classifier float_str log2_fn log_det_fn ef lf tf junk name nf n trees method dtype rt lb X :
  In name ["RandomForestClassifier"; "ExtraTreesClassifier"; "DecisionTreeClassifier"]%string ->
  fitted nf (class_row n) trees -> 1 <= n <= 127 -> nf <= 127 -> zlen trees < 2 ^ 24 ->
  In lb [None; Some None; Some (Some 0); Some (Some 1)] -> In dtype [None; Some "int16_t"%string] ->
  (In method [None; Some "inline"%string] /\ thresholds_within (-32767) 32767 trees \/
   method = Some "loadable"%string /\ small_model nf trees /\ n <= 30) ->
  int16_rows nf X ->
  exists m out, convert float_str log2_fn log_det_fn ef lf tf (mk_estimator name (AttrTrees trees nf (Some n))) (mk_options None method dtype rt lb None false) = Ret m /\
    model_predict float_str ef lf tf junk m X = Ret out /\ zlen out = zlen X /\
  forall i row, zget X i = Ret row -> exists features cs c,
    int16_row row features /\ Forall2 (tree_class features) trees cs /\ zget out i = Ret (PyInt c) /\ majority n cs c.
Proof.
  intros IN F N1 N2 N3 LB DT ME RX.
  destruct (C73_predict nf n trees (match lb with Some b => b | None => None end) (option_map method_of method) (option_map dtype_of dtype) X F N1 N2 N3) as (w & out & E & P & R).
  - cbn [In] in LB |- *. destruct LB as [<-|[<-|[<-|[<-|[]]]]]; auto.
  - cbn [In] in DT |- *. destruct DT as [<-|[<-|[]]]; auto.
  - cbn [In] in ME |- *. destruct ME as [[[<-|[<-|[]]] T]|(-> & T)]; auto.
  - exact RX.
  - exists (MTrees ef lf tf w), out. split; [|split; [exact P|exact R]].
    unfold convert, trees_wrapper. cbn [o_kind kw_use_fixedpoint kw_other kw_leaf_bits attrs type_name o_method o_dtype].
    replace (is_in name SUPPORTED_ESTIMATORS) with true by (cbn [In] in IN; destruct IN as [<-|[<-|[<-|[]]]]; reflexivity).
    replace (contains "Regressor" name) with false by (cbn [In] in IN; destruct IN as [<-|[<-|[<-|[]]]]; reflexivity). cbn [negb]. rewrite E. reflexivity.
Qed.
Theorem C121_tree_regressor float_str log2_fn log_det_fn ef lf tf junk name nf trees B method dtype rt lb X :
  In name ["RandomForestRegressor"; "ExtraTreesRegressor"; "DecisionTreeRegressor"]%string ->
  (0 <= B <= bpow radix2 50)%R -> fitted nf (value_within B) trees -> zlen trees <= 8388608 -> nf <= 127 ->
  In lb [None; Some None; Some (Some 32)] -> In dtype [None; Some "int16_t"%string] ->
  (In method [None; Some "inline"%string] /\ thresholds_within (-32767) 32767 trees \/ method = Some "loadable"%string /\ small_model nf trees) ->
  int16_rows nf X ->
  exists m out, convert float_str log2_fn log_det_fn ef lf tf (mk_estimator name (AttrTrees trees nf None)) (mk_options None method dtype rt lb None false) = Ret m /\
    model_predict float_str ef lf tf junk m X = Ret out /\ zlen out = zlen X /\
  forall i row, zget X i = Ret row -> exists features xs o,
    int16_row row features /\ Forall2 (tree_value_by (go_lt features)) trees xs /\
    zget out i = Ret (PyFloat o) /\ is_finite o = true /\
    (Rabs (B2R o - fold_right Rplus 0 (map B2R xs) / IZR (zlen trees)) <= (IZR (zlen trees) + 6) * B / 16777216 + 2 / 1000000)%R.
Proof.
  intros IN HB F N1 N2 LB DT ME RX.
  destruct (C75_regress nf 0 trees B (match lb with Some b => b | None => None end) (option_map method_of method) (option_map dtype_of dtype) X HB F N1 N2) as (w & out & E & P & R).
  - cbn [In] in LB |- *. destruct LB as [<-|[<-|[<-|[]]]]; auto.
  - cbn [In] in DT |- *. destruct DT as [<-|[<-|[]]]; auto.
  - cbn [In] in ME |- *. destruct ME as [[[<-|[<-|[]]] T]|(-> & T)]; auto.
  - exact RX.
  - exists (MTrees ef lf tf w), out. split; [|split; [exact P|exact R]].
    unfold convert, trees_wrapper. cbn [o_kind kw_use_fixedpoint kw_other kw_leaf_bits attrs type_name o_method o_dtype].
    replace (is_in name SUPPORTED_ESTIMATORS) with true by (cbn [In] in IN; destruct IN as [<-|[<-|[<-|[]]]]; reflexivity).
    replace (contains "Regressor" name) with true by (cbn [In] in IN; destruct IN as [<-|[<-|[<-|[]]]]; reflexivity). cbn [negb]. rewrite E. reflexivity.
Qed.
(** Trees with dtype='float': the classes and values of scikit-learn's own walk, away from the thresholds. *)
Theorem C121_tree_classifier_float float_str log2_fn log_det_fn ef lf tf junk name nf n trees method rt lb X :
  In name ["RandomForestClassifier"; "ExtraTreesClassifier"; "DecisionTreeClassifier"]%string ->
  fitted nf (class_row n) trees -> 1 <= n <= 127 -> nf <= 10000 -> zlen trees < 2 ^ 24 ->
  In lb [None; Some None; Some (Some 0); Some (Some 1)] -> In method [None; Some "inline"%string] ->
  float_thresholds trees -> float_rows nf X -> Forall (fun row => clear_float row trees) X ->
  exists m out, convert float_str log2_fn log_det_fn ef lf tf (mk_estimator name (AttrTrees trees nf (Some n))) (mk_options None method (Some "float"%string) rt lb None false) = Ret m /\
    model_predict float_str ef lf tf junk m X = Ret out /\ zlen out = zlen X /\
  forall i row, zget X i = Ret row -> exists cs c,
    Forall2 (tree_class_by (go_sk row)) trees cs /\ zget out i = Ret (PyInt c) /\ majority n cs c.
Proof.
  intros IN F N1 N2 N3 LB ME TH RX CL.
  destruct (C78_float_as_sklearn nf n trees (match lb with Some b => b | None => None end) (option_map method_of method) X F N1 N2 N3) as (w & out & E & P & R);
    [| |exact TH|exact RX|exact CL|].
  - cbn [In] in LB |- *. destruct LB as [<-|[<-|[<-|[<-|[]]]]]; auto.
  - cbn [In] in ME |- *. destruct ME as [<-|[<-|[]]]; auto.
  - exists (MTrees ef lf tf w), out. split; [|split; [exact P|exact R]].
    unfold convert, trees_wrapper. cbn [o_kind kw_use_fixedpoint kw_other kw_leaf_bits attrs type_name o_method o_dtype].
    replace (is_in name SUPPORTED_ESTIMATORS) with true by (cbn [In] in IN; destruct IN as [<-|[<-|[<-|[]]]]; reflexivity).
    replace (contains "Regressor" name) with false by (cbn [In] in IN; destruct IN as [<-|[<-|[<-|[]]]]; reflexivity). cbn [negb].
    change (option_map dtype_of (Some "float"%string)) with (Some DFloat). rewrite E. reflexivity.
Qed.
Theorem C121_tree_regressor_float float_str log2_fn log_det_fn ef lf tf junk name nf trees B method rt lb X :
  In name ["RandomForestRegressor"; "ExtraTreesRegressor"; "DecisionTreeRegressor"]%string ->
  (0 <= B <= bpow radix2 50)%R -> fitted nf (value_within B) trees -> zlen trees <= 8388608 -> nf <= 10000 ->
  In lb [None; Some None; Some (Some 32)] -> In method [None; Some "inline"%string] ->
  float_thresholds trees -> float_rows nf X -> Forall (fun row => clear_float row trees) X ->
  exists m out, convert float_str log2_fn log_det_fn ef lf tf (mk_estimator name (AttrTrees trees nf None)) (mk_options None method (Some "float"%string) rt lb None false) = Ret m /\
    model_predict float_str ef lf tf junk m X = Ret out /\ zlen out = zlen X /\
  forall i row, zget X i = Ret row -> exists xs o,
    Forall2 (tree_value_by (go_sk row)) trees xs /\ zget out i = Ret (PyFloat o) /\ is_finite o = true /\
    (Rabs (B2R o - fold_right Rplus 0 (map B2R xs) / IZR (zlen trees)) <= (IZR (zlen trees) + 6) * B / 16777216 + 2 / 1000000)%R.
Proof.
  intros IN HB F N1 N2 LB ME TH RX CL.
  destruct (C78_float_regress nf 0 trees B (match lb with Some b => b | None => None end) (option_map method_of method) X HB F N1 N2) as (w & out & E & P & R);
    [| |exact TH|exact RX|exact CL|].
  - cbn [In] in LB |- *. destruct LB as [<-|[<-|[<-|[]]]]; auto.
  - cbn [In] in ME |- *. destruct ME as [<-|[<-|[]]]; auto.
  - exists (MTrees ef lf tf w), out. split; [|split; [exact P|exact R]].
    unfold convert, trees_wrapper. cbn [o_kind kw_use_fixedpoint kw_other kw_leaf_bits attrs type_name o_method o_dtype].
    replace (is_in name SUPPORTED_ESTIMATORS) with true by (cbn [In] in IN; destruct IN as [<-|[<-|[<-|[]]]]; reflexivity).
    replace (contains "Regressor" name) with true by (cbn [In] in IN; destruct IN as [<-|[<-|[<-|[]]]]; reflexivity). cbn [negb].
    change (option_map dtype_of (Some "float"%string)) with (Some DFloat). rewrite E. reflexivity.
Qed.
(** Nearest neighbours: the majority of the labels of k nearest training rows. *)
Theorem C121_neighbors float_str log2_fn log_det_fn ef lf tf junk nf k data labels items method dtype rt lb fx kw X :
  In method [None; Some "loadable"%string] ->
  training_set data labels items -> items <> [] -> zlen items <= 32767 ->
  Forall (fun it => zlen (fst it) = nf /\ Forall int16_ok (fst it) /\ 0 <= snd it < 10) items ->
  1 <= nf <= 127 -> 1 <= k <= zlen items -> int16_rows nf X ->
  (forall row features r l, In row X -> int16_row row features -> In (r, l) items -> sq_dist features r < 2 ^ 30) ->
  exists m out, convert float_str log2_fn log_det_fn ef lf tf (mk_estimator "KNeighborsClassifier" (AttrKNN "euclidean" "uniform" data labels k)) (mk_options None method dtype rt lb fx kw) = Ret m /\
    model_predict float_str ef lf tf junk m X = Ret out /\ zlen out = zlen X /\
  forall i row, zget X i = Ret row -> exists features sel c,
    int16_row row features /\ k_nearest int_dist items features k sel /\ zget out i = Ret (PyInt c) /\ majority 10 (labels_of items sel) c.
Proof.
  intros H1 H2 H3 H4 H5 H6 H7 H8 H9. destruct (C80_predict nf k data labels items method X H1 H2 H3 H4 H5 H6 H7 H8 H9) as (m & out & E & P & R).
  exists (MKNN ef lf tf m), out. split; [|split; [exact P|exact R]]. unfold convert. cbn [o_kind type_name attrs o_method].
  change (is_in "KNeighborsClassifier" SUPPORTED_ESTIMATORS) with false. cbn. cbn in E. rewrite E. reflexivity.
Qed.
(** Naive Bayes: a class of highest likelihood, up to the errors of the scores. *)
Theorem C121_naive_bayes float_str log2_fn log_det_fn ef lf tf junk nc nf f method dtype rt lb fx kw X :
  str_reads_back float_str -> log2_accurate log2_fn -> good_nb nc nf f ->
  In method [None; Some "loadable"%string] -> zlen junk >= 10 -> float_rows nf X -> Forall (BayesRunSpec.row_fits nc f) X ->
  exists m out, convert float_str log2_fn log_det_fn ef lf tf (mk_estimator "GaussianNB" (AttrNB f)) (mk_options None method dtype rt lb fx kw) = Ret m /\
    model_predict float_str ef lf tf junk m X = Ret out /\ zlen out = zlen X /\
  forall i row, zget X i = Ret row -> exists c, zget out i = Ret (PyInt c) /\ 0 <= c < nc /\
    forall d, 0 <= d < nc -> (log_likelihood f row d <= log_likelihood f row c + (class_err f row c + class_err f row d))%R.
Proof.
  intros H1 H2 H3 H4 H5 H6 H7. destruct (C113_predict_partial float_str log2_fn nc nf f method junk X H1 H2 H3 H4 H5 H6 H7) as (m & out & E & P & R).
  exists (MNB ef lf tf m), out. split; [|split; [exact P|exact R]]. unfold convert. cbn [o_kind type_name attrs o_method].
  change (is_in "GaussianNB" SUPPORTED_ESTIMATORS) with false. cbn. rewrite E. reflexivity.
Qed.
(** Elliptic envelope: 1 inside, -1 outside, by the fitted distance and offset. *)
Theorem C121_envelope float_str log2_fn log_det_fn ef lf tf junk n f dtype rt lb fx kw X :
  str_reads_back float_str -> good_envelope n f -> 1 <= n -> good_number (fe_offset f) ->
  float_rows n X -> Forall (numpy_fine f) X -> Forall (distance_fits f) X ->
  exists m out, convert float_str log2_fn log_det_fn ef lf tf (mk_estimator "EllipticEnvelope" (AttrEnvelope f)) (mk_options None (Some "inline"%string) dtype rt lb fx kw) = Ret m /\
    model_predict float_str ef lf tf junk m X = Ret out /\ zlen out = zlen X /\
  forall i row, zget X i = Ret row -> exists y, zget out i = Ret (PyInt y) /\ decided f row y.
Proof.
  intros H1 H2 H3 H4 H5 H6 H7. destruct (C107_predict float_str ef lf tf n f X H1 H2 H3 H4 H5 H6 H7) as (e & ys & E & P & L & R).
  exists (MEnvelope ef lf tf f e), (map PyInt ys). split; [|split; [|split]].
  - unfold convert. cbn [o_kind type_name attrs o_method]. change (is_in "EllipticEnvelope" SUPPORTED_ESTIMATORS) with false. change (is_in "EllipticEnvelope" ["EllipticEnvelope"]%string) with true.
    cbv iota. rewrite E. reflexivity.
  - unfold model_predict. rewrite P. reflexivity.
  - rewrite zlen_map. exact L.
  - intros i row Hr. destruct (R i row Hr) as (y & Hy & D). exists y. split; [rewrite zget_map, Hy; reflexivity|exact D].
Qed.
(** Mixtures: no component is more probable than the one returned by more than twice the error. *)
Theorem C121_mixture float_str log2_fn log_det_fn ef lf tf junk name k n f ge gl gd method dtype rt lb fx kw X :
  In name ["GaussianMixture"; "BayesianGaussianMixture"]%string ->
  str_reads_back float_str -> good_gmm k n f -> expf_ok (ef:=ef) ge -> (0 <= ge <= / 4)%R -> logf_ok (lf:=lf) gl ->
  exists w, gmm_init log_det_fn method f = Ret w /\
  convert float_str log2_fn log_det_fn ef lf tf (mk_estimator name (AttrMixture f)) (mk_options None method dtype rt lb fx kw) = Ret (MMixture ef lf tf w) /\
  (X <> [] -> Forall (fun row => zlen row = n /\ Forall good_number row /\ mixture_fits f row ge gl gd /\ log_dets_good f row gd (w_log_det w)) X ->
   exists out, model_predict float_str ef lf tf junk (MMixture ef lf tf w) X = Ret out /\ zlen out = zlen X /\
     forall i row, zget X i = Ret row -> exists b, zget out i = Ret (PyInt b) /\ 0 <= b < k /\
       forall c, 0 <= c < k -> (posterior f row c <= posterior f row b + 2 * (proba_bound f row ge gl gd + 1 / 1000000))%R).
Proof.
  intros IN H1 H2 H3 H4 H5. destruct (C118_predict_partial float_str log_det_fn ef lf tf k n f ge gl gd method X H1 H2 H3 H4 H5) as (w & E & R).
  exists w. split; [exact E|]. split.
  - unfold convert. cbn [o_kind type_name attrs o_method]. cbn [In] in IN. destruct IN as [<-|[<-|[]]]; cbn [is_in existsb SUPPORTED_ESTIMATORS String.eqb Ascii.eqb Bool.eqb orb]; rewrite E; reflexivity.
  - intros NX RX. destruct (R NX RX) as (out & P & L & Q). exists (map PyInt out). split; [unfold model_predict; rewrite P; reflexivity|]. split; [rewrite zlen_map; exact L|].
    intros i row Hr. destruct (Q i row Hr) as (b & Hb & Q'). exists b. split; [rewrite zget_map, Hb; reflexivity|exact Q'].
Qed.
(** MLPClassifier: the class of the fitted network, where it is clear. *)
Theorem C121_mlp_classifier float_str log2_fn log_det_fn ef lf tf junk name act out_act ws bs wl bl ge gl gt method dtype nf X cs :
  let ls := mlp_layers act out_act ws bs wl bl in
  In name ["MLPClassifier"; "MLPRegressor"]%string -> ws <> [] -> length bs = length ws ->
  In method [None; Some "loadable"%string; Some "inline"%string] -> good_net nf ls -> libm_good ge gl gt ef lf tf ls -> n_out ls <= 2 ^ 53 ->
  float_rows nf X -> Forall (NetRunSpec.row_fits ge gl gt ls) X -> Forall2 (right_class ge gl gt ls) X cs ->
  exists m, convert float_str log2_fn log_det_fn ef lf tf (mlp_estimator name act out_act ws bs wl bl) (mk_options None method dtype "classifier" None None false) = Ret m /\
    model_predict float_str ef lf tf junk m X = Ret (map PyInt cs).
Proof.
  intros ls IN NW LB ME G LM NB FX FT FC. destruct (C90_classes ef lf tf ge gl gt method nf ls X cs ME G LM NB FX FT FC) as (w & E & P).
  exists (MNet ef lf tf w). split; [|exact P]. unfold convert, mlp_estimator, net_of. cbn [o_kind type_name attrs o_method kw_use_fixedpoint kw_leaf_bits kw_other o_return_type].
  assert (L3 : (zlen ws + 2 <? 3) = false) by (destruct ws as [|a ws']; [congruence|]; apply Z.ltb_ge; rewrite zlen_cons; pose proof (zlen_nonneg ws'); lia).
  cbn [In] in IN. destruct IN as [<-|[<-|[]]]; cbn [is_in existsb SUPPORTED_ESTIMATORS String.eqb Ascii.eqb Bool.eqb orb]; rewrite L3, (C89_sklearn ef lf tf act out_act ws bs wl bl method "classifier" false NW LB); fold (mlp_layers act out_act ws bs wl bl); fold ls; rewrite E; reflexivity.
Qed.

(** ** C122: regressors *)
(** An MLPRegressor gives regression values if return_type='regressor' is asked for. *)
Theorem C122_return_type_partial float_str log2_fn log_det_fn ef lf tf junk name act out_act ws bs wl bl ge gl gt method dtype nf X :
  let ls := mlp_layers act out_act ws bs wl bl in
  In name ["MLPClassifier"; "MLPRegressor"]%string -> ws <> [] -> length bs = length ws ->
  In method [None; Some "loadable"%string] -> good_net nf ls -> n_out ls = 1 -> libm_good ge gl gt ef lf tf ls ->
  float_rows nf X -> Forall (NetRunSpec.row_fits ge gl gt ls) X ->
  Forall (fun row => (Rabs (nthr (fitted_net ls row) 0) + nthr (row_bound ge gl gt ls row) 0 <= IZR (2 ^ 53))%R) X ->
  exists m out, convert float_str log2_fn log_det_fn ef lf tf (mlp_estimator name act out_act ws bs wl bl) (mk_options None method dtype "regressor" None None false) = Ret m /\
    model_predict float_str ef lf tf junk m X = Ret out /\ zlen out = zlen X /\
    forall i row, zget X i = Ret row -> exists o, zget out i = Ret (PyFloat o) /\
      returned (nthr (fitted_net ls row) 0) (nthr (row_bound ge gl gt ls row) 0) o.
Proof.
  intros ls IN NW LB ME G NO LM FX FT BD. destruct (C89_regressor ef lf tf ge gl gt method nf ls X ME G NO LM FX FT BD) as (w & out & E & P & R).
  exists (MNet ef lf tf w), out. split; [|split; [exact P|exact R]]. unfold convert, mlp_estimator, net_of. cbn [o_kind type_name attrs o_method kw_use_fixedpoint kw_leaf_bits kw_other o_return_type].
  assert (L3 : (zlen ws + 2 <? 3) = false) by (destruct ws as [|a ws']; [congruence|]; apply Z.ltb_ge; rewrite zlen_cons; pose proof (zlen_nonneg ws'); lia).
  cbn [In] in IN. destruct IN as [<-|[<-|[]]]; cbn [is_in existsb SUPPORTED_ESTIMATORS String.eqb Ascii.eqb Bool.eqb orb]; rewrite L3, (C89_sklearn ef lf tf act out_act ws bs wl bl method "regressor" false NW LB); fold (mlp_layers act out_act ws bs wl bl); fold ls; rewrite E; reflexivity.
Qed.
(** Not by default: return_type is 'classifier' unless given, also for an MLPRegressor, and the values are turned into classes.
    The network below has the value 2 on the row (1, 2); the converted model answers 1. *)
Definition reg_estimator : estimator :=
  mlp_estimator "MLPRegressor" "relu" "identity" [(map (map d) [[1; -1]; [2; 3]], 2)] [map d [0; 1]] (map (map d) [[1]; [-1]], 1) (map d [3]).
Theorem C122_default_refuted float_str log2_fn log_det_fn ef lf tf junk :
  fitted_net (mlp_layers "relu" "identity" [(map (map d) [[1; -1]; [2; 3]], 2)] [map d [0; 1]] (map (map d) [[1]; [-1]], 1) (map d [3])) [d 1; d 2] = [2%R] /\
  exists m, convert float_str log2_fn log_det_fn ef lf tf reg_estimator defaults = Ret m /\
    model_predict float_str ef lf tf junk m [[d 1; d 2]] = Ret [PyInt 1].
Proof.
  destruct (C89_instance 0 0 0 ltac:(lra) ef lf tf) as (G & N & LM & FR & RF & Y & B).
  split; [exact Y|].
  apply (C121_mlp_classifier float_str log2_fn log_det_fn ef lf tf junk "MLPRegressor" "relu" "identity" [(map (map d) [[1; -1]; [2; 3]], 2)] [map d [0; 1]]
    (map (map d) [[1]; [-1]], 1) (map d [3]) 0 0 0 None None 2 [[d 1; d 2]] [1]); try assumption.
  - cbn; auto.
  - discriminate.
  - reflexivity.
  - cbn; auto.
  - vm_compute; discriminate.
  - apply Forall_cons; [exact RF|apply Forall_nil].
  - apply Forall2_cons; [|apply Forall2_nil]. unfold right_class. change (n_out _ =? 1) with true. cbv iota. left. split; [reflexivity|].
    change (mlp_layers _ _ _ _ _ _) with reg_net. rewrite Y. change (nthr [2%R] 0) with 2%R. lra.
Qed.

(** ** C123: an option is honoured or refused *)
(** True of method, except for the mixtures; *)
Theorem C123_method_partial float_str log2_fn log_det_fn ef lf tf e o f s :
  In (asked_kind e o, f) supported -> f <> FMixture -> o_method o = Some s -> s <> "inline"%string -> s <> "loadable"%string ->
  forall m, convert float_str log2_fn log_det_fn ef lf tf e o <> Ret m.
Proof. apply bad_method. Qed.
(** and of keywords that the trees or networks do not know. *)
Theorem C123_keywords_partial float_str log2_fn log_det_fn ef lf tf e o f :
  In (asked_kind e o, f) supported -> In f [FTrees; FMLP; FKeras] ->
  kw_other o = true \/ (f = FTrees /\ kw_use_fixedpoint o <> None) \/ (f <> FTrees /\ kw_leaf_bits o <> None) ->
  forall m, convert float_str log2_fn log_det_fn ef lf tf e o <> Ret m.
Proof. apply bad_keyword. Qed.
(** But a mixture takes every method, and everything but the networks takes every return_type; *)
Theorem C123_mixture_method_refuted float_str log2_fn log_det_fn ef lf tf name f method method' dtype rt lb fx kw :
  In name ["GaussianMixture"; "BayesianGaussianMixture"]%string ->
  convert float_str log2_fn log_det_fn ef lf tf (mk_estimator name (AttrMixture f)) (mk_options None method dtype rt lb fx kw) =
  convert float_str log2_fn log_det_fn ef lf tf (mk_estimator name (AttrMixture f)) (mk_options None method' dtype rt lb fx kw).
Proof. cbn [In]. intros [<-|[<-|[]]]; reflexivity. Qed.
Theorem C123_return_type_refuted float_str log2_fn log_det_fn ef lf tf e method dtype rt rt' lb fx kw :
  ~ In (type_name e) ["MLPClassifier"; "MLPRegressor"; "Sequential"]%string ->
  convert float_str log2_fn log_det_fn ef lf tf e (mk_options None method dtype rt lb fx kw) =
  convert float_str log2_fn log_det_fn ef lf tf e (mk_options None method dtype rt' lb fx kw).
Proof.
  intros N. unfold convert, trees_wrapper. cbn [o_kind o_method o_dtype kw_leaf_bits kw_use_fixedpoint kw_other].
  assert (N1 : is_in (type_name e) ["MLPClassifier"; "MLPRegressor"]%string = false).
  { destruct (is_in _ _) eqn:E; [|reflexivity]. apply existsb_exists in E as (x & I & Q). apply String.eqb_eq in Q. subst x. exfalso. apply N. cbn [In] in *. tauto. }
  assert (N2 : String.eqb (type_name e) "Sequential" = false) by (apply String.eqb_neq; intros Q; apply N; rewrite Q; cbn; auto).
  rewrite N1, N2. reflexivity.
Qed.
(** everything but the trees takes every dtype, *)
Theorem C123_dtype_refuted float_str log2_fn log_det_fn ef lf tf e method dtype dtype' rt lb fx kw :
  ~ In (type_name e, FTrees) supported ->
  convert float_str log2_fn log_det_fn ef lf tf e (mk_options None method dtype rt lb fx kw) =
  convert float_str log2_fn log_det_fn ef lf tf e (mk_options None method dtype' rt lb fx kw).
Proof.
  intros N. unfold convert. cbn [o_kind o_method].
  assert (N1 : is_in (type_name e) SUPPORTED_ESTIMATORS = false).
  { destruct (is_in _ _) eqn:E; [|reflexivity]. apply existsb_exists in E as (x & I & Q). apply String.eqb_eq in Q. subst x. exfalso. apply N.
    cbn [In SUPPORTED_ESTIMATORS supported] in *. destruct I as [<-|[<-|[<-|[<-|[<-|[<-|[]]]]]]]; tauto. }
  rewrite N1. reflexivity.
Qed.
(** and the other four families take every keyword, known or not. *)
Theorem C123_keywords_refuted float_str log2_fn log_det_fn ef lf tf e f method dtype rt lb lb' fx fx' kw kw' :
  In (type_name e, f) supported -> In f [FEnvelope; FMixture; FNB; FKNN] ->
  convert float_str log2_fn log_det_fn ef lf tf e (mk_options None method dtype rt lb fx kw) =
  convert float_str log2_fn log_det_fn ef lf tf e (mk_options None method dtype rt lb' fx' kw').
Proof.
  intros I J. unfold convert. cbn [o_kind o_method].
  assert (N1 : In (type_name e) ["EllipticEnvelope"; "GaussianMixture"; "BayesianGaussianMixture"; "GaussianNB"; "KNeighborsClassifier"]%string).
  { cbn [supported In] in I, J. repeat (destruct I as [I|I]); try (exfalso; exact I); injection I as Q1 Q2; rewrite <- Q1; cbn [In]; try tauto; rewrite <- Q2 in J; exfalso;
    repeat (destruct J as [J|J]; [discriminate J|]); exact J. }
  cbn [In] in N1. destruct N1 as [Q|[Q|[Q|[Q|[Q|[]]]]]]; rewrite <- Q; reflexivity.
Qed.

(** ** C124: the methods of the returned model *)
(** The documented methods are predict, predict_proba and score_samples. There is no predict_proba for naive Bayes, nearest
    neighbours and envelopes, and no score_samples but for envelopes and mixtures: they fail on every input. *)
Theorem C124_predict_proba_refuted float_str log2_fn log_det_fn ef lf tf e o f m X :
  In (asked_kind e o, f) supported -> convert float_str log2_fn log_det_fn ef lf tf e o = Ret m -> In f [FEnvelope; FNB; FKNN] ->
  model_predict_proba float_str ef lf tf m X = Err (if match f with FKNN => true | _ => false end then RuntimeError_ else AttributeError_).
Proof.
  intros I C J. pose proof (family_of float_str log2_fn log_det_fn ef lf tf e o f m I C) as F. cbn [In] in J.
  destruct J as [<-|[<-|[<-|[]]]]; destruct m; try contradiction; reflexivity.
Qed.
Theorem C124_score_samples_refuted float_str log2_fn log_det_fn ef lf tf e o f m X :
  In (asked_kind e o, f) supported -> convert float_str log2_fn log_det_fn ef lf tf e o = Ret m -> ~ In f [FEnvelope; FMixture] ->
  model_score_samples float_str ef lf tf m X = Err AttributeError_.
Proof.
  intros I C J. pose proof (family_of float_str log2_fn log_det_fn ef lf tf e o f m I C) as F. cbn [In] in J.
  destruct m; try reflexivity; exfalso; apply J; destruct f; try contradiction; auto.
Qed.
(** The others have them, with the values of the fitted model: the shares of the votes, *)
Theorem C124_tree_proba_partial float_str log2_fn log_det_fn ef lf tf name nf n trees method dtype rt lb X :
  In name ["RandomForestClassifier"; "ExtraTreesClassifier"; "DecisionTreeClassifier"]%string ->
  fitted nf (class_row n) trees -> 1 <= n <= 127 -> nf <= 127 -> zlen trees < 2 ^ 24 ->
  In lb [None; Some None; Some (Some 0); Some (Some 1)] -> In dtype [None; Some "int16_t"%string] ->
  (In method [None; Some "inline"%string] /\ thresholds_within (-32767) 32767 trees \/ method = Some "loadable"%string /\ small_model nf trees) ->
  int16_rows nf X ->
  exists m out, convert float_str log2_fn log_det_fn ef lf tf (mk_estimator name (AttrTrees trees nf (Some n))) (mk_options None method dtype rt lb None false) = Ret m /\
    model_predict_proba float_str ef lf tf m X = Ret out /\ zlen out = zlen X /\
  forall i row, zget X i = Ret row -> exists features cs r,
    int16_row row features /\ Forall2 (tree_class features) trees cs /\ zget out i = Ret r /\
    forall k, 0 <= k < n -> exists p, zget r k = Ret (Some p) /\ is_finite p = true /\
      (Rabs (B2R p - IZR (votes cs k) / IZR (zlen trees)) <= / 1000000)%R.
Proof.
  intros IN F N1 N2 N3 LB DT ME RX.
  destruct (C74_predict_proba nf n trees (match lb with Some b => b | None => None end) (option_map method_of method) (option_map dtype_of dtype) X F N1 N2 N3) as (w & out & E & P & R).
  - cbn [In] in LB |- *. destruct LB as [<-|[<-|[<-|[<-|[]]]]]; auto.
  - cbn [In] in DT |- *. destruct DT as [<-|[<-|[]]]; auto.
  - cbn [In] in ME |- *. destruct ME as [[[<-|[<-|[]]] T]|(-> & T)]; auto.
  - exact RX.
  - exists (MTrees ef lf tf w), out. split; [|split; [exact P|exact R]].
    unfold convert, trees_wrapper. cbn [o_kind kw_use_fixedpoint kw_other kw_leaf_bits attrs type_name o_method o_dtype].
    replace (is_in name SUPPORTED_ESTIMATORS) with true by (cbn [In] in IN; destruct IN as [<-|[<-|[<-|[]]]]; reflexivity).
    replace (contains "Regressor" name) with false by (cbn [In] in IN; destruct IN as [<-|[<-|[<-|[]]]]; reflexivity). cbn [negb]. rewrite E. reflexivity.
Qed.
(** the outputs of a network with three or more classes, *)
Theorem C124_mlp_proba_partial float_str log2_fn log_det_fn ef lf tf act out_act ws bs wl bl ge gl gt method dtype nf X :
  let ls := mlp_layers act out_act ws bs wl bl in
  ws <> [] -> length bs = length ws ->
  In method [None; Some "loadable"%string] -> good_net nf ls -> libm_good ge gl gt ef lf tf ls -> 3 <= n_out ls ->
  float_rows nf X -> Forall (NetRunSpec.row_fits ge gl gt ls) X ->
  Forall (fun row => forall k, 0 <= k < n_out ls -> (Rabs (nthr (fitted_net ls row) k) + nthr (row_bound ge gl gt ls row) k <= IZR (2 ^ 53))%R) X ->
  exists m out, convert float_str log2_fn log_det_fn ef lf tf (mlp_estimator "MLPClassifier" act out_act ws bs wl bl) (mk_options None method dtype "classifier" None None false) = Ret m /\
    model_predict_proba float_str ef lf tf m X = Ret out /\ zlen out = zlen X /\
    forall i row, zget X i = Ret row -> exists r, zget out i = Ret r /\ forall k, 0 <= k < n_out ls ->
      exists q, zget r k = Ret (Some q) /\ returned (nthr (fitted_net ls row) k) (nthr (row_bound ge gl gt ls row) k) q.
Proof.
  intros ls NW LB ME G LM N3 FX FT BD. destruct (C91_outputs ef lf tf ge gl gt method nf ls X ME G LM N3 FX FT BD) as (w & out & E & P & R).
  exists (MNet ef lf tf w), out. split; [|split; [exact P|exact R]]. unfold convert, mlp_estimator, net_of. cbn [o_kind type_name attrs o_method kw_use_fixedpoint kw_leaf_bits kw_other o_return_type].
  assert (L3 : (zlen ws + 2 <? 3) = false) by (destruct ws as [|a ws']; [congruence|]; apply Z.ltb_ge; rewrite zlen_cons; pose proof (zlen_nonneg ws'); lia).
  cbn [is_in existsb SUPPORTED_ESTIMATORS String.eqb Ascii.eqb Bool.eqb orb]; rewrite L3, (C89_sklearn ef lf tf act out_act ws bs wl bl method "classifier" false NW LB); fold (mlp_layers act out_act ws bs wl bl); fold ls; rewrite E; reflexivity.
Qed.
(** the posteriors and the log-likelihood under a mixture, *)
Theorem C124_mixture_partial float_str log2_fn log_det_fn ef lf tf name k n f ge gl gd method dtype rt lb fx kw X :
  In name ["GaussianMixture"; "BayesianGaussianMixture"]%string ->
  str_reads_back float_str -> good_gmm k n f -> expf_ok (ef:=ef) ge -> (0 <= ge <= / 4)%R -> logf_ok (lf:=lf) gl ->
  exists w, gmm_init log_det_fn method f = Ret w /\
  convert float_str log2_fn log_det_fn ef lf tf (mk_estimator name (AttrMixture f)) (mk_options None method dtype rt lb fx kw) = Ret (MMixture ef lf tf w) /\
  (X <> [] -> Forall (fun row => zlen row = n /\ Forall good_number row /\ mixture_fits f row ge gl gd /\ log_dets_good f row gd (w_log_det w)) X ->
   exists ps out, model_predict_proba float_str ef lf tf (MMixture ef lf tf w) X = Ret ps /\ zlen ps = zlen X /\
     model_score_samples float_str ef lf tf (MMixture ef lf tf w) X = Ret out /\ zlen out = zlen X /\
     forall i row, zget X i = Ret row ->
       (exists r, zget ps i = Ret r /\ zlen r = k /\ forall c, 0 <= c < k -> exists o, zget r c = Ret (Some o) /\ returned (posterior f row c) (proba_bound f row ge gl gd) o) /\
       (exists o, zget out i = Ret o /\ returned (ln (fitted_total f row)) (score_bound f row ge gl gd) o)).
Proof.
  intros IN H1 H2 H3 H4 H5. destruct (C117_predict_proba float_str log_det_fn ef lf tf k n f ge gl gd method X H1 H2 H3 H4 H5) as (w & E & R).
  destruct (C116_score_samples float_str log_det_fn ef lf tf k n f ge gl gd method X H1 H2 H3 H4 H5) as (w' & E' & R'). rewrite E in E'. injection E' as <-.
  exists w. split; [exact E|]. split.
  - unfold convert. cbn [o_kind type_name attrs o_method]. cbn [In] in IN. destruct IN as [<-|[<-|[]]]; cbn [is_in existsb SUPPORTED_ESTIMATORS String.eqb Ascii.eqb Bool.eqb orb]; rewrite E; reflexivity.
  - intros NX RX. destruct (R NX RX) as (ps & P & L & Q). destruct (R' NX RX) as (out & P' & L' & Q'). exists (map (map Some) ps), out.
    split; [unfold model_predict_proba; rewrite P; reflexivity|]. split; [rewrite zlen_map; exact L|]. split; [exact P'|]. split; [exact L'|].
    intros i row Hr. split; [|exact (Q' i row Hr)]. destruct (Q i row Hr) as (r & Hr' & Lr & Q2). exists (map Some r). split; [rewrite zget_map, Hr'; reflexivity|].
    split; [rewrite zlen_map; exact Lr|]. intros c Bc. destruct (Q2 c Bc) as (o & Ho & Ro). exists o. split; [rewrite zget_map, Ho; reflexivity|exact Ro].
Qed.
(** and the (negative) distances of an envelope. *)
Theorem C124_envelope_partial float_str log2_fn log_det_fn ef lf tf n f dtype rt lb fx kw X :
  str_reads_back float_str -> good_envelope n f -> 1 <= n -> good_number (fe_offset f) ->
  float_rows n X -> Forall (numpy_fine f) X -> Forall (distance_fits f) X ->
  exists m out, convert float_str log2_fn log_det_fn ef lf tf (mk_estimator "EllipticEnvelope" (AttrEnvelope f)) (mk_options None (Some "inline"%string) dtype rt lb fx kw) = Ret m /\
    model_score_samples float_str ef lf tf m X = Ret out /\ zlen out = zlen X /\
    forall i row, zget X i = Ret row -> exists o, zget out i = Ret o /\ returned (- fitted_distance f row) (distance_bound f row) o.
Proof.
  intros H1 H2 H3 H4 H5 H6 H7. destruct (C106_score_samples float_str ef lf tf n f X H1 H2 H3 H4 H5 H6 H7) as (e & ys & E & P & R).
  exists (MEnvelope ef lf tf f e), ys. split; [|split; [exact P|exact R]].
  unfold convert. cbn [o_kind type_name attrs o_method]. change (is_in "EllipticEnvelope" SUPPORTED_ESTIMATORS) with false. change (is_in "EllipticEnvelope" ["EllipticEnvelope"]%string) with true.
  cbv iota. rewrite E. reflexivity.
Qed.

(** ** Instances *)
Example C121_instance float_str log2_fn log_det_fn ef lf tf junk : exists m out,
  convert float_str log2_fn log_det_fn ef lf tf (mk_estimator "RandomForestClassifier" (AttrTrees forest_abc 2 (Some 3))) defaults = Ret m /\
  model_predict float_str ef lf tf junk m rows_ab = Ret out.
Proof.
  assert (L : zlen forest_abc = 3) by reflexivity.
  destruct (C121_tree_classifier float_str log2_fn log_det_fn ef lf tf junk "RandomForestClassifier" 2 3 forest_abc None None "classifier" None rows_ab) as (m & out & E & P & _);
    [cbn; auto|exact fitted_class|lia|lia|lia|cbn; auto|cbn; auto|left; split; [cbn; auto|exact thresholds_abc]|exact rows_ab_ok|].
  exists m, out. split; [exact E|exact P].
Qed.
Example C120_instance : In ("KNeighborsClassifier"%string, FKNN) supported /\ ~ In "SVC"%string (map fst supported) /\
  (names_regressor "MyExtraTreesRegressor" <-> names_regressor "ExtraTreesRegressor").
Proof.
  split; [cbn; tauto|]. split; [cbn; intros H; decompose [or] H; try discriminate; contradiction|].
  split; intros _; [exists "ExtraTrees"%string, ""%string|exists "MyExtraTrees"%string, ""%string]; reflexivity.
Qed.
(** leaf_bits=4 and an unknown keyword, given to naive Bayes or to nearest neighbours, change nothing. *)
Example C123_instance float_str log2_fn log_det_fn ef lf tf f : In ("GaussianNB"%string, FNB) supported /\
  convert float_str log2_fn log_det_fn ef lf tf (mk_estimator "GaussianNB" (AttrNB f)) (mk_options None None None "classifier" (Some (Some 4)) None true) =
  convert float_str log2_fn log_det_fn ef lf tf (mk_estimator "GaussianNB" (AttrNB f)) defaults.
Proof. split; [cbn; tauto|]. apply C123_keywords_refuted with FNB; cbn; tauto. Qed.

(** ** C125: Keras Sequential models *)
(** [keras_real layers row]: the layers applied one after the other. The converted network has one layer per Dense layer, with the
    activation that comes next; this is the same function if every activation layer follows a Dense layer without activation of
    its own ([mergeable]; otherwise C37_convert_refuted). *)
Theorem C125_function layers row : Forall keras_ok_layer layers -> mergeable f64_arith false layers -> fitted_net (dense_layers layers) row = keras_real layers row.
Proof. apply same_function. Qed.
Lemma keras_converts float_str log2_fn log_det_fn ef lf tf layers method dtype rt w : Forall keras_ok_layer layers -> mergeable f64_arith false layers ->
  net_wrapper ef lf tf method rt false (dense_layers layers) = Ret w ->
  convert float_str log2_fn log_det_fn ef lf tf (mk_estimator "Sequential" (AttrKeras layers)) (mk_options None method dtype rt None None false) = Ret (MNet ef lf tf w).
Proof.
  intros K M E. unfold convert, net_of, convert_keras_model. cbn [o_kind type_name attrs o_method kw_use_fixedpoint kw_leaf_bits kw_other o_return_type].
  cbn [is_in existsb SUPPORTED_ESTIMATORS String.eqb Ascii.eqb Bool.eqb orb]. rewrite (converted_layers layers K M). cbn [bind]. rewrite E. reflexivity.
Qed.
(** The classes, where they are clear: [n] outputs with values [Y] and error bounds [E]. *)
Definition clear_class (n : Z) (Y E : list R) (c : Z) : Prop :=
  if n =? 1 then (c = 1 /\ (1 / 2 + nthr E 0 < nthr Y 0)%R) \/ (c = 0 /\ (nthr Y 0 < 1 / 2 - nthr E 0)%R)
  else 0 <= c < n /\ forall k, 0 <= k < n -> k <> c -> (nthr Y k + nthr E k + nthr E c < nthr Y c)%R.
Theorem C125_classes float_str log2_fn log_det_fn ef lf tf junk layers ge gl gt method dtype nf X cs :
  Forall keras_ok_layer layers -> mergeable f64_arith false layers ->
  In method [None; Some "loadable"%string; Some "inline"%string] ->
  good_net nf (dense_layers layers) -> libm_good ge gl gt ef lf tf (dense_layers layers) -> n_out (dense_layers layers) <= 2 ^ 53 ->
  float_rows nf X -> Forall (NetRunSpec.row_fits ge gl gt (dense_layers layers)) X ->
  Forall2 (fun row c => clear_class (n_out (dense_layers layers)) (keras_real layers row) (row_bound ge gl gt (dense_layers layers) row) c) X cs ->
  exists m, convert float_str log2_fn log_det_fn ef lf tf (mk_estimator "Sequential" (AttrKeras layers)) (mk_options None method dtype "classifier" None None false) = Ret m /\
    model_predict float_str ef lf tf junk m X = Ret (map PyInt cs).
Proof.
  intros K M ME G LM NB FX FT FC. destruct (C90_classes ef lf tf ge gl gt method nf (dense_layers layers) X cs ME G LM NB FX FT) as (w & E & P).
  - revert FC. clear - K M. intros FC. induction FC as [|row c X cs H FC IH]; constructor; [|exact IH].
    rewrite <- (same_function layers row K M) in H. exact H.
  - exists (MNet ef lf tf w). split; [exact (keras_converts float_str log2_fn log_det_fn ef lf tf layers method dtype "classifier" w K M E)|exact P].
Qed.
(** The probabilities (three or more outputs). *)
Theorem C125_outputs float_str log2_fn log_det_fn ef lf tf layers ge gl gt method dtype nf X :
  Forall keras_ok_layer layers -> mergeable f64_arith false layers -> In method [None; Some "loadable"%string] ->
  good_net nf (dense_layers layers) -> libm_good ge gl gt ef lf tf (dense_layers layers) -> 3 <= n_out (dense_layers layers) ->
  float_rows nf X -> Forall (NetRunSpec.row_fits ge gl gt (dense_layers layers)) X ->
  Forall (fun row => forall k, 0 <= k < n_out (dense_layers layers) ->
    (Rabs (nthr (keras_real layers row) k) + nthr (row_bound ge gl gt (dense_layers layers) row) k <= IZR (2 ^ 53))%R) X ->
  exists m out, convert float_str log2_fn log_det_fn ef lf tf (mk_estimator "Sequential" (AttrKeras layers)) (mk_options None method dtype "classifier" None None false) = Ret m /\
    model_predict_proba float_str ef lf tf m X = Ret out /\ zlen out = zlen X /\
    forall i row, zget X i = Ret row -> exists r, zget out i = Ret r /\ forall k, 0 <= k < n_out (dense_layers layers) ->
      exists q, zget r k = Ret (Some q) /\ returned (nthr (keras_real layers row) k) (nthr (row_bound ge gl gt (dense_layers layers) row) k) q.
Proof.
  intros K M ME G LM N3 FX FT BD. destruct (C91_outputs ef lf tf ge gl gt method nf (dense_layers layers) X ME G LM N3 FX FT) as (w & out & E & P & L & R).
  - revert BD. apply Forall_impl. intros row H k Bk. rewrite (same_function layers row K M). exact (H k Bk).
  - exists (MNet ef lf tf w), out. split; [exact (keras_converts float_str log2_fn log_det_fn ef lf tf layers method dtype "classifier" w K M E)|]. split; [exact P|]. split; [exact L|].
    intros i row Hr. destruct (R i row Hr) as (r & Er & Q). exists r. split; [exact Er|]. intros k Bk. rewrite <- (same_function layers row K M). exact (Q k Bk).
Qed.
(** Regression. *)
Theorem C125_values float_str log2_fn log_det_fn ef lf tf junk layers ge gl gt method dtype nf X :
  Forall keras_ok_layer layers -> mergeable f64_arith false layers -> In method [None; Some "loadable"%string] ->
  good_net nf (dense_layers layers) -> n_out (dense_layers layers) = 1 -> libm_good ge gl gt ef lf tf (dense_layers layers) ->
  float_rows nf X -> Forall (NetRunSpec.row_fits ge gl gt (dense_layers layers)) X ->
  Forall (fun row => (Rabs (nthr (keras_real layers row) 0) + nthr (row_bound ge gl gt (dense_layers layers) row) 0 <= IZR (2 ^ 53))%R) X ->
  exists m out, convert float_str log2_fn log_det_fn ef lf tf (mk_estimator "Sequential" (AttrKeras layers)) (mk_options None method dtype "regressor" None None false) = Ret m /\
    model_predict float_str ef lf tf junk m X = Ret out /\ zlen out = zlen X /\
    forall i row, zget X i = Ret row -> exists o, zget out i = Ret (PyFloat o) /\
      returned (nthr (keras_real layers row) 0) (nthr (row_bound ge gl gt (dense_layers layers) row) 0) o.
Proof.
  intros K M ME G NO LM FX FT BD. destruct (C89_regressor ef lf tf ge gl gt method nf (dense_layers layers) X ME G NO LM FX FT) as (w & out & E & P & L & R).
  - revert BD. apply Forall_impl. intros row H. rewrite (same_function layers row K M). exact H.
  - exists (MNet ef lf tf w), out. split; [exact (keras_converts float_str log2_fn log_det_fn ef lf tf layers method dtype "regressor" w K M E)|]. split; [exact P|]. split; [exact L|].
    intros i row Hr. destruct (R i row Hr) as (o & Er & Q). exists o. split; [exact Er|]. rewrite <- (same_function layers row K M). exact Q.
Qed.
(** Dense, ReLU layer, Dropout, Dense: the network of C89_instance. *)
Definition keras_reg : list klayer :=
  [KDense f64_arith "linear" true (map (map d) [[1; -1]; [2; 3]]) 2 (map d [0; 1]); KReLU f64_arith true; KDropout f64_arith;
   KDense f64_arith "linear" true (map (map d) [[1]; [-1]]) 1 (map d [3])].
Example C125_instance ge gl gt (G : (0 <= ge <= / 4)%R) ef lf tf : Forall keras_ok_layer keras_reg /\ mergeable f64_arith false keras_reg /\
  good_net 2 (dense_layers keras_reg) /\ n_out (dense_layers keras_reg) = 1 /\ libm_good ge gl gt ef lf tf (dense_layers keras_reg) /\
  NetRunSpec.row_fits ge gl gt (dense_layers keras_reg) [d 1; d 2] /\ keras_real keras_reg [d 1; d 2] = [2%R].
Proof.
  assert (K : Forall keras_ok_layer keras_reg) by (unfold keras_reg; repeat apply Forall_cons; try apply Forall_nil; cbn; auto).
  assert (M : mergeable f64_arith false keras_reg) by (cbn; auto).
  destruct (C89_instance ge gl gt G ef lf tf) as (H1 & H2 & H3 & H4 & H5 & H6 & H7).
  split; [exact K|]. split; [exact M|]. split; [exact H1|]. split; [exact H2|]. split; [exact H3|]. split; [exact H5|].
  rewrite <- (same_function keras_reg [d 1; d 2] K M). exact H6.
Qed.
