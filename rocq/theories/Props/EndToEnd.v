(** Converted tree models end to end: convert(), generated C code, compiled test program, returned numbers. *)
From Coq Require Import String ZArith List Bool Lia Reals Lra.
From Flocq Require Import Core BinarySingleNaN.
From Verif.Base Require Import Res CInt ListX Float.
From Verif.Model Require Import TreesConvert TreesC TreesInline TreesWrapper Harness TreesRun.
From Verif.Spec Require Import TreesSpec TreesCSpec VoteSpec ClassifierSpec HarnessSpec RunSpec RealSpec.
From Verif.Proof Require Import TreesTop Quantize Harness RunRows TreesRun TreesRegRun TreesRunTop TreesFloatRun EndToEnd.
From Verif.Props Require Import Samples.
Import Verif.Spec.HarnessSpec ListNotations.
Open Scope Z_scope.
Open Scope res_scope.

(** ** C73  predict of a classifier with hard voting *)
Theorem C73_predict nf n trees lb method dtype X :
  fitted nf (class_row n) trees -> 1 <= n <= 127 -> nf <= 127 -> zlen trees < 2 ^ 24 -> In lb [None; Some 0; Some 1] ->
  In dtype [None; Some DInt16] ->
  (In method [None; Some MInline] /\ thresholds_within (-32767) 32767 trees \/
   method = Some MLoadable /\ small_model nf trees /\ n <= 30) ->
  int16_rows nf X ->
  exists w out, wrapper_init true method dtype lb trees nf n = Ret w /\ wrapper_predict w X = Ret out /\ zlen out = zlen X /\
  forall i row, zget X i = Ret row -> exists features cs c,
    int16_row row features /\ Forall2 (tree_class features) trees cs /\
    zget out i = Ret (PyInt c) /\ majority n cs c.
Proof. intros H1 H2 H3 H4 H5 H6 H7 H8. exact (predict_run nf n trees H1 H2 H4 lb H5 H3 method dtype X (conj H6 H7) H8). Qed.

(** Two rows through the compiled program. *)
Definition rows_ab : list (list f64) := [[q 3 1; q (-7) 1]; [q 20 1; q 11 1]].
Lemma int_check (v : f64) z : -32768 <= z <= 32767 -> is_finite v && fleb v (f_of_Z z) && fleb (f_of_Z z) v = true ->
  is_finite v = true /\ B2R v = IZR z /\ -32768 <= z <= 32767.
Proof.
  intros B H. apply andb_prop in H as [H H2]. apply andb_prop in H as [F H1].
  destruct (@f_of_Z_exact 53 1024 _ _ z ltac:(lia)) as [V Fz]. split; [exact F|]. split; [|exact B]. rewrite <- V.
  apply fleb_iff in H1; [|assumption|assumption]. apply fleb_iff in H2; [|assumption|assumption]. lra.
Qed.
Lemma rows_ab_ok : int16_rows 2 rows_ab.
Proof.
  split; [discriminate|]. split; [vm_compute; discriminate|].
  constructor; [split; [reflexivity|]; exists [3; -7] | constructor; [split; [reflexivity|]; exists [20; 11]|constructor]];
  (constructor; [|constructor; [|constructor]]); (apply int_check; [lia|vm_compute; reflexivity]).
Qed.
Lemma thresholds_abc : thresholds_within (-32767) 32767 forest_abc.
Proof.
  unfold thresholds_within. each ltac:(cbn [sk_threshold tree_a tree_b tree_r tree_1]; each ltac:(
    cbv beta; match goal with |- exists k, py_int ?x = Ret k /\ _ =>
      let v := eval vm_compute in (py_int x) in
      match v with Ret ?k => exists k; split; [vm_compute; reflexivity | lia] end end)).
Qed.
Example C73_example :
  (let* w := wrapper_init true None None None forest_abc 2 3 in wrapper_predict w rows_ab) = Ret [PyInt 0; PyInt 2] /\
  (let* w := wrapper_init true (Some MLoadable) None None forest_abc 2 3 in wrapper_predict w rows_ab) = Ret [PyInt 0; PyInt 2].
Proof. split; vm_compute; reflexivity. Qed.

(** ** C74  predict_proba of a classifier with hard voting: the share of the trees *)
Theorem C74_predict_proba nf n trees lb method dtype X :
  fitted nf (class_row n) trees -> 1 <= n <= 127 -> nf <= 127 -> zlen trees < 2 ^ 24 -> In lb [None; Some 0; Some 1] ->
  In dtype [None; Some DInt16] ->
  (In method [None; Some MInline] /\ thresholds_within (-32767) 32767 trees \/ method = Some MLoadable /\ small_model nf trees) ->
  int16_rows nf X ->
  exists w m, wrapper_init true method dtype lb trees nf n = Ret w /\ wrapper_predict_proba w X = Ret m /\ zlen m = zlen X /\
  forall i row, zget X i = Ret row -> exists features cs r,
    int16_row row features /\ Forall2 (tree_class features) trees cs /\ zget m i = Ret r /\
    forall k, 0 <= k < n -> exists p, zget r k = Ret (Some p) /\ is_finite p = true /\
      (Rabs (B2R p - IZR (votes cs k) / IZR (zlen trees)) <= / 1000000)%R.
Proof.
  intros H1 H2 H3 H4 H5 H6 H7 H8.
  destruct (proba_run nf n trees H1 H2 H4 lb H5 H3 method dtype X H6 H7 H8) as (w & m & A & B & C & G).
  exists w, m. split; [exact A|]. split; [exact B|]. split; [exact C|]. intros i row Hr.
  destruct (G i row Hr) as (fs & cs & r & R & HC & E & P). exists fs, cs, r. split; [exact R|]. split; [exact HC|]. split; [exact E|].
  intros k Bk. destruct (P k Bk) as (p & Ep & T). exists p. split; [exact Ep|].
  pose proof (trees_pos _ _ _ H1). apply (share_close cs (zlen trees) k p); [|lia|exact T].
  unfold zlen. now rewrite (Forall2_len _ _ _ HC).
Qed.
Example C74_example :
  (let* w := wrapper_init true None None None forest_abc 2 3 in
   let* m := wrapper_predict_proba w rows_ab in
   Ret (map (map (option_map (fun x => Bcompare x (q 333333 1000000)))) m)) =
  Ret [[Some (Some Eq); Some (Some Eq); Some (Some Eq)]; [Some (Some Lt); Some (Some Eq); Some (Some Gt)]].
Proof. vm_compute. reflexivity. Qed.

(** ** C75  predict of a regressor: the mean of the tree values *)
Theorem C75_regress nf nc trees B lb method dtype X :
  (0 <= B <= bpow radix2 50)%R -> fitted nf (value_within B) trees -> zlen trees <= 8388608 -> nf <= 127 ->
  In lb [None; Some 32] -> In dtype [None; Some DInt16] ->
  (In method [None; Some MInline] /\ thresholds_within (-32767) 32767 trees \/ method = Some MLoadable /\ small_model nf trees) ->
  int16_rows nf X ->
  exists w out, wrapper_init false method dtype lb trees nf nc = Ret w /\ wrapper_predict w X = Ret out /\ zlen out = zlen X /\
  forall i row, zget X i = Ret row -> exists features xs o,
    int16_row row features /\ Forall2 (tree_value_by (go_lt features)) trees xs /\
    zget out i = Ret (PyFloat o) /\ is_finite o = true /\
    (Rabs (B2R o - fold_right Rplus 0 (map B2R xs) / IZR (zlen trees)) <= (IZR (zlen trees) + 6) * B / 16777216 + 2 / 1000000)%R.
Proof.
  intros H1 H2 H3 H4 H5 H6 H7 H8.
  destruct (regress_run nf nc trees B lb H1 H2 H3 H5 H4 method dtype X H6 H7 H8) as (w & out & A & E & L & G).
  exists w, out. split; [exact A|]. split; [exact E|]. split; [exact L|]. intros i row Hr.
  destruct (G i row Hr) as (fs & xs & o & R & HX & Z & F & D). exists fs, xs, o. split; [exact R|]. split; [exact HX|]. split; [exact Z|]. split; [exact F|].
  unfold mean_of in D. replace (zlen xs) with (zlen trees) in D by (unfold zlen; now rewrite (Forall2_len _ _ _ HX)). exact D.
Qed.
Lemma within_check b (x : f64) : Z.abs b <= 2 ^ 53 -> is_finite x && fleb (Babs x) (f_of_Z b) = true -> value_within (IZR b) [x].
Proof.
  intros Hb H. apply andb_prop in H as [F L]. exists x. split; [reflexivity|]. split; [exact F|].
  destruct (@f_of_Z_exact 53 1024 _ _ b Hb) as [V Fb]. rewrite <- V, <- B2R_Babs.
  apply fleb_iff; [now rewrite is_finite_Babs|exact Fb|exact L].
Qed.
Lemma fitted_within_r : fitted 2 (value_within 10) forest_r.
Proof.
  constructor; try discriminate; try lia.
  - each ltac:(first [apply wf_r | apply wf_1]).
  - each ltac:(apply rows_ok; cbn [concat sk_value app tree_r tree_1]; each ltac:(apply (within_check 10); [lia | vm_compute; reflexivity])).
Qed.
Lemma thresholds_r : thresholds_within (-32767) 32767 forest_r.
Proof.
  unfold thresholds_within. each ltac:(cbn [sk_threshold tree_a tree_b tree_r tree_1]; each ltac:(
    cbv beta; match goal with |- exists k, py_int ?x = Ret k /\ _ =>
      let v := eval vm_compute in (py_int x) in
      match v with Ret ?k => exists k; split; [vm_compute; reflexivity | lia] end end)).
Qed.
Example C73_instance :
  (exists w out, wrapper_init true None None None forest_abc 2 3 = Ret w /\ wrapper_predict w rows_ab = Ret out) /\
  (exists w out, wrapper_init true (Some MLoadable) None None forest_abc 2 3 = Ret w /\ wrapper_predict w rows_ab = Ret out) /\
  (exists w m, wrapper_init true None None None forest_abc 2 3 = Ret w /\ wrapper_predict_proba w rows_ab = Ret m) /\
  (exists w out, wrapper_init false None None None forest_r 2 0 = Ret w /\ wrapper_predict w rows_ab = Ret out) /\
  (exists w out, wrapper_init false (Some MLoadable) None None forest_r 2 0 = Ret w /\ wrapper_predict w rows_ab = Ret out).
Proof.
  assert (L : zlen forest_abc = 3) by reflexivity. assert (L' : zlen forest_r = 2) by reflexivity.
  split; [|split; [|split; [|split]]].
  - destruct (C73_predict 2 3 forest_abc None None None rows_ab fitted_class ltac:(lia) ltac:(lia) ltac:(lia) ltac:(cbn; auto) ltac:(cbn; auto)
      (or_introl (conj (or_introl eq_refl) thresholds_abc)) rows_ab_ok) as (w & out & A & B & _). eauto.
  - destruct (C73_predict 2 3 forest_abc None (Some MLoadable) None rows_ab fitted_class ltac:(lia) ltac:(lia) ltac:(lia) ltac:(cbn; auto) ltac:(cbn; auto)
      (or_intror (conj eq_refl (conj small_abc (ltac:(lia) : 3 <= 30)))) rows_ab_ok) as (w & out & A & B & _). eauto.
  - destruct (C74_predict_proba 2 3 forest_abc None None None rows_ab fitted_class ltac:(lia) ltac:(lia) ltac:(lia) ltac:(cbn; auto) ltac:(cbn; auto)
      (or_introl (conj (or_introl eq_refl) thresholds_abc)) rows_ab_ok) as (w & out & A & B & _). eauto.
  - destruct (C75_regress 2 0 forest_r 10 None None None rows_ab) as (w & out & A & B & _); try (cbn; auto; fail); try lia.
    + split; [lra|]. change 10%R with (IZR 10). change (bpow radix2 50) with (IZR (2 ^ 50)). apply IZR_le. lia.
    + exact fitted_within_r.
    + left. split; [cbn; auto|exact thresholds_r].
    + exact rows_ab_ok.
    + eauto.
  - destruct (C75_regress 2 0 forest_r 10 None (Some MLoadable) None rows_ab) as (w & out & A & B & _); try (cbn; auto; fail); try lia.
    + split; [lra|]. change 10%R with (IZR 10). change (bpow radix2 50) with (IZR (2 ^ 50)). apply IZR_le. lia.
    + exact fitted_within_r.
    + right. split; [reflexivity|exact small_r].
    + exact rows_ab_ok.
    + eauto.
Qed.

(** ** C76  leaf values of regressors are kept as the nearest float32 *)
(** Not by inline code: six decimals are written. A regressor whose only leaf is 1e-7 always answers 0;
    the loadable code answers 1e-7. *)
Theorem C76_leaf_values_refuted : exists trees w w' c c',
  fitted 1 value_row trees /\ zlen trees = 1 /\
  wrapper_init false (Some MLoadable) None None trees 1 0 = Ret w /\ save_code w = Ret c /\
  wrapper_init false (Some MInline) None None trees 1 0 = Ret w' /\ save_code w' = Ret c' /\
  (exists y, code_regress c 1 [Some fzero] 1 = Ret y /\ fltb fzero y = true) /\
  code_regress c' 1 [Some fzero] 1 = Ret fzero.
Proof.
  exists [tree_1 [q 1 10000000]].
  assert (E : (let* w := wrapper_init false (Some MLoadable) None None [tree_1 [q 1 10000000]] 1 0 in
    let* c := save_code w in let* w' := wrapper_init false (Some MInline) None None [tree_1 [q 1 10000000]] 1 0 in
    let* c' := save_code w' in let* y := code_regress c 1 [Some fzero] 1 in let* y' := code_regress c' 1 [Some fzero] 1 in
    Ret (fltb fzero y, match y' with B754_zero false => true | _ => false end)) = Ret (true, true)) by (vm_compute; reflexivity).
  apply bind_Ret in E. destruct E as (w & E1 & E).
  destruct (save_code w) as [c|] eqn:E2; [|discriminate]. cbn [bind] in E.
  destruct (wrapper_init false (Some MInline) None None [tree_1 [q 1 10000000]] 1 0) as [w'|] eqn:E3; [|discriminate]. cbn [bind] in E.
  destruct (save_code w') as [c'|] eqn:E4; [|discriminate]. cbn [bind] in E.
  destruct (code_regress c 1 [Some fzero] 1) as [y|] eqn:E5; [|discriminate]. cbn [bind] in E.
  destruct (code_regress c' 1 [Some fzero] 1) as [y'|] eqn:E6; [|discriminate]. cbn [bind] in E.
  exists w, w', c, c'. injection E as E7 E8. split; [|split; [reflexivity|]].
  - constructor; try discriminate; try lia; [each ltac:(apply wf_1)|].
    each ltac:(apply rows_ok; cbn [concat sk_value app tree_1]; each ltac:(eexists; (split; [reflexivity | vm_compute; reflexivity]))).
  - split; [exact E1|]. split; [exact E2|]. split; [first [exact E3|reflexivity]|]. split; [exact E4|]. split; [exists y; auto|].
    rewrite E6. destruct y' as [[]| | |]; try discriminate E8. reflexivity.
Qed.
(** What holds: a loadable regressor's leaf is the nearest float32 (C13); an inline leaf is the value written with six
    decimals, and the mean over the trees is taken in float32. *)
Theorem C76_inline_leaves_partial nf nc trees B lb method w c features xs values row :
  (0 <= B <= bpow radix2 50)%R -> fitted nf (value_within B) trees -> nf <= 10000 -> In lb [None; Some 32] ->
  In method [None; Some MInline] -> thresholds_within (-32767) 32767 trees ->
  wrapper_init false method None lb trees nf nc = Ret w -> save_code w = Ret c ->
  zlen row = nf -> int16_row row features -> holds row values -> Forall2 (tree_value_by (go_lt features)) trees xs ->
  exists ks, Forall2 (fun (x : f64) (k : f32) => is_finite k = true /\ through_decimals 6 (B2R x) k /\
       (Rabs (B2R k - B2R x) <= 500001 / 1000000000000 + Rabs (B2R x) / 16777216)%R) xs ks /\
    code_regress c nf values nf = Ret (fdiv (fold_left fadd ks fzero) (f_of_Z (zlen trees))).
Proof. intros. eapply inline_leaves; eauto. Qed.

(** ** C77  agreement with scikit-learn, int16_t features *)
Theorem C77_predict_as_sklearn nf n trees lb method dtype X :
  fitted nf (class_row n) trees -> 1 <= n <= 127 -> nf <= 127 -> zlen trees < 2 ^ 24 -> In lb [None; Some 0; Some 1] ->
  In dtype [None; Some DInt16] ->
  (In method [None; Some MInline] /\ thresholds_within (-32767) 32767 trees \/
   method = Some MLoadable /\ small_model nf trees /\ n <= 30) ->
  int16_rows nf X -> Forall (fun row => clear_int16 row trees) X ->
  exists w out, wrapper_init true method dtype lb trees nf n = Ret w /\ wrapper_predict w X = Ret out /\ zlen out = zlen X /\
  forall i row, zget X i = Ret row -> exists cs c,
    Forall2 (tree_class_by (go_sk row)) trees cs /\ zget out i = Ret (PyInt c) /\ majority n cs c.
Proof.
  intros H1 H2 H3 H4 H5 H6 H7 H8 H9. 
  destruct (C73_predict nf n trees lb method dtype X H1 H2 H3 H4 H5 H6 H7 H8) as (w & out & A & B & C & G).
  exists w, out. split; [exact A|]. split; [exact B|]. split; [exact C|]. intros i row Hr.
  destruct (G i row Hr) as (fs & cs & c & R & HC & E & M). exists cs, c. split; [|split; assumption].
  destruct H8 as (_ & _ & HX). rewrite Forall_forall in HX, H9. pose proof (zget_In _ _ _ Hr) as I. destruct (HX row I) as [L _].
  eapply class_by_ext; [|exact HC]. 
  apply (go_lt_sk row fs trees nf (fitted_true _ _ _ H1) L R); [|exact (H9 row I)].
  destruct H7 as [[_ T]|(_ & T & _)]; [eapply within_int; eauto|eapply small_int; eauto].
Qed.
Theorem C77_regress_as_sklearn nf nc trees B lb method dtype X :
  (0 <= B <= bpow radix2 50)%R -> fitted nf (value_within B) trees -> zlen trees <= 8388608 -> nf <= 127 ->
  In lb [None; Some 32] -> In dtype [None; Some DInt16] ->
  (In method [None; Some MInline] /\ thresholds_within (-32767) 32767 trees \/ method = Some MLoadable /\ small_model nf trees) ->
  int16_rows nf X -> Forall (fun row => clear_int16 row trees) X ->
  exists w out, wrapper_init false method dtype lb trees nf nc = Ret w /\ wrapper_predict w X = Ret out /\ zlen out = zlen X /\
  forall i row, zget X i = Ret row -> exists xs o,
    Forall2 (tree_value_by (go_sk row)) trees xs /\
    zget out i = Ret (PyFloat o) /\ is_finite o = true /\
    (Rabs (B2R o - fold_right Rplus 0 (map B2R xs) / IZR (zlen trees)) <= (IZR (zlen trees) + 6) * B / 16777216 + 2 / 1000000)%R.
Proof.
  intros H1 H2 H3 H4 H5 H6 H7 H8 H9.
  destruct (C75_regress nf nc trees B lb method dtype X H1 H2 H3 H4 H5 H6 H7 H8) as (w & out & A & E & L & G).
  exists w, out. split; [exact A|]. split; [exact E|]. split; [exact L|]. intros i row Hr.
  destruct (G i row Hr) as (fs & xs & o & R & HX & Z & F & D). exists xs, o. split; [|split; [exact Z|split; assumption]].
  destruct H8 as (_ & _ & HR). rewrite Forall_forall in HR, H9. pose proof (zget_In _ _ _ Hr) as I. destruct (HR row I) as [Lr _].
  eapply value_by_ext; [|exact HX].
  apply (go_lt_sk row fs trees nf (fitted_true _ _ _ H2) Lr R); [|exact (H9 row I)].
  destruct H7 as [[_ T]|(_ & T)]; [eapply within_int; eauto|eapply small_int; eauto].
Qed.

(** ** C78  float features *)
(** Whatever the row, each decision compares the value as printed with 8 decimals with the threshold as printed with 6. *)
Theorem C78_float_predict nf n trees lb method X :
  fitted nf (class_row n) trees -> 1 <= n <= 127 -> nf <= 10000 -> zlen trees < 2 ^ 24 -> In lb [None; Some 0; Some 1] ->
  In method [None; Some MInline] -> float_thresholds trees -> float_rows nf X ->
  exists w out, wrapper_init true method (Some DFloat) lb trees nf n = Ret w /\ wrapper_predict w X = Ret out /\ zlen out = zlen X /\
  forall i row, zget X i = Ret row -> exists go cs c,
    float_decisions row trees go /\ Forall2 (tree_class_by go) trees cs /\ zget out i = Ret (PyInt c) /\ majority n cs c.
Proof. intros H1 H2 H3 H4 H5 H6 H7 H8. exact (float_predict_run nf n trees H1 H2 H4 lb H5 H7 H3 method X H6 H8). Qed.
(** So away from the thresholds the answer is that of scikit-learn's own walk. *)
Theorem C78_float_as_sklearn nf n trees lb method X :
  fitted nf (class_row n) trees -> 1 <= n <= 127 -> nf <= 10000 -> zlen trees < 2 ^ 24 -> In lb [None; Some 0; Some 1] ->
  In method [None; Some MInline] -> float_thresholds trees -> float_rows nf X -> Forall (fun row => clear_float row trees) X ->
  exists w out, wrapper_init true method (Some DFloat) lb trees nf n = Ret w /\ wrapper_predict w X = Ret out /\ zlen out = zlen X /\
  forall i row, zget X i = Ret row -> exists cs c,
    Forall2 (tree_class_by (go_sk row)) trees cs /\ zget out i = Ret (PyInt c) /\ majority n cs c.
Proof.
  intros H1 H2 H3 H4 H5 H6 H7 H8 H9.
  destruct (C78_float_predict nf n trees lb method X H1 H2 H3 H4 H5 H6 H7 H8) as (w & out & A & B & C & G).
  exists w, out. split; [exact A|]. split; [exact B|]. split; [exact C|]. intros i row Hr.
  destruct (G i row Hr) as (go & cs & c & R & HC & E & M). exists cs, c. split; [|split; assumption].
  destruct H8 as (_ & _ & HX). rewrite Forall_forall in HX, H9. pose proof (zget_In _ _ _ Hr) as I. destruct (HX row I) as (L & FR & _).
  eapply class_by_ext; [|exact HC].
  exact (float_go_sk nf row trees go (ft_trees _ _ _ H1) L FR H7 R (H9 row I)).
Qed.
(** The probabilities are the share of the trees. *)
Theorem C78_float_proba nf n trees lb method X :
  fitted nf (class_row n) trees -> 1 <= n <= 127 -> nf <= 10000 -> zlen trees < 2 ^ 24 -> In lb [None; Some 0; Some 1] ->
  In method [None; Some MInline] -> float_thresholds trees -> float_rows nf X -> Forall (fun row => clear_float row trees) X ->
  exists w m, wrapper_init true method (Some DFloat) lb trees nf n = Ret w /\ wrapper_predict_proba w X = Ret m /\ zlen m = zlen X /\
  forall i row, zget X i = Ret row -> exists cs r,
    Forall2 (tree_class_by (go_sk row)) trees cs /\ zget m i = Ret r /\
    forall k, 0 <= k < n -> exists p, zget r k = Ret (Some p) /\ is_finite p = true /\
      (Rabs (B2R p - IZR (votes cs k) / IZR (zlen trees)) <= / 1000000)%R.
Proof.
  intros H1 H2 H3 H4 H5 H6 H7 H8 H9.
  destruct (float_proba_run nf n trees H1 H2 H4 lb H5 H7 H3 method X H6 H8) as (w & m & A & B & C & G).
  exists w, m. split; [exact A|]. split; [exact B|]. split; [exact C|]. intros i row Hr.
  destruct (G i row Hr) as (go & cs & r & R & HC & E & P). exists cs, r. split; [|split; [exact E|]].
  - destruct H8 as (_ & _ & HX). rewrite Forall_forall in HX, H9. pose proof (zget_In _ _ _ Hr) as I. destruct (HX row I) as (L & FR & _).
    eapply class_by_ext; [|exact HC].
    exact (float_go_sk nf row trees go (ft_trees _ _ _ H1) L FR H7 R (H9 row I)).
  - intros k Bk. destruct (P k Bk) as (p & Ep & T). exists p. split; [exact Ep|].
    pose proof (trees_pos _ _ _ H1). apply (share_close cs (zlen trees) k p); [|lia|exact T].
    unfold zlen. now rewrite (Forall2_len _ _ _ HC).
Qed.
Theorem C78_float_regress nf nc trees B lb method X :
  (0 <= B <= bpow radix2 50)%R -> fitted nf (value_within B) trees -> zlen trees <= 8388608 -> nf <= 10000 ->
  In lb [None; Some 32] -> In method [None; Some MInline] -> float_thresholds trees -> float_rows nf X ->
  Forall (fun row => clear_float row trees) X ->
  exists w out, wrapper_init false method (Some DFloat) lb trees nf nc = Ret w /\ wrapper_predict w X = Ret out /\ zlen out = zlen X /\
  forall i row, zget X i = Ret row -> exists xs o,
    Forall2 (tree_value_by (go_sk row)) trees xs /\
    zget out i = Ret (PyFloat o) /\ is_finite o = true /\
    (Rabs (B2R o - fold_right Rplus 0 (map B2R xs) / IZR (zlen trees)) <= (IZR (zlen trees) + 6) * B / 16777216 + 2 / 1000000)%R.
Proof.
  intros H1 H2 H3 H4 H5 H6 H7 H8 H9.
  destruct (float_regress_run nf nc trees B lb H1 H2 H3 H5 H7 H4 method X H6 H8) as (w & out & A & E & L & G).
  exists w, out. split; [exact A|]. split; [exact E|]. split; [exact L|]. intros i row Hr.
  destruct (G i row Hr) as (go & xs & o & R & HX & Z & F & D). exists xs, o. split; [|split; [exact Z|split; [exact F|]]].
  - destruct H8 as (_ & _ & HR). rewrite Forall_forall in HR, H9. pose proof (zget_In _ _ _ Hr) as I. destruct (HR row I) as (Lr & FR & _).
    eapply value_by_ext; [|exact HX].
    exact (float_go_sk nf row trees go (ft_trees _ _ _ H2) Lr FR H7 R (H9 row I)).
  - unfold mean_of in D. replace (zlen xs) with (zlen trees) in D by (unfold zlen; now rewrite (Forall2_len _ _ _ HX)). exact D.
Qed.

(** ** C79  every row gets scikit-learn's class *)
(** A tree that asks x0 <= 0.5 (class 0 if so, else 1). *)
Definition tree_half : sktree pynum (list f64) := mk_sktree 3
  [1; -1; -1] [2; -1; -1] [0; -2; -2]
  [PyFloat (q 1 2); PyFloat (q (-2) 1); PyFloat (q (-2) 1)]
  [[[q 1 2; q 1 2]]; [[q 1 1; q 0 1]]; [[q 0 1; q 1 1]]] 1.
Lemma fitted_half : fitted 1 (class_row 2) [tree_half].
Proof.
  constructor; try discriminate; try lia.
  - constructor; [|constructor]. wf_start.
    + simpl. intros i l r f Hl Hr Hf. apply zget3 in Hl.
      destruct Hl as [[-> ->]|[[-> ->]|[-> ->]]]; injection Hr as <-; injection Hf as <-; lia.
    + apply Permutation.Permutation_refl.
  - each ltac:(apply rows_ok; cbn [concat sk_value app tree_half]; each ltac:(apply proba_class; apply proba_row_ok; vm_compute; reflexivity)).
Qed.
Lemma decision_half f th : decision tree_half f th -> f = 0 /\ th = PyFloat (q 1 2).
Proof.
  intros (i & l & r & Hl & Hr & N & Hf & Ht). cbn [tree_half sk_left sk_right sk_feature sk_threshold] in *.
  apply zget3 in Hl. apply zget3 in Hr. apply zget3 in Hf. apply zget3 in Ht.
  destruct Hl as [[-> ->]|[[-> ->]|[-> ->]]]; destruct Hr as [[? ->]|[[? ->]|[? ->]]]; try lia;
  destruct Hf as [[? ->]|[[? ->]|[? ->]]]; try lia; destruct Ht as [[? ->]|[[? ->]|[? ->]]]; try lia; auto.
Qed.
Lemma half_val : B2R (q 1 2) = (/ 2)%R /\ is_finite (q 1 2) = true.
Proof.
  unfold q. destruct (@f_of_Z_exact 53 1024 _ _ 1 ltac:(lia)) as [V1 F1].
  destruct (@f_of_Z_exact 53 1024 _ _ 2 ltac:(lia)) as [V2 F2].
  destruct (@fdiv_correct 53 1024 _ _ (f_of_Z 1) (f_of_Z 2)) as [V F]; [assumption|rewrite V2; lra| |].
  - rewrite V1, V2, Rabs_pos_eq by lra. apply Rle_trans with 1%R; [lra|]. apply IZR_le. lia.
  - split; [|exact F]. rewrite V, V1, V2. replace (1 / 2)%R with (bpow radix2 (-1)) by (change (bpow radix2 (-1)) with (/ 2)%R; lra).
    rewrite round_generic; [reflexivity|auto with typeclass_instances|]. apply generic_format_bpow. vm_compute. discriminate.
Qed.

Lemma half_class (row : list f64) : (row_val row 0 <= / 2)%R -> Forall2 (tree_class_by (go_sk row)) [tree_half] [0].
Proof.
  intros H. destruct half_val as [VH FH]. constructor; [|constructor].
  exists [q 1 1; q 0 1]. split.
  - eapply (sk_reaches_node _ _ 0 1 2 0 (PyFloat (q 1 2))); try reflexivity; [lia|].
    replace (go_sk row 0 (PyFloat (q 1 2))) with true by (unfold go_sk; cbn [num_val]; symmetry; apply Rle_bool_true; lra).
    apply sk_reaches_leaf; reflexivity.
  - destruct (int_check (q 1 1) 1 ltac:(lia) ltac:(vm_compute; reflexivity)) as (_ & V1 & _).
    destruct (int_check (q 0 1) 0 ltac:(lia) ltac:(vm_compute; reflexivity)) as (_ & V0 & _).
    unfold row_class, first_max. change (zlen [q 1 1; q 0 1]) with 2.
    assert (R0 : row_val [q 1 1; q 0 1] 0 = 1%R) by (unfold row_val; cbn [nth Z.to_nat]; exact V1).
    assert (R1 : row_val [q 1 1; q 0 1] 1 = 0%R) by (unfold row_val; change (Z.to_nat 1) with 1%nat; cbn [nth]; exact V0).
    split; [lia|]. split; intros k Hk; [|lia].
    assert (Hk' : k = 0 \/ k = 1) by lia. destruct Hk' as [-> | ->]; rewrite ?R0, ?R1; lra.
Qed.
Lemma float_thresholds_half : float_thresholds [tree_half].
Proof.
  destruct half_val as [VH FH].
  assert (B2 : (2 <= bpow radix2 126)%R) by (change 2%R with (bpow radix2 1); apply bpow_le; lia).
  destruct (int_check (q (-2) 1) (-2) ltac:(lia) ltac:(vm_compute; reflexivity)) as (A & B & _).
  constructor; [|constructor]. cbn [sk_threshold tree_half]. constructor; [|constructor; [|constructor; [|constructor]]]; cbn [num_val];
    (split; [first [exact FH|exact A]|]).
  - rewrite VH, Rabs_pos_eq by lra. lra.
  - rewrite B, Rabs_left by lra. lra.
  - rewrite B, Rabs_left by lra. lra.
Qed.

(** At the threshold itself scikit-learn goes to the left and the generated code to the right, with float features ... *)
Theorem C79_float_refuted : exists trees w row,
  fitted 1 (class_row 2) trees /\ float_thresholds trees /\ float_rows 1 [row] /\
  wrapper_init true None (Some DFloat) None trees 1 2 = Ret w /\
  Forall2 (tree_class_by (go_sk row)) trees [0] /\ wrapper_predict w [row] = Ret [PyInt 1].
Proof.
  exists [tree_half]. destruct half_val as [VH FH].
  assert (E : (let* w := wrapper_init true None (Some DFloat) None [tree_half] 1 2 in wrapper_predict w [[q 1 2]]) = Ret [PyInt 1]) by (vm_compute; reflexivity).
  apply bind_Ret in E. destruct E as (w & E1 & E).
  exists w, [q 1 2].
  assert (B2 : (2 <= bpow radix2 126)%R) by (change 2%R with (bpow radix2 1); apply bpow_le; lia).
  split; [exact fitted_half|]. split; [exact float_thresholds_half|]. split.
  { split; [discriminate|]. split; [vm_compute; discriminate|]. constructor; [|constructor]. split; [reflexivity|]. split; [|vm_compute; discriminate].
    constructor; [|constructor]. split; [exact FH|]. rewrite VH, Rabs_pos_eq by lra. lra. }
  split; [exact E1|]. split; [|exact E]. apply half_class. unfold row_val. cbn [nth Z.to_nat]. lra.
Qed.
(** ... and with int16_t features, where 0.5 becomes 0, at 0: every row that has a 0 in a feature split between 0 and 1,
    with either kind of code. *)
Theorem C79_int16_refuted : exists trees w w' row,
  fitted 1 (class_row 2) trees /\ small_model 1 trees /\ int16_rows 1 [row] /\
  wrapper_init true (Some MInline) None None trees 1 2 = Ret w /\ wrapper_init true (Some MLoadable) None None trees 1 2 = Ret w' /\
  Forall2 (tree_class_by (go_sk row)) trees [0] /\
  wrapper_predict w [row] = Ret [PyInt 1] /\ wrapper_predict w' [row] = Ret [PyInt 1].
Proof.
  exists [tree_half].
  assert (E : (let* w := wrapper_init true (Some MInline) None None [tree_half] 1 2 in wrapper_predict w [[q 0 1]]) = Ret [PyInt 1]) by (vm_compute; reflexivity).
  assert (E' : (let* w := wrapper_init true (Some MLoadable) None None [tree_half] 1 2 in wrapper_predict w [[q 0 1]]) = Ret [PyInt 1]) by (vm_compute; reflexivity).
  apply bind_Ret in E. destruct E as (w & E1 & E).
  destruct (wrapper_init true (Some MLoadable) None None [tree_half] 1 2) as [w'|] eqn:E2; [|discriminate]. cbn [bind] in E'.
  exists w, w', [q 0 1].
  pose proof (int_check (q 0 1) 0 ltac:(lia) ltac:(vm_compute; reflexivity)) as V0.
  split; [exact fitted_half|]. split.
  { split; [lia|]. split; [vm_compute; discriminate|].
    each ltac:(cbn [sk_threshold tree_half]; each ltac:(
    cbv beta; match goal with |- exists k, py_int ?x = Ret k /\ _ =>
      let v := eval vm_compute in (py_int x) in
      match v with Ret ?k => exists k; split; [vm_compute; reflexivity | unfold int16_ok; lia] end end)). }
  split.
  { split; [discriminate|]. split; [vm_compute; discriminate|]. constructor; [|constructor]. split; [reflexivity|]. exists [0]. constructor; [exact V0|constructor]. }
  split; [first [exact E1|reflexivity]|]. split; [first [exact E2|reflexivity]|]. split; [|split; [exact E|exact E']]. apply half_class. unfold row_val. cbn [nth Z.to_nat].
  destruct V0 as (_ & -> & _). lra.
Qed.

(** Rows that are clear of the threshold. *)
Example C77_instance : int16_rows 1 [[q 1 1]; [q (-7) 1]] /\ Forall (fun row => clear_int16 row [tree_half]) [[q 1 1]; [q (-7) 1]].
Proof.
  pose proof (int_check (q 1 1) 1 ltac:(lia) ltac:(vm_compute; reflexivity)) as V1.
  pose proof (int_check (q (-7) 1) (-7) ltac:(lia) ltac:(vm_compute; reflexivity)) as V2.
  destruct half_val as [VH FH]. split.
  - split; [discriminate|]. split; [vm_compute; discriminate|]. constructor; [split; [reflexivity|]; exists [1]|constructor; [split; [reflexivity|]; exists [-7]|constructor]];
    (constructor; [assumption|constructor]).
  - destruct V1 as (_ & V1 & _). destruct V2 as (_ & V2 & _).
    constructor; [|constructor; [|constructor]]; intros t f th [<-|[]] D; apply decision_half in D as [-> ->]; unfold row_val; cbn [nth Z.to_nat num_val];
    rewrite VH; [right; rewrite V1; lra|left; rewrite V2].
    rewrite Ztrunc_floor by lra. rewrite (Zfloor_imp 0) by (split; [lra|change (0 + 1) with 1; lra]). lra.
Qed.
Example C78_instance : float_rows 1 [[q 0 1]; [q 3 1]] /\ Forall (fun row => clear_float row [tree_half]) [[q 0 1]; [q 3 1]] /\
  (let* w := wrapper_init true None (Some DFloat) None [tree_half] 1 2 in wrapper_predict w [[q 0 1]; [q 3 1]]) = Ret [PyInt 0; PyInt 1].
Proof.
  pose proof (int_check (q 0 1) 0 ltac:(lia) ltac:(vm_compute; reflexivity)) as V1.
  pose proof (int_check (q 3 1) 3 ltac:(lia) ltac:(vm_compute; reflexivity)) as V3.
  assert (B2 : (4 <= bpow radix2 126)%R) by (change 4%R with (bpow radix2 2); apply bpow_le; lia).
  destruct half_val as [VH FH]. destruct V1 as (F1 & V1 & _). destruct V3 as (F3 & V3 & _). split; [|split].
  - split; [discriminate|]. split; [vm_compute; discriminate|]. constructor; [|constructor; [|constructor]]; (split; [reflexivity|]; split; [|vm_compute; discriminate]);
    (constructor; [|constructor]); (split; [assumption|]); rewrite ?V1, ?V3; rewrite Rabs_pos_eq by lra; lra.
  - constructor; [|constructor; [|constructor]]; intros t f th [<-|[]] D; apply decision_half in D as [-> ->]; unfold row_val; cbn [nth Z.to_nat num_val];
    rewrite VH, ?V1, ?V3; [rewrite (Rabs_left (0 - / 2)) by lra|]; rewrite !Rabs_pos_eq by lra; lra.
  - vm_compute. reflexivity.
Qed.
