(** Converted EllipticEnvelope end to end: properties C106-C111. *)
From Coq Require Import String ZArith List Bool Lia Reals Lra.
From Flocq Require Import Core BinarySingleNaN.
From Verif.Base Require Import Res CInt ListX Loops Float Arith Kernels RealSum.
From Verif.Model Require Import Common Text TreesConvert TreesC Distance Harness TreesRun DistanceRun.
From Verif.Spec Require Import RealSpec DistanceSpec RunSpec RoundingSpec NetRunSpec EnvelopeSpec StrSpec.
From Verif.Proof Require Import FloatErr RoundingTop Str DistanceRun NumpyFine.
From Verif.Props Require Import Rounding NetRun.
Import ListNotations.
Open Scope Z_scope.
Open Scope res_scope.

(** Hypotheses common to the theorems: [str_reads_back]: str() of the offset reads back as the same number;
    [good_envelope]: n location numbers and an n by n matrix. [numpy_fine] holds for all numbers that are zero or between
    2^-140 and 2^126 (C109). *)

(** ** C106: score_samples *)
Theorem C106_score_samples float_str ef lf tf n f X :
  str_reads_back float_str -> good_envelope n f -> 1 <= n -> good_number (fe_offset f) ->
  float_rows n X -> Forall (numpy_fine f) X -> Forall (distance_fits f) X ->
  exists e out, elliptic_wrapper float_str ef lf tf (Some "inline"%string) f = Ret e /\
    elliptic_score_samples ef lf tf f e X = Ret out /\ zlen out = zlen X /\
    forall i row, zget X i = Ret row -> exists o, zget out i = Ret o /\ returned (- fitted_distance f row) (distance_bound f row) o.
Proof.
  intros SR G N1 GO FX NF FT. destruct (saved_env ef lf tf float_str n f G SR GO) as (e & E & C & _).
  destruct (score_run ef lf tf n f G e X C N1 FX NF FT) as (out & E2 & R). exists e, out. auto.
Qed.
Theorem C106_mahalanobis float_str ef lf tf n f X :
  str_reads_back float_str -> good_envelope n f -> 1 <= n -> good_number (fe_offset f) ->
  float_rows n X -> Forall (numpy_fine f) X -> Forall (distance_fits f) X ->
  exists e out, elliptic_wrapper float_str ef lf tf (Some "inline"%string) f = Ret e /\
    elliptic_mahalanobis ef lf tf f e X = Ret out /\ zlen out = zlen X /\
    forall i row, zget X i = Ret row -> exists o, zget out i = Ret o /\ returned (fitted_distance f row) (distance_bound f row) o.
Proof.
  intros SR G N1 GO FX NF FT. destruct (saved_env ef lf tf float_str n f G SR GO) as (e & E & C & _).
  destruct (mahalanobis_run ef lf tf n f G e X C N1 FX NF FT) as (out & E2 & R). exists e, out. auto.
Qed.

(** ** C107: predict *)
Theorem C107_predict float_str ef lf tf n f X :
  str_reads_back float_str -> good_envelope n f -> 1 <= n -> good_number (fe_offset f) ->
  float_rows n X -> Forall (numpy_fine f) X -> Forall (distance_fits f) X ->
  exists e ys, elliptic_wrapper float_str ef lf tf (Some "inline"%string) f = Ret e /\
    elliptic_predict ef lf tf f e X = Ret ys /\ zlen ys = zlen X /\
    forall i row, zget X i = Ret row -> exists y, zget ys i = Ret y /\ decided f row y.
Proof.
  intros SR G N1 GO FX NF FT. destruct (saved_env ef lf tf float_str n f G SR GO) as (e & E & C & _).
  destruct (predict_run ef lf tf n f G e X C N1 GO FX NF FT) as (ys & E2 & R). exists e, ys. auto.
Qed.

(** ** C108: rows with a wrong number of columns *)
Theorem C108_first_wrong ef lf tf f e before x after : Forall (numpy_fine f) before -> zlen x <> zlen (fe_location f) ->
  elliptic_mahalanobis ef lf tf f e (before ++ x :: after) = Err AssertionError_ /\
  elliptic_score_samples ef lf tf f e (before ++ x :: after) = Err AssertionError_ /\
  elliptic_predict ef lf tf f e (before ++ x :: after) = Err AssertionError_.
Proof.
  intros HB H. unfold elliptic_score_samples, elliptic_predict. rewrite (wrong_columns ef lf tf f e before x after HB H). auto.
Qed.
Theorem C108_never_answers ef lf tf f e X x : In x X -> zlen x <> zlen (fe_location f) ->
  (forall out, elliptic_mahalanobis ef lf tf f e X <> Ret out) /\ (forall out, elliptic_score_samples ef lf tf f e X <> Ret out) /\
  (forall ys, elliptic_predict ef lf tf f e X <> Ret ys).
Proof.
  intros I H. pose proof (wrong_never ef lf tf f e X x I H) as N. split; [exact N|].
  split; intros out E; [unfold elliptic_score_samples in E|unfold elliptic_predict in E]; apply bind_Ret in E as (o & E & _); exact (N o E).
Qed.

(** ** C109: the calculation in Python whose results are not used *)
(** It raises nothing for ordinary numbers; *)
Theorem C109_ordinary_numbers_partial n f row : good_envelope n f -> zlen row = n -> Forall moderate row -> Forall moderate (fe_location f) ->
  Forall (Forall moderate) (fe_precision f) -> exists p, np_squared_mahalanobis_distance row (fe_location f) (fe_precision f) = Ret p.
Proof. apply numpy_ok. Qed.
(** but FloatingPointError where a product falls below 2^-1022: location 0, precision 1, the row 2^-600, whose distance is
    2^-1200 and which the compiled program can handle. *)
Definition tiny_row : list f64 := [f_of_ZE 1 (-600)].
Definition unit_envelope : fitted_envelope := mk_fitted [d 0] [[d 1]] (d (-1)).
Theorem C109_underflow_refuted ef lf tf :
  (let* e := elliptic_wrapper (fmt_fixed 6) ef lf tf (Some "inline"%string) unit_envelope in
   elliptic_predict ef lf tf unit_envelope e [tiny_row]) = Err FloatingPointError_ /\
  (let* e := elliptic_wrapper (fmt_fixed 6) ef lf tf (Some "inline"%string) unit_envelope in
   let* out := predict (elliptic_func ef lf tf e) OutFloat [tiny_row] in Ret (map (fun x => Beqb x (d 0)) (py_floats out))) = Ret [true].
Proof. split; vm_compute; reflexivity. Qed.

(** ** C110: options *)
Theorem C110_method float_str ef lf tf classifier f e : elliptic_wrapper float_str ef lf tf classifier f = Ret e -> classifier = Some "inline"%string.
Proof. unfold elliptic_wrapper. intros H. destruct classifier as [s|]; [|discriminate]. destruct (string_dec s "inline") as [->|N]; [reflexivity|].
  exfalso. repeat (destruct s as [|[[] [] [] [] [] [] [] []] s]; try discriminate). congruence. Qed.
Theorem C110_other_method float_str ef lf tf classifier f : classifier <> Some "inline"%string -> elliptic_wrapper float_str ef lf tf classifier f = Err ValueError_.
Proof. intros N. unfold elliptic_wrapper. destruct classifier as [s|]; [|reflexivity].
  repeat (destruct s as [|[[] [] [] [] [] [] [] []] s]; try reflexivity). congruence. Qed.
(** The default of convert(), None, is not accepted. *)
Theorem C110_default_refuted float_str ef lf tf f : elliptic_wrapper float_str ef lf tf None f = Err ValueError_.
Proof. reflexivity. Qed.

(** ** C111: the offset in the generated code *)
Theorem C111_boundary float_str ef lf tf n f : str_reads_back float_str -> good_envelope n f -> good_number (fe_offset f) ->
  exists e, elliptic_wrapper float_str ef lf tf (Some "inline"%string) f = Ret e /\ e_n_features _ e = n /\
    is_finite (e_decision_boundary _ e) = true /\
    (Rabs (B2R (e_decision_boundary _ e) - B2R (fe_offset f)) <= Rabs (B2R (fe_offset f)) / 16777215 + bpow radix2 (-140))%R.
Proof.
  intros SR G GO. destruct (saved_env ef lf tf float_str n f G SR GO) as (e & E & (ms & K & _ & _ & EN & _) & F & D). exists e. auto.
Qed.
(** The assumption about str() can be met. *)
Theorem C111_str_exists : str_reads_back (fmt_fixed 1074).
Proof. apply fixed_reads_back. reflexivity. Qed.

(** ** Instances *)
(** location (1, 2), precision ((2, 1), (1, 2)), offset -5; the row (2, 2) has distance 2 and is inside, (4, 2) has
    distance 18 and is outside. *)
Definition env2 : fitted_envelope := mk_fitted (map d [1; 2]) (map (map d) [[2; 1]; [1; 2]]) (d (-5)).
Lemma env2_good : good_envelope 2 env2 /\ good_number (fe_offset env2).
Proof.
  split; [|apply good_d; lia]. split; [reflexivity|]. split; [lia|]. split; [reflexivity|]. split; [repeat constructor|].
  split; [apply good_list; repeat constructor; lia|]. apply Forall_map. repeat (apply Forall_cons; [apply good_list; repeat constructor; lia|]). constructor.
Qed.
Lemma moderate_d z : Z.abs z <= 1000 -> moderate (d z).
Proof.
  intros H. destruct (good_d z H) as [F B]. split; [exact F|]. split; [|exact B]. destruct (B2R_d z ltac:(lia)) as [-> _].
  destruct (Z.eq_dec z 0) as [->|N]; [auto|right]. rewrite <- abs_IZR. apply Rle_trans with (bpow radix2 0); [apply bpow_le; lia|]. apply (IZR_le 1). lia.
Qed.
Opaque d.
Ltac env_eval := unfold distance_fits, distance_bound, printed_bound, outer_mag, inner_mag, far, away, prec_at, fitted_distance, mahalanobis2, quad, big, print6, print8, env2;
  cbv [fe_location fe_precision fe_offset mat vec sumr rsum map zrange zlen Datatypes.length]; simpl; d_vals; rewrite <- ?minus_IZR, <- ?abs_IZR;
  repeat match goal with |- context [IZR (?a - ?b)] => let v := eval vm_compute in (a - b) in change (IZR (a - b)) with (IZR v) end;
  repeat match goal with |- context [IZR (Z.abs ?a)] => let v := eval vm_compute in (Z.abs a) in change (IZR (Z.abs a)) with (IZR v) end.
Definition near_row : list f64 := map d [2; 2].
Definition far_row : list f64 := map d [4; 2].
Example C106_instance :
  good_envelope 2 env2 /\ good_number (fe_offset env2) /\ float_rows 2 [near_row; far_row] /\
  Forall (numpy_fine env2) [near_row; far_row] /\ Forall (distance_fits env2) [near_row; far_row] /\
  fitted_distance env2 near_row = 2%R /\ fitted_distance env2 far_row = 18%R /\
  (printed_bound env2 near_row <= / 1000)%R /\ (printed_bound env2 far_row <= / 1000)%R.
Proof.
  pose proof max32_big as MB. pose proof tiny32_small as T0.
  assert (T : (0 <= tiny32 <= / 1000000000)%R) by (split; [apply bpow_ge_0|apply Rle_trans with (bpow radix2 (-30)); [apply bpow_le; lia|change (bpow radix2 (-30)) with (/ 1073741824)%R; lra]]).
  assert (R4 : (0 <= rel (Pos.to_nat 8) <= / 1000000)%R).
  { split; [apply rel_nonneg|]. pose proof (rel_le 8 ltac:(lia)) as Q. change (Z.to_nat 8) with (Pos.to_nat 8) in Q. lra. }
  destruct env2_good as [G GO]. split; [exact G|]. split; [exact GO|].
  split. { split; [discriminate|]. split; [vm_compute; discriminate|]. 
    repeat (apply Forall_cons; [split; [reflexivity|split; [apply good_list; repeat constructor; lia|vm_compute; discriminate]]|]). constructor. }
  assert (MD : forall zs, Forall (fun z => Z.abs z <= 1000) zs -> Forall moderate (map d zs)).
  { intros zs Hz. apply Forall_map. eapply Forall_impl; [|exact Hz]. intros z. apply moderate_d. }
  split. { repeat (apply Forall_cons; [apply (C109_ordinary_numbers_partial 2 env2); [exact G|reflexivity|apply MD; repeat constructor; lia|apply MD; repeat constructor; lia|
      apply Forall_map; repeat (apply Forall_cons; [apply MD; repeat constructor; lia|]); constructor]|]). constructor. }
  assert (FD1 : fitted_distance env2 near_row = 2%R). { unfold near_row; env_eval. lra. }
  assert (FD2 : fitted_distance env2 far_row = 18%R) by (unfold far_row; env_eval; lra).
  assert (B1 : (0 <= distance_bound env2 near_row <= / 2000)%R) by (unfold near_row; env_eval; rel_atoms; lra).
  assert (B2 : (0 <= distance_bound env2 far_row <= / 2000)%R) by (unfold far_row; env_eval; rel_atoms; lra).
  assert (P53 : (1000 <= IZR (2 ^ 53))%R) by (apply IZR_le; lia).
  assert (FIT : forall row, row = near_row \/ row = far_row -> distance_fits env2 row).
  { intros row Hr. split; [|split; [|split]].
    - intros i Hi. assert (HI : i = 0 \/ i = 1) by (destruct Hr; subst row; change (zlen _) with 2 in Hi; lia).
      destruct Hr; subst row; destruct HI; subst i; unfold near_row, far_row; env_eval; lra.
    - intros i Hi. assert (HI : i = 0 \/ i = 1) by (destruct Hr; subst row; change (zlen _) with 2 in Hi; lia).
      destruct Hr; subst row; destruct HI; subst i; unfold near_row, far_row; env_eval; lra.
    - destruct Hr; subst row; unfold near_row, far_row; env_eval; lra.
    - destruct Hr; subst row; rewrite ?FD1, ?FD2, Rabs_pos_eq by lra; lra. }
  split; [apply Forall_cons; [apply FIT; auto|apply Forall_cons; [apply FIT; auto|constructor]]|]. split; [exact FD1|]. split; [exact FD2|].
  unfold printed_bound. rewrite FD1, FD2, !Rabs_pos_eq by lra. split; lra.
Qed.
(** With these, C107 gives 1 for the first row and -1 for the second; the model computes the same. *)
Example C107_instance float_str ef lf tf : str_reads_back float_str ->
  exists e, elliptic_wrapper float_str ef lf tf (Some "inline"%string) env2 = Ret e /\ elliptic_predict ef lf tf env2 e [near_row; far_row] = Ret [1; -1].
Proof.
  intros SR. destruct C106_instance as (G & GO & FX & NF & FT & D1 & D2 & P1 & P2).
  destruct (C107_predict float_str ef lf tf 2 env2 _ SR G ltac:(lia) GO FX NF FT) as (e & ys & E & EP & L & P). exists e. split; [exact E|]. rewrite EP. f_equal.
  change (zlen [near_row; far_row]) with 2 in L. clear - L P D1 D2 P1 P2.
  destruct ys as [|y0 [|y1 [|y2 ys]]]; [exfalso; change (0 = 2) in L; lia|exfalso; change (1 = 2) in L; lia| |exfalso; rewrite !zlen_cons in L; pose proof (zlen_nonneg ys); lia].
  assert (OFF : B2R (fe_offset env2) = (-5)%R) by (apply (proj1 (B2R_d (-5) ltac:(lia)))).
  destruct (P 0 near_row eq_refl) as (y & Hy & _ & Y1 & _). change (zget [y0; y1] 0) with (Ret y0) in Hy. injection Hy as <-.
  destruct (P 1 far_row eq_refl) as (y & Hy & _ & _ & Y2). change (zget [y0; y1] 1) with (Ret y1) in Hy. injection Hy as <-.
  rewrite Y1, Y2; [reflexivity|rewrite OFF, D2; lra|rewrite OFF, D1; lra].
Qed.
Example C107_run ef lf tf :
  (let* e := elliptic_wrapper (fmt_fixed 6) ef lf tf (Some "inline"%string) env2 in elliptic_predict ef lf tf env2 e [near_row; far_row]) = Ret [1; -1].
Proof. vm_compute. reflexivity. Qed.
Example C108_instance ef lf tf :
  (let* e := elliptic_wrapper (fmt_fixed 6) ef lf tf (Some "inline"%string) env2 in elliptic_predict ef lf tf env2 e [near_row; [d 1]]) = Err AssertionError_.
Proof. vm_compute. reflexivity. Qed.
