(** Converted EllipticEnvelope, from the fitted numbers to the returned ones. *)
From Coq Require Import String ZArith List Bool Lia Reals Lra.
From Flocq Require Import Core BinarySingleNaN.
From Flocq.Prop Require Import Relative Plus_error.
From Verif.Base Require Import Res CInt ListX Loops Float FloatOrder Arith Kernels RealSum.
From Verif.Model Require Import Common Text TreesConvert TreesC TreesWrapper Cgen Distance Harness TreesRun DistanceRun.
From Verif.Spec Require Import RealSpec DistanceSpec ClassifierSpec HarnessSpec RunSpec RoundingSpec NetRunSpec EnvelopeSpec StrSpec.
From Verif.Proof Require Import Text Str FloatErr NetErr NetClose RoundingTop NetRunErr NetRun NetRunTop Through Harness RunRows FloatMean TreesRegRun TreesRunTop TreesFloatRun Distance DistanceErr.
Import Verif.Spec.HarnessSpec ListNotations.
Open Scope Z_scope.
Open Scope res_scope.

(** ** The generated constants *)
Lemma mapM_app_ok {X Y} (g : X -> res Y) a b ra rb : mapM g a = Ret ra -> mapM g b = Ret rb -> mapM g (a ++ b) = Ret (ra ++ rb).
Proof.
  revert ra. induction a as [|x a IH]; intros ra Ha Hb; cbn [mapM app] in *; [injection Ha as <-; exact Hb|].
  apply bind_Ret in Ha as (y & Ey & Ha). apply bind_Ret in Ha as (ys & Eys & Q). injection Q as <-. rewrite Ey. cbn [bind]. rewrite (IH ys Eys Hb). reflexivity.
Qed.
Lemma Forall2_right {X Y} (P : X -> Y -> Prop) (Q : Y -> Prop) l l' : Forall2 P l l' -> (forall a b, P a b -> Q b) -> Forall Q l'.
Proof. intros H I. induction H; constructor; eauto. Qed.
Lemma mapM_concat {X Y} (g : X -> res Y) W : forall K, mapM (mapM g) W = Ret K -> mapM g (concat W) = Ret (concat K).
Proof.
  induction W as [|r W IH]; intros K H; cbn [mapM concat] in *; [injection H as <-; reflexivity|].
  apply bind_Ret in H as (k & Ek & H). apply bind_Ret in H as (ks & Eks & Q). injection Q as <-. cbn [concat]. apply mapM_app_ok; auto.
Qed.

(** The value of a decimal constant, in both formats. *)
(** ** Errors *)
Lemma prod_pert (x y x' y' s t : R) : (Rabs (x' - x) <= s)%R -> (Rabs (y' - y) <= t)%R ->
  (Rabs (x' * y' - x * y) <= (Rabs x + s) * (Rabs y + t) - Rabs x * Rabs y)%R.
Proof.
  intros H1 H2. replace (x' * y' - x * y)%R with ((x' - x) * y + (x * (y' - y) + (x' - x) * (y' - y)))%R by ring.
  eapply Rle_trans; [apply Rabs_triang|]. pose proof (Rabs_triang (x * (y' - y)) ((x' - x) * (y' - y))) as T. rewrite !Rabs_mult in *.
  pose proof (Rmult_le_compat_r (Rabs y) _ _ (Rabs_pos y) H1). pose proof (Rmult_le_compat_l (Rabs x) _ _ (Rabs_pos x) H2).
  pose proof (Rmult_le_compat _ _ _ _ (Rabs_pos (x' - x)) (Rabs_pos (y' - y)) H1 H2). lra.
Qed.

Section Env.
Context (ef lf tf : f32 -> f32) (float_str : f64 -> list Z).
Notation A := (f32_arith ef lf tf).
Context (n : Z) (f : fitted_envelope).
Hypothesis G : good_envelope n f.

Definition env_code (e : envelope A) : Prop := exists (ms : list f32) (K : list (list f32)), Forall2 near6 (fe_location f) ms /\
  Forall2 (Forall2 near6) (fe_precision f) K /\ e_n_features A e = n /\ e_means A e = ms /\ e_precision A e = concat K.

Lemma zlen_concat_rows {T} (W : list (list T)) k : Forall (fun r => zlen r = k) W -> zlen (concat W) = zlen W * k.
Proof using. intros F. induction F as [|r P H F IH]; [reflexivity|]. simpl. rewrite zlen_app, H, zlen_cons, IH. ring. Qed.
Lemma saved_env : str_reads_back float_str -> good_number (fe_offset f) ->
  exists e, save_envelope float_str ef lf tf f = Ret e /\ env_code e /\ is_finite (e_decision_boundary A e) = true /\
    (Rabs (B2R (e_decision_boundary A e) - B2R (fe_offset f)) <= Rabs (B2R (fe_offset f)) / 16777215 + bpow radix2 (-140))%R.
Proof using G.
  intros SR GO. destruct G as (L1 & L2 & L3 & L4 & L5 & L6).
  destruct (consts_good _ L5) as (ms & EM & NM). destruct (rows_good _ L6) as (K & EK & NK).
  destruct (boundary_ok float_str _ SR GO) as (b & EB & FB & DB).
  exists (mk_envelope A (zlen (fe_location f)) b ms (concat K)). split; [|split; [exists ms, K; cbn; auto 6|split; [exact FB|exact DB]]].
  unfold save_envelope. rewrite (zlen_concat_rows _ n L4), L3, L1, Z.eqb_refl. cbn [py_assert bind]. rewrite EM. cbn [bind].
  rewrite (mapM_concat _ _ _ EK). cbn [bind]. rewrite EB. reflexivity.
Qed.

Section Row.
Context (row : list f64) (ws ms : list f32) (K : list (list f32)).
Hypothesis LR : zlen row = n.
Hypothesis GR : Forall good_number row.
Hypothesis AR : arrives row ws.
Hypothesis NM : Forall2 near6 (fe_location f) ms.
Hypothesis NK : Forall2 (Forall2 near6) (fe_precision f) K.
Hypothesis FT : distance_fits f row.
Notation PR := (map (map B2R) K). Notation xr := (map B2R ws). Notation mr := (map B2R ms).

Lemma vec64 (l : list f64) i : vec (map B2R l) i = B2R (znth (fzero : f64) l i).
Proof using. unfold vec, znth. apply (map_nth B2R l (fzero : f64)). Qed.
Lemma zlen_ws : zlen ws = n. Proof using AR LR. rewrite (Forall2_zlen _ _ _ AR). exact LR. Qed.
Lemma zlen_ms : zlen ms = n. Proof using NM G. destruct G as (L1 & _). rewrite (Forall2_zlen _ _ _ NM). exact L1. Qed.
Lemma zlen_K : zlen K = n /\ Forall (fun r : list f32 => zlen r = n) K.
Proof using NK G.
  destruct G as (_ & _ & L3 & L4 & _). split; [rewrite (Forall2_zlen _ _ _ NK); exact L3|]. clear - NK L4.
  induction NK as [|r k W K' H HF IH]; constructor; apply Forall_cons_iff in L4 as [Q1 Q2]; [rewrite (Forall2_zlen _ _ _ H); exact Q1|auto].
Qed.
Lemma x_near i : 0 <= i < n -> (Rabs (vec xr i - vec (map B2R row) i) <= print8 (vec (map B2R row) i))%R.
Proof using AR GR LR.
  intros Hi. rewrite vec_B2R, vec64. pose proof (Forall2_znth _ _ _ (fzero : f64) (fzero : f32) i AR ltac:(lia)) as [F T].
  pose proof (Forall_znth _ (fzero : f64) row i GR ltac:(lia)) as [_ B]. destruct (through8_f32 _ _ B T) as [_ D]. exact D.
Qed.
Lemma m_near i : 0 <= i < n -> (Rabs (vec mr i - vec (map B2R (fe_location f)) i) <= print6 (vec (map B2R (fe_location f)) i))%R.
Proof using NM G.
  intros Hi. destruct G as (L1 & _). rewrite vec_B2R, vec64. exact (proj2 (Forall2_znth _ _ _ (fzero : f64) (fzero : f32) i NM ltac:(lia))).
Qed.
Lemma p_near i j : 0 <= i < n -> 0 <= j < n -> (Rabs (mat PR i j - prec_at f i j) <= print6 (prec_at f i j))%R.
Proof using NK G.
  intros Hi Hj. destruct G as (_ & _ & L3 & L4 & _). destruct zlen_K as [K1 K2]. unfold prec_at, mat.
  rewrite (nth_indep PR [] (map B2R ([] : list f32))) by (rewrite map_length; unfold zlen in K1; lia).
  rewrite (nth_indep (map (map B2R) (fe_precision f)) [] (map B2R ([] : list f64))) by (rewrite map_length; unfold zlen in L3; lia).
  rewrite (map_nth (map B2R) K), (map_nth (map B2R) (fe_precision f)). rewrite vec_B2R, vec64.
  pose proof (Forall2_znth _ _ _ [] [] i NK ltac:(lia)) as R1. unfold znth in R1 at 1 2.
  assert (Lr : zlen (nth (Z.to_nat i) (fe_precision f) []) = n) by (exact (Forall_znth _ [] _ i L4 ltac:(lia))).
  exact (proj2 (Forall2_znth _ _ _ (fzero : f64) (fzero : f32) j R1 ltac:(lia))).
Qed.
Lemma d_near i : 0 <= i < n -> (Rabs ((vec xr i - vec mr i) - (vec (map B2R row) i - vec (map B2R (fe_location f)) i))
  <= print8 (vec (map B2R row) i) + print6 (vec (map B2R (fe_location f)) i))%R.
Proof using AR GR LR NM G.
  intros Hi. pose proof (x_near i Hi). pose proof (m_near i Hi).
  replace ((vec xr i - vec mr i) - (vec (map B2R row) i - vec (map B2R (fe_location f)) i))%R
    with ((vec xr i - vec (map B2R row) i) + - (vec mr i - vec (map B2R (fe_location f)) i))%R by ring.
  eapply Rle_trans; [apply Rabs_triang|]. rewrite Rabs_Ropp. lra.
Qed.
Lemma d_far i : 0 <= i < n -> (Rabs (vec xr i - vec mr i) <= far f row i)%R.
Proof using AR GR LR NM G.
  intros Hi. pose proof (d_near i Hi) as D. unfold far, away.
  replace (vec xr i - vec mr i)%R with ((vec (map B2R row) i - vec (map B2R (fe_location f)) i) + ((vec xr i - vec mr i) - (vec (map B2R row) i - vec (map B2R (fe_location f)) i)))%R by ring.
  eapply Rle_trans; [apply Rabs_triang|]. lra.
Qed.
Lemma far_nonneg i : 0 <= i < n -> (0 <= far f row i)%R.
Proof using AR GR LR NM G. intros Hi. eapply Rle_trans; [apply Rabs_pos|apply d_far; exact Hi]. Qed.
Lemma inner_le i : 0 <= i < n -> (sumr n (fun j => Rabs (mat PR j i) * Rabs (vec xr j - vec mr j) + tiny32) <= inner_mag f row i)%R.
Proof using AR GR LR NM NK G.
  intros Hi. unfold inner_mag. rewrite LR. apply sumr_le. intros j Hj. apply Rplus_le_compat_r.
  apply Rmult_le_compat; try apply Rabs_pos; [apply near_big, p_near; lia|apply d_far; exact Hj].
Qed.
Lemma outer_le : (mahalanobis_mag PR xr mr <= outer_mag f row)%R.
Proof using AR GR LR NM NK G.
  unfold mahalanobis_mag, outer_mag. cbv zeta. replace (zlen xr) with n by (rewrite zlen_map; symmetry; apply zlen_ws). rewrite LR.
  apply sumr_le. intros i Hi. apply Rplus_le_compat_r. apply Rmult_le_compat; [|apply Rabs_pos|apply inner_le; exact Hi|apply d_far; exact Hi].
  apply sumr_nonneg. intros j Hj. pose proof tiny32_pos. assert (0 <= Rabs (mat PR j i) * Rabs (vec xr j - vec mr j))%R by (apply Rmult_le_pos; apply Rabs_pos). lra.
Qed.
Lemma distance_near : (Rabs (mahalanobis2 PR xr mr - fitted_distance f row) <=
  sumr n (fun i => sumr n (fun j => big (prec_at f i j) * far f row i * far f row j - Rabs (prec_at f i j) * away f row i * away f row j)))%R.
Proof using AR GR LR NM NK G.
  unfold fitted_distance, mahalanobis2, quad. replace (zlen xr) with n by (rewrite zlen_map; symmetry; apply zlen_ws). rewrite (zlen_map B2R row), LR.
  rewrite <- sumr_minus. eapply Rle_trans; [apply sumr_abs|]. apply sumr_le. intros i Hi.
  rewrite <- sumr_minus. eapply Rle_trans; [apply sumr_abs|]. apply sumr_le. intros j Hj.
  set (di := (vec (map B2R row) i - vec (map B2R (fe_location f)) i)%R). set (dj := (vec (map B2R row) j - vec (map B2R (fe_location f)) j)%R).
  set (di' := (vec xr i - vec mr i)%R). set (dj' := (vec xr j - vec mr j)%R).
  pose proof (d_near i Hi) as Ni. pose proof (d_near j Hj) as Nj. fold di di' in Ni. fold dj dj' in Nj. pose proof (p_near i j Hi Hj) as Np.
  pose proof (prod_pert _ _ _ _ _ _ Np Ni) as P1.
  pose proof (prod_pert _ _ _ _ _ _ P1 Nj) as P2. rewrite Rabs_mult in P2.
  change (mat (map (map B2R) (fe_precision f)) i j) with (prec_at f i j).
  replace (di' * mat PR i j * dj' - di * prec_at f i j * dj)%R with (mat PR i j * di' * dj' - prec_at f i j * di * dj)%R by ring.
  eapply Rle_trans; [exact P2|]. unfold big, far, away. fold di dj. lra.
Qed.
Lemma env_row e : e_n_features A e = n -> e_means A e = ms -> e_precision A e = concat K ->
  exists d : f32, generated_predict A e ws n = Ret d /\ is_finite d = true /\ (Rabs (B2R d - fitted_distance f row) <= distance_bound f row)%R.
Proof using AR GR LR NM NK G FT.
  intros E1 E2 E3. destruct FT as (F1 & F2 & F3 & _). pose proof zlen_ws as ZW. pose proof zlen_ms as ZM. destruct zlen_K as [ZK FK].
  assert (NN : n < 46341) by (destruct G as (_ & Q & _); exact Q).
  destruct (@mahalanobis_close ef lf tf K ws ms) as (d & E & F & D); try rewrite ZW; auto.
  - split; [rewrite zlen_map; exact ZK|]. apply Forall_map. eapply Forall_impl; [|exact FK]. intros r Hr. cbv beta. rewrite zlen_map. exact Hr.
  - unfold all_finite. rewrite !Forall_app. split; [|split].
    + apply Forall_concat. apply (Forall2_right _ _ _ _ NK). intros r k H. apply (Forall2_right _ _ _ _ H). intros v w [Q _]. exact Q.
    + apply (Forall2_right _ _ _ _ AR). intros v w [Q _]. exact Q.
    + apply (Forall2_right _ _ _ _ NM). intros v w [Q _]. exact Q.
  - unfold mahalanobis_small. cbv zeta. replace (zlen xr) with n by (rewrite zlen_map; auto). rewrite LR in F1, F2. split; [|split].
    + intros i Hi. eapply Rle_trans; [apply d_far; exact Hi|auto].
    + intros i Hi. eapply Rle_trans; [apply inner_le; exact Hi|auto].
    + eapply Rle_trans; [apply outer_le|exact F3].
  - exists d. rewrite ZW in E, D. split; [|split; [exact F|]].
    + unfold generated_predict, eml_elliptic_envelope_predict. rewrite E1, Z.eqb_refl. cbn [negb]. rewrite E2, E3.
      change (num A) with f32. match goal with |- bind (bind ?t _) _ = _ => replace t with (@Ret f32 d) by (symmetry; exact E) end. reflexivity.
    + unfold distance_bound. rewrite LR. replace (B2R d - fitted_distance f row)%R with ((mahalanobis2 PR xr mr - fitted_distance f row) + (B2R d - mahalanobis2 PR xr mr))%R by ring.
      eapply Rle_trans; [apply Rabs_triang|]. apply Rplus_le_compat; [apply distance_near|].
      eapply Rle_trans; [exact D|]. apply Rmult_le_compat_l; [apply rel_nonneg|apply outer_le].
Qed.
End Row.

(** ** The wrapper *)
Lemma zget_py_floats out i o : zget out i = Ret (PyFloat o) -> zget (py_floats out) i = Ret o.
Proof using. intros H. unfold py_floats. rewrite zget_map, H. reflexivity. Qed.
Lemma mapM_fine X : Forall (numpy_fine f) X -> exists ps, mapM (fun x => np_squared_mahalanobis_distance x (fe_location f) (fe_precision f)) X = Ret ps.
Proof using.
  induction 1 as [|x X (p & Hp) HF (ps & IH)]; [exists []; reflexivity|]. exists (p :: ps). cbn [mapM]. rewrite Hp. cbn [bind]. rewrite IH. reflexivity.
Qed.
Theorem mahalanobis_run e X : env_code e -> 1 <= n -> float_rows n X -> Forall (numpy_fine f) X -> Forall (distance_fits f) X ->
  exists out, elliptic_mahalanobis ef lf tf f e X = Ret out /\ zlen out = zlen X /\
    forall i row, zget X i = Ret row -> exists o, zget out i = Ret o /\ returned (fitted_distance f row) (distance_bound f row) o.
Proof using G.
  intros (ms & K & NM & NK & E1 & E2 & E3) N1 FX NF FT. destruct (float_rows_fit n X FX N1) as (NX & GX & AX & LX). destruct FX as (_ & _ & FX).
  rewrite Forall_forall in FX, FT.
  destruct (predict_reals (elliptic_func ef lf tf e) X (fun row y => is_finite y = true /\ (Rabs (B2R y - fitted_distance f row) <= distance_bound f row)%R) NX GX AX LX) as (out & E & L & P).
  - intros row values I Hv. destruct (FX row I) as (LR & GR & _). destruct (row_values n row values LR GR Hv) as (ws & AW & LW & EC).
    pose proof (FT row I) as FT1. pose proof FT1 as (_ & _ & _ & F4).
    destruct (env_row row ws ms K LR GR AW NM NK FT1 e E1 E2 E3) as (d & Ed & Fd & Dd).
    exists (f64_of_f32 d). destruct (f64_of_f32_ok d Fd) as [V F]. split; [|split; [exact F|split; [|split; [exact F|rewrite V; exact Dd]]]].
    + unfold elliptic_func. rewrite EC. cbn [bind]. rewrite LR.
      match goal with |- bind ?t _ = _ => replace t with (@Ret f32 d) by (symmetry; exact Ed) end. reflexivity.
    + rewrite V. replace (B2R d) with (fitted_distance f row + (B2R d - fitted_distance f row))%R by ring. eapply Rle_trans; [apply Rabs_triang|]. lra.
  - destruct (mapM_fine X NF) as (ps & EP). exists (py_floats out). split; [unfold elliptic_mahalanobis; rewrite EP; cbn [bind]; rewrite E; reflexivity|].
    split; [unfold py_floats; rewrite zlen_map; exact L|]. intros i row Hr. destruct (P i row Hr) as (y & o & (FY & D) & Ho & T). exists o.
    split; [apply zget_py_floats; exact Ho|]. pose proof (FT row (zget_In _ _ _ Hr)) as (_ & _ & _ & F4). exact (print_close (B2R y) o _ _ F4 D T).
Qed.
Theorem score_run e X : env_code e -> 1 <= n -> float_rows n X -> Forall (numpy_fine f) X -> Forall (distance_fits f) X ->
  exists out, elliptic_score_samples ef lf tf f e X = Ret out /\ zlen out = zlen X /\
    forall i row, zget X i = Ret row -> exists o, zget out i = Ret o /\ returned (- fitted_distance f row) (distance_bound f row) o.
Proof using G.
  intros C N1 FX NF FT. destruct (mahalanobis_run e X C N1 FX NF FT) as (out & E & L & P). exists (map (@Bopp 53 1024) out).
  split; [unfold elliptic_score_samples; rewrite E; reflexivity|]. split; [rewrite zlen_map; exact L|].
  intros i row Hr. destruct (P i row Hr) as (o & Ho & F & D). exists (Bopp o). split; [rewrite zget_map, Ho; reflexivity|].
  split; [rewrite is_finite_Bopp; exact F|]. rewrite B2R_Bopp. replace (- B2R o - - fitted_distance f row)%R with (- (B2R o - fitted_distance f row))%R by ring.
  rewrite !Rabs_Ropp. exact D.
Qed.
(** numpy's subtraction from the offset: no exception, and the right sign. *)
Lemma np_sub_sign (a b : f64) : is_finite a = true -> is_finite b = true -> (Rabs (B2R a) <= IZR (2 ^ 60))%R -> (Rabs (B2R b) <= bpow radix2 126)%R ->
  exists r, np_sub a b = Ret r /\ fltb fzero r = fltb b a.
Proof using.
  intros Fa Fb Ba Bb. exists (fsub a b).
  assert (VE : Valid_exp (SpecFloat.fexp 53 1024)) by (apply fexp_correct; reflexivity).
  assert (ME : Monotone_exp (SpecFloat.fexp 53 1024)) by apply fexp_monotone.
  pose proof (Bminus_correct 53 1024 _ _ mode_NE a b Fa Fb) as M. change (round_mode mode_NE) with ZnearestE in M.
  rewrite Rlt_bool_true in M.
  2:{ apply Rle_lt_trans with (bpow radix2 1000); [|apply bpow_lt; lia].
      apply abs_round_le_generic; auto with typeclass_instances.
      - apply generic_format_bpow. vm_compute. discriminate.
      - replace (B2R a - B2R b)%R with (B2R a + - B2R b)%R by ring. eapply Rle_trans; [apply Rabs_triang|]. rewrite Rabs_Ropp.
        assert (A1 : (bpow radix2 1000 = 2 * bpow radix2 999)%R) by (change 2%R with (bpow radix2 1); rewrite <- bpow_plus; reflexivity).
        assert (A2 : (IZR (2 ^ 60) <= bpow radix2 999)%R) by (change (IZR (2 ^ 60)) with (bpow radix2 60); apply bpow_le; lia).
        assert (A3 : (bpow radix2 126 <= bpow radix2 999)%R) by (apply bpow_le; lia). lra. }
  destruct M as (M & FS & _). change (Bminus mode_NE a b) with (fsub a b) in *. split.
  - unfold np_sub. cbv zeta. assert (N1 : np_invalid a b (fsub a b) = false).
    { unfold np_invalid. destruct (fsub a b); try discriminate; reflexivity. }
    assert (N2 : np_overflow a b (fsub a b) = false).
    { unfold np_overflow. destruct (fsub a b); try discriminate; apply andb_false_r. }
    rewrite N1, N2. reflexivity.
  - rewrite (fltb_correct (fzero : f64) _ eq_refl FS), (fltb_correct _ _ Fb Fa), M. change (B2R (fzero : f64)) with 0%R.
    destruct (Rlt_bool_spec (B2R b) (B2R a)) as [Lt|Ge].
    + apply Rlt_bool_true. assert (0 <= round radix2 (SpecFloat.fexp 53 1024) ZnearestE (B2R a - B2R b))%R.
      { apply round_ge_generic; auto with typeclass_instances; [apply generic_format_0|lra]. }
      assert (round radix2 (SpecFloat.fexp 53 1024) ZnearestE (B2R a - B2R b) <> 0)%R; [|lra].
      unfold Rminus. apply round_plus_neq_0; auto with typeclass_instances.
      * apply generic_format_B2R.
      * apply generic_format_opp, generic_format_B2R.
      * lra.
    + apply Rlt_bool_false. apply round_le_generic; auto with typeclass_instances; [apply generic_format_0|lra].
Qed.
Theorem predict_run e X : env_code e -> 1 <= n -> good_number (fe_offset f) -> float_rows n X -> Forall (numpy_fine f) X -> Forall (distance_fits f) X ->
  exists ys, elliptic_predict ef lf tf f e X = Ret ys /\ zlen ys = zlen X /\
    forall i row, zget X i = Ret row -> exists y, zget ys i = Ret y /\ decided f row y.
Proof using G.
  intros C N1 [FO BO] FX NF FT. destruct (mahalanobis_run e X C N1 FX NF FT) as (out & E & L & P).
  unfold elliptic_predict. rewrite E. cbn [bind]. rewrite Forall_forall in FT.
  assert (Z1 : forall i o, zget out i = Ret o -> is_finite o = true /\ (Rabs (B2R o) <= IZR (2 ^ 60))%R).
  { intros i o Ho. pose proof (zget_bound _ _ _ Ho) as Bi. rewrite L in Bi. destruct (zget_ok X i Bi) as (row & Hr).
    destruct (P i row Hr) as (o' & Ho' & F & D). rewrite Ho in Ho'. injection Ho' as <-. split; [exact F|].
    pose proof (FT row (zget_In _ _ _ Hr)) as (_ & _ & _ & F4).
    replace (B2R o) with (fitted_distance f row + (B2R o - fitted_distance f row))%R by ring. eapply Rle_trans; [apply Rabs_triang|].
    change (IZR (2 ^ 60)) with 1152921504606846976%R. change (IZR (2 ^ 53)) with 9007199254740992%R in F4.
    pose proof (Rabs_pos (fitted_distance f row)). lra. }
  destruct (mapM_ok (fun d => let* dd := np_sub (Bopp d) (fe_offset f) in Ret (if fltb fzero dd then 1 else -1)) out) as (ys & EY).
  { intros o Io. apply In_zget in Io as (i & Ho). destruct (Z1 i o Ho) as [F B].
    destruct (np_sub_sign (Bopp o) (fe_offset f)) as (r & Er & _); [rewrite is_finite_Bopp; exact F|exact FO|rewrite B2R_Bopp, Rabs_Ropp; exact B|exact BO|].
    rewrite Er. eexists. reflexivity. }
  exists ys. split; [exact EY|]. apply mapM_Ret in EY. split; [rewrite (Forall2_zlen _ _ _ EY); exact L|].
  intros i row Hr. destruct (P i row Hr) as (o & Ho & F & D). destruct (Z1 i o Ho) as [_ B].
  pose proof (FT row (zget_In _ _ _ Hr)) as (_ & _ & _ & F4).
  destruct (np_sub_sign (Bopp o) (fe_offset f)) as (r & Er & Sr); [rewrite is_finite_Bopp; exact F|exact FO|rewrite B2R_Bopp, Rabs_Ropp; exact B|exact BO|].
  destruct (Forall2_zget _ _ _ _ _ EY Ho) as (y & Hy & Qy). cbv beta in Qy. rewrite Er in Qy. cbn [bind] in Qy. injection Qy as Qy. rewrite Sr in Qy.
  exists y. split; [exact Hy|]. rewrite fltb_correct in Qy by (rewrite ?is_finite_Bopp; auto). rewrite B2R_Bopp in Qy.
  fold (printed_bound f row) in D. apply Rabs_le_inv in D. unfold decided. destruct (Rlt_bool_spec (B2R (fe_offset f)) (- B2R o)) as [Lt|Ge]; subst y.
  - split; [auto|split; [auto|]]. intros H. exfalso. lra.
  - split; [auto|split; [|auto]]. intros H. exfalso. lra.
Qed.
End Env.
(** ** Rows of the wrong length *)
Lemma wrong_columns ef lf tf f e before x after : Forall (numpy_fine f) before -> zlen x <> zlen (fe_location f) ->
  elliptic_mahalanobis ef lf tf f e (before ++ x :: after) = Err AssertionError_.
Proof.
  intros HB H. unfold elliptic_mahalanobis. assert (M : mapM (fun x => np_squared_mahalanobis_distance x (fe_location f) (fe_precision f)) (before ++ x :: after) = Err AssertionError_); [|rewrite M; reflexivity].
  induction HB as [|y before (p & Hp) HB IH]; cbn [app mapM].
  - assert (Q : np_squared_mahalanobis_distance x (fe_location f) (fe_precision f) = Err AssertionError_).
    { unfold np_squared_mahalanobis_distance. cbv zeta. destruct (Z.eqb_spec (zlen x) (zlen (fe_location f))); [contradiction|reflexivity]. }
    rewrite Q. reflexivity.
  - rewrite Hp. cbn [bind]. rewrite IH. reflexivity.
Qed.
Lemma wrong_never ef lf tf f e X x : In x X -> zlen x <> zlen (fe_location f) -> forall out, elliptic_mahalanobis ef lf tf f e X <> Ret out.
Proof.
  intros I H out E. unfold elliptic_mahalanobis in E. apply bind_Ret in E as (ps & E & _). apply mapM_Ret in E. apply In_zget in I as (i & Hi).
  destruct (Forall2_zget _ _ _ _ _ E Hi) as (p & _ & Q). unfold np_squared_mahalanobis_distance in Q. cbv zeta in Q.
  destruct (Z.eqb_spec (zlen x) (zlen (fe_location f))); [contradiction|discriminate].
Qed.
