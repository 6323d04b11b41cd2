(** Converted Gaussian mixtures, from the fitted numbers to the returned ones. *)
From Coq Require Import String ZArith List Bool Lia Reals Lra.
From Flocq Require Import Core BinarySingleNaN.
From Flocq.Prop Require Import Relative.
From Verif.Base Require Import Res CInt ListX Loops Float FloatOrder Arith Kernels RealSum.
From Verif.Model Require Import Common Text TreesConvert TreesC Cgen Mixture Harness NetRun DistanceRun MixtureRun.
From Verif.Spec Require Import RealSpec NetSpec DistanceSpec MixtureSpec HarnessSpec RoundingSpec NetRunSpec StrSpec MixtureRunSpec.
From Verif.Proof Require Import Text Str FloatErr NetErr NetClose Softmax NetRunErr NetRun NetRunTop Through Harness FloatMean TreesRunTop Distance DistanceErr DistanceRun Mixture MixtureErr.
Import Verif.Spec.HarnessSpec ListNotations.
Open Scope Z_scope.
Open Scope res_scope.

(** ** The program *)
Section Prog.
Context (ef lf tf : f32 -> f32) (ld : Z -> f32 -> f32 -> f32).
Notation A := (f32_arith ef lf tf).
Notation fn := (znth (fzero : f32)).
Lemma logsumexp32 (xs : list f32) : eml_logsumexp A xs (zlen xs) = Ret (offset ef lf tf true xs).
Proof.
  unfold eml_logsumexp, eml_minmax. change (num A) with f32.
  rewrite (foldM_pure_ext _ (fun '(mn, mx) i => ((if fltb (fn xs i) mn then fn xs i else mn), (if fltb mx (fn xs i) then fn xs i else mx)) : f32 * f32)).
  2:{ intros [mn mx] i Hi. apply Kernels.zrange_In in Hi. rewrite (zget_znth (fzero : f32)) by exact Hi. reflexivity. }
  rewrite (fold_left_pair (fun (mn : f32) i => if fltb (fn xs i) mn then fn xs i else mn) (fun (mx : f32) i => if fltb mx (fn xs i) then fn xs i else mx)).
  cbn [bind].
  pose proof (fold_left_nth (fun (m v : f32) => if fltb m v then v else m) xs (B754_infinity true)) as EV.
  match goal with |- context [fold_left ?g (zrange (zlen xs)) (nneginf A)] => change (fold_left g (zrange (zlen xs)) (nneginf A)) with (fold_left (fun (m : f32) i => if fltb m (fn xs i) then fn xs i else m) (zrange (zlen xs)) (B754_infinity true)) end.
  rewrite <- EV. change (fold_left (fun m v : f32 => if fltb m v then v else m) xs (B754_infinity true)) with (vmax A xs : f32).
  rewrite (foldM_pure_ext _ (fun (s : f32) i => fadd s (ef (fsub (fn xs i) (vmax A xs : f32))))).
  2:{ intros s i Hi. apply Kernels.zrange_In in Hi. rewrite (zget_znth (fzero : f32)) by exact Hi. reflexivity. }
  cbn [bind]. rewrite <- (fold_left_nth (fun (s v : f32) => fadd s (ef (fsub v (vmax A xs : f32)))) xs). reflexivity.
Qed.
Context (k n : Z) (ms qs lds lws x : list f32).
Hypothesis Hk : 1 <= k.
Hypothesis Hn : 1 <= n.
Hypothesis B1 : k * n * n < 2 ^ 31.
Hypothesis LX : zlen x = n.
Hypothesis LM : zlen ms = k * n.
Hypothesis LQ : zlen qs = k * n * n.
Hypothesis LD : zlen lds = k.
Hypothesis LW : zlen lws = k.
Notation M := (mk_mixture A k n CovFull ms qs lds lws).
Definition f_outs : list f32 := map (f_out ld n ms qs lds lws x) (zrange k).
Lemma zlen_outs : zlen f_outs = k.
Proof using Hk. unfold f_outs. rewrite zlen_map, zlen_zrange'. lia. Qed.
Lemma score_run0 out s0 : @zlen f32 out = k -> eml_mixture_score A ld M x out s0 = Ret (0, f_outs, offset ef lf tf true f_outs).
Proof using Hk Hn B1 LX LM LQ LD LW.
  intros LO. unfold eml_mixture_score. rewrite (log_proba_run ef lf tf ld k n ms qs lds lws x Hk Hn B1 LX LM LQ LD LW out LO).
  cbn [m_n_components]. destruct (Z.ltb_spec 0 k); [|lia]. cbn [negb bind]. change (0 =? 0) with true. cbn [negb].
  change (map (f_out ld n ms qs lds lws x) (zrange k)) with f_outs. rewrite <- zlen_outs at 1. rewrite logsumexp32. reflexivity.
Qed.
Lemma exec_score_run : exec_score A ld M x = Ret (f_outs, offset ef lf tf true f_outs).
Proof using Hk Hn B1 LX LM LQ LD LW.
  unfold exec_score. cbn [m_n_features m_n_components]. change (num A) with f32. rewrite LX, Z.eqb_refl. cbn [negb]. rewrite score_run0; [reflexivity|]. rewrite zlen_repeat. lia.
Qed.
Lemma exec_proba_run : exec_predict_proba A ld M x = Ret (map (fun v => ef (fsub v (offset ef lf tf true f_outs))) f_outs).
Proof using Hk Hn B1 LX LM LQ LD LW.
  unfold exec_predict_proba. cbn [m_n_features m_n_components]. change (num A) with f32. rewrite LX, Z.eqb_refl. cbn [negb].
  unfold eml_mixture_predict_proba. cbn [m_n_components]. destruct (Z.ltb_spec 0 k); [|lia]. cbn [negb].
  assert (LR : zlen (repeat (nzero A : f32) (Z.to_nat k)) = k) by (rewrite zlen_repeat; lia).
  rewrite score_run0 by exact LR. cbn [bind]. change (0 =? 0) with true. cbn [negb]. set (s := offset ef lf tf true f_outs).
  change (num A) with f32.
  rewrite (fill_app_ext _ (fun i => fsub (fn f_outs i) s)); [|rewrite LR; lia|].
  2:{ intros o i Hi. cbv beta. rewrite (zget_znth (fzero : f32)) by (rewrite zlen_outs; exact Hi). reflexivity. }
  cbn [bind]. rewrite (skipn_all2 (repeat _ _)) by (rewrite repeat_length; lia).
  pose proof (update_app (fun v : f32 => ef v) (map (fun i => fsub (fn f_outs i) s) (zrange k)) [] k) as U.
  change (num A) with f32 in *. change (fun o i => let* x0 := zget o i in zset o i (nexp A x0)) with (fun (o : list f32) i => let* x0 := zget o i in zset o i (ef x0)).
  rewrite U by (rewrite zlen_map, zlen_zrange'; lia). cbn [bind]. change (0 =? 0) with true. cbn [negb]. f_equal. rewrite app_nil_r.
  rewrite map_map. transitivity (map (fun v : f32 => ef (fsub v s)) (map (fn f_outs) (zrange (zlen f_outs)))); [rewrite map_map, zlen_outs; reflexivity|]. now rewrite map_znth.
Qed.
End Prog.

(** ** The full matrices *)
Definition e64 (full : list (list (list f64))) (c p q : Z) : f64 := znth (fzero : f64) (znth [] (znth [] full c) p) q.
Definition full_shape (k n : Z) (full : list (list (list f64))) : Prop :=
  zlen full = k /\ Forall (fun m => zlen m = n /\ Forall (fun r => zlen r = n) m) full.
Lemma nthmap {X Y} (g : X -> Y) (l : list X) dx dy i : 0 <= i < zlen l -> nth (Z.to_nat i) (map g l) dy = g (znth dx l i).
Proof.
  unfold zlen, znth. intros H. rewrite (nth_indep (map g l) dy (g dx)) by (rewrite map_length; lia). apply map_nth.
Qed.
Lemma mat64 (l : list (list f64)) i j : 0 <= i < zlen l -> mat (map (map B2R) l) i j = B2R (znth (fzero : f64) (znth [] l i) j).
Proof. intros H. unfold mat. rewrite (nthmap _ _ [] [] i H). apply vec64. Qed.
Lemma e64_map {X} (g : X -> list (list f64)) l dx c i j : 0 <= c < zlen l -> e64 (map g l) c i j = znth (fzero : f64) (znth [] (g (znth dx l c)) i) j.
Proof. intros H. unfold e64. do 2 f_equal. exact (nthmap g l dx [] c H). Qed.
Lemma shape2_64 (l : list (list f64)) a b : zlen l = a -> Forall (fun r => zlen r = b) l -> shape2 f64_arith l a b = true.
Proof.
  intros H F. unfold shape2. change (num f64_arith) with f64. rewrite H, Z.eqb_refl. cbn [andb]. apply forallb_forall. intros r Hr.
  rewrite Forall_forall in F. specialize (F r Hr). now apply Z.eqb_eq.
Qed.
Lemma lens_of (l : list (list f64)) b : Forall (fun r : list R => zlen r = b) (map (map B2R) l) -> Forall (fun r : list f64 => zlen r = b) l.
Proof.
  intros H. apply Forall_forall. intros r Hr. rewrite Forall_forall in H. specialize (H (map B2R r) (in_map _ _ _ Hr)). now rewrite zlen_map in H.
Qed.
Lemma fmul_one (v : f64) : is_finite v = true -> is_finite (fmul v (f_of_Z 1)) = true /\ B2R (fmul v (f_of_Z 1)) = B2R v.
Proof.
  intros F. destruct (f_of_Z53 1 ltac:(lia)) as [V1 F1]. pose proof (Bmult_correct 53 1024 _ _ mode_NE v (f_of_Z 1)) as C.
  rewrite V1, Rmult_1_r in C. simpl round_mode in C. rewrite round_generic in C; [|apply valid_rnd_N|apply generic_format_B2R].
  rewrite Rlt_bool_true in C by apply abs_B2R_lt_emax. destruct C as (C1 & C2 & _). rewrite F, F1 in C2. split; [exact C2|exact C1].
Qed.
Lemma fmul_zero (v : f64) : is_finite v = true -> is_finite (fmul v fzero) = true /\ B2R (fmul v fzero) = 0%R.
Proof. intros F. destruct v; try discriminate; split; reflexivity. Qed.
Lemma znth_In {X} d (l : list X) i : 0 <= i < zlen l -> In (znth d l i) l.
Proof. unfold znth, zlen. intros H. apply nth_In. lia. Qed.
Lemma znth_map_zrange {X} d (g : Z -> X) n i : 0 <= i < n -> znth d (map g (zrange n)) i = g i.
Proof. intros H. unfold znth. now apply nth_map_zrange. Qed.
Lemma zlen_map_zrange {X} (g : Z -> X) n : 0 <= n -> zlen (map g (zrange n)) = n.
Proof. intros. rewrite zlen_map, zlen_zrange'. lia. Qed.

Lemma full_assert k n full : full_shape k n full -> (zlen full =? k) && forallb (fun m => shape2 f64_arith m n n) full = true.
Proof.
  intros [H F]. rewrite H, Z.eqb_refl. cbn [andb]. apply forallb_forall. intros m Hm. rewrite Forall_forall in F. destruct (F m Hm). now apply shape2_64.
Qed.
Lemma good_zero : good_number (fzero : f64).
Proof. split; [reflexivity|]. change (B2R (fzero : f64)) with 0%R. rewrite Rabs_R0. apply bpow_ge_0. Qed.
Lemma Forall_concat_inv {X} (P : X -> Prop) l : Forall P (concat l) -> Forall (Forall P) l.
Proof. induction l as [|a l IH]; intros H; constructor; apply Forall_app in H as [H1 H2]; auto. Qed.

Lemma convert64 k n f : good_gmm k n f -> exists p full, typed_chol (gm_covariance_type f) (gm_precisions_cholesky f) = Ret p /\
  convert_to_full f64_arith k n p = Ret full /\ full_shape k n full /\
  (forall c i j, 0 <= c < k -> 0 <= i < n -> 0 <= j < n -> good_number (e64 full c i j) /\ B2R (e64 full c i j) = chol_at f c i j).
Proof.
  intros (Hk & Hn & _ & _ & _ & TY & SH & _ & _ & _ & GC & _). unfold typed, chol_at, fitted_chol in *.
  destruct (gm_precisions_cholesky f) as [l|l|l]; cbn [chol_numbers] in GC.
  - (* spherical *)
    rewrite TY. cbn [shape_ok] in SH. rewrite zlen_map in SH.
    pose (g := (fun v : f64 => scaled_eye f64_arith v n) : f64 -> list (list f64)).
    exists (ChSpherical f64_arith l), (map g l). split; [reflexivity|].
    assert (FS : full_shape k n (map g l)).
    { split; [rewrite zlen_map; exact SH|]. apply Forall_map. apply Forall_forall. intros v _. unfold g, scaled_eye. split; [apply zlen_map_zrange; lia|].
      apply Forall_forall. intros r Hr. apply in_map_iff in Hr as (i & <- & _). apply zlen_map_zrange; lia. }
    split; [|split; [exact FS|]].
    + unfold convert_to_full. change (num f64_arith) with f64. rewrite SH, Z.eqb_refl. cbn [py_assert bind]. pose proof (full_assert k n _ FS) as Q. match goal with |- bind (py_assert ?b) _ = _ => replace b with true by (symmetry; exact Q) end. reflexivity.
    + intros c i j Hc Hi Hj. rewrite (e64_map g l (fzero : f64) c i j) by lia. unfold g, scaled_eye. change (num f64_arith) with f64. rewrite (znth_map_zrange []) by lia. change (num f64_arith) with f64. rewrite (znth_map_zrange (fzero : f64)) by lia.
      set (v := znth (fzero : f64) l c). assert (Gv : good_number v) by (rewrite Forall_forall in GC; apply GC; apply znth_In; lia).
      rewrite vec64. fold v. destruct (i =? j).
      * change (nmul f64_arith v (none_ f64_arith)) with (fmul v (f_of_Z 1)). destruct (fmul_one v (proj1 Gv)) as [A B]. split; [split; [exact A|rewrite B; apply Gv]|exact B].
      * change (nmul f64_arith v (nzero f64_arith)) with (fmul v fzero). destruct (fmul_zero v (proj1 Gv)) as [A B]. split; [split; [exact A|rewrite B, Rabs_R0; apply bpow_ge_0]|exact B].
  - (* tied, diag *)
    apply Forall_concat_inv in GC. destruct TY as [TY|TY]; rewrite TY in *; cbn [String.eqb Ascii.eqb Bool.eqb shape_ok] in SH |- *; rewrite ?zlen_map in SH.
    + destruct SH as [S1 S2]. rewrite zlen_map in S1. apply lens_of in S2.
      exists (ChTied f64_arith l), (map (fun _ => l) (zrange k)). split; [reflexivity|].
      assert (FS : full_shape k n (map (fun _ => l) (zrange k))).
      { split; [apply zlen_map_zrange; lia|]. apply Forall_map. apply Forall_forall. auto. }
      split; [|split; [exact FS|]].
      * unfold convert_to_full. change (num f64_arith) with f64. rewrite (shape2_64 l n n S1 S2). cbn [py_assert bind]. pose proof (full_assert k n _ FS) as Q. match goal with |- bind (py_assert ?b) _ = _ => replace b with true by (symmetry; exact Q) end. reflexivity.
      * intros c i j Hc Hi Hj. unfold e64. rewrite (znth_map_zrange []) by lia. rewrite mat64 by lia. split; [|reflexivity].
        rewrite Forall_forall in GC, S2. pose proof (znth_In [] l i ltac:(lia)) as I1. pose proof (GC _ I1) as G1. rewrite Forall_forall in G1. apply G1. apply znth_In. rewrite (S2 _ I1). lia.
    + destruct SH as [S1 S2]. apply lens_of in S2.
      pose (g := np_diag f64_arith : list f64 -> list (list f64)).
      exists (ChDiag f64_arith l), (map g l). split; [reflexivity|].
      assert (FS : full_shape k n (map g l)).
      { split; [rewrite zlen_map; exact S1|]. apply Forall_map. eapply Forall_impl; [|exact S2]. intros r Hr. cbv beta in *. unfold g, np_diag. change (num f64_arith) with f64. rewrite Hr. split; [apply zlen_map_zrange; lia|].
        apply Forall_forall. intros x Hx. apply in_map_iff in Hx as (i & <- & _). apply zlen_map_zrange; lia. }
      split; [|split; [exact FS|]].
      * unfold convert_to_full. change (num f64_arith) with f64. rewrite (shape2_64 l k n S1 S2). cbn [py_assert bind]. pose proof (full_assert k n _ FS) as Q. match goal with |- bind (py_assert ?b) _ = _ => replace b with true by (symmetry; exact Q) end. reflexivity.
      * intros c i j Hc Hi Hj. rewrite (e64_map g l [] c i j) by lia. pose proof (znth_In [] l c ltac:(lia)) as I1. rewrite Forall_forall in GC, S2. pose proof (GC _ I1) as G1. rewrite Forall_forall in G1. pose proof (S2 _ I1) as L1.
        unfold g, np_diag. change (num f64_arith) with f64. rewrite L1. rewrite (znth_map_zrange []) by lia. rewrite (znth_map_zrange (fzero : f64)) by lia.
        rewrite mat64 by lia. destruct (i =? j); [|split; [apply good_zero|reflexivity]].
        split; [|reflexivity]. apply (G1 (znth (fzero : f64) (znth [] l c) i)). apply znth_In. lia.
  - (* full *)
    rewrite TY. cbn [shape_ok] in SH. rewrite zlen_map in SH. destruct SH as [S1 S2]. apply Forall_concat_inv in GC. apply Forall_concat_inv in GC.
    exists (ChFull f64_arith l), l. split; [reflexivity|].
    assert (FS : full_shape k n l).
    { split; [exact S1|]. apply Forall_forall. intros m Hm. rewrite Forall_forall in S2. destruct (S2 _ (in_map _ _ _ Hm)) as [Q1 Q2]. rewrite zlen_map in Q1. split; [exact Q1|now apply lens_of]. }
    split; [|split; [exact FS|]].
    + unfold convert_to_full. cbn [bind]. pose proof (full_assert k n _ FS) as Q. match goal with |- bind (py_assert ?b) _ = _ => replace b with true by (symmetry; exact Q) end. reflexivity.
    + intros c i j Hc Hi Hj. unfold e64. destruct FS as [_ FS]. rewrite Forall_forall in FS, GC.
      pose proof (znth_In [] l c ltac:(lia)) as I1. destruct (FS _ I1) as [L1 L2]. rewrite Forall_forall in L2. pose proof (GC _ I1) as G1.
      rewrite Forall_forall in G1. pose proof (znth_In [] (znth [] l c) i ltac:(lia)) as I2. pose proof (G1 _ I2) as G2. rewrite Forall_forall in G2.
      rewrite (nthmap _ _ [] [] c) by lia. rewrite mat64 by lia. split; [|reflexivity]. apply G2. apply znth_In. rewrite (L2 _ I2). lia.
Qed.

(** ** How far off *)
Lemma combine_errs (n lp ld S D w wp cd Q dO sq pw bw E1 o res eps L : R) :
  (1 <= n)%R -> (0 <= L <= 19 / 10)%R -> E1 = (- (1 / 2) * (n * L + lp) + ld)%R -> (Rabs lp <= 2 * Q)%R -> (Rabs (lp - S) <= sq)%R ->
  (Rabs (ld - D) <= dO)%R -> (Rabs ld <= cd)%R -> (Rabs (wp - w) <= pw)%R -> (Rabs wp <= bw)%R ->
  (Rabs (o - E1) <= 2 * u24 * (n + Rabs lp / 2 + Rabs ld))%R -> (Rabs eps <= u24)%R -> res = ((o + wp) * (1 + eps))%R ->
  (Rabs (res - (- (1 / 2) * (n * L + S) + D + w)) <= sq / 2 + dO + pw + 4 * u24 * (n + Q + cd + bw))%R /\ (Rabs res <= 2 * (n + Q + cd + bw))%R /\
  (Rabs (o + wp) <= 2 * (n + Q + cd + bw))%R.
Proof.
  intros N1 L2 HE1 Hlp HS HD Hld Hw Hbw Ho He ->.
  set (W := (n + Rabs lp / 2 + Rabs ld)%R) in *. pose proof (Rabs_pos lp) as P1. pose proof (Rabs_pos ld) as P2. pose proof (Rabs_pos wp) as P3.
  assert (WB : (W <= n + Q + cd)%R) by (unfold W; lra). assert (W1 : (1 <= W)%R) by (unfold W; lra).
  assert (EW : (Rabs E1 <= W)%R).
  { rewrite HE1. eapply Rle_trans; [apply Rabs_triang|]. rewrite Rabs_mult, Rabs_Ropp, (Rabs_pos_eq (1 / 2)) by lra.
    assert (Rabs (n * L + lp) <= 2 * n + Rabs lp)%R; [|unfold W; lra]. eapply Rle_trans; [apply Rabs_triang|]. rewrite Rabs_mult, (Rabs_pos_eq n), (Rabs_pos_eq L) by lra. nra. }
  assert (OW : (Rabs o <= W * (1 + 2 * u24))%R).
  { replace o with (E1 + (o - E1))%R by ring. eapply Rle_trans; [apply Rabs_triang|]. lra. }
  assert (SW : (Rabs (o + wp) <= W * (1 + 2 * u24) + bw)%R) by (eapply Rle_trans; [apply Rabs_triang|]; lra).
  assert (EP : (Rabs ((o + wp) * eps) <= (W * (1 + 2 * u24) + bw) * u24)%R).
  { rewrite Rabs_mult. apply Rmult_le_compat; try apply Rabs_pos; assumption. }
  split; [|split].
  - replace ((o + wp) * (1 + eps) - (- (1 / 2) * (n * L + S) + D + w))%R
      with ((o + wp) * eps + ((o - E1) + (- (1 / 2) * (lp - S) + ((ld - D) + (wp - w)))))%R by (rewrite HE1; field).
    eapply Rle_trans; [apply Rabs_triang|]. pose proof (Rabs_triang (o - E1) (- (1 / 2) * (lp - S) + ((ld - D) + (wp - w)))) as T1.
    pose proof (Rabs_triang (- (1 / 2) * (lp - S)) ((ld - D) + (wp - w))) as T2. pose proof (Rabs_triang (ld - D) (wp - w)) as T3.
    rewrite (Rabs_mult (- (1 / 2))), Rabs_Ropp, (Rabs_pos_eq (1 / 2)) in T2 by lra.
    assert (X : ((W * (1 + 2 * u24) + bw) * u24 + 2 * u24 * W <= 4 * u24 * (n + Q + cd + bw))%R).
    { clear - W1 WB P3 Hbw. lra. }
    lra.
  - replace ((o + wp) * (1 + eps))%R with ((o + wp) + (o + wp) * eps)%R by ring. eapply Rle_trans; [apply Rabs_triang|]. clear - EP SW W1 WB P3 Hbw. lra.
  - clear - SW W1 WB P3 Hbw. lra.
Qed.

Section Num.
Context (ef lf tf : f32 -> f32).
Notation A := (f32_arith ef lf tf).
Notation fn := (znth (fzero : f32)).
Context (f : fitted_gmm) (row : list f64) (ge gl gd : R) (ws ms qs lds lws : list f32).
Notation n := (zlen row).
Notation k := (zlen (gm_means f)).
Hypothesis G : good_gmm k n f.
Hypothesis LX : zlen ws = n.
Hypothesis LM : zlen ms = k * n.
Hypothesis LQ : zlen qs = k * n * n.
Hypothesis LD : zlen lds = k.
Hypothesis LW : zlen lws = k.
Hypothesis FX : Forall (fun v : f32 => is_finite v = true) ws.
Hypothesis FM : Forall (fun v : f32 => is_finite v = true) ms.
Hypothesis FQ : Forall (fun v : f32 => is_finite v = true) qs.
Hypothesis FD : Forall (fun v : f32 => is_finite v = true) lds.
Hypothesis FW : Forall (fun v : f32 => is_finite v = true) lws.
Hypothesis NX : forall p, 0 <= p < n -> (Rabs (r_x ws p - x_at row p) <= argv_err (x_at row p))%R.
Hypothesis NM : forall c p, 0 <= c < k -> 0 <= p < n -> (Rabs (r_m n ms c p - mean_at f c p) <= print6 (mean_at f c p))%R.
Hypothesis NQ : forall c p q, 0 <= c < k -> 0 <= p < n -> 0 <= q < n -> (Rabs (r_q n qs c p q - chol_at f c p q) <= print6 (chol_at f c p q))%R.
Hypothesis ND : forall c, 0 <= c < k -> (Rabs (B2R (fn lds c) - log_det_at f row c) <= det_off f row gd c)%R.
Hypothesis NW : forall c, 0 <= c < k -> (Rabs (B2R (fn lws c) - weight_at f c) <= print6 (weight_at f c))%R.
Notation ldc := log_density_c.
Notation out c := (f_out ldc n ms qs lds lws ws c).

Lemma Hk : 1 <= k. Proof using G. apply G. Qed.
Lemma Hn : 1 <= n. Proof using G. apply G. Qed.
Lemma Hb : k * n * n < 2 ^ 31. Proof using G. apply G. Qed.
Lemma Hn2 : n <= 46340.
Proof using G. pose proof Hk. pose proof Hn. pose proof Hb. assert (n * n <= k * n * n) by nia. nia. Qed.

Lemma y_near c q : 0 <= c < k -> 0 <= q < n -> (Rabs (r_y n ms qs ws c q - y_at f row c q) <= y_off f row c q)%R.
Proof using G NX NM NQ.
  intros Hc Hq. unfold r_y, y_at, y_off. rewrite <- sumr_minus. rewrite <- sumr_minus. eapply Rle_trans; [apply sumr_abs|]. apply sumr_le. intros p Hp.
  replace (r_x ws p * r_q n qs c p q - r_m n ms c p * r_q n qs c p q - (x_at row p - mean_at f c p) * chol_at f c p q)%R
    with ((r_x ws p - r_m n ms c p) * r_q n qs c p q - (x_at row p - mean_at f c p) * chol_at f c p q)%R by ring.
  eapply Rle_trans; [apply prod_pert; [|apply NQ; assumption]|].
  - instantiate (1 := (argv_err (x_at row p) + print6 (mean_at f c p))%R). pose proof (NX p Hp) as E1. pose proof (NM c p Hc Hp) as E2.
    replace (r_x ws p - r_m n ms c p - (x_at row p - mean_at f c p))%R with ((r_x ws p - x_at row p) + - (r_m n ms c p - mean_at f c p))%R by ring.
    eapply Rle_trans; [apply Rabs_triang|]. rewrite Rabs_Ropp. lra.
  - unfold big. lra.
Qed.
Lemma mag_le c q : 0 <= c < k -> 0 <= q < n -> (r_mag n ms qs ws c q <= y_mag f row c q)%R.
Proof using G NX NM NQ.
  intros Hc Hq. unfold r_mag, y_mag. apply Rplus_le_compat; apply sumr_le; intros p Hp; apply Rplus_le_compat_r; apply Rmult_le_compat; try apply Rabs_pos.
  - pose proof (NX p Hp). replace (r_x ws p) with (x_at row p + (r_x ws p - x_at row p))%R by ring. eapply Rle_trans; [apply Rabs_triang|]. lra.
  - apply near_big, NQ; assumption.
  - apply near_big, NM; assumption.
  - apply near_big, NQ; assumption.
Qed.
Lemma sqmag_le c : 0 <= c < k -> (r_sqmag n ms qs ws c <= square_mag f row c)%R.
Proof using G NX NM NQ.
  intros Hc. unfold r_sqmag, square_mag. apply sumr_le. intros q Hq. apply Rplus_le_compat_r. pose proof (mag_le c q Hc Hq). pose proof (r_mag_nonneg n ms qs ws c q).
  apply Rmult_le_compat; assumption.
Qed.
Lemma off_nonneg c q : 0 <= c < k -> 0 <= q < n -> (0 <= y_off f row c q)%R.
Proof using G NX NM NQ. intros Hc Hq. eapply Rle_trans; [apply Rabs_pos|apply y_near; assumption]. Qed.
Lemma square_near c : 0 <= c < k ->
  (Rabs (sumr n (fun q => r_y n ms qs ws c q * r_y n ms qs ws c q) - sumr n (fun q => y_at f row c q * y_at f row c q))
   <= sumr n (fun q => 2 * Rabs (y_at f row c q) * y_off f row c q + y_off f row c q * y_off f row c q))%R.
Proof using G NX NM NQ.
  intros Hc. rewrite <- sumr_minus. eapply Rle_trans; [apply sumr_abs|]. apply sumr_le. intros q Hq.
  pose proof (y_near c q Hc Hq) as H. pose proof (prod_pert _ _ _ _ _ _ H H) as P. eapply Rle_trans; [exact P|]. lra.
Qed.
Lemma lp_near c : 0 <= c < k -> (square_mag f row c <= 1048576)%R ->
  is_finite (f_lp n ms qs ws c) = true /\ (Rabs (B2R (f_lp n ms qs ws c) - sumr n (fun q => y_at f row c q * y_at f row c q)) <= square_err f row c)%R /\
  (Rabs (B2R (f_lp n ms qs ws c)) <= 2 * square_mag f row c)%R.
Proof using G LX LM LQ LD LW FX FM FQ NX NM NQ.
  intros Hc SM. pose proof Hk as K1. pose proof Hn as N1. pose proof Hb as B1. pose proof Hn2 as N2. pose proof (sqmag_le c Hc) as SL.
  assert (M32 : (1048577 <= max32)%R). { apply Rle_trans with (bpow radix2 21); [change (bpow radix2 21) with 2097152%R; lra|unfold max32; apply bpow_le; lia]. }
  destruct (lp_tracks k n ms qs lds lws ws K1 N1 B1 LX LM LQ LD LW FX FM FQ N2 c Hc) as (F1 & D1 & T1).
  - intros q Hq. pose proof (r_mag_nonneg n ms qs ws c q) as P.
    assert (Q : (r_mag n ms qs ws c q * r_mag n ms qs ws c q + tiny32 <= r_sqmag n ms qs ws c)%R).
    { unfold r_sqmag. apply (sumr_le1 n (fun q => r_mag n ms qs ws c q * r_mag n ms qs ws c q + tiny32)%R q Hq). intros j Hj. pose proof (r_mag_nonneg n ms qs ws c j). pose proof tiny32_pos. nra. }
    pose proof tiny32_pos. nra.
  - lra.
  - split; [exact F1|]. pose proof (rel_nonneg (Z.to_nat (3 * n + 5))) as R0.
    assert (R1 : (rel (Z.to_nat (3 * n + 5)) <= 1)%R) by (apply rel_1; rewrite INR_IZR_INZ; apply IZR_le; lia).
    assert (D2 : (rel (Z.to_nat (3 * n + 5)) * r_sqmag n ms qs ws c <= rel (Z.to_nat (3 * n + 5)) * square_mag f row c)%R) by (apply Rmult_le_compat_l; assumption).
    assert (P0 : (0 <= r_sqmag n ms qs ws c)%R) by (eapply Rle_trans; [apply Rabs_pos|exact T1]).
    split.
    + pose proof (square_near c Hc) as SN. unfold square_err. set (a := B2R (f_lp n ms qs ws c)) in *. set (b := sumr n (fun q => r_y n ms qs ws c q * r_y n ms qs ws c q)%R) in *.
      set (e := sumr n (fun q => y_at f row c q * y_at f row c q)%R) in *. replace (a - e)%R with ((b - e) + (a - b))%R by ring. eapply Rle_trans; [apply Rabs_triang|]. lra.
    + set (a := B2R (f_lp n ms qs ws c)) in *. set (b := sumr n (fun q => r_y n ms qs ws c q * r_y n ms qs ws c q)%R) in *.
      replace a with (b + (a - b))%R by ring. eapply Rle_trans; [apply Rabs_triang|].
      assert (rel (Z.to_nat (3 * n + 5)) * square_mag f row c <= 1 * square_mag f row c)%R by (apply Rmult_le_compat_r; lra). lra.
Qed.

Lemma ln_component c : 0 <= c < k ->
  (- (1 / 2) * (IZR n * EML_LOG_2PI + sumr n (fun q => y_at f row c q * y_at f row c q)) + log_det_at f row c + weight_at f c)%R
  = (ln (fitted_weighted f row c) + IZR n / 2 * log2pi_err)%R.
Proof using G.
  intros Hc. pose proof Hn as N1. assert (P : positive_chol (fitted_chol f) k n) by apply G.
  pose proof (logp_weighted (fitted_chol f) n (map (map B2R) (gm_means f)) (map B2R (gm_log_weights f)) (map B2R row) c) as Q.
  rewrite zlen_map in Q. specialize (Q ltac:(lia) P Hc). unfold fitted_weighted. rewrite <- Q. unfold logp. apply Rplus_eq_compat_r. apply f_equal2.
  - f_equal. f_equal. apply sumr_ext. intros q Hq. replace (y_at f row c q) with (sumr n (fun p => (vec (map B2R row) p - mat (map (map B2R) (gm_means f)) c p) * mat (nth (Z.to_nat c) (build (fitted_chol f) k n) []) p q))%R; [ring|].
    unfold y_at. apply sumr_ext. intros p Hp. rewrite build_entry by assumption. reflexivity.
  - unfold log_det_at, logdets, vec. rewrite nth_map_zrange by exact Hc. reflexivity.
Qed.
Lemma component_parts c : 0 <= c < k -> (0 <= square_mag f row c /\ 0 <= Rabs (log_det_at f row c) + det_off f row gd c /\ 0 <= big (weight_at f c))%R.
Proof using G NX NM NQ ND NW.
  intros Hc. split; [|split].
  - eapply Rle_trans; [|apply sqmag_le; exact Hc]. apply sumr_nonneg. intros q Hq. pose proof (r_mag_nonneg n ms qs ws c q). pose proof tiny32_pos. nra.
  - pose proof (ND c Hc) as H. pose proof (Rabs_pos (B2R (fn lds c) - log_det_at f row c)). pose proof (Rabs_pos (log_det_at f row c)). lra.
  - pose proof (NW c Hc) as H. pose proof (Rabs_pos (B2R (fn lws c) - weight_at f c)). pose proof (Rabs_pos (weight_at f c)). unfold big. lra.
Qed.
Lemma out_near c : 0 <= c < k -> (component_mag f row gd c <= 1048576)%R ->
  is_finite (out c) = true /\ (Rabs (B2R (out c) - ln (fitted_weighted f row c)) <= component_err f row gd c)%R /\
  (Rabs (B2R (out c)) <= 2 * component_mag f row gd c)%R.
Proof using G LX LM LQ LD LW FX FM FQ FD FW NX NM NQ ND NW.
  intros Hc CM. destruct (component_parts c Hc) as (P1 & P2 & P3). pose proof Hn as N1. pose proof Hn2 as N2.
  assert (NR : (1 <= IZR n)%R) by (apply IZR_le; lia). pose proof CM as CM'. unfold component_mag in CM'.
  destruct (lp_near c Hc ltac:(lra)) as (F1 & D1 & B1). set (lp := f_lp n ms qs ws c) in *.
  assert (Fd : is_finite (fn lds c) = true) by (apply (Forall_znth (fun v : f32 => is_finite v = true)); [exact FD|lia]).
  assert (Fw : is_finite (fn lws c) = true) by (apply (Forall_znth (fun v : f32 => is_finite v = true)); [exact FW|lia]).
  pose proof (ND c Hc) as ED. pose proof (NW c Hc) as EW. pose proof (near_big _ _ EW) as BW.
  assert (BD : (Rabs (B2R (fn lds c)) <= Rabs (log_det_at f row c) + det_off f row gd c)%R).
  { replace (B2R (fn lds c)) with (log_det_at f row c + (B2R (fn lds c) - log_det_at f row c))%R by ring. eapply Rle_trans; [apply Rabs_triang|]. lra. }
  destruct (log_density_near n lp (fn lds c) ltac:(lia) F1 Fd ltac:(lra)) as [Fo Do].
  set (o := log_density_c n lp (fn lds c)) in *.
  assert (L2 : (0 <= EML_LOG_2PI <= 19 / 10)%R) by (unfold EML_LOG_2PI; lra).
  pose proof (fun eps res HE HR => combine_errs (IZR n) (B2R lp) (B2R (fn lds c)) (sumr n (fun q => y_at f row c q * y_at f row c q)%R) (log_det_at f row c) (weight_at f c) (B2R (fn lws c))
    (Rabs (log_det_at f row c) + det_off f row gd c) (square_mag f row c) (det_off f row gd c) (square_err f row c) (print6 (weight_at f c)) (big (weight_at f c))
    _ (B2R o) res eps EML_LOG_2PI NR L2 eq_refl B1 D1 ED BD EW BW Do HE HR) as CE.
  assert (SB : (Rabs (B2R o + B2R (fn lws c)) <= bpow radix2 126)%R).
  { destruct (CE 0%R _ ltac:(rewrite Rabs_R0; lra) eq_refl) as (_ & _ & H). eapply Rle_trans; [exact H|].
    apply Rle_trans with (bpow radix2 22); [change (bpow radix2 22) with 4194304%R; lra|apply bpow_le; lia]. }
  destruct (fadd32 o (fn lws c) Fo Fw SB) as (Fa & eps & He & Va). destruct (CE eps _ He Va) as (C1 & C2 & _).
  change (out c) with (fadd o (fn lws c)). split; [exact Fa|]. split; [|exact C2].
  rewrite (ln_component c Hc) in C1. unfold component_err, component_mag. pose proof log2pi_err_small as LS.
  assert (L3 : (Rabs (IZR n / 2 * log2pi_err) <= IZR n / 2 * (1 / 10000000000000))%R).
  { rewrite Rabs_mult, (Rabs_pos_eq (IZR n / 2)) by lra. apply Rmult_le_compat_l; lra. }
  replace (B2R (fadd o (fn lws c)) - ln (fitted_weighted f row c))%R with ((B2R (fadd o (fn lws c)) - (ln (fitted_weighted f row c) + IZR n / 2 * log2pi_err)) + IZR n / 2 * log2pi_err)%R by ring.
  eapply Rle_trans; [apply Rabs_triang|]. lra.
Qed.

Hypothesis EF : expf_ok (ef:=ef) ge.
Hypothesis GE : (0 <= ge <= / 4)%R.
Hypothesis LF : logf_ok (lf:=lf) gl.
Hypothesis FIT : mixture_fits f row ge gl gd.
Notation outs := (f_outs ldc k n ms qs lds lws ws).
Lemma fits_small : (mixture_mag f row gd <= 2097152)%R.
Proof using FIT GE LF.
  destruct FIT as (_ & M & S1 & A1). unfold softmax_arg_err in A1. pose proof (gl_pos lf gl LF) as GL.
  assert (S0 : (0 <= softmax_sum_err ge k)%R).
  { unfold softmax_sum_err. pose proof (zlen_nonneg (gm_means f)) as Z0. assert (0 <= IZR k)%R by (apply IZR_le; lia). pose proof (rel_nonneg (Z.to_nat k)).
    assert (0 <= IZR k * (ge + 2 * u24))%R by (apply Rmult_le_pos; lra). assert (0 <= rel (Z.to_nat k) * (IZR k * (1 + ge + 2 * u24)))%R; [|lra]. apply Rmult_le_pos; [assumption|]. apply Rmult_le_pos; lra. }
  assert (K0 : (0 <= IZR k)%R) by (apply IZR_le; apply zlen_nonneg). lra.
Qed.
Lemma mag_comp c : 0 <= c < k -> (2 * component_mag f row gd c <= mixture_mag f row gd)%R.
Proof using.
  intros Hc. unfold mixture_mag. apply Rmult_le_compat_l; [lra|].
  pose proof (maxl_ge (map (component_mag f row gd) (zrange k)) c) as H. rewrite zlen_map_zrange in H by lia. specialize (H Hc). unfold nthr in H. now rewrite znth_map_zrange in H.
Qed.
Lemma err_comp c : 0 <= c < k -> (component_err f row gd c <= mixture_err f row gd)%R.
Proof using.
  intros Hc. unfold mixture_err.
  pose proof (maxl_ge (map (component_err f row gd) (zrange k)) c) as H. rewrite zlen_map_zrange in H by lia. specialize (H Hc). unfold nthr in H. now rewrite znth_map_zrange in H.
Qed.
Lemma outs_near c : 0 <= c < k -> is_finite (fn outs c) = true /\ (Rabs (B2R (fn outs c) - ln (fitted_weighted f row c)) <= component_err f row gd c)%R /\
  (Rabs (B2R (fn outs c)) <= mixture_mag f row gd)%R.
Proof using G LX LM LQ LD LW FX FM FQ FD FW NX NM NQ ND NW FIT GE LF.
  intros Hc. unfold f_outs. rewrite (znth_map_zrange (fzero : f32)) by exact Hc. pose proof (mag_comp c Hc). pose proof fits_small.
  destruct (out_near c Hc ltac:(lra)) as (A1 & A2 & A3). split; [exact A1|]. split; [exact A2|]. lra.
Qed.
Lemma outs_finite : Forall (fun v : f32 => is_finite v = true) outs.
Proof using G LX LM LQ LD LW FX FM FQ FD FW NX NM NQ ND NW FIT GE LF.
  apply Forall_forall. intros v Hv. unfold f_outs in Hv. apply in_map_iff in Hv as (c & <- & Hc). apply Kernels.zrange_In in Hc.
  pose proof (outs_near c Hc) as H. unfold f_outs in H. rewrite (znth_map_zrange (fzero : f32)) in H by exact Hc. apply H.
Qed.
Lemma wpos c : 0 <= c < k -> (0 < fitted_weighted f row c)%R.
Proof using G.
  intros Hc. unfold fitted_weighted. apply weighted_pos; rewrite zlen_map; [apply G|exact Hc].
Qed.
Lemma exp_total : sumr k (fun c => exp (ln (fitted_weighted f row c))) = fitted_total f row.
Proof using G.
  unfold fitted_total, total. rewrite zlen_map. apply sumr_ext. intros c Hc. rewrite exp_ln by (apply wpos; exact Hc). reflexivity.
Qed.
Theorem outputs_near : let s := offset ef lf tf true outs in
  (is_finite s = true /\ (Rabs (B2R s - ln (fitted_total f row)) <= score_bound f row ge gl gd)%R) /\
  forall c, 0 <= c < k -> is_finite (ef (fsub (fn outs c) s)) = true /\ (Rabs (B2R (ef (fsub (fn outs c) s)) - posterior f row c) <= proba_bound f row ge gl gd)%R.
Proof using G LX LM LQ LD LW FX FM FQ FD FW NX NM NQ ND NW FIT GE LF EF.
  cbv zeta. pose proof Hk as K1. assert (ZO : zlen outs = k) by (apply zlen_outs; exact K1).
  pose proof (fun i => softmax32_gen ef lf tf ge gl EF GE LF true outs (mixture_mag f row gd) i outs_finite) as S. rewrite ZO in S.
  assert (DD : forall j, 0 <= j < k -> (Rabs (B2R (fn outs j) - ln (fitted_weighted f row j)) <= mixture_err f row gd)%R).
  { intros j Hj. destruct (outs_near j Hj) as (_ & D & _). pose proof (err_comp j Hj). lra. }
  assert (MM : forall j, 0 <= j < k -> (Rabs (B2R (fn outs j)) <= mixture_mag f row gd)%R) by (intros j Hj; apply (outs_near j Hj)).
  split.
  - destruct (S 0 MM FIT ltac:(lia)) as [[F D] _]. split; [exact F|].
    pose proof (lnsum_lip k (fun j => B2R (fn outs j)) (fun j => ln (fitted_weighted f row j)) _ K1 DD) as L. cbv beta in L. rewrite exp_total in L.
    unfold score_bound. set (t := ln (fitted_total f row)) in *. set (u := ln (sumr k (fun j => exp (B2R (fn outs j))))) in *. set (v := B2R (offset ef lf tf true outs)) in *.
    replace (v - t)%R with ((u - t) + (v - u))%R by ring. eapply Rle_trans; [apply Rabs_triang|]. lra.
  - intros c Hc. destruct (S c MM FIT Hc) as [_ [F D]]. split; [exact F|].
    pose proof (softmax_lip k (fun j => B2R (fn outs j)) (fun j => ln (fitted_weighted f row j)) _ c Hc DD) as L. cbv beta in L. rewrite exp_total, (exp_ln _ (wpos c Hc)) in L.
    unfold proba_bound, softmax_err. fold (posterior f row c) in L.
    set (u := (exp (B2R (fn outs c)) / sumr k (fun j => exp (B2R (fn outs j))))%R) in *. set (v := B2R (ef (fsub (fn outs c) (offset ef lf tf true outs)))) in *.
    replace (v - posterior f row c)%R with ((u - posterior f row c) + (v - u))%R by ring. eapply Rle_trans; [apply Rabs_triang|]. lra.
Qed.
End Num.
