(** Converted networks end to end. *)
From Coq Require Import String ZArith List Bool Lia Reals Lra.
From Flocq Require Import Core BinarySingleNaN.
From Verif.Base Require Import Res CInt ListX Loops Float FloatOrder Arith Kernels RealSum.
From Verif.Model Require Import Common Text TreesConvert TreesC TreesWrapper Net Cgen Harness TreesRun NetRun.
From Verif.Spec Require Import RealSpec NetSpec ClassifierSpec HarnessSpec RunSpec RoundingSpec NetRunSpec.
From Verif.Proof Require Import Net NetApi NetFun NetKeras FloatErr NetErr NetClose RoundingTop NetRunErr Through Harness RunRows FloatMean TreesRegRun TreesRunTop TreesFloatRun NetRun.
Import Verif.Spec.HarnessSpec ListNotations.
Open Scope Z_scope.
Open Scope res_scope.

Lemma zlen_rlayer L x : 0 <= r_outputs L -> zlen (rlayer_fun L x) = r_outputs L.
Proof.
  intros H. assert (Q : zlen (rlinear L x) = r_outputs L) by (unfold rlinear; rewrite zlen_map, zlen_zrange'; lia).
  unfold rlayer_fun. destruct (r_activation L); try (rewrite zlen_map; exact Q). unfold rsoftmax. rewrite zlen_map. exact Q.
Qed.
Lemma zlen_rnet Ls x : Forall (fun L => 0 <= r_outputs L) Ls -> Ls <> [] -> zlen (rnet_fun Ls x) = r_outputs (last Ls (mk_rlayer 0 0 ActIdentity (fun _ _ => 0%R) (fun _ => 0%R))).
Proof.
  revert x. induction Ls as [|L r IH]; intros x F N; [congruence|]. apply Forall_cons_iff in F as [F1 F2]. unfold rnet_fun. cbn [fold_left].
  destruct r as [|L2 r]; [cbn; now apply zlen_rlayer|]. specialize (IH (rlayer_fun L x) F2 ltac:(discriminate)). unfold rnet_fun in IH. exact IH.
Qed.
Lemma pyget_last {X} (l : list X) d : l <> [] -> pyget l (-1) = Ret (last l d).
Proof.
  intros N. destruct (exists_last N) as (r & x & ->). rewrite last_last. unfold pyget. cbn [Z.ltb Z.compare].
  rewrite zlen_app. change (zlen [x]) with 1. unfold zget.
  pose proof (zlen_nonneg r). destruct (Z.ltb_spec (-1 + (zlen r + 1)) 0); [lia|]. replace (-1 + (zlen r + 1)) with (zlen r) by lia.
  unfold zlen. rewrite Nat2Z.id, nth_error_app2, Nat.sub_diag by lia. reflexivity.
Qed.
Lemma n_out_last ls d : ls <> [] -> n_out ls = py_n_out f64_arith (last ls d).
Proof. intros N. destruct (exists_last N) as (r & x & ->). unfold n_out. rewrite rev_app_distr, last_last. reflexivity. Qed.
Lemma good_nonempty nf ls : good_net nf ls -> ls <> [].
Proof. intros (H & _) ->. unfold zlen in H. cbn in H. lia. Qed.
Lemma n_out_pos nf ls : good_net nf ls -> 1 <= n_out ls.
Proof.
  intros G. pose proof (good_nonempty _ _ G) as N. destruct G as (_ & F & _). destruct (exists_last N) as (r & x & ->). unfold n_out. rewrite rev_app_distr. cbn [rev app].
  apply Forall_app in F as [_ F]. apply Forall_inv in F. apply F.
Qed.
Lemma nf_pos nf ls : good_net nf ls -> 1 <= nf.
Proof.
  intros (H & F & C). destruct ls as [|l r]; [unfold zlen in H; cbn in H; lia|]. apply Forall_inv in F. destruct F as (_ & (S1 & _) & _). destruct C as [<- _]. exact S1.
Qed.
Lemma zlen_fitted nf ls row : good_net nf ls -> zlen (fitted_net ls row) = n_out ls.
Proof.
  intros G. pose proof (good_nonempty _ _ G) as N. unfold fitted_net. rewrite zlen_rnet.
  - destruct (exists_last N) as (r & x & ->). rewrite map_app. cbn [map]. rewrite last_last. unfold n_out. rewrite rev_app_distr. reflexivity.
  - destruct G as (_ & F & _). apply Forall_map. eapply Forall_impl; [|exact F]. intros l ((P & _) & _). cbn. lia.
  - destruct ls; [congruence|discriminate].
Qed.
Lemma last_get nf ls : good_net nf ls -> exists l, pyget ls (-1) = Ret l /\ py_n_out f64_arith l = n_out ls.
Proof.
  intros G. pose proof (good_nonempty _ _ G) as N. destruct ls as [|d r]; [congruence|]. exists (last (d :: r) d). split; [now apply pyget_last|]. symmetry. now apply n_out_last.
Qed.

Section N.
Context (ef lf tf : f32 -> f32).
Notation A := (f32_arith ef lf tf).
Context (ge gl gt : R) (nf : Z) (ls : list fit_layer).
Hypothesis G : good_net nf ls.
Hypothesis LM : libm_good ge gl gt ef lf tf ls.

(** The network that was compiled, its run on a row. *)
Definition compiled (m : net A) : Prop := save_compiled ef lf tf ls = Ret m /\ net_ok A m nf /\ n_layers A m = zlen ls /\
  forall row (ws : list f32), zlen row = nf -> Forall good_number row -> arrives row ws -> row_fits ge gl gt ls row ->
    close_all (row_bound ge gl gt ls row) (fitted_net ls row) (net_fun A (n_layers_arr A m) ws).
Lemma compiled_exists : exists m, compiled m.
Proof using G LM.
  destruct (saved ef lf tf nf ls G) as (m & E & OK & NL & SH & NR & FL). exists m. split; [exact E|]. split; [exact OK|]. split; [exact NL|].
  intros row ws L GR AR FT. eapply row_close; eauto.
Qed.
Lemma layers2 m : compiled m -> 2 <= n_layers A m.
Proof using G. intros (_ & _ & -> & _). apply G. Qed.

Section Rows.
Context (X : list (list f64)).
Hypothesis FX : float_rows nf X.
Hypothesis FT : Forall (row_fits ge gl gt ls) X.
Lemma row_facts row values : In row X -> holds row values ->
  zlen row = nf /\ row_fits ge gl gt ls row /\ Forall good_number row /\
  exists ws : list f32, arrives row ws /\ zlen ws = nf /\ cast_row (@Ret f32) fzero (zlen row) values (zlen row) = Ret ws.
Proof using FX FT.
  intros I Hv. destruct FX as (_ & _ & F). rewrite Forall_forall in F, FT. destruct (F row I) as (L & GR & _). split; [exact L|]. split; [now apply FT|]. split; [exact GR|].
  exact (row_values nf row values L GR Hv).
Qed.
Lemma fit_rows : X <> [] /\ Forall good_row X /\ all_fit (map serialize_row X) /\ zlen X <= 2147483647.
Proof using FX G. apply (float_rows_fit nf); [exact FX|exact (nf_pos _ _ G)]. Qed.

(** ** Regression *)
Lemma print_close (y : R) (o : f64) (Y E : R) : (Rabs Y + E <= IZR (2 ^ 53))%R -> (Rabs (y - Y) <= E)%R -> through_decimals 6 y o -> returned Y E o.
Proof using.
  intros B C T. assert (BY : (Rabs y <= Rabs Y + E)%R).
  { replace y with (Y + (y - Y))%R by ring. eapply Rle_trans; [apply Rabs_triang|]. lra. }
  destruct (through6_f64 y o) as [F D]; [|exact T|].
  { apply Rle_trans with (IZR (2 ^ 53)); [lra|]. change (IZR (2 ^ 53)) with (bpow radix2 53). apply bpow_le. lia. }
  split; [exact F|]. change (bpow radix2 (-53)) with (/ 9007199254740992)%R in D.
  replace (B2R o - Y)%R with ((B2R o - y) + (y - Y))%R by ring. eapply Rle_trans; [apply Rabs_triang|]. lra.
Qed.
Theorem regressor_run m : compiled m -> n_out ls = 1 ->
  Forall (fun row => (Rabs (nthr (fitted_net ls row) 0) + nthr (row_bound ge gl gt ls row) 0 <= IZR (2 ^ 53))%R) X ->
  exists out, net_predict ef lf tf (NetRegressor ef lf tf m) X = Ret out /\ zlen out = zlen X /\
    forall i row, zget X i = Ret row -> exists o, zget out i = Ret (PyFloat o) /\
      returned (nthr (fitted_net ls row) 0) (nthr (row_bound ge gl gt ls row) 0) o.
Proof using FX FT G.
  intros CM N1 BD. destruct fit_rows as (NX & GX & AX & LX). pose proof (layers2 m CM) as L2. destruct CM as (_ & OK & _ & CL). cbn [net_predict].
  destruct (predict_reals (net_regress_func ef lf tf m) X (fun row y => is_finite y = true /\ (Rabs (B2R y - nthr (fitted_net ls row) 0) <= nthr (row_bound ge gl gt ls row) 0)%R) NX GX AX LX) as (out & E & L & P).
  - intros row values I Hv. destruct (row_facts row values I Hv) as (LR & FR & GR & ws & AW & LW & EC).
    pose proof (CL row ws LR GR AW FR) as C. rewrite <- LW in OK.
    destruct (regress1_close (fzero : f32) m ws _ _ OK L2 C) as (m' & y & EY & FY & D); [rewrite (zlen_fitted nf); [exact N1|exact G]|].
    exists (f64_of_f32 y). destruct (f64_of_f32_ok y FY) as [V F]. split; [|split; [exact F|split; [|split; [exact F|]]]].
    + unfold net_regress_func. rewrite EC. cbn [bind]. replace (zlen row) with (zlen ws) by lia. rewrite EY. reflexivity.
    + rewrite V. rewrite Forall_forall in BD. specialize (BD row I). cbv beta in BD.
      replace (B2R y) with (nthr (fitted_net ls row) 0 + (B2R y - nthr (fitted_net ls row) 0))%R by ring. eapply Rle_trans; [apply Rabs_triang|]. lra.
    + rewrite V. exact D.
  - exists out. split; [exact E|]. split; [exact L|]. intros i row Hr. destruct (P i row Hr) as (y & o & (FY & D) & Ho & T). exists o. split; [exact Ho|].
    rewrite Forall_forall in BD. apply (print_close (B2R y)); auto. apply BD. eapply zget_In; eauto.
Qed.

(** ** Classes *)
Definition clear_class (row : list f64) (c : Z) : Prop :=
  let Y := fitted_net ls row in let E := row_bound ge gl gt ls row in
  if n_out ls =? 1 then (c = 1 /\ (1 / 2 + nthr E 0 < nthr Y 0)%R) \/ (c = 0 /\ (nthr Y 0 < 1 / 2 - nthr E 0)%R)
  else 0 <= c < n_out ls /\ forall k, 0 <= k < n_out ls -> k <> c -> (nthr Y k + nthr E k + nthr E c < nthr Y c)%R.
Lemma err_pos m row (ws : list f32) k : compiled m -> zlen row = nf -> Forall good_number row -> arrives row ws -> row_fits ge gl gt ls row ->
  0 <= k < n_out ls -> (0 <= nthr (row_bound ge gl gt ls row) k)%R.
Proof using G.
  intros (_ & _ & _ & CL) LR GR AW FR Hk. destruct (CL row ws LR GR AW FR) as (_ & L & C). rewrite (zlen_fitted nf ls row G) in L. destruct (C k) as [_ D].
  - change (num A) with f32 in L. rewrite <- L. exact Hk.
  - eapply Rle_trans; [apply Rabs_pos|exact D].
Qed.
Theorem classes_run m : compiled m -> n_out ls <= 2 ^ 53 -> forall cs, Forall2 clear_class X cs ->
  predict (net_predict_func ef lf tf m) OutInt X = Ret (map PyInt cs).
Proof using FX FT G.
  intros CM NB cs FC. destruct fit_rows as (NX & GX & AX & LX). pose proof (layers2 m CM) as L2.
  assert (U : forall row c c', In row X -> clear_class row c -> clear_class row c' -> (exists ws, arrives row ws) -> c = c').
  { intros row c c' I H1 H2 (ws & AW). destruct FX as (_ & _ & F). rewrite Forall_forall in F, FT. destruct (F row I) as (LR & GR & _).
    assert (EP : forall k, 0 <= k < n_out ls -> (0 <= nthr (row_bound ge gl gt ls row) k)%R) by (intros k Hk; exact (err_pos m row ws k CM LR GR AW (FT row I) Hk)).
    unfold clear_class in H1, H2. destruct (Z.eqb_spec (n_out ls) 1) as [N1|N1].
    - pose proof (EP 0 ltac:(lia)). destruct H1 as [[-> H1]|[-> H1]], H2 as [[-> H2]|[-> H2]]; auto; lra.
    - destruct H1 as [B1 H1], H2 as [B2 H2]. destruct (Z.eq_dec c c') as [|N]; [assumption|]. specialize (H1 c' B2 ltac:(congruence)). specialize (H2 c B1 N).
      pose proof (EP c B1). pose proof (EP c' B2). lra. }
  pose proof (n_out_pos nf ls G) as NP. pose proof CM as CM0. destruct CM as (SV & OK & NL & CL).
  destruct (predict_classes (net_predict_func ef lf tf m) X (fun row c => clear_class row c /\ exists ws, arrives row ws) NX GX AX LX) as (out & E & L & P).
  - intros row values I Hv. destruct (row_facts row values I Hv) as (LR & FR & GR & ws & AW & LW & EC).
    pose proof (CL row ws LR GR AW FR) as C. rewrite <- LW in OK.
    destruct (In_zget X row I) as (i & Hi). destruct (Forall2_zget _ _ _ _ _ FC Hi) as (c & Hc & K). exists c. split; [|split; [|split; [exact K|eauto]]].
    + assert (Q : exists m', eml_net_predict A m ws (zlen ws) = Ret (c, m')).
      { unfold clear_class in K. pose proof (zlen_fitted nf ls row G) as ZF. destruct (Z.eqb_spec (n_out ls) 1) as [N1|N1].
        - destruct (predict1_close m ws _ _ OK L2 C) as (m' & Em & _); [congruence| |].
          + assert (0 <= nthr (row_bound ge gl gt ls row) 0)%R by (apply (err_pos m row ws 0); auto; lia).
            destruct K as [[_ K]|[_ K]]; [rewrite Rabs_right|rewrite Rabs_left]; lra.
          + exists m'. rewrite Em. assert (0 <= nthr (row_bound ge gl gt ls row) 0)%R by (apply (err_pos m row ws 0); auto; lia).
            destruct K as [[-> K]|[-> K]]; destruct (Rlt_dec (1 / 2) (nthr (fitted_net ls row) 0)); try reflexivity; exfalso; lra.
        - destruct K as [B K]. destruct (predict_close m ws _ _ c OK L2 C) as (m' & Em & _); [lia|lia| |eauto]. intros k Hk N. apply K; [lia|exact N]. }
      destruct Q as (m' & Em). unfold net_predict_func. rewrite EC. cbn [bind]. replace (zlen row) with (zlen ws) by lia. rewrite Em. reflexivity.
    + unfold clear_class in K. destruct (n_out ls =? 1); [destruct K as [[-> _]|[-> _]]; lia|lia].
  - rewrite E. f_equal. apply zget_eq; [rewrite L, zlen_map; unfold zlen; f_equal; eapply Forall2_len; eauto|]. intros i Hi. rewrite L in Hi.
    destruct (zget_ok X i Hi) as (row & Hr). destruct (P i row Hr) as (c & Hc & K & AW). destruct (Forall2_zget _ _ _ _ _ FC Hr) as (c' & Hc' & K').
    rewrite Hc, zget_map, Hc'. cbn [bind]. f_equal. f_equal. eapply U; eauto. eapply zget_In; eauto.
Qed.

(** ** Probabilities *)
Lemma proba_row_run m row values before : compiled m -> In row X -> holds row values -> zlen before = (if n_out ls =? 1 then 2 else n_out ls) ->
  exists o ws : list f32, arrives row ws /\ net_proba_func ef lf tf m (if n_out ls =? 1 then 2 else n_out ls) before values (zlen row) = Ret o /\
    o = if n_out ls <=? 2 then [fsub (f_of_Z 1) (znth (fzero : f32) (net_fun A (n_layers_arr A m) ws) 0); znth (fzero : f32) (net_fun A (n_layers_arr A m) ws) 0]
        else net_fun A (n_layers_arr A m) ws.
Proof using FX FT G.
  intros CM I Hv LB. pose proof (layers2 m CM) as L2. destruct CM as (_ & OK & _ & CL).
  destruct (row_facts row values I Hv) as (LR & FR & GR & ws & AW & LW & EC). pose proof (CL row ws LR GR AW FR) as (_ & ZL & _).
  rewrite (zlen_fitted nf ls row G) in ZL. rewrite <- LW in OK.
  eexists. exists ws. split; [exact AW|]. split; [|reflexivity].
  unfold net_proba_func. rewrite EC. cbn [bind]. replace (zlen row) with (zlen ws) by lia. rewrite <- LB.
  destruct (proba_ok A m ws before OK L2) as (m' & _ & E).
  { change (num A) with f32 in *. rewrite <- ZL. exact LB. }
  cbv zeta in E. change (num A) with f32 in *. rewrite E, <- ZL. destruct (n_out ls <=? 2); reflexivity.
Qed.
Lemma one_minus (y : f32) (Y E : R) : is_finite y = true -> (Rabs (B2R y - Y) <= E)%R -> (Rabs Y + E <= IZR (2 ^ 53))%R ->
  is_finite (fsub (f_of_Z 1) y) = true /\ (Rabs (B2R (fsub (f_of_Z 1) y) - (1 - Y)) <= E + (1 + Rabs Y + E) / 16777216)%R.
Proof using.
  intros F D B. destruct (@f_of_Z_exact 24 128 _ _ 1 ltac:(lia)) as [V1 F1].
  assert (BY : (Rabs (B2R y) <= Rabs Y + E)%R).
  { replace (B2R y) with (Y + (B2R y - Y))%R by ring. eapply Rle_trans; [apply Rabs_triang|]. lra. }
  assert (B1 : (Rabs (1 - B2R y) <= 1 + Rabs Y + E)%R).
  { unfold Rminus. eapply Rle_trans; [apply Rabs_triang|]. rewrite Rabs_Ropp, Rabs_R1. lra. }
  destruct (fsub_fadd (f_of_Z 1) y F1 F) as (F2 & eps & EP & V).
  { rewrite V1. eapply Rle_trans; [exact B1|]. apply Rle_trans with (IZR (2 ^ 54)).
    - apply Rle_trans with (1 + IZR (2 ^ 53))%R; [lra|]. change (IZR (2 ^ 53)) with 9007199254740992%R. change (IZR (2 ^ 54)) with 18014398509481984%R. lra.
    - change (IZR (2 ^ 54)) with (bpow radix2 54). apply bpow_le. lia. }
  split; [exact F2|]. rewrite V, V1. replace ((1 - B2R y) * (1 + eps) - (1 - Y))%R with (- (B2R y - Y) + (1 - B2R y) * eps)%R by ring.
  eapply Rle_trans; [apply Rabs_triang|]. rewrite Rabs_Ropp, Rabs_mult. apply Rplus_le_compat; [exact D|].
  apply Rmult_le_compat; try apply Rabs_pos; [exact B1|]. exact EP.
Qed.
(** All outputs, three or more. *)
Theorem proba_run m : compiled m -> 3 <= n_out ls ->
  Forall (fun row => forall k, 0 <= k < n_out ls -> (Rabs (nthr (fitted_net ls row) k) + nthr (row_bound ge gl gt ls row) k <= IZR (2 ^ 53))%R) X ->
  exists out, predict_proba (net_proba_func ef lf tf m (n_out ls)) (n_out ls) X = Ret out /\ zlen out = zlen X /\
    forall i row, zget X i = Ret row -> exists r, zget out i = Ret r /\ forall k, 0 <= k < n_out ls ->
      exists q, zget r k = Ret (Some q) /\ returned (nthr (fitted_net ls row) k) (nthr (row_bound ge gl gt ls row) k) q.
Proof using FX FT G.
  intros CM N3 BD. destruct fit_rows as (NX & GX & AX & LX).
  destruct (proba_rows (net_proba_func ef lf tf m (n_out ls)) (n_out ls) X (fun row o => close_all (row_bound ge gl gt ls row) (fitted_net ls row) o) ltac:(lia) NX GX AX LX) as (out & E & L & P).
  - intros row values before I Hv LB. destruct (proba_row_run m row values before CM I Hv) as (o & ws & AW & Eo & Q).
    { destruct (Z.eqb_spec (n_out ls) 1); lia. }
    destruct (Z.eqb_spec (n_out ls) 1); [lia|]. destruct (Z.leb_spec (n_out ls) 2); [lia|]. exists o. split; [exact Eo|].
    destruct (row_facts row values I Hv) as (LR & FR & GR & _). destruct CM as (_ & _ & _ & CL).
    pose proof (CL row ws LR GR AW FR) as C. rewrite Q. split; [|exact C]. destruct C as (_ & ZL & _). rewrite (zlen_fitted nf ls row G) in ZL. symmetry. exact ZL.
  - exists out. split; [exact E|]. split; [exact L|]. intros i row Hr. destruct (P i row Hr) as (r & o & R1 & C & K). exists r. split; [exact R1|]. intros k Hk.
    destruct C as (_ & ZL & C). rewrite (zlen_fitted nf ls row G) in ZL. destruct (zget_ok o k ltac:(lia)) as [p Hp].
    destruct (K k p Hk Hp) as (q & Hq & T). exists q. split; [exact Hq|].
    destruct (C k ltac:(lia)) as [F D]. rewrite (zget_znth (fzero : f32)) in Hp by lia. injection Hp as Hp. rewrite Hp in F, D.
    rewrite Forall_forall in BD. apply (print_close (B2R p)); [apply BD; [eapply zget_In; eauto|exact Hk]|exact D|exact (T F)].
Qed.
(** One or two outputs: 1 - y and y, with y the first output. *)
Theorem proba2_run m : compiled m -> n_out ls <= 2 ->
  Forall (fun row => (1 + 2 * (Rabs (nthr (fitted_net ls row) 0) + nthr (row_bound ge gl gt ls row) 0) <= IZR (2 ^ 53))%R) X ->
  exists out, predict_proba (net_proba_func ef lf tf m 2) 2 X = Ret out /\ zlen out = zlen X /\
    forall i row, zget X i = Ret row -> exists r q0 q1, zget out i = Ret r /\ zget r 0 = Ret (Some q0) /\ zget r 1 = Ret (Some q1) /\
      let Y := nthr (fitted_net ls row) 0 in let E := nthr (row_bound ge gl gt ls row) 0 in
      returned (1 - Y) (E + (1 + Rabs Y + E) / 16777216) q0 /\ returned Y E q1.
Proof using FX FT G.
  intros CM N2 BD. destruct fit_rows as (NX & GX & AX & LX). pose proof (n_out_pos nf ls G) as NP.
  assert (IF2 : (if n_out ls =? 1 then 2 else n_out ls) = 2) by (destruct (Z.eqb_spec (n_out ls) 1); lia).
  destruct (proba_rows (net_proba_func ef lf tf m 2) 2 X (fun row o => exists y : f32, o = [fsub (f_of_Z 1) y; y] /\ is_finite y = true /\
      (Rabs (B2R y - nthr (fitted_net ls row) 0) <= nthr (row_bound ge gl gt ls row) 0)%R) ltac:(lia) NX GX AX LX) as (out & E & L & P).
  - intros row values before I Hv LB. destruct (proba_row_run m row values before CM I Hv) as (o & ws & AW & Eo & Q); [rewrite IF2; exact LB|].
    rewrite IF2 in Eo. destruct (Z.leb_spec (n_out ls) 2); [|lia]. exists o. split; [exact Eo|]. rewrite Q. split; [reflexivity|].
    eexists. split; [reflexivity|]. destruct (row_facts row values I Hv) as (LR & FR & GR & _). destruct CM as (_ & _ & _ & CL).
    destruct (CL row ws LR GR AW FR) as (_ & ZL & C). rewrite (zlen_fitted nf ls row G) in ZL. apply C. change (num A) with f32 in *. lia.
  - exists out. split; [exact E|]. split; [exact L|]. intros i row Hr. destruct (P i row Hr) as (r & o & R1 & (y & -> & Fy & Dy) & K).
    destruct (K 0 _ ltac:(lia) eq_refl) as (q0 & Hq0 & T0). destruct (K 1 _ ltac:(lia) eq_refl) as (q1 & Hq1 & T1).
    exists r, q0, q1. do 3 (split; [assumption|]). cbv zeta.
    rewrite Forall_forall in BD. pose proof (BD row (zget_In _ _ _ Hr)) as B. cbv beta in B.
    set (Y := nthr (fitted_net ls row) 0) in *. set (Er := nthr (row_bound ge gl gt ls row) 0) in *.
    assert (E0 : (0 <= Er)%R) by (eapply Rle_trans; [apply Rabs_pos|exact Dy]). pose proof (Rabs_pos Y) as YP.
    destruct (one_minus y Y Er Fy Dy ltac:(lra)) as [F0 D0]. split.
    + apply (print_close (B2R (fsub (f_of_Z 1) y))); [|exact D0|exact (T0 F0)].
      assert (Rabs (1 - Y) <= 1 + Rabs Y)%R by (unfold Rminus; eapply Rle_trans; [apply Rabs_triang|]; rewrite Rabs_Ropp, Rabs_R1; lra).
      change (IZR (2 ^ 53)) with 9007199254740992%R in *. lra.
    + apply (print_close (B2R y)); [lra|exact Dy|exact (T1 Fy)].
Qed.
End Rows.
End N.
