(** Converted Gaussian mixtures: text, rows and the methods of the wrapper. *)
From Coq Require Import String ZArith List Bool Lia Reals Lra.
From Flocq Require Import Core BinarySingleNaN.
From Verif.Base Require Import Res CInt ListX Loops Float FloatOrder Arith Kernels RealSum.
From Verif.Model Require Import Common Text TreesConvert TreesC Cgen Mixture Harness TreesRun NetRun DistanceRun MixtureRun.
From Verif.Spec Require Import RealSpec NetSpec DistanceSpec MixtureSpec HarnessSpec RoundingSpec NetRunSpec StrSpec MixtureRunSpec.
From Verif.Proof Require Import Cgen Text Str FloatErr NetErr NetClose Softmax NetRunErr NetRun NetRunTop Through Harness FloatMean TreesRunTop Distance DistanceErr DistanceRun Mixture MixtureErr MixtureRun.
Import Verif.Spec.HarnessSpec ListNotations.
Open Scope Z_scope.
Open Scope res_scope.

(** ** Arguments and constants *)
Lemma not_word t v (w : list Z) c : float_text t v -> In c w -> c <> 45 -> c <> 46 -> c <> 43 -> c <> 101 -> ~ 48 <= c <= 57 -> text_eqb t w = false.
Proof.
  intros (neg & A & B & P & ex & e & -> & DA & NA & DB & X & PB & _) I N1 N2 N3 N4 N5.
  destruct (text_eqb _ w) eqn:E; [|reflexivity]. exfalso. apply text_eqb_iff in E. subst w.
  assert (DG : forall l, digit_text l -> ~ In c l) by (intros l D J; unfold digit_text in D; rewrite Forall_forall in D; specialize (D c J); lia).
  apply in_app_or in I as [I|I]; [destruct neg; [destruct I as [I|[]]; lia|destruct I]|].
  apply in_app_or in I as [I|I]; [exact (DG A DA I)|]. apply in_app_or in I as [I|I].
  - destruct PB as [->|(-> & _)]; [|destruct I]. destruct I as [I|I]; [lia|exact (DG B DB I)].
  - destruct X as [|ds D _|ds D _|ds D _]; cbn [In] in I.
    + exact I.
    + destruct I as [I|I]; [lia|exact (DG ds D I)].
    + destruct I as [I|[I|I]]; [lia|lia|exact (DG ds D I)].
    + destruct I as [I|[I|I]]; [lia|lia|exact (DG ds D I)].
Qed.
Lemma strtod_ok float_str (x : f64) : str_reads_back float_str -> is_finite x = true -> is_finite (strtod (float_str x)) = true /\ B2R (strtod (float_str x)) = B2R x.
Proof.
  intros SR F. destruct (SR x F) as (v & T & XV). change (round radix2 (SpecFloat.fexp 53 1024) ZnearestE v = B2R x) in XV.
  destruct (text_read _ v [] T I) as (s & n & k & e & rest & Hn & Hk & E1 & E2 & _ & E4). rewrite app_nil_r in E1.
  destruct (@f_of_sci_ok 53 1024 _ _ s n k e Hn Hk) as [N K]. rewrite <- E4, XV in K. rewrite clampR_in in K by (pose proof (abs_B2R_lt_emax 53 1024 x); lra).
  destruct (key_fin_eq (f_of_sci s n k e : f64) (B2R x) N (abs_B2R_lt_emax 53 1024 x) K) as [FF V].
  unfold strtod.
  rewrite (not_word _ v (txt "inf") 105 T) by (cbn; lia). rewrite (not_word _ v (txt "-inf") 105 T) by (cbn; lia). rewrite (not_word _ v (txt "nan") 97 T) by (cbn; lia).
  rewrite E1, E2. auto.
Qed.
Lemma feature_near float_str (x : f64) : str_reads_back float_str -> good_number x ->
  is_finite (f32_of_f64 (strtod (float_str x))) = true /\ (Rabs (B2R (f32_of_f64 (strtod (float_str x))) - B2R x) <= argv_err (B2R x))%R.
Proof.
  intros SR [F B]. destruct (strtod_ok float_str x SR F) as [FS VS]. destruct (f32_close (strtod (float_str x)) FS) as [FF D]; [rewrite VS; exact B|].
  split; [exact FF|]. rewrite VS in D. unfold argv_err. assert (bpow radix2 (-150) <= bpow radix2 (-140))%R by (apply bpow_le; lia). pose proof (Rabs_pos (B2R x)). lra.
Qed.
Lemma gcc_const_ok (v : f64) (k : f32) : float_const (PyFloat v) = Ret k -> gcc_float_const v = Ret k.
Proof.
  unfold float_const, gcc_float_const, gcc_float_literal, c_float_literal. intros H. apply bind_Ret in H as (t & Et & H).
  assert (Q : t = fmt_fixed 6 v ++ txt "f") by (cbv [constant] in Et; change (text_eqb (txt "float") (txt "float")) with true in Et; cbn [py_float bind] in Et; injection Et as <-; reflexivity).
  rewrite <- Q. destruct (scan_decimal t) as [[[[s n] k0] rest]|]; [|discriminate]. destruct (text_eqb rest (txt "f")); [|discriminate]. cbv zeta in H.
  destruct (is_finite _); [exact H|discriminate].
Qed.
Lemma gcc_consts (vs : list f64) : Forall good_number vs -> exists ks, mapM gcc_float_const vs = Ret ks /\ Forall2 near6 vs ks.
Proof.
  intros H. destruct (consts_good vs H) as (ks & E & N). exists ks. split; [|exact N]. apply mapM_Ret. apply mapM_Ret in E.
  clear - E. induction E; constructor; [now apply gcc_const_ok|assumption].
Qed.
Lemma near_finite vs ks : Forall2 near6 vs ks -> Forall (fun v : f32 => is_finite v = true) ks.
Proof. intros H. apply (Forall2_right _ _ _ _ H). intros a b [F _]. exact F. Qed.
Lemma print6_mono a b : (Rabs a <= Rabs b)%R -> (print6 a <= print6 b)%R.
Proof. unfold print6. lra. Qed.

(** ** Flat arrays *)
Lemma flat2 (l : list (list f64)) n i j : Forall (fun r => zlen r = n) l -> 0 <= i < zlen l -> 0 <= j < n ->
  znth (fzero : f64) (concat l) (i * n + j) = znth (fzero : f64) (znth [] l i) j.
Proof. intros F Hi Hj. exact (concat_nth (fzero : f64) l n i j F Hj Hi). Qed.
Lemma flat3 full k n c p q : full_shape k n full -> 0 <= c < k -> 0 <= p < n -> 0 <= q < n ->
  znth (fzero : f64) (concat (concat full)) (c * n * n + (p * n + q)) = e64 full c p q.
Proof.
  intros [L F] Hc Hp Hq. assert (FL : Forall (fun m => zlen m = n) full) by (eapply Forall_impl; [|exact F]; intros m [H _]; exact H).
  assert (FR : Forall (fun r : list f64 => zlen r = n) (concat full)) by (apply Forall_concat; eapply Forall_impl; [|exact F]; intros m [_ H]; exact H).
  replace (c * n * n + (p * n + q)) with ((c * n + p) * n + q) by ring. pose proof (zlen_concat_rows full n FL) as LC.
  rewrite flat2; [|exact FR|rewrite LC, L; nia|exact Hq]. unfold e64. f_equal. unfold znth at 1 2. rewrite (concat_nth [] full n c p FL Hp) by lia. reflexivity.
Qed.
Lemma full_flat_good full k n : 0 <= n -> full_shape k n full -> (forall c i j, 0 <= c < k -> 0 <= i < n -> 0 <= j < n -> good_number (e64 full c i j)) -> Forall good_number (concat (concat full)).
Proof.
  intros Hn [L F] H. rewrite Forall_forall in F. apply Forall_concat, Forall_concat. apply Forall_forall. intros m Hm. apply Forall_forall. intros r Hr. apply Forall_forall. intros v Hv.
  destruct (F m Hm) as [L1 L2]. rewrite Forall_forall in L2.
  destruct (In_zget _ _ Hm) as [c Ec]. destruct (In_zget _ _ Hr) as [i Ei]. destruct (In_zget _ _ Hv) as [j Ej].
  pose proof (zget_bound _ _ _ Ec). pose proof (zget_bound _ _ _ Ei). pose proof (zget_bound _ _ _ Ej).
  rewrite (zget_znth []) in Ec by assumption. rewrite (zget_znth []) in Ei by assumption. rewrite (zget_znth (fzero : f64)) in Ej by assumption.
  injection Ec as Ec. injection Ei as Ei. injection Ej as Ej. rewrite <- Ej. rewrite <- Ei in *. rewrite <- Ec in *. apply H; [lia|lia|]. pose proof (L2 _ Hr). lia.
Qed.

(** ** What is printed and read *)
Lemma printed_list (l : list f32) : l <> [] ->
  (let lines := split_on (Z.eqb 10) (join_with (txt ",") (map (fmt_fixed 6) l)) in
   let* line := pyget lines (-1) in mapM py_float_of_text (split_on (Z.eqb 44) line)) = Ret (map backp l).
Proof.
  intros NE. cbv zeta.
  assert (C1 : Forall (Forall (fun c => Z.eqb 44 c = false)) (map (fmt_fixed 6) l)).
  { apply Forall_map. apply Forall_forall. intros v _. destruct (fmt_any v) as [H _]. eapply Forall_impl; [|exact H]. intros c [C _]. apply Z.eqb_neq. congruence. }
  assert (C2 : Forall (fun c => Z.eqb 10 c = false) (join_with (txt ",") (map (fmt_fixed 6) l))).
  { clear NE C1. induction l as [|v l IH]; [constructor|]. cbn [map join_with].
    assert (H : Forall (fun c => Z.eqb 10 c = false) (fmt_fixed 6 v)). { destruct (fmt_any v) as [H _]. eapply Forall_impl; [|exact H]. intros c [_ C]. apply Z.eqb_neq. congruence. }
    destruct (map (fmt_fixed 6) l) eqn:E; [exact H|]. rewrite <- E in *. apply Forall_app. split; [exact H|]. apply Forall_app. split; [repeat constructor|exact IH]. }
  rewrite (split_on_none _ _ C2). unfold pyget. change (-1 <? 0) with true. cbv iota. change (zlen [join_with (txt ",") (map (fmt_fixed 6) l)]) with 1. change (-1 + 1) with 0. change (0 <? 0) with false.
  cbn [Z.to_nat nth_error bind]. change (txt ",") with [44]. rewrite (split_join (Z.eqb 44) 44 _ eq_refl) by (destruct l; [congruence|discriminate] || exact C1).
  apply mapM_Ret. clear. induction l; constructor; [apply read_backp|assumption].
Qed.
Lemma returned32 (p : f32) (Y E : R) : is_finite p = true -> (Rabs (B2R p - Y) <= E)%R -> returned Y E (backp p).
Proof.
  intros F D. pose proof (backp_through p F) as T. destruct (through6_f64 (B2R p) (backp p)) as [Fo Do]; [|exact T|].
  { pose proof (abs_B2R_lt_emax 24 128 p). apply Rle_trans with (bpow radix2 128); [lra|apply bpow_le; lia]. }
  assert (BY : (Rabs (B2R p) <= Rabs Y + E)%R) by (replace (B2R p) with (Y + (B2R p - Y))%R by ring; eapply Rle_trans; [apply Rabs_triang|]; lra).
  split; [exact Fo|]. change (bpow radix2 (-53)) with (/ 9007199254740992)%R in Do.
  replace (B2R (backp p) - Y)%R with ((B2R (backp p) - B2R p) + (B2R p - Y))%R by ring. eapply Rle_trans; [apply Rabs_triang|]. lra.
Qed.
Lemma mapM_rows {X Y} (g : X -> res Y) (l : list X) (P : X -> Y -> Prop) : (forall x, In x l -> exists y, g x = Ret y /\ P x y) ->
  exists r, mapM g l = Ret r /\ zlen r = zlen l /\ forall i x, zget l i = Ret x -> exists y, zget r i = Ret y /\ P x y.
Proof.
  intros H. assert (Q : exists r, mapM g l = Ret r /\ Forall2 P l r).
  { induction l as [|x l IH]; [exists []; split; [reflexivity|constructor]|]. destruct (H x (or_introl eq_refl)) as (y & Ey & Py). destruct IH as (r & Er & Fr); [intros z Hz; apply H; right; exact Hz|].
    exists (y :: r). split; [cbn [mapM]; rewrite Ey; cbn [bind]; rewrite Er; reflexivity|]. constructor; assumption. }
  destruct Q as (r & Er & Fr). exists r. split; [exact Er|]. split; [exact (Forall2_zlen _ _ _ Fr)|]. intros i x Hx. exact (Forall2_zget _ _ _ _ _ Fr Hx).
Qed.

(** ** numpy.argmax *)
Lemma argmax_fold (l : list f64) : forall done_ best bi, Forall (fun v : f64 => is_finite v = true) (done_ ++ l) -> zget done_ bi = Ret best ->
  (forall j v, zget done_ j = Ret v -> (B2R v <= B2R best)%R /\ (j < bi -> (B2R v < B2R best)%R)) ->
  exists best' bi', fst (fold_left (fun '(best, bi, i) v => if negb (is_nan best) && (is_nan v || fltb best v) then (v, i, i + 1) else (best, bi, i + 1)) l (best, bi, zlen done_)) = (best', bi') /\
    zget (done_ ++ l) bi' = Ret best' /\ forall j v, zget (done_ ++ l) j = Ret v -> (B2R v <= B2R best')%R /\ (j < bi' -> (B2R v < B2R best')%R).
Proof.
  induction l as [|x l IH]; intros done_ best bi F Hb Hm; cbn [fold_left].
  - exists best, bi. rewrite app_nil_r. split; [reflexivity|]. split; assumption.
  - assert (FB : is_finite best = true).
    { rewrite Forall_forall in F. apply F. apply in_or_app. left. exact (zget_In _ _ _ Hb). }
    assert (FX : is_finite x = true). { rewrite Forall_forall in F. apply F. apply in_or_app. right. left. reflexivity. }
    assert (NB : is_nan best = false) by (destruct best; try discriminate FB; reflexivity). assert (NX : is_nan x = false) by (destruct x; try discriminate FX; reflexivity).
    rewrite NB, NX. cbn [negb andb orb]. pose proof (zget_bound _ _ _ Hb) as Bb.
    replace (zlen done_ + 1) with (zlen (done_ ++ [x])) by (rewrite zlen_app; reflexivity).
    replace (done_ ++ x :: l) with ((done_ ++ [x]) ++ l) in * by (rewrite <- app_assoc; reflexivity).
    assert (ZL : zget (done_ ++ [x]) (zlen done_) = Ret x).
    { rewrite (zget_znth (fzero : f64)) by (rewrite zlen_app; change (zlen [x]) with 1; pose proof (zlen_nonneg done_); lia). unfold znth. rewrite app_nth2 by (unfold zlen; lia).
      unfold zlen. rewrite Nat2Z.id, Nat.sub_diag. reflexivity. }
    assert (ZO : forall j, 0 <= j < zlen done_ -> zget (done_ ++ [x]) j = zget done_ j).
    { intros j Hj. rewrite !(zget_znth (fzero : f64)) by (rewrite ?zlen_app; change (zlen [x]) with 1; lia). unfold znth. rewrite app_nth1 by (unfold zlen in Hj; lia). reflexivity. }
    assert (CASES : forall j v, zget (done_ ++ [x]) j = Ret v -> (0 <= j < zlen done_ /\ zget done_ j = Ret v) \/ (j = zlen done_ /\ v = x)).
    { intros j v Hv. pose proof (zget_bound _ _ _ Hv) as Bj. rewrite zlen_app in Bj. change (zlen [x]) with 1 in Bj. destruct (Z.eq_dec j (zlen done_)) as [->|NE].
      - right. split; [reflexivity|]. rewrite ZL in Hv. congruence.
      - left. split; [lia|]. rewrite <- ZO by lia. exact Hv. }
    destruct (fltb best x) eqn:L.
    + apply (fltb_iff best x FB FX) in L.
      apply IH; [exact F|exact ZL|]. intros j v Hv. destruct (CASES j v Hv) as [[Hj Hv']|[-> ->]]; [|split; [lra|lia]].
      destruct (Hm j v Hv') as [Q1 Q2]. split; [lra|]. intros _. lra.
    + assert (NL : ~ (B2R best < B2R x)%R) by (intros Q; apply (fltb_iff best x FB FX) in Q; congruence).
      apply IH; [exact F|rewrite ZO by lia; exact Hb|]. intros j v Hv. destruct (CASES j v Hv) as [[Hj Hv']|[-> ->]]; [exact (Hm j v Hv')|]. split; [lra|lia].
Qed.
Lemma np_argmax_ok (l : list f64) : l <> [] -> Forall (fun v : f64 => is_finite v = true) l -> exists b v, np_argmax l = Ret b /\ zget l b = Ret v /\
  forall j w, zget l j = Ret w -> (B2R w <= B2R v)%R /\ (j < b -> (B2R w < B2R v)%R).
Proof.
  intros NE F. destruct l as [|x l]; [congruence|]. destruct (argmax_fold l [x] x 0 F eq_refl) as (best & bi & E & Z1 & Z2).
  - intros j v Hv. pose proof (zget_bound _ _ _ Hv) as B. change (zlen [x]) with 1 in B. assert (j = 0) by lia. subst j. injection Hv as <-. split; [lra|lia].
  - exists bi, best. split; [change (zlen [x]) with 1 in E; unfold np_argmax; rewrite E; reflexivity|]. split; assumption.
Qed.

Section Wrap.
Context (float_str : f64 -> list Z) (log_det_fn : list (list (list f64)) -> Z -> list f64) (ef lf tf : f32 -> f32).
Notation A := (f32_arith ef lf tf).
Notation fn := (znth (fzero : f32)).
Context (f : fitted_gmm) (n : Z) (ge gl gd : R).
Notation k := (zlen (gm_means f)).
Hypothesis SR : str_reads_back float_str.
Hypothesis G : good_gmm k n f.
Hypothesis EF : expf_ok (ef:=ef) ge.
Hypothesis GE : (0 <= ge <= / 4)%R.
Hypothesis LF : logf_ok (lf:=lf) gl.

Lemma first_row : exists r, pyget (gm_means f) 0 = Ret r /\ zlen r = n.
Proof using G.
  destruct G as (K1 & _ & _ & _ & F & _). destruct (zget_ok (gm_means f) 0 ltac:(lia)) as [r Hr]. exists r. split; [exact (pyget_zget _ _ _ Hr)|].
  rewrite Forall_forall in F. exact (F r (zget_In _ _ _ Hr)).
Qed.
Definition is_wrapper (w : gmm_wrapper) : Prop := exists full, full_shape k n full /\
  (forall c i j, 0 <= c < k -> 0 <= i < n -> 0 <= j < n -> good_number (e64 full c i j) /\ B2R (e64 full c i j) = chol_at f c i j) /\
  w = mk_wrapper (gm_means f) full (log_det_fn full n) (gm_log_weights f).
Lemma init_ok classifier : exists w, gmm_init log_det_fn classifier f = Ret w /\ is_wrapper w.
Proof using G.
  destruct (convert64 k n f G) as (p & full & E1 & E2 & FS & EN). destruct first_row as (r & Er & Lr).
  eexists. split; [|exists full; split; [exact FS|split; [exact EN|reflexivity]]].
  unfold gmm_init. rewrite Er. cbn [bind]. rewrite E1. cbn [bind]. rewrite Lr. cbv zeta. rewrite E2. reflexivity.
Qed.

(** What the compiled program holds. *)
Definition holds_model (m : mixture A) (dets : list f64) : Prop := exists (ms qs lds lws : list f32) full, full_shape k n full /\
  (forall c i j, 0 <= c < k -> 0 <= i < n -> 0 <= j < n -> good_number (e64 full c i j) /\ B2R (e64 full c i j) = chol_at f c i j) /\
  m = mk_mixture A k n CovFull ms qs lds lws /\ Forall2 near6 (concat (gm_means f)) ms /\ Forall2 near6 (concat (concat full)) qs /\
  Forall2 near6 dets lds /\ Forall2 near6 (gm_log_weights f) lws.
Lemma dets_good row dets : log_dets_good f row gd dets -> Forall good_number dets.
Proof using.
  intros [L D]. apply Forall_forall. intros v Hv. destruct (In_zget _ _ Hv) as [c Ec]. pose proof (zget_bound _ _ _ Ec) as Hc. rewrite (zget_znth (fzero : f64)) in Ec by exact Hc. injection Ec as <-.
  destruct (D c ltac:(lia)) as (F & N & B). split; [exact F|]. unfold znth. set (x := B2R (nth _ _ _)) in *.
  replace x with (log_det_at f row c + (x - log_det_at f row c))%R by ring. eapply Rle_trans; [apply Rabs_triang|]. lra.
Qed.
Lemma built w row : is_wrapper w -> log_dets_good f row gd (w_log_det w) -> exists m, build_executable ef lf tf w = Ret m /\ holds_model m (w_log_det w).
Proof using G.
  intros (full & FS & EN & ->) DG. cbn [w_log_det] in *. destruct first_row as (r & Er & Lr).
  pose proof (dets_good row _ DG) as GD. pose proof G as (K1 & N1 & _ & _ & FM & _ & _ & _ & LW & GM & _ & GW).
  destruct (gcc_consts (concat (gm_means f)) ltac:(now apply Forall_concat)) as (ms & E1 & F1).
  destruct (gcc_consts _ GD) as (lds & E2 & F2). destruct (gcc_consts _ GW) as (lws & E3 & F3).
  destruct (gcc_consts (concat (concat full)) ltac:(apply (full_flat_good full k n); [lia|exact FS|intros; now apply EN])) as (qs & E4 & F4).
  exists (mk_mixture A k n CovFull ms qs lds lws). split; [|exists ms, qs, lds, lws, full; split; [exact FS|split; [exact EN|split; [reflexivity|auto]]]].
  unfold build_executable. cbn [w_means w_precisions_col w_log_det w_log_weights]. rewrite Er. cbn [bind]. rewrite Lr.
  rewrite (zlen_concat_rows _ n FM), Z.eqb_refl. cbn [py_assert bind]. rewrite E1. cbn [bind]. rewrite E2. cbn [bind]. rewrite E4. cbn [bind]. rewrite E3. reflexivity.
Qed.

(** One row *)
Definition row_ok (dets : list f64) (row : list f64) : Prop :=
  zlen row = n /\ Forall good_number row /\ mixture_fits f row ge gl gd /\ log_dets_good f row gd dets.
Definition feats (row : list f64) : list f32 := map (fun a => f32_of_f64 (strtod a)) (map float_str row).
Lemma znth_map {X Y} (g : X -> Y) l dx dy i : 0 <= i < zlen l -> znth dy (map g l) i = g (znth dx l i).
Proof using. intros H. exact (nthmap g l dx dy i H). Qed.
Theorem row_run m dets row : holds_model m dets -> row_ok dets row -> exists (outs : list f32) (s : f32),
  exec_score A log_density_c m (feats row) = Ret (outs, s) /\
  exec_predict_proba A log_density_c m (feats row) = Ret (map (fun v => ef (fsub v s)) outs) /\ zlen outs = k /\
  (is_finite s = true /\ (Rabs (B2R s - ln (fitted_total f row)) <= score_bound f row ge gl gd)%R) /\
  (forall c, 0 <= c < k -> is_finite (fn outs c) = true /\ (Rabs (B2R (fn outs c) - ln (fitted_weighted f row c)) <= component_err f row gd c)%R) /\
  (forall c, 0 <= c < k -> is_finite (ef (fsub (fn outs c) s)) = true /\ (Rabs (B2R (ef (fsub (fn outs c) s)) - posterior f row c) <= proba_bound f row ge gl gd)%R).
Proof using SR G EF GE LF.
  intros (ms & qs & lds & lws & full & FS & EN & -> & NM & NQ & ND & NW) (LR & GR & FIT & DG).
  pose proof G as (K1 & N1 & B1 & _ & LM & _ & _ & _ & LW & _ & _ & _).
  assert (G' : good_gmm k (zlen row) f) by (rewrite LR; exact G).
  assert (X1 : zlen (feats row) = n) by (unfold feats; rewrite !zlen_map; exact LR).
  assert (X2 : zlen ms = k * n) by (rewrite (Forall2_zlen _ _ _ NM); apply zlen_concat_rows; exact LM).
  assert (X3 : zlen qs = k * n * n).
  { rewrite (Forall2_zlen _ _ _ NQ). destruct FS as [L F]. rewrite (zlen_concat_rows (concat full) n), (zlen_concat_rows full n), L; [reflexivity|..].
    - eapply Forall_impl; [|exact F]. intros x [H _]. exact H.
    - apply Forall_concat. eapply Forall_impl; [|exact F]. intros x [_ H]. exact H. }
  assert (X4 : zlen lds = k) by (rewrite (Forall2_zlen _ _ _ ND); apply DG).
  assert (X5 : zlen lws = k) by (rewrite (Forall2_zlen _ _ _ NW); exact LW).
  assert (FX : Forall (fun v : f32 => is_finite v = true) (feats row)).
  { unfold feats. rewrite map_map. apply Forall_map. eapply Forall_impl; [|exact GR]. intros x Hx. cbv beta. now apply feature_near. }
  exists (f_outs log_density_c k n ms qs lds lws (feats row)), (offset ef lf tf true (f_outs log_density_c k n ms qs lds lws (feats row))).
  split; [apply exec_score_run; assumption|]. split; [apply exec_proba_run; assumption|]. split; [apply zlen_outs; exact K1|].
  assert (HX : forall p, 0 <= p < zlen row -> (Rabs (r_x (feats row) p - x_at row p) <= argv_err (x_at row p))%R).
  { intros p Hp. unfold r_x, x_at, feats. rewrite map_map. rewrite vec64. rewrite (znth_map _ row (fzero : f64)) by exact Hp.
    apply feature_near; [exact SR|]. exact (Forall_znth _ (fzero : f64) row p GR Hp). }
  assert (HM : forall c p, 0 <= c < k -> 0 <= p < zlen row -> (Rabs (r_m (zlen row) ms c p - mean_at f c p) <= print6 (mean_at f c p))%R).
  { rewrite LR. intros c p Hc Hp. unfold r_m, mean_at. rewrite mat64 by exact Hc.
    pose proof (Forall2_znth _ _ _ (fzero : f64) (fzero : f32) (c * n + p) NM) as [_ Q]; [rewrite (zlen_concat_rows _ n LM); nia|].
    rewrite (flat2 (gm_means f) n c p LM Hc Hp) in Q. exact Q. }
  assert (HQ : forall c p q, 0 <= c < k -> 0 <= p < zlen row -> 0 <= q < zlen row -> (Rabs (r_q (zlen row) qs c p q - chol_at f c p q) <= print6 (chol_at f c p q))%R).
  { rewrite LR. intros c p q Hc Hp Hq. unfold r_q. rewrite <- (proj2 (EN c p q Hc Hp Hq)).
    pose proof (Forall2_znth _ _ _ (fzero : f64) (fzero : f32) (c * n * n + (p * n + q)) NQ) as [_ Q].
    - rewrite <- (Forall2_zlen _ _ _ NQ), X3. assert (p * n + q < n * n) by nia. assert (c * n * n + n * n <= k * n * n) by nia. nia.
    - rewrite (flat3 full k n c p q FS Hc Hp Hq) in Q. exact Q. }
  assert (HD : forall c, 0 <= c < k -> (Rabs (B2R (fn lds c) - log_det_at f row c) <= det_off f row gd c)%R).
  { intros c Hc. destruct DG as [LD DG]. destruct (DG c Hc) as (_ & D1 & _).
    pose proof (Forall2_znth _ _ _ (fzero : f64) (fzero : f32) c ND ltac:(lia)) as [_ D2]. unfold znth in D2 at 2 3.
    set (a := B2R (nth (Z.to_nat c) dets (fzero : f64))) in *. set (b := B2R (fn lds c)) in *. unfold det_off.
    assert (PM : (print6 a <= print6 (Rabs (log_det_at f row c) + gd))%R).
    { apply print6_mono. rewrite (Rabs_pos_eq (Rabs (log_det_at f row c) + gd)) by (pose proof (Rabs_pos (log_det_at f row c)); pose proof (Rabs_pos (a - log_det_at f row c)); lra).
      replace a with (log_det_at f row c + (a - log_det_at f row c))%R by ring. eapply Rle_trans; [apply Rabs_triang|]. lra. }
    replace (b - log_det_at f row c)%R with ((b - a) + (a - log_det_at f row c))%R by ring. eapply Rle_trans; [apply Rabs_triang|]. lra. }
  assert (HW : forall c, 0 <= c < k -> (Rabs (B2R (fn lws c) - weight_at f c) <= print6 (weight_at f c))%R).
  { intros c Hc. unfold weight_at. rewrite vec64. exact (proj2 (Forall2_znth _ _ _ (fzero : f64) (fzero : f32) c NW ltac:(lia))). }
  rewrite <- LR in X1, X2, X3 |- *.
  pose proof (outputs_near ef lf tf f row ge gl gd (feats row) ms qs lds lws G' X1 X2 X3 X4 X5 FX (near_finite _ _ NM) (near_finite _ _ NQ) (near_finite _ _ ND) (near_finite _ _ NW)
    HX HM HQ HD HW EF GE LF FIT) as [S P]. cbv zeta in S, P.
  split; [exact S|]. split; [|exact P].
  intros c Hc. destruct (outs_near lf f row ge gl gd (feats row) ms qs lds lws G' X1 X2 X3 X4 X5 FX (near_finite _ _ NM) (near_finite _ _ NQ) (near_finite _ _ ND) (near_finite _ _ NW)
    HX HM HQ HD HW GE LF FIT c Hc) as (F1 & D1 & _). split; assumption.
Qed.

Lemma outs_nonempty (outs : list f32) : zlen outs = k -> outs <> [].
Proof using G. intros L E. subst outs. change (zlen (@nil f32)) with 0 in L. destruct G as (K1 & _). lia. Qed.
Lemma proba_row m dets row : holds_model m dets -> row_ok dets row ->
  exists ps, gmm_predict_one float_str ef lf tf m OutProba row = Ret ps /\ zlen ps = k /\
    forall c, 0 <= c < k -> exists o, zget ps c = Ret o /\ returned (posterior f row c) (proba_bound f row ge gl gd) o.
Proof using SR G EF GE LF.
  intros HM RO. destruct (row_run m dets row HM RO) as (outs & s & _ & E & L & _ & _ & P). pose proof (outs_nonempty outs L) as NE.
  exists (map backp (map (fun v => ef (fsub v s)) outs)). split; [|split; [rewrite !zlen_map; exact L|]].
  - unfold gmm_predict_one, gmm_main. cbv zeta. change (map (fun a => f32_of_f64 (strtod a)) (map float_str row)) with (feats row). rewrite E. cbn [bind].
    apply printed_list. destruct outs; [congruence|discriminate].
  - intros c Hc. exists (backp (ef (fsub (fn outs c) s))). split.
    + rewrite zget_map, zget_map. rewrite (zget_znth (fzero : f32)) by lia. reflexivity.
    + destruct (P c Hc) as [F D]. now apply returned32.
Qed.
Lemma logproba_row m dets row : holds_model m dets -> row_ok dets row ->
  exists ps, gmm_predict_one float_str ef lf tf m OutLogProba row = Ret ps /\ zlen ps = k /\
    forall c, 0 <= c < k -> exists o, zget ps c = Ret o /\ returned (ln (fitted_weighted f row c)) (component_err f row gd c) o.
Proof using SR G EF GE LF.
  intros HM RO. destruct (row_run m dets row HM RO) as (outs & s & E & _ & L & _ & P & _). pose proof (outs_nonempty outs L) as NE.
  exists (map backp outs). split; [|split; [rewrite !zlen_map; exact L|]].
  - unfold gmm_predict_one, gmm_main. cbv zeta. change (map (fun a => f32_of_f64 (strtod a)) (map float_str row)) with (feats row). rewrite E. cbn [bind].
    apply printed_list. exact NE.
  - intros c Hc. exists (backp (fn outs c)). split.
    + rewrite zget_map. rewrite (zget_znth (fzero : f32)) by lia. reflexivity.
    + destruct (P c Hc) as [F D]. now apply returned32.
Qed.
Lemma score_row m dets row : holds_model m dets -> row_ok dets row ->
  exists o, gmm_predict_one float_str ef lf tf m OutScore row = Ret [o] /\ returned (ln (fitted_total f row)) (score_bound f row ge gl gd) o.
Proof using SR G EF GE LF.
  intros HM RO. destruct (row_run m dets row HM RO) as (outs & s & E & _ & _ & [F D] & _). exists (backp s). split; [|now apply returned32].
  unfold gmm_predict_one, gmm_main. cbv zeta. change (map (fun a => f32_of_f64 (strtod a)) (map float_str row)) with (feats row). rewrite E. cbn [bind].
  apply (printed_list [s]). discriminate.
Qed.

Context (w : gmm_wrapper) (X : list (list f64)).
Hypothesis IW : is_wrapper w.
Hypothesis NX : X <> [].
Hypothesis RX : Forall (row_ok (w_log_det w)) X.
Lemma program : exists m, build_executable ef lf tf w = Ret m /\ holds_model m (w_log_det w).
Proof using G IW NX RX. destruct X as [|row X']; [congruence|]. apply Forall_inv in RX. apply (built w row IW). apply RX. Qed.
Theorem proba_run : exists out, gmm_predict_proba float_str ef lf tf w X = Ret out /\ zlen out = zlen X /\
  forall i row, zget X i = Ret row -> exists ps, zget out i = Ret ps /\ zlen ps = k /\
    forall c, 0 <= c < k -> exists o, zget ps c = Ret o /\ returned (posterior f row c) (proba_bound f row ge gl gd) o.
Proof using SR G EF GE LF IW NX RX.
  destruct program as (m & E & HM). unfold gmm_predict_proba, gmm_run. rewrite E. cbn [bind]. apply mapM_rows. intros row I. rewrite Forall_forall in RX. exact (proba_row m _ row HM (RX row I)).
Qed.
Theorem logproba_run : exists out, gmm_predict_log_proba float_str ef lf tf w X = Ret out /\ zlen out = zlen X /\
  forall i row, zget X i = Ret row -> exists ps, zget out i = Ret ps /\ zlen ps = k /\
    forall c, 0 <= c < k -> exists o, zget ps c = Ret o /\ returned (ln (fitted_weighted f row c)) (component_err f row gd c) o.
Proof using SR G EF GE LF IW NX RX.
  destruct program as (m & E & HM). unfold gmm_predict_log_proba, gmm_run. rewrite E. cbn [bind]. apply mapM_rows. intros row I. rewrite Forall_forall in RX. exact (logproba_row m _ row HM (RX row I)).
Qed.
Theorem score_run : exists out, gmm_score_samples float_str ef lf tf w X = Ret out /\ zlen out = zlen X /\
  forall i row, zget X i = Ret row -> exists o, zget out i = Ret o /\ returned (ln (fitted_total f row)) (score_bound f row ge gl gd) o.
Proof using SR G EF GE LF IW NX RX.
  destruct program as (m & E & HM). unfold gmm_score_samples, gmm_run. rewrite E. cbn [bind]. rewrite Forall_forall in RX.
  destruct (mapM_rows (gmm_predict_one float_str ef lf tf m OutScore) X (fun row ps => exists o, ps = [o] /\ returned (ln (fitted_total f row)) (score_bound f row ge gl gd) o)) as (r & Er & Lr & Pr).
  { intros row I. destruct (score_row m _ row HM (RX row I)) as (o & Eo & Ro). exists [o]. eauto. }
  rewrite Er. cbn [bind]. destruct r as [|p r]; [destruct X; [congruence|rewrite zlen_cons in Lr; change (zlen (@nil (list f64))) with 0 in Lr; pose proof (zlen_nonneg l0); lia]|].
  destruct (mapM_rows (fun r0 : list f64 => pyget r0 0) (p :: r) (fun ps o => zget ps 0 = Ret o)) as (out & Eo & Lo & Po).
  { intros ps I. destruct (In_zget _ _ I) as [i Hi]. pose proof (zget_bound _ _ _ Hi) as B. destruct (zget_ok X i ltac:(lia)) as [row Hr]. destruct (Pr i row Hr) as (ps' & Hp & o & -> & _).
    assert (ps = [o]) by congruence. subst ps. exists o. split; reflexivity. }
  exists out. split; [exact Eo|]. split; [lia|]. intros i row Hr. destruct (Pr i row Hr) as (ps & Hp & o & -> & Ro). destruct (Po i _ Hp) as (o' & Ho & Eq). injection Eq as <-. eauto.
Qed.
Lemma posterior_range row c : zlen row = n -> 0 <= c < k -> (0 <= posterior f row c <= 1)%R.
Proof using G.
  intros LR Hc. assert (G' : good_gmm k (zlen row) f) by (rewrite LR; exact G). unfold posterior.
  pose proof (wpos f row G' c Hc) as P1. assert (PS : forall j, 0 <= j < k -> (0 <= fitted_weighted f row j)%R) by (intros j Hj; apply Rlt_le, (wpos f row G' j Hj)).
  assert (L : (fitted_weighted f row c <= fitted_total f row)%R).
  { unfold fitted_total, total. rewrite zlen_map. apply (sumr_le1 k (fitted_weighted f row) c Hc PS). }
  split; [apply Rmult_le_pos; [lra|left; apply Rinv_0_lt_compat; lra]|]. apply Rmult_le_reg_r with (fitted_total f row); [lra|]. unfold Rdiv. rewrite Rmult_assoc, Rinv_l by lra. lra.
Qed.
Theorem predict_run : exists out, gmm_predict float_str ef lf tf w X = Ret out /\ zlen out = zlen X /\
  forall i row, zget X i = Ret row -> exists b, zget out i = Ret b /\ 0 <= b < k /\
    forall c, 0 <= c < k -> (posterior f row c <= posterior f row b + 2 * (proba_bound f row ge gl gd + 1 / 1000000))%R.
Proof using SR G EF GE LF IW NX RX.
  destruct proba_run as (pr & Ep & Lp & Pp). unfold gmm_predict. rewrite Ep. cbn [bind]. rewrite Forall_forall in RX.
  destruct pr as [|p0 r0]; [exfalso; destruct X as [|x X']; [congruence|rewrite zlen_cons in Lp; change (zlen (@nil (list f64))) with 0 in Lp; pose proof (zlen_nonneg X'); lia]|]. set (pr := p0 :: r0) in *. clearbody pr. clear p0 r0.
  pose proof G as (K1 & _).
  destruct (mapM_rows np_argmax pr (fun ps b => exists v, zget ps b = Ret v /\ forall j u, zget ps j = Ret u -> (B2R u <= B2R v)%R)) as (out & Eo & Lo & Po).
  { intros ps I. destruct (In_zget _ _ I) as [i Hi]. pose proof (zget_bound _ _ _ Hi) as B. destruct (zget_ok X i ltac:(lia)) as [row Hr]. destruct (Pp i row Hr) as (ps' & Hp & Lps & Q).
    assert (ps' = ps) by congruence. subst ps'.
    destruct (np_argmax_ok ps) as (b & v & Eb & Zb & Mb).
    - intros ->. change (zlen (@nil f64)) with 0 in Lps. lia.
    - apply Forall_forall. intros v Iv. destruct (In_zget _ _ Iv) as [c Hv]. pose proof (zget_bound _ _ _ Hv) as Bc. destruct (Q c ltac:(lia)) as (o & Ho & Fo & _). congruence.
    - exists b. split; [exact Eb|]. exists v. split; [exact Zb|]. intros j u Hu. exact (proj1 (Mb j u Hu)). }
  exists out. split; [exact Eo|]. split; [lia|]. intros i row Hr. destruct (Pp i row Hr) as (ps & Hp & Lps & Q). destruct (Po i ps Hp) as (b & Hb & v & Zv & Mx).
  pose proof (zget_bound _ _ _ Zv) as Bb. exists b. split; [exact Hb|]. split; [lia|]. intros c Hc.
  destruct (RX row (zget_In _ _ _ Hr)) as (LR & _). pose proof (posterior_range row c LR Hc) as R1. pose proof (posterior_range row b LR ltac:(lia)) as R2.
  destruct (Q c Hc) as (o & Ho & _ & D1). destruct (Q b ltac:(lia)) as (o2 & Ho2 & _ & D2). assert (o2 = v) by congruence. subst o2. pose proof (Mx c o Ho) as LE.
  rewrite (Rabs_pos_eq (posterior f row c)) in D1 by lra. rewrite (Rabs_pos_eq (posterior f row b)) in D2 by lra.
  set (E := proba_bound f row ge gl gd) in *. set (pc := posterior f row c) in *. set (pb := posterior f row b) in *. apply Rabs_le_inv in D1. apply Rabs_le_inv in D2.
  destruct (Rle_lt_dec E 1); lra.
Qed.
End Wrap.

(** ** What is not accepted *)
Lemma mapM_one_err {X Y} (g : X -> res Y) e l : (forall x, In x l -> (exists y, g x = Ret y) \/ g x = Err e) -> Exists (fun x => g x = Err e) l -> mapM g l = Err e.
Proof.
  induction l as [|x l IH]; intros H E; [inversion E|]. cbn [mapM]. destruct (H x (or_introl eq_refl)) as [[y Ey]|Ex]; [|rewrite Ex; reflexivity].
  rewrite Ey. cbn [bind]. rewrite IH; [reflexivity|intros z Hz; apply H; right; exact Hz|]. inversion E as [? ? Q|? ? Q]; subst; [congruence|exact Q].
Qed.
Lemma mapM_either {X Y} (g : X -> res Y) e l : (forall x, In x l -> (exists y, g x = Ret y) \/ g x = Err e) -> (exists r, mapM g l = Ret r) \/ mapM g l = Err e.
Proof.
  induction l as [|x l IH]; intros H; [left; exists []; reflexivity|]. cbn [mapM]. destruct (H x (or_introl eq_refl)) as [[y Ey]|Ex]; [|rewrite Ex; right; reflexivity].
  rewrite Ey. cbn [bind]. destruct IH as [[r Er]|Er]; [intros z Hz; apply H; right; exact Hz| |]; rewrite Er; [left; eexists; reflexivity|right; reflexivity].
Qed.
Lemma gcc_either (v : f64) : (exists k, gcc_float_const v = Ret k) \/ gcc_float_const v = Err CompileError.
Proof.
  unfold gcc_float_const, gcc_float_literal. destruct (scan_decimal _) as [[[[s n] k] rest]|]; [|right; reflexivity].
  destruct (text_eqb rest _); [left; eexists; reflexivity|right; reflexivity].
Qed.
Lemma gcc_not_finite (v : f64) : is_finite v = false -> gcc_float_const v = Err CompileError.
Proof. destruct v as [s|[]| |s m e B]; try discriminate; intros _; reflexivity. Qed.
Lemma not_finite float_str ef lf tf w X m0 : pyget (w_means w) 0 = Ret m0 -> Forall (fun r => zlen r = zlen m0) (w_means w) ->
  Exists (fun v : f64 => is_finite v = false) (concat (w_means w) ++ w_log_det w ++ concat (concat (w_precisions_col w)) ++ w_log_weights w) ->
  gmm_score_samples float_str ef lf tf w X = Err CompileError /\ gmm_predict_log_proba float_str ef lf tf w X = Err CompileError /\
  gmm_predict_proba float_str ef lf tf w X = Err CompileError /\ gmm_predict float_str ef lf tf w X = Err CompileError.
Proof.
  intros E F NF. assert (B : build_executable ef lf tf w = Err CompileError).
  { unfold build_executable. rewrite E. cbn [bind]. rewrite (zlen_concat_rows _ _ F), Z.eqb_refl. cbn [py_assert bind].
    assert (EI : forall l, (exists r, mapM gcc_float_const l = Ret r) \/ mapM gcc_float_const l = Err CompileError) by (intros l; apply mapM_either; intros; apply gcc_either).
    assert (BAD : forall l, Exists (fun v : f64 => is_finite v = false) l -> mapM gcc_float_const l = Err CompileError).
    { intros l H. apply mapM_one_err; [intros; apply gcc_either|]. eapply Exists_impl; [|exact H]. intros v. apply gcc_not_finite. }
    destruct (EI (concat (w_means w))) as [[ms E1]|E1]; rewrite E1; cbn [bind]; [|reflexivity].
    destruct (EI (w_log_det w)) as [[lds E2]|E2]; rewrite E2; cbn [bind]; [|reflexivity].
    destruct (EI (concat (concat (w_precisions_col w)))) as [[qs E3]|E3]; rewrite E3; cbn [bind]; [|reflexivity].
    destruct (EI (w_log_weights w)) as [[lws E4]|E4]; rewrite E4; cbn [bind]; [|reflexivity].
    exfalso. repeat (apply Exists_app in NF as [NF|NF]; [apply BAD in NF; congruence|]). apply BAD in NF. congruence. }
  unfold gmm_score_samples, gmm_predict_log_proba, gmm_predict, gmm_predict_proba, gmm_run. rewrite B. auto.
Qed.
Lemma wrong_columns float_str log_det_fn ef lf tf k n f classifier X x : good_gmm k n f -> In x X -> zlen x <> n ->
  exists w, gmm_init log_det_fn classifier f = Ret w /\
  (zlen (w_log_det w) = k -> Forall good_number (w_log_det w) ->
   gmm_score_samples float_str ef lf tf w X = Err RuntimeError_ /\ gmm_predict_log_proba float_str ef lf tf w X = Err RuntimeError_ /\
   gmm_predict_proba float_str ef lf tf w X = Err RuntimeError_ /\ gmm_predict float_str ef lf tf w X = Err RuntimeError_).
Proof.
  intros G I N. assert (K : k = zlen (gm_means f)) by (symmetry; apply G). subst k. set (k := zlen (gm_means f)) in *.
  destruct (init_ok log_det_fn f n G classifier) as (w & E & full & FS & EN & EW). exists w. split; [exact E|]. intros LD GD.
  pose proof G as (K1 & N1 & B1 & _ & FM & _ & _ & _ & LW & GM & _ & GW).
  destruct (first_row f n G) as (r & Er & Lr).
  destruct (gcc_consts (concat (gm_means f)) ltac:(now apply Forall_concat)) as (ms & E1 & F1).
  destruct (gcc_consts _ GD) as (lds & E2 & F2). destruct (gcc_consts _ GW) as (lws & E3 & F3).
  destruct (gcc_consts (concat (concat full)) ltac:(apply (full_flat_good full k n); [lia|exact FS|intros; now apply EN])) as (qs & E4 & F4).
  assert (B : build_executable ef lf tf w = Ret (mk_mixture (f32_arith ef lf tf) k n CovFull ms qs lds lws)).
  { unfold build_executable. rewrite EW in *. cbn [w_means w_precisions_col w_log_det w_log_weights] in *. rewrite Er. cbn [bind]. rewrite Lr.
    rewrite (zlen_concat_rows _ n FM), Z.eqb_refl. cbn [py_assert bind]. rewrite E1. cbn [bind]. rewrite E2. cbn [bind]. rewrite E4. cbn [bind]. rewrite E3. reflexivity. }
  assert (X2 : zlen ms = k * n) by (rewrite (Forall2_zlen _ _ _ F1); apply zlen_concat_rows; exact FM).
  assert (X3 : zlen qs = k * n * n).
  { rewrite (Forall2_zlen _ _ _ F4). destruct FS as [L F]. rewrite (zlen_concat_rows (concat full) n), (zlen_concat_rows full n); [rewrite L; reflexivity| |].
    - eapply Forall_impl; [|exact F]. intros a [H _]. exact H.
    - apply Forall_concat. eapply Forall_impl; [|exact F]. intros a [_ H]. exact H. }
  assert (X4 : zlen lds = k) by (rewrite (Forall2_zlen _ _ _ F2); exact LD). assert (X5 : zlen lws = k) by (rewrite (Forall2_zlen _ _ _ F3); exact LW).
  assert (R : forall out, mapM (gmm_predict_one float_str ef lf tf (mk_mixture (f32_arith ef lf tf) k n CovFull ms qs lds lws) out) X = Err RuntimeError_).
  { intros out. assert (WR : forall row : list f64, zlen row <> n -> gmm_predict_one float_str ef lf tf (mk_mixture (f32_arith ef lf tf) k n CovFull ms qs lds lws) out row = Err RuntimeError_).
    { intros row HR. unfold gmm_predict_one, gmm_main. cbv zeta. set (x0 := map (fun a => f32_of_f64 (strtod a)) (map float_str row)).
      assert (LX : (zlen x0 =? n) = false) by (apply Z.eqb_neq; unfold x0; rewrite !zlen_map; exact HR).
      unfold exec_score, exec_predict_proba. cbn [m_n_features]. change (num (f32_arith ef lf tf)) with f32. rewrite LX. cbn [negb]. destruct out; reflexivity. }
    apply mapM_one_err.
    2:{ apply Exists_exists. exists x. split; [exact I|]. now apply WR. }
    intros row _. destruct (Z.eq_dec (zlen row) n) as [HR|HR]; [left|right; now apply WR].
    unfold gmm_predict_one, gmm_main. cbv zeta. set (x0 := map (fun a => f32_of_f64 (strtod a)) (map float_str row)).
    assert (LX : zlen x0 = n) by (unfold x0; rewrite !zlen_map; exact HR).
    pose proof (exec_score_run ef lf tf log_density_c k n ms qs lds lws x0 K1 N1 B1 LX X2 X3 X4 X5) as ES.
    pose proof (exec_proba_run ef lf tf log_density_c k n ms qs lds lws x0 K1 N1 B1 LX X2 X3 X4 X5) as EP.
    pose proof (zlen_outs log_density_c k n ms qs lds lws x0 K1) as LO.
    assert (NE : f_outs log_density_c k n ms qs lds lws x0 <> []) by (intros Q; rewrite Q in LO; change (zlen (@nil f32)) with 0 in LO; lia).
    set (outs := f_outs log_density_c k n ms qs lds lws x0) in *.
    destruct out; [rewrite ES|rewrite ES|rewrite EP]; cbn [bind]; eexists.
    - apply (printed_list [offset ef lf tf true outs]). discriminate.
    - apply printed_list. exact NE.
    - apply printed_list. destruct outs; [congruence|discriminate]. }
  unfold gmm_score_samples, gmm_predict_log_proba, gmm_predict, gmm_predict_proba, gmm_run. rewrite B. cbn [bind]. rewrite !R. auto.
Qed.
