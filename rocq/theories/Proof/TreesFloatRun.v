(** predict() and predict_proba(): float features, and agreement with scikit-learn. *)
From Coq Require Import String ZArith List Bool Lia Reals Lra.
From Flocq Require Import Core BinarySingleNaN.
From Verif.Base Require Import Res CInt ListX Float FloatOrder Loops Arith RealSum.
From Verif.Model Require Import Common Text TreesConvert TreesC TreesInline TreesWrapper Cgen Harness TreesRun.
From Verif.Spec Require Import TreesSpec TreesCSpec VoteSpec ClassifierSpec CgenSpec HarnessSpec RunSpec RealSpec.
From Verif.Proof Require Import Text Cgen TreesFlatten TreesForest TreesLeaves TreesWalk Vote TreesEnd TreesHard
  Quantize TreesSoft TreesNodes TreesTop TreesApi TreesRegress TreesMisc TreesInlineRun Harness RunRows Through FloatMean TreesRun TreesRegRun TreesRunTop.
Import Verif.Spec.HarnessSpec ListNotations.
Open Scope Z_scope.
Open Scope res_scope.

(** ** Decisions *)
Lemma reaches_ext (t : sktree pynum (list f64)) go1 go2 i row :
  (forall f th, decision t f th -> go1 f th = go2 f th) -> sk_reaches t go1 i row -> sk_reaches t go2 i row.
Proof.
  intros H R. induction R as [i v L R V|i l r f th v L R N F T Hr IH].
  - now apply sk_reaches_leaf.
  - eapply sk_reaches_node; eauto. rewrite <- (H f th); [exact IH|]. exists i, l, r. auto.
Qed.
Lemma class_by_ext trees go1 go2 cs : (forall t f th, In t trees -> decision t f th -> go1 f th = go2 f th) ->
  Forall2 (tree_class_by go1) trees cs -> Forall2 (tree_class_by go2) trees cs.
Proof.
  intros H F. induction F as [|t c trees cs (row & Hr & Hc) F IH]; constructor.
  - exists row. split; [|exact Hc]. eapply reaches_ext; [|exact Hr]. intros f th D. apply (H t f th); [left; reflexivity|exact D].
  - apply IH. intros t' f th I D. apply (H t' f th); [right; exact I|exact D].
Qed.
Lemma value_by_ext trees go1 go2 xs : (forall t f th, In t trees -> decision t f th -> go1 f th = go2 f th) ->
  Forall2 (tree_value_by go1) trees xs -> Forall2 (tree_value_by go2) trees xs.
Proof.
  intros H F. induction F as [|t x trees xs Hr F IH]; constructor.
  - eapply reaches_ext; [|exact Hr]. intros f th D. apply (H t f th); [left; reflexivity|exact D].
  - apply IH. intros t' f th I D. apply (H t' f th); [right; exact I|exact D].
Qed.
Lemma decision_threshold (t : sktree pynum (list f64)) f th : decision t f th -> In th (sk_threshold t).
Proof. intros (i & l & r & _ & _ & _ & _ & T). eapply zget_In; eauto. Qed.
Lemma decision_feature nf (t : sktree pynum (list f64)) f th : wf_sktree nf t -> decision t f th -> 0 <= f < nf.
Proof.
  intros W (i & l & r & L & R & N & F & T). destruct (wf_nodes _ _ W i l r f L R F) as [C|(_ & _ & B)]; [contradiction|exact B].
Qed.

(** int16_t decisions and those of scikit-learn *)
Lemma go_lt_sk row features trees nf : fitted nf (fun _ => True) trees -> zlen row = nf -> int16_row row features ->
  Forall (fun t => Forall (fun th => exists k, py_int th = Ret k) (sk_threshold t)) trees ->
  clear_int16 row trees ->
  forall t f th, In t trees -> decision t f th -> go_lt features f th = go_sk row f th.
Proof.
  intros Hfit L R HT HC t f th It D.
  pose proof (ft_trees _ _ _ Hfit) as HW. rewrite Forall_forall in HW. pose proof (decision_feature nf t f th (HW t It) D) as Bf.
  rewrite Forall_forall in HT. specialize (HT t It). rewrite Forall_forall in HT. destruct (HT th (decision_threshold _ _ _ D)) as [k Ek].
  destruct (zget_ok row f ltac:(lia)) as [v Hv]. destruct (Forall2_zget _ _ _ _ _ R Hv) as (z & Hz & Fv & Vv & Bz).
  assert (RV : row_val row f = IZR z).
  { unfold row_val. rewrite <- Vv. f_equal. unfold zget in Hv. destruct (f <? 0); [discriminate|].
    destruct (nth_error row (Z.to_nat f)) eqn:En; [|discriminate]. injection Hv as <-. now apply nth_error_nth. }
  specialize (HC t f th It D). rewrite RV in HC. unfold go_lt. rewrite Hz, Ek. unfold go_sk. rewrite RV.
  assert (Q : (z <? k) = true <-> (IZR z <= num_val th)%R).
  { destruct th as [k0|x]; cbn [py_int num_val] in *.
    - injection Ek as <-. rewrite Ztrunc_IZR in HC. rewrite Z.ltb_lt. split.
      + intros H. apply IZR_le. lia.
      + intros H. destruct HC as [N|N]; [|lra]. apply le_IZR in H. assert (z <> k0) by congruence. lia.
    - assert (Ex : k = ftrunc x) by (destruct x; congruence). rewrite Ex. apply branch_agree.
      destruct HC as [N|N]; [left; intros ->; now apply N|right; exact N]. }
  destruct (Rle_bool_spec (IZR z) (num_val th)) as [Hl|Hl].
  - now apply Q.
  - destruct (z <? k); [|reflexivity]. destruct Q as [Q _]. specialize (Q eq_refl). lra.
Qed.

(** ** Rows of float features *)
Lemma through8_f32 (v : R) (w : f32) : (Rabs v <= bpow radix2 126)%R -> through_decimals 8 v w ->
  is_finite w = true /\ (Rabs (B2R w - v) <= 500001 / 100000000000000 + Rabs v / 16777216)%R.
Proof.
  intros L T. destruct (through_close_gen 8 v w ltac:(lia) ltac:(lia) ltac:(vm_compute; discriminate) L T) as [F E]. split; [exact F|].
  eapply Rle_trans; [exact E|]. change (IZR (10 ^ 8)) with 100000000%R. change (- (24)) with (-24).
  change (bpow radix2 (-24)) with (/ 16777216)%R.
  assert (bpow radix2 (-60) <= / 1125899906842624)%R by (change (/ 1125899906842624)%R with (bpow radix2 (-50)); apply bpow_le; lia).
  pose proof (Rabs_pos v). lra.
Qed.
Lemma float_rows_fit nf X : float_rows nf X -> 1 <= nf ->
  X <> [] /\ Forall good_row X /\ all_fit (map serialize_row X) /\ zlen X <= 2147483647.
Proof.
  intros (NX & LX & FX) B. split; [exact NX|].
  assert (G : Forall (fun row => row <> [] /\ Forall (fun v => is_finite v = true) row /\ zlen (serialize_row row) <= 2046) X).
  { eapply Forall_impl; [|exact FX]. intros row (L & H & S). split; [intros ->; unfold zlen in L; cbn in L; lia|]. split; [|exact S].
    eapply Forall_impl; [|exact H]. intros v (F & _). exact F. }
  split; [eapply Forall_impl; [|exact G]; intros r (A & C & _); split; assumption|]. split; [|exact LX].
  clear - G. induction G as [|row X (_ & _ & H) F IH]; cbn [map all_fit]; [exact I|]. split; [|exact IH]. unfold zlen in H.
  destruct (map serialize_row X); unfold fits; lia.
Qed.

Definition arrives (row : list f64) (ws : list f32) : Prop :=
  Forall2 (fun v w => is_finite w = true /\ through_decimals 8 (B2R v) w) row ws.
Lemma float_values nf row values : zlen row = nf ->
  Forall (fun v : f64 => is_finite v = true /\ (Rabs (B2R v) <= bpow radix2 126)%R) row -> holds row values ->
  exists ws, arrives row ws /\ zlen ws = nf /\ full_row (@Ret f32) fzero nf values nf = Ret ws.
Proof.
  intros L F H. pose proof H as (ws & FW & E). exists ws.
  assert (LW : zlen ws = nf) by (unfold zlen in *; erewrite <- Forall2_len; eauto). split; [|split; [exact LW|]].
  - clear - FW F. unfold arrives. induction FW as [|v w row ws T FW IH]; constructor; inversion F as [|? ? (Fv & Bv) F']; subst; auto.
    split; [|exact T]. now destruct (through8_f32 (B2R v) w Bv T).
  - apply (cast_row_ok (@Ret f32) fzero nf values ws LW). intros i x Hx. exists x. split; [|reflexivity].
    pose proof (zget_bound _ _ _ Hx) as Bi. destruct (zget_ok row i ltac:(lia)) as [v Hv].
    assert (X : zget (firstn (length row) values) i = Ret (Some x)) by (rewrite E, zget_map, Hx; reflexivity).
    rewrite <- X. symmetry. unfold zget. destruct (i <? 0); [reflexivity|].
    assert (Hlt : (Z.to_nat i < length row)%nat) by (unfold zlen in *; lia). clear - Hlt. revert values Hlt. generalize (length row), (Z.to_nat i).
    intros n m. revert n. induction m; intros [|n] values Hlt; try lia; destruct values; cbn; try reflexivity. apply IHm. lia.
Qed.

Lemma float_go row trees ws : arrives row ws -> float_thresholds trees ->
  float_decisions row trees (decide float_const fltb ws).
Proof.
  intros A HT. exists ws. split; [exact A|]. intros t f th w It Ith Hw.
  unfold float_thresholds in HT. rewrite Forall_forall in HT. specialize (HT t It). rewrite Forall_forall in HT. destruct (HT th Ith) as [H1 H2].
  destruct (float_const_ok th H1 H2) as (k & Ek & Fk & Tk). exists k. split; [exact Fk|]. split; [exact Tk|].
  unfold decide. rewrite Hw, Ek. 
  assert (Fw : is_finite w = true).
  { pose proof (zget_bound _ _ _ Hw) as Bi. assert (LW : length row = length ws) by (eapply Forall2_len; eauto).
    destruct (zget_ok row f ltac:(unfold zlen in *; lia)) as [v Hv]. destruct (Forall2_zget _ _ _ _ _ A Hv) as (w' & Hw' & F & _). congruence. }
  now apply fltb_iff.
Qed.
Lemma float_go_sk nf row trees go : Forall (wf_sktree nf) trees -> zlen row = nf ->
  Forall (fun v : f64 => is_finite v = true /\ (Rabs (B2R v) <= bpow radix2 126)%R) row ->
  float_thresholds trees -> float_decisions row trees go -> clear_float row trees ->
  forall t f th, In t trees -> decision t f th -> go f th = go_sk row f th.
Proof.
  intros HW L FR HT (ws & A & G) HC t f th It D. rewrite Forall_forall in HW. pose proof (decision_feature nf t f th (HW t It) D) as Bf.
  destruct (zget_ok row f ltac:(lia)) as [v Hv]. destruct (Forall2_zget _ _ _ _ _ A Hv) as (w & Hw & Fw & Tw).
  pose proof (decision_threshold _ _ _ D) as Ith. destruct (G t f th w It Ith Hw) as (k & Fk & Tk & Q).
  unfold float_thresholds in HT. rewrite Forall_forall in HT. specialize (HT t It). rewrite Forall_forall in HT. destruct (HT th Ith) as [_ H2].
  rewrite Forall_forall in FR. destruct (FR v (zget_In _ _ _ Hv)) as [Fv Bv].
  assert (RV : row_val row f = B2R v).
  { unfold row_val. f_equal. unfold zget in Hv. destruct (f <? 0); [discriminate|].
    destruct (nth_error row (Z.to_nat f)) eqn:En; [|discriminate]. injection Hv as <-. now apply nth_error_nth. }
  specialize (HC t f th It D). rewrite RV in HC. unfold go_sk. rewrite RV.
  destruct (through8_f32 _ w Bv Tw) as [_ Ew]. destruct (through6_f32 _ k H2 Tk) as [_ Ek].
  set (x := B2R v) in *. set (y := num_val th) in *. clearbody x y.
  apply Rabs_def2b in Ew || (apply Rabs_le_inv in Ew). apply Rabs_le_inv in Ek.
  unfold Rdiv in *. rewrite Rmult_plus_distr_r in HC.
  destruct (Rle_bool_spec x y) as [Hl|Hl].
  - apply Q. rewrite (Rabs_left1 (x - y)) in HC by lra. lra.
  - destruct (go f th); [|reflexivity]. destruct Q as [Q _]. specialize (Q eq_refl). rewrite (Rabs_pos_eq (x - y)) in HC by lra. lra.
Qed.

(** ** Classifiers *)
Section FloatRun.
Variables (nf n : Z) (trees : sk_forest).
Hypothesis Hfit : fitted nf (class_row n) trees.
Hypothesis Hn : 1 <= n <= 127.
Hypothesis Hnt : zlen trees < 2 ^ 24.
Variable lb : option Z.
Hypothesis Hlb : hard_args lb.
Hypothesis HT : float_thresholds trees.
Hypothesis Hnf : nf <= 10000.

Lemma float_code method : In method [None; Some MInline] -> exists w p, wrapper_init true method (Some DFloat) lb trees nf n = Ret w /\
  save_code w = Ret (CodeFloat p) /\ w_classifier w = true /\ w_n_features w = nf /\ w_n_classes w = n /\
  forall features cs, nf <= zlen features -> Forall2 (tree_class_by (decide float_const fltb features)) trees cs ->
    (exists c, inline_predict fltb p features = Ret c /\ majority n cs c) /\
    (forall out, n <= zlen out -> exists out', inline_predict_proba fltb p features out n = Ret (0, out') /\ zlen out' = zlen out /\
      (forall c, 0 <= c < n -> exists y, zget out' c = Ret y /\ is_finite y = true /\
         B2R y = rnd32 (IZR (votes cs c) / IZR (zlen trees)))).
Proof.
  intros Hm. destruct (hard_code nf n trees Hfit Hn Hnt float_const fltb (fun _ => true)) as (f & p & E & Ep & _ & G).
  { eapply Forall_impl; [|exact HT]. intros t Ht. eapply Forall_impl; [|exact Ht]. intros th (A & B).
    destruct (float_const_ok th A B) as (k & Ek & _). eauto. }
  { exists fzero. split; [apply float_const_zero|reflexivity]. }
  assert (Ew : wrapper_init true method (Some DFloat) lb trees nf n = Ret (mk_wrapper true MInline DFloat 0 f nf n)).
  { unfold wrapper_init. rewrite (hard_bits lb Hlb). change (choose_leaf true 0) with LeafArgmax. rewrite E. cbn [bind].
    destruct Hm as [<-|[<-|[]]]; cbn [bind]; (destruct (Z.ltb_spec 10000 nf); [lia|reflexivity]). }
  eexists _, p. split; [exact Ew|]. split.
  { unfold save_code. cbn [w_method w_dtype w_classifier w_forest w_n_classes w_leaf_bits]. rewrite Ep. reflexivity. }
  split; [reflexivity|]. split; [reflexivity|]. split; [reflexivity|]. exact G.
Qed.

Theorem float_predict_run method X : In method [None; Some MInline] -> float_rows nf X ->
  exists w out, wrapper_init true method (Some DFloat) lb trees nf n = Ret w /\ wrapper_predict w X = Ret out /\ zlen out = zlen X /\
  forall i row, zget X i = Ret row -> exists go cs c,
    float_decisions row trees go /\ Forall2 (tree_class_by go) trees cs /\ zget out i = Ret (PyInt c) /\ majority n cs c.
Proof.
  intros Hm HX. pose proof (ft_features _ _ _ Hfit).
  destruct (float_code method Hm) as (w & p & A & B & C & D & E & G).
  destruct (float_rows_fit nf X HX ltac:(lia)) as (NX & GX & AX & LX).
  exists w. unfold wrapper_predict. rewrite B, C, D. cbn [bind].
  destruct (predict_classes (fun values length => let* out := code_predict (CodeFloat p) nf values length in Ret (f_of_Z (flip_negative out))) X
     (fun row k => exists go cs, float_decisions row trees go /\ Forall2 (tree_class_by go) trees cs /\ majority n cs k) NX GX AX LX)
    as (out & Eo & Lo & Go).
  { intros row values I Hv. destruct HX as (_ & _ & FX). rewrite Forall_forall in FX. destruct (FX row I) as (L & FR & _).
    destruct (float_values nf row values L FR Hv) as (ws & AW & LW & Ef).
    destruct (class_by_total nf n trees Hfit Hn (decide float_const fltb ws)) as [cs HC].
    destruct (G ws cs ltac:(lia) HC) as [(k & Ek & Mk) _].
    rewrite L. cbn [code_predict]. rewrite Ef. cbn [bind]. rewrite Ek. cbn [bind]. pose proof Mk as (Bk & _). unfold flip_negative. destruct (Z.ltb_spec k 0); [lia|].
    exists k. split; [reflexivity|]. split; [lia|]. exists (decide float_const fltb ws), cs. split; [|split; assumption]. now apply float_go. }
  exists out. split; [exact A|]. split; [exact Eo|]. split; [exact Lo|]. intros i row Z.
  destruct (Go i row Z) as (k & Ek & go & cs & R & HC & Mk). exists go, cs, k. auto.
Qed.

Theorem float_proba_run method X : In method [None; Some MInline] -> float_rows nf X ->
  exists w m, wrapper_init true method (Some DFloat) lb trees nf n = Ret w /\ wrapper_predict_proba w X = Ret m /\ zlen m = zlen X /\
  forall i row, zget X i = Ret row -> exists go cs r,
    float_decisions row trees go /\ Forall2 (tree_class_by go) trees cs /\ zget m i = Ret r /\
    forall k, 0 <= k < n -> exists p, zget r k = Ret (Some p) /\
      through_decimals 6 (rnd32 (IZR (votes cs k) / IZR (zlen trees))) p.
Proof.
  intros Hm HX. pose proof (ft_features _ _ _ Hfit).
  destruct (float_code method Hm) as (w & p & A & B & C & D & E & G).
  destruct (float_rows_fit nf X HX ltac:(lia)) as (NX & GX & AX & LX).
  pose proof HX as (_ & _ & FX). rewrite Forall_forall in FX.
  exists w. unfold wrapper_predict_proba. rewrite B, C, D, E. cbn [bind negb].
  destruct (proba_rows (code_predict_proba (CodeFloat p) nf n) n X (fun row o => exists go cs, float_decisions row trees go /\
     Forall2 (tree_class_by go) trees cs /\ forall k, 0 <= k < n -> exists y, zget o k = Ret y /\ is_finite y = true /\
       B2R y = rnd32 (IZR (votes cs k) / IZR (zlen trees))) ltac:(lia) NX GX AX LX) as (m & Em & Lm & Gm).
  { intros row values before I Hv Hb. destruct (FX row I) as (L & FR & _).
    destruct (float_values nf row values L FR Hv) as (ws & AW & LW & Ef).
    destruct (class_by_total nf n trees Hfit Hn (decide float_const fltb ws)) as [cs HC].
    destruct (G ws cs ltac:(lia) HC) as [_ G']. destruct (G' before ltac:(lia)) as (o & Eo & Lo & Go).
    rewrite L. cbn [code_predict_proba]. rewrite Ef. cbn [bind]. rewrite Eo. cbn [bind]. exists o. split; [reflexivity|]. split; [lia|].
    exists (decide float_const fltb ws), cs. split; [now apply float_go|]. split; assumption. }
  exists m. split; [exact A|]. split; [exact Em|]. split; [exact Lm|]. intros i row Hrow.
  destruct (Gm i row Hrow) as (r & o & Er & (go & cs & R & HC & Go) & Gr).
  exists go, cs, r. split; [exact R|]. split; [exact HC|]. split; [exact Er|]. intros k Bk.
  destruct (Go k Bk) as (y & Ey & Fy & Vy). destruct (Gr k y Bk Ey) as (q & Eq & T). exists q. split; [exact Eq|]. rewrite <- Vy. auto.
Qed.
End FloatRun.

(** ** Regressors *)
Section FloatReg.
Variables (nf nc : Z) (trees : sk_forest) (B : R) (lb : option Z).
Hypothesis HB : (0 <= B <= bpow radix2 50)%R.
Hypothesis Hfit : fitted nf (value_within B) trees.
Hypothesis Hnt : zlen trees <= 8388608.
Hypothesis Hlb : In lb [None; Some 32].
Hypothesis HT : float_thresholds trees.
Hypothesis Hnf : nf <= 10000.

Lemma freg_calls method : In method [None; Some MInline] ->
  exists w c, wrapper_init false method (Some DFloat) lb trees nf nc = Ret w /\ save_code w = Ret c /\ w_classifier w = false /\ w_n_features w = nf /\
  forall row values, zlen row = nf -> Forall (fun v : f64 => is_finite v = true /\ (Rabs (B2R v) <= bpow radix2 126)%R) row -> holds row values ->
    exists go xs y, float_decisions row trees go /\ Forall2 (tree_value_by go) trees xs /\
      code_regress c nf values nf = Ret y /\ is_finite y = true /\ (Rabs (B2R y) <= 4 * (B + 1))%R /\
      (Rabs (B2R y - mean_of xs) <= (IZR (zlen trees) + 5) * B / 16777216 + 11 / 10000000)%R.
Proof.
  intros Hm. pose proof (HB99 B HB) as HB'.
  destruct (reg_code nf trees B HB' Hfit float_const fltb (fun _ => true)) as (f & p & E & Ep & T & Lp & G).
  { eapply Forall_impl; [|exact HT]. intros t Ht. eapply Forall_impl; [|exact Ht]. intros th (A & A').
    destruct (float_const_ok th A A') as (k & Ek & _). eauto. }
  { exists fzero. split; [apply float_const_zero|reflexivity]. }
  assert (Ew : wrapper_init false method (Some DFloat) lb trees nf nc = Ret (mk_wrapper false MInline DFloat 32 f nf 0)).
  { unfold wrapper_init. rewrite (val_bits lb Hlb). change (choose_leaf false 32) with LeafValue. rewrite E. cbn [bind].
    destruct Hm as [<-|[<-|[]]]; cbn [bind]; (destruct (Z.ltb_spec 10000 nf); [lia|reflexivity]). }
  eexists _, (CodeRegFloat p). split; [exact Ew|]. split.
  { unfold save_code. cbn [w_method w_dtype w_classifier w_forest w_leaf_bits]. rewrite Ep. reflexivity. }
  split; [reflexivity|]. split; [reflexivity|]. intros row values L FR Hh.
  destruct (float_values nf row values L FR Hh) as (ws & AW & LW & Ef).
  destruct (value_by_total nf trees B Hfit (decide float_const fltb ws)) as (xs & HC & HF).
  cbn [code_regress]. rewrite Ef. cbn [bind].
  destruct (G ws xs ltac:(lia) HC) as (ks & K & Er).
  assert (LX : zlen xs = zlen trees) by (unfold zlen; now rewrite (Forall2_len _ _ _ HC)).
  pose proof (trees_pos _ _ _ Hfit).
  destruct (inline_mean B HB' xs ks ltac:(lia) HF K) as (F1 & F2 & F3). rewrite LX in F1, F2, F3.
  exists (decide float_const fltb ws), xs. eexists. split; [now apply float_go|]. split; [exact HC|].
  split; [exact Er|]. split; [exact F1|]. split; [exact F2|]. unfold mean_of. rewrite LX. exact F3.
Qed.

Theorem float_regress_run method X : In method [None; Some MInline] -> float_rows nf X ->
  exists w out, wrapper_init false method (Some DFloat) lb trees nf nc = Ret w /\ wrapper_predict w X = Ret out /\ zlen out = zlen X /\
  forall i row, zget X i = Ret row -> exists go xs o,
    float_decisions row trees go /\ Forall2 (tree_value_by go) trees xs /\ zget out i = Ret (PyFloat o) /\ is_finite o = true /\
    (Rabs (B2R o - mean_of xs) <= (IZR (zlen trees) + 6) * B / 16777216 + 2 / 1000000)%R.
Proof.
  intros Hm HX. pose proof (ft_features _ _ _ Hfit).
  destruct (freg_calls method Hm) as (w & c & A & E & C & D & G).
  destruct (float_rows_fit nf X HX ltac:(lia)) as (NX & GX & AX & LX).
  exists w. unfold wrapper_predict. rewrite E, C, D. cbn [bind].
  destruct (predict_reals (fun values length => let* out := code_regress c nf values length in Ret (f64_of_f32 out)) X
     (fun row y => exists go xs, float_decisions row trees go /\ Forall2 (tree_value_by go) trees xs /\
        is_finite y = true /\ (Rabs (B2R y) <= 4 * (B + 1))%R /\
        (Rabs (B2R y - mean_of xs) <= (IZR (zlen trees) + 5) * B / 16777216 + 11 / 10000000)%R) NX GX AX LX)
    as (out & Eo & Lo & Go).
  { intros row values I Hv. destruct HX as (_ & _ & FX). rewrite Forall_forall in FX. destruct (FX row I) as (L & FR & _).
    destruct (G row values L FR Hv) as (go & xs & y & Hgo & HC & Ey & Fy & By & Dy).
    rewrite L, Ey. cbn [bind]. destruct (f64_of_f32_ok y Fy) as [Vy Fy'].
    exists (f64_of_f32 y). split; [reflexivity|]. rewrite Vy. split; [exact Fy'|]. split.
    - change (IZR (2 ^ 53)) with (bpow radix2 53). assert (bpow radix2 53 = 8 * bpow radix2 50)%R by (change 8%R with (bpow radix2 3); rewrite <- bpow_plus; reflexivity).
      assert (1 <= bpow radix2 50)%R by (change 1%R with (bpow radix2 0); apply bpow_le; lia). lra.
    - exists go, xs. auto. }
  exists out. split; [exact A|]. split; [exact Eo|]. split; [exact Lo|]. intros i row Z.
  destruct (Go i row Z) as (y & o & (go & xs & R & HC & Fy & By & Dy) & Zo & T).
  destruct (reg_close B HB (mean_of xs) (zlen trees) y o By Dy T) as [Fo Do].
  exists go, xs, o. auto.
Qed.
End FloatReg.
