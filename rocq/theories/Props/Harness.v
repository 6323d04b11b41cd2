(** The compiled test program: properties C50 (rows arrive unchanged), C70 (predict), C71 (predict_proba),
    C72 (values arrive as float32). *)
From Coq Require Import String ZArith List Bool Lia Reals Lra.
From Flocq Require Import Core BinarySingleNaN.
From Verif.Base Require Import Res CInt ListX Loops Float FloatOrder.
From Verif.Model Require Import Common Text TreesC Cgen Harness.
From Verif.Spec Require Import CgenSpec HarnessSpec.
From Verif.Proof Require Import FixedPoint Text Cgen Harness RunRows.
Import ListNotations.
Open Scope Z_scope.
Open Scope res_scope.

(** ** C50 *)
Lemma small_fit X : Forall (fun row => zlen (serialize_row row) <= 2046) X -> all_fit (map serialize_row X).
Proof.
  induction 1 as [|row X H F IH]; cbn [map all_fit]; [exact I|]. split; [|exact IH]. unfold zlen in H.
  destruct (map serialize_row X); unfold fits; lia.
Qed.
(** One call per row, in order, with the row's values and the row number, when the text of every row has at most
    2046 characters. *)
Theorem C50_rows X :
  Forall (fun row => row <> [] /\ Forall (fun v => is_finite v = true) row /\ zlen (serialize_row row) <= 2046) X -> zlen X <= 2147483647 ->
  exists calls, eml_test_read_csv (serialize X) = Ret (EmlOk, calls) /\ zlen calls = zlen X /\
  forall i row, zget X i = Ret row -> exists values, zget calls i = Ret (values, zlen row, i) /\ holds row values.
Proof.
  intros F L. assert (G : Forall good_row X) by (eapply Forall_impl; [|exact F]; intros r (A & B & _); split; assumption).
  assert (W : all_fit (map serialize_row X)) by (apply small_fit; eapply Forall_impl; [|exact F]; intros r (_ & _ & C); exact C).
  eexists. split; [apply read_csv_ok; assumption|]. split; [unfold zlen; now rewrite calls_of_length|].
  intros i row H. destruct (calls_of_get X (repeat None (Z.to_nat EML_CSV_VALUES_LENGTH)) 0 i row H) as (values & E & Q).
  exists values. rewrite Z.add_0_l in E. split; [exact E|]. exists (map deliver row). split; [|exact Q]. apply deliver_row.
  rewrite Forall_forall in G. apply (G row). eapply zget_In. exact H.
Qed.
(** What the program delivers for element j of row i. *)
Definition delivered (X : list (list f64)) (i j : Z) (w : f32) : Prop :=
  exists calls values row, eml_test_read_csv (serialize X) = Ret (EmlOk, calls) /\ zget X i = Ret row /\
    zget calls i = Ret (values, zlen row, i) /\ zget values j = Ret (Some w).
Lemma delivered_ok X i row j v :
  Forall (fun row => row <> [] /\ Forall (fun v => is_finite v = true) row /\ zlen (serialize_row row) <= 2046) X -> zlen X <= 2147483647 ->
  zget X i = Ret row -> zget row j = Ret v -> exists w, delivered X i j w /\ through_decimals 8 (B2R v) w.
Proof.
  intros F L Hr Hv. destruct (C50_rows X F L) as (calls & E & _ & G). destruct (G i row Hr) as (values & Ev & Hh).
  destruct (holds_get row values j v Hh Hv) as (w & W & T). exists w. split; [|exact T]. exists calls, values, row. auto.
Qed.
(** Integers up to 2^24 in size arrive exactly (so all int16 features do). *)
Theorem C50_integers X i row j v z :
  Forall (fun row => row <> [] /\ Forall (fun v => is_finite v = true) row /\ zlen (serialize_row row) <= 2046) X -> zlen X <= 2147483647 ->
  zget X i = Ret row -> zget row j = Ret v -> B2R v = IZR z -> Z.abs z <= 2 ^ 24 ->
  exists w, delivered X i j w /\ is_finite w = true /\ B2R w = IZR z.
Proof.
  intros F L Hr Hv V B. destruct (delivered_ok X i row j v F L Hr Hv) as (w & D & T). exists w. split; [exact D|]. rewrite V in T.
  now destruct (@through_int 24 128 _ _ 8 z w ltac:(lia) B T).
Qed.
(** Hypotheses met: two rows of different length. *)
Example C50_example :
  map (fun '(v, n, r) => (map (option_map (fun w : f32 => ftrunc (fmul w (f_of_Z 4)))) (firstn 3 v), n, r))
    (match eml_test_read_csv (serialize [[f_of_Z 7; f_of_ZE (-5) (-2)]; [f_of_Z (-32768); f_of_Z 32767; f_of_Z 0]]) with Ret (_, c) => c | Err _ => [] end)
  = [([Some 28; Some (-5); None], 2, 0); ([Some (-131072); Some 131068; Some 0], 3, 1)].
Proof. vm_compute. reflexivity. Qed.

(** ** C70 *)
(** If predict returns, there is one result per row, in order, each the report of the C result for that row. *)
Theorem C70_predict func dt X out : predict func dt X = Ret out -> zlen out = zlen X /\
  forall i row, zget X i = Ret row -> exists values y o,
    holds row values /\ func values (zlen row) = Ret y /\ zget out i = Ret o /\ reported dt y o.
Proof.
  intros H. destruct (predict_sound _ _ _ _ H) as (G & _ & _ & L & R). split; [exact L|]. intros i row Z.
  destruct (R i row Z) as (values & y & o & _ & V & FY & O & C). exists values, y, o. split; [|split; [exact FY|split; [exact O|apply convert_reported, C]]].
  exists (map deliver row). split; [|exact V]. apply deliver_row. rewrite Forall_forall in G. apply (G row). eapply zget_In. exact Z.
Qed.
(** It returns for every matrix of finite values whose row texts have at most 2046 characters, if the C function
    returns finite values up to 2^53. *)
Theorem C70_predict_complete func dt X : X <> [] -> zlen X <= 2147483647 ->
  Forall (fun row => row <> [] /\ Forall (fun v => is_finite v = true) row /\ zlen (serialize_row row) <= 2046) X ->
  (forall row values, In row X -> holds row values -> exists y, func values (zlen row) = Ret y /\ is_finite y = true /\ (Rabs (B2R y) <= IZR (2 ^ 53))%R) ->
  exists out, predict func dt X = Ret out.
Proof.
  intros NX L F H. apply predict_complete; auto.
  - eapply Forall_impl; [|exact F]; intros r (A & B & _); split; assumption.
  - apply small_fit; eapply Forall_impl; [|exact F]; intros r (_ & _ & C); exact C.
Qed.
(** Longer rows are never predicted from part of the row: predict raises. *)
Theorem C70_long_rows func dt X row : In row X -> 2048 <= zlen (serialize_row row) -> exists f, predict func dt X = Err f.
Proof.
  intros I L. destruct (predict func dt X) as [out|f] eqn:E; [|eauto]. exfalso.
  destruct (predict_sound _ _ _ _ E) as (_ & AF & _). apply all_fit_len in AF. rewrite Forall_forall in AF.
  specialize (AF _ (in_map serialize_row _ _ I)). cbv beta in AF. unfold zlen in L. lia.
Qed.
(** Hypotheses met: the function returns the number of values times 100 plus the first value. *)
Example C70_example :
  predict (fun v n => match v with Some w :: _ => Ret (f_of_Z (100 * n + ftrunc w)) | _ => Err Uninitialised end) OutInt
    [[f_of_Z 7; f_of_ZE (-5) (-2)]; [f_of_Z (-3); f_of_Z 32767; f_of_Z 0]] = Ret [PyInt 207; PyInt 297].
Proof. vm_compute. reflexivity. Qed.

(** ** C71 *)
(** If predict_proba returns, entry (i, c) is probability c written for row i; [before] is the content of the
    array outputs when the function is called: zeros for the first row, then the previous row's outputs. *)
Theorem C71_predict_proba func n X m : 1 <= n -> predict_proba func n X = Ret m -> zlen m = zlen X /\
  exists outs, zlen outs = zlen X /\
  forall i row, zget X i = Ret row -> exists values before o r,
    holds row values /\ (if i =? 0 then before = repeat fzero (Z.to_nat n) else zget outs (i - 1) = Ret before) /\
    func before values (zlen row) = Ret o /\ zget outs i = Ret o /\ zget m i = Ret r /\
    forall c, 0 <= c < n -> exists p w, zget o c = Ret p /\ zget r c = Ret (Some w) /\
      (is_finite p = true -> through_decimals 6 (B2R p) w).
Proof.
  intros N H. destruct (predict_proba_sound _ _ _ _ N H) as (G & _ & _ & L & outs & C & R). split; [exact L|]. exists outs.
  split; [unfold zlen; rewrite (chain_len _ _ _ _ C), calls_of_length; reflexivity|]. intros i row Z.
  destruct (calls_of_get X (repeat None (Z.to_nat EML_CSV_VALUES_LENGTH)) 0 i row Z) as (values & E & Q). rewrite Z.add_0_l in E.
  destruct (chain_get _ _ _ _ C _ _ _ _ E) as (before & o & B & FO & O).
  pose proof (zget_bound _ _ _ Z) as Bi. destruct (zget_ok m i ltac:(lia)) as [r ER].
  exists values, before, o, r. split.
  { exists (map deliver row). split; [|exact Q]. apply deliver_row. rewrite Forall_forall in G. apply (G row). eapply zget_In. exact Z. }
  split; [exact B|]. split; [exact FO|]. split; [exact O|]. split; [exact ER|]. intros c Bc.
  destruct (R i c Bi Bc) as (o' & p & O' & P & CE). rewrite O in O'. injection O' as <-.
  exists p, (backp p). split; [exact P|]. split; [unfold cell in CE; now rewrite ER in CE|]. apply backp_through.
Qed.
Theorem C71_predict_proba_complete func n X : 0 <= n -> X <> [] -> zlen X <= 2147483647 ->
  Forall (fun row => row <> [] /\ Forall (fun v => is_finite v = true) row /\ zlen (serialize_row row) <= 2046) X ->
  (forall row values before, In row X -> holds row values -> zlen before = n -> exists o, func before values (zlen row) = Ret o /\ zlen o = n) ->
  exists m, predict_proba func n X = Ret m.
Proof.
  intros N NX L F H. apply predict_proba_complete; auto.
  - eapply Forall_impl; [|exact F]; intros r (A & B & _); split; assumption.
  - apply small_fit; eapply Forall_impl; [|exact F]; intros r (_ & _ & C); exact C.
Qed.
Theorem C71_long_rows func n X row : 1 <= n -> In row X -> 2048 <= zlen (serialize_row row) -> exists f, predict_proba func n X = Err f.
Proof.
  intros N I L. destruct (predict_proba func n X) as [out|f] eqn:E; [|eauto]. exfalso.
  destruct (predict_proba_sound _ _ _ _ N E) as (_ & AF & _). apply all_fit_len in AF. rewrite Forall_forall in AF.
  specialize (AF _ (in_map serialize_row _ _ I)). cbv beta in AF. unfold zlen in L. lia.
Qed.
(** Hypotheses met: probabilities 1/4 and 3/4, exchanged for rows with a negative first value. *)
Example C71_example :
  (match predict_proba (fun _ v _ => match v with
      | Some w :: _ => Ret (if fltb w fzero then [f_of_ZE 3 (-2); f_of_ZE 1 (-2)] else [f_of_ZE 1 (-2); f_of_ZE 3 (-2)]) | _ => Err Uninitialised end) 2
    [[f_of_Z 7; f_of_ZE (-5) (-2)]; [f_of_Z (-3); f_of_Z 32767]] with
   | Ret m => map (map (option_map (fun w : f64 => ftrunc (fmul w (f_of_Z 4))))) m | Err _ => [] end) = [[Some 1; Some 3]; [Some 3; Some 1]].
Proof. vm_compute. reflexivity. Qed.

(** ** C72 *)
(** False: the values are printed with eight decimals. 2^-30 is a float32, and arrives as zero. *)
Theorem C72_small_refuted : exists v : f64, B2R v = bpow radix2 (-30) /\ exists w, delivered [[v]] 0 0 w /\ B2R w = 0%R.
Proof.
  exists (f_of_ZE 1 (-30)). assert (V : B2R (f_of_ZE 1 (-30) : f64) = bpow radix2 (-30)) by (vm_compute; lra). split; [exact V|].
  destruct (delivered_ok [[f_of_ZE 1 (-30)]] 0 [f_of_ZE 1 (-30)] 0 (f_of_ZE 1 (-30))) as (w & D & T); [|vm_compute; discriminate|reflexivity|reflexivity|].
  - constructor; [|constructor]. split; [discriminate|]. split; [constructor; [vm_compute; reflexivity|constructor]|vm_compute; discriminate].
  - exists w. split; [exact D|]. rewrite V in T. destruct T as (d & Q & N & K). change (bpow radix2 (-30)) with (/ 1073741824)%R in Q. change (IZR (10 ^ 8)) with 100000000%R in *.
    assert (d = 0) as ->.
    { destruct (Z.eq_dec d 0) as [|NZ]; [assumption|exfalso]. apply Rabs_le_inv in Q.
      destruct (Z.lt_trichotomy d 0) as [LT|[?|GT]]; [|lia|].
      - assert (IZR d <= -1)%R by (apply (IZR_le d (-1)); lia). lra.
      - assert (1 <= IZR d)%R by (apply (IZR_le 1 d); lia). lra. }
    unfold Rdiv in K. rewrite Rmult_0_l, round_0 in K by (auto with typeclass_instances).
    rewrite clampR_in in K by (rewrite Rabs_R0; apply bpow_ge_0).
    apply (key_fin_eq w 0); [exact N| |exact K]. rewrite Rabs_R0. apply bpow_gt_0.
Qed.
(** Values that are float32 numbers with at most eight decimals arrive exactly. *)
Theorem C72_exact_partial X i row j v (x : f32) z :
  Forall (fun row => row <> [] /\ Forall (fun v => is_finite v = true) row /\ zlen (serialize_row row) <= 2046) X -> zlen X <= 2147483647 ->
  zget X i = Ret row -> zget row j = Ret v -> is_finite x = true -> B2R v = B2R x -> (B2R v * 100000000 = IZR z)%R ->
  exists w, delivered X i j w /\ is_finite w = true /\ B2R w = B2R v.
Proof.
  intros F L Hr Hv Fx V D. destruct (delivered_ok X i row j v F L Hr Hv) as (w & W & T). exists w. split; [exact W|].
  rewrite V in *. apply (@through_exact 24 128 _ _ 8 z x w); auto; lia.
Qed.
(** All others: within 6e-9 plus a 2^-24th of the value. *)
Theorem C72_close_partial X i row j v :
  Forall (fun row => row <> [] /\ Forall (fun v => is_finite v = true) row /\ zlen (serialize_row row) <= 2046) X -> zlen X <= 2147483647 ->
  zget X i = Ret row -> zget row j = Ret v -> (Rabs (B2R v) <= bpow radix2 126)%R ->
  exists w, delivered X i j w /\ is_finite w = true /\ (Rabs (B2R w - B2R v) <= 6 / 1000000000 + Rabs (B2R v) / 16777216)%R.
Proof.
  intros F L Hr Hv B. destruct (delivered_ok X i row j v F L Hr Hv) as (w & W & T). exists w. split; [exact W|]. now apply through_close.
Qed.
