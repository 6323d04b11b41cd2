(** Converted nearest-neighbours models end to end: properties C80-C82, C85. *)
From Coq Require Import String ZArith List Bool Lia Reals Lra.
From Flocq Require Import Core BinarySingleNaN.
From Verif.Base Require Import Res CInt ListX Float.
From Verif.Model Require Import Common TreesConvert TreesC TreesWrapper Neighbors Harness TreesRun NeighborsRun.
From Verif.Spec Require Import VoteSpec NeighborsSpec ClassifierSpec HarnessSpec RunSpec KnnSpec.
From Verif.Proof Require Import Neighbors Harness RunRows NeighborsRun TreesTop TreesRun.
From Verif.Props Require Import Samples EndToEnd.
Import Verif.Spec.HarnessSpec ListNotations.
Open Scope Z_scope.
Open Scope res_scope.

(** ** C80  predict is the vote of the k nearest training rows *)
Theorem C80_predict nf k data labels items method X : In method [None; Some "loadable"%string] ->
  training_set data labels items -> items <> [] -> zlen items <= 32767 ->
  Forall (fun it => zlen (fst it) = nf /\ Forall int16_ok (fst it) /\ 0 <= snd it < 10) items ->
  1 <= nf <= 127 -> 1 <= k <= zlen items -> int16_rows nf X ->
  (forall row features r l, In row X -> int16_row row features -> In (r, l) items -> sq_dist features r < 2 ^ 30) ->
  exists m out, knn_init "euclidean" "uniform" method data labels k = Ret m /\ knn_predict m X = Ret out /\ zlen out = zlen X /\
  forall i row, zget X i = Ret row -> exists features sel c,
    int16_row row features /\ k_nearest int_dist items features k sel /\
    zget out i = Ret (PyInt c) /\ majority 10 (labels_of items sel) c.
Proof. intros H1 H2 H3 H4 H5 H6 H7 H8 H9. exact (knn_run nf k data labels items method X H1 H2 H3 H4 H5 H6 H7 H8 H9). Qed.
(** The rows before have no influence: any content of the static array gives the same result. *)
Theorem C80_no_history m distances1 distances2 values length :
  zlen distances1 = nm_n_items m -> zlen distances2 = nm_n_items m ->
  knn_predict_func m distances1 values length = knn_predict_func m distances2 values length.
Proof. exact (no_history m distances1 distances2 values length). Qed.

Definition fit_X : list (list pynum) := [[PyInt 1; PyInt 1]; [PyInt 2; PyInt (-5)]; [PyFloat (q 30 1); PyInt 12]; [PyInt 25; PyInt 10]].
Definition fit_y : list pynum := [PyInt 0; PyInt 0; PyInt 2; PyInt 2].
Definition fit_items : dataset := [([1; 1], 0); ([2; -5], 0); ([30; 12], 2); ([25; 10], 2)].
Lemma fit_training : training_set fit_X fit_y fit_items.
Proof.
  split; repeat (constructor; try reflexivity).
  assert (H : is_finite (q 30 1) && fleb (q 30 1) (f_of_Z 30) && fleb (f_of_Z 30) (q 30 1) = true) by (vm_compute; reflexivity).
  apply (int_check (q 30 1) 30 ltac:(lia)) in H as (_ & V & _). exact V.
Qed.
Lemma int_row_unique row fs fs' : int16_row row fs -> int16_row row fs' -> fs = fs'.
Proof.
  unfold int16_row. intros H. revert fs'. induction H as [|v z row fs (_ & V & _) H IH]; intros fs' H'; inversion H' as [|? z' ? fs2 (_ & V' & _) H2]; subst; auto.
  f_equal; [|auto]. apply eq_IZR. congruence.
Qed.
Example C80_instance :
  Forall (fun it => zlen (fst it) = 2 /\ Forall int16_ok (fst it) /\ 0 <= snd it < 10) fit_items /\ int16_rows 2 rows_ab /\
  (forall row features r l, In row rows_ab -> int16_row row features -> In (r, l) fit_items -> sq_dist features r < 2 ^ 30).
Proof.
  split; [|split; [exact rows_ab_ok|]].
  - repeat constructor; cbn; unfold int16_ok; lia.
  - intros row fs r l HR HF HI.
    assert (R1 : int16_row [q 3 1; q (-7) 1] [3; -7]) by (constructor; [|constructor; [|constructor]]; (apply int_check; [lia|vm_compute; reflexivity])).
    assert (R2 : int16_row [q 20 1; q 11 1] [20; 11]) by (constructor; [|constructor; [|constructor]]; (apply int_check; [lia|vm_compute; reflexivity])).
    destruct HR as [<-|[<-|[]]]; [rewrite (int_row_unique _ _ _ HF R1)|rewrite (int_row_unique _ _ _ HF R2)];
      destruct HI as [[= <- <-]|[[= <- <-]|[[= <- <-]|[[= <- <-]|[]]]]]; vm_compute; reflexivity.
Qed.
Example C80_example : (let* m := knn_init "euclidean" "uniform" None fit_X fit_y 3 in knn_predict m rows_ab) = Ret [PyInt 0; PyInt 2].
Proof. vm_compute. reflexivity. Qed.

(** ** C81  The training data is in the converted model *)
(** Conversion succeeds only for supported settings, and then stores the integer part of every value, in order. *)
Theorem C81_integer_parts_partial metric weights method data labels k m :
  knn_init metric weights method data labels k = Ret m ->
  Forall2 (fun v z => py_int v = Ret z /\ -32768 <= z <= 32767) (concat data) (nm_data m) /\
  Forall2 (fun v z => py_int v = Ret z /\ -32768 <= z <= 32767) labels (nm_labels m) /\
  nm_n_items m = zlen data /\ nm_k m = k /\
  metric = "euclidean"%string /\ weights = "uniform"%string /\ In method [None; Some "loadable"%string].
Proof.
  intros E. destruct (stored _ _ _ _ _ _ _ E) as (A & B & C & D). split; [exact A|]. split; [exact B|]. split; [exact C|]. split; [exact D|].
  unfold knn_init, check_params_supported in E.
  destruct (String.eqb_spec metric "euclidean"); [|discriminate]. destruct (String.eqb_spec weights "uniform"); [|discriminate]. cbn in E.
  split; [assumption|]. split; [assumption|]. destruct method as [s|]; [|left; reflexivity]. destruct (String.eqb_spec s "loadable"); [|discriminate].
  subst. right. left. reflexivity.
Qed.
(** Integers are kept. *)
Theorem C81_integers nf k data labels items :
  training_set data labels items -> items <> [] -> zlen items <= 32767 ->
  Forall (fun it => zlen (fst it) = nf /\ Forall int16_ok (fst it) /\ int16_ok (snd it)) items ->
  1 <= nf <= 65535 -> 0 <= k <= 32767 ->
  knn_init "euclidean" "uniform" None data labels k =
    Ret (mk_neighbors nf (zlen items) (zlen items) (concat (map fst items)) (map snd items) k).
Proof. intros H1 H2 H3 H4 H5 H6. exact (generated nf k data labels items H1 H2 H3 H4 H5 H6). Qed.
(** Other values are not: the training rows 0.25 and 0.75 become the same item, and the second row gets the label of
    the first. *)
Definition fit_quarters : list (list pynum) := [[PyFloat (q 1 4)]; [PyFloat (q 3 4)]].
Theorem C81_fractions_refuted :
  exists m, knn_init "euclidean" "uniform" None fit_quarters [PyInt 0; PyInt 1] 1 = Ret m /\ nm_data m = [0; 0] /\
    knn_predict m [[q 1 4]; [q 3 4]] = Ret [PyInt 0; PyInt 0].
Proof. exists (mk_neighbors 1 2 2 [0; 0] [0; 1] 1). vm_compute. auto. Qed.
(** A value outside int16_t is refused. *)
Example C81_too_big : knn_init "euclidean" "uniform" None [[PyInt 40000]] [PyInt 0] 1 = Err CompileError.
Proof. reflexivity. Qed.

(** ** C82  A result is a label of the training data, or predict raises *)
Theorem C82_range_partial metric weights method data labels k m X out :
  knn_init metric weights method data labels k = Ret m -> knn_predict m X = Ret out ->
  zlen out = zlen X /\
  Forall (fun o => exists c, o = PyInt c /\ (0 <= c < 10 /\ Exists (fun v => py_int v = Ret c) labels \/ In c [-1; -5])) out.
Proof.
  intros E P. destruct (stored _ _ _ _ _ _ _ E) as (_ & B & _). destruct (knn_range _ _ _ P) as [L R]. split; [exact L|].
  eapply Forall_impl; [|exact R]. intros o (c & -> & [[I C]|C]); exists c; (split; [reflexivity|]); [left|right; exact C].
  split; [exact C|]. clear - B I. induction B as [|v z vs zs [Q _] B IH]; [destruct I|]. destruct I as [->|I]; [left; exact Q|right; auto].
Qed.
(** Missing: rows of the wrong length and labels above 9 are not exceptions, but results -1 and -5. *)
Theorem C82_raises_refuted :
  (let* m := knn_init "euclidean" "uniform" None fit_X fit_y 3 in knn_predict m [[q 3 1]]) = Ret [PyInt (-1)] /\
  (let* m := knn_init "euclidean" "uniform" None fit_X [PyInt 0; PyInt 1; PyInt 2; PyInt 10] 1 in knn_predict m [[q 25 1; q 10 1]]) = Ret [PyInt (-5)].
Proof. split; vm_compute; reflexivity. Qed.
(** Rows that are too long are written past the end of an array. *)
Theorem C82_long_row_refuted :
  (let* m := knn_init "euclidean" "uniform" None fit_X fit_y 3 in knn_predict m [[q 3 1; q 4 1; q 5 1]]) = Err OutOfBounds.
Proof. vm_compute. reflexivity. Qed.

(** ** C85  Results are labels of the data the estimator was fitted with *)
(** scikit-learn fits codes 0, 1, ... that stand for the sorted labels; its predict returns the labels. *)
Theorem C85_codes_partial nf n trees lb method dtype X y classes codes :
  fitted nf (class_row n) trees -> 1 <= n <= 127 -> nf <= 127 -> zlen trees < 2 ^ 24 -> In lb [None; Some 0; Some 1] ->
  In dtype [None; Some DInt16] ->
  (In method [None; Some MInline] /\ thresholds_within (-32767) 32767 trees \/
   method = Some MLoadable /\ ClassifierSpec.small_model nf trees /\ n <= 30) ->
  int16_rows nf X ->
  encoded classes y codes -> zlen classes = n -> (forall c, In c y -> 0 <= c < n) ->
  exists w out, wrapper_init true method dtype lb trees nf n = Ret w /\ wrapper_predict w X = Ret out /\
  forall i row, zget X i = Ret row -> exists features cs code label,
    int16_row row features /\ Forall2 (tree_class features) trees cs /\ majority n cs code /\
    zget classes code = Ret label /\ zget out i = Ret (PyInt label).
Proof.
  intros H1 H2 H3 H4 H5 H6 H7 H8 (S & Y & _) L B.
  destruct (C73_predict nf n trees lb method dtype X H1 H2 H3 H4 H5 H6 H7 H8) as (w & out & E & P & _ & R).
  exists w, out. split; [exact E|]. split; [exact P|]. intros i row Hr. destruct (R i row Hr) as (fs & cs & c & I & F & O & M).
  exists fs, cs, c. assert (Bc : 0 <= c < n) by apply M.
  assert (ID : forall j, 0 <= j -> forall a, zget classes j = Ret a -> j <= a).
  { apply (natlike_ind (fun j => forall a, zget classes j = Ret a -> j <= a)).
    - intros a Ha. specialize (B a). destruct (B ltac:(apply Y; eapply zget_In; exact Ha)). lia.
    - intros j Hj IH a Ha. pose proof (zget_bound _ _ _ Ha). destruct (zget_ok classes j ltac:(lia)) as [b Hb].
      specialize (IH b Hb). specialize (S j (Z.succ j) b a ltac:(lia) Hb Ha). lia. }
  assert (UP : forall d, 0 <= d -> d < n -> forall a, zget classes (n - 1 - d) = Ret a -> a <= n - 1 - d).
  { intros d Hd. pattern d. revert d Hd. apply natlike_ind.
    - intros _ a Ha. specialize (B a). destruct (B ltac:(apply Y; eapply zget_In; exact Ha)). lia.
    - intros d Hd IH Hn a Ha. destruct (zget_ok classes (n - 1 - d) ltac:(lia)) as [b Hb]. specialize (IH ltac:(lia) b Hb).
      specialize (S (n - 1 - Z.succ d) (n - 1 - d) a b ltac:(lia) Ha Hb). lia. }
  destruct (zget_ok classes c ltac:(lia)) as [a Ha]. exists a. split; [exact I|]. split; [exact F|]. split; [exact M|]. split; [exact Ha|].
  replace a with c; [exact O|]. specialize (ID c ltac:(lia) a Ha). specialize (UP (n - 1 - c) ltac:(lia) ltac:(lia) a). replace (n - 1 - (n - 1 - c)) with c in UP by lia. specialize (UP Ha). lia.
Qed.
(** With other labels the codes are returned: trees fitted on the labels 10, 20, 30, and neighbours fitted on 7, 9. *)
Theorem C85_labels_refuted :
  encoded [10; 20; 30] [10; 20; 30] [0; 1; 2] /\
  (let* w := wrapper_init true None None None forest_abc 2 3 in wrapper_predict w rows_ab) = Ret [PyInt 0; PyInt 2] /\
  encoded [7; 9] [7; 9] [0; 1] /\
  (let* m := knn_init "euclidean" "uniform" None [[PyInt 1]; [PyInt 5]] [PyInt 0; PyInt 1] 1 in knn_predict m [[q 4 1]]) = Ret [PyInt 1].
Proof.
  assert (E3 : encoded [10; 20; 30] [10; 20; 30] [0; 1; 2]).
  { split; [|split; [tauto|repeat constructor]]. intros i j a b Hij Ha Hb.
    pose proof (zget_bound _ _ _ Ha) as B1. pose proof (zget_bound _ _ _ Hb) as B2. unfold zlen in B1, B2; cbn in B1, B2.
    assert (i = 0 \/ i = 1 \/ i = 2) as [->|[->| ->]] by lia; assert (j = 1 \/ j = 2) as [->| ->] by lia; try (exfalso; lia);
      vm_compute in Ha, Hb; injection Ha as <-; injection Hb as <-; lia. }
  assert (E2 : encoded [7; 9] [7; 9] [0; 1]).
  { split; [|split; [tauto|repeat constructor]]. intros i j a b Hij Ha Hb.
    pose proof (zget_bound _ _ _ Ha) as B1. pose proof (zget_bound _ _ _ Hb) as B2. unfold zlen in B1, B2; cbn in B1, B2.
    assert (i = 0) as -> by lia. assert (j = 1) as -> by lia. vm_compute in Ha, Hb; injection Ha as <-; injection Hb as <-; lia. }
  split; [exact E3|]. split; [vm_compute; reflexivity|]. split; [exact E2|]. vm_compute. reflexivity.
Qed.
