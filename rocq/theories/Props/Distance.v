(** Elliptic envelope: properties C43, C58. *)
From Coq Require Import ZArith List Bool Lia Reals Lra.
From Flocq Require Import Core BinarySingleNaN.
From Verif.Base Require Import Res CInt ListX Loops Float Arith Kernels RealSum.
From Verif.Model Require Import Common Distance.
From Verif.Spec Require Import DistanceSpec.
From Verif.Proof Require Import Distance.
Import ListNotations.
Open Scope Z_scope.
Open Scope res_scope.

(** ** C43 *)
(** Exact arithmetic, any square matrix, symmetric or not: the C function, given the rows of the matrix
    one after the other, and the Python function both give (x-m)^T P (x-m). (46341^2 exceeds int.) *)
Theorem C43_distance (P : list (list R)) (x m : list R) : square (zlen x) P -> zlen m = zlen x -> zlen x < 46341 ->
  eml_mahalanobis_distance_squared real_arith (map Fin x) (map Fin m) (List.concat (map (map Fin) P)) (zlen x)
  = Ret (Fin (mahalanobis2 P x m)).
Proof. apply distance_ok. Qed.
Theorem C43_python_distance (P : list (list R)) (x m : list R) : square (zlen x) P -> zlen m = zlen x ->
  squared_mahalanobis_distance real_arith (map Fin x) (map Fin m) (map (map Fin) P) = Ret (Fin (mahalanobis2 P x m)).
Proof. apply py_distance_ok. Qed.
(** float32, every input including infinities and NaN: outlier exactly when -distance < boundary; the
    rounding of the subtraction never changes the decision. *)
Theorem C43_outlier_float ef lf tf (e : envelope (f32_arith ef lf tf)) (x : list f32) n :
  n = e_n_features _ e -> zlen x = n -> zlen (e_means _ e) = n -> zlen (e_precision _ e) = n * n -> n < 46341 ->
  exists d : f32, eml_elliptic_envelope_predict (f32_arith ef lf tf) e x n =
    Ret (if fltb (Bopp d) (e_decision_boundary _ e) then 1 else 0, Some d) /\
    eml_mahalanobis_distance_squared (f32_arith ef lf tf) x (e_means _ e) (e_precision _ e) n = Ret d.
Proof.
  intros E Lx Lm Lp B.
  assert (T : exists d : f32, eml_mahalanobis_distance_squared (f32_arith ef lf tf) x (e_means _ e) (e_precision _ e) n = Ret d).
  { unfold eml_mahalanobis_distance_squared. pose proof (zlen_nonneg x).
    destruct (foldM_range_inv (fun distance i =>
      let* accumulate := foldM (fun acc j =>
          let* k := chk_int32 (j * n) in
          let* k := chk_int32 (k + i) in
          let* p := zget (e_precision _ e) k in
          let* a := zget x j in
          let* b := zget (e_means _ e) j in
          Ret (fadd acc (fmul p (fsub a b)))) fzero (zrange n) in
      let* a := zget x i in
      let* b := zget (e_means _ e) i in
      Ret (fadd distance (fmul accumulate (fsub a b)))) (fun _ (_ : f32) => True) n fzero ltac:(lia) I) as (d & Ed & _).
    - intros i s Hi _.
      destruct (foldM_range_inv (fun acc j =>
          let* k := chk_int32 (j * n) in
          let* k := chk_int32 (k + i) in
          let* p := zget (e_precision _ e) k in
          let* a := zget x j in
          let* b := zget (e_means _ e) j in
          Ret (fadd acc (fmul p (fsub a b)))) (fun _ (_ : f32) => True) n fzero ltac:(lia) I) as (c & Ec & _).
      + intros j t Hj _. rewrite !chk_int32_ok by (unfold int32_ok; nia). cbn [bind]. rewrite chk_int32_ok by (unfold int32_ok; nia). cbn [bind].
        destruct (zget_ok (e_precision _ e) (j * n + i)) as [p Ep]; [rewrite Lp; nia|].
        destruct (zget_ok x j) as [u Eu]; [lia|]. destruct (zget_ok (e_means _ e) j) as [v Ev]; [rewrite Lm; lia|].
        exists (fadd t (fmul p (fsub u v))). split; [|exact I]. change f32 with (num (f32_arith ef lf tf)).
        rewrite Ep. cbn [bind]. change (num (f32_arith ef lf tf)) with f32. rewrite Eu. cbn [bind].
        change f32 with (num (f32_arith ef lf tf)). rewrite Ev. reflexivity.
      + destruct (zget_ok x i) as [u Eu]; [lia|]. destruct (zget_ok (e_means _ e) i) as [v Ev]; [rewrite Lm; lia|].
        exists (fadd s (fmul c (fsub u v))). split; [|exact I]. simpl in Ec, Ev. simpl. rewrite Ec. cbn [bind]. rewrite Eu. cbn [bind]. rewrite Ev. reflexivity.
    - exists d. exact Ed. }
  destruct T as [d Ed]. exists d. split; [|exact Ed]. unfold eml_elliptic_envelope_predict.
  rewrite <- E, Z.eqb_refl. cbn [negb]. rewrite Ed. cbn [bind]. cbv zeta.
  assert (K : nltb (f32_arith ef lf tf) (nsub (f32_arith ef lf tf) (nneg (f32_arith ef lf tf) d) (e_decision_boundary _ e)) (nzero (f32_arith ef lf tf)) = fltb (Bopp d) (e_decision_boundary _ e)) by apply (fsub_sign (Bopp d)).
  rewrite K. reflexivity.
Qed.
(** The same over the reals. *)
Theorem C43_outlier_exact (P : list (list R)) (x m : list R) (b : R) : square (zlen x) P -> zlen m = zlen x -> zlen x < 46341 ->
  let e := generate_code real_arith (map Fin m) (map (map Fin) P) (Fin b) in
  exists o, eml_elliptic_envelope_predict real_arith e (map Fin x) (zlen x) = Ret (o, Some (Fin (mahalanobis2 P x m))) /\
    (o = 1 <-> (- mahalanobis2 P x m < b)%R) /\ (o = 0 <-> (b <= - mahalanobis2 P x m)%R).
Proof.
  intros S L B e. unfold eml_elliptic_envelope_predict. subst e. unfold generate_code. cbn [e_n_features e_means e_precision e_decision_boundary].
  change (num real_arith) with xreal. rewrite zlen_Fin, L, Z.eqb_refl. cbn [negb].
  pose proof (distance_ok P x m S L B) as D. change (num real_arith) with xreal in D. rewrite D. cbn [bind]. simpl.
  destruct (Rlt_dec (- mahalanobis2 P x m - b) 0); eexists; (split; [reflexivity|]); split; split; intros; try lra; try lia; try discriminate; auto; lra.
Qed.
(** Python predict (1 inlier, -1 outlier) against the C answer (0 inlier, 1 outlier): they differ
    exactly when the distance is on the boundary. *)
Theorem C43_python_decision_partial (P : list (list R)) (x m : list R) (b : R) : square (zlen x) P -> zlen m = zlen x -> zlen x < 46341 ->
  let w := make_wrapper real_arith (map Fin m) (map (map Fin) P) (Fin b) in
  exists o a, eml_elliptic_envelope_predict real_arith (w_code _ w) (map Fin x) (zlen x) = Ret (o, Some (Fin (mahalanobis2 P x m))) /\
    wrapper_predict real_arith w [map Fin x] = Ret [a] /\ (a = 1 \/ a = -1) /\
    ((o = 0 <-> a = 1) <-> (- mahalanobis2 P x m <> b)%R).
Proof.
  intros S L B w. destruct (C43_outlier_exact P x m b S L B) as (o & E & H1 & H0). exists o.
  unfold wrapper_predict, wrapper_mahalanobis, generated_predict. subst w. unfold make_wrapper. cbn [mapM w_code w_means w_precision w_offset].
  rewrite (py_distance_ok P x m S L). change (num real_arith) with xreal in E |- *. cbn [bind mapM]. rewrite zlen_Fin.
  rewrite E. cbn [bind mapM map]. simpl.
  destruct (Rlt_dec 0 (- mahalanobis2 P x m - b)); eexists; (split; [reflexivity|]); (split; [reflexivity|]); (split; [auto|]).
  - split; [intros _; lra|]. intros _. split; auto. intros _. apply H0. lra.
  - split.
    + intros [A _] EQ. assert (O0 : o = 0) by (apply H0; lra). specialize (A O0). lia.
    + intros NE. split; [intros O0; apply H0 in O0; lra|lia].
Qed.
Theorem C43_python_decision_refuted : exists (P : list (list R)) (x m : list R) (b : R),
  let w := make_wrapper real_arith (map Fin m) (map (map Fin) P) (Fin b) in
  square (zlen x) P /\ zlen m = zlen x /\
  eml_elliptic_envelope_predict real_arith (w_code _ w) (map Fin x) (zlen x) = Ret (0, Some (Fin (mahalanobis2 P x m))) /\
  wrapper_predict real_arith w [map Fin x] = Ret [-1].
Proof.
  exists [[2%R; 1%R]; [0%R; 1%R]], [3%R; 1%R], [1%R; 1%R], (-8)%R. intros w.
  assert (S : square (zlen [3%R; 1%R]) [[2%R; 1%R]; [0%R; 1%R]]) by (split; [reflexivity|repeat constructor]).
  split; [exact S|]. split; [reflexivity|].
  assert (D : mahalanobis2 [[2%R; 1%R]; [0%R; 1%R]] [3%R; 1%R] [1%R; 1%R] = 8%R).
  { unfold mahalanobis2, quad, sumr, zlen. simpl. unfold vec, mat, vec. simpl. unfold vec. simpl. lra. }
  destruct (C43_python_decision_partial [[2%R; 1%R]; [0%R; 1%R]] [3%R; 1%R] [1%R; 1%R] (-8)%R S eq_refl ltac:(unfold zlen; simpl; lia)) as (o & a & E1 & E2 & Hw & HH).
  fold w in E1, E2. destruct (C43_outlier_exact [[2%R; 1%R]; [0%R; 1%R]] [3%R; 1%R] [1%R; 1%R] (-8)%R S eq_refl ltac:(unfold zlen; simpl; lia)) as (o' & E3 & _ & H0).
  assert (EQ : o' = o). { assert (Q : Ret (o', Some (Fin (mahalanobis2 [[2%R; 1%R]; [0%R; 1%R]] [3%R; 1%R] [1%R; 1%R]))) = Ret (o, Some (Fin (mahalanobis2 [[2%R; 1%R]; [0%R; 1%R]] [3%R; 1%R] [1%R; 1%R])))) by (rewrite <- E1, <- E3; reflexivity). now injection Q. }
  subst o'. rewrite D in H0, HH. assert (O : o = 0) by (apply H0; lra). subst o. split; [exact E1|].
  rewrite E2. do 2 f_equal. destruct Hw as [->| ->]; [|reflexivity]. exfalso. apply HH; [tauto|lra].
Qed.
(** A concrete float32 run: P = [[2;1];[0;1]], m = (1,1), x = (3,2): distance 2*4 + 1*2*1 + 1 = 11. *)
Definition fz (z : Z) : f32 := f_of_Z z.
Definition fval (x : f32) (z : Z) : bool := fleb x (fz z) && fleb (fz z) x.
Example C43_instance ef lf tf :
  let A := f32_arith ef lf tf in
  let w := make_wrapper A [fz 1; fz 1] [[fz 2; fz 1]; [fz 0; fz 1]] (fz (-10)) in
  (let* (o, d) := eml_elliptic_envelope_predict A (w_code _ w) [fz 3; fz 2] 2 in
   let* ws := wrapper_predict A w [[fz 3; fz 2]; [fz 1; fz 2]] in
   Ret (o, match d with Some d => fval d 11 | None => false end, ws)) = Ret (1, true, [-1; 1]).
Proof. vm_compute. reflexivity. Qed.

(** ** C58: rows of the wrong length *)
(** The C function answers the code of EmlSizeMismatch, which is the answer for an outlier; *)
Theorem C58_wrong_length_refuted A (e : envelope A) x n : n <> e_n_features A e ->
  eml_elliptic_envelope_predict A e x n = Ret (1, None).
Proof. intros H. unfold eml_elliptic_envelope_predict. destruct (Z.eqb_spec n (e_n_features A e)); [contradiction|reflexivity]. Qed.
(** the Python wrapper raises AssertionError, in any arithmetic, at the first such row (the rows before it are
    calculated without error). *)
Theorem C58_python_wrong_length A (w : wrapper A) before x after ps : mapM (fun x => squared_mahalanobis_distance A x (w_means A w) (w_precision A w)) before = Ret ps ->
  zlen x <> zlen (w_means A w) ->
  wrapper_mahalanobis A w (before ++ x :: after) = Err AssertionError_ /\
  wrapper_score_samples A w (before ++ x :: after) = Err AssertionError_ /\
  wrapper_predict A w (before ++ x :: after) = Err AssertionError_.
Proof.
  intros HB H. assert (E : wrapper_mahalanobis A w (before ++ x :: after) = Err AssertionError_).
  { unfold wrapper_mahalanobis. assert (M : mapM (fun x => squared_mahalanobis_distance A x (w_means A w) (w_precision A w)) (before ++ x :: after) = Err AssertionError_); [|rewrite M; reflexivity].
    revert ps HB. induction before as [|y before IH]; intros ps HB; cbn [app mapM].
    - assert (Q : squared_mahalanobis_distance A x (w_means A w) (w_precision A w) = Err AssertionError_).
      { unfold squared_mahalanobis_distance. destruct (Z.eqb_spec (zlen x) (zlen (w_means A w))); [contradiction|reflexivity]. }
      rewrite Q. reflexivity.
    - cbn [mapM] in HB. apply bind_Ret in HB as (p & Ep & HB). apply bind_Ret in HB as (ps' & Eps & _). rewrite Ep. cbn [bind].
      rewrite (IH ps' Eps). reflexivity. }
  split; [exact E|]. unfold wrapper_score_samples, wrapper_predict. rewrite E. split; reflexivity.
Qed.
Example C58_instance ef lf tf :
  let A := f32_arith ef lf tf in
  let w := make_wrapper A [fz 1; fz 1] [[fz 2; fz 1]; [fz 0; fz 1]] (fz (-10)) in
  wrapper_predict A w [[fz 300; fz 2]; [fz 1000]] = Err AssertionError_ /\ eml_elliptic_envelope_predict A (w_code _ w) [fz 1000] 1 = Ret (1, None).
Proof. split; vm_compute; reflexivity. Qed.
