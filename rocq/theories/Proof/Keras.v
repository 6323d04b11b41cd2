(** Proofs about Keras models. *)
From Coq Require Import String ZArith List Bool Lia Reals Lra.
From Flocq Require Import Core BinarySingleNaN.
From Verif.Base Require Import Res CInt ListX Loops Float Arith Kernels RealSum.
From Verif.Model Require Import Common Net NetRun.
From Verif.Spec Require Import RealSpec NetSpec RoundingSpec NetRunSpec KerasSpec.
Import ListNotations.
Open Scope Z_scope.
Open Scope res_scope.

Lemma name_from a : In a keras_names -> from_keras_activation a = sklearn_name a.
Proof. cbn [keras_names In]. intros [<-|[<-|[<-|[<-|[<-|[]]]]]]; reflexivity. Qed.
Definition top (a : string) (acc : list fit_layer) : list fit_layer :=
  match acc with l :: r => mk_pylayer f64_arith a (py_weights f64_arith l) (py_n_out f64_arith l) (py_biases f64_arith l) :: r | [] => [] end.
Lemma steps ls : forall acc pending, Forall keras_ok_layer ls -> mergeable f64_arith pending ls ->
  (pending = true -> exists l r, acc = l :: r /\ py_activation f64_arith l = "identity"%string) ->
  foldM (keras_step f64_arith) acc ls =
  Ret (rev (dense_layers ls) ++ (if pending then top (sklearn_name (activation_after ls)) acc else acc)).
Proof.
  induction ls as [|l ls IH]; intros acc pending K M P.
  - cbn. destruct pending; [|reflexivity]. destruct (P eq_refl) as ([a w n b] & r & -> & E). cbn in E. subst a. reflexivity.
  - inversion K as [|? ? K1 K2]; subst.
    assert (SETA : forall a, In a keras_names -> pending = true -> mergeable f64_arith (String.eqb a "linear") ls ->
      (let* s := set_activation f64_arith acc (sklearn_name a) in foldM (keras_step f64_arith) s ls) =
      Ret (rev (dense_layers ls) ++ top (sklearn_name (if String.eqb a "linear" then activation_after ls else a)) acc)).
    { intros a IA EP MM. destruct (P EP) as ([a0 w n b] & r & -> & E). cbn in E. subst a0. cbn [set_activation bind].
      rewrite (IH _ (String.eqb a "linear") K2 MM).
      - destruct (String.eqb_spec a "linear") as [->|NA]; reflexivity.
      - intros EL. apply String.eqb_eq in EL. subst a. eexists _, _. split; reflexivity. }
    destruct l as [a ub w n b|a|dd|ax| |]; cbn [foldM keras_step keras_ok_layer mergeable] in *.
    + destruct K1 as [-> IA]. cbn [bind]. rewrite (IH _ _ K2 M).
      * cbn [dense_layers rev activation_after]. rewrite (name_from a IA), <- app_assoc. do 2 f_equal.
        assert (EI : (if pending then top (sklearn_name "linear") acc else acc) = acc).
        { destruct pending; [|reflexivity]. destruct (P eq_refl) as ([a0 w0 n0 b0] & r & -> & E). cbn in E. subst a0. reflexivity. }
        rewrite EI. destruct (String.eqb_spec a "linear") as [->|NA]; reflexivity.
      * intros EL. apply String.eqb_eq in EL. subst a. eexists _, _. split; reflexivity.
    + destruct M as [EP M]. rewrite (name_from a K1), (SETA a K1 EP M), EP. reflexivity.
    + destruct M as [EP M]. rewrite K1. change "relu"%string with (sklearn_name "relu"). rewrite (SETA "relu"%string ltac:(cbn; auto) EP M), EP. reflexivity.
    + destruct M as [EP M]. rewrite K1. change (-1 =? -1) with true. cbv iota. change "softmax"%string with (sklearn_name "softmax").
      rewrite (SETA "softmax"%string ltac:(cbn; auto 6) EP M), EP. reflexivity.
    + cbn [bind]. rewrite (IH acc pending K2 M P). reflexivity.
    + contradiction.
Qed.
Lemma converted_layers ls : Forall keras_ok_layer ls -> mergeable f64_arith false ls -> convert_keras f64_arith ls = Ret (dense_layers ls).
Proof.
  intros K M. unfold convert_keras. rewrite (steps ls [] false K M) by discriminate. cbn [bind]. rewrite app_nil_r, rev_involutive. reflexivity.
Qed.

(** ** The function *)
Definition kfold (ls : list klayer) (x : list R) : list R := fold_left (fun v l => keras_step_real l v) ls x.
Lemma act_layer a w n b x : In a keras_names ->
  rlayer_fun (real_layer (mk_pylayer f64_arith (sklearn_name a) w n b)) x =
  keras_act a (map (fun o => sumr (zlen w) (fun i => B2R (znth (fzero : f64) (nth (Z.to_nat i) w []) o) * nthr x i) + B2R (znth (fzero : f64) b o))%R (zrange n)).
Proof.
  cbn [keras_names In]. intros [<-|[<-|[<-|[<-|[<-|[]]]]]]; unfold rlayer_fun, rlinear, real_layer; cbn; try reflexivity.
  rewrite map_id. reflexivity.
Qed.
Lemma keras_act_linear x : keras_act "linear" x = x.
Proof. reflexivity. Qed.
Lemma function ls : forall pending x, Forall keras_ok_layer ls -> mergeable f64_arith pending ls ->
  kfold ls x = rnet_fun (map real_layer (dense_layers ls)) (if pending then keras_act (activation_after ls) x else x).
Proof.
  induction ls as [|l ls IH]; intros pending x K M.
  - destruct pending; reflexivity.
  - inversion K as [|? ? K1 K2]; subst.
    destruct l as [a ub w n b|a|dd|ax| |]; cbn [keras_ok_layer mergeable] in *.
    + destruct K1 as [-> IA]. change (kfold (KDense f64_arith a true w n b :: ls) x) with (kfold ls (keras_step_real (KDense f64_arith a true w n b) x)).
      rewrite (IH _ _ K2 M). cbn [activation_after dense_layers map]. rewrite keras_act_linear. replace (if pending then x else x) with x by (destruct pending; reflexivity).
      match goal with |- _ = rnet_fun (?L :: ?r) x => change (rnet_fun (L :: r) x) with (rnet_fun r (rlayer_fun L x)) end. f_equal.
      assert (AF : In (activation_after ls) keras_names).
      { clear - K2. induction ls as [|l ls IH]; [cbn; auto|]. inversion K2; subst. destruct l as [a ub w n b|a|dd|ax| |]; cbn [activation_after keras_ok_layer] in *; cbn [keras_names In]; auto 6; [|apply IH; assumption].
        destruct (String.eqb a "linear"); [apply IH; assumption|exact H1]. }
      destruct (String.eqb_spec a "linear") as [->|NA]; rewrite act_layer by assumption; reflexivity.
    + destruct M as [-> M]. change (kfold (KActivation f64_arith a :: ls) x) with (kfold ls (keras_act a x)). rewrite (IH _ _ K2 M). cbn [activation_after dense_layers].
      destruct (String.eqb_spec a "linear") as [->|NA]; [rewrite keras_act_linear|]; reflexivity.
    + destruct M as [-> M]. change (kfold (KReLU f64_arith dd :: ls) x) with (kfold ls (keras_act "relu" x)). rewrite (IH _ _ K2 M). reflexivity.
    + destruct M as [-> M]. change (kfold (KSoftmax f64_arith ax :: ls) x) with (kfold ls (keras_act "softmax" x)). rewrite (IH _ _ K2 M). reflexivity.
    + change (kfold (KDropout f64_arith :: ls) x) with (kfold ls x). rewrite (IH _ _ K2 M). reflexivity.
    + contradiction.
Qed.
Lemma same_function ls row : Forall keras_ok_layer ls -> mergeable f64_arith false ls -> fitted_net (dense_layers ls) row = keras_real ls row.
Proof. intros K M. symmetry. exact (function ls false (map B2R row) K M). Qed.
