(** Several converted models in one session: properties C83, C84. *)
From Coq Require Import String ZArith List Bool Lia.
From Flocq Require Import Core BinarySingleNaN.
From Verif.Base Require Import Res CInt Float.
From Verif.Model Require Import Common TreesConvert TreesC TreesWrapper Neighbors Harness TreesRun NeighborsRun Workspace.
From Verif.Spec Require Import WorkspaceSpec.
From Verif.Proof Require Import Workspace.
From Verif.Props Require Import Samples.
Import ListNotations.
Open Scope Z_scope.
Open Scope res_scope.

Lemma constructed k src : answer [New k src] = Some (OModel 0) -> builds src.
Proof. intros E. pose proof (new_outcome [] k src) as H. cbn [app] in H. rewrite E in H. apply H. Qed.

(** ** C83  A model predicts with its own code, whatever else happens in the session *)
(** True when no later model of the same kind is converted: the answer is that of a session with this model only. *)
Theorem C83_own_code_partial h1 k src h2 X : answer [New k src] = Some (OModel 0) -> without k h2 ->
  answer (h1 ++ New k src :: h2 ++ [Predict (made h1) X]) = answer [New k src; Predict 0 X] /\
  answer (h1 ++ New k src :: h2 ++ [PredictProba (made h1) X]) = answer [New k src; PredictProba 0 X].
Proof. intros H W. exact (new_alone h1 k src h2 X (constructed k src H) W). Qed.
(** Otherwise predict runs the program built last for that kind of model. *)
Theorem C83_taken_over h1 k src h2 src' h3 func X : answer [New k src] = Some (OModel 0) ->
  src_call src' = Ret (PClassify func) -> without k h3 ->
  answer (h1 ++ New k src :: (h2 ++ New k src' :: h3) ++ [Predict (made h1) X]) = Some (OPredictions (predict func (src_dtype src) X)).
Proof. intros H. exact (taken_over h1 k src h2 src' h3 func X (constructed k src H)). Qed.
(** Whether a model can be constructed does not depend on the history. *)
Theorem C83_construction h k src :
  answer (h ++ [New k src]) = Some (OModel (made h)) <-> answer [New k src] = Some (OModel 0).
Proof.
  pose proof (new_outcome h k src) as A. pose proof (new_outcome [] k src) as B. cbn [app] in B.
  destruct (answer (h ++ [New k src])) as [[i|e|o|o]|]; try tauto; destruct (answer [New k src]) as [[j|e'|o'|o']|]; try tauto.
  - destruct A as [_ ->]. destruct B as [_ ->]. unfold made; cbn. split; reflexivity.
  - split; discriminate.
Qed.

(** Two nearest-neighbour models: the first predicts 1 for the row 4; after converting the second it predicts 3. *)
Definition knn_source (labels : list pynum) : source :=
  mk_source (let* m := knn_init "euclidean" "uniform" None [[PyInt 1]; [PyInt 5]] labels 1 in
             Ret (PClassify (knn_predict_func m (repeat (mk_dist 0 0) 2)))) None OutInt 0.
Definition first_model : source := knn_source [PyInt 0; PyInt 1].
Definition second_model : source := knn_source [PyInt 2; PyInt 3].
Theorem C83_own_code_refuted :
  answer [New KNeighbors first_model] = Some (OModel 0) /\
  answer [New KNeighbors first_model; Predict 0 [[q 4 1]]] = Some (OPredictions (Ret [PyInt 1])) /\
  answer [New KNeighbors first_model; New KNeighbors second_model; Predict 0 [[q 4 1]]] = Some (OPredictions (Ret [PyInt 3])).
Proof. repeat split; vm_compute; reflexivity. Qed.
(** The same happens when converting the second model raises after its first program was built. *)
Definition const_program (z : Z) : program := PClassify (fun _ _ => Ret (f_of_Z z)).
Theorem C83_failed_conversion_refuted :
  let net1 := mk_source (Ret (const_program 1)) (Some (Ret (PProba (fun o _ _ => Ret o)))) OutInt 2 in
  let net2 := mk_source (Ret (const_program 2)) (Some (Err CompileError)) OutInt 2 in
  answer [New KNet net1; New KNet net2] = Some (ORaised CompileError) /\
  answer [New KNet net1; Predict 0 [[q 4 1]]] = Some (OPredictions (Ret [PyInt 1])) /\
  answer [New KNet net1; New KNet net2; Predict 0 [[q 4 1]]] = Some (OPredictions (Ret [PyInt 2])).
Proof. repeat split; vm_compute; reflexivity. Qed.
Example C83_instance :
  without KNeighbors [New KBayes second_model; NewTrees first_model; Predict 1 [[q 4 1]]] /\
  answer [NewTrees second_model; New KNeighbors first_model; New KBayes second_model; Predict 0 [[q 4 1]]; Predict 1 [[q 4 1]]] =
    Some (OPredictions (Ret [PyInt 1])).
Proof. split; [repeat constructor; discriminate|]. vm_compute. reflexivity. Qed.

(** ** C84  A tree model predicts with its own code in every session *)
Theorem C84_own_code h1 src h2 X :
  answer (h1 ++ NewTrees src :: h2 ++ [Predict (made h1) X]) = answer [NewTrees src; Predict 0 X] /\
  answer (h1 ++ NewTrees src :: h2 ++ [PredictProba (made h1) X]) = answer [NewTrees src; PredictProba 0 X].
Proof. exact (trees_alone h1 src h2 X). Qed.
(** And that is predict of the compiled code, or the exception of generating or compiling it. *)
Theorem C84_alone call proba dt n X :
  answer [NewTrees (mk_source call proba dt n); Predict 0 X] = Some (OPredictions (
    let* p := call in
    do* match proba with Some (Err e) => Err e | _ => Ret tt end;
    match p with PClassify func => predict func dt X | PProba _ => Err RuntimeError_ end)).
Proof.
  unfold answer. cbn. destruct call as [[func|func]|e]; cbn; [| |reflexivity]; destruct proba as [[p|e]|]; cbn; reflexivity.
Qed.
Example C84_instance :
  answer [NewTrees first_model; NewTrees second_model; Predict 1 [[q 4 1]]; Predict 0 [[q 4 1]]] = Some (OPredictions (Ret [PyInt 1])) /\
  answer [NewTrees first_model; NewTrees second_model; Predict 0 [[q 4 1]]; Predict 1 [[q 4 1]]] = Some (OPredictions (Ret [PyInt 3])).
Proof. split; vm_compute; reflexivity. Qed.
