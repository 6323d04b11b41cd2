(** Sessions with several converted models. *)
From Coq Require Import String ZArith List Bool Lia.
From Verif.Base Require Import Res.
From Verif.Model Require Import Harness Workspace.
From Verif.Spec Require Import WorkspaceSpec.
Import ListNotations.
Open Scope string_scope.
Open Scope list_scope.

Lemma run_app a : forall s b, run s (a ++ b) = let '(s1, o1) := run s a in let '(s2, o2) := run s1 b in (s2, o1 ++ o2).
Proof.
  induction a as [|o a IH]; intros s b; cbn [app run].
  - destruct (run s b); reflexivity.
  - destruct (step s o) as [s1 out]. rewrite IH. destruct (run s1 a) as [s2 o2]. destruct (run s2 b). reflexivity.
Qed.
Lemma answer_last ops o : answer (ops ++ [o]) = Some (snd (step (fst (run start ops)) o)).
Proof.
  unfold answer. rewrite run_app. destruct (run start ops) as [s1 o1]. cbn [run]. destruct (step s1 o) as [s2 out] eqn:E.
  cbn. rewrite E. cbn. rewrite map_app. cbn. apply last_last.
Qed.

(** Models are only added. *)
Lemma step_models s o : exists l, s_models (fst (step s o)) = s_models s ++ l /\
  length l = if match snd (step s o) with OModel _ => true | _ => false end then 1%nat else 0%nat.
Proof.
  destruct o as [k src|src|i X|i X]; cbn [step].
  - destruct (compiled_classifier _ _ _ _ _ _) as [fs [c|e]]; cbn; [exists [MCompiled c]|exists []; rewrite app_nil_r]; auto.
  - exists [MTrees src]. auto.
  - destruct (nth_error _ i) as [[c|src]|]; [| destruct (compiled_classifier _ _ _ _ _ _) as [fs r] |]; exists []; rewrite app_nil_r; auto.
  - destruct (nth_error _ i) as [[c|src]|]; [| destruct (compiled_classifier _ _ _ _ _ _) as [fs r] |]; exists []; rewrite app_nil_r; auto.
Qed.
Lemma run_models ops : forall s, exists l, s_models (fst (run s ops)) = s_models s ++ l /\
  length l = length (filter (fun o => match o with OModel _ => true | _ => false end) (snd (run s ops))).
Proof.
  induction ops as [|o ops IH]; intros s; cbn [run].
  - exists []. rewrite app_nil_r. auto.
  - destruct (step_models s o) as (l1 & E1 & L1). destruct (step s o) as [s1 out]. cbn [fst snd] in *.
    destruct (IH s1) as (l2 & E2 & L2). destruct (run s1 ops) as [s2 outs]. cbn [fst snd] in *.
    exists (l1 ++ l2). rewrite E2, E1, app_assoc. split; [reflexivity|]. rewrite app_length, L1, L2. cbn [filter].
    destruct out; reflexivity.
Qed.
Lemma made_models ops : length (s_models (fst (run start ops))) = made ops.
Proof. destruct (run_models ops start) as (l & E & L). rewrite E. exact L. Qed.
Lemma nth_kept (l l' : list model) (m : model) : nth_error ((l ++ [m]) ++ l') (length l) = Some m.
Proof. rewrite <- app_assoc, nth_error_app2, PeanoNat.Nat.sub_diag by lia. reflexivity. Qed.

(** Files under other names stay. *)
Lemma file_kept fs name call proba dt n path : path <> name -> path <> (name ++ "_proba")%string ->
  file_at (fst (compiled_classifier fs name call proba dt n)) path = file_at fs path.
Proof.
  intros N1 N2. unfold compiled_classifier, build_classifier.
  assert (E1 : (name =? path)%string = false) by (apply String.eqb_neq; congruence).
  assert (E2 : ((name ++ "_proba")%string =? path)%string = false) by (apply String.eqb_neq; congruence).
  destruct call as [p|e]; [|reflexivity]. destruct proba as [[q|e]|]; cbn [fst file_at]; rewrite ?E1, ?E2; reflexivity.
Qed.
Lemma kind_names k k' : k <> k' -> kind_name k <> kind_name k' /\ (kind_name k ++ "_proba")%string <> kind_name k' /\ (kind_name k ++ "_proba")%string <> (kind_name k' ++ "_proba")%string.
Proof. destruct k, k'; intros N; try congruence; repeat split; cbn; discriminate. Qed.

(** The two paths a model of kind k uses *)
Definition path_of (k : kind) (path : string) : Prop := path = kind_name k \/ path = (kind_name k ++ "_proba")%string.
Lemma step_files s o k path : path_of k path -> match o with New k' _ => k' <> k | _ => True end ->
  file_at (s_files (fst (step s o))) path = file_at (s_files s) path.
Proof.
  intros P N. destruct o as [k' src|src|i X|i X]; cbn [step].
  - assert (N1 : path <> kind_name k' /\ path <> (kind_name k' ++ "_proba")%string).
    { destruct P as [-> | ->]; destruct k, k'; try congruence; split; cbn; discriminate. }
    pose proof (file_kept (s_files s) (kind_name k') (src_call src) (src_proba src) (src_dtype src) (src_n_classes src) path (proj1 N1) (proj2 N1)) as E.
    destruct (compiled_classifier _ _ _ _ _ _) as [fs [c|e]]; cbn in *; exact E.
  - reflexivity.
  - assert (N1 : path <> tree_name /\ path <> (tree_name ++ "_proba")%string).
    { destruct P as [-> | ->]; destruct k; split; cbn; discriminate. }
    destruct (nth_error _ i) as [[c|src]|]; try reflexivity.
    pose proof (file_kept (s_files s) tree_name (src_call src) (src_proba src) (src_dtype src) (src_n_classes src) path (proj1 N1) (proj2 N1)) as E.
    destruct (compiled_classifier _ _ _ _ _ _) as [fs r]; cbn in *; exact E.
  - assert (N1 : path <> tree_name /\ path <> (tree_name ++ "_proba")%string).
    { destruct P as [-> | ->]; destruct k; split; cbn; discriminate. }
    destruct (nth_error _ i) as [[c|src]|]; try reflexivity.
    pose proof (file_kept (s_files s) tree_name (src_call src) (src_proba src) (src_dtype src) (src_n_classes src) path (proj1 N1) (proj2 N1)) as E.
    destruct (compiled_classifier _ _ _ _ _ _) as [fs r]; cbn in *; exact E.
Qed.
Lemma run_files ops : forall s k path, path_of k path -> without k ops -> file_at (s_files (fst (run s ops))) path = file_at (s_files s) path.
Proof.
  induction ops as [|o ops IH]; intros s k path P N; [reflexivity|]. inversion N as [|? ? N1 N2]; subst. cbn [run].
  pose proof (step_files s o k path P N1) as E. destruct (step s o) as [s1 out]. cbn in E.
  specialize (IH s1 k path P N2). destruct (run s1 ops) as [s2 outs]. cbn in *. congruence.
Qed.

(** ** Trees: always the model's own program *)
Lemma trees_predict fs src X : let '(fs', r) := compiled_classifier fs tree_name (src_call src) (src_proba src) (src_dtype src) (src_n_classes src) in
  (let* c := r in compiled_predict fs' c X) =
  let '(fs', r) := compiled_classifier [] tree_name (src_call src) (src_proba src) (src_dtype src) (src_n_classes src) in
  (let* c := r in compiled_predict fs' c X).
Proof.
  unfold compiled_classifier, build_classifier, compiled_predict. destruct (src_call src) as [p|e]; [|reflexivity].
  destruct (src_proba src) as [[q|e]|]; reflexivity.
Qed.
Lemma trees_predict_proba fs src X : let '(fs', r) := compiled_classifier fs tree_name (src_call src) (src_proba src) (src_dtype src) (src_n_classes src) in
  (let* c := r in compiled_predict_proba fs' c X) =
  let '(fs', r) := compiled_classifier [] tree_name (src_call src) (src_proba src) (src_dtype src) (src_n_classes src) in
  (let* c := r in compiled_predict_proba fs' c X).
Proof.
  unfold compiled_classifier, build_classifier, compiled_predict_proba. destruct (src_call src) as [p|e]; [|reflexivity].
  destruct (src_proba src) as [[q|e]|]; reflexivity.
Qed.
Lemma trees_model h1 src h2 : nth_error (s_models (fst (run start (h1 ++ NewTrees src :: h2)))) (made h1) = Some (MTrees src).
Proof.
  rewrite run_app. pose proof (made_models h1) as M. destruct (run start h1) as [s1 o1]. cbn [fst] in M. cbn [run step].
  pose proof (run_models h2 (mk_session (s_files s1) (s_models s1 ++ [MTrees src]))) as (l & E & _).
  destruct (run _ h2) as [s2 o2]. cbn [fst] in *. rewrite E, <- M. apply nth_kept.
Qed.
Theorem trees_alone h1 src h2 X :
  answer (h1 ++ NewTrees src :: h2 ++ [Predict (made h1) X]) = answer [NewTrees src; Predict 0 X] /\
  answer (h1 ++ NewTrees src :: h2 ++ [PredictProba (made h1) X]) = answer [NewTrees src; PredictProba 0 X].
Proof.
  change (h1 ++ NewTrees src :: h2 ++ [Predict (made h1) X]) with (h1 ++ (NewTrees src :: h2) ++ [Predict (made h1) X]).
  change (h1 ++ NewTrees src :: h2 ++ [PredictProba (made h1) X]) with (h1 ++ (NewTrees src :: h2) ++ [PredictProba (made h1) X]).
  rewrite !app_assoc.
  change [NewTrees src; Predict 0 X] with ([NewTrees src] ++ [Predict 0 X]). change [NewTrees src; PredictProba 0 X] with ([NewTrees src] ++ [PredictProba 0 X]).
  rewrite !answer_last. pose proof (trees_model h1 src h2) as T. destruct (run start (h1 ++ NewTrees src :: h2)) as [s o]. cbn [fst] in *.
  cbn [step]. rewrite T. pose proof (trees_predict (s_files s) src X) as P. pose proof (trees_predict_proba (s_files s) src X) as Q.
  cbn [run step start s_models s_files app fst nth_error].
  destruct (compiled_classifier (s_files s) _ _ _ _ _) as [fs1 r1]. destruct (compiled_classifier [] _ _ _ _ _) as [fs2 r2]. cbn [snd]. now rewrite P, Q.
Qed.

(** ** Other models: the program built last under the same name *)
Definition the_compiled (k : kind) (src : source) : compiled :=
  mk_compiled (kind_name k) (match src_proba src with Some _ => Some (kind_name k ++ "_proba")%string | None => None end) (src_dtype src) (src_n_classes src).
Definition builds (src : source) : Prop :=
  (exists p, src_call src = Ret p) /\ match src_proba src with Some (Err _) => False | _ => True end.
Lemma new_compiled fs k src : builds src ->
  exists fs', compiled_classifier fs (kind_name k) (src_call src) (src_proba src) (src_dtype src) (src_n_classes src) = (fs', Ret (the_compiled k src)) /\
    file_at fs' (kind_name k) = src_call src /\
    (forall q, src_proba src = Some q -> file_at fs' (kind_name k ++ "_proba")%string = q).
Proof.
  intros [[p Ep] Q]. unfold compiled_classifier, build_classifier, the_compiled. rewrite Ep.
  destruct (src_proba src) as [[q|e]|]; [| destruct Q |].
  - eexists. split; [reflexivity|]. cbn [file_at]. rewrite !String.eqb_refl. split.
    + destruct k; reflexivity.
    + intros ? [= <-]. reflexivity.
  - eexists. split; [reflexivity|]. cbn [file_at]. rewrite !String.eqb_refl. split; [reflexivity|discriminate].
Qed.
Lemma model_kept h1 k src h2 : builds src -> nth_error (s_models (fst (run start (h1 ++ New k src :: h2)))) (made h1) = Some (MCompiled (the_compiled k src)).
Proof.
  intros B. rewrite run_app. pose proof (made_models h1) as M. destruct (run start h1) as [s1 o1]. cbn [fst] in M. cbn [run step].
  destruct (new_compiled (s_files s1) k src B) as (fs' & E & _). rewrite E.
  pose proof (run_models h2 (mk_session fs' (s_models s1 ++ [MCompiled (the_compiled k src)]))) as (l & El & _).
  destruct (run _ h2) as [s2 o2]. cbn [fst] in *. rewrite El, <- M. apply nth_kept.
Qed.
Lemma files_kept h1 k src h2 : builds src -> without k h2 ->
  file_at (s_files (fst (run start (h1 ++ New k src :: h2)))) (kind_name k) = src_call src /\
  (forall q, src_proba src = Some q -> file_at (s_files (fst (run start (h1 ++ New k src :: h2)))) (kind_name k ++ "_proba")%string = q).
Proof.
  intros B W. rewrite run_app. destruct (run start h1) as [s1 o1]. cbn [run step].
  destruct (new_compiled (s_files s1) k src B) as (fs' & E & F1 & F2). rewrite E.
  pose proof (run_files h2 (mk_session fs' (s_models s1 ++ [MCompiled (the_compiled k src)])) k _ (or_introl eq_refl) W) as G1.
  pose proof (run_files h2 (mk_session fs' (s_models s1 ++ [MCompiled (the_compiled k src)])) k _ (or_intror eq_refl) W) as G2.
  destruct (run _ h2) as [s2 o2]. cbn [fst s_files] in *. rewrite G1, G2. split; [exact F1|exact F2].
Qed.
Lemma answer_New h1 k src h2 X : builds src ->
  answer (h1 ++ New k src :: h2 ++ [Predict (made h1) X]) =
    Some (OPredictions (compiled_predict (s_files (fst (run start (h1 ++ New k src :: h2)))) (the_compiled k src) X)) /\
  answer (h1 ++ New k src :: h2 ++ [PredictProba (made h1) X]) =
    Some (OProbabilities (compiled_predict_proba (s_files (fst (run start (h1 ++ New k src :: h2)))) (the_compiled k src) X)).
Proof.
  intros B. change (h1 ++ New k src :: h2 ++ [Predict (made h1) X]) with (h1 ++ (New k src :: h2) ++ [Predict (made h1) X]).
  change (h1 ++ New k src :: h2 ++ [PredictProba (made h1) X]) with (h1 ++ (New k src :: h2) ++ [PredictProba (made h1) X]).
  rewrite !app_assoc, !answer_last. pose proof (model_kept h1 k src h2 B) as T. cbn [step]. rewrite T. split; reflexivity.
Qed.
Theorem new_alone h1 k src h2 X : builds src -> without k h2 ->
  answer (h1 ++ New k src :: h2 ++ [Predict (made h1) X]) = answer [New k src; Predict 0 X] /\
  answer (h1 ++ New k src :: h2 ++ [PredictProba (made h1) X]) = answer [New k src; PredictProba 0 X].
Proof.
  intros B W. destruct (answer_New h1 k src h2 X B) as [-> ->].
  change [New k src; Predict 0 X] with ([] ++ New k src :: [] ++ [Predict (made []) X]).
  change [New k src; PredictProba 0 X] with ([] ++ New k src :: [] ++ [PredictProba (made []) X]).
  destruct (answer_New [] k src [] X B) as [-> ->]. unfold compiled_predict, compiled_predict_proba. cbn [the_compiled cc_bin_path cc_proba_bin_path cc_out_dtype cc_n_classes].
  destruct (files_kept h1 k src h2 B W) as [F1 F2]. destruct (files_kept [] k src [] B ltac:(constructor)) as [F3 F4].
  rewrite F1, F3. split; [reflexivity|]. destruct (src_proba src) as [q|] eqn:Eq; [|reflexivity]. now rewrite (F2 _ eq_refl), (F4 _ eq_refl).
Qed.
(** A later model of the same kind takes over, even when its construction raises after the first program was built. *)
Theorem taken_over h1 k src h2 src' h3 func X : builds src -> src_call src' = Ret (PClassify func) -> without k h3 ->
  answer (h1 ++ New k src :: (h2 ++ New k src' :: h3) ++ [Predict (made h1) X]) = Some (OPredictions (predict func (src_dtype src) X)).
Proof.
  intros B C W. destruct (answer_New h1 k src (h2 ++ New k src' :: h3) X B) as [-> _]. unfold compiled_predict. cbn [the_compiled cc_bin_path cc_out_dtype].
  assert (F : file_at (s_files (fst (run start (h1 ++ New k src :: h2 ++ New k src' :: h3)))) (kind_name k) = Ret (PClassify func)).
  { change (h1 ++ New k src :: h2 ++ New k src' :: h3) with (h1 ++ (New k src :: h2) ++ New k src' :: h3). rewrite app_assoc, run_app.
    destruct (run start (h1 ++ New k src :: h2)) as [s o]. cbn [run].
    assert (G : file_at (s_files (fst (step s (New k src')))) (kind_name k) = Ret (PClassify func)).
    { cbn [step]. unfold compiled_classifier, build_classifier. rewrite C. destruct (src_proba src') as [[q|e]|]; cbn [fst s_files file_at]; rewrite ?String.eqb_refl; try reflexivity.
      destruct k; reflexivity. }
    destruct (step s (New k src')) as [s' o']. pose proof (run_files h3 s' k _ (or_introl eq_refl) W) as G3. destruct (run s' h3) as [s3 o3]. cbn [fst] in *. congruence. }
  rewrite F. reflexivity.
Qed.
(** Construction does not depend on the history. *)
Theorem new_outcome h k src : match answer (h ++ [New k src]) with
  | Some (OModel i) => builds src /\ i = made h
  | Some (ORaised e) => ~ builds src
  | _ => False end.
Proof.
  rewrite answer_last. rewrite <- made_models. destruct (run start h) as [s o]. cbn [fst]. cbn [step]. unfold compiled_classifier, build_classifier, builds.
  destruct (src_call src) as [p|e]; [|cbn; intros [[p C] _]; discriminate]. destruct (src_proba src) as [[q|e]|]; cbn; eauto. intros [_ []].
Qed.
