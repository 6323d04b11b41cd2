(** The kinds of estimators that can be converted. *)
From Coq Require Import String ZArith List Bool.
From Verif.Base Require Import Res Float Arith.
From Verif.Model Require Import Net NetRun Convert.
Import ListNotations.
Open Scope string_scope.

Inductive family : Type := FTrees | FEnvelope | FMixture | FMLP | FKeras | FNB | FKNN.
(** The documentation's list of supported classes, with what each one is. *)
Definition supported : list (string * family) :=
  [ ("RandomForestClassifier", FTrees); ("ExtraTreesClassifier", FTrees); ("DecisionTreeClassifier", FTrees);
    ("RandomForestRegressor", FTrees); ("ExtraTreesRegressor", FTrees); ("DecisionTreeRegressor", FTrees);
    ("EllipticEnvelope", FEnvelope); ("GaussianMixture", FMixture); ("BayesianGaussianMixture", FMixture);
    ("MLPClassifier", FMLP); ("MLPRegressor", FMLP); ("Sequential", FKeras); ("GaussianNB", FNB); ("KNeighborsClassifier", FKNN) ].
(** What a fitted estimator is, by its attributes. *)
Definition is_family (f : family) (a : attributes) : Prop :=
  match f, a with
  | FTrees, AttrTrees _ _ _ | FEnvelope, AttrEnvelope _ | FMixture, AttrMixture _ | FMLP, AttrMLP _ _ _ _ _ | FKeras, AttrKeras _ | FNB, AttrNB _
  | FKNN, AttrKNN _ _ _ _ _ => True
  | _, _ => False
  end.
(** The kind asked for: given, or the name of the type. *)
Definition asked_kind (e : estimator) (o : options) : string := match o_kind o with Some k => k | None => type_name e end.
(** Names of regressors. *)
Definition names_regressor (s : string) : Prop := exists p q, s = p ++ "Regressor" ++ q.
(** A multilayer perceptron with hidden layers [ws], [bs] and output layer [wl], [bl]; its layers. *)
Definition mlp_estimator (name act out_act : string) (ws : list (list (list f64) * Z)) (bs : list (list f64)) (wl : list (list f64) * Z) (bl : list f64) : estimator :=
  mk_estimator name (AttrMLP (zlen ws + 2) act out_act (List.app ws [wl]) (List.app bs [bl])).
Definition mlp_layers (act out_act : string) (ws : list (list (list f64) * Z)) (bs : list (list f64)) (wl : list (list f64) * Z) (bl : list f64) : list fit_layer :=
  List.app (map (fun '(w, b) => mk_pylayer f64_arith act (fst w) (snd w) b) (combine ws bs)) [mk_pylayer f64_arith out_act (fst wl) (snd wl) bl].
