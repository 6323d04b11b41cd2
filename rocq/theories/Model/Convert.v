(** Model of convert.py: the choice of the wrapper, and the methods of the model that is returned. *)
From Coq Require Import String ZArith List Bool.
From Flocq Require Import Core BinarySingleNaN.
From Verif.Base Require Import Res CInt Float Arith.
From Verif.Model Require Import Common Text Cgen TreesConvert TreesC Net Distance Bayes Neighbors Harness
  TreesWrapper TreesRun NetRun NeighborsRun DistanceRun BayesRun MixtureRun.
Import ListNotations.
Open Scope Z_scope.
Open Scope string_scope.
Open Scope res_scope.

(** trees.py:16-23  SUPPORTED_ESTIMATORS *)
Definition SUPPORTED_ESTIMATORS : list string :=
  [ "RandomForestClassifier"; "ExtraTreesClassifier"; "DecisionTreeClassifier";
    "RandomForestRegressor"; "ExtraTreesRegressor"; "DecisionTreeRegressor" ].

(** The attributes of the estimator that the wrappers read: which family it belongs to. Trees: tree_ of each of
    estimators_ (or of the estimator), n_features_in_, and n_classes_, which regression trees do not have. *)
Inductive attributes : Type :=
  | AttrTrees (trees : sk_forest) (n_features_in_ : Z) (n_classes_ : option Z)
  | AttrEnvelope (f : fitted_envelope)
  | AttrMixture (f : fitted_gmm)
  | AttrMLP (n_layers_ : Z) (activation out_activation_ : string) (coefs_ : list (list (list f64) * Z)) (intercepts_ : list (list f64))
  | AttrKeras (layers : list (keras_layer f64_arith))
  | AttrNB (f : fitted_nb)
  | AttrKNN (metric weights : string) (fit_X : list (list pynum)) (y : list pynum) (n_neighbors : Z)
  | AttrOther.
(** An estimator: type(estimator).__name__ and its attributes. *)
Record estimator : Type := mk_estimator { type_name : string; attrs : attributes }.

(** convert.py:50-56  the arguments. **kwargs: leaf_bits, use_fixedpoint, or anything else. *)
Record options : Type := mk_options {
  o_kind : option string; o_method : option string; o_dtype : option string; o_return_type : string;
  kw_leaf_bits : option (option Z); kw_use_fixedpoint : option bool; kw_other : bool }.
(** convert(estimator) *)
Definition defaults : options := mk_options None None None "classifier" None None false.

(** 'Regressor' in kind *)
Definition contains (sub s : string) : bool := match index 0 sub s with Some _ => true | None => false end.
(** The strings that trees.Wrapper and generate_c distinguish. *)
Definition method_of (s : string) : method_arg :=
  if String.eqb s "inline" then MInline else if String.eqb s "loadable" then MLoadable else MUnknown.
Definition dtype_of (s : string) : dtype_arg :=
  if String.eqb s "int16_t" then DInt16 else if String.eqb s "float" then DFloat else DOther.

(** x in list *)
Definition is_in (s : string) (l : list string) : bool := existsb (String.eqb s) l.

Section Convert.
Context (float_str : f64 -> text) (log2_fn : f64 -> f64) (log_det_fn : list (list (list f64)) -> Z -> list f64).
Context (expf logf tanhf : f32 -> f32).
(** What the local array of eml_bayes_predict holds at first. *)
Context (junk : list Z).

(** The wrappers; distance.Wrapper keeps the estimator's numbers too. *)
Inductive converted : Type :=
  | MTrees (w : wrapper) | MEnvelope (f : fitted_envelope) (e : envelope (f32_arith expf logf tanhf)) | MMixture (w : gmm_wrapper)
  | MNet (w : net_model expf logf tanhf) | MNB (m : bayes_model) | MKNN (m : neighbors_model).

(** trees.py:679-739: an attribute that is not there is an AttributeError: tree_ at once, n_classes_ (only asked for by
    classifiers) after the trees have been converted. An unknown keyword is a TypeError. *)
Definition trees_wrapper (e : estimator) (o : options) : res wrapper :=
  match kw_use_fixedpoint o, kw_other o with
  | None, false =>
      let leaf_bits := match kw_leaf_bits o with Some b => b | None => None end in
      let classifier := negb (contains "Regressor" (type_name e)) in
      match attrs e with
      | AttrTrees trees n_features n_classes =>
          match n_classes with
          | Some c => wrapper_init classifier (option_map method_of (o_method o)) (option_map dtype_of (o_dtype o)) leaf_bits trees n_features c
          | None =>
              if classifier then let* _ := wrapper_init classifier None None leaf_bits trees 0 0 in Err AttributeError_
              else wrapper_init classifier (option_map method_of (o_method o)) (option_map dtype_of (o_dtype o)) leaf_bits trees n_features 0
          end
      | _ => Err AttributeError_
      end
  | _, _ => Err TypeError_
  end.
(** convert.py:83-86: net.Wrapper knows the keyword use_fixedpoint; keywords are looked at when Wrapper is called. *)
Definition net_of (e : estimator) (keras : bool) (o : options) : res (net_model expf logf tanhf) :=
  let fixedpoint := match kw_use_fixedpoint o with Some b => b | None => false end in
  let bad := match kw_leaf_bits o, kw_other o with None, false => false | _, _ => true end in
  match attrs e, keras with
  | AttrMLP n a oa ws bs, false =>
      if (n <? 3)%Z then Err ValueError_ else if bad then Err TypeError_
      else convert_sklearn_mlp expf logf tanhf n a oa ws bs (o_method o) (o_return_type o) fixedpoint
  | AttrKeras layers, true =>
      do* convert_keras f64_arith layers;
      if bad then Err TypeError_ else convert_keras_model expf logf tanhf layers (o_method o) (o_return_type o) fixedpoint
  | _, _ => Err AttributeError_
  end.

(** convert.py:50-94  convert *)
Definition convert (e : estimator) (o : options) : res converted :=
  let kind := match o_kind o with None => type_name e | Some k => k end in
  if is_in kind SUPPORTED_ESTIMATORS then let* w := trees_wrapper e o in Ret (MTrees w)
  else if is_in kind ["EllipticEnvelope"] then
    match attrs e with AttrEnvelope f => let* m := elliptic_wrapper float_str expf logf tanhf (o_method o) f in Ret (MEnvelope f m) | _ => Err AttributeError_ end
  else if is_in kind ["GaussianMixture"; "BayesianGaussianMixture"] then
    match attrs e with AttrMixture f => let* w := gmm_init log_det_fn (o_method o) f in Ret (MMixture w) | _ => Err AttributeError_ end
  else if is_in kind ["MLPClassifier"; "MLPRegressor"] then let* w := net_of e false o in Ret (MNet w)
  else if String.eqb kind "Sequential" then let* w := net_of e true o in Ret (MNet w)
  else if String.eqb kind "GaussianNB" then
    match attrs e with AttrNB f => let* m := nb_init float_str log2_fn (o_method o) f in Ret (MNB m) | _ => Err AttributeError_ end
  else if is_in kind ["KNeighborsClassifier"] then
    match attrs e with AttrKNN metric weights X y k => let* m := knn_init metric weights (o_method o) X y k in Ret (MKNN m) | _ => Err AttributeError_ end
  else Err ValueError_.

(** predict: trees.py:829-835, distance.py:124-133, mixture.py:348-351, net.py:95-102, bayes.py:123-124, neighbors.py:92-93 *)
Definition model_predict (m : converted) (X : list (list f64)) : res (list pynum) :=
  match m with
  | MTrees w => wrapper_predict w X
  | MEnvelope f e => let* ys := elliptic_predict expf logf tanhf f e X in Ret (map PyInt ys)
  | MMixture w => let* ys := gmm_predict float_str expf logf tanhf w X in Ret (map PyInt ys)
  | MNet w => net_predict expf logf tanhf w X
  | MNB b => nb_predict junk b X
  | MKNN k => knn_predict k X
  end.
(** predict_proba: trees.py:839-846, net.py:92-93, mixture.py:338-346; neighbors.py:89-90 raises NotImplementedError
    (RuntimeError_ here); bayes.Wrapper and distance.Wrapper have no such method. *)
Definition model_predict_proba (m : converted) (X : list (list f64)) : res (list (list (option f64))) :=
  match m with
  | MTrees w => wrapper_predict_proba w X
  | MNet w => net_predict_proba expf logf tanhf w X
  | MMixture w => let* ps := gmm_predict_proba float_str expf logf tanhf w X in Ret (map (map Some) ps)
  | MKNN _ => Err RuntimeError_
  | MNB _ | MEnvelope _ _ => Err AttributeError_
  end.
(** score_samples: distance.py:120-122, mixture.py:353-363; the others have no such method. *)
Definition model_score_samples (m : converted) (X : list (list f64)) : res (list f64) :=
  match m with
  | MEnvelope f e => elliptic_score_samples expf logf tanhf f e X
  | MMixture w => gmm_score_samples float_str expf logf tanhf w X
  | _ => Err AttributeError_
  end.
End Convert.
