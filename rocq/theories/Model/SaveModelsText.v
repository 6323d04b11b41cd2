(** The C text written by save() of an elliptic envelope (distance.py:43-92), of a Gaussian mixture (mixture.py:24-106)
    and of a naive Bayes model (bayes.py:20-74).
    Text is the list of its character codes. *)
From Coq Require Import String ZArith List Bool.
From Verif.Base Require Import Res CInt Float Arith.
From Verif.Model Require Import Common Text TreesC Cgen SaveText Mixture Bayes DistanceRun MixtureRun BayesRun.
Import ListNotations.
Open Scope Z_scope.
Open Scope list_scope.
Open Scope res_scope.

(** cgen.py:73-76, 100  array_declare(name, size, values=values), with the other arguments left at their defaults. *)
Definition float_array_text (name : text) (size : option Z) (modifiers : text) (values : list f64) : res text :=
  array_declare no_str name size (txt "float") modifiers (Some (map PyFloat values)) [] [].

Section Str.
(** str() of a float. *)
Context (float_str : f64 -> text).

(** ** distance.py:43  generate_code(..., modifiers='static const') *)
Definition envelope_modifiers : text := txt "static const".
(** distance.py:54-58 *)
Definition envelope_includes : text := txt "
    // This code is generated by emlearn

    #include <eml_distance.h>
    ".
(** distance.py:69-79 *)
Definition envelope_struct (classifier_name : text) (n_features : Z) (decision_boundary : f64) (means_name precisions_name : text) : text :=
  txt "
    #include <stdio.h>

    // Data definitions
    " ++ envelope_modifiers ++ txt " EmlEllipticEnvelope " ++ classifier_name ++ txt " = {
        " ++ fmt_int n_features ++ txt ",
        " ++ float_str decision_boundary ++ txt "f,
        " ++ means_name ++ txt ",
        " ++ precisions_name ++ txt "
    };
".
(** distance.py:80-88 *)
Definition envelope_function (predict_function_name classifier_name : text) : text :=
  txt "
    // Prediction function
    float " ++ predict_function_name ++ txt "(const float *features, int n_features) {
        float dist = 0.0;
        const int class = eml_elliptic_envelope_predict(&" ++ classifier_name ++ txt ",
                                features, n_features, &dist);
        return dist; 
    }
    ".
(** distance.py:43-92  generate_code *)
Definition envelope_text (f : fitted_envelope) (name : text) : res text :=
  do* assert_valid_identifier name;
  let n_features := zlen (fe_location f) in
  let classifier_name := name ++ txt "_classifier" in
  let means_name := name ++ txt "_means" in
  let precisions_name := name ++ txt "_precisions" in
  let* means := float_array_text means_name (Some n_features) envelope_modifiers (fe_location f) in
  let* precisions := float_array_text precisions_name (Some (n_features * n_features)) envelope_modifiers (concat (fe_precision f)) in
  let pre := join_with (txt "

") [envelope_includes; means; precisions] in
  Ret (pre ++ envelope_struct classifier_name n_features (fe_offset f) means_name precisions_name ++
       envelope_function (name ++ txt "_predict") classifier_name).

(** ** mixture.py:17-20  get_covariance_type, of what the wrapper keeps: 'full' (mixture.py:316) *)
Definition full_covariance : text := txt "EmlCovarianceFull".
(** mixture.py:56-63 *)
Definition mixture_log_proba_function (function_name model_name : text) : text :=
  txt "
        int32_t
        " ++ function_name ++ txt "(const float values[], int32_t values_length, float *out)
        {

            return eml_mixture_predict_log_proba(&" ++ model_name ++ txt ",
                                values, values_length,
                                out);
        }

".
(** mixture.py:65-73 *)
Definition mixture_score_function (function_name model_name : text) : text :=
  txt "
        EmlError
        " ++ function_name ++ txt "(const float values[], int32_t values_length, float *probabilities, float *score)
        {

            return eml_mixture_score(&" ++ model_name ++ txt ",
                                values, values_length,
                                probabilities, score);
        }
".
(** mixture.py:75-83 *)
Definition mixture_proba_function (function_name model_name : text) : text :=
  txt "
        int32_t
        " ++ function_name ++ txt "(const float values[], int32_t values_length, float *probabilities, float *score, float *resp)
        {

            return eml_mixture_predict_proba(&" ++ model_name ++ txt ",
                                values, values_length,
                                probabilities, score, resp);
        }
    ".
(** mixture.py:85-93  model_init *)
Definition mixture_struct (model_name : text) (n_components n_features : Z) (covar_type means precisions log_dets log_weights : text) : text :=
  txt "EmlMixtureModel " ++ model_name ++ txt " = " ++
  struct_init [fmt_int n_components; fmt_int n_features; covar_type; means; precisions; log_dets; log_weights] ++ txt ";
".
(** mixture.py:95-99 *)
Definition mixture_preamble : text := txt "
    // !! This file was generated using emlearn

    #include <eml_mixture.h>
    ".
(** mixture.py:24-106  generate_code *)
Definition mixture_text (w : gmm_wrapper) (name : text) : res text :=
  do* assert_valid_identifier name;
  let n_components := zlen (w_means w) in
  let* row := pyget (w_means w) 0 in
  let n_features := zlen row in
  let static_const := txt "static const" in
  let* means_arr := float_array_text (name ++ txt "_means") (Some (n_components * n_features)) static_const (concat (w_means w)) in
  let* log_dets_arr := float_array_text (name ++ txt "_log_dets") None static_const (w_log_det w) in
  let* precisions_arr := float_array_text (name ++ txt "_precisions") None static_const (concat (concat (w_precisions_col w))) in
  let* log_weights_arr := float_array_text (name ++ txt "_log_weights") None static_const (w_log_weights w) in
  let model_init := mixture_struct (name ++ txt "_model") n_components n_features full_covariance (name ++ txt "_means") (name ++ txt "_precisions")
    (name ++ txt "_log_dets") (name ++ txt "_log_weights") in
  let predict_func := mixture_log_proba_function (name ++ txt "_predict_log_proba") (name ++ txt "_model") ++
    mixture_score_function (name ++ txt "_score") (name ++ txt "_model") ++ mixture_proba_function (name ++ txt "_predict_proba") (name ++ txt "_model") in
  Ret (join_with [10] [mixture_preamble; means_arr; precisions_arr; log_weights_arr; log_dets_arr; model_init; predict_func]).

(** ** bayes.py:25-26  c_tofixed, and bayes.py:19-23  c_struct_init *)
Definition c_tofixed_text (v : f64) : text := txt "EML_Q16_FROMFLOAT(" ++ float_str v ++ txt ")".
Definition c_struct_init (vals : list f64) : text := txt "{ " ++ join_with (txt ",") (map c_tofixed_text vals) ++ txt " }".
(** bayes.py:40-49 *)
Definition bayes_summaries (summaries_name : text) (items : Z) (summaries : list (f64 * f64 * f64)) : text :=
  txt "EmlBayesSummary " ++ summaries_name ++ txt "[" ++ fmt_int items ++ txt "] = {
        " ++ join_with (txt ",
  ") (map (fun '(mean, std, std_log2) => c_struct_init [mean; std; std_log2]) summaries) ++ txt "
    };
    ".
(** bayes.py:51-61 *)
Definition bayes_struct (model_name : text) (classes features : Z) (summaries_name : text) : text :=
  txt "EmlBayesModel " ++ model_name ++ txt " = {
        " ++ fmt_int classes ++ txt ",
        " ++ fmt_int features ++ txt ",
        " ++ summaries_name ++ txt ",
    };
    ".
(** bayes.py:63-66 *)
Definition bayes_head : text := txt "// !!! This file is generated by emlearn !!!

    #include <eml_bayes.h>
    ".
(** bayes.py:68-75 *)
Definition bayes_function (function_name model_name : text) : text :=
  txt "
    int32_t
    " ++ function_name ++ txt "(const float *features, int32_t n_features)
    {
        return eml_bayes_predict(&" ++ model_name ++ txt ", features, n_features);

    }
    ".
(** bayes.py:29-77  generate_c *)
Definition bayes_text (model : list (list (f64 * f64 * f64))) (name : text) : res text :=
  do* assert_valid_identifier name;
  let n_classes := zlen model in
  let* row := pyget model 0 in
  let n_features := zlen row in
  let summaries_name := name ++ txt "_summaries" in
  Ret (join_with (txt "

") [bayes_head; bayes_summaries summaries_name (n_classes * n_features) (concat model);
       bayes_struct (name ++ txt "_model") n_classes n_features summaries_name; bayes_function (name ++ txt "_predict") (name ++ txt "_model")]).
End Str.
