F='Model/SaveModelsText.v'
M=[
 (F,'array_declare no_str name size (txt "float") modifiers (Some (map PyFloat values))','array_declare no_str name size (txt "float") modifiers (Some (map PyFloat (rev values)))','float_array_text: values in reverse','C150,C151'),
 (F,'array_declare no_str name size (txt "float") modifiers','array_declare no_str name size (txt "int") modifiers','float_array_text: declared int','C150,C151'),
 (F,'Definition envelope_modifiers : text := txt "static const".','Definition envelope_modifiers : text := txt "static".','envelope_modifiers: not const','C150'),
 (F,'        " ++ fmt_int n_features ++ txt ",\n        " ++ float_str decision_boundary ++ txt "f,','        " ++ float_str decision_boundary ++ txt "f,\n        " ++ fmt_int n_features ++ txt ",','envelope_struct: boundary and size swapped','C150'),
 (F,'float_str decision_boundary ++ txt "f,','float_str decision_boundary ++ txt ",','envelope_struct: no suffix f','C150'),
 (F,'        " ++ means_name ++ txt ",\n        " ++ precisions_name ++ txt "\n    };','        " ++ precisions_name ++ txt ",\n        " ++ means_name ++ txt "\n    };','envelope_struct: means and precisions swapped','C150'),
 (F,'eml_elliptic_envelope_predict(&" ++ classifier_name ++ txt ",\n                                features, n_features, &dist);','eml_elliptic_envelope_predict(" ++ classifier_name ++ txt ",\n                                features, n_features, &dist);','envelope_function: struct by value','C150'),
 (F,'features, n_features, &dist);','features, n_features, dist);','envelope_function: dist by value','C150'),
 (F,'        return dist; ','        return class; ','envelope_function: returns the class','C150'),
 (F,'envelope_modifiers (concat (fe_precision f)) in','envelope_modifiers (concat (rev (fe_precision f))) in','envelope_text: rows of the precision in reverse','C150'),
 (F,'(Some (n_features * n_features)) envelope_modifiers','(Some n_features) envelope_modifiers','envelope_text: size of the precision','C150'),
 (F,'Ret (pre ++ envelope_struct classifier_name n_features (fe_offset f)','Ret (pre ++ envelope_struct classifier_name n_features (Bopp (fe_offset f))','envelope_text: offset negated','C150'),
 (F,'classifier_name n_features (fe_offset f) means_name precisions_name','classifier_name n_features (fe_offset f) means_name means_name','envelope_text: means twice','C150'),
 (F,'Definition envelope_text (f : fitted_envelope) (name : text) : res text :=\n  do* assert_valid_identifier name;\n','Definition envelope_text (f : fitted_envelope) (name : text) : res text :=\n','envelope_text: name not checked','C150'),
 (F,'Definition full_covariance : text := txt "EmlCovarianceFull".','Definition full_covariance : text := txt "EmlCovarianceTied".','full_covariance: Tied','C151'),
 (F,'return eml_mixture_predict_log_proba(&"','return eml_mixture_predict_proba(&"','mixture_log_proba_function: calls predict_proba','C151'),
 (F,'                                values, values_length,\n                                out);','                                values, out,\n                                values_length);','mixture_log_proba_function: arguments swapped','C151'),
 (F,'                                probabilities, score);','                                score, probabilities);','mixture_score_function: arguments swapped','C151'),
 (F,'                                probabilities, score, resp);','                                probabilities, score, probabilities);','mixture_proba_function: resp not passed','C151'),
 (F,'float *probabilities, float *score, float *resp)','float *probabilities, float *resp, float *score)','mixture_proba_function: parameters swapped','C151'),
 (F,'[fmt_int n_components; fmt_int n_features; covar_type;','[fmt_int n_features; fmt_int n_components; covar_type;','mixture_struct: sizes swapped','C151'),
 (F,'covar_type; means; precisions; log_dets; log_weights] ++','covar_type; means; precisions; log_weights; log_dets] ++','mixture_struct: log_dets and log_weights swapped','C151'),
 (F,'static_const (w_log_det w) in','static_const (w_log_weights w) in','mixture_text: weights as log_dets','C151'),
 (F,'static_const (concat (concat (w_precisions_col w))) in','static_const (concat (rev (concat (w_precisions_col w)))) in','mixture_text: rows of precisions in reverse','C151'),
 (F,'let n_components := zlen (w_means w) in','let n_components := zlen (w_log_det w) in','mixture_text: components counted from log_det','C151'),
 (F,'  let static_const := txt "static const" in\n','  let static_const := txt "const" in\n','mixture_text: arrays not static','C151'),
 (F,'means_arr; precisions_arr; log_weights_arr; log_dets_arr; model_init; predict_func]','means_arr; precisions_arr; log_weights_arr; log_dets_arr; predict_func; model_init]','mixture_text: struct after the functions','C151'),
 (F,'means_arr; precisions_arr; log_weights_arr; log_dets_arr; model_init; predict_func]','means_arr; precisions_arr; log_weights_arr; model_init; predict_func]','mixture_text: log_dets left out','C151'),
 (F,'mixture_proba_function (name ++ txt "_predict_proba")','mixture_proba_function (name ++ txt "_predict_log_proba")','mixture_text: one name twice','C151'),
 (F,'txt "EML_Q16_FROMFLOAT(" ++ float_str v','txt "EML_Q16_FROMINT(" ++ float_str v','c_tofixed_text: FROMINT','C152'),
 (F,'txt "{ " ++ join_with (txt ",") (map c_tofixed_text vals)','txt "{ " ++ join_with (txt ";") (map c_tofixed_text vals)','c_struct_init: semicolons','C152'),
 (F,'txt "[" ++ fmt_int items ++ txt "] = {','txt "[" ++ fmt_int (items + 1) ++ txt "] = {','bayes_summaries: one row too many','C152'),
 (F,'c_struct_init [mean; std; std_log2]) summaries)','c_struct_init [mean; std_log2; std]) summaries)','bayes_summaries: fields swapped','C152'),
 (F,'c_struct_init [mean; std; std_log2]) summaries)','c_struct_init [mean; std; std_log2]) (rev summaries))','bayes_summaries: rows in reverse','C152'),
 (F,'        " ++ fmt_int classes ++ txt ",\n        " ++ fmt_int features ++ txt ",','        " ++ fmt_int features ++ txt ",\n        " ++ fmt_int classes ++ txt ",','bayes_struct: classes and features swapped','C152'),
 (F,'return eml_bayes_predict(&" ++ model_name ++ txt ", features, n_features);','return eml_bayes_predict(&" ++ model_name ++ txt ", n_features, features);','bayes_function: arguments swapped','C152'),
 (F,'bayes_summaries summaries_name (n_classes * n_features)','bayes_summaries summaries_name n_classes','bayes_text: size n_classes','C152'),
 (F,'bayes_struct (name ++ txt "_model") n_classes n_features summaries_name;','bayes_struct (name ++ txt "_model") n_classes n_features (name ++ txt "_model");','bayes_text: struct points to itself','C152'),
 (F,'(name ++ txt "_predict") (name ++ txt "_model")])','(name ++ txt "_predict") name])','bayes_text: function uses another name','C152'),
 (F,'(concat model);','(concat (map (@rev _) model));','bayes_text: features in reverse','C152'),
]
