(** What the C text written by save() of an elliptic envelope, a Gaussian mixture and a naive Bayes model should
    define. *)
From Coq Require Import String ZArith List Bool Reals.
From Flocq Require Import Core BinarySingleNaN.
From Verif.Base Require Import Res CInt Float Arith.
From Verif.Model Require Import Text FixedPoint Bayes Distance Mixture.
From Verif.Spec Require Import CTextSpec StrSpec SaveSpec SaveNetSpec.
Import ListNotations.
Open Scope Z_scope.

(** A declaration: the words of its type, the name declared, the tokens after it. *)
Definition declaration : Type := (list tok * list Z * list tok).
Definition decl (ty : string) (name : list Z) (rest : list tok) : declaration := (tokens (txt ty), name, rest).
(** The text is these declarations in this order and nothing else. *)
Definition consists_of (t : list Z) (ds : list declaration) : Prop :=
  tokens t = flat_map (fun '(ty, n, rest) => ty ++ W n :: rest) ds /\ definitions t = map (fun '(_, n, rest) => (n, rest)) ds.
(** A function:  TYPE NAME CODE  where the code is written up to blanks and line ends. *)
Definition func (ty : string) (name code : list Z) : declaration := decl ty name (tokens code).

(** The text of a field or an argument, without blanks. *)
Definition field_text (f : list tok) : list Z := flat_map (fun x => match x with W w => w | P c => [c] end) f.
(** A floating constant with a suffix, and the real number it writes. *)
Definition constant_means (suffix : string) (f : list tok) (v : R) : Prop :=
  exists t, field_text f = (t ++ txt suffix)%list /\ float_text t v.
(** The finite float nearest to v. *)
Definition nearest {prec emax} (x : binary_float prec emax) (v : R) : Prop :=
  is_finite x = true /\ B2R x = round radix2 (SpecFloat.fexp prec emax) ZnearestE v.

Section Load.
(** The C library of the machine. *)
Context (expf logf tanhf : f32 -> f32).
Notation A := (f32_arith expf logf tanhf).

(** The EmlEllipticEnvelope [model] a C program that includes the file [t] gets. *)
Definition holds_envelope (t model : list Z) (e : envelope A) : Prop :=
  exists rest n_features boundary means precision v,
    lookup_def model (definitions t) = Some rest /\ struct_def rest = Some [n_features; boundary; means; precision] /\
    field_int n_features = Some (e_n_features A e) /\
    constant_means "f" boundary v /\ nearest (e_decision_boundary A e) v /\
    pointed float_array t means = Some (e_means A e) /\ pointed float_array t precision = Some (e_precision A e).
(** The code of NAME_predict. *)
Definition envelope_code (name : list Z) : list Z :=
  (txt "(const float *features, int n_features) { float dist = 0.0;
    const int class = eml_elliptic_envelope_predict(&" ++ name ++ txt "_classifier, features, n_features, &dist); return dist; }")%list.

(** The enumerators of eml_mixture.h *)
Definition covariance_named (w : list Z) : option cov_type :=
  fold_right (fun '(n, a) r => if list_eq_dec Z.eq_dec w (txt n) then Some a else r) None
    [("EmlCovarianceFull"%string, CovFull); ("EmlCovarianceTied"%string, CovTied); ("EmlCovarianceDiagonal"%string, CovDiagonal);
     ("EmlCovarianceSpherical"%string, CovSpherical)].
(** The EmlMixtureModel [model] a C program that includes the file [t] gets. *)
Definition load_mixture (t model : list Z) : option (mixture A) :=
  let? rest := lookup_def model (definitions t) in
  let? fields := struct_def rest in
  match fields with
  | [n_components; n_features; covariance; means; precisions; log_dets; log_weights] =>
      let? a := field_int n_components in let? b := field_int n_features in
      let? c := field_name covariance in let? c := covariance_named c in
      let? m := pointed float_array t means in let? p := pointed float_array t precisions in
      let? d := pointed float_array t log_dets in let? w := pointed float_array t log_weights in
      Some (mk_mixture A (to_int32 a) (to_int32 b) c m p d w)
  | _ => None
  end.
(** The code of the three functions. *)
Definition mixture_log_proba_code (name : list Z) : list Z :=
  (txt "(const float values[], int32_t values_length, float *out) {
    return eml_mixture_predict_log_proba(&" ++ name ++ txt "_model, values, values_length, out); }")%list.
Definition mixture_score_code (name : list Z) : list Z :=
  (txt "(const float values[], int32_t values_length, float *probabilities, float *score) {
    return eml_mixture_score(&" ++ name ++ txt "_model, values, values_length, probabilities, score); }")%list.
Definition mixture_proba_code (name : list Z) : list Z :=
  (txt "(const float values[], int32_t values_length, float *probabilities, float *score, float *resp) {
    return eml_mixture_predict_proba(&" ++ name ++ txt "_model, values, values_length, probabilities, score, resp); }")%list.
End Load.

(** EML_Q16_FROMFLOAT(x): what the macro makes of the double nearest to the constant. *)
Definition q16_field (f : list tok) (z : Z) : Prop :=
  exists ts v (x : f64), f = W (txt "EML_Q16_FROMFLOAT") :: P 40 :: ts ++ [P 41] /\
    constant_means "" ts v /\ nearest x v /\ EML_Q16_FROMFLOAT x = Ret z.
(** { mean, std, stdlog2 } *)
Definition summary_row (f : list tok) (s : summary) : Prop :=
  exists ts m d l, f = P 123 :: ts /\ fields_of ts 0 [] = Some ([m; d; l], []) /\
    q16_field m (s_mean s) /\ q16_field d (s_std s) /\ q16_field l (s_stdlog2 s).
(** [n] = { row, row, ... };  the length and the tokens of each row *)
Definition rows_def (rest : list tok) : option (Z * list (list tok)) :=
  let? ts := expect [ch "["] rest in
  let? (n, ts) := literal ts in let? n := int_lit n in
  let? ts := expect [ch "]"; ch "="; ch "{"] ts in
  let? (rows, ts) := fields_of ts 0 [] in
  let? ts := expect [ch ";"] ts in
  match ts with [] => if n =? Z.of_nat (length rows) then Some (n, rows) else None | _ => None end.
(** The EmlBayesModel [model] a C program that includes the file [t] gets. *)
Definition holds_bayes (t model : list Z) (m : bayes_model) : Prop :=
  exists rest classes features summaries n rows,
    lookup_def model (definitions t) = Some rest /\ struct_def rest = Some [classes; features; summaries] /\
    field_int classes = Some (bm_n_classes m) /\ field_int features = Some (bm_n_features m) /\
    pointed rows_def t summaries = Some (n, rows) /\ Forall2 summary_row rows (bm_summaries m).
(** The code of NAME_predict. *)
Definition bayes_code (name : list Z) : list Z :=
  (txt "(const float *features, int32_t n_features) { return eml_bayes_predict(&" ++ name ++ txt "_model, features, n_features); }")%list.
