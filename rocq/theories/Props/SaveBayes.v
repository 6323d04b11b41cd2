(** The C text written by save() of a naive Bayes model: property C152. *)
From Coq Require Import String ZArith List Bool Lia Reals Lra.
From Flocq Require Import Core BinarySingleNaN.
From Verif.Base Require Import Res CInt ListX Float.
From Verif.Model Require Import Common Text Cgen FixedPoint Bayes Harness DistanceRun BayesRun SaveModelsText.
From Verif.Spec Require Import CgenSpec CTextSpec BayesSpec NetRunSpec StrSpec BayesRunSpec SaveNetSpec SaveModelsSpec.
From Verif.Proof Require Import Cgen SaveProps SaveModels Harness NetRun Str BayesRun.
From Verif.Props Require Import NetRun DistanceRun BayesRun Save.
Import ListNotations.
Open Scope Z_scope.
Open Scope list_scope.
Open Scope res_scope.

(** ** C152  The file of a naive Bayes model holds the model *)
(** [nb_table] is the table the constructor makes, [save_nb] the model it compiles and predict runs; [holds_bayes] reads the
    structs in the file, the Q16.16 numbers being what EML_Q16_FROMFLOAT makes of the doubles nearest to the constants. *)
Theorem C152_reads_back float_str log2_fn f table m name : nb_table log2_fn f = Ret table -> save_nb float_str table = Ret m ->
  str_reads_back float_str ->
  Forall (Forall (fun '(mean, std, log2_std) => is_finite mean = true /\ is_finite std = true /\ is_finite log2_std = true)) table ->
  identifier name -> ~ keyword name -> name <> txt "_Packed" ->
  exists t a s, bayes_text float_str table name = Ret t /\
    consists_of t [decl "EmlBayesSummary" (name ++ txt "_summaries") a; decl "EmlBayesModel" (name ++ txt "_model") s;
      func "int32_t" (name ++ txt "_predict") (bayes_code name)] /\
    NoDup (defined_names t) /\ holds_bayes t (name ++ txt "_model") m.
Proof.
  intros T E SR FIN I K P. apply (bayes_reads float_str table name m); try assumption; [now apply accepted|]. exact (table_rectangle log2_fn f table T).
Qed.
(** Every well-formed estimator can be saved, and the model of the file is the one compiled. *)
Theorem C152_saves float_str log2_fn nc nf f name : good_nb nc nf f -> log2_accurate log2_fn -> str_reads_back float_str ->
  identifier name -> ~ keyword name -> name <> txt "_Packed" ->
  exists table t m, nb_table log2_fn f = Ret table /\ nb_init float_str log2_fn None f = Ret m /\ bayes_text float_str table name = Ret t /\
    holds_bayes t (name ++ txt "_model") m.
Proof.
  intros G LG SR I K P. destruct (table_ok log2_fn nc nf f LG G) as (table & T & LT & Q).
  destruct (saved float_str log2_fn nc nf f SR LG G None ltac:(now left)) as (m & E & _).
  assert (ES : save_nb float_str table = Ret m). { unfold nb_init in E. rewrite T in E. cbn [bind] in E. exact E. }
  assert (FIN : Forall (Forall (fun '(mean, std, log2_std) => is_finite mean = true /\ is_finite std = true /\ is_finite log2_std = true)) table).
  { apply Forall_forall. intros r Ir. destruct (In_zget _ _ Ir) as (c & Hr). pose proof (zget_bound _ _ _ Hr) as Bc. destruct (Q c ltac:(lia)) as (r' & Hr' & L' & Q').
    rewrite Hr in Hr'. injection Hr' as <-. apply Forall_forall. intros en Ie. destruct (In_zget _ _ Ie) as (i & Hi).
    pose proof (zget_bound _ _ _ Hi). destruct (Q' i ltac:(lia)) as (en' & He' & OK). rewrite Hi in He'. injection He' as <-.
    destruct en as [[a b] d]. destruct OK as ((O1 & _) & (O2 & _) & (O3 & _) & _). auto. }
  destruct (C152_reads_back float_str log2_fn f table m name T ES SR FIN I K P) as (t & a & s & X & _ & _ & H). exists table, t, m. auto.
Qed.

Definition bayes_file : text := txt "// !!! This file is generated by emlearn !!!

    #include <eml_bayes.h>
    

EmlBayesSummary model_summaries[2] = {
        { EML_Q16_FROMFLOAT(-1.5),EML_Q16_FROMFLOAT(2.0),EML_Q16_FROMFLOAT(1.0) },
  { EML_Q16_FROMFLOAT(3.0),EML_Q16_FROMFLOAT(1.0),EML_Q16_FROMFLOAT(0.0) }
    };
    

EmlBayesModel model_model = {
        2,
        1,
        model_summaries,
    };
    


    int32_t
    model_predict(const float *features, int32_t n_features)
    {
        return eml_bayes_predict(&model_model, features, n_features);

    }
    ".
Example C152_text : bayes_text (fmt_fixed 1) [[(f_of_dec true 15 1, d 2, d 1)]; [(d 3, d 1, d 0)]] (txt "model") = Ret bayes_file.
Proof. vm_compute. reflexivity. Qed.
Example C152_hyps : good_nb 2 1 nb2 /\ str_reads_back (fmt_fixed 1074) /\ (exists log2_fn, log2_accurate log2_fn) /\
  (identifier (txt "model") /\ ~ keyword (txt "model") /\ txt "model" <> txt "_Packed").
Proof. split; [exact nb2_good|]. split; [exact C111_str_exists|]. split; [eexists; exact C113_log2_exists|exact model_name]. Qed.
