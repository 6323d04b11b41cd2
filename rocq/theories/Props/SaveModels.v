(** The C text written by save() of an elliptic envelope and of a Gaussian mixture: properties C150 and C151. *)
From Coq Require Import String ZArith List Bool Lia Reals Lra.
From Flocq Require Import Core BinarySingleNaN.
From Verif.Base Require Import Res CInt ListX Float Arith.
From Verif.Model Require Import Common Text Cgen Distance Mixture Harness NetRun DistanceRun MixtureRun SaveModelsText.
From Verif.Spec Require Import CgenSpec CTextSpec NetRunSpec EnvelopeSpec StrSpec MixtureRunSpec SaveNetSpec SaveModelsSpec.
From Verif.Proof Require Import Cgen SaveProps SaveModels NetRun Str DistanceRun MixtureRunTop.
From Verif.Props Require Import NetRun DistanceRun MixtureRun Save.
Import ListNotations.
Open Scope Z_scope.
Open Scope list_scope.
Open Scope res_scope.

(** ** C150  The file of an elliptic envelope holds the envelope *)
(** [save_envelope] is what the constructor compiles and predict runs; [holds_envelope] reads the struct in the file. *)
Theorem C150_reads_back float_str expf logf tanhf f e name : save_envelope float_str expf logf tanhf f = Ret e ->
  str_reads_back float_str -> is_finite (fe_offset f) = true -> identifier name -> ~ keyword name -> name <> txt "_Packed" ->
  exists t m p s, envelope_text float_str f name = Ret t /\
    consists_of t [decl "static const float" (name ++ txt "_means") m; decl "static const float" (name ++ txt "_precisions") p;
      decl "static const EmlEllipticEnvelope" (name ++ txt "_classifier") s; func "float" (name ++ txt "_predict") (envelope_code name)] /\
    NoDup (defined_names t) /\ holds_envelope expf logf tanhf t (name ++ txt "_classifier") e.
Proof. intros E SR F I K P. apply envelope_reads; try assumption. now apply accepted. Qed.
(** Every well-formed envelope can be saved, and the envelope of the file is the one compiled. *)
Theorem C150_saves float_str expf logf tanhf n f name : good_envelope n f -> good_number (fe_offset f) -> str_reads_back float_str ->
  identifier name -> ~ keyword name -> name <> txt "_Packed" ->
  exists t e, save_envelope float_str expf logf tanhf f = Ret e /\ envelope_text float_str f name = Ret t /\
    holds_envelope expf logf tanhf t (name ++ txt "_classifier") e.
Proof.
  intros G GO SR I K P. destruct (saved_env expf logf tanhf float_str n f G SR GO) as (e & E & _).
  destruct (C150_reads_back float_str expf logf tanhf f e name E SR (proj1 GO) I K P) as (t & m & p & s & T & _ & _ & H). exists t, e. auto.
Qed.

Definition env_file : text := txt "
    // This code is generated by emlearn

    #include <eml_distance.h>
    

static const float model_means[2] = { 1.000000f, 2.000000f };

static const float model_precisions[4] = { 2.000000f, 1.000000f, 1.000000f, 2.000000f };
    #include <stdio.h>

    // Data definitions
    static const EmlEllipticEnvelope model_classifier = {
        2,
        -5.000000f,
        model_means,
        model_precisions
    };

    // Prediction function
    float model_predict(const float *features, int n_features) {
        float dist = 0.0;
        const int class = eml_elliptic_envelope_predict(&model_classifier,
                                features, n_features, &dist);
        return dist; 
    }
    ".
Example C150_text : envelope_text (fmt_fixed 6) env2 (txt "model") = Ret env_file.
Proof. vm_compute. reflexivity. Qed.
Example C150_hyps expf logf tanhf : good_envelope 2 env2 /\ good_number (fe_offset env2) /\ str_reads_back (fmt_fixed 1074) /\
  (identifier (txt "model") /\ ~ keyword (txt "model") /\ txt "model" <> txt "_Packed") /\
  exists e, save_envelope (fmt_fixed 1074) expf logf tanhf env2 = Ret e.
Proof.
  destruct env2_good as [G GO]. split; [exact G|]. split; [exact GO|]. split; [exact C111_str_exists|]. split; [exact model_name|].
  destruct (saved_env expf logf tanhf (fmt_fixed 1074) 2 env2 G C111_str_exists GO) as (e & E & _). now exists e.
Qed.

(** ** C151  The file of a Gaussian mixture holds the mixture *)
(** [build_executable] is the struct the wrapper's program has; [load_mixture] reads the struct in the file. *)
Theorem C151_reads_back expf logf tanhf w m name : build_executable expf logf tanhf w = Ret m ->
  zlen (w_means w) <= 2147483647 -> Forall (fun row => zlen row <= 2147483647) (w_means w) ->
  identifier name -> ~ keyword name -> name <> txt "_Packed" ->
  exists t a b c d s, mixture_text w name = Ret t /\
    consists_of t [decl "static const float" (name ++ txt "_means") a; decl "static const float" (name ++ txt "_precisions") b;
      decl "static const float" (name ++ txt "_log_weights") c; decl "static const float" (name ++ txt "_log_dets") d;
      decl "EmlMixtureModel" (name ++ txt "_model") s; func "int32_t" (name ++ txt "_predict_log_proba") (mixture_log_proba_code name);
      func "EmlError" (name ++ txt "_score") (mixture_score_code name); func "int32_t" (name ++ txt "_predict_proba") (mixture_proba_code name)] /\
    NoDup (defined_names t) /\ load_mixture expf logf tanhf t (name ++ txt "_model") = Some m.
Proof. intros E S1 S2 I K P. apply mixture_reads; try assumption. now apply accepted. Qed.
(** Every well-formed mixture can be saved, and the mixture of the file is the one of the wrapper's program. *)
Theorem C151_saves log_det_fn expf logf tanhf k n f classifier name : good_gmm k n f ->
  identifier name -> ~ keyword name -> name <> txt "_Packed" ->
  exists w, gmm_init log_det_fn classifier f = Ret w /\
  (Forall good_number (w_log_det w) ->
   exists t m, build_executable expf logf tanhf w = Ret m /\ mixture_text w name = Ret t /\
     load_mixture expf logf tanhf t (name ++ txt "_model") = Some m).
Proof.
  intros G I K P. assert (KE : k = zlen (gm_means f)) by (symmetry; apply G). subst k. set (k := zlen (gm_means f)) in *.
  destruct (init_ok log_det_fn f n G classifier) as (w & E & full & FS & EN & EW). exists w. split; [exact E|]. intros GD.
  pose proof G as (K1 & N1 & B1 & _ & FM & _ & _ & _ & LW & GM & _ & GW).
  destruct (first_row f n G) as (r & Er & Lr).
  destruct (gcc_consts (concat (gm_means f)) ltac:(now apply Forall_concat)) as (ms & E1 & F1).
  destruct (gcc_consts _ GD) as (lds & E2 & F2). destruct (gcc_consts _ GW) as (lws & E3 & F3).
  destruct (gcc_consts (concat (concat full)) ltac:(apply (full_flat_good full k n); [lia|exact FS|intros; now apply EN])) as (qs & E4 & F4).
  assert (B : build_executable expf logf tanhf w = Ret (mk_mixture (f32_arith expf logf tanhf) k n CovFull ms qs lds lws)).
  { unfold build_executable. rewrite EW in *. cbn [w_means w_precisions_col w_log_det w_log_weights] in *. rewrite Er. cbn [bind]. rewrite Lr.
    rewrite (DistanceRun.zlen_concat_rows _ n FM), Z.eqb_refl. cbn [py_assert bind]. rewrite E1. cbn [bind]. rewrite E2. cbn [bind]. rewrite E4. cbn [bind]. rewrite E3. reflexivity. }
  assert (MW : w_means w = gm_means f) by (rewrite EW; reflexivity).
  change (2 ^ 31) with 2147483648 in B1.
  assert (KB : k <= 2147483647) by nia. assert (NB : n <= 2147483647) by nia.
  destruct (C151_reads_back expf logf tanhf w _ name B) as (t & a & b & c & d & s & T & _ & _ & L).
  - rewrite MW. exact KB.
  - rewrite MW. eapply Forall_impl; [|exact FM]. intros row ->. exact NB.
  - exact I.
  - exact K.
  - exact P.
  - exists t. eexists. split; [exact B|]. split; [exact T|exact L].
Qed.

Definition two_wrapper : gmm_wrapper := mk_wrapper [[d (-2)]; [d 2]] [[[d 1]]; [[d 1]]] [d 0; d 0] [d (-1); d (-1)].
Definition two_file : text := txt "
    // !! This file was generated using emlearn

    #include <eml_mixture.h>
    
static const float model_means[2] = { -2.000000f, 2.000000f };
static const float model_precisions[2] = { 1.000000f, 1.000000f };
static const float model_log_weights[2] = { -1.000000f, -1.000000f };
static const float model_log_dets[2] = { 0.000000f, 0.000000f };
EmlMixtureModel model_model = { 2, 1, EmlCovarianceFull, model_means, model_precisions, model_log_dets, model_log_weights };


        int32_t
        model_predict_log_proba(const float values[], int32_t values_length, float *out)
        {

            return eml_mixture_predict_log_proba(&model_model,
                                values, values_length,
                                out);
        }


        EmlError
        model_score(const float values[], int32_t values_length, float *probabilities, float *score)
        {

            return eml_mixture_score(&model_model,
                                values, values_length,
                                probabilities, score);
        }

        int32_t
        model_predict_proba(const float values[], int32_t values_length, float *probabilities, float *score, float *resp)
        {

            return eml_mixture_predict_proba(&model_model,
                                values, values_length,
                                probabilities, score, resp);
        }
    ".
Example C151_text : mixture_text two_wrapper (txt "model") = Ret two_file.
Proof. vm_compute. reflexivity. Qed.
Example C151_hyps expf logf tanhf : good_gmm 2 1 two_gmm /\
  exists w, gmm_init zero_dets None two_gmm = Ret w /\ Forall good_number (w_log_det w) /\ zlen (w_means w) <= 2147483647 /\
    exists m t, build_executable expf logf tanhf w = Ret m /\ mixture_text w (txt "model") = Ret t /\ load_mixture expf logf tanhf t (txt "model_model") = Some m.
Proof.
  destruct model_name as (I & K & P).
  destruct (C151_saves zero_dets expf logf tanhf 2 1 two_gmm None (txt "model") two_good I K P) as (w & E & H).
  split; [exact two_good|]. exists w. split; [exact E|].
  assert (DW : w_log_det w = [d 0; d 0] /\ w_means w = gm_means two_gmm).
  { destruct (init_ok zero_dets two_gmm 1 two_good None) as (w' & E' & full & FS & _ & ->). rewrite E in E'. injection E' as ->.
    cbn [w_log_det w_means]. split; [|reflexivity]. unfold zero_dets. destruct FS as [LF _]. change (zlen full = 2) in LF.
    destruct full as [|x [|y [|z l]]]; [discriminate LF|discriminate LF|reflexivity|exfalso; unfold zlen in LF; cbn [Datatypes.length] in LF; lia]. }
  destruct DW as [D1 D2]. assert (GD : Forall good_number (w_log_det w)) by (rewrite D1; repeat (apply Forall_cons; [apply good_d; lia|]); apply Forall_nil).
  split; [exact GD|]. split; [rewrite D2; vm_compute; discriminate|].
  destruct (H GD) as (t & m & A & B & C). exists m, t. auto.
Qed.
