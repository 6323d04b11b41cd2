(** The C text written by save() of a neural network: property C149. *)
From Coq Require Import String ZArith List Bool Lia Reals Lra.
From Flocq Require Import Core BinarySingleNaN.
From Verif.Base Require Import Res CInt ListX Float Arith.
From Verif.Model Require Import Common Text Cgen Harness Net NetRun SaveNetText.
From Verif.Spec Require Import CgenSpec CTextSpec NetRunSpec SaveNetSpec.
From Verif.Proof Require Import Cgen SaveProps SaveNet NetRun.
From Verif.Props Require Import NetRun Save.
Import ListNotations.
Open Scope Z_scope.
Open Scope list_scope.
Open Scope res_scope.

(** ** C149  The file of a neural network holds the network *)
(** The struct in the file is the network that convert() compiled and runs, and its three functions hand their arguments to
    the library with a pointer to that struct. *)
Theorem C149_reads_back expf logf tanhf ls m name : save_compiled expf logf tanhf ls = Ret m -> int32_sizes ls ->
  identifier name -> ~ keyword name -> name <> txt "_Packed" ->
  exists t, net_text ls name = Ret t /\ load_net expf logf tanhf t name = Some m /\ NoDup (defined_names t) /\
    Forall (fun f => exists rest, In (fst f, rest) (definitions t) /\ returns rest = Some (snd f)) (net_functions name).
Proof.
  intros E [S1 S2] I K P. destruct (net_reads expf logf tanhf ls name m) as (t & T & L & N & C & _); try assumption; [now apply accepted|]. exists t. auto.
Qed.
(** A model that converted can be saved, and what its predict() runs is the struct of the file. *)
Theorem C149_wrapper expf logf tanhf method rt fx ls w name : net_wrapper expf logf tanhf method rt fx ls = Ret w -> int32_sizes ls ->
  identifier name -> ~ keyword name -> name <> txt "_Packed" ->
  exists t m, net_text ls name = Ret t /\ load_net expf logf tanhf t name = Some m /\
    forall X, net_predict expf logf tanhf w X =
      (if String.eqb rt "regressor" then predict (net_regress_func expf logf tanhf m) OutFloat X
       else predict (net_predict_func expf logf tanhf m) OutInt X).
Proof.
  intros E S I K P. destruct (wrapper_saved _ _ _ _ _ _ _ _ E) as (m & SV & C).
  destruct (C149_reads_back _ _ _ ls m name SV S I K P) as (t & T & L & _). exists t, m. split; [exact T|]. split; [exact L|].
  intros X. destruct C as [(-> & n & ->)|[(-> & ->)|(-> & ->)]]; reflexivity.
Qed.
(** Every well-formed network can be saved. *)
Theorem C149_saves expf logf tanhf nf ls name : good_net nf ls -> zlen ls <= 2147483647 ->
  identifier name -> ~ keyword name -> name <> txt "_Packed" ->
  exists t m, save_compiled expf logf tanhf ls = Ret m /\ net_text ls name = Ret t /\ load_net expf logf tanhf t name = Some m.
Proof.
  intros G L I K P. destruct (saved expf logf tanhf nf ls G) as (m & SV & _).
  assert (S : int32_sizes ls).
  { split; [exact L|]. destruct G as (_ & G & _). apply Forall_forall. intros l Hl. rewrite Forall_forall in G. destruct (G l Hl) as ([M1 _] & (Q1 & _ & Q2) & Q3 & _).
    unfold py_n_in in *. split; [lia|]. split; [lia|]. change (2 ^ 31) with 2147483648 in Q2. nia. }
  destruct (C149_reads_back _ _ _ ls m name SV S I K P) as (t & T & R & _). eauto.
Qed.

Definition reg_file : text := txt "#include <eml_net.h>
static const float model_layer_0_biases[2] = { 0.000000f, 1.000000f };
static const float model_layer_0_weights[4] = { 1.000000f, -1.000000f, 2.000000f, 3.000000f };
static const float model_layer_1_biases[1] = { 3.000000f };
static const float model_layer_1_weights[2] = { 1.000000f, -1.000000f };
static float model_buf1[2];
static float model_buf2[2];
static const EmlNetLayer model_layers[2] = { 
{ 2, 2, model_layer_0_weights, model_layer_0_biases, EmlNetActivationRelu }, 
{ 1, 2, model_layer_1_weights, model_layer_1_biases, EmlNetActivationIdentity } };
static EmlNet model = { 2, model_layers, model_buf1, model_buf2, 2 };

    int32_t
    model_predict(const float *features, int32_t n_features)
    {
        return eml_net_predict(&model, features, n_features);
    }
    

    int32_t
    model_regress(const float *features, int32_t n_features, float *out, int32_t out_length)
    {
        return eml_net_regress(&model, features, n_features, out, out_length);
    }
    

    float
    model_regress1(const float *features, int32_t n_features)
    {
        return eml_net_regress1(&model, features, n_features);
    }
    ".
Example C149_example expf logf tanhf :
  net_text reg_net (txt "model") = Ret reg_file /\ int32_sizes reg_net /\
  exists m, save_compiled expf logf tanhf reg_net = Ret m /\ load_net expf logf tanhf reg_file (txt "model") = Some m.
Proof.
  assert (T : net_text reg_net (txt "model") = Ret reg_file) by (vm_compute; reflexivity).
  assert (S : int32_sizes reg_net) by (split; [vm_compute; discriminate|repeat apply Forall_cons; try apply Forall_nil; vm_compute; repeat split; discriminate]).
  split; [exact T|]. split; [exact S|]. destruct model_name as (I & K & P).
  destruct (C149_saves expf logf tanhf 2 reg_net (txt "model") reg_net_good (proj1 S) I K P) as (t & m & SV & T' & L).
  rewrite T in T'. injection T' as <-. exists m. split; [exact SV|exact L].
Qed.
