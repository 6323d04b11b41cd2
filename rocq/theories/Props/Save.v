(** The C text written by save(): properties C141 and following. *)
From Coq Require Import String ZArith List Bool Lia Reals Lra.
From Flocq Require Import Core BinarySingleNaN.
From Verif.Base Require Import Res CInt ListX Float.
From Verif.Model Require Import Common Text Cgen TreesConvert TreesC TreesInline TreesWrapper Neighbors NeighborsRun Harness TreesRun SaveText SaveApi.
From Verif.Spec Require Import TreesSpec TreesCSpec VoteSpec ClassifierSpec HarnessSpec RunSpec RealSpec CgenSpec CTextSpec SaveSpec.
From Verif.Proof Require Import Cgen SaveProps SaveLoad SaveNeighbors SaveApi.
From Verif.Props Require Import Samples Trees EndToEnd NeighborsRun.
Import Verif.Spec.HarnessSpec ListNotations.
Open Scope Z_scope.
Open Scope list_scope.
Open Scope res_scope.

(** ** C141  What an inline file defines *)
Theorem C141_definitions classifier method dtype lb trees nf n w c name pr :
  wrapper_init classifier method dtype lb trees nf n = Ret w -> In method [None; Some MInline] -> save_code w = Ret c -> 0 <= n ->
  identifier name -> ~ keyword name -> name <> txt "_Packed" ->
  exists t fns lvs funcs, trees_text w name pr = Ret t /\ definitions t = fns ++ lvs ++ funcs /\
    tree_fns name (zlen trees) (map fst fns) /\
    map fst lvs = (if choose_leaf_bits classifier lb =? 0 then [] else [name ++ txt "_leaves"]) /\
    map fst funcs = entry_points name classifier pr /\
    Forall (fun d => called (snd d) = map fst fns) funcs /\ NoDup (defined_names t).
Proof. apply saved_definitions. Qed.

(** ** C142  The tree functions of the saved text are the fitted trees *)
Theorem C142_classifier nf n trees lb method dtype name pr :
  fitted nf (class_row n) trees -> 1 <= n <= 127 -> In lb [None; Some 0; Some 1] ->
  In method [None; Some MInline] -> In dtype [None; Some DInt16] -> nf <= 10000 ->
  thresholds_within (-32767) 32767 trees -> identifier name -> ~ keyword name -> name <> txt "_Packed" ->
  exists w t, wrapper_init true method dtype lb trees nf n = Ret w /\ trees_text w name pr = Ret t /\
    forall i tree, zget trees i = Ret tree -> exists run, tree_does int_lit int32_ret Z.ltb t name (txt "int16_t") i run /\
      forall features c, nf <= zlen features -> tree_class features tree c -> run features = Some c.
Proof. intros H1 H2 H3. exact (int16_text nf n trees H1 H2 lb H3 method dtype name pr). Qed.
Theorem C142_classifier_float nf n trees lb method name pr :
  fitted nf (class_row n) trees -> 1 <= n <= 127 -> In lb [None; Some 0; Some 1] ->
  In method [None; Some MInline] -> nf <= 10000 ->
  float_thresholds trees -> identifier name -> ~ keyword name -> name <> txt "_Packed" ->
  exists w t, wrapper_init true method (Some DFloat) lb trees nf n = Ret w /\ trees_text w name pr = Ret t /\
    forall i tree, zget trees i = Ret tree -> exists run, tree_does float_lit int32_ret fltb t name (txt "float") i run /\
      forall features : list f32, nf <= zlen features -> exists go,
        (forall f th x, In th (sk_threshold tree) -> zget features f = Ret x -> is_finite x = true ->
           exists k : f32, is_finite k = true /\ through_decimals 6 (num_val th) k /\ (go f th = true <-> (B2R x < B2R k)%R)) /\
        forall c, tree_class_by go tree c -> run features = Some c.
Proof. intros H1 H2 H3. exact (float_text nf n trees H1 H2 lb H3 method name pr). Qed.
Theorem C142_regressor nf nc trees B lb method dtype name pr : (0 <= B <= bpow radix2 99)%R -> fitted nf (value_within B) trees ->
  In lb [None; Some 32] -> In method [None; Some MInline] -> In dtype [None; Some DInt16] -> nf <= 10000 ->
  thresholds_within (-32767) 32767 trees -> identifier name -> ~ keyword name -> name <> txt "_Packed" ->
  exists w t, wrapper_init false method dtype lb trees nf nc = Ret w /\ trees_text w name pr = Ret t /\
    forall i tree, zget trees i = Ret tree -> exists run, tree_does int_lit float_lit Z.ltb t name (txt "int16_t") i run /\
      forall features x, nf <= zlen features -> tree_value_by (go_lt features) tree x ->
        exists k : f32, run features = Some k /\ is_finite k = true /\ through_decimals 6 (B2R x) k.
Proof. apply regress_text. Qed.

(** The file of two trees. *)
Lemma model_name : identifier (txt "model") /\ ~ keyword (txt "model") /\ txt "model" <> txt "_Packed".
Proof.
  destruct (proj1 (accepts_iff (txt "model")) ltac:(vm_compute; reflexivity)) as [H|(t & _ & E)]; [exact H|].
  apply (f_equal (@rev Z)) in E. rewrite rev_app_distr in E. discriminate.
Qed.
Definition two_trees : text := ([10; 10] ++ txt "
    // !!! This file is generated using emlearn !!!

    #include <stdint.h>
    

static inline int32_t model_tree_0(const int16_t *features, int32_t features_length) {
          if (features[0] < 3) {
              return 0;
          } else {
              if (features[1] < -1) {
                  return 1;
              } else {
                  return 2;
              }
          }
        }
        

static inline int32_t model_tree_1(const int16_t *features, int32_t features_length) {
          if (features[1] < 10) {
              return 0;
          } else {
              return 1;
          }
        }
        

int32_t model_predict(const int16_t *features, int32_t features_length) {

        int32_t votes[3] = {0,};
        int32_t _class = -1;

        _class = model_tree_0(features, features_length); votes[_class] += 1;
    _class = model_tree_1(features, features_length); votes[_class] += 1;
    
        int32_t most_voted_class = -1;
        int32_t most_voted_votes = 0;
        for (int32_t i=0; i<3; i++) {

            if (votes[i] > most_voted_votes) {
                most_voted_class = i;
                most_voted_votes = votes[i];
            }
        }
        return most_voted_class;
    }
    ").
Example C141_example :
  (let* w := wrapper_init true None None None [tree_a; tree_b] 2 3 in trees_text w (txt "model") false) = Ret two_trees /\
  defined_names two_trees = map txt ["model_tree_0"; "model_tree_1"; "model_predict"]%string.
Proof. split; vm_compute; reflexivity. Qed.
Example C142_example :
  (exists w t, wrapper_init true None None None forest_abc 2 3 = Ret w /\ trees_text w (txt "model") true = Ret t /\
     forall i tree, zget forest_abc i = Ret tree -> exists run, tree_does int_lit int32_ret Z.ltb t (txt "model") (txt "int16_t") i run /\
       forall features c, 2 <= zlen features -> tree_class features tree c -> run features = Some c) /\
  (exists w t, wrapper_init false None None None forest_r 2 0 = Ret w /\ trees_text w (txt "model") true = Ret t).
Proof.
  destruct model_name as (A & B & C). split.
  - exact (C142_classifier 2 3 forest_abc None None None _ true fitted_class ltac:(lia) ltac:(now left) ltac:(now left) ltac:(now left) ltac:(lia) thresholds_abc A B C).
  - assert (P : (0 <= 10 <= bpow radix2 99)%R) by (split; [lra|apply Rle_trans with (bpow radix2 4); [change (bpow radix2 4) with 16%R; lra|apply bpow_le; lia]]).
    destruct (C142_regressor 2 0 forest_r 10 None None None _ true P fitted_within_r ltac:(now left) ltac:(now left) ltac:(now left) ltac:(lia) thresholds_r A B C) as (w & t & E1 & E2 & _).
    eauto.
Qed.

(** ** C143  A loadable tree model's file is the model *)
Theorem C143_reads_back classifier dtype lb trees nf n w m name pr :
  wrapper_init classifier (Some MLoadable) dtype lb trees nf n = Ret w -> In dtype [None; Some DInt16] -> save_loadable w = Ret m ->
  identifier name -> ~ keyword name -> name <> txt "_Packed" ->
  exists t data funcs, trees_text w name pr = Ret t /\ definitions t = data ++ funcs /\
    map fst data = [name ++ txt "_nodes"; name ++ txt "_tree_roots"; name ++ txt "_leaves"; name] /\
    map fst funcs = entry_points name classifier pr /\ NoDup (defined_names t) /\
    map (fun d => forwards (snd d)) funcs = map Some (calls_library name classifier pr) /\
    load_trees t name = Some m.
Proof. apply loadable_file. Qed.
(** So the struct in the file, given to the C library, is the majority vote of the trees. *)
Theorem C143_predict nf n trees lb dtype w m name pr features :
  fitted nf (class_row n) trees -> 1 <= n <= 30 -> In lb [None; Some 0; Some 1] -> zlen trees < 2 ^ 24 -> In dtype [None; Some DInt16] ->
  wrapper_init true (Some MLoadable) dtype lb trees nf n = Ret w -> fits_c (forest_nodes (w_forest w)) -> save_loadable w = Ret m ->
  zlen features = nf -> identifier name -> ~ keyword name -> name <> txt "_Packed" ->
  exists t m' cs c, trees_text w name pr = Ret t /\ load_trees t name = Some m' /\ Forall2 (tree_class features) trees cs /\
    eml_trees_predict m' features nf = Ret c /\ majority n cs c.
Proof.
  intros H1 H2 H3 H4 Hd H5 H6 H7 H8 I1 I2 I3.
  destruct (C143_reads_back true dtype lb trees nf n w m name pr H5 Hd H7 I1 I2 I3) as (t & _ & _ & T & _ & _ & _ & _ & _ & L).
  destruct (C07_predict_majority nf n trees lb dtype w m features H1 H2 H3 H4 H5 H6 H7 H8) as (cs & c & A & B & C).
  exists t, m, cs, c. auto.
Qed.
Definition one_tree : text := ([10; 10] ++ txt "
    // !!! This file is generated using emlearn !!!

    #include <eml_trees.h>
    

static const EmlTreesNode model_nodes[1] = {
  { 1, 10, -1, -2 } 
};

static const int32_t model_tree_roots[1] = { 0 };

static const uint8_t model_leaves[2] = { 0, 1 };

EmlTrees model = {
        1,
        (EmlTreesNode *)(model_nodes),	  
        1,
        (int32_t *)(model_tree_roots),
        2,
        (uint8_t *)(model_leaves),
        0,
        2,
        3,
    };

int32_t model_predict(const int16_t *features, int32_t features_length) {

        const int out = eml_trees_predict(&model, features, features_length);
        return out;

    }
    ").
Example C143_example :
  (let* w := wrapper_init true (Some MLoadable) None None [tree_b] 2 3 in trees_text w (txt "model") false) = Ret one_tree /\
  load_trees one_tree (txt "model") = Some (mk_eml_trees 1 [mk_cnode 1 10 (-1) (-2)] 1 [0] 2 [0; 1] 0 2 3).
Proof. split; vm_compute; reflexivity. Qed.
Example C143_instance : exists w m t, wrapper_init true (Some MLoadable) None None forest_abc 2 3 = Ret w /\ save_loadable w = Ret m /\
  trees_text w (txt "model") true = Ret t /\ load_trees t (txt "model") = Some m /\ eml_trees_predict m [3; 0] 2 = Ret 2.
Proof.
  destruct model_name as (A & B & C). destruct C07_instance as (w & m & H1 & H2 & H3 & _ & P).
  destruct (C143_reads_back true None None forest_abc 2 3 w m _ true H1 ltac:(now left) H3 A B C) as (t & _ & _ & T & _ & _ & _ & _ & _ & L).
  exists w, m, t. auto.
Qed.

Lemma m_name : identifier (txt "m") /\ ~ keyword (txt "m") /\ txt "m" <> txt "_Packed".
Proof.
  destruct (proj1 (accepts_iff (txt "m")) ltac:(vm_compute; reflexivity)) as [H|(t & _ & E)]; [exact H|].
  apply (f_equal (@rev Z)) in E. rewrite rev_app_distr in E. discriminate.
Qed.
Lemma m_data_name : identifier (txt "m_data") /\ ~ keyword (txt "m_data") /\ txt "m_data" <> txt "_Packed".
Proof.
  destruct (proj1 (accepts_iff (txt "m_data")) ltac:(vm_compute; reflexivity)) as [H|(t & _ & E)]; [exact H|].
  apply (f_equal (@rev Z)) in E. rewrite rev_app_distr in E. discriminate.
Qed.

(** ** C144  A nearest neighbours model's file is the model *)
Theorem C144_reads_back metric weights method data labels nf k m name :
  knn_init metric weights method data labels k = Ret m -> Forall (fun row => zlen row = nf) data ->
  identifier name -> ~ keyword name -> name <> txt "_Packed" ->
  exists t, neighbors_text data nf labels k name = Ret t /\
    defined_names t = [name ++ txt "_data"; name ++ txt "_labels"; name] /\ NoDup (defined_names t) /\
    load_neighbors t name = Some m.
Proof. apply knn_file. Qed.
Definition knn_text : text := txt "#include <eml_neighbors.h>
static const int16_t knn_data[8] = { 1, 1, 2, -5, 30, 12, 25, 10 };
static const int16_t knn_labels[4] = { 0, 0, 2, 2 };
EmlNeighborsModel knn= { 2, 4, 4, (int16_t *)knn_data, (int16_t *)knn_labels, 3 };".
Example C144_example : neighbors_text fit_X 2 fit_y 3 (txt "knn") = Ret knn_text /\
  load_neighbors knn_text (txt "knn") = Some (mk_neighbors 2 4 4 [1; 1; 2; -5; 30; 12; 25; 10] [0; 0; 2; 2] 3).
Proof. split; vm_compute; reflexivity. Qed.

(** ** C145  save(name, file) *)
(** Only [file] is written, with the code returned, which is the code of the model under the name given or, without one,
    under the file's name; nothing is written when saving fails, or without a file. *)
Theorem C145_trees w pr writable name file fs r fs' : trees_save w pr writable name file fs = (r, fs') -> saves (fun n => trees_text w n pr) writable name file fs r fs'.
Proof. apply save_effects. Qed.
Theorem C145_neighbors data nf labels k writable name file fs r fs' : neighbors_save data nf labels k writable name file fs = (r, fs') ->
  saves (neighbors_text data nf labels k) writable name file fs r fs'.
Proof. apply save_effects. Qed.
(** Without a name the file's is used: out/model.h, model.h and out/model are all saved as "model". *)
Theorem C145_default_name w pr writable f s fs : stem_of f s ->
  trees_save w pr writable None (Some f) fs = trees_save w pr writable (Some s) (Some f) fs.
Proof. apply default_name. Qed.
Example C145_stems : Forall (fun f => stem_of f (txt "model")) (map txt ["out/model.h"; "model.h"; "out/model"; "/tmp/x.y/model.c"])%string.
Proof.
  assert (N : forall c l, existsb (Z.eqb c) l = false -> ~ In c l) by (intros c l E I; rewrite (proj2 (existsb_exists (Z.eqb c) l)) in E; [discriminate|exists c; split; [exact I|apply Z.eqb_refl]]).
  assert (A : forall dir ext f, dir = [] \/ (exists d, dir = d ++ [47]) -> ext = [] \/ (exists e, ext = 46 :: e /\ ~ In 46 e /\ ~ In 47 e) -> f = dir ++ txt "model" ++ ext -> stem_of f (txt "model")).
  { intros dir ext f Hd He ->. split; [discriminate|]. split; [discriminate|]. split; [now apply N|]. exists dir, ext. split; [exact Hd|]. split; [|reflexivity].
    destruct He as [->|He]; [left; split; [reflexivity|now apply N]|right; exact He]. }
  assert (Eh : forall e, existsb (Z.eqb 46) e = false -> existsb (Z.eqb 47) e = false -> exists e', 46 :: e = 46 :: e' /\ ~ In 46 e' /\ ~ In 47 e') by (intros e H1 H2; exists e; auto).
  cbn [map]. repeat apply Forall_cons; [| | | |apply Forall_nil].
  - apply (A (txt "out/") (txt ".h")); [right; exists (txt "out"); reflexivity|right; apply (Eh (txt "h")); reflexivity|reflexivity].
  - apply (A [] (txt ".h")); [now left|right; apply (Eh (txt "h")); reflexivity|reflexivity].
  - apply (A (txt "out/") []); [right; exists (txt "out"); reflexivity|now left|reflexivity].
  - apply (A (txt "/tmp/x.y/") (txt ".c")); [right; exists (txt "/tmp/x.y"); reflexivity|right; apply (Eh (txt "c")); reflexivity|reflexivity].
Qed.
(** The first positional argument is the name, and nothing is written; of a Bayes model it is a file, which is overwritten. *)
Theorem C145_positional_partial k gen writable arg fs : k <> KBayes ->
  save_positional k gen writable arg fs = (gen arg, fs).
Proof. apply positional_name. Qed.
Theorem C145_bayes_refuted gen code : gen (txt "m") = Ret code -> exists fs fs', fs (txt "m") = Some (txt "precious") /\
  save_positional KBayes gen (fun _ => true) (txt "m") fs = (Ret code, fs') /\ fs' (txt "m") = Some code.
Proof. apply bayes_positional. Qed.
Example C145_example :
  let fs := fun _ => None in
  let r := (let* w := wrapper_init true None None None [tree_a; tree_b] 2 3 in Ret (trees_save w false (fun _ => true) None (Some (txt "out/model.h")) fs)) in
  (let* (c, fs') := r in let* code := c in Ret (code, fs' (txt "out/model.h"), fs' (txt "model.h"))) = Ret (two_trees, Some two_trees, None).
Proof. vm_compute. reflexivity. Qed.

(** ** C146  Saved files in one program *)
(** Every identifier a file defines starts with the model's name, so two models whose names are not a prefix of each
    other can be included in one C program. *)
Theorem C146_names_partial t1 t2 name1 name2 : identifier name1 -> identifier name2 -> saved_as name1 t1 -> saved_as name2 t2 ->
  ~ starts_with name1 name2 -> ~ starts_with name2 name1 -> forall x, In x (defined_names t1) -> In x (defined_names t2) -> False.
Proof. apply disjoint_names. Qed.
(** Different names are not enough. *)
Theorem C146_two_models_refuted : exists t1 t2, neighbors_text fit_X 2 fit_y 3 (txt "m") = Ret t1 /\ neighbors_text fit_X 2 fit_y 3 (txt "m_data") = Ret t2 /\
  In (txt "m_data") (defined_names t1) /\ In (txt "m_data") (defined_names t2).
Proof.
  destruct (C144_reads_back "euclidean" "uniform" None fit_X fit_y 2 3 (mk_neighbors 2 4 4 [1; 1; 2; -5; 30; 12; 25; 10] [0; 0; 2; 2] 3) (txt "m")) as (t1 & T1 & D1 & _);
    [vm_compute; reflexivity|repeat constructor|apply m_name|apply m_name|apply m_name|].
  destruct (C144_reads_back "euclidean" "uniform" None fit_X fit_y 2 3 (mk_neighbors 2 4 4 [1; 1; 2; -5; 30; 12; 25; 10] [0; 0; 2; 2] 3) (txt "m_data")) as (t2 & T2 & D2 & _);
    [vm_compute; reflexivity|repeat constructor|apply m_data_name|apply m_data_name|apply m_data_name|].
  exists t1, t2. split; [exact T1|]. split; [exact T2|]. rewrite D1, D2. split; [left; reflexivity|right; right; left; reflexivity].
Qed.
Example C146_example : exists t1 t2, saved_as (txt "model") t1 /\ saved_as (txt "knn") t2 /\ ~ starts_with (txt "model") (txt "knn") /\ ~ starts_with (txt "knn") (txt "model").
Proof.
  destruct model_name as (A & B & C). destruct C07_instance as (w & m & H1 & H2 & H3 & _ & P).
  destruct (C143_reads_back true None None forest_abc 2 3 w m _ true H1 ltac:(now left) H3 A B C) as (t & _ & _ & T & _).
  exists t, knn_text. split; [exact (saved_loadable _ _ _ _ _ _ _ _ _ _ _ H1 ltac:(now left) H3 T)|]. split.
  - refine (saved_neighbors _ _ "euclidean" "uniform" None fit_X fit_y 2 3 (mk_neighbors 2 4 4 [1; 1; 2; -5; 30; 12; 25; 10] [0; 0; 2; 2] 3) _ _ _); [vm_compute; reflexivity|repeat constructor|vm_compute; reflexivity].
  - split; intros [s E]; vm_compute in E; discriminate.
Qed.
(** Nor is one model: the accepted name "eml_trees" gives a file that defines the library's eml_trees_predict. *)
Theorem C146_library_refuted : exists w t, wrapper_init true (Some MLoadable) None None [tree_b] 2 3 = Ret w /\ trees_text w (txt "eml_trees") true = Ret t /\
  In (txt "eml_trees_predict") (defined_names t) /\ In (txt "eml_trees_predict_proba") (defined_names t).
Proof.
  assert (Q : (let* w := wrapper_init true (Some MLoadable) None None [tree_b] 2 3 in let* t := trees_text w (txt "eml_trees") true in
     Ret (existsb (text_eqb (txt "eml_trees_predict")) (defined_names t) && existsb (text_eqb (txt "eml_trees_predict_proba")) (defined_names t))) = Ret true) by (vm_compute; reflexivity).
  apply bind_Ret in Q. destruct Q as (w & Ew & Q). apply bind_Ret in Q. destruct Q as (t & Et & Q). injection Q as Q. apply andb_prop in Q. destruct Q as [Q1 Q2].
  exists w, t. split; [exact Ew|]. split; [exact Et|]. split; apply existsb_text; assumption.
Qed.
