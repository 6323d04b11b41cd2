(** Decision trees and forests: properties C01-C16. *)
From Coq Require Import ZArith List Bool Reals Lia Lra.
From Flocq Require Import Core BinarySingleNaN.
From Verif.Base Require Import Res CInt ListX Float.
From Verif.Model Require Import Common TreesConvert TreesC TreesInline TreesWrapper.
From Verif.Spec Require Import TreesSpec TreesCSpec VoteSpec CsvSpec ClassifierSpec.
From Verif.Proof Require Import TreesFlatten TreesForest TreesDedup TreesWalk TreesTop TreesApi
  TreesRegress TreesMisc TreesSize TreesCsvApi Quantize.
From Verif.Props Require Import Samples.
Import ListNotations.
Open Scope Z_scope.
Open Scope res_scope.

(** ** C01 *)
Theorem C01_flatten_preserves_decisions {T V L} (t_zero : T) (mk_leaf : V -> res L) nf t :
  1 <= nf -> wf_sktree nf t -> leaves_convertible mk_leaf t ->
  exists dn ln, flatten_tree t_zero mk_leaf t = Ret (dn, ln) /\
    forall go, exists v l,
      sk_reaches t go 0 v /\ mk_leaf v = Ret l /\ flat_reaches dn ln go 0 l /\
      (forall v', sk_reaches t go 0 v' -> v' = v) /\
      (forall l', flat_reaches dn ln go 0 l' -> l' = l).
Proof.
  intros H1 H2 H3. destruct (flatten_tree_ok t_zero mk_leaf nf t H1 H2 H3) as (dn & ln & E & F).
  exists dn, ln. split; [exact E|]. intros go.
  destruct (sk_reaches_total mk_leaf nf t H2 H3 go) as [v Hv].
  destruct (fo_reach _ _ _ _ _ F go v Hv) as (l & Hl & Hr).
  exists v, l. split; [auto|]. split; [auto|]. split; [auto|]. split; intros.
  - eapply sk_reaches_det; eauto.
  - eapply flat_reaches_det; eauto.
Qed.

(** Structure of the result: feature, left, right of each node, and the class of each leaf. *)
Definition shape {T} (f : list (dnode T) * list pyleaf) : list (Z * Z * Z) * list Z :=
  (map (fun n => (d_feature n, d_left n, d_right n)) (fst f),
   map (fun l => match l with LClass c => c | _ => -1 end) (snd f)).
Example C01_instance : 1 <= 2 /\ wf_sktree 2 tree_a /\
  leaves_convertible (mk_pyleaf LeafArgmax 0) tree_a /\
  res_map shape (flatten_tree (PyInt 0) (mk_pyleaf LeafArgmax 0) tree_a) =
    Ret ([(0, -1, 1); (1, -2, -3)], [0; 1; 2]).
Proof.
  split; [lia|]. split; [apply wf_a|]. split; [|vm_compute; reflexivity].
  apply rows_ok. cbn [concat sk_value tree_a app].
  each ltac:(eexists; vm_compute; reflexivity).
Qed.
Example C01_single_leaf :
  res_map shape (flatten_tree (PyInt 0) (mk_pyleaf LeafArgmax 0) (tree_1 [q 1 4; q 1 2; q 1 4])) =
    Ret ([(0, -1, -1)], [1]).
Proof. vm_compute. reflexivity. Qed.

(** ** C02 *)
Theorem C02_forest_preserves_trees {T V L} (t_zero : T) (mk_leaf : V -> res L) leaf_eqb nf trees :
  1 <= nf -> (forall l, leaf_eqb l l = true) -> trees <> [] ->
  Forall (wf_sktree nf) trees -> Forall (leaves_convertible mk_leaf) trees ->
  exists nodes roots leaves,
    convert_forest t_zero mk_leaf leaf_eqb trees = Ret (nodes, roots, leaves) /\
    Forall2 (fun t root => forall go, exists v l l',
        sk_reaches t go 0 v /\ mk_leaf v = Ret l /\ leaf_eqb l l' = true /\
        flat_reaches nodes leaves go root l') trees roots.
Proof.
  intros H1 H2 H3 H4 H5.
  destruct (convert_forest_ok t_zero mk_leaf leaf_eqb nf H1 H2 trees H3 H4 H5)
    as (nodes & roots & leaves & E & _ & _ & F & _).
  exists nodes, roots, leaves. split; [exact E|].
  revert H4 H5. clear - F. induction F as [|t r ts rs HR F IH]; intros H4 H5; [constructor|].
  inversion H4; inversion H5; subst. constructor; [|apply IH; auto].
  intros go. destruct (sk_reaches_total mk_leaf nf t ltac:(auto) ltac:(auto) go) as [v Hv].
  destruct HR as [_ HR]. destruct (HR go v Hv) as (l & l' & ? & ? & ?). exists v, l, l'. auto.
Qed.

Example C02_instance :
  res_map (fun '(nodes, roots, leaves) => (shape (nodes, leaves), roots))
    (convert_forest (PyInt 0) (mk_pyleaf LeafArgmax 0) pyleaf_eqb forest_abc) =
  Ret ([(0, -1, 1); (1, -2, -3); (1, -1, -2); (0, -3, -3)], [0; 1; 2], [0; 2; 3]).
Proof. vm_compute. reflexivity. Qed.

(** ** C03 *)
Theorem C03_deduplication {T L} (leaf_eqb : L -> L -> bool) nf
    (nodes : list (dnode T)) (roots : list Z) (leaves : list L) :
  (forall l, leaf_eqb l l = true) -> 1 <= zlen nodes ->
  valid_nodes nf (zlen leaves) nodes -> all_referenced nodes roots (zlen leaves) ->
  exists nodes' leaves',
    remove_duplicate_leaves leaf_eqb (nodes, roots, leaves) = Ret (nodes', roots, leaves') /\
    no_equal_entries leaf_eqb leaves' /\
    (forall u, In u leaves' -> In u leaves) /\
    (forall l, In l leaves -> exists u, In u leaves' /\ leaf_eqb l u = true) /\
    zlen leaves' <= zlen leaves /\
    Forall2 (fun n n' => d_feature n' = d_feature n /\ d_value n' = d_value n /\
               same_child leaf_eqb leaves leaves' (d_left n) (d_left n') /\
               same_child leaf_eqb leaves leaves' (d_right n) (d_right n')) nodes nodes' /\
    remove_duplicate_leaves leaf_eqb (nodes', roots, leaves') = Ret (nodes', roots, leaves').
Proof. intros H. exact (dedup_result leaf_eqb nf H nodes roots leaves). Qed.

Definition dup_nodes : list (dnode Z) :=
  [mk_dnode 0 5 1 (-3); mk_dnode 1 6 (-1) (-2)].
Example C03_instance :
  valid_nodes 2 3 dup_nodes /\ all_referenced dup_nodes [0] 3 /\
  remove_duplicate_leaves Z.eqb (dup_nodes, [0], [7; 8; 7]) =
    Ret ([mk_dnode 0 5 1 (-1); mk_dnode 1 6 (-1) (-2)], [0], [7; 8]).
Proof.
  split; [|split].
  - intros i n H. assert (B := zget_bound _ _ _ H). change (zlen dup_nodes) with 2 in *.
    assert (i = 0 \/ i = 1) as [-> | ->] by lia; injection H as <-; unfold valid_ref; simpl; lia.
  - split.
    + intros i Hi. change (zlen dup_nodes) with 2 in Hi.
      assert (i = 0 \/ i = 1) as [-> | ->] by lia; [left; left; auto|].
      right. exists 0. eexists. split; [reflexivity|]. auto.
    + intros k Hk. assert (k = 0 \/ k = 1 \/ k = 2) as [-> | [-> | ->]] by lia.
      * exists 1. eexists. split; [reflexivity|]. auto.
      * exists 1. eexists. split; [reflexivity|]. auto.
      * exists 0. eexists. split; [reflexivity|]. auto.
  - vm_compute. reflexivity.
Qed.

(** ** C04 *)
Theorem C04_conversion_total_one_tree {T V L} (t_zero : T) (mk_leaf : V -> res L) nf t :
  1 <= nf -> wf_sktree nf t -> leaves_convertible mk_leaf t ->
  exists dn ln, flatten_tree t_zero mk_leaf t = Ret (dn, ln) /\
    valid_nodes nf (zlen ln) dn /\ all_referenced dn [0] (zlen ln) /\
    zlen dn + zlen ln = flat_size t.
Proof.
  intros H1 H2 H3. destruct (flatten_tree_ok t_zero mk_leaf nf t H1 H2 H3) as (dn & ln & E & F).
  exists dn, ln. split; [exact E|]. split; [apply (fo_valid _ _ _ _ _ F)|].
  split; [apply (fo_refd _ _ _ _ _ F)|]. pose proof (fo_size _ _ _ _ _ F) as S.
  unfold flat_size. destruct (sk_node_count t =? 1); lia.
Qed.
Theorem C04_conversion_total {T V L} (t_zero : T) (mk_leaf : V -> res L) leaf_eqb nf trees :
  1 <= nf -> (forall l, leaf_eqb l l = true) -> trees <> [] ->
  Forall (wf_sktree nf) trees -> Forall (leaves_convertible mk_leaf) trees ->
  exists nodes roots leaves,
    convert_forest t_zero mk_leaf leaf_eqb trees = Ret (nodes, roots, leaves) /\
    valid_nodes nf (zlen leaves) nodes /\ all_referenced nodes roots (zlen leaves).
Proof.
  intros H1 H2 H3 H4 H5.
  destruct (convert_forest_ok t_zero mk_leaf leaf_eqb nf H1 H2 trees H3 H4 H5)
    as (nodes & roots & leaves & E & HV & HA & _). eauto 8.
Qed.
(** Every fitted classifier is accepted by the wrapper, with hard voting ... *)
Theorem C04_classifier_accepted nf n trees method dtype lb :
  fitted nf (class_row n) trees -> 1 <= n <= 127 -> In lb [None; Some 0; Some 1] ->
  In dtype [None; Some DInt16] -> method <> Some MUnknown ->
  nf <= (match method with Some MLoadable => 127 | _ => 10000 end) ->
  exists w, wrapper_init true method dtype lb trees nf n = Ret w /\
    (small_model nf trees -> fits_c (forest_nodes (w_forest w))).
Proof. intros H1 H2 H3. now apply hard_init. Qed.
(** ... with soft voting ... *)
Theorem C04_soft_classifier_accepted nf n bits trees method dtype :
  fitted nf (proba_row n) trees -> 1 <= n <= 127 -> 2 <= bits <= 8 ->
  In dtype [None; Some DInt16] -> method <> Some MUnknown ->
  nf <= (match method with Some MLoadable => 127 | _ => 10000 end) ->
  exists w, wrapper_init true method dtype (Some bits) trees nf n = Ret w /\
    (small_model nf trees -> fits_c (forest_nodes (w_forest w))).
Proof. intros H1 H2 H3. now apply soft_init. Qed.
(** ... and every fitted regressor. *)
Theorem C04_regressor_accepted nf nc trees method dtype lb :
  fitted nf value_row trees -> In lb [None; Some 32] ->
  In dtype [None; Some DInt16] -> method <> Some MUnknown ->
  nf <= (match method with Some MLoadable => 127 | _ => 10000 end) ->
  exists w, wrapper_init false method dtype lb trees nf nc = Ret w /\
    (small_model nf trees -> fits_c (forest_nodes (w_forest w))).
Proof. intros H1 H2. now apply val_init. Qed.

Example C04_instance : fitted 2 (class_row 3) forest_abc /\ fitted 2 (proba_row 3) forest_abc /\
  fitted 2 value_row forest_r /\ small_model 2 forest_abc /\ small_model 2 forest_r.
Proof. exact (conj fitted_class (conj fitted_proba (conj fitted_r (conj small_abc small_r)))). Qed.

(** ** C05 *)
Theorem C05_walk_safe_and_correct nf nl (nodes : list (dnode pynum)) :
  valid_nodes nf nl nodes -> fits_c nodes ->
  exists cn, generate_c_nodes nodes = Ret cn /\ zlen cn = zlen nodes /\
    forall self features root,
      et_nodes self = cn -> nf <= zlen features -> 0 <= root < zlen nodes ->
      exists k, eml_trees_predict_tree self root features = Ret k /\
        flat_leaf nodes (go_lt features) root k /\ 0 <= k < nl.
Proof.
  intros HV HF. destruct (generate_c_nodes_ok nf nl nodes HV HF) as (cn & E & Hl & _).
  exists cn. split; [exact E|]. split; [exact Hl|]. intros self features root H1 H2 H3.
  destruct (predict_tree_ok nf nl nodes cn self features root HV HF E H1 H2 H3) as (k & A & B & C & _).
  eauto.
Qed.

Definition walk_nodes : list (dnode pynum) :=
  [mk_dnode 0 (PyFloat (q 7 2)) 1 (-3); mk_dnode 1 (PyFloat (q (-5) 4)) (-1) (-2)].
Example C05_instance : valid_nodes 2 3 walk_nodes /\ fits_c walk_nodes.
Proof.
  split.
  - intros i n H. assert (B := zget_bound _ _ _ H). change (zlen walk_nodes) with 2 in *.
    assert (i = 0 \/ i = 1) as [-> | ->] by lia; injection H as <-; unfold valid_ref; simpl; lia.
  - split; [vm_compute; discriminate|]. intros i n H. assert (B := zget_bound _ _ _ H).
    change (zlen walk_nodes) with 2 in *. unfold child_fits.
    assert (i = 0 \/ i = 1) as [-> | ->] by lia; injection H as <-; cbn [d_feature d_value d_left d_right];
      (split; [lia|]; split; [|lia]);
      [exists 3 | exists (-1)]; (split; [vm_compute; reflexivity | unfold int16_ok; lia]).
Qed.

(** ** C06: encode_child accepts +32768, which the int16_t field turns into -32768, i.e. leaf 32767. *)
Theorem C06_child_fits_refuted :
  ~ (forall index child e, encode_child index child = Ret e ->
       int16_ok e /\ abs_child index (to_int16 e) = child).
Proof.
  intros H. destruct (H 0 32768 32768) as [H1 _]; [vm_compute; reflexivity|]. unfold int16_ok in H1. lia.
Qed.
Theorem C06_child_fits_partial index child e :
  encode_child index child = Ret e -> e <> 32768 ->
  int16_ok e /\ abs_child index (to_int16 e) = child.
Proof. exact (encode_child_fits index child e). Qed.
Example C06_instance : encode_child 5 40 = Ret 35 /\ encode_child 5 (-7) = Ret (-7) /\
  encode_child 0 32768 = Ret 32768 /\ to_int16 32768 = -32768.
Proof. repeat split; vm_compute; reflexivity. Qed.

(** ** C07 *)
Theorem C07_predict_majority nf n trees lb dt w m features :
  fitted nf (class_row n) trees -> 1 <= n <= 30 -> In lb [None; Some 0; Some 1] ->
  zlen trees < 2 ^ 24 ->
  wrapper_init true (Some MLoadable) dt lb trees nf n = Ret w ->
  fits_c (forest_nodes (w_forest w)) -> save_loadable w = Ret m -> zlen features = nf ->
  exists cs c, Forall2 (tree_class features) trees cs /\
    eml_trees_predict m features nf = Ret c /\ majority n cs c.
Proof.
  intros H1 H2 H3 H4 H5 H6 H7 H8.
  destruct (tree_class_total nf n trees H1 ltac:(lia) features) as [cs Hcs].
  destruct (api_predict nf n trees lb dt w m H1 ltac:(lia) H3 H4 H5 H6 H7 features cs ltac:(lia) H8 Hcs)
    as (c & E & M). eauto.
Qed.
(** Saving never fails for such a model. *)
Theorem C07_save_total nf n trees lb dt w :
  fitted nf (class_row n) trees -> 1 <= n <= 127 -> In lb [None; Some 0; Some 1] ->
  zlen trees < 2 ^ 24 ->
  wrapper_init true (Some MLoadable) dt lb trees nf n = Ret w ->
  fits_c (forest_nodes (w_forest w)) -> exists m, save_loadable w = Ret m.
Proof. intros; eapply api_save; eauto. Qed.

Lemma sample_hard : exists w m,
  wrapper_init true (Some MLoadable) None None forest_abc 2 3 = Ret w /\
  fits_c (forest_nodes (w_forest w)) /\ save_loadable w = Ret m.
Proof.
  destruct (C04_classifier_accepted 2 3 forest_abc (Some MLoadable) None None fitted_class ltac:(lia)
    ltac:(simpl; auto) ltac:(simpl; auto) ltac:(discriminate) ltac:(lia)) as (w & E & F).
  specialize (F small_abc). 
  destruct (C07_save_total 2 3 forest_abc None None w fitted_class ltac:(lia) ltac:(simpl; auto)
              ltac:(vm_compute; reflexivity) E F) as [m Hm]. eauto.
Qed.
Definition run_hard {A} (f : eml_trees -> res A) : res A :=
  let* w := wrapper_init true (Some MLoadable) None None forest_abc 2 3 in
  let* m := save_loadable w in f m.
Example C07_instance : exists w m,
  wrapper_init true (Some MLoadable) None None forest_abc 2 3 = Ret w /\
  fits_c (forest_nodes (w_forest w)) /\ save_loadable w = Ret m /\
  eml_trees_predict m [2; 20] 2 = Ret 0 /\ eml_trees_predict m [3; 0] 2 = Ret 2.
Proof.
  destruct sample_hard as (w & m & H1 & H2 & H3). exists w, m.
  assert (A : run_hard (fun m => eml_trees_predict m [2; 20] 2) = Ret 0) by (vm_compute; reflexivity).
  assert (B : run_hard (fun m => eml_trees_predict m [3; 0] 2) = Ret 2) by (vm_compute; reflexivity).
  unfold run_hard in A, B. rewrite H1 in A, B. cbn [bind] in A, B. rewrite H3 in A, B. auto.
Qed.

(** ** C08 *)
Theorem C08_proba_is_vote_fraction nf n trees lb dt w m features out :
  fitted nf (class_row n) trees -> 1 <= n <= 127 -> In lb [None; Some 0; Some 1] ->
  zlen trees < 2 ^ 24 ->
  wrapper_init true (Some MLoadable) dt lb trees nf n = Ret w ->
  fits_c (forest_nodes (w_forest w)) -> save_loadable w = Ret m ->
  zlen features = nf -> n <= zlen out ->
  exists cs out', Forall2 (tree_class features) trees cs /\
    eml_trees_predict_proba m features out n = Ret (EmlOk, out') /\ zlen out' = zlen out /\
    (forall c, 0 <= c < n -> exists y, zget out' c = Ret y /\ is_finite y = true /\
       B2R y = round radix2 (FLT_exp (-149) 24) ZnearestE (IZR (votes cs c) / IZR (zlen trees))) /\
    (forall i, n <= i -> zget out' i = zget out i).
Proof.
  intros H1 H2 H3 H4 H5 H6 H7 H8 H9.
  destruct (tree_class_total nf n trees H1 H2 features) as [cs Hcs].
  destruct (api_proba nf n trees lb dt w m H1 H2 H3 H4 H5 H6 H7 features cs out H8 H9 Hcs)
    as (o & A & B & C & D). exists cs, o. auto.
Qed.
Theorem C08_error_codes (m : eml_trees) features out out_length :
  0 <= et_n_classes m ->
  (out_length <> et_n_classes m ->
     eml_trees_predict_proba m features out out_length = Ret (EmlSizeMismatch, out)) /\
  (out_length = et_n_classes m -> out_length <= zlen out -> et_leaf_bits m <> 0 -> et_leaf_bits m <> 8 ->
     exists out', eml_trees_predict_proba m features out out_length = Ret (EmlUnsupported, out') /\
       zlen out' = zlen out).
Proof.
  intros Hn. split.
  - intros H. unfold eml_trees_predict_proba. destruct (Z.eqb_spec out_length (et_n_classes m)); [congruence|reflexivity].
  - intros H1 H2 H3 H4. unfold eml_trees_predict_proba. rewrite <- H1, Z.eqb_refl. cbn [negb].
    destruct (foldM_range_inv (fun o i => zset o i (fzero : f32)) (fun _ o => zlen o = zlen out) out_length out)
      as (o & E & Ho); [lia | reflexivity | |].
    + intros i o Hi Ho. rewrite zset_ok by lia. eexists; split; [reflexivity|]. now rewrite zlen_list_set.
    + unfold clear_out. rewrite E. cbn [bind]. 
      destruct (Z.eqb_spec (et_leaf_bits m) 0); [congruence|].
      destruct (Z.eqb_spec (et_leaf_bits m) 8); [congruence|]. eauto.
Qed.
Theorem C08_predict_error_codes (m : eml_trees) features features_length :
  (0 <= features_length <= 127 -> features_length <> et_n_features m ->
     eml_trees_predict m features features_length = Ret (-3)) /\
  (30 < et_n_classes m -> eml_trees_predict m features features_length = Ret (-3)).
Proof.
  unfold eml_trees_predict, EMTREES_MAX_CLASSES, EmlTreesErrorLength. split.
  - intros H1 H2. rewrite to_int8_id by (unfold int8_ok; lia).
    destruct (Z.eqb_spec features_length (et_n_features m)); [congruence|reflexivity].
  - intros H. destruct (to_int8 features_length =? et_n_features m); [|reflexivity]. cbn [negb].
    destruct (Z.ltb_spec 30 (et_n_classes m)); [reflexivity|lia].
Qed.
(** Votes 1/3, 0, 2/3, read as thousandths. *)
Definition milli (o : list f32) : list Z := map (fun x => ftrunc (fmul x (f_of_Z 1000))) o.
Example C08_instance : exists w m o,
  wrapper_init true (Some MLoadable) None None forest_abc 2 3 = Ret w /\
  fits_c (forest_nodes (w_forest w)) /\ save_loadable w = Ret m /\
  eml_trees_predict_proba m [3; 0] [fzero; fzero; fzero; fzero] 3 = Ret (EmlOk, o) /\
  milli o = [333; 0; 666; 0].
Proof.
  destruct sample_hard as (w & m & H1 & H2 & H3).
  destruct (C08_proba_is_vote_fraction 2 3 forest_abc None None w m [3; 0] [fzero; fzero; fzero; fzero]
     fitted_class ltac:(lia) ltac:(simpl; auto) ltac:(vm_compute; reflexivity) H1 H2 H3 eq_refl ltac:(vm_compute; discriminate))
    as (cs & o & _ & E & _).
  exists w, m, o.
  assert (A : run_hard (fun m => let* (_, o) := eml_trees_predict_proba m [3; 0] [fzero; fzero; fzero; fzero] 3 in
                         Ret (milli o)) = Ret [333; 0; 666; 0]) by (vm_compute; reflexivity).
  unfold run_hard in A. rewrite H1 in A. cbn [bind] in A. rewrite H3 in A. cbn [bind] in A. rewrite E in A.
  cbn [bind] in A. injection A as A. auto.
Qed.

(** ** C09 *)
Theorem C09_inline_loadable_agree_hard nf n trees lb dt dt' w w' m p features out :
  fitted nf (class_row n) trees -> 1 <= n <= 127 -> In lb [None; Some 0; Some 1] ->
  zlen trees < 2 ^ 24 ->
  wrapper_init true (Some MLoadable) dt lb trees nf n = Ret w ->
  fits_c (forest_nodes (w_forest w)) -> save_loadable w = Ret m ->
  wrapper_init true (Some MInline) dt' lb trees nf n = Ret w' -> save_inline w' = Ret p ->
  zlen features = nf -> n <= zlen out ->
  exists o, eml_trees_predict_proba m features out n = Ret (EmlOk, o) /\
    inline_predict_proba_int16 p features out n = Ret (0, o) /\
    (n <= 30 -> exists c, eml_trees_predict m features nf = Ret c /\ inline_predict_int16 p features = Ret c).
Proof. intros; eapply api_agree; eauto. Qed.

Definition run_inline {A} lb (f : inline_prog Z -> res A) : res A :=
  let* w := wrapper_init true (Some MInline) None lb forest_abc 2 3 in
  let* p := save_inline w in f p.
Example C09_instance : exists w w' m p,
  wrapper_init true (Some MLoadable) None None forest_abc 2 3 = Ret w /\
  fits_c (forest_nodes (w_forest w)) /\ save_loadable w = Ret m /\
  wrapper_init true (Some MInline) None None forest_abc 2 3 = Ret w' /\ save_inline w' = Ret p /\
  inline_predict_int16 p [3; 0] = Ret 2.
Proof.
  destruct sample_hard as (w & m & H1 & H2 & H3). 
  assert (B : run_inline None (fun p => inline_predict_int16 p [3; 0]) = Ret 2) by (vm_compute; reflexivity).
  unfold run_inline in B.
  destruct (wrapper_init true (Some MInline) None None forest_abc 2 3) as [w'|] eqn:E; [|discriminate].
  cbn [bind] in B. destruct (save_inline w') as [p|] eqn:Ep; [|discriminate]. cbn [bind] in B.
  exists w, w', m, p. auto 10.
Qed.

(** ** C10: predict_proba agrees; predict may differ by a rounding tie. *)
Theorem C10_inline_loadable_proba_agree_soft nf n bits trees dt dt' w w' m p features out :
  fitted nf (proba_row n) trees -> 1 <= n <= 127 -> 2 <= bits <= 8 -> zlen trees < 2 ^ 24 ->
  wrapper_init true (Some MLoadable) dt (Some bits) trees nf n = Ret w ->
  wrapper_init true (Some MInline) dt' (Some bits) trees nf n = Ret w' ->
  fits_c (forest_nodes (w_forest w)) -> save_loadable w = Ret m -> save_inline w' = Ret p ->
  zlen features = nf -> n <= zlen out ->
  exists o, eml_trees_predict_proba m features out n = Ret (EmlOk, o) /\
            inline_predict_proba_int16 p features out n = Ret (0, o).
Proof. intros; eapply soft_api_agree; eauto. Qed.
(** The two predictions are equal, or the loadable one is an earlier class whose probability is
    the same float; for 1, 2, 4, 8, ... trees they are always equal. *)
Theorem C10_predict_agree_soft_partial nf n bits trees dt dt' w w' m p features :
  fitted nf (proba_row n) trees -> 1 <= n <= 127 -> 2 <= bits <= 8 -> zlen trees < 2 ^ 24 ->
  wrapper_init true (Some MLoadable) dt (Some bits) trees nf n = Ret w ->
  wrapper_init true (Some MInline) dt' (Some bits) trees nf n = Ret w' ->
  fits_c (forest_nodes (w_forest w)) -> save_loadable w = Ret m -> save_inline w' = Ret p ->
  n <= 30 -> zlen features = nf ->
  exists i j o, inline_predict_int16 p features = Ret i /\ eml_trees_predict m features nf = Ret j /\
    eml_trees_predict_proba m features (repeat fzero (Z.to_nat 30)) n = Ret (EmlOk, o) /\
    (i = j \/
     (0 <= j < i /\ i < n /\ exists yi yj, zget o i = Ret yi /\ zget o j = Ret yj /\
        is_finite yi = true /\ B2R yi = B2R yj)) /\
    ((exists kp, 0 <= kp /\ zlen trees = 2 ^ kp) -> i = j).
Proof. intros; eapply soft_api_predict; eauto. Qed.

(** Three single-leaf trees, three classes, 8 bits: the inline program answers 1, the loadable 0. *)
Definition soft3 : res (Z * Z) :=
  let* w := wrapper_init true (Some MLoadable) None (Some 8) forest_soft3 1 3 in
  let* m := save_loadable w in
  let* w' := wrapper_init true (Some MInline) None (Some 8) forest_soft3 1 3 in
  let* p := save_inline w' in
  let* i := inline_predict_int16 p [0] in
  let* j := eml_trees_predict m [0] 1 in
  Ret (i, j).
Lemma soft3_differ : soft3 = Ret (1, 0).
Proof. vm_compute. reflexivity. Qed.
Theorem C10_predict_agree_soft_refuted :
  ~ (forall nf n bits trees w w' m p features,
       fitted nf (proba_row n) trees -> 1 <= n <= 30 -> 2 <= bits <= 8 ->
       wrapper_init true (Some MLoadable) None (Some bits) trees nf n = Ret w ->
       wrapper_init true (Some MInline) None (Some bits) trees nf n = Ret w' ->
       save_loadable w = Ret m -> save_inline w' = Ret p -> zlen features = nf ->
       inline_predict_int16 p features = eml_trees_predict m features nf).
Proof.
  intros H. pose proof soft3_differ as E. unfold soft3 in E.
  destruct (wrapper_init true (Some MLoadable) None (Some 8) forest_soft3 1 3) as [w|] eqn:E1; [|discriminate].
  cbn [bind] in E. destruct (save_loadable w) as [m|] eqn:E2; [|discriminate]. cbn [bind] in E.
  destruct (wrapper_init true (Some MInline) None (Some 8) forest_soft3 1 3) as [w'|] eqn:E3; [|discriminate].
  cbn [bind] in E. destruct (save_inline w') as [p|] eqn:E4; [|discriminate]. cbn [bind] in E.
  specialize (H 1 3 8 forest_soft3 w w' m p [0] fitted_soft3 ltac:(lia) ltac:(lia) E1 E3 E2 E4 eq_refl).
  destruct (inline_predict_int16 p [0]) as [i|]; [|discriminate]. cbn [bind] in E. rewrite <- H in E.
  cbn [bind] in E. injection E as E' E''. lia.
Qed.
Example C10_instance : exists w w' m p,
  wrapper_init true (Some MLoadable) None (Some 4) forest_abc 2 3 = Ret w /\
  wrapper_init true (Some MInline) None (Some 4) forest_abc 2 3 = Ret w' /\
  fits_c (forest_nodes (w_forest w)) /\ save_loadable w = Ret m /\ save_inline w' = Ret p.
Proof.
  destruct (C04_soft_classifier_accepted 2 3 4 forest_abc (Some MLoadable) None fitted_proba ltac:(lia) ltac:(lia)
    ltac:(simpl; auto) ltac:(discriminate) ltac:(lia)) as (w & E & F).
  specialize (F small_abc).
  assert (B : run_inline (Some 4) (fun p => inline_predict_int16 p [3; 0]) = Ret 2) by (vm_compute; reflexivity).
  unfold run_inline in B.
  destruct (wrapper_init true (Some MInline) None (Some 4) forest_abc 2 3) as [w'|] eqn:E'; [|discriminate].
  cbn [bind] in B. destruct (save_inline w') as [p|] eqn:Ep; [|discriminate].
  assert (A : (let* w := wrapper_init true (Some MLoadable) None (Some 4) forest_abc 2 3 in
               let* m := save_loadable w in Ret (et_n_classes m)) = Ret 3) by (vm_compute; reflexivity).
  rewrite E in A. cbn [bind] in A. destruct (save_loadable w) as [m|] eqn:Em; [|discriminate].
  exists w, w', m, p. auto 10.
Qed.

(** ** C11: x < int(threshold) is not x <= threshold. *)
(** Where the C walk goes from node [i] when it takes the child field [child]. *)
Definition child_target (i child : Z) : Z := if 0 <=? child then i + child else child.
Lemma node_step i d cn th nodes features x :
  make_node i d = Ret cn -> d_value d = PyFloat th -> is_finite th = true -> int16_ok (Ztrunc (B2R th)) ->
  0 <= i -> zget nodes i = Ret cn -> zget features (cn_feature cn) = Ret x ->
  int32_ok (i + cn_left cn) -> int32_ok (i + cn_right cn) ->
  forall fuel, predict_tree_loop (S fuel) nodes features i
    = predict_tree_loop fuel nodes features (child_target i (if x <? ftrunc th then cn_left cn else cn_right cn)).
Proof.
  intros Em Ed Ft It Hi En Ex Il Ir fuel. cbn [predict_tree_loop].
  destruct (Z.leb_spec 0 i); [|lia]. rewrite En. cbn [bind]. rewrite Ex. cbn [bind]. cbv zeta.
  assert (Ev : cn_value cn = ftrunc th).
  { unfold make_node in Em. invbind Em. rewrite Ed in E1. cbn [py_int] in E1.
    inversion Em; subst cn. cbn [cn_value].
    assert (a1 = ftrunc th) by (destruct th; try discriminate; inversion E1; auto). subst a1.
    rewrite ftrunc_real. apply to_int16_id. exact It. }
  rewrite Ev. unfold child_target. destruct (x <? ftrunc th).
  - destruct (0 <=? cn_left cn); [rewrite chk_int32_ok by auto|]; reflexivity.
  - destruct (0 <=? cn_right cn); [rewrite chk_int32_ok by auto|]; reflexivity.
Qed.
(** [sk_left x th]: scikit-learn goes left. *)
Definition sk_left (x : Z) (th : f64) : bool := Rle_bool (IZR x) (B2R th).
(** Loadable: the step from a generated node goes to scikit-learn's child unless x is the integer
    part of the threshold and not above the threshold ... *)
Theorem C11_same_branch_partial i d cn th nodes features x :
  make_node i d = Ret cn -> d_value d = PyFloat th -> is_finite th = true -> int16_ok (Ztrunc (B2R th)) ->
  0 <= i -> zget nodes i = Ret cn -> zget features (cn_feature cn) = Ret x ->
  int32_ok (i + cn_left cn) -> int32_ok (i + cn_right cn) ->
  x <> Ztrunc (B2R th) \/ (B2R th < IZR x)%R ->
  forall fuel, predict_tree_loop (S fuel) nodes features i
    = predict_tree_loop fuel nodes features (child_target i (if sk_left x th then cn_left cn else cn_right cn)).
Proof.
  intros Em Ed Ft It Hi En Ex Il Ir C fuel.
  rewrite (node_step i d cn th nodes features x) by auto. apply branch_agree in C.
  replace (sk_left x th) with (x <? ftrunc th); [reflexivity|].
  unfold sk_left. destruct (Rle_bool_spec (IZR x) (B2R th)) as [L|L]; [apply C; auto|].
  apply Bool.not_true_iff_false. intros E. apply C in E. lra.
Qed.
(** ... in which case it goes the other way. *)
Theorem C11_same_branch_refuted i d cn th nodes features x :
  make_node i d = Ret cn -> d_value d = PyFloat th -> is_finite th = true -> int16_ok (Ztrunc (B2R th)) ->
  0 <= i -> zget nodes i = Ret cn -> zget features (cn_feature cn) = Ret x ->
  int32_ok (i + cn_left cn) -> int32_ok (i + cn_right cn) ->
  x = Ztrunc (B2R th) -> (IZR x <= B2R th)%R ->
  sk_left x th = true /\
  forall fuel, predict_tree_loop (S fuel) nodes features i
    = predict_tree_loop fuel nodes features (child_target i (cn_right cn)).
Proof.
  intros Em Ed Ft It Hi En Ex Il Ir C L. split; [unfold sk_left; apply Rle_bool_true; auto|]. intros fuel.
  rewrite (node_step i d cn th nodes features x) by auto. rewrite ftrunc_real, <- C, Z.ltb_irrefl. reflexivity.
Qed.
(** Inline code: the same for the emitted if statement. *)
Theorem C11_same_branch_inline {R} (leaf_const : Z -> res R) fuel nodes i d th t features x :
  c_node py_int leaf_const (S fuel) nodes i = Ret t -> 0 <= i -> pyget nodes i = Ret d ->
  d_value d = PyFloat th -> zget features (d_feature d) = Ret x ->
  exists l r, c_node py_int leaf_const fuel nodes (d_left d) = Ret l /\
    c_node py_int leaf_const fuel nodes (d_right d) = Ret r /\
    (x <> Ztrunc (B2R th) \/ (B2R th < IZR x)%R ->
       run_tree Z.ltb features t = run_tree Z.ltb features (if sk_left x th then l else r)) /\
    (x = Ztrunc (B2R th) -> (IZR x <= B2R th)%R -> run_tree Z.ltb features t = run_tree Z.ltb features r).
Proof.
  intros E Hi En Ed Ex. cbn [c_node] in E. destruct (Z.ltb_spec i 0); [lia|].
  rewrite En in E. cbn [bind] in E. invbind E. inversion E; subst t.
  assert (a = ftrunc th) by (rewrite Ed in E0; destruct th; try discriminate; inversion E0; auto). subst a.
  exists a0, a1. split; [auto|]. split; [auto|]. cbn [run_tree]. rewrite Ex. cbn [bind]. split.
  - intros C. apply branch_agree in C.
    replace (sk_left x th) with (x <? ftrunc th); [destruct (x <? ftrunc th); reflexivity|].
    unfold sk_left. destruct (Rle_bool_spec (IZR x) (B2R th)) as [L|L]; [apply C; auto|].
    apply Bool.not_true_iff_false. intros Q. apply C in Q. lra.
  - intros C L. rewrite ftrunc_real, <- C, Z.ltb_irrefl. reflexivity.
Qed.
(** The decisions agree for every integer feature value only for negative non-integer thresholds. *)
Theorem C11_same_branch_everywhere_iff (th : f64) :
  (forall x : Z, (x <? ftrunc th) = true <-> (IZR x <= B2R th)%R) <->
  ((B2R th < 0)%R /\ forall k : Z, B2R th <> IZR k).
Proof. exact (branch_agree_all th). Qed.
(** A node with threshold 3.5, leaves 0 (left) and 1 (right): the value 3 goes right, 2 left. *)
Definition node35 : dnode pynum := mk_dnode 0 (PyFloat (q 7 2)) (-1) (-2).
Example C11_instance : exists cn, make_node 0 node35 = Ret cn /\
  predict_tree_loop 2 [cn] [3] 0 = Ret (-2) /\ predict_tree_loop 2 [cn] [2] 0 = Ret (-1).
Proof. exists (mk_cnode 0 3 (-1) (-2)). split; [|split]; vm_compute; reflexivity. Qed.

(** ** C12 *)
Theorem C12_quantisation bits (p : list f64) : 2 <= bits <= 8 -> p <> [] ->
  Forall (fun x => is_finite x = true /\ (0 <= B2R x <= 1)%R) p ->
  exists (g : f64 -> Z) (levels : list Z),
    quantize_probabilities_into_byte p bits = Ret (map g p) /\
    zlen levels = 2 ^ bits - 1 /\
    (forall x, is_finite x = true -> (0 <= B2R x <= 1)%R ->
       0 <= g x <= 255 /\ In (g x) levels /\
       (Rabs (IZR (g x) / 255 - B2R x) <= (/ 2 + bpow radix2 (-46)) / IZR (2 ^ bits - 2) + / 255)%R /\
       (B2R x = 0%R -> g x = 0) /\ (B2R x = 1%R -> g x = 255)) /\
    (forall x y, is_finite x = true -> is_finite y = true -> (0 <= B2R x)%R -> (B2R y <= 1)%R ->
       (B2R x <= B2R y)%R -> g x <= g y).
Proof.
  intros Hb Hne HP. exists (byte_of bits), (map (level_byte (2 ^ bits - 2)) (zrange (2 ^ bits - 1))).
  split; [now apply quantize_ok|]. split.
  { rewrite zlen_map. unfold zlen. rewrite zrange_length, Z2Nat.id; [reflexivity|].
    assert (0 < 2 ^ bits) by (apply Z.pow_pos_nonneg; lia). lia. }
  split.
  - intros x Fx Bx. destruct (byte_of_spec bits x Hb Fx Bx) as (A & B & C).
    split; [auto|]. split; [now apply byte_of_levels|]. auto.
  - intros x y Fx Fy A B C. now apply byte_of_mono.
Qed.
Example C12_instance : quantize_probabilities_into_byte [q 0 1; q 1 3; q 1 2; q 1 1] 4 = Ret [0; 91; 127; 255].
Proof. vm_compute. reflexivity. Qed.

(** ** C13 *)
Theorem C13_regression nf nc trees lb dt w m features :
  fitted nf value_row trees -> In lb [None; Some 32] -> zlen trees < 2 ^ 31 ->
  wrapper_init false (Some MLoadable) dt lb trees nf nc = Ret w ->
  fits_c (forest_nodes (w_forest w)) -> save_loadable w = Ret m -> zlen features = nf ->
  exists xs, Forall2 (fun t x => sk_reaches t (go_lt features) 0 [x]) trees xs /\
    let y := fdiv (fold_left fadd (map f32_of_f64 xs) fzero) (f_of_Z (zlen trees)) in
    (forall out out_length, 1 <= out_length -> 1 <= zlen out ->
       eml_trees_regress m features out out_length = Ret (EmlOk, list_set out 0 y)) /\
    eml_trees_regress1 m features = Ret y.
Proof.
  intros H1 H2 H3 H4 H5 H6 H7. destruct (tree_value_total nf trees H1 features) as [xs Hxs].
  exists xs. split; [exact Hxs|]. split; intros.
  - eapply regress_ok; eauto.
  - eapply regress1_ok; eauto.
Qed.
(** [f32_of_f64] is the nearest float32. *)
Theorem C13_leaf_is_nearest_float32 (x : f64) : is_finite x = true ->
  (Rabs (round radix2 (FLT_exp (-149) 24) ZnearestE (B2R x)) < bpow radix2 128)%R ->
  is_finite (f32_of_f64 x) = true /\
  B2R (f32_of_f64 x) = round radix2 (FLT_exp (-149) 24) ZnearestE (B2R x).
Proof. intros F H. destruct (f32_of_f64_correct x F H). auto. Qed.
Theorem C13_unsupported (m : eml_trees) features out out_length :
  1 <= out_length -> et_leaf_bits m <> 32 ->
  eml_trees_regress m features out out_length = Ret (EmlUnsupported, out) /\
  eml_trees_regress1 m features = Ret B754_nan.
Proof. exact (regress_unsupported m features out out_length). Qed.
Example C13_instance : exists w m,
  wrapper_init false (Some MLoadable) None None forest_r 2 0 = Ret w /\
  fits_c (forest_nodes (w_forest w)) /\ save_loadable w = Ret m.
Proof.
  destruct (C04_regressor_accepted 2 0 forest_r (Some MLoadable) None None fitted_r
    ltac:(simpl; auto) ltac:(simpl; auto) ltac:(discriminate) ltac:(lia)) as (w & E & F).
  specialize (F small_r).
  assert (A : (let* w := wrapper_init false (Some MLoadable) None None forest_r 2 0 in
               let* m := save_loadable w in Ret (et_leaf_bits m)) = Ret 32) by (vm_compute; reflexivity).
  rewrite E in A. cbn [bind] in A. destruct (save_loadable w) as [m|] eqn:Em; [|discriminate].
  exists w, m. auto.
Qed.

(** ** C14: predict() of the loadable method negates error codes into class numbers. *)
Theorem C14_errors_become_classes_refuted :
  (* a row that is too short is reported as class 3 *)
  (forall (m : eml_trees) nf values features,
     Forall2 (fun v x => f32_to_int16 v = Ret x) values features ->
     zlen values < nf -> nf <= 127 -> et_n_features m = nf ->
     predict_wrapper_loadable m nf values = Ret 3) /\
  (* so is every row given to a model with 31..127 classes *)
  (forall (m : eml_trees) nf values features,
     Forall2 (fun v x => f32_to_int16 v = Ret x) values features ->
     zlen values <= nf -> 30 < et_n_classes m ->
     predict_wrapper_loadable m nf values = Ret 3).
Proof. exact (conj wrapper_short_row wrapper_many_classes). Qed.
(** "No class" becomes class 1: four classes of probability 1/4 are all quantised to 0 by 2 bits. *)
Theorem C14_no_class_becomes_class_1 :
  (let* w := wrapper_init true (Some MLoadable) None (Some 2) [tree_1 [q 1 8; q 1 8; q 5 8; q 1 8]] 1 4 in
   let* m := save_loadable w in predict_wrapper_loadable m 1 [f_of_Z 0]) = Ret 2 /\
  (let* w := wrapper_init true (Some MLoadable) None (Some 2) [tree_1 [q 1 4; q 1 4; q 1 4; q 1 4]] 1 4 in
   let* m := save_loadable w in
   let* c := eml_trees_predict m [0] 1 in
   let* o := predict_wrapper_loadable m 1 [f_of_Z 0] in Ret (c, o)) = Ret (-1, 1).
Proof. split; vm_compute; reflexivity. Qed.
(** With hard voting, at most 30 classes and rows of the right length holding int16 integers,
    predict() returns the majority class. *)
Theorem C14_errors_partial nf n trees lb dt w m features :
  fitted nf (class_row n) trees -> 1 <= n <= 30 -> In lb [None; Some 0; Some 1] ->
  zlen trees < 2 ^ 24 ->
  wrapper_init true (Some MLoadable) dt lb trees nf n = Ret w ->
  fits_c (forest_nodes (w_forest w)) -> save_loadable w = Ret m ->
  zlen features = nf -> Forall int16_ok features ->
  exists cs c, Forall2 (tree_class features) trees cs /\
    predict_wrapper_loadable m nf (map f_of_Z features) = Ret c /\ majority n cs c.
Proof.
  intros H1 H2 H3 H4 H5 H6 H7 H8 H9.
  destruct (tree_class_total nf n trees H1 ltac:(lia) features) as [cs Hcs].
  destruct (wrapper_predict_hard nf n trees lb dt w m features cs H1 H2 H3 H4 H5 H6 H7 H8 H9 Hcs)
    as (c & E & M). eauto.
Qed.

(** ** C15: node and leaf counts are right; the byte count is right for regressors only. *)
Theorem C15_size_regressor trees nf nc dt lb w m : In lb [None; Some 32] ->
  wrapper_init false (Some MLoadable) dt lb trees nf nc = Ret w -> save_loadable w = Ret m ->
  zlen (et_nodes m) = model_size_nodes w /\ zlen (et_leaves m) = 4 * model_size_leaves w /\
  table_bytes m = model_size_bytes w None None.
Proof. exact (size_regress trees nf nc dt lb w m). Qed.
(** Hard voting: 0 bytes per leaf are reported, the table has 1. *)
Theorem C15_size_hard_partial trees nf n dt lb w m : In lb [None; Some 0; Some 1] ->
  wrapper_init true (Some MLoadable) dt lb trees nf n = Ret w -> save_loadable w = Ret m ->
  zlen (et_nodes m) = model_size_nodes w /\ zlen (et_leaves m) = model_size_leaves w /\
  table_bytes m = model_size_bytes w None None + model_size_leaves w.
Proof. exact (size_hard trees nf n dt lb w m). Qed.
(** Soft voting: 1 byte per leaf is reported, the table has one per class. *)
Theorem C15_size_soft_partial trees nf n bits dt w m :
  fitted nf (proba_row n) trees -> 1 <= n <= 127 -> 2 <= bits <= 8 ->
  wrapper_init true (Some MLoadable) dt (Some bits) trees nf n = Ret w -> save_loadable w = Ret m ->
  zlen (et_nodes m) = model_size_nodes w /\ zlen (et_leaves m) = n * model_size_leaves w /\
  table_bytes m = model_size_bytes w None None + (n - 1) * model_size_leaves w.
Proof. exact (size_soft trees nf n bits dt w m). Qed.
Theorem C15_size_refuted :
  (let* w := wrapper_init true (Some MLoadable) None None forest_abc 2 3 in
   let* m := save_loadable w in Ret (model_size_bytes w None None, table_bytes m)) = Ret (32, 35) /\
  (let* w := wrapper_init true (Some MLoadable) None (Some 4) forest_abc 2 3 in
   let* m := save_loadable w in Ret (model_size_bytes w None None, table_bytes m)) = Ret (36, 44).
Proof. split; vm_compute; reflexivity. Qed.

(** ** C16 *)
Theorem C16_csv_roundtrip_partial nf n trees lb dt method w :
  fitted nf (class_row n) trees -> 1 <= n <= 127 -> In lb [None; Some 0; Some 1] ->
  wrapper_init true method dt lb trees nf n = Ret w -> fits_c (forest_nodes (w_forest w)) ->
  Forall (fun t => 2 <= sk_node_count t /\ Forall (fun th => exists x, th = PyFloat x) (sk_threshold t)) trees ->
  exists rs, save_csv w = Ret rs /\
    let '(nodes, roots, leaves) := w_forest w in
    csv_decode rs = (map round_node nodes, roots, leaves) /\
    exists tl, rs = RFeatures nf :: RClasses n :: RLeafBits 0 :: tl.
Proof. exact (csv_api nf n trees lb dt method w). Qed.
(** Only thresholds are changed, to six decimals; those that have six decimals are kept. *)
Theorem C16_threshold_six_decimals (x : f64) k : is_finite x = true ->
  (B2R x * 1000000 = IZR k)%R -> Z.abs k <= 2 ^ 53 ->
  B2R (np_round6 x) = B2R x /\ is_finite (np_round6 x) = true.
Proof. exact (np_round6_exact x k). Qed.
(** A forest containing a single-leaf tree cannot be exported. *)
Theorem C16_csv_single_leaf_refuted :
  ~ (forall nf n trees w, fitted nf (class_row n) trees -> 1 <= n <= 30 ->
       wrapper_init true None None None trees nf n = Ret w -> exists rs, save_csv w = Ret rs).
Proof.
  intros H.
  assert (A : (let* w := wrapper_init true None None None forest_abc 2 3 in
               match save_csv w with Err AttributeError_ => Ret tt | _ => Err NoFuel end) = Ret tt)
    by (vm_compute; reflexivity).
  destruct (wrapper_init true None None None forest_abc 2 3) as [w|] eqn:E; [|discriminate].
  cbn [bind] in A. destruct (H 2 3 forest_abc w fitted_class ltac:(lia) E) as [rs Hrs].
  rewrite Hrs in A. discriminate.
Qed.
Example C16_instance :
  Forall (fun t => 2 <= sk_node_count t /\ Forall (fun th => exists x, th = PyFloat x) (sk_threshold t))
    [tree_a; tree_b] /\
  res_map (map (fun r => match r with RNode f _ a b => [f; a; b] | RRoot r => [r] | RLeaf _ => [-1]
                         | RFeatures n => [n] | RClasses n => [n] | RLeafBits n => [n] end))
    (let* w := wrapper_init true None None None [tree_a; tree_b] 2 3 in save_csv w) =
  Ret [[2]; [3]; [0]; [-1]; [-1]; [-1]; [0]; [2]; [0; -1; 1]; [1; -2; -3]; [1; -1; -2]].
Proof.
  split; [|vm_compute; reflexivity].
  each ltac:(split; [simpl; lia | cbn [sk_threshold tree_a tree_b]; each ltac:(eexists; reflexivity)]).
Qed.
