(** Proofs about convert. *)
From Coq Require Import String ZArith List Bool Lia.
From Verif.Base Require Import Res CInt Loops Float Arith.
From Verif.Model Require Import Common TreesConvert TreesWrapper Net NetRun Convert.
From Verif.Spec Require Import ConvertSpec.
Import ListNotations.
Open Scope Z_scope.
Open Scope res_scope.

Lemma index_prefix (sub s : string) : prefix sub s = true <-> exists q, s = (sub ++ q)%string.
Proof.
  assert (PC : forall c c' a b, prefix (String c a) (String c' b) = if Ascii.ascii_dec c c' then prefix a b else false) by reflexivity.
  revert s. induction sub as [|c sub IH]; intros s.
  - split; [intros _; exists s; reflexivity|intros _; destruct s; reflexivity].
  - destruct s as [|c' s]; [split; [discriminate|intros [q Q]; discriminate]|]. rewrite PC. specialize (IH s).
    destruct (Ascii.ascii_dec c c') as [->|N].
    + split; [intros P; apply IH in P as [q Q]; exists q; rewrite Q; reflexivity|intros [q Q]; apply IH; exists q; injection Q; auto].
    + split; [discriminate|intros [q Q]; injection Q; congruence].
Qed.
Lemma index_some sub s n : sub <> EmptyString -> index 0 sub s = Some n -> exists p q, s = (p ++ sub ++ q)%string.
Proof.
  intros NE. revert n. induction s as [|c s IH]; intros n H.
  - cbn in H. destruct sub; [congruence|discriminate].
  - cbn [index] in H. destruct (prefix sub (String c s)) eqn:P.
    + apply index_prefix in P as [q Q]. exists EmptyString, q. exact Q.
    + destruct (index 0 sub s) as [k|] eqn:E; [|discriminate]. destruct (IH k eq_refl) as (p & q & ->). exists (String c p), q. reflexivity.
Qed.
Lemma index_none sub s : index 0 sub s = None -> forall p q, s <> (p ++ sub ++ q)%string.
Proof.
  revert sub. induction s as [|c s IH]; intros sub H p q E.
  - cbn in H. destruct p; [|discriminate]. destruct sub; [discriminate|discriminate].
  - cbn [index] in H. destruct (prefix sub (String c s)) eqn:P; [discriminate|]. destruct (index 0 sub s) as [k|] eqn:EI; [discriminate|].
    destruct p as [|c' p].
    + assert (prefix sub (String c s) = true) by (apply index_prefix; exists q; exact E). congruence.
    + injection E as _ E. exact (IH sub EI p q E).
Qed.
Lemma contains_iff s : contains "Regressor" s = true <-> names_regressor s.
Proof.
  unfold contains. destruct (index 0 "Regressor" s) as [n|] eqn:E; split; intros H; try discriminate; try reflexivity.
  - apply (index_some "Regressor" s n); [intros Q; discriminate Q|exact E].
  - destruct H as (p & q & Q). exfalso. exact (index_none _ _ E p q Q).
Qed.
Section S.
Context (float_str : f64 -> list Z) (log2_fn : f64 -> f64) (log_det_fn : list (list (list f64)) -> Z -> list f64) (ef lf tf : f32 -> f32).
Notation conv := (convert float_str log2_fn log_det_fn ef lf tf).
Lemma unknown_kind e o : ~ In (asked_kind e o) (map fst supported) -> conv e o = Err ValueError_.
Proof.
  unfold convert, asked_kind. set (k := match o_kind o with Some k => k | None => _ end). replace (match o_kind o with None => type_name e | Some k => k end) with k by reflexivity.
  intros N. cbn [map fst supported In] in N.
  assert (IN : forall l, incl l (map fst supported) -> is_in k l = false).
  { intros l HI. unfold is_in. destruct (existsb (String.eqb k) l) eqn:E; [|reflexivity]. exfalso. apply existsb_exists in E as (x & X1 & X2). apply String.eqb_eq in X2. subst x. apply HI in X1. exact (N X1). }
  rewrite !IN by (intros x; cbn; tauto).
  destruct (String.eqb_spec k "Sequential") as [Q|_]; [exfalso; apply N; rewrite Q; cbn; tauto|].
  destruct (String.eqb_spec k "GaussianNB") as [Q|_]; [exfalso; apply N; rewrite Q; cbn; tauto|]. reflexivity.
Qed.
Lemma wrong_family e o f : In (asked_kind e o, f) supported -> ~ is_family f (attrs e) -> forall m, conv e o <> Ret m.
Proof.
  unfold convert, asked_kind. set (k := match o_kind o with Some k => k | None => _ end). replace (match o_kind o with None => type_name e | Some k => k end) with k by reflexivity.
  intros I N m. cbn [supported In] in I.
  repeat (destruct I as [I|I]; [injection I as Q1 Q2; rewrite <- Q1; subst f; cbn; unfold trees_wrapper, net_of; destruct (attrs e); try (exfalso; apply N; exact Logic.I); try discriminate;
    destruct (kw_use_fixedpoint o), (kw_other o); discriminate|]). destruct I.
Qed.
Lemma kind_given name k a o : In k (map fst supported) -> (In k SUPPORTED_ESTIMATORS -> (names_regressor name <-> names_regressor k)) ->
  conv (mk_estimator name a) (mk_options (Some k) (o_method o) (o_dtype o) (o_return_type o) (kw_leaf_bits o) (kw_use_fixedpoint o) (kw_other o)) =
  conv (mk_estimator k a) (mk_options None (o_method o) (o_dtype o) (o_return_type o) (kw_leaf_bits o) (kw_use_fixedpoint o) (kw_other o)).
Proof.
  intros I T. unfold convert. cbn [o_kind type_name attrs o_method].
  destruct (is_in k SUPPORTED_ESTIMATORS) eqn:E; [|reflexivity].
  assert (IK : In k SUPPORTED_ESTIMATORS). { unfold is_in in E. apply existsb_exists in E as (x & X1 & X2). apply String.eqb_eq in X2. subst x. exact X1. }
  specialize (T IK). unfold trees_wrapper. cbn [kw_use_fixedpoint kw_other kw_leaf_bits o_method o_dtype type_name attrs].
  assert (Q : contains "Regressor" name = contains "Regressor" k).
  { destruct (contains "Regressor" name) eqn:E1, (contains "Regressor" k) eqn:E2; try reflexivity.
    - apply contains_iff in E1. apply T in E1. apply contains_iff in E1. congruence.
    - apply contains_iff in E2. apply T in E2. apply contains_iff in E2. congruence. }
  rewrite Q. reflexivity.
Qed.
End S.

Section O.
Context (float_str : f64 -> list Z) (log2_fn : f64 -> f64) (log_det_fn : list (list (list f64)) -> Z -> list f64) (ef lf tf : f32 -> f32).
Notation conv := (convert float_str log2_fn log_det_fn ef lf tf).
Lemma wrapper_bad c dt lb trees nf nc : exists e, wrapper_init c (Some MUnknown) dt lb trees nf nc = Err e.
Proof.
  unfold wrapper_init. match goal with |- context [convert_forest ?a ?b ?c ?d] => destruct (convert_forest a b c d) end; cbn [bind]; eauto.
Qed.
Lemma net_bad s rt fx ls : s <> "inline"%string -> s <> "loadable"%string -> exists e, net_wrapper ef lf tf (Some s) rt fx ls = Err e.
Proof.
  intros N1 N2. unfold net_wrapper. destruct (pyget ls (-1)); cbn [bind]; [|eauto].
  apply String.eqb_neq in N1, N2. rewrite N1, N2. cbn [negb andb]. destruct (fx && true); eauto.
Qed.
Lemma elliptic_bad s f0 : s <> "inline"%string -> DistanceRun.elliptic_wrapper float_str ef lf tf (Some s) f0 = Err ValueError_.
Proof.
  intros N. unfold DistanceRun.elliptic_wrapper. generalize (DistanceRun.save_envelope float_str ef lf tf f0). intros r.
  repeat (destruct s as [|[[] [] [] [] [] [] [] []] s]; try reflexivity). congruence.
Qed.
Lemma bad_method e o f s : In (asked_kind e o, f) supported -> f <> FMixture -> o_method o = Some s -> s <> "inline"%string -> s <> "loadable"%string ->
  forall m, conv e o <> Ret m.
Proof.
  unfold convert, asked_kind. set (k := match o_kind o with Some k => k | None => _ end). replace (match o_kind o with None => type_name e | Some k => k end) with k by reflexivity.
  intros I N M N1 N2 m H. cbn [supported In] in I.
  assert (MO : method_of s = MUnknown). { unfold method_of. apply String.eqb_neq in N1, N2. rewrite N1, N2. reflexivity. }
  assert (TR : forall w, trees_wrapper e o <> Ret w).
  { intros w. unfold trees_wrapper. rewrite M. cbn [option_map]. rewrite MO. destruct (kw_use_fixedpoint o), (kw_other o); try discriminate.
    destruct (attrs e) as [t nf nc| | | | | | |]; try discriminate. destruct nc as [c|].
    - destruct (wrapper_bad (negb (contains "Regressor" (type_name e))) (option_map dtype_of (o_dtype o)) (match kw_leaf_bits o with Some b => b | None => None end) t nf c) as [x ->]. discriminate.
    - destruct (negb (contains "Regressor" (type_name e))).
      + destruct (wrapper_init _ _ _ _ _ _ _); discriminate.
      + destruct (wrapper_bad false (option_map dtype_of (o_dtype o)) (match kw_leaf_bits o with Some b => b | None => None end) t nf 0) as [x ->]. discriminate. }
  assert (NT : forall b w, net_of ef lf tf e b o <> Ret w).
  { intros b w. unfold net_of. rewrite M. destruct (attrs e); try discriminate; destruct b; try discriminate.
    - destruct (n_layers_ <? 3)%Z eqn:L3; [discriminate|]. destruct (match kw_leaf_bits o with Some _ => true | None => _ end); [discriminate|].
      unfold convert_sklearn_mlp. rewrite L3. destruct (net_bad s (o_return_type o) (match kw_use_fixedpoint o with Some b => b | None => false end)
        (map (fun '(a, (w, b)) => mk_pylayer f64_arith a (fst w) (snd w) b) (combine (repeat activation (Datatypes.length coefs_ - 1) ++ [out_activation_]) (combine coefs_ intercepts_))) N1 N2) as [x E].
      rewrite E. discriminate.
    - destruct (convert_keras f64_arith layers) as [ls|] eqn:EK; cbn [bind]; [|discriminate]. destruct (match kw_leaf_bits o with Some _ => true | None => _ end); [discriminate|].
      unfold convert_keras_model. rewrite EK. cbn [bind]. destruct (net_bad s (o_return_type o) (match kw_use_fixedpoint o with Some b => b | None => false end) ls N1 N2) as [x E]. rewrite E. discriminate. }
  assert (EL : forall f0 w, DistanceRun.elliptic_wrapper float_str ef lf tf (Some s) f0 <> Ret w) by (intros f0 w; rewrite elliptic_bad; [discriminate|exact N1]).
  apply String.eqb_neq in N1, N2.
  repeat (destruct I as [I|I]); try exact I; injection I as Q1 Q2; rewrite <- Q1 in H; subst f; try congruence;
    cbn [is_in existsb SUPPORTED_ESTIMATORS String.eqb Ascii.eqb Bool.eqb orb] in H.
  1-6: (destruct (trees_wrapper e o) as [w|] eqn:E; [exact (TR w eq_refl)|discriminate H]).
  - destruct (attrs e) as [|f0| | | | | |]; try discriminate H. rewrite M in H. destruct (DistanceRun.elliptic_wrapper float_str ef lf tf (Some s) f0) eqn:E; [exact (EL _ _ E)|discriminate H].
  - destruct (net_of ef lf tf e false o) as [w|] eqn:E; [exact (NT false w E)|discriminate H].
  - destruct (net_of ef lf tf e false o) as [w|] eqn:E; [exact (NT false w E)|discriminate H].
  - destruct (net_of ef lf tf e true o) as [w|] eqn:E; [exact (NT true w E)|discriminate H].
  - destruct (attrs e) as [| | | | |f0| |]; try discriminate H. rewrite M in H. unfold BayesRun.nb_init in H. destruct (BayesRun.nb_table log2_fn f0); cbn [bind] in H; [|discriminate].
    rewrite N1, N2 in H. discriminate.
  - destruct (attrs e) as [| | | | | |metric weights ? ? ?|]; try discriminate H. rewrite M in H. unfold NeighborsRun.knn_init in H.
    destruct (NeighborsRun.check_params_supported metric weights); cbn [bind] in H; [|discriminate]. rewrite N2 in H. discriminate.
Qed.
Lemma bad_keyword e o f : In (asked_kind e o, f) supported -> In f [FTrees; FMLP; FKeras] ->
  kw_other o = true \/ (f = FTrees /\ kw_use_fixedpoint o <> None) \/ (f <> FTrees /\ kw_leaf_bits o <> None) -> forall m, conv e o <> Ret m.
Proof.
  unfold convert, asked_kind. set (k := match o_kind o with Some k => k | None => _ end). replace (match o_kind o with None => type_name e | Some k => k end) with k by reflexivity.
  intros I J K m H. cbn [supported In] in I, J.
  assert (TR : f = FTrees -> trees_wrapper e o = Err TypeError_).
  { intros F. unfold trees_wrapper. destruct K as [->|[[_ Q]|[Q _]]]; [destruct (kw_use_fixedpoint o); reflexivity| |congruence].
    destruct (kw_use_fixedpoint o); [reflexivity|congruence]. }
  assert (NT : f <> FTrees -> forall b w, net_of ef lf tf e b o <> Ret w).
  { intros F b w. unfold net_of.
    assert (B : match kw_leaf_bits o with Some _ => true | None => if kw_other o then true else false end = true).
    { destruct K as [->|[[Q _]|[_ Q]]]; [destruct (kw_leaf_bits o); reflexivity|congruence|]. destruct (kw_leaf_bits o); [reflexivity|congruence]. }
    rewrite B. destruct (attrs e); try discriminate; destruct b; try discriminate.
    - destruct (n_layers_ <? 3); discriminate.
    - destruct (convert_keras f64_arith layers); discriminate. }
  repeat (destruct I as [I|I]); try exact I; injection I as Q1 Q2; rewrite <- Q1 in H; rewrite <- Q2 in *; clear Q2;
    try (exfalso; repeat (destruct J as [J|J]; [discriminate J|]); exact J);
    cbn [is_in existsb SUPPORTED_ESTIMATORS String.eqb Ascii.eqb Bool.eqb orb] in H.
  1-6: rewrite (TR eq_refl) in H; discriminate H.
  1-2: destruct (net_of ef lf tf e false o) as [w|] eqn:E; [exact (NT ltac:(discriminate) false w E)|discriminate H].
  destruct (net_of ef lf tf e true o) as [w|] eqn:E; [exact (NT ltac:(discriminate) true w E)|discriminate H].
Qed.
(** The model returned is of the family asked for. *)
Lemma family_of e o f m : In (asked_kind e o, f) supported -> conv e o = Ret m ->
  match f, m with
  | FTrees, MTrees _ _ _ _ | FEnvelope, MEnvelope _ _ _ _ _ | FMixture, MMixture _ _ _ _ | FMLP, MNet _ _ _ _ | FKeras, MNet _ _ _ _ | FNB, MNB _ _ _ _ | FKNN, MKNN _ _ _ _ => True
  | _, _ => False
  end.
Proof.
  unfold convert, asked_kind. set (k := match o_kind o with Some k => k | None => _ end). replace (match o_kind o with None => type_name e | Some k => k end) with k by reflexivity.
  intros I H. cbn [supported In] in I.
  repeat (destruct I as [I|I]); try (exfalso; exact I); injection I as Q1 Q2; rewrite <- Q1 in H; rewrite <- Q2; clear Q1 Q2;
    cbn [is_in existsb SUPPORTED_ESTIMATORS String.eqb Ascii.eqb Bool.eqb orb] in H;
    try (apply bind_Ret in H as (w & _ & H); injection H as <-; exact Logic.I);
    destruct (attrs e); try discriminate H; apply bind_Ret in H as (w & _ & H); injection H as <-; exact Logic.I.
Qed.
End O.
