(** The C text of inline tree models, from the wrapper. *)
From Coq Require Import String ZArith List Bool Lia Reals.
From Flocq Require Import Core BinarySingleNaN.
From Verif.Base Require Import Res CInt ListX Loops Float.
From Verif.Model Require Import Common Text Cgen TreesConvert TreesC TreesInline TreesWrapper TreesRun SaveText.
From Verif.Spec Require Import CTextSpec CgenSpec SaveSpec.
From Verif.Proof Require Import Text Cgen CText SaveInline SaveFile.
Import ListNotations.
Open Scope Z_scope.
Open Scope list_scope.
Open Scope res_scope.

Lemma tree_fn_name name i : tree_fn name i (tree_name name i).
Proof. exists (fmt_int i). split; [apply fmt_int_literal|reflexivity]. Qed.
Lemma nth_tree_names name n i : 0 <= i < n -> nth_error (tree_names name n) (Z.to_nat i) = Some (tree_name name i).
Proof.
  intros H. unfold tree_names. assert (E : nth_error (zrange n) (Z.to_nat i) = Some i).
  { unfold zrange. rewrite nth_error_map. rewrite (nth_error_nth' _ 0%nat) by (rewrite seq_length; lia). rewrite seq_nth by lia. simpl. f_equal. lia. }
  now apply map_nth_error.
Qed.
Lemma tree_names_fns name n : 0 <= n -> tree_fns name n (tree_names name n).
Proof.
  intros H. assert (L : length (tree_names name n) = Z.to_nat n) by (unfold tree_names; rewrite map_length; apply zrange_length).
  split; [etransitivity; [apply f_equal; exact L|lia]|].
  intros i w E Hi. assert (B : (Z.to_nat i < Z.to_nat n)%nat) by (rewrite <- L; apply nth_error_Some; intros Q; assert (Q' : @Some (list Z) w = None) by exact (eq_trans (eq_sym E) Q); discriminate).
  assert (EQ : Some w = Some (tree_name name i)) by exact (eq_trans (eq_sym E) (nth_tree_names name n i ltac:(lia))). injection EQ as ->. apply tree_fn_name.
Qed.

(** names of one file are distinct *)
Lemma app_tail_ne (a x y : list Z) : x <> y -> a ++ x <> a ++ y.
Proof. intros H E. apply app_inv_head in E. auto. Qed.
Lemma fmt_int_inj a b : fmt_int a = fmt_int b -> a = b.
Proof. intros H. assert (Some a = Some b) by (rewrite <- !int_lit_fmt; congruence). congruence. Qed.
Lemma names_nodup name n : NoDup (tree_names name n).
Proof.
  unfold tree_names. apply FinFun.Injective_map_NoDup.
  - intros a b E. unfold tree_name in E. apply app_inv_head, app_inv_head in E. now apply fmt_int_inj.
  - unfold zrange. apply FinFun.Injective_map_NoDup; [intros a b; lia|apply seq_NoDup].
Qed.
Lemma forest_names_spec name classifier include_proba : forest_names name classifier include_proba = entry_points name classifier include_proba.
Proof. unfold forest_names, entry_points. destruct classifier, include_proba; reflexivity. Qed.
Lemma file_nodup name n (lvs : list text) classifier include_proba : lvs = [] \/ lvs = [name ++ txt "_leaves"] ->
  NoDup (tree_names name n ++ lvs ++ entry_points name classifier include_proba).
Proof.
  intros H. assert (A : forall w s, In w (tree_names name n) -> hd 0 s <> 95 \/ hd 0 (tl s) <> 116 -> w <> name ++ s).
  { intros w s I D. apply in_map_iff in I. destruct I as (i & <- & _). unfold tree_name. apply app_tail_ne.
    destruct s as [|a [|b s]]; cbn [hd tl] in D; intros E; try discriminate E. injection E as <- <- _. destruct D as [D|D]; apply D; reflexivity. }
  assert (B : NoDup (lvs ++ entry_points name classifier include_proba)).
  { assert (N1 : name ++ txt "_leaves" <> name ++ txt "_predict") by (apply app_tail_ne; discriminate).
    assert (N2 : name ++ txt "_leaves" <> name ++ txt "_predict_proba") by (apply app_tail_ne; discriminate).
    assert (N3 : name ++ txt "_predict" <> name ++ txt "_predict_proba") by (apply app_tail_ne; discriminate).
    unfold entry_points. destruct H as [-> | ->], (classifier && include_proba); cbn [app]; repeat constructor; cbn [In]; intuition congruence. }
  induction (names_nodup name n) as [|w l NI ND IH]; [exact B|]. cbn [app]. constructor.
  - intros I. apply in_app_or in I. destruct I as [I|I]; [contradiction|]. apply in_app_or in I.
    destruct I as [I|I].
    + destruct H as [-> | ->]; [contradiction|]. destruct I as [<-|[]]. eapply (A (name ++ txt "_leaves")); [left; reflexivity| |reflexivity]. right. discriminate.
    + unfold entry_points in I. destruct (classifier && include_proba); cbn [In] in I.
      * destruct I as [<-|[<-|[]]]; (eapply A; [left; reflexivity| |reflexivity]); right; discriminate.
      * destruct I as [<-|[]]. eapply A; [left; reflexivity| |reflexivity]. right. discriminate.
  - apply IH. intros w' s I. apply A. right. exact I.
Qed.

(** What each kind of constant reads back as. *)
Lemma int_consts dtype v k : contains (txt "int") dtype = true -> py_int v = Ret k -> exists t, constant no_str v dtype = Ret t /\ litt t /\ int_lit t = Some k.
Proof. intros H E. rewrite (constant_int_text v k dtype H E). exists (fmt_int k). split; [reflexivity|]. split; [apply fmt_int_litt|apply int_lit_fmt]. Qed.
Lemma float_consts v k : float_const v = Ret k -> exists t, constant no_str v (txt "float") = Ret t /\ litt t /\ float_lit t = Some k.
Proof.
  unfold float_const, constant, no_str. replace (text_eqb (txt "float") (txt "float")) with true by (symmetry; now apply text_eqb_iff).
  intros E. apply bind_Ret in E. destruct E as (t & E & L). apply bind_Ret in E. destruct E as (x & Ex & E). injection E as <-.
  rewrite Ex. cbn [bind]. eexists. split; [reflexivity|]. split; [apply fixed_litt|now apply float_lit_fixed].
Qed.
Lemma class_leaves leaves leaf_bits i r : class_leaf_const leaves leaf_bits i = Ret r ->
  exists t, leaf_text true leaves leaf_bits i = Ret t /\ litt t /\ int32_ret t = Some r.
Proof.
  unfold class_leaf_const, leaf_text. cbn [negb]. intros E. destruct (leaf_bits =? 0).
  - apply bind_Ret in E. destruct E as (l & El & E). apply bind_Ret in E. destruct E as (z & Ez & E). injection E as <-.
    rewrite El. cbn [bind]. rewrite Ez. cbn [bind]. rewrite (constant_int_text (PyInt z) z (txt "int") eq_refl eq_refl).
    exists (fmt_int z). split; [reflexivity|]. split; [apply fmt_int_litt|]. unfold int32_ret. rewrite int_lit_fmt. reflexivity.
  - injection E as <-. rewrite (constant_int_text (PyInt i) i (txt "int") eq_refl eq_refl).
    exists (fmt_int i). split; [reflexivity|]. split; [apply fmt_int_litt|]. unfold int32_ret. rewrite int_lit_fmt. reflexivity.
Qed.
Lemma value_leaves leaves leaf_bits i r : value_leaf_const leaves i = Ret r ->
  exists t, leaf_text false leaves leaf_bits i = Ret t /\ litt t /\ float_lit t = Some r.
Proof.
  unfold value_leaf_const, leaf_text. cbn [negb]. intros E. apply bind_Ret in E. destruct E as (l & El & E). rewrite El. cbn [bind].
  destruct l; try discriminate; now apply float_consts.
Qed.

(** The text of an inline model [w], saved as [name]. *)
Section Text.
Variables (w : wrapper) (name : text) (include_proba : bool).
Hypothesis HM : w_method w = MInline.
Hypothesis HA : assert_valid_identifier name = Ret tt.
Hypothesis HI : identifier name.
Hypothesis HC : 0 <= w_n_classes w.

Definition n_trees : Z := let '(_, roots, _) := w_forest w in zlen roots.
(** what all kinds share; [bytes] is the table of leaves *)
Definition file_ok (t : text) (trees lvs funcs : list (list Z * list tok)) (bytes : list Z) : Prop :=
  trees_text w name include_proba = Ret t /\ definitions t = trees ++ lvs ++ funcs /\
  map fst trees = tree_names name n_trees /\
  (if w_leaf_bits w =? 0 then lvs = [] else
     exists rest, lvs = [(name ++ txt "_leaves", rest)] /\ exists n lits, array_def rest = Some (n, lits) /\ int_lit n = Some (zlen bytes) /\ map int_lit lits = map Some bytes) /\
  map fst funcs = entry_points name (w_classifier w) include_proba /\ Forall (fun d => called (snd d) = tree_names name n_trees) funcs /\
  exists dtype, dtype_text (w_dtype w) = Ret dtype /\ Forall2 fun_is funcs (forest_asts name dtype (w_n_classes w) (w_leaf_bits w) n_trees (w_classifier w) include_proba).

Lemma tree_defs_map {K X V} (lt : X -> K -> bool) cst (ret : list Z -> option V) dtype : forall names Ts ds,
  length names = length Ts -> Forall2 (fun '(n, T) d => tree_def lt cst ret dtype n T d) (combine names Ts) ds ->
  map fst ds = names /\ Forall2 (fun T d => exists c, tree_function dtype (snd d) = Some c /\ forall features, exec int_lit cst ret lt features c = ok_of (run_tree lt features T)) Ts ds.
Proof.
  induction names as [|n ns IH]; intros [|T Ts] ds L F; try discriminate; inversion F as [|? d ? ds' H F']; subst.
  - split; [reflexivity|constructor].
  - destruct H as [H1 H2]. destruct (IH Ts ds' ltac:(cbn in L; lia) F') as [A B]. cbn [map]. rewrite H1, A. split; [reflexivity|]. constructor; assumption.
Qed.

Lemma file_gen {K X V} (const : pynum -> res K) (leaf_const : Z -> res V) (lt : X -> K -> bool) cst ret dtype nodes roots leaves lv Ts :
  dtype_text (w_dtype w) = Ret dtype -> wordy dtype -> w_forest w = (nodes, roots, leaves) ->
  (forall v k, const v = Ret k -> exists t, constant no_str v dtype = Ret t /\ litt t /\ cst t = Some k) ->
  (forall i r, leaf_const i = Ret r -> exists t, leaf_text (w_classifier w) leaves (w_leaf_bits w) i = Ret t /\ litt t /\ ret t = Some r) ->
  leaves_table leaves (w_leaf_bits w) = Ret lv -> mapM (c_node const leaf_const (S (length nodes)) nodes) roots = Ret Ts ->
  exists t trees lvs funcs, file_ok t trees lvs funcs lv /\
    Forall2 (fun T d => exists c, tree_function dtype (snd d) = Some c /\ forall features, exec int_lit cst ret lt features c = ok_of (run_tree lt features T)) Ts trees.
Proof using HM HA HI HC.
  intros Hd Wd Hw Hk Hl HL HT.
  destruct (inline_file const leaf_const lt cst ret dtype Wd Hk nodes roots leaves name (w_n_classes w) (w_leaf_bits w) (w_classifier w) include_proba Hl HA HI HC lv Ts HL HT)
    as (t & trees & lvs & funcs & Et & Dt & Ft & Lt & Mf & Cf & Af).
  assert (LT : length (tree_names name (zlen roots)) = length Ts).
  { apply mapM_Ret in HT. apply Forall2_zlen in HT. unfold tree_names. rewrite map_length, zrange_length. unfold zlen in *. lia. }
  destruct (tree_defs_map lt cst ret dtype _ _ _ LT Ft) as [M1 M2].
  exists ([10; 10] ++ t), trees, lvs, funcs. split; [|exact M2]. unfold file_ok, n_trees. rewrite Hw. split.
  { unfold trees_text. rewrite Hd. cbn [bind]. rewrite HM, Hw, Et. reflexivity. }
  split; [apply is_def_definitions, is_def_nil_app; [lc|exact Dt]|]. split; [exact M1|]. split; [exact Lt|]. split; [rewrite Mf; apply forest_names_spec|]. split; [exact Cf|].
  exists dtype. split; [exact Hd|exact Af].
Qed.
End Text.

(** The code of each definition in [trees] does what the program's trees do. *)
Definition reads_as {K X V} (lt : X -> K -> bool) (cst : list Z -> option K) (ret : list Z -> option V) (dtype : text) (Ts : list (itree K V)) (trees : list (list Z * list tok)) : Prop :=
  Forall2 (fun T d => exists c, tree_function dtype (snd d) = Some c /\ forall features, exec int_lit cst ret lt features c = ok_of (run_tree lt features T)) Ts trees.
Definition code_reads (c : tree_code) (trees : list (list Z * list tok)) : Prop :=
  match c with
  | CodeInt16 p => reads_as Z.ltb int_lit int32_ret (txt "int16_t") (ip_trees p) trees
  | CodeFloat p => reads_as fltb float_lit int32_ret (txt "float") (ip_trees p) trees
  | CodeRegInt16 p => reads_as Z.ltb int_lit float_lit (txt "int16_t") p trees
  | CodeRegFloat p => reads_as fltb float_lit float_lit (txt "float") p trees
  | CodeLoadable _ => False
  end.
Lemma inline_reads w name pr c : w_method w = MInline -> assert_valid_identifier name = Ret tt -> identifier name -> 0 <= w_n_classes w ->
  save_code w = Ret c -> exists t trees lvs funcs bytes, file_ok w name pr t trees lvs funcs bytes /\ code_reads c trees /\
    (forall p, c = CodeInt16 p -> ip_leaves p = bytes) /\ (forall p, c = CodeFloat p -> ip_leaves p = bytes).
Proof.
  intros HM HA HI HC E. unfold save_code in E. rewrite HM in E.
  destruct (w_forest w) as [[nodes roots] leaves] eqn:HF.
  assert (W16 : wordy (txt "int16_t")) by (split; [discriminate|reflexivity]). assert (WF : wordy (txt "float")) by (split; [discriminate|reflexivity]).
  destruct (w_dtype w) eqn:HD; try discriminate; destruct (w_classifier w) eqn:HK.
  - apply bind_Ret in E. destruct E as (p & Ep & E). apply bind_Ret in E. destruct E as ([] & _ & E). injection E as <-.
    unfold save_inline, generate_c_inlined_int16, generate_c_inlined in Ep. rewrite HF in Ep. apply bind_Ret in Ep. destruct Ep as (lv & El & Ep).
    apply bind_Ret in Ep. destruct Ep as (Ts & Et & Ep). injection Ep as <-.
    destruct (file_gen w name pr HM HA HI HC py_int (class_leaf_const leaves (w_leaf_bits w)) Z.ltb int_lit int32_ret (txt "int16_t") nodes roots leaves lv Ts) as (t & trees & lvs & funcs & G & H).
    + rewrite HD. reflexivity.
    + exact W16.
    + exact HF.
    + intros v k. now apply int_consts.
    + rewrite HK. apply class_leaves.
    + exact El.
    + exact Et.
    + exists t, trees, lvs, funcs, lv. split; [exact G|]. split; [exact H|]. split; intros p Q; inversion Q; reflexivity.
  - apply bind_Ret in E. destruct E as (p & Ep & E). apply bind_Ret in E. destruct E as ([] & _ & E). injection E as <-.
    unfold generate_c_inlined_regress in Ep. apply bind_Ret in Ep. destruct Ep as (lv & El & Et).
    destruct (file_gen w name pr HM HA HI HC py_int (value_leaf_const leaves) Z.ltb int_lit float_lit (txt "int16_t") nodes roots leaves lv p) as (t & trees & lvs & funcs & G & H).
    + rewrite HD. reflexivity.
    + exact W16.
    + exact HF.
    + intros v k. now apply int_consts.
    + rewrite HK. apply value_leaves.
    + exact El.
    + exact Et.
    + exists t, trees, lvs, funcs, lv. split; [exact G|]. split; [exact H|]. split; intros q Q; inversion Q.
  - apply bind_Ret in E. destruct E as (p & Ep & E). injection E as <-.
    unfold generate_c_inlined in Ep. apply bind_Ret in Ep. destruct Ep as (lv & El & Ep).
    apply bind_Ret in Ep. destruct Ep as (Ts & Et & Ep). injection Ep as <-.
    destruct (file_gen w name pr HM HA HI HC float_const (class_leaf_const leaves (w_leaf_bits w)) fltb float_lit int32_ret (txt "float") nodes roots leaves lv Ts) as (t & trees & lvs & funcs & G & H).
    + rewrite HD. reflexivity.
    + exact WF.
    + exact HF.
    + intros v k. apply float_consts.
    + rewrite HK. apply class_leaves.
    + exact El.
    + exact Et.
    + exists t, trees, lvs, funcs, lv. split; [exact G|]. split; [exact H|]. split; intros p Q; inversion Q; reflexivity.
  - apply bind_Ret in E. destruct E as (p & Ep & E). injection E as <-.
    unfold generate_c_inlined_regress in Ep. apply bind_Ret in Ep. destruct Ep as (lv & El & Et).
    destruct (file_gen w name pr HM HA HI HC float_const (value_leaf_const leaves) fltb float_lit float_lit (txt "float") nodes roots leaves lv p) as (t & trees & lvs & funcs & G & H).
    + rewrite HD. reflexivity.
    + exact WF.
    + exact HF.
    + intros v k. apply float_consts.
    + rewrite HK. apply value_leaves.
    + exact El.
    + exact Et.
    + exists t, trees, lvs, funcs, lv. split; [exact G|]. split; [exact H|]. split; intros q Q; inversion Q.
Qed.
