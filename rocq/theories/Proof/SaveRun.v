(** Running the text of an inline file: NAME_predict and NAME_predict_proba. *)
From Coq Require Import String ZArith List Bool Lia Reals Lra.
From Flocq Require Import Core BinarySingleNaN.
From Verif.Base Require Import Res CInt ListX Loops Float.
From Verif.Model Require Import Common Text Cgen TreesConvert TreesC TreesInline TreesWrapper TreesRun SaveText.
From Verif.Spec Require Import TreesSpec VoteSpec CTextSpec CgenSpec SaveSpec CRunSpec.
From Verif.Proof Require Import Text Cgen CText TreesTop CRun SaveInline SaveFile SaveInlineTop SaveProps.
Import ListNotations.
Open Scope Z_scope.
Open Scope list_scope.
Open Scope res_scope.

Lemma body_of_In w rest ds : NoDup (map fst ds) -> In (w, rest) ds -> body_of w ds = Some rest.
Proof.
  induction ds as [|[v r] ds IH]; intros N I; [contradiction|]. destruct I as [E|I]; cbn [map fst body_of] in *.
  - injection E as -> ->. destruct (list_eq_dec Z.eq_dec w w); [reflexivity|congruence].
  - inversion N as [|? ? N1 N2]; subst. destruct (list_eq_dec Z.eq_dec w v) as [->|]; [|now apply IH]. exfalso. apply N1. exact (in_map fst _ _ I).
Qed.

Section File.
Variables (w : wrapper) (name : text) (pr : bool) (t : text) (fns lvs funcs : list (list Z * list tok)) (bytes : list Z).
Hypothesis F : file_ok w name pr t fns lvs funcs bytes.
Lemma n_trees_nonneg : 0 <= n_trees w.
Proof. unfold n_trees. destruct (w_forest w) as [[? ?] ?]. apply zlen_nonneg. Qed.
Lemma file_names : NoDup (map fst (definitions t)).
Proof using F.
  destruct F as (T1 & T2 & T3 & T4 & T5 & _). rewrite T2, !map_app, T3, T5. apply file_nodup.
  destruct (w_leaf_bits w =? 0); [left; now subst|]. destruct T4 as (rest & -> & _). right. reflexivity.
Qed.
Lemma file_calls {K X V} (lt : X -> K -> bool) cst (ret : list Z -> option V) val dtype Ts features : reads_as lt cst ret dtype Ts fns ->
  Forall2 (calls lt features (file_call cst ret lt val t dtype features) val) (tree_names name (n_trees w)) Ts.
Proof using F.
  intros R. pose proof file_names as ND. destruct F as (T1 & T2 & T3 & _). rewrite <- T3. unfold reads_as in R.
  assert (S : incl fns (definitions t)) by (rewrite T2; apply incl_appl, incl_refl). clear T1 T2 T3. revert R S. generalize fns. clear F.
  intros ds R. induction R as [|T [v rest] Ts ds (c & Ec & Ex) R IH]; intros S; [constructor|]. cbn [map fst snd] in *.
  constructor; [|apply IH; intros x Hx; apply S; now right].
  intros y Ey. unfold file_call. rewrite (body_of_In v rest _ ND (S _ (or_introl eq_refl))), Ec, Ex, Ey. reflexivity.
Qed.
Lemma n_trees_reads {K X V} (lt : X -> K -> bool) cst (ret : list Z -> option V) dtype Ts : reads_as lt cst ret dtype Ts fns -> n_trees w = zlen Ts.
Proof using F.
  intros R. destruct F as (_ & _ & T3 & _). apply Forall2_zlen in R. rewrite R. pose proof n_trees_nonneg. apply (f_equal (@length text)) in T3.
  unfold tree_names in T3. rewrite !map_length, zrange_length in T3. unfold zlen. lia.
Qed.
Definition leaves_env : cenv := if w_leaf_bits w =? 0 then [] else [(name ++ txt "_leaves", CInts bytes)].
Lemma leaves_tables : Forall (file_table t) leaves_env.
Proof using F.
  pose proof file_names as ND. destruct F as (T1 & T2 & T3 & T4 & _). unfold leaves_env. destruct (w_leaf_bits w =? 0); [constructor|].
  destruct T4 as (rest & -> & n & lits & A & _ & B). constructor; [|constructor]. exists rest, n, lits, bytes. cbn [fst snd]. split; [|auto].
  apply body_of_In; [exact ND|]. rewrite T2. apply in_or_app. right. now left.
Qed.
Lemma leaves_ne : let l := name ++ txt "_leaves" in l <> txt "i" /\ l <> txt "offset" /\ l <> txt "out" /\ l <> txt "out_length".
Proof. cbv zeta. repeat split; intros E; apply (f_equal (@rev Z)) in E; rewrite rev_app_distr in E; discriminate. Qed.
(** the functions a user calls *)
Lemma file_fun dtype i ps f : dtype_text (w_dtype w) = Ret dtype ->
  nth_error (forest_asts name dtype (w_n_classes w) (w_leaf_bits w) (n_trees w) (w_classifier w) pr) i = Some ps ->
  nth_error (entry_points name (w_classifier w) pr) i = Some f ->
  exists rest, body_of f (definitions t) = Some rest /\ is_function (fst ps) rest (snd ps).
Proof using F.
  intros Hd Hp Hf. pose proof file_names as ND. destruct F as (T1 & T2 & T3 & T4 & T5 & _ & dt & Hd' & A). rewrite Hd in Hd'. injection Hd' as <-.
  rewrite <- T5, nth_error_map in Hf. destruct (nth_error funcs i) as [[f' rest]|] eqn:Ei; [|discriminate]. injection Hf as <-. cbn [fst].
  destruct (forall2_nth _ _ _ _ _ A Ei) as (ps' & Ep & body & Er & Ec). rewrite Hp in Ep. injection Ep as <-. cbn [snd] in Er.
  exists rest. split; [|exists body; split; [exact Er|exact Ec]].
  apply body_of_In; [exact ND|]. rewrite T2. apply in_or_app. right. apply in_or_app. right. eapply nth_error_In; eauto.
Qed.

Section Classifier.
Context {K X : Type} (lt : X -> K -> bool) (cst : list Z -> option K) (dtype : text) (p : inline_prog K) (features : list X).
Hypothesis HK : w_classifier w = true.
Hypothesis Hd : dtype_text (w_dtype w) = Ret dtype.
Hypothesis HR : reads_as lt cst int32_ret dtype (ip_trees p) fns.
Hypothesis Hn : ip_n_classes p = w_n_classes w.
Hypothesis Hb : ip_leaf_bits p = w_leaf_bits w.
Hypothesis Hl : ip_leaves p = bytes.
Hypothesis Hn31 : w_n_classes w <= 2147483647.
Hypothesis Hb31 : w_leaf_bits w = 0 \/ zlen bytes <= 2147483647.
Let callee := file_call cst int32_ret lt VI t dtype features.
Lemma classifier_predicts c : inline_predict lt p features = Ret c ->
  exists vars, file_runs t (name ++ txt "_predict") (row_params dtype) callee [] (VI c) vars.
Proof using All.
  intros E. pose proof (file_calls lt cst int32_ret VI dtype _ features HR) as C. fold callee in C.
  destruct (file_fun dtype 0 (feature_params dtype, if w_leaf_bits w =? 0 then majority_ast (w_n_classes w) (seq_all (map vote_ast (tree_names name (n_trees w))))
     else proportions_ast (w_n_classes w) (seq_all (map (soft_vote_ast (name ++ txt "_leaves") (w_n_classes w)) (tree_names name (n_trees w))))) (name ++ txt "_predict") Hd) as (rest & R1 & R2).
  { rewrite HK. reflexivity. }
  { rewrite HK. unfold entry_points. destruct pr; reflexivity. }
  cbn [fst snd] in R2. unfold inline_predict in E. rewrite Hb in E. pose proof leaves_tables as LT. unfold leaves_env in LT.
  destruct (Z.eqb_spec (w_leaf_bits w) 0) as [E0|E0].
  - destruct (majority_run lt features callee p (tree_names name (n_trees w)) c) as (vars & R); [lia|exact C|exact E|]. rewrite Hn in R. exists vars.
    exists rest, (majority_ast (w_n_classes w) (seq_all (map vote_ast (tree_names name (n_trees w))))), []. split; [exact R1|]. split; [exact R2|]. split; [constructor|exact R].
  - destruct (soft_predict_run lt features callee (name ++ txt "_leaves") p (tree_names name (n_trees w)) (leaves_ne) ltac:(rewrite Hl; lia) ltac:(lia) C c E) as (vars & R). rewrite Hn, Hl in R.
    exists vars. eexists rest, _, _. split; [exact R1|]. split; [exact R2|]. split; [exact LT|exact R].
Qed.
Lemma classifier_probas out n_out out' : pr = true -> n_out <= 2147483647 -> inline_predict_proba lt p features out n_out = Ret (0, out') ->
  exists vars, file_runs t (name ++ txt "_predict_proba") (row_out_params dtype) callee [(txt "out", CFloats out); (txt "out_length", CInt n_out)] (VI 0) vars /\
    find (txt "out") vars = Some (CFloats out').
Proof using All.
  intros Hp Ho E. pose proof (file_calls lt cst int32_ret VI dtype _ features HR) as C. fold callee in C.
  destruct (file_fun dtype 1 (proba_params dtype, if w_leaf_bits w =? 0 then proba_ast (n_trees w) (SInt (txt "_class") (EVal (VI (-1)))) (seq_all (map proba_vote_ast (tree_names name (n_trees w))))
     else proba_ast (n_trees w) (SInt (txt "offset") (EVal (VI 0))) (seq_all (map (soft_vote_ast (name ++ txt "_leaves") (w_n_classes w)) (tree_names name (n_trees w))))) (name ++ txt "_predict_proba") Hd) as (rest & R1 & R2).
  { rewrite HK, Hp. reflexivity. }
  { rewrite HK, Hp. reflexivity. }
  cbn [fst snd] in R2. unfold inline_predict_proba in E. rewrite Hb in E. pose proof leaves_tables as LT. unfold leaves_env in LT. pose proof (n_trees_reads _ _ _ _ _ HR) as NT.
  destruct (Z.eqb_spec (w_leaf_bits w) 0) as [E0|E0].
  - destruct (hard_proba_run lt features callee p (tree_names name (n_trees w)) out n_out out' Ho C E) as (k & R). rewrite <- NT in R.
    eexists. split; [eexists rest, _, []; split; [exact R1|]; split; [exact R2|]; split; [constructor|exact R]|]. reflexivity.
  - destruct (soft_proba_run lt features callee (name ++ txt "_leaves") p (tree_names name (n_trees w)) (leaves_ne) ltac:(rewrite Hl; lia) ltac:(lia) C out n_out out' Ho E) as (k & R). rewrite Hn, Hl, <- NT in R.
    eexists. split; [eexists rest, _, _; split; [exact R1|]; split; [exact R2|]; split; [exact LT|exact R]|]. reflexivity.
Qed.
End Classifier.

Lemma regressor_predicts {K X} (lt : X -> K -> bool) cst dtype (p : list (itree K f32)) features y : w_classifier w = false ->
  dtype_text (w_dtype w) = Ret dtype -> reads_as lt cst float_lit dtype p fns -> inline_regress lt p features = Ret y ->
  exists vars, file_runs t (name ++ txt "_predict") (row_params dtype) (file_call cst float_lit lt VF t dtype features) [] (VF y) vars.
Proof using F.
  intros HK Hd HR E. pose proof (file_calls lt cst float_lit VF dtype _ features HR) as C.
  destruct (file_fun dtype 0 (feature_params dtype, regress_ast (n_trees w) (seq_all (map regress_vote_ast (tree_names name (n_trees w))))) (name ++ txt "_predict") Hd) as (rest & R1 & R2).
  { rewrite HK. reflexivity. }
  { rewrite HK. reflexivity. }
  cbn [fst snd] in R2. pose proof (n_trees_reads _ _ _ _ _ HR) as NT.
  destruct (regress_run lt features _ p _ y C E) as (vars & R). rewrite <- NT in R. exists vars. eexists rest, _, []. split; [exact R1|]. split; [exact R2|]. split; [constructor|exact R].
Qed.
End File.
