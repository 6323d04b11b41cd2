(** Options of the network wrapper, and rows of a wrong length. *)
From Coq Require Import String ZArith List Bool Lia Reals Lra.
From Flocq Require Import Core BinarySingleNaN.
From Verif.Base Require Import Res CInt ListX Loops Float FloatOrder Arith Kernels RealSum.
From Verif.Model Require Import Common Text TreesConvert TreesC TreesWrapper Net Cgen Harness TreesRun NetRun.
From Verif.Spec Require Import RealSpec NetSpec ClassifierSpec HarnessSpec RunSpec RoundingSpec NetRunSpec.
From Verif.Proof Require Import Net NetApi NetKeras NetErr Harness RunRows TreesFloatRun NetRun NetRunTop.
Import Verif.Spec.HarnessSpec ListNotations.
Open Scope Z_scope.
Open Scope res_scope.

Section N.
Context (ef lf tf : f32 -> f32).
Notation A := (f32_arith ef lf tf).

Lemma mlp_layers act out_act (ws : list (list (list f64) * Z)) (bs : list (list f64)) wl bl method rt fx :
  ws <> [] -> length bs = length ws ->
  convert_sklearn_mlp ef lf tf (zlen ws + 2) act out_act (ws ++ [wl]) (bs ++ [bl]) method rt fx =
  net_wrapper ef lf tf method rt fx
    (map (fun '(w, b) => mk_pylayer f64_arith act (fst w) (snd w) b) (combine ws bs) ++ [mk_pylayer f64_arith out_act (fst wl) (snd wl) bl]).
Proof.
  intros N L. unfold convert_sklearn_mlp. assert (1 <= zlen ws) by (destruct ws; [congruence|unfold zlen; cbn [Datatypes.length]; lia]).
  destruct (Z.ltb_spec (zlen ws + 2) 3); [lia|]. f_equal. rewrite app_length. cbn [Datatypes.length]. replace (Datatypes.length ws + 1 - 1)%nat with (Datatypes.length ws) by lia.
  clear - L. revert bs L. induction ws as [|w ws IH]; intros [|b bs] L; try discriminate; [reflexivity|]. cbn [Datatypes.length repeat app combine map fst snd]. f_equal. apply IH. now injection L.
Qed.
Lemma saved_any nf ls : good_net nf ls -> exists m, save_compiled ef lf tf ls = Ret m.
Proof. intros G. destruct (saved ef lf tf nf ls G) as (m & E & _). eauto. Qed.
Lemma accepted nf ls method rt fx : good_net nf ls ->
  ((exists w, net_wrapper ef lf tf method rt fx ls = Ret w) <->
   fx = false /\ ((In method [None; Some "loadable"%string] /\ In rt ["classifier"%string; "regressor"%string]) \/
                  (method = Some "inline"%string /\ rt = "classifier"%string))).
Proof.
  intros G. destruct (saved_any nf ls G) as (m & SV). destruct (last_get nf ls G) as (l & El & _). split.
  - intros (w & E). unfold net_wrapper in E. rewrite El in E. cbn [bind] in E.
    set (t := match method with None => "loadable"%string | Some s => s end) in *.
    destruct (String.eqb_spec t "inline"), (String.eqb_spec t "loadable"), (String.eqb_spec rt "classifier"), (String.eqb_spec rt "regressor"), fx; try subst rt; cbn in E; try discriminate; try congruence.
    all: try (rewrite SV in E; cbn [bind] in E; discriminate).
    all: split; [reflexivity|]; unfold t in *; destruct method as [s|]; try discriminate; try subst s; cbn; auto.
  - intros [-> [[IM IR]|[-> ->]]].
    + destruct IM as [<-|[<-|[]]], IR as [<-|[<-|[]]]; unfold net_wrapper; rewrite El; cbn; rewrite SV; cbn [bind]; eauto.
    + unfold net_wrapper; rewrite El; cbn; rewrite SV; cbn [bind]; eauto.
Qed.
Lemma same_classes ls method method' w w' X :
  net_wrapper ef lf tf method "classifier" false ls = Ret w -> net_wrapper ef lf tf method' "classifier" false ls = Ret w' ->
  net_predict ef lf tf w X = net_predict ef lf tf w' X.
Proof.
  assert (Q : forall method w, net_wrapper ef lf tf method "classifier" false ls = Ret w ->
    exists m, save_compiled ef lf tf ls = Ret m /\ net_predict ef lf tf w X = predict (net_predict_func ef lf tf m) OutInt X).
  { clear. intros method w E. unfold net_wrapper in E. apply bind_Ret in E as (l & _ & E).
    destruct (match method with None => "loadable"%string | Some s => s end =? "inline")%string eqn:I, (match method with None => "loadable"%string | Some s => s end =? "loadable")%string eqn:K; cbn in E; try discriminate;
    try (apply String.eqb_eq in I, K; congruence);
    apply bind_Ret in E as (m & SV & E); injection E as <-; exists m; auto. }
  intros E1 E2. destruct (Q _ _ E1) as (m & S1 & P1). destruct (Q _ _ E2) as (m' & S2 & P2). rewrite S1 in S2. injection S2 as <-. congruence.
Qed.
Lemma unknown_method nf ls method rt : good_net nf ls -> method <> None -> method <> Some "loadable"%string -> method <> Some "inline"%string ->
  net_wrapper ef lf tf method rt false ls = Err ValueError_.
Proof.
  intros G N0 N1 N2. destruct (last_get nf ls G) as (l & El & _). unfold net_wrapper. rewrite El. cbn [bind]. destruct method as [s|]; [|congruence].
  destruct (String.eqb_spec s "inline"); [congruence|]. destruct (String.eqb_spec s "loadable"); [congruence|]. reflexivity.
Qed.
Lemma known_one name r : c_activation_function name = Ret r -> In name ["identity"; "relu"; "logistic"; "tanh"; "softmax"]%string.
Proof.
  intros H. destruct (in_dec string_dec name ["identity"; "relu"; "logistic"; "tanh"; "softmax"]%string) as [|N]; [assumption|exfalso].
  unfold c_activation_function in H.
  repeat match type of H with context [String.eqb ?a ?b] => let Q := fresh in destruct (String.eqb_spec a b) as [Q|Q]; [apply N; rewrite Q; cbn; tauto|] end. discriminate.
Qed.
Lemma known_activations ls method rt w : net_wrapper ef lf tf method rt false ls = Ret w ->
  Forall (fun l => In (py_activation f64_arith l) ["identity"; "relu"; "logistic"; "tanh"; "softmax"]%string) ls.
Proof.
  intros E. assert (SV : exists m, save_compiled ef lf tf ls = Ret m).
  { unfold net_wrapper in E. apply bind_Ret in E as (l & _ & E). cbn [andb] in E.
    repeat match type of E with (if ?c then _ else _) = _ => destruct c end; try discriminate; apply bind_Ret in E as (m & SV & _); eauto. }
  destruct SV as (m & SV). unfold save_compiled in SV. apply bind_Ret in SV as (r & E1 & _). clear - E1.
  revert r E1. induction ls as [|l q IH]; intros r E1; [constructor|]. cbn [mapM] in E1. apply bind_Ret in E1 as (a & EA & E1). apply bind_Ret in E1 as (b & EB & _).
  constructor; [eapply known_one; eauto|eapply IH; eauto].
Qed.

Section Wrong.
Context (ge gl gt : R) (nf : Z) (ls : list fit_layer).
Hypothesis G : good_net nf ls.
Lemma infer_mismatch m (x : list f32) : net_ok A m nf -> 2 <= n_layers A m -> zlen x <> nf -> eml_net_infer A m x (zlen x) = Ret (EmlSizeMismatch, m).
Proof using.
  intros OK L2 N. destruct OK as (NL & _ & CH & _). unfold eml_net_infer. destruct (Z.leb_spec 2 (n_layers A m)); [|lia]. cbn [negb].
  destruct (n_layers_arr A m) as [|l r] eqn:Q; [unfold zlen in NL; cbn in NL; lia|]. change (zget (l :: r) 0) with (@Ret (net_layer A) l). cbn [bind].
  destruct CH as [CH _]. rewrite CH. destruct (Z.eqb_spec (zlen x) nf); [contradiction|]. reflexivity.
Qed.
Lemma wrong_columns m nf' X : compiled ef lf tf ge gl gt nf ls m -> 1 <= nf' -> nf' <> nf -> float_rows nf' X ->
  predict (net_predict_func ef lf tf m) OutInt X = Ret (map (fun _ => PyInt (-1)) X).
Proof using G.
  intros CM P1 P2 FX. pose proof (layers2 ef lf tf ge gl gt nf ls G m CM) as L2. destruct CM as (_ & OK & _).
  destruct (float_rows_fit nf' X FX P1) as (NX & GX & AX & LX).
  destruct (predict_ints (net_predict_func ef lf tf m) X (fun _ c => c = -1) NX GX AX LX) as (out & E & L & P).
  - intros row values I Hv. exists (-1). split; [|split; [lia|reflexivity]]. destruct FX as (_ & _ & F). rewrite Forall_forall in F. destruct (F row I) as (LR & GR & _).
    destruct (row_values nf' row values LR GR Hv) as (ws & _ & LW & EC). unfold net_predict_func. rewrite EC. cbn [bind]. replace (zlen row) with (zlen ws) by lia.
    unfold eml_net_predict. rewrite infer_mismatch; [reflexivity|exact OK|exact L2|lia].
  - rewrite E. f_equal. apply zget_eq; [now rewrite L, zlen_map|]. intros i Hi. rewrite L in Hi. destruct (zget_ok X i Hi) as (row & Hr). destruct (P i row Hr) as (c & Hc & ->).
    rewrite Hc, zget_map, Hr. reflexivity.
Qed.
End Wrong.
End N.
