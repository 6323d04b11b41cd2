(** The text of a neural network: the struct it initialises is the network, and its functions call the library. *)
From Coq Require Import String ZArith List Bool Lia.
From Flocq Require Import Core BinarySingleNaN.
From Verif.Base Require Import Res CInt ListX Loops Float Arith Kernels.
From Verif.Model Require Import Common Text Cgen TreesConvert TreesC Net NetRun TreesRun SaveText SaveNetText.
From Verif.Spec Require Import CTextSpec CgenSpec SaveNetSpec.
From Verif.Proof Require Import Text Cgen CText SaveInline SaveInlineTop SaveFile SaveLoad SaveNeighbors.
Import ListNotations.
Open Scope Z_scope.
Open Scope list_scope.
Open Scope res_scope.

Notation F := f64_arith.
Notation n_in := (py_n_in F).
Notation n_out := (py_n_out F).

(** *** Lists *)
Lemma lookup_In n rest ds : NoDup (map fst ds) -> In (n, rest) ds -> lookup_def n ds = Some rest.
Proof.
  induction ds as [|[m r] ds IH]; intros ND H; [destruct H|]. cbn [map fst] in ND. apply NoDup_cons_iff in ND. destruct ND as [N1 N2].
  destruct H as [E|H]; [injection E as -> ->; apply lookup_here|]. rewrite lookup_skip; [now apply IH|]. intros ->. apply N1. exact (in_map fst _ _ H).
Qed.
Lemma snd_enumerate {X} (l : list X) : map snd (enumerate l) = l.
Proof.
  unfold enumerate. assert (L : length (zrange (zlen l)) = length l) by (rewrite zrange_length; unfold zlen; lia).
  revert L. generalize (zrange (zlen l)). induction l as [|x l IH]; intros [|z zs] L; try discriminate; [reflexivity|]. cbn [combine map snd]. rewrite IH by (cbn in L; lia). reflexivity.
Qed.
Lemma fst_enumerate {X} (l : list X) : map fst (enumerate l) = zrange (zlen l).
Proof.
  unfold enumerate. assert (L : length (zrange (zlen l)) = length l) by (rewrite zrange_length; unfold zlen; lia).
  revert L. generalize (zrange (zlen l)). induction l as [|x l IH]; intros [|z zs] L; try discriminate; [reflexivity|]. cbn [combine map fst]. rewrite IH by (cbn in L; lia). reflexivity.
Qed.

(** *** Float constants *)
Definition consts (vs : list f64) : list text := map (fun v => fmt_fixed 6 v ++ txt "f") vs.
Lemma consts_litt vs : Forall litt (consts vs).
Proof. induction vs; constructor; [apply fixed_litt|assumption]. Qed.
Lemma consts_text vs : mapM (fun v => constant no_str v (txt "float")) (map PyFloat vs) = Ret (consts vs).
Proof. induction vs as [|v vs IH]; [reflexivity|]. cbn [map mapM]. change (constant no_str (PyFloat v) (txt "float")) with (Ret (fmt_fixed 6 v ++ txt "f") : res text). cbn [bind]. rewrite IH. reflexivity. Qed.
Lemma consts_read vs ks : mapM (fun v : f64 => float_const (PyFloat v)) vs = Ret ks -> opt_all float_lit (consts vs) = Some ks.
Proof.
  revert ks. induction vs as [|v vs IH]; intros ks E; cbn [mapM] in E; [injection E as <-; reflexivity|].
  apply bind_Ret in E. destruct E as (k & Ek & E). apply bind_Ret in E. destruct E as (ks' & Eks & E). injection E as <-.
  cbn [consts map opt_all]. change (float_const (PyFloat v)) with (c_float_literal (fmt_fixed 6 v ++ txt "f")) in Ek.
  rewrite (float_lit_fixed v k Ek). change (map (fun x : f64 => fmt_fixed 6 x ++ txt "f") vs) with (consts vs). rewrite (IH _ Eks). reflexivity.
Qed.
Lemma consts_len vs : zlen (consts vs) = zlen vs.
Proof. unfold zlen, consts. rewrite map_length. reflexivity. Qed.
Lemma mapM_concat {X Y} (g : X -> res Y) vss kss : mapM (mapM g) vss = Ret kss -> mapM g (concat vss) = Ret (concat kss).
Proof.
  revert kss. induction vss as [|vs vss IH]; intros kss E; cbn [mapM] in E; [injection E as <-; reflexivity|].
  apply bind_Ret in E. destruct E as (k & Ek & E). apply bind_Ret in E. destruct E as (ks' & Eks & E). injection E as <-.
  cbn [concat]. specialize (IH _ Eks). revert Ek IH. clear. revert k. induction vs as [|v vs IHv]; intros k Ek IH; cbn [mapM] in Ek; [injection Ek as <-; exact IH|].
  apply bind_Ret in Ek. destruct Ek as (x & Ex & Ek). apply bind_Ret in Ek. destruct Ek as (xs & Exs & Ek). injection Ek as <-.
  cbn [app mapM]. rewrite Ex. cbn [bind]. rewrite (IHv _ Exs IH). reflexivity.
Qed.
Lemma float_array_rest vs ks : mapM (fun v : f64 => float_const (PyFloat v)) vs = Ret ks ->
  float_array (arr_rest (tok_lit (fmt_int (zlen vs))) (comma_toks (consts vs))) = Some ks.
Proof.
  intros E. unfold float_array. rewrite array_def_rest by (apply fmt_int_litt || apply consts_litt). rewrite int_lit_fmt.
  change (Z.of_nat (length (consts vs))) with (zlen (consts vs)). rewrite consts_len, Z.eqb_refl. now apply consts_read.
Qed.
Lemma float_array_def name n vs : wordy name -> n = zlen vs ->
  exists t, array_declare_fixedpoint no_str name None (Some n) (txt "float") (txt "static const") vs [] [] = Ret t /\
    is_def t [(name, arr_rest (tok_lit (fmt_int n)) (comma_toks (consts vs)))].
Proof.
  intros HN ->. unfold array_declare_fixedpoint, array_declare. rewrite (zlen_map PyFloat vs), Z.eqb_refl. cbn [py_assert bind]. rewrite consts_text. cbn [bind].
  eexists. split; [reflexivity|]. cbn [app]. rewrite <- !app_assoc.
  rewrite (app_assoc (txt "static const")), (app_assoc (_ ++ txt " ")), (app_assoc (_ ++ txt "float")).
  eapply array_lex with (ws := [txt "static"; txt "const"; txt "float"]); [exact HN|apply zlen_nonneg|apply consts_litt|lc|reflexivity|now right].
Qed.

(** *** Arrays without initialiser *)
Definition plain_rest (size : list tok) : list tok := P 91 :: size ++ [P 93; P 59].
Lemma defines_plain ws name size : balanced size -> defines (map W ws ++ W name :: plain_rest size) [(name, plain_rest size)].
Proof.
  intros Hp f. rewrite fold_left_app. unfold def_start at 1. rewrite spec_words. cbn [fold_left].
  cbn [def_step ds_depth ds_rest ds_init ds_found]. unfold plain_rest. cbn [fold_left].
  change (def_step (mk_def 0 name None false f) (P 91)) with (mk_def 1 name (Some [P 91]) false f).
  rewrite fold_left_app, (def_bd size 0 0 name [P 91] false f Hp). cbn [fold_left].
  change (def_step (mk_def 1 name (Some (rev size ++ [P 91])) false f) (P 93)) with (mk_def 0 name (Some (P 93 :: rev size ++ [P 91])) false f).
  cbn [def_step ds_depth ds_rest]. change (59 =? 59) with true. cbn match. unfold ends_def. cbn [ds_word ds_found rev app]. do 3 f_equal.
  rewrite rev_app_distr, rev_involutive. cbn [rev app]. rewrite <- !app_assoc. reflexivity.
Qed.
Lemma plain_def name n : wordy name -> 0 <= n ->
  exists t, array_declare no_str name (Some n) (txt "float") (txt "static") None [] [] = Ret t /\
    is_def t [(name, plain_rest (tok_lit (fmt_int n)))].
Proof.
  intros [N1 N2] Hn. destruct (fmt_nat_wordy n Hn) as [C1 C2]. eexists. split; [reflexivity|]. cbn [app]. rewrite app_nil_r.
  rewrite (app_assoc (txt "static")), (app_assoc (_ ++ txt " ")), (app_assoc (_ ++ txt "float")).
  exists (map W [txt "static"; txt "float"] ++ W name :: plain_rest (tok_lit (fmt_int n))). split; [|apply defines_plain, tok_lit_bd].
  eapply lexw_eq.
  - eapply lexw_app; [lcc|]. eapply lexw_app; [lw|]. eapply lexw_app; [l0|]. eapply lexw_app; [lw|]. replace (txt "]" ++ txt ";") with (txt "];") by reflexivity. l0.
  - cbn [app]. rewrite (endw_ne name N1), (endw_ne _ C1). cbn [app rev map]. unfold plain_rest.
    destruct (fmt_int_lit n) as [A B]. rewrite A, tok_lit_lit by exact B. destruct (Z.ltb_spec n 0); [lia|]. reflexivity.
  - reflexivity.
Qed.
Lemma plain_array_rest n : plain_array (plain_rest (tok_lit (fmt_int n))) = Some n.
Proof.
  unfold plain_array, plain_rest.
  match goal with |- context [expect [ch "["] (P 91 :: ?l)] => change (expect [ch "["] (P 91 :: l)) with (Some l) end. cbv iota beta.
  rewrite (literal_litt _ _ (fmt_int_litt n)).
  change (expect [ch "]"; ch ";"] [P 93; P 59]) with (Some (@nil tok)). cbv iota beta. apply int_lit_fmt.
Qed.

(** *** Layers *)
Lemma wordy_litt w : wordy w -> litt w.
Proof. intros H. exists false, w. split; [reflexivity|exact H]. Qed.
Definition layer_defs (name : text) (p : Z * fit_layer) : list (list Z * list tok) :=
  let '(i, l) := p in
  [(layer_name name i (txt "biases"), arr_rest (tok_lit (fmt_int (zlen (py_biases F l)))) (comma_toks (consts (py_biases F l))));
   (layer_name name i (txt "weights"), arr_rest (tok_lit (fmt_int (n_in l * n_out l))) (comma_toks (consts (concat (py_weights F l)))))].
Definition act_name (l : fit_layer) : text := match c_activation_function (py_activation F l) with Ret (n, _) => txt n | Err _ => [] end.
Definition row_lits (name : text) (p : Z * fit_layer) : list text :=
  let '(i, l) := p in [fmt_int (n_out l); fmt_int (n_in l); layer_name name i (txt "weights"); layer_name name i (txt "biases"); act_name l].
Definition good_row (p : Z * fit_layer) : Prop :=
  0 <= fst p /\ zlen (concat (py_weights F (snd p))) = n_in (snd p) * n_out (snd p) /\
  exists r, c_activation_function (py_activation F (snd p)) = Ret r.
Lemma layer_name_wordy name i v : wordy name -> 0 <= i -> forallb word_char v = true -> wordy (layer_name name i v).
Proof.
  intros H Hi Hv. apply wordy_app; [exact H|]. rewrite !forallb_app, Hv. destruct (fmt_nat_wordy i Hi) as [_ ->]. reflexivity.
Qed.
Lemma layers_def name es : wordy name -> Forall good_row es ->
  exists lines, mapM (fun '(i, l) => layer_arrays name i l) es = Ret lines /\
    Forall2 is_def (concat lines) (flat_map (fun p => map (fun d => [d]) (layer_defs name p)) es).
Proof.
  intros HN. induction 1 as [|[i l] es (Hi & Hw & Ha) HF (lines & E & D)]; [exists []; split; [reflexivity|constructor]|]. cbn [fst snd] in *.
  destruct (float_array_def (layer_name name i (txt "biases")) _ (py_biases F l) (layer_name_wordy name i (txt "biases") HN Hi eq_refl) eq_refl) as (tb & Eb & Db).
  destruct (float_array_def (layer_name name i (txt "weights")) (n_in l * n_out l) (concat (py_weights F l)) (layer_name_wordy name i (txt "weights") HN Hi eq_refl) (eq_sym Hw)) as (tw & Ew & Dw).
  exists ([tb; tw] :: lines). split.
  - assert (EL : layer_arrays name i l = Ret [tb; tw]).
    { unfold layer_arrays. cbv zeta. refine (eq_trans (f_equal (fun r => bind r _) Eb) _). cbn [bind]. refine (eq_trans (f_equal (fun r => bind r _) Ew) _). reflexivity. }
    cbn [mapM]. rewrite EL. cbn [bind]. rewrite E. reflexivity.
  - cbn [concat flat_map map layer_defs app]. constructor; [exact Db|]. constructor; [exact Dw|exact D].
Qed.
Lemma act_cases s n a : c_activation_function s = Ret (n, a) -> litt (txt n) /\ activation_named (txt n) = Some a.
Proof.
  unfold c_activation_function. intros E.
  repeat match type of E with (if ?b then _ else _) = _ => destruct b; [injection E as <- <-; split; [apply wordy_litt; split; [discriminate|reflexivity]|reflexivity]|] end. discriminate.
Qed.
Lemma rows_def name es : wordy name -> Forall good_row es ->
  exists rows, mapM (fun '(i, l) => layer_row name i l) es = Ret rows /\ zlen rows = zlen es /\
    Forall2 (fun p r => lexw [] p (row_toks r) []) rows (map (row_lits name) es) /\ Forall (Forall litt) (map (row_lits name) es).
Proof.
  intros HN. induction 1 as [|[i l] es (Hi & Hw & [n a] & Ha) HF (rows & E & L & D & LL)]; [exists []; split; [|split; [|split]]; constructor|]. cbn [fst snd] in *.
  destruct (act_cases _ _ _ Ha) as [La _]. assert (Ea : act_name l = txt n) by (unfold act_name; rewrite Ha; reflexivity).
  assert (LR : Forall litt (row_lits name (i, l))).
  { unfold row_lits. rewrite Ea. repeat apply Forall_cons; try apply Forall_nil; try apply fmt_int_litt; try exact La; apply wordy_litt, layer_name_wordy; auto. }
  eexists. split; [cbn [mapM]; unfold layer_row at 1; rewrite Ha; cbn [bind]; rewrite E; reflexivity|]. split; [rewrite !zlen_cons; lia|]. split; [|constructor; assumption].
  cbn [map]. constructor; [|exact D]. change (row_toks (row_lits name (i, l))) with ([] ++ row_toks (row_lits name (i, l))).
  eapply lexw_app; [lc|]. rewrite <- Ea. exact (row_lex _ LR).
Qed.

(** *** The struct and its table *)
Lemma table_lex name n parts rows : wordy name -> n = zlen parts -> Forall2 (fun p r => lexw [] p (row_toks r) []) parts rows ->
  exists t, array_declare_texts name n (txt "EmlNetLayer") (txt "static const") parts = Ret t /\
    is_def t [(name, arr_rest (tok_lit (fmt_int n)) (rows_toks rows))].
Proof.
  intros [N1 N2] -> FP. unfold array_declare_texts. rewrite Z.eqb_refl. cbn [py_assert bind]. eexists. split; [reflexivity|].
  pose proof (zlen_nonneg parts) as Hn. destruct (fmt_nat_wordy _ Hn) as [C1 C2]. set (n := zlen parts) in *.
  rewrite (app_assoc (txt "static const")), (app_assoc (_ ++ txt " ")), (app_assoc (_ ++ txt "EmlNetLayer")).
  exists (map W [txt "static"; txt "const"; txt "EmlNetLayer"] ++ W name :: arr_rest (tok_lit (fmt_int n)) (rows_toks rows)). split.
  - eapply lexw_eq.
    + eapply lexw_app; [lcc|]. eapply lexw_app; [lw|]. eapply lexw_app; [l0|]. eapply lexw_app; [lw|].
      rewrite (app_assoc (txt "]") (txt " = { ")). eapply lexw_app; [l0|]. eapply lexw_app; [|lcc]. apply rows_lex; [lc|exact FP].
    + cbn [app]. rewrite (endw_ne name N1), (endw_ne _ C1). cbn [app rev map]. unfold arr_rest.
      destruct (fmt_int_lit n) as [A B]. rewrite A, tok_lit_lit by exact B. destruct (Z.ltb_spec n 0); [lia|]. reflexivity.
    + reflexivity.
  - apply defines_arr; [apply tok_lit_bd|intros; apply rows_bd].
Qed.
Definition name_field (n : text) : list tok := [W n].
Definition net_toks (a b : Z) (ln b1 b2 : text) : list tok :=
  num_field a ++ P 44 :: name_field ln ++ P 44 :: name_field b1 ++ P 44 :: name_field b2 ++ P 44 :: num_field b.
Lemma net_struct_def a b ln b1 b2 : struct_def (struct_rest (net_toks a b ln b1 b2)) = Some [num_field a; name_field ln; name_field b1; name_field b2; num_field b].
Proof.
  unfold struct_def, struct_rest.
  match goal with |- context [expect [ch "="; ch "{"] (P 61 :: P 123 :: ?l)] => change (expect [ch "="; ch "{"] (P 61 :: P 123 :: l)) with (Some l) end. cbv iota beta.
  unfold net_toks, num_field. repeat rewrite <- app_assoc, <- app_comm_cons.
  rewrite fields_lit by apply fmt_int_litt.
  assert (FN : forall n r, fields_of (name_field n ++ P 44 :: r) 0 [] = let? (fs, rest) := fields_of r 0 [] in Some (name_field n :: fs, rest)) by reflexivity.
  rewrite !FN. rewrite <- ?app_assoc. rewrite fields_last by apply fmt_int_litt. reflexivity.
Qed.
Lemma net_struct_lex name ln b1 b2 a b : wordy name -> wordy ln -> wordy b1 -> wordy b2 ->
  is_def (init_net name a ln b1 b2 b) [(name, struct_rest (net_toks a b ln b1 b2))].
Proof.
  intros [N1 N2] [A1 A2] [B1 B2] [C1 C2]. exists (map W [txt "static"; txt "EmlNet"] ++ W name :: struct_rest (net_toks a b ln b1 b2)). split.
  - unfold init_net, struct_init. cbn [join_with]. rewrite <- !app_assoc.
    assert (E : forall y, txt " = " ++ txt "{ " ++ y = txt " = { " ++ y) by reflexivity. rewrite E. clear E.
    replace (txt " }" ++ txt ";") with (txt " };") by reflexivity.
    eapply lexw_eq.
    + eapply lexw_app; [lcc|]. eapply lexw_app; [lw|]. eapply lexw_app; [l0|].
      ltn. eapply lexw_app; [lw|]. eapply lexw_app; [l0|]. eapply lexw_app; [lw|]. eapply lexw_app; [l0|]. eapply lexw_app; [lw|]. eapply lexw_app; [l0|].
      eapply lexw_lit_then; [apply fmt_int_litt|reflexivity|reflexivity|vm_compute; reflexivity].
    + cbn [app]. rewrite (endw_ne name N1), (endw_ne ln A1), (endw_ne b1 B1), (endw_ne b2 C1). cbn [endw app rev map]. unfold struct_rest, net_toks, name_field, num_field.
      repeat (progress (cbn [app]) || rewrite <- app_assoc). reflexivity.
    + reflexivity.
  - apply defines_struct. unfold balanced, net_toks, num_field. rewrite !bd_lit. apply tok_lit_bd.
Qed.

(** *** The functions *)
Ltac net_fun :=
  eapply lexw_eq; [
    eapply lexw_app; [lcc|]; eapply lexw_app; [lw|]; eapply lexw_app; [l0|]; eapply lexw_app; [lw|]; l0 | |reflexivity].
Definition row_params : list tok := [W (txt "const"); W (txt "float"); P 42; W (txt "features"); P 44; W (txt "int32_t"); W (txt "n_features")].
Definition out_params : list tok := row_params ++ [P 44; W (txt "float"); P 42; W (txt "out"); P 44; W (txt "int32_t"); W (txt "out_length")].
Section Funcs.
Variables (name : text).
Hypothesis HN : wordy name.
Lemma predict_def : exists rest, is_def (net_predict_function name) [(name ++ txt "_predict", rest)] /\
  returns rest = Some (snd (nth 0 (net_functions name) ([], ([], [], [])))).
Proof using HN.
  destruct (wordy_app name (txt "_predict") HN eq_refl) as [F1 F2]. destruct HN as [N1 N2].
  eexists (fun_rest row_params _). split.
  - eapply fun_def with (ws := [txt "int32_t"]); [reflexivity| |unfold is_fun, net_predict_function;
      match goal with |- lexw _ (?a ++ ?n ++ txt ?s ++ ?r) _ _ => replace (a ++ n ++ txt s ++ r) with (a ++ (n ++ txt "_predict") ++ skipn 8 (txt s) ++ r) by (rewrite <- !app_assoc; reflexivity);
        let v := eval vm_compute in (skipn 8 (txt s)) in change (skipn 8 (txt s)) with v end; net_fun;
      cbn [app]; rewrite (endw_ne _ F1), (endw_ne _ N1); cbn [app rev map]; unfold fun_rest, row_params; cbn [app]; strip; last_one].
    reflexivity.
  - reflexivity.
Qed.
Lemma regress_def : exists rest, is_def (net_regress_function name) [(name ++ txt "_regress", rest)] /\
  returns rest = Some (snd (nth 1 (net_functions name) ([], ([], [], [])))).
Proof using HN.
  destruct (wordy_app name (txt "_regress") HN eq_refl) as [F1 F2]. destruct HN as [N1 N2].
  eexists (fun_rest out_params _). split.
  - eapply fun_def with (ws := [txt "int32_t"]); [reflexivity| |unfold is_fun, net_regress_function;
      match goal with |- lexw _ (?a ++ ?n ++ txt ?s ++ ?r) _ _ => replace (a ++ n ++ txt s ++ r) with (a ++ (n ++ txt "_regress") ++ skipn 8 (txt s) ++ r) by (rewrite <- !app_assoc; reflexivity);
        let v := eval vm_compute in (skipn 8 (txt s)) in change (skipn 8 (txt s)) with v end; net_fun;
      cbn [app]; rewrite (endw_ne _ F1), (endw_ne _ N1); cbn [app rev map]; unfold fun_rest, out_params, row_params; cbn [app]; strip; last_one].
    reflexivity.
  - reflexivity.
Qed.
Lemma regress1_def : exists rest, is_def (net_regress1_function name) [(name ++ txt "_regress1", rest)] /\
  returns rest = Some (snd (nth 2 (net_functions name) ([], ([], [], [])))).
Proof using HN.
  destruct (wordy_app name (txt "_regress1") HN eq_refl) as [F1 F2]. destruct HN as [N1 N2].
  eexists (fun_rest row_params _). split.
  - eapply fun_def with (ws := [txt "float"]); [reflexivity| |unfold is_fun, net_regress1_function;
      match goal with |- lexw _ (?a ++ ?n ++ txt ?s ++ ?r) _ _ => replace (a ++ n ++ txt s ++ r) with (a ++ (n ++ txt "_regress1") ++ skipn 9 (txt s) ++ r) by (rewrite <- !app_assoc; reflexivity);
        let v := eval vm_compute in (skipn 9 (txt s)) in change (skipn 9 (txt s)) with v end; net_fun;
      cbn [app]; rewrite (endw_ne _ F1), (endw_ne _ N1); cbn [app rev map]; unfold fun_rest, row_params; cbn [app]; strip; last_one].
    reflexivity.
  - reflexivity.
Qed.
End Funcs.

(** *** Names *)
Lemma digits_span a b x y : Forall (fun c => c <> 95) a -> Forall (fun c => c <> 95) b -> a ++ 95 :: x = b ++ 95 :: y -> a = b /\ x = y.
Proof.
  intros A. revert b. induction A as [|c a Hc A IH]; intros b B E; destruct B as [|d b Hd B]; cbn [app] in E.
  - injection E as ->. now split.
  - injection E as <- _. congruence.
  - injection E as -> _. congruence.
  - injection E as -> E. destruct (IH b B E) as [-> ->]. now split.
Qed.
Lemma fmt_no_underscore i : 0 <= i -> Forall (fun c => c <> 95) (fmt_int i).
Proof.
  intros Hi. destruct (fmt_int_literal i) as (neg & ds & T & D & _).
  rewrite T. assert (G : Forall (fun c => c <> 95) ds) by (eapply Forall_impl; [|exact D]; intros c Hc; unfold digit in Hc; lia).
  unfold signed. destruct neg; [constructor; [lia|exact G]|exact G].
Qed.

Lemma layer_name_inj name i j x y : 0 <= i -> 0 <= j -> layer_name name i x = layer_name name j y -> i = j /\ x = y.
Proof.
  intros Hi Hj E. unfold layer_name in E. apply app_inv_head, app_inv_head in E.
  destruct (digits_span _ _ x y (fmt_no_underscore i Hi) (fmt_no_underscore j Hj) E) as [E1 ->]. split; [now apply fmt_int_inj|reflexivity].
Qed.
Lemma layer_names_nodup name (es : list (Z * fit_layer)) : NoDup (map fst es) -> Forall (fun i => 0 <= i) (map fst es) ->
  NoDup (map fst (flat_map (layer_defs name) es)).
Proof.
  induction es as [|[i l] es IH]; intros ND P; [constructor|]. cbn [map fst] in ND, P. apply NoDup_cons_iff in ND. destruct ND as [N1 N2].
  inversion P as [|? ? Pi P']; subst. cbn [flat_map layer_defs map fst app].
  assert (OTHER : forall v, ~ In (layer_name name i v) (map fst (flat_map (layer_defs name) es))).
  { intros v H. apply in_map_iff in H. destruct H as ([w r] & E & H). cbn [fst] in E. subst w. apply in_flat_map in H. destruct H as ([j l'] & Hj & H).
    assert (Pj : 0 <= j) by (rewrite Forall_forall in P'; apply P', (in_map fst _ _ Hj)).
    assert (i = j) as -> by (cbn [layer_defs In] in H; destruct H as [H|[H|[]]]; injection H as H _; symmetry in H; apply layer_name_inj in H; tauto).
    apply N1. exact (in_map fst _ _ Hj). }
  constructor; [intros [H|H]; [apply layer_name_inj in H; [destruct H as [_ H]; discriminate|exact Pi|exact Pi]|exact (OTHER _ H)]|].
  constructor; [apply OTHER|]. now apply IH.
Qed.
Definition net_tails : list text := map txt ["_buf1"; "_buf2"; "_layers"; ""; "_predict"; "_regress"; "_regress1"]%string.
Lemma net_nodup name (es : list (Z * fit_layer)) : NoDup (map fst es) -> Forall (fun i => 0 <= i) (map fst es) ->
  NoDup (map fst (flat_map (layer_defs name) es) ++ map (fun s => name ++ s) net_tails).
Proof.
  intros H1 H2. pose proof (layer_names_nodup name es H1 H2) as ND.
  assert (TD : NoDup (map (fun s => name ++ s) net_tails)).
  { apply FinFun.Injective_map_NoDup; [intros a b; apply app_inv_head|]. vm_compute. repeat constructor; cbn [In]; intuition discriminate. }
  assert (SEP : forall w, In w (map fst (flat_map (layer_defs name) es)) -> ~ In w (map (fun s => name ++ s) net_tails)).
  { intros w H K. apply in_map_iff in H. destruct H as ([w' r] & E & H). cbn [fst] in E. subst w'. apply in_flat_map in H. destruct H as ([j l'] & Hj & H).
    assert (exists v, w = layer_name name j v) as (v & ->) by (cbn [layer_defs In] in H; destruct H as [H|[H|[]]]; injection H as H _; symmetry in H; eauto).
    apply in_map_iff in K. destruct K as (s & E & K). unfold layer_name in E. apply app_inv_head in E.
    cbn [net_tails map In] in K. repeat match type of K with _ \/ _ => destruct K as [K|K] end; try contradiction; subst s; discriminate. }
  revert ND SEP. generalize (map fst (flat_map (layer_defs name) es)). intros l ND SEP. induction ND as [|w l Hw ND IH]; [exact TD|].
  cbn [app]. constructor; [|apply IH; intros w' H; apply SEP; now right]. rewrite in_app_iff. intros [H|H]; [contradiction|]. exact (SEP w (or_introl eq_refl) H).
Qed.

(** *** Reading the network back *)
Lemma int32_of z : -2147483648 <= z <= 2147483647 -> to_int32 z = z.
Proof. intros B. apply to_int32_id. unfold int32_ok, in_signed. cbn. lia. Qed.
Section Load.
Context (expf logf tanhf : f32 -> f32).
Notation A := (f32_arith expf logf tanhf).
Lemma const_layer_ok l p : const_layer expf logf tanhf l = Ret p ->
  py_activation A p = py_activation F l /\ py_n_in A p = n_in l /\ py_n_out A p = n_out l /\
  mapM (fun v : f64 => float_const (PyFloat v)) (py_biases F l) = Ret (py_biases A p) /\
  mapM (fun v : f64 => float_const (PyFloat v)) (concat (py_weights F l)) = Ret (concat (py_weights A p)).
Proof.
  unfold const_layer. intros E. apply bind_Ret in E. destruct E as (b & Eb & E). apply bind_Ret in E. destruct E as (w & Ew & E). injection E as <-.
  cbn [py_activation py_biases py_weights py_n_out]. unfold py_n_in. cbn [py_weights]. split; [reflexivity|]. split; [apply mapM_Ret, Forall2_zlen in Ew; symmetry; exact Ew|].
  split; [reflexivity|]. split; [exact Eb|]. apply mapM_concat. exact Ew.
Qed.
Lemma layer_reads t name i l p lay : NoDup (defined_names t) -> (forall d, In d (layer_defs name (i, l)) -> In d (definitions t)) ->
  n_in l <= 2147483647 -> -2147483648 <= n_out l <= 2147483647 ->
  const_layer expf logf tanhf l = Ret p -> layer_data A false p = Ret lay ->
  layer_of expf logf tanhf t (row_lits name (i, l)) = Some lay /\ zlen (concat (py_weights F l)) = n_in l * n_out l.
Proof.
  intros ND HD B1 B2 EP EL. apply const_layer_ok in EP. destruct EP as (P1 & P2 & P3 & P4 & P5).
  unfold layer_data in EL. rewrite P1, P2, P3 in EL. apply bind_Ret in EL. destruct EL as ([nm act] & Ea & EL). cbn [bind] in EL.
  destruct (Z.eqb_spec (zlen (concat (py_weights A p))) (n_in l * n_out l)) as [Q|Q]; [|discriminate]. cbn [negb] in EL. injection EL as <-.
  pose proof (Forall2_zlen _ _ _ (proj1 (mapM_Ret _ _ _) P5)) as LW. assert (LW' : zlen (concat (py_weights F l)) = n_in l * n_out l) by (etransitivity; [exact LW|exact Q]). split; [|exact LW'].
  unfold layer_of, row_lits. rewrite !int_lit_fmt. cbv iota beta.
  rewrite (lookup_In _ _ _ ND (HD _ (or_intror (or_introl eq_refl)))).
  assert (R1 : float_array (arr_rest (tok_lit (fmt_int (n_in l * n_out l))) (comma_toks (consts (concat (py_weights F l))))) = Some (concat (py_weights A p))).
  { rewrite <- LW'. apply float_array_rest. exact P5. }
  rewrite R1. rewrite (lookup_In _ _ _ ND (HD _ (or_introl eq_refl))).
  pose proof (float_array_rest _ _ P4) as R2.
  match goal with |- context [float_array ?x] => replace (float_array x) with (Some (py_biases A p : list f32)) by (symmetry; exact R2) end. unfold act_name. rewrite Ea. destruct (act_cases _ _ _ Ea) as [_ ->].
  assert (0 <= n_in l) by apply zlen_nonneg. rewrite !int32_of by lia. reflexivity.
Qed.
Lemma layers_read t name : NoDup (defined_names t) -> forall es ps lays,
  (forall d, In d (flat_map (layer_defs name) es) -> In d (definitions t)) ->
  Forall (fun p => n_in (snd p) <= 2147483647 /\ -2147483648 <= n_out (snd p) <= 2147483647) es ->
  mapM (const_layer expf logf tanhf) (map snd es) = Ret ps -> mapM (layer_data A false) ps = Ret lays ->
  opt_all (layer_of expf logf tanhf t) (map (row_lits name) es) = Some lays.
Proof.
  intros ND. induction es as [|[i l] es IH]; intros ps lays HD B EP EL.
  - cbn in EP. injection EP as <-. cbn in EL. injection EL as <-. reflexivity.
  - cbn [map snd mapM] in EP. apply bind_Ret in EP. destruct EP as (p & Ep & EP). apply bind_Ret in EP. destruct EP as (ps' & Eps & EP). injection EP as <-.
    cbn [mapM] in EL. apply bind_Ret in EL. destruct EL as (y & Ey & EL). apply bind_Ret in EL. destruct EL as (ys & Eys & EL). injection EL as <-.
    inversion B as [|? ? [B1 B2] B']; subst. cbn [snd] in B1, B2.
    cbn [map opt_all]. destruct (layer_reads t name i l p y ND) as [-> _]; try assumption; [intros d Hd; apply HD; cbn [flat_map]; apply in_or_app; now left|].
    rewrite (IH ps' ys); try assumption; [reflexivity|]. intros d Hd. apply HD. cbn [flat_map]. apply in_or_app. now right.
Qed.
Lemma layers_sizes es : forall ps lays, mapM (const_layer expf logf tanhf) (map snd es) = Ret ps -> mapM (layer_data A false) ps = Ret lays ->
  Forall (fun i => 0 <= i) (map fst es) -> Forall good_row es.
Proof.
  induction es as [|[i l] es IH]; intros ps lays EP EL P; [constructor|].
  cbn [map snd mapM] in EP. apply bind_Ret in EP. destruct EP as (p & Ep & EP). apply bind_Ret in EP. destruct EP as (ps' & Eps & EP). injection EP as <-.
  cbn [mapM] in EL. apply bind_Ret in EL. destruct EL as (y & Ey & EL). apply bind_Ret in EL. destruct EL as (ys & Eys & EL). injection EL as <-.
  cbn [map fst] in P. inversion P as [|? ? Pi P']; subst. constructor; [|eapply IH; eauto].
  apply const_layer_ok in Ep. destruct Ep as (P1 & P2 & P3 & P4 & P5). unfold layer_data in Ey. rewrite P1, P2, P3 in Ey.
  apply bind_Ret in Ey. destruct Ey as ([nm act] & Ea & Ey). cbn [bind] in Ey.
  destruct (Z.eqb_spec (zlen (concat (py_weights A p))) (n_in l * n_out l)) as [Q|Q]; [|discriminate].
  unfold good_row. cbn [fst snd]. split; [exact Pi|]. split; [|eauto]. pose proof (Forall2_zlen _ _ _ (proj1 (mapM_Ret _ _ _) P5)) as LW. etransitivity; [exact LW|exact Q].
Qed.
Lemma sizes_same ls ps : mapM (const_layer expf logf tanhf) ls = Ret ps -> buffer_size A ps = buffer_size F ls /\ zlen ps = zlen ls.
Proof.
  intros E. assert (G : map (py_n_in A) ps = map n_in ls /\ map (py_n_out A) ps = map n_out ls).
  { revert ps E. induction ls as [|l ls IH]; intros ps E; cbn [mapM] in E; [injection E as <-; split; reflexivity|].
    apply bind_Ret in E. destruct E as (p & Ep & E). apply bind_Ret in E. destruct E as (ps' & Eps & E). injection E as <-.
    destruct (IH _ Eps) as [I1 I2]. apply const_layer_ok in Ep. destruct Ep as (_ & P2 & P3 & _). cbn [map]. rewrite I1, I2, P2, P3. split; reflexivity. }
  destruct G as [G1 G2]. split; [unfold buffer_size; rewrite G1, G2; reflexivity|]. apply mapM_Ret, Forall2_zlen in E. symmetry. exact E.
Qed.
Lemma fold_max_between lo hi l : forall x, lo <= x <= hi -> Forall (fun y => y <= hi) l -> lo <= fold_left Z.max l x <= hi.
Proof. induction l as [|y l IH]; intros x B HF; [exact B|]. inversion HF; subst. cbn [fold_left]. apply IH; [lia|assumption]. Qed.
Lemma buffer_bounds ls b : buffer_size F ls = Ret b -> Forall (fun l => n_in l <= 2147483647 /\ -2147483648 <= n_out l <= 2147483647) ls ->
  0 <= b <= 2147483647.
Proof.
  intros E HF. unfold buffer_size in E. destruct ls as [|l ls]; [discriminate|]. cbn [map app] in E. injection E as <-.
  inversion HF as [|? ? [B1 B2] HF']; subst. apply fold_max_between; [split; [apply zlen_nonneg|exact B1]|].
  apply Forall_app. split; [|constructor; [lia|]]; apply Forall_forall; intros y Hy; apply in_map_iff in Hy; destruct Hy as (x & <- & Hx);
    rewrite Forall_forall in HF'; destruct (HF' x Hx) as [? ?]; lia.
Qed.

Lemma net_reads ls name m : assert_valid_identifier name = Ret tt -> identifier name -> save_compiled expf logf tanhf ls = Ret m ->
  zlen ls <= 2147483647 -> Forall (fun l => n_in l <= 2147483647 /\ -2147483648 <= n_out l <= 2147483647) ls ->
  exists t, net_text ls name = Ret t /\ load_net expf logf tanhf t name = Some m /\ NoDup (defined_names t) /\
    Forall (fun f => exists rest, In (fst f, rest) (definitions t) /\ returns rest = Some (snd f)) (net_functions name) /\
    (forall x, In x (defined_names t) -> exists s, x = name ++ s).
Proof.
  intros HA HI E BL B. pose proof (identifier_wordy name HI) as HW.
  unfold save_compiled in E. apply bind_Ret in E. destruct E as (us & _ & E). apply bind_Ret in E. destruct E as (ps & EP & E).
  unfold c_generate_net_loadable in E. apply bind_Ret in E. destruct E as (bs & EB & E). apply bind_Ret in E. destruct E as (lays & EL & E). injection E as <-.
  destruct (sizes_same ls ps EP) as [SB SL]. rewrite SB in EB. pose proof (buffer_bounds ls bs EB B) as BB.
  assert (EP' : mapM (const_layer expf logf tanhf) (map snd (enumerate ls)) = Ret ps) by (rewrite snd_enumerate; exact EP).
  assert (POS : Forall (fun i => 0 <= i) (map fst (enumerate ls))).
  { rewrite fst_enumerate. apply Forall_forall. intros i Hi. apply Verif.Base.Kernels.zrange_In in Hi. lia. }
  assert (ND : NoDup (map fst (enumerate ls))).
  { rewrite fst_enumerate. unfold zrange. apply FinFun.Injective_map_NoDup; [intros a b; lia|apply seq_NoDup]. }
  pose proof (layers_sizes (enumerate ls) ps lays EP' EL POS) as GOOD.
  destruct (layers_def name (enumerate ls) HW GOOD) as (lines & Elines & Dlines).
  destruct (rows_def name (enumerate ls) HW GOOD) as (rows & Erows & Lrows & Drows & Frows).
  destruct (plain_def (name ++ txt "_buf1") bs (wordy_app _ (txt "_buf1") HW eq_refl) ltac:(lia)) as (t1 & E1 & D1).
  destruct (plain_def (name ++ txt "_buf2") bs (wordy_app _ (txt "_buf2") HW eq_refl) ltac:(lia)) as (t2 & E2 & D2).
  assert (LE : zlen (enumerate ls) = zlen ls) by (rewrite <- (snd_enumerate ls) at 2; symmetry; apply zlen_map).
  destruct (table_lex (name ++ txt "_layers") (zlen ls) rows _ (wordy_app _ (txt "_layers") HW eq_refl) (eq_sym (eq_trans Lrows LE)) Drows) as (t3 & E3 & D3).
  pose proof (net_struct_lex name (name ++ txt "_layers") (name ++ txt "_buf1") (name ++ txt "_buf2") (zlen ls) bs HW
    (wordy_app _ (txt "_layers") HW eq_refl) (wordy_app _ (txt "_buf1") HW eq_refl) (wordy_app _ (txt "_buf2") HW eq_refl)) as D4.
  destruct (predict_def name HW) as (r1 & D5 & R1). destruct (regress_def name HW) as (r2 & D6 & R2). destruct (regress1_def name HW) as (r3 & D7 & R3).
  set (ds4 := [(name ++ txt "_buf1", plain_rest (tok_lit (fmt_int bs)))]) in *. set (ds5 := [(name ++ txt "_buf2", plain_rest (tok_lit (fmt_int bs)))]) in *.
  eexists. split.
  { unfold net_text. rewrite HA. cbn [bind]. rewrite EB. cbn [bind]. rewrite Elines. cbn [bind]. rewrite Erows. cbn [bind]. rewrite E1. cbn [bind]. rewrite E2. cbn [bind]. rewrite E3. cbn [bind]. reflexivity. }
  match goal with |- _ (join_with [10] ?parts) _ = _ /\ _ => set (t := join_with [10] parts) end.
  assert (DT : definitions t = flat_map (layer_defs name) (enumerate ls) ++
    [(name ++ txt "_buf1", plain_rest (tok_lit (fmt_int bs))); (name ++ txt "_buf2", plain_rest (tok_lit (fmt_int bs)));
     (name ++ txt "_layers", arr_rest (tok_lit (fmt_int (zlen ls))) (rows_toks (map (row_lits name) (enumerate ls))));
     (name, struct_rest (net_toks (zlen ls) bs (name ++ txt "_layers") (name ++ txt "_buf1") (name ++ txt "_buf2")));
     (name ++ txt "_predict", r1); (name ++ txt "_regress", r2); (name ++ txt "_regress1", r3)]).
  { assert (FLAT : forall (l : list (list Z * list tok)), concat (map (fun d => [d]) l) = l) by (induction l as [|d l IHl]; [reflexivity|cbn; f_equal; exact IHl]).
    assert (FM : concat (flat_map (fun p => map (fun d => [d]) (layer_defs name p)) (enumerate ls)) = flat_map (layer_defs name) (enumerate ls)).
    { generalize (enumerate ls). intros es. induction es as [|p es IHes]; [reflexivity|]. cbn [flat_map]. rewrite concat_app, FLAT, IHes. reflexivity. }
    rewrite <- FM. match goal with |- definitions _ = _ ++ ?l => rewrite <- (FLAT l) end. rewrite <- concat_app.
    apply is_def_definitions. subst t. cbn [app].
    match goal with |- is_def _ (concat ?dss) => change (is_def (join_with [10] (txt "#include <eml_net.h>" :: (concat lines ++ [t1; t2; t3; init_net name (zlen ls) (name ++ txt "_layers") (name ++ txt "_buf1") (name ++ txt "_buf2") bs;
      net_predict_function name; net_regress_function name; net_regress1_function name]))) (concat dss)) end.
    assert (CONS : forall a p ps, join_with [10] (a :: p :: ps) = (a ++ [10]) ++ join_with [10] (p :: ps)) by (intros; cbn [join_with]; rewrite <- app_assoc; reflexivity).
    assert (NE : exists p ps, concat lines ++ [t1; t2; t3; init_net name (zlen ls) (name ++ txt "_layers") (name ++ txt "_buf1") (name ++ txt "_buf2") bs;
      net_predict_function name; net_regress_function name; net_regress1_function name] = p :: ps) by (destruct (concat lines); cbn [app]; eauto).
    match goal with |- is_def _ (concat ?dss) => assert (J : is_def (join_with [10] (concat lines ++ [t1; t2; t3; init_net name (zlen ls) (name ++ txt "_layers") (name ++ txt "_buf1") (name ++ txt "_buf2") bs;
      net_predict_function name; net_regress_function name; net_regress1_function name])) (concat dss)) end.
    { apply join_defs; [lc|]. apply Forall2_app; [exact Dlines|]. cbn [map]. repeat apply Forall2_cons; try assumption. constructor. }
    destruct NE as (p & ps' & NE). rewrite NE in J |- *. rewrite CONS. apply is_def_nil_app; [lc|exact J]. }
  assert (NDT : NoDup (defined_names t)).
  { unfold defined_names. rewrite DT, map_app. assert (EN := net_nodup name (enumerate ls) ND POS).
    match goal with |- NoDup (_ ++ ?x) => replace x with (map (fun s => name ++ s) net_tails); [exact EN|] end. cbn [map fst net_tails]. change (txt "") with (@nil Z). rewrite app_nil_r. reflexivity. }
  assert (INL : forall d, In d (flat_map (layer_defs name) (enumerate ls)) -> In d (definitions t)) by (intros d Hd; rewrite DT; apply in_or_app; now left).
  assert (INR : forall d, In d [(name ++ txt "_buf1", plain_rest (tok_lit (fmt_int bs))); (name ++ txt "_buf2", plain_rest (tok_lit (fmt_int bs)));
     (name ++ txt "_layers", arr_rest (tok_lit (fmt_int (zlen ls))) (rows_toks (map (row_lits name) (enumerate ls))));
     (name, struct_rest (net_toks (zlen ls) bs (name ++ txt "_layers") (name ++ txt "_buf1") (name ++ txt "_buf2")));
     (name ++ txt "_predict", r1); (name ++ txt "_regress", r2); (name ++ txt "_regress1", r3)] -> In d (definitions t)) by (intros d Hd; rewrite DT; apply in_or_app; now right).
  assert (I1 := INR _ (or_introl eq_refl)). assert (I2 := INR _ (or_intror (or_introl eq_refl))).
  assert (I3 := INR _ (or_intror (or_intror (or_introl eq_refl)))). assert (I4 := INR _ (or_intror (or_intror (or_intror (or_introl eq_refl))))).
  assert (I5 := INR _ (or_intror (or_intror (or_intror (or_intror (or_introl eq_refl)))))).
  assert (I6 := INR _ (or_intror (or_intror (or_intror (or_intror (or_intror (or_introl eq_refl))))))).
  assert (I7 := INR _ (or_intror (or_intror (or_intror (or_intror (or_intror (or_intror (or_introl eq_refl)))))))). clear INR.
  assert (PRE : forall x, In x (defined_names t) -> exists s, x = name ++ s).
  { intros x Hx. unfold defined_names in Hx. rewrite DT, map_app in Hx. apply in_app_or in Hx. destruct Hx as [Hx|Hx].
    - apply in_map_iff in Hx. destruct Hx as ([w r] & <- & Hx). apply in_flat_map in Hx. destruct Hx as ([j l'] & _ & Hx).
      cbn [layer_defs In] in Hx. destruct Hx as [Hx|[Hx|[]]]; injection Hx as Hx _; subst w; eexists; reflexivity.
    - cbn [map fst In] in Hx. repeat match type of Hx with _ \/ _ => destruct Hx as [Hx|Hx] end; try contradiction; subst x; try (eexists; reflexivity). exists []. symmetry. apply app_nil_r. }
  split; [|split; [exact NDT|]].
  - assert (LK : forall n r, In (n, r) (definitions t) -> lookup_def n (definitions t) = Some r) by (intros n r H; apply lookup_In; [exact NDT|exact H]).
    unfold load_net. rewrite (LK name _ I4). rewrite net_struct_def. cbv iota beta.
    unfold num_field. rewrite !field_int_lit. cbv iota beta.
    change (field_name (name_field (name ++ txt "_layers"))) with (Some (name ++ txt "_layers")). cbv iota beta.
    rewrite (LK (name ++ txt "_layers") _ I3). rewrite table_def_rest by (apply fmt_int_litt || exact Frows). cbv iota beta. rewrite int_lit_fmt.
    assert (LR : opt_all (layer_of expf logf tanhf t) (map (row_lits name) (enumerate ls)) = Some lays).
    { apply (layers_read t name NDT (enumerate ls) ps lays INL); [|exact EP'|exact EL].
      apply Forall_forall. intros p Hp. rewrite Forall_forall in B. apply B. rewrite <- (snd_enumerate ls). now apply in_map. }
    rewrite LR. cbv iota beta.
    change (field_name (name_field (name ++ txt "_buf1"))) with (Some (name ++ txt "_buf1")). change (field_name (name_field (name ++ txt "_buf2"))) with (Some (name ++ txt "_buf2")). cbv iota beta.
    rewrite (LK (name ++ txt "_buf1") _ I1), plain_array_rest. cbv iota beta.
    rewrite (LK (name ++ txt "_buf2") _ I2), plain_array_rest. cbv iota beta.
    rewrite map_length. change (Z.of_nat (length (enumerate ls))) with (zlen (enumerate ls)). rewrite LE, Z.eqb_refl.
    pose proof (zlen_nonneg ls) as LN. rewrite !int32_of by lia. rewrite SL. reflexivity.
  - split; [|exact PRE]. unfold net_functions. repeat apply Forall_cons; try apply Forall_nil; cbn [fst].
    + exists r1. split; [exact I5|exact R1].
    + exists r2. split; [exact I6|exact R2].
    + exists r3. split; [exact I7|exact R3].
Qed.
End Load.

Lemma wrapper_saved expf logf tanhf method rt fx ls w : net_wrapper expf logf tanhf method rt fx ls = Ret w ->
  exists m, save_compiled expf logf tanhf ls = Ret m /\
    ((rt = "classifier"%string /\ exists n, w = NetClassifier expf logf tanhf m n) \/ (rt = "regressor"%string /\ w = NetRegressor expf logf tanhf m) \/
     (rt = "classifier"%string /\ w = NetInline expf logf tanhf m)).
Proof.
  intros E. unfold net_wrapper in E. apply bind_Ret in E. destruct E as (last & _ & E). cbv zeta in E.
  set (it := match method with None => "loadable"%string | Some s => s end) in E.
  destruct (fx && negb (String.eqb it "inline")); [discriminate|].
  destruct (String.eqb it "loadable" && String.eqb rt "classifier") eqn:B1.
  { apply bind_Ret in E. destruct E as (m & SV & E). injection E as <-. apply andb_prop in B1. destruct B1 as [_ B1]. apply String.eqb_eq in B1. exists m. split; [exact SV|]. left. eauto. }
  destruct (String.eqb it "loadable" && String.eqb rt "regressor") eqn:B2.
  { apply bind_Ret in E. destruct E as (m & SV & E). injection E as <-. apply andb_prop in B2. destruct B2 as [_ B2]. apply String.eqb_eq in B2. exists m. split; [exact SV|]. right. left. auto. }
  destruct (String.eqb it "inline" && String.eqb rt "classifier") eqn:B3.
  { apply bind_Ret in E. destruct E as (m & SV & E). destruct fx; [discriminate|]. injection E as <-. apply andb_prop in B3. destruct B3 as [_ B3]. apply String.eqb_eq in B3. exists m. split; [exact SV|]. right. right. auto. }
  destruct (String.eqb it "inline" && String.eqb rt "regressor"); discriminate.
Qed.
