(** The texts of elliptic envelopes, Gaussian mixtures and naive Bayes models: what they declare. *)
From Coq Require Import String ZArith List Bool Lia Reals Lra.
From Flocq Require Import Core BinarySingleNaN.
From Verif.Base Require Import Res CInt ListX Loops Float FloatOrder Arith.
From Verif.Model Require Import Common Text Cgen Harness TreesConvert TreesC FixedPoint Bayes Distance Mixture DistanceRun MixtureRun BayesRun TreesRun SaveText SaveModelsText.
From Verif.Spec Require Import CTextSpec CgenSpec StrSpec SaveSpec SaveNetSpec SaveModelsSpec.
From Verif.Proof Require Import Text Cgen CText SaveInline SaveFile SaveLoad SaveNeighbors SaveNet Str Harness.
Import ListNotations.
Open Scope Z_scope.
Open Scope list_scope.
Open Scope res_scope.

(** *** Declarations *)
Definition decl_toks (d : declaration) : list tok := let '(ty, n, rest) := d in ty ++ W n :: rest.
Definition decl_def (d : declaration) : list Z * list tok := let '(_, n, rest) := d in (n, rest).
Definition is_file (t : text) (ds : list declaration) : Prop :=
  lexw [] t (flat_map decl_toks ds) [] /\ defines (flat_map decl_toks ds) (map decl_def ds).
Lemma file_app a b da db : is_file a da -> is_file b db -> is_file (a ++ b) (da ++ db).
Proof.
  intros [A1 A2] [B1 B2]. unfold is_file. rewrite flat_map_app, map_app. split; [eapply lexw_app; eauto|now apply defines_app].
Qed.
Lemma file_clean a : lexw [] a [] [] -> is_file a [].
Proof. intros H. split; [exact H|apply defines_nil]. Qed.
Lemma file_one t d : lexw [] t (decl_toks d) [] -> defines (decl_toks d) [decl_def d] -> is_file t [d].
Proof. intros A B. unfold is_file. cbn [flat_map map]. rewrite app_nil_r. auto. Qed.
Lemma file_consists t ds : is_file t ds -> consists_of t ds.
Proof.
  intros [A B]. split.
  - rewrite (tokens_lexw _ _ _ A), app_nil_r. reflexivity.
  - rewrite (definitions_of _ _ _ A B). reflexivity.
Qed.

(** *** Arrays of floats *)
Lemma float_array_file name size vs : wordy name -> size = None \/ size = Some (zlen vs) ->
  exists t, float_array_text name size (txt "static const") vs = Ret t /\
    is_file t [decl "static const float" name (arr_rest (tok_lit (fmt_int (zlen vs))) (comma_toks (consts vs)))].
Proof.
  intros [N1 N2] HS. pose proof (zlen_nonneg vs) as Hn. destruct (fmt_nat_wordy (zlen vs) Hn) as [C1 C2]. pose proof (consts_litt vs) as F. set (lits := consts vs) in *.
  exists (txt "static const" ++ txt " " ++ txt "float" ++ txt " " ++ name ++ txt "[" ++ fmt_int (zlen vs) ++ txt "]" ++ (txt " = { " ++ join_with (txt ", ") lits ++ txt " }") ++ txt ";" ++ []).
  split.
  - unfold float_array_text, array_declare. rewrite (zlen_map PyFloat vs).
    destruct HS as [->| ->]; rewrite Z.eqb_refl; cbn [py_assert bind]; rewrite consts_text; cbn [bind]; reflexivity.
  - set (n := zlen vs) in *. clearbody lits n. clear HS vs. apply file_one; [|apply (defines_arr [txt "static"; txt "const"; txt "float"]); [apply tok_lit_bd|apply comma_bd]].
    rewrite <- !app_assoc. rewrite (app_assoc (txt "static const")), (app_assoc (_ ++ txt " ")), (app_assoc (_ ++ txt "float")).
    replace (txt " }" ++ txt ";" ++ []) with (txt " };") by reflexivity.
    eapply lexw_eq.
    + eapply lexw_app; [lcc|]. eapply lexw_app; [lw|]. eapply lexw_app; [l0|]. eapply lexw_app; [lw|].
      eapply lexw_app; [l0|]. eapply lexw_app; [lcc|]. eapply lexw_comma; [exact F|reflexivity|reflexivity|vm_compute; reflexivity|reflexivity|reflexivity|vm_compute; reflexivity].
    + cbn [app]. rewrite (endw_ne name N1), (endw_ne _ C1). cbn [app rev map].
      destruct (fmt_int_lit n) as [A B]. unfold decl_toks, decl, arr_rest. rewrite A, tok_lit_lit by exact B. destruct (Z.ltb_spec n 0); [lia|]. reflexivity.
    + reflexivity.
Qed.

(** *** Floating constants: digits, point, e, signs *)
Definition num_char (c : Z) : bool := word_char c || (c =? 43) || (c =? 45).
Definition num_tok (x : tok) : Prop := match x with W _ => True | P c => c = 43 \/ c = 45 end.
Lemma field_text_app a b : field_text (a ++ b) = field_text a ++ field_text b.
Proof. unfold field_text. apply flat_map_app. Qed.
Lemma field_text_endw w : field_text (endw w) = w.
Proof. destruct w; [reflexivity|]. cbn [endw field_text flat_map]. apply app_nil_r. Qed.
Lemma num_lex s : forall w, forallb num_char s = true -> exists ts w', lexw w s ts w' /\ field_text (ts ++ endw w') = w ++ s /\ Forall num_tok (ts ++ endw w').
Proof.
  induction s as [|c s IH]; intros w H.
  - exists [], w. split; [apply lexw_nil|]. cbn [app]. rewrite field_text_endw, app_nil_r. split; [reflexivity|]. destruct w; repeat constructor.
  - cbn [forallb] in H. apply andb_prop in H. destruct H as [Hc Hs]. destruct (word_char c) eqn:Wc.
    + destruct (IH (w ++ [c]) Hs) as (ts & w' & L & T & N). exists ts, w'. split; [|split; [|exact N]].
      * change (c :: s) with ([c] ++ s). change ts with ([] ++ ts). eapply lexw_app; [|exact L]. apply lexw_word. cbn [forallb]. rewrite Wc. reflexivity.
      * rewrite T, <- app_assoc. reflexivity.
    + assert (C : c = 43 \/ c = 45) by (unfold num_char in Hc; rewrite Wc in Hc; cbn [orb] in Hc; destruct (Z.eqb_spec c 43); [auto|]; destruct (Z.eqb_spec c 45); [auto|discriminate]).
      destruct (IH [] Hs) as (ts & w' & L & T & N). exists ((endw w ++ [P c]) ++ ts), w'. split; [|split].
      * change (c :: s) with ([c] ++ s). eapply lexw_app; [|exact L]. eapply (lexw_const0 w [c] c [] [P c]); [reflexivity|exact Wc|]. destruct C as [-> | ->]; reflexivity.
      * rewrite <- !app_assoc. rewrite !field_text_app, field_text_endw. rewrite <- field_text_app, T. reflexivity.
      * rewrite <- !app_assoc. apply Forall_app. split; [destruct w; repeat constructor|]. constructor; [exact C|exact N].
Qed.
Lemma num_chars t v : float_text t v -> forallb num_char t = true.
Proof.
  intros (neg & A & B & P & ex & e & -> & DA & NA & DB & X & PB & _).
  assert (D : forall l, digit_text l -> forallb num_char l = true).
  { intros l H. apply forallb_forall. intros c Hc. unfold digit_text in H. rewrite Forall_forall in H. specialize (H c Hc). unfold num_char, word_char.
    destruct (Z.leb_spec 48 c); [|lia]. destruct (Z.leb_spec c 57); [|lia]. cbn [andb]. rewrite !orb_true_r. reflexivity. }
  rewrite !forallb_app, (D A DA). assert (S : forallb num_char (if neg then [45] else []) = true) by (destruct neg; reflexivity). rewrite S.
  assert (PT : forallb num_char P = true) by (destruct PB as [->|(-> & _)]; [cbn [forallb]; rewrite (D B DB)|]; reflexivity). rewrite PT.
  destruct X; cbn [forallb]; rewrite ?D by assumption; reflexivity.
Qed.
Lemma fields_num ts : forall cur r, Forall num_tok ts ->
  fields_of (ts ++ P 44 :: r) 0 cur = let? (fs, rest) := fields_of r 0 [] in Some ((cur ++ ts) :: fs, rest).
Proof.
  induction ts as [|x ts IH]; intros cur r F; [cbn [app fields_of]; rewrite app_nil_r; reflexivity|]. inversion F as [|? ? Hx F']; subst.
  cbn [app]. assert (E : fields_of (x :: ts ++ P 44 :: r) 0 cur = fields_of (ts ++ P 44 :: r) 0 (cur ++ [x])).
  { destruct x as [w|c]; [reflexivity|]. cbn [num_tok] in Hx. destruct Hx as [-> | ->]; reflexivity. }
  rewrite E, (IH _ _ F'), <- app_assoc. reflexivity.
Qed.
Lemma bd_num ts n r : Forall num_tok ts -> bd (ts ++ r) n = bd r n.
Proof.
  intros F. induction F as [|x ts Hx F IH]; [reflexivity|]. cbn [app bd]. destruct x as [w|c]; [exact IH|]. cbn [num_tok] in Hx. destruct Hx as [-> | ->]; exact IH.
Qed.
(** the value read *)
Lemma constant_nearest {prec emax} {Hp : Prec_gt_0 prec} {Hm : Prec_lt_emax prec emax} t v sfx (x : binary_float prec emax) :
  float_text t v -> ends sfx -> c_constant sfx (t ++ sfx) = Ret x -> nearest x v.
Proof.
  intros H S E. destruct (text_read t v sfx H S) as (s & n & k & e & rest & Hn & Hk & E1 & E2 & _ & E4).
  unfold c_constant in E. rewrite E1, E2 in E. match type of E with (if ?b then _ else _) = _ => destruct b; [|discriminate] end. cbv zeta in E.
  destruct (is_finite (f_of_sci s n k e : binary_float prec emax)) eqn:F; [|discriminate]. injection E as <-. split; [exact F|].
  destruct (@f_of_sci_ok prec emax Hp Hm s n k e Hn Hk) as [N K]. rewrite <- E4 in K.
  set (y := f_of_sci s n k e : binary_float prec emax) in *. set (r := round radix2 (SpecFloat.fexp prec emax) ZnearestE v) in *.
  pose proof (bpow_gt_0 radix2 emax) as PT. destruct (Rlt_or_le (Rabs r) (bpow radix2 emax)) as [L|L].
  - rewrite clampR_in in K by lra. destruct (key_fin_eq y r N L K) as [_ V]. exact V.
  - exfalso. pose proof (key_fin y F) as B. rewrite K in B. clear - B L PT. unfold clampR in B. destruct (Rle_or_lt 0 r) as [Q|Q].
    + rewrite Rabs_pos_eq in L by exact Q. rewrite (Rmin_left _ _ L) in B. rewrite Rmax_right in B by lra. lra.
    + rewrite Rabs_left in L by exact Q. rewrite Rmin_right in B by lra. rewrite Rmax_left in B by lra. lra.
Qed.

(** *** The elliptic envelope *)
Lemma fields_name n r : fields_of (W n :: P 44 :: r) 0 [] = let? (fs, rest) := fields_of r 0 [] in Some ([W n] :: fs, rest).
Proof. reflexivity. Qed.
Section Envelope.
Context (float_str : f64 -> text).
Lemma envelope_struct_file cn mn pn n x : wordy cn -> wordy mn -> wordy pn -> forallb num_char (float_str x) = true ->
  exists off, field_text off = float_str x ++ txt "f" /\ Forall num_tok off /\
    is_file (envelope_struct float_str cn n x mn pn)
      [decl "static const EmlEllipticEnvelope" cn (struct_rest (tok_lit (fmt_int n) ++ P 44 :: off ++ P 44 :: W mn :: P 44 :: [W pn]))].
Proof.
  intros [C1 C2] [M1 M2] [P1 P2] NC.
  assert (NC' : forallb num_char (float_str x ++ txt "f") = true) by (rewrite forallb_app, NC; reflexivity).
  destruct (num_lex (float_str x ++ txt "f") [] NC') as (ts & w' & L & T & N). cbn [app] in T. exists (ts ++ endw w'). split; [exact T|]. split; [exact N|].
  apply file_one.
  - unfold envelope_struct. match goal with |- context [float_str x ++ txt ?s ++ ?r] =>
      let v := eval vm_compute in (tl (txt s)) in replace (float_str x ++ txt s ++ r) with ((float_str x ++ txt "f") ++ v ++ r) by (rewrite <- app_assoc; reflexivity) end.
    set (o := float_str x ++ txt "f") in *. clearbody o. clear NC NC' T N x.
    unfold envelope_modifiers. eapply lexw_eq.
    + eapply lexw_app; [lcc|]. eapply lexw_app; [lcc|].
      eapply lexw_app; [eapply lexw_const0; [reflexivity|reflexivity|vm_compute; reflexivity]|]. eapply lexw_app; [lw|]. eapply lexw_app; [l0|].
      ltn. eapply lexw_app; [exact L|]. eapply lexw_app; [l0|]. eapply lexw_app; [lw|]. eapply lexw_app; [l0|]. eapply lexw_app; [lw|]. l0.
    + cbn [app]. rewrite (endw_ne cn C1), (endw_ne mn M1), (endw_ne pn P1). cbn [endw app rev map]. unfold decl_toks, decl, struct_rest.
      change (tokens (txt "static const EmlEllipticEnvelope")) with [W (txt "static"); W (txt "const"); W (txt "EmlEllipticEnvelope")].
      repeat (progress (cbn [app]) || rewrite <- app_assoc). reflexivity.
    + reflexivity.
  - apply (defines_struct [txt "static"; txt "const"; txt "EmlEllipticEnvelope"]). unfold balanced. rewrite bd_lit. rewrite bd_num by exact N. reflexivity.
Qed.
Lemma envelope_struct_fields n off mn pn : Forall num_tok off ->
  struct_def (struct_rest (tok_lit (fmt_int n) ++ P 44 :: off ++ P 44 :: W mn :: P 44 :: [W pn])) = Some [tok_lit (fmt_int n); off; [W mn]; [W pn]].
Proof.
  intros N. unfold struct_def, struct_rest.
  match goal with |- context [expect [ch "="; ch "{"] (P 61 :: P 123 :: ?l)] => change (expect [ch "="; ch "{"] (P 61 :: P 123 :: l)) with (Some l) end. cbv iota beta.
  repeat rewrite <- app_assoc, <- app_comm_cons. rewrite fields_lit by apply fmt_int_litt. rewrite (fields_num off [] _ N). reflexivity.
Qed.
End Envelope.
Lemma envelope_function_file name : wordy name ->
  is_file (envelope_function (name ++ txt "_predict") (name ++ txt "_classifier")) [func "float" (name ++ txt "_predict") (envelope_code name)].
Proof.
  intros HN. destruct (wordy_app name (txt "_predict") HN eq_refl) as [F1 F2]. destruct (wordy_app name (txt "_classifier") HN eq_refl) as [C1 C2].
  assert (TC : tokens (envelope_code name) = fun_rest [W (txt "const"); W (txt "float"); P 42; W (txt "features"); P 44; W (txt "int"); W (txt "n_features")]
    [W (txt "float"); W (txt "dist"); P 61; W (txt "0.0"); P 59; W (txt "const"); W (txt "int"); W (txt "class"); P 61; W (txt "eml_elliptic_envelope_predict"); P 40; P 38; W (name ++ txt "_classifier"); P 44;
     W (txt "features"); P 44; W (txt "n_features"); P 44; P 38; W (txt "dist"); P 41; P 59; W (txt "return"); W (txt "dist"); P 59]).
  { unfold envelope_code.
    match goal with |- context [name ++ txt ?s] => let v := eval vm_compute in (skipn 11 (txt s)) in
      replace (name ++ txt s) with ((name ++ txt "_classifier") ++ v) by (rewrite <- app_assoc; reflexivity) end.
    match goal with |- tokens ?t = ?r => assert (L : lexw [] t r []); [|rewrite (tokens_lexw _ _ _ L), app_nil_r; reflexivity] end.
    eapply lexw_eq; [eapply lexw_app; [lcc|]; eapply lexw_app; [lw|]; l0| |reflexivity]. cbn [app]. rewrite (endw_ne _ C1). reflexivity. }
  apply file_one; unfold func, decl, decl_toks, decl_def; rewrite TC; change (tokens (txt "float")) with [W (txt "float")].
  - unfold envelope_function. eapply lexw_eq; [eapply lexw_app; [lcc|]; eapply lexw_app; [lw|]; eapply lexw_app; [l0|]; eapply lexw_app; [lw|]; l0| |reflexivity].
    cbn [app]. rewrite (endw_ne _ F1), (endw_ne _ C1). reflexivity.
  - apply (defines_fun [txt "float"]); reflexivity.
Qed.
Lemma file_array t ds d name vs ks : consists_of t ds -> In d ds -> NoDup (defined_names t) ->
  d = decl "static const float" name (arr_rest (tok_lit (fmt_int (zlen vs))) (comma_toks (consts vs))) ->
  opt_all float_lit (consts vs) = Some ks -> pointed float_array t [W name] = Some ks.
Proof.
  intros [_ D] I ND -> E. unfold pointed. change (field_name [W name]) with (Some name). cbv iota beta.
  rewrite (lookup_In name (arr_rest (tok_lit (fmt_int (zlen vs))) (comma_toks (consts vs)))); [|exact ND|rewrite D; exact (in_map (fun '(_, n, rest) => (n, rest)) _ _ I)].
  unfold float_array. rewrite array_def_rest by (apply fmt_int_litt || apply consts_litt). rewrite int_lit_fmt.
  change (Z.of_nat (length (consts vs))) with (zlen (consts vs)). rewrite consts_len, Z.eqb_refl. exact E.
Qed.
Lemma suffixes_nodup (name : text) sfx : NoDup sfx -> NoDup (map (fun s => name ++ s) sfx).
Proof. intros H. apply FinFun.Injective_map_NoDup; [|exact H]. intros a b E. now apply app_inv_head in E. Qed.
Lemma envelope_reads float_str expf logf tanhf f name e : identifier name -> assert_valid_identifier name = Ret tt -> str_reads_back float_str ->
  is_finite (fe_offset f) = true -> save_envelope float_str expf logf tanhf f = Ret e ->
  exists t m p s, envelope_text float_str f name = Ret t /\
    consists_of t [decl "static const float" (name ++ txt "_means") m; decl "static const float" (name ++ txt "_precisions") p;
      decl "static const EmlEllipticEnvelope" (name ++ txt "_classifier") s; func "float" (name ++ txt "_predict") (envelope_code name)] /\
    NoDup (defined_names t) /\ holds_envelope expf logf tanhf t (name ++ txt "_classifier") e.
Proof.
  intros ID HA SR FX E. pose proof (identifier_wordy name ID) as HN.
  unfold save_envelope in E. apply bind_Ret in E. destruct E as ([] & EP & E). apply bind_Ret in E. destruct E as (ms & Em & E).
  apply bind_Ret in E. destruct E as (ps & Ep & E). apply bind_Ret in E. destruct E as (b & Eb & E). injection E as <-.
  assert (LP : zlen (concat (fe_precision f)) = zlen (fe_location f) * zlen (fe_location f)).
  { destruct (Z.eqb_spec (zlen (concat (fe_precision f))) (zlen (fe_location f) * zlen (fe_location f))) as [Q|Q]; [exact Q|discriminate EP]. }
  destruct (SR _ FX) as (v & TV & _).
  destruct (float_array_file (name ++ txt "_means") (Some (zlen (fe_location f))) (fe_location f) (wordy_app _ (txt "_means") HN eq_refl) (or_intror eq_refl)) as (t1 & E1 & D1).
  destruct (float_array_file (name ++ txt "_precisions") (Some (zlen (fe_location f) * zlen (fe_location f))) (concat (fe_precision f)) (wordy_app _ (txt "_precisions") HN eq_refl)
    (or_intror (f_equal Some (eq_sym LP)))) as (t2 & E2 & D2).
  destruct (envelope_struct_file float_str (name ++ txt "_classifier") (name ++ txt "_means") (name ++ txt "_precisions") (zlen (fe_location f)) (fe_offset f)
    (wordy_app _ (txt "_classifier") HN eq_refl) (wordy_app _ (txt "_means") HN eq_refl) (wordy_app _ (txt "_precisions") HN eq_refl) (num_chars _ _ TV)) as (off & TO & NO & D3).
  pose proof (envelope_function_file name HN) as D4.
  eexists _, _, _, _. split.
  { unfold envelope_text. rewrite HA. cbn [bind]. unfold envelope_modifiers at 1 2. rewrite E1. cbn [bind]. rewrite E2. cbn [bind]. reflexivity. }
  match goal with |- consists_of ?x _ /\ _ => set (t := x) end.
  match type of D1 with is_file _ [?d1] => match type of D2 with is_file _ [?d2] => match type of D3 with is_file _ [?d3] => match type of D4 with is_file _ [?d4] =>
    assert (C : consists_of t [d1; d2; d3; d4]) end end end end.
  { apply file_consists. subst t. cbn [join_with]. rewrite <- !app_assoc.
    match goal with |- is_file _ [?d1; ?d2; ?d3; ?d4] => change [d1; d2; d3; d4] with ([] ++ [] ++ [d1] ++ [] ++ [d2] ++ [d3] ++ [d4]) end.
    repeat first [apply file_app; [first [exact D1|exact D2|exact D3|apply file_clean; lc]|]|exact D4]. }
  assert (ND : NoDup (defined_names t)).
  { unfold defined_names. destruct C as [_ ->]. cbn [map fst]. change (NoDup (map (fun s => name ++ s) [txt "_means"; txt "_precisions"; txt "_classifier"; txt "_predict"])).
    apply suffixes_nodup. repeat constructor; cbn; intuition discriminate. }
  split; [exact C|]. split; [exact ND|].
  eexists _, _, off, _, _, v. split; [apply lookup_In; [exact ND|]; rewrite (proj2 C); right; right; left; reflexivity|].
  split; [apply envelope_struct_fields; exact NO|]. split; [apply field_int_lit|].
  split; [exists (float_str (fe_offset f)); split; [exact TO|exact TV]|].
  split; [eapply constant_nearest; [exact TV| |exact Eb]; cbn; repeat split; discriminate|].
  split.
  - eapply file_array; [exact C|left; reflexivity|exact ND|reflexivity|]. apply consts_read. exact Em.
  - eapply file_array; [exact C|right; left; reflexivity|exact ND|reflexivity|]. apply consts_read. exact Ep.
Qed.

(** *** The mixture *)
Lemma float_lit_gcc (x : f64) k : gcc_float_literal (fmt_fixed 6 x ++ txt "f") = Ret k -> float_lit (fmt_fixed 6 x ++ txt "f") = Some k.
Proof.
  destruct (is_finite x) eqn:F.
  - destruct (fmt_fixed_split 6 x F) as (ds & fs & T & D1 & D2 & D3 & L & N).
    unfold gcc_float_literal. rewrite (scan_fixed 6 x (txt "f") F) by reflexivity.
    replace (text_eqb (txt "f") (txt "f")) with true by (symmetry; now apply text_eqb_iff). intros E. injection E as <-.
    rewrite T. assert (HD : ds <> [] /\ match ds with c :: _ => c <> 45 | [] => False end).
    { split; [exact D3|]. destruct ds as [|c ds]; [congruence|]. inversion D1 as [|? ? Hc _]; subst. unfold digit in Hc. lia. }
    assert (NE : fs <> []) by (destruct fs; [discriminate L|discriminate]).
    assert (R : float_lit (signed (Bsign x) (ds ++ [46] ++ fs) ++ txt "f") =
      (let '(ds', fs') := until_point (ds ++ 46 :: (fs ++ [102])) in
       match rev fs' with
       | c :: fs'' => if (c =? 102) && all_digits ds' && all_digits (rev fs'') then Some (f_of_dec (Bsign x) (value_of (ds' ++ rev fs'')) (Z.of_nat (length fs''))) else None
       | [] => None end)).
    { change (txt "f") with [102]. destruct (Bsign x); cbn [signed app].
      - unfold float_lit. change (45 =? 45) with true. cbv iota. rewrite <- app_assoc. reflexivity.
      - destruct HD as [_ HD]. destruct ds as [|c ds]; [contradiction|]. cbn [app]. unfold float_lit. destruct (Z.eqb_spec c 45); [contradiction|].
        rewrite <- app_assoc. reflexivity. }
    rewrite R, (until_point_ok ds _ D1). rewrite rev_app_distr. cbn [rev app]. change (102 =? 102) with true. cbn [andb].
    rewrite rev_involutive, (digits_all ds D1 D3), (digits_all fs D2 NE). cbn [andb]. rewrite rev_length, L. f_equal. f_equal. exact N.
  - intros H. exfalso. unfold gcc_float_literal in H. destruct x as [s|s| |s m e Hx]; try discriminate.
    destruct s; vm_compute in H; discriminate.
Qed.
Lemma gcc_consts vs ks : mapM gcc_float_const vs = Ret ks -> opt_all float_lit (consts vs) = Some ks.
Proof.
  revert ks. induction vs as [|v vs IH]; intros ks E; cbn [mapM] in E; [injection E as <-; reflexivity|].
  apply bind_Ret in E. destruct E as (k & Ek & E). apply bind_Ret in E. destruct E as (ks' & Eks & E). injection E as <-.
  cbn [consts map opt_all]. rewrite (float_lit_gcc v k Ek). change (map (fun x : f64 => fmt_fixed 6 x ++ txt "f") vs) with (consts vs). rewrite (IH _ Eks). reflexivity.
Qed.
Definition gmm_toks (a b : Z) (m p d w : text) : list tok :=
  tok_lit (fmt_int a) ++ P 44 :: tok_lit (fmt_int b) ++ P 44 :: W full_covariance :: P 44 :: W m :: P 44 :: W p :: P 44 :: W d :: P 44 :: [W w].
Lemma gmm_fields a b m p d w : struct_def (struct_rest (gmm_toks a b m p d w)) =
  Some [tok_lit (fmt_int a); tok_lit (fmt_int b); [W full_covariance]; [W m]; [W p]; [W d]; [W w]].
Proof.
  unfold struct_def, struct_rest.
  match goal with |- context [expect [ch "="; ch "{"] (P 61 :: P 123 :: ?l)] => change (expect [ch "="; ch "{"] (P 61 :: P 123 :: l)) with (Some l) end. cbv iota beta.
  unfold gmm_toks. repeat rewrite <- app_assoc, <- app_comm_cons. rewrite fields_lit by apply fmt_int_litt. rewrite fields_lit by apply fmt_int_litt. reflexivity.
Qed.
Lemma gmm_struct_file sn a b m p d w : wordy sn -> wordy m -> wordy p -> wordy d -> wordy w ->
  is_file (mixture_struct sn a b full_covariance m p d w) [decl "EmlMixtureModel" sn (struct_rest (gmm_toks a b m p d w))].
Proof.
  intros [S1 S2] [M1 M2] [P1 P2] [D1 D2] [W1 W2]. apply file_one.
  - unfold mixture_struct, struct_init, full_covariance. cbn [join_with]. rewrite <- !app_assoc.
    assert (E : forall y, txt " = " ++ txt "{ " ++ y = txt " = { " ++ y) by reflexivity. rewrite E. clear E.
    replace (txt " }" ++ txt ";
") with (txt " };
") by reflexivity.
    replace (txt ", " ++ txt "EmlCovarianceFull" ++ txt ", " ++ m ++ txt ", " ++ p ++ txt ", " ++ d ++ txt ", " ++ w ++ txt " };
") with (txt ", EmlCovarianceFull, " ++ m ++ txt ", " ++ p ++ txt ", " ++ d ++ txt ", " ++ w ++ txt " };
") by reflexivity.
    eapply lexw_eq.
    + eapply lexw_app; [lcc|]. eapply lexw_app; [lw|]. eapply lexw_app; [l0|]. ltn. ltn.
      eapply lexw_app; [lw|]. eapply lexw_app; [l0|]. eapply lexw_app; [lw|]. eapply lexw_app; [l0|]. eapply lexw_app; [lw|]. eapply lexw_app; [l0|]. eapply lexw_app; [lw|]. l0.
    + cbn [app]. rewrite (endw_ne sn S1), (endw_ne m M1), (endw_ne p P1), (endw_ne d D1), (endw_ne w W1). cbn [endw app rev map]. unfold decl_toks, decl, struct_rest, gmm_toks.
      change (tokens (txt "EmlMixtureModel")) with [W (txt "EmlMixtureModel")].
      repeat (progress (cbn [app]) || rewrite <- app_assoc). reflexivity.
    + reflexivity.
  - apply (defines_struct [txt "EmlMixtureModel"]). unfold balanced, gmm_toks. rewrite !bd_lit. reflexivity.
Qed.
Ltac until_close l := lazymatch l with P 41 :: ?r => constr:(@nil tok) | ?x :: ?r => let a := until_close r in constr:(x :: a) end.
Ltac after_open l := lazymatch l with P 123 :: ?r => butlast r | _ :: ?r => after_open r end.
Ltac par_of r := lazymatch r with P 40 :: ?l => until_close l end.
Ltac body_of r := after_open r.
Ltac model_fun sfx fn_code :=
  match goal with HN : wordy ?name |- is_file ?t [func ?ty ?fn ?c] =>
    let F1 := fresh in let F2 := fresh in let C1 := fresh in let C2 := fresh in let TC := fresh in
    destruct (wordy_app name (txt sfx) HN eq_refl) as [F1 F2]; destruct (wordy_app name (txt "_model") HN eq_refl) as [C1 C2];
    eassert (TC : tokens c = _);
    [ unfold fn_code;
      match goal with |- context [name ++ txt ?s] => let v := eval vm_compute in (skipn 6 (txt s)) in
        replace (name ++ txt s) with ((name ++ txt "_model") ++ v) by (rewrite <- app_assoc; reflexivity) end;
      eapply eq_trans; [eapply tokens_lexw; eapply lexw_app; [lcc|]; eapply lexw_app; [lw|]; l0|];
      cbn [app]; rewrite (endw_ne _ C1); cbn [app rev endw]; reflexivity
    | apply file_one; unfold func, decl, decl_toks, decl_def; rewrite TC;
      [ let v := eval vm_compute in (tokens (txt ty)) in change (tokens (txt ty)) with v;
        eapply lexw_eq; [eapply lexw_app; [lcc|]; eapply lexw_app; [lw|]; eapply lexw_app; [l0|]; eapply lexw_app; [lw|]; l0| |reflexivity];
        cbn [app]; rewrite (endw_ne _ F1), (endw_ne _ C1); reflexivity
      | match goal with |- defines (_ ++ W ?f :: ?r) _ => let p := par_of r in let b := body_of r in exact (defines_fun [txt ty] f p b eq_refl eq_refl) end ] ]
  end.
Lemma log_proba_file name : wordy name -> is_file (mixture_log_proba_function (name ++ txt "_predict_log_proba") (name ++ txt "_model"))
  [func "int32_t" (name ++ txt "_predict_log_proba") (mixture_log_proba_code name)].
Proof. intros HN. unfold mixture_log_proba_function. model_fun "_predict_log_proba"%string mixture_log_proba_code. Qed.
Lemma score_file name : wordy name -> is_file (mixture_score_function (name ++ txt "_score") (name ++ txt "_model"))
  [func "EmlError" (name ++ txt "_score") (mixture_score_code name)].
Proof. intros HN. unfold mixture_score_function. model_fun "_score"%string mixture_score_code. Qed.
Lemma proba_file name : wordy name -> is_file (mixture_proba_function (name ++ txt "_predict_proba") (name ++ txt "_model"))
  [func "int32_t" (name ++ txt "_predict_proba") (mixture_proba_code name)].
Proof. intros HN. unfold mixture_proba_function. model_fun "_predict_proba"%string mixture_proba_code. Qed.
Lemma mixture_reads expf logf tanhf w name m : identifier name -> assert_valid_identifier name = Ret tt ->
  zlen (w_means w) <= 2147483647 -> Forall (fun row => zlen row <= 2147483647) (w_means w) ->
  build_executable expf logf tanhf w = Ret m ->
  exists t a b c d s, mixture_text w name = Ret t /\
    consists_of t [decl "static const float" (name ++ txt "_means") a; decl "static const float" (name ++ txt "_precisions") b;
      decl "static const float" (name ++ txt "_log_weights") c; decl "static const float" (name ++ txt "_log_dets") d;
      decl "EmlMixtureModel" (name ++ txt "_model") s; func "int32_t" (name ++ txt "_predict_log_proba") (mixture_log_proba_code name);
      func "EmlError" (name ++ txt "_score") (mixture_score_code name); func "int32_t" (name ++ txt "_predict_proba") (mixture_proba_code name)] /\
    NoDup (defined_names t) /\ load_mixture expf logf tanhf t (name ++ txt "_model") = Some m.
Proof.
  intros ID HA S1 S2 E. pose proof (identifier_wordy name ID) as HN.
  unfold build_executable in E. cbv zeta in E. apply bind_Ret in E. destruct E as (row & ER & E). apply bind_Ret in E. destruct E as ([] & EP & E).
  apply bind_Ret in E. destruct E as (ms & Em & E). apply bind_Ret in E. destruct E as (ds & Ed & E). apply bind_Ret in E. destruct E as (ps & Ep & E).
  apply bind_Ret in E. destruct E as (lws & Ew & E). injection E as <-.
  assert (LM : zlen (concat (w_means w)) = zlen (w_means w) * zlen row).
  { destruct (Z.eqb_spec (zlen (w_means w) * zlen row) (zlen (concat (w_means w)))) as [Q|Q]; [now symmetry|discriminate EP]. }
  assert (SR : zlen row <= 2147483647).
  { destruct (w_means w) as [|r0 rs]; [discriminate ER|]. injection ER as <-. now apply Forall_inv in S2. }
  pose proof (wordy_app name (txt "_means") HN eq_refl) as H1. pose proof (wordy_app name (txt "_precisions") HN eq_refl) as H2.
  pose proof (wordy_app name (txt "_log_weights") HN eq_refl) as H3. pose proof (wordy_app name (txt "_log_dets") HN eq_refl) as H4.
  pose proof (wordy_app name (txt "_model") HN eq_refl) as H5.
  destruct (float_array_file _ (Some (zlen (w_means w) * zlen row)) (concat (w_means w)) H1 (or_intror (f_equal Some (eq_sym LM)))) as (t1 & E1 & D1).
  destruct (float_array_file _ None (concat (concat (w_precisions_col w))) H2 (or_introl eq_refl)) as (t2 & E2 & D2).
  destruct (float_array_file _ None (w_log_weights w) H3 (or_introl eq_refl)) as (t3 & E3 & D3).
  destruct (float_array_file _ None (w_log_det w) H4 (or_introl eq_refl)) as (t4 & E4 & D4).
  pose proof (gmm_struct_file _ (zlen (w_means w)) (zlen row) _ _ _ _ H5 H1 H2 H4 H3) as D5.
  pose proof (log_proba_file name HN) as D6. pose proof (score_file name HN) as D7. pose proof (proba_file name HN) as D8.
  eexists _, _, _, _, _, _. split.
  { unfold mixture_text. rewrite HA. cbn [bind]. rewrite ER. cbn [bind]. cbv zeta. rewrite E1. cbn [bind]. rewrite E4. cbn [bind]. rewrite E2. cbn [bind]. rewrite E3. cbn [bind]. reflexivity. }
  match goal with |- consists_of ?x _ /\ _ => set (t := x) end.
  match type of D1 with is_file _ [?d1] => match type of D2 with is_file _ [?d2] => match type of D3 with is_file _ [?d3] => match type of D4 with is_file _ [?d4] =>
  match type of D5 with is_file _ [?d5] => match type of D6 with is_file _ [?d6] => match type of D7 with is_file _ [?d7] => match type of D8 with is_file _ [?d8] =>
    assert (C : consists_of t [d1; d2; d3; d4; d5; d6; d7; d8]) end end end end end end end end.
  { apply file_consists. subst t. cbn [join_with].
    match goal with |- is_file _ [?d1; ?d2; ?d3; ?d4; ?d5; ?d6; ?d7; ?d8] =>
      change [d1; d2; d3; d4; d5; d6; d7; d8] with ([] ++ [] ++ [d1] ++ [] ++ [d2] ++ [] ++ [d3] ++ [] ++ [d4] ++ [] ++ [d5] ++ [] ++ [d6] ++ [d7] ++ [d8]) end.
    repeat first [apply file_app; [first [exact D1|exact D2|exact D3|exact D4|exact D5|exact D6|exact D7|apply file_clean; lc]|]|exact D8]. }
  assert (ND : NoDup (defined_names t)).
  { unfold defined_names. destruct C as [_ ->]. cbn [map fst].
    change (NoDup (map (fun s => name ++ s) [txt "_means"; txt "_precisions"; txt "_log_weights"; txt "_log_dets"; txt "_model"; txt "_predict_log_proba"; txt "_score"; txt "_predict_proba"])).
    apply suffixes_nodup. repeat constructor; cbn; intuition discriminate. }
  split; [exact C|]. split; [exact ND|].
  assert (L : lookup_def (name ++ txt "_model") (definitions t) = Some (struct_rest (gmm_toks (zlen (w_means w)) (zlen row) (name ++ txt "_means") (name ++ txt "_precisions") (name ++ txt "_log_dets") (name ++ txt "_log_weights")))).
  { apply lookup_In; [exact ND|]. rewrite (proj2 C). right. right. right. right. left. reflexivity. }
  unfold load_mixture. rewrite L, gmm_fields. rewrite !field_int_lit. cbv iota beta.
  change (field_name [W full_covariance]) with (Some full_covariance). cbv iota beta. change (covariance_named full_covariance) with (Some CovFull). cbv iota beta.
  rewrite (file_array t _ _ (name ++ txt "_means") (concat (w_means w)) ms C (or_introl eq_refl) ND eq_refl (gcc_consts _ _ Em)). cbv iota beta.
  rewrite (file_array t _ _ (name ++ txt "_precisions") (concat (concat (w_precisions_col w))) ps C (or_intror (or_introl eq_refl)) ND eq_refl (gcc_consts _ _ Ep)). cbv iota beta.
  rewrite (file_array t _ _ (name ++ txt "_log_dets") (w_log_det w) ds C (or_intror (or_intror (or_intror (or_introl eq_refl)))) ND eq_refl (gcc_consts _ _ Ed)). cbv iota beta.
  rewrite (file_array t _ _ (name ++ txt "_log_weights") (w_log_weights w) lws C (or_intror (or_intror (or_introl eq_refl))) ND eq_refl (gcc_consts _ _ Ew)). cbv iota beta.
  pose proof (zlen_nonneg (w_means w)). pose proof (zlen_nonneg row). rewrite !int32_of by lia. reflexivity.
Qed.

(** *** The naive Bayes model *)
Lemma fields_deep ts : forall d m cur r, bd ts d = Some m -> fields_of (ts ++ r) (S d) cur = fields_of r (S m) (cur ++ ts).
Proof.
  induction ts as [|x ts IH]; intros d m cur r H; [injection H as ->; rewrite app_nil_r; reflexivity|]. cbn [app].
  replace (cur ++ x :: ts) with ((cur ++ [x]) ++ ts) by (rewrite <- app_assoc; reflexivity).
  destruct x as [w|c]; cbn [bd] in H; cbn [fields_of].
  - apply IH, H.
  - destruct (opens c); [apply IH, H|]. destruct (closes c); [|apply IH, H]. destruct d; [discriminate|]. apply IH, H.
Qed.
(** a field in brackets *)
Definition group (o : Z) (body : list tok) (c : Z) : list tok := P o :: body ++ [P c].
Lemma fields_group o c body cur r : opens o = true -> o <> 44 -> o <> 125 -> closes c = true -> opens c = false -> balanced body ->
  fields_of (group o body c ++ r) 0 cur = fields_of r 0 (cur ++ group o body c).
Proof.
  intros O N1 N2 C C' B. unfold group. rewrite <- app_comm_cons, <- app_assoc. cbn [app fields_of].
  destruct (Z.eqb_spec o 44); [contradiction|]. destruct (Z.eqb_spec o 125); [contradiction|]. rewrite O.
  rewrite (fields_deep body 0 0 _ _ B). cbn [fields_of]. rewrite C, C'. rewrite <- !app_assoc. reflexivity.
Qed.
Definition q16 (ts : list tok) : list tok := W (txt "EML_Q16_FROMFLOAT") :: group 40 ts 41.
Definition row_toks3 (a b c : list tok) : list tok := q16 a ++ P 44 :: q16 b ++ P 44 :: q16 c.
Lemma num_balanced ts : Forall num_tok ts -> balanced ts.
Proof. intros N. unfold balanced. rewrite <- (app_nil_r ts), (bd_num ts 0 [] N). reflexivity. Qed.
Lemma fields_q16 ts cur r : Forall num_tok ts -> fields_of (q16 ts ++ r) 0 cur = fields_of r 0 (cur ++ q16 ts).
Proof.
  intros N. unfold q16. cbn [app fields_of]. rewrite fields_group; [rewrite <- app_assoc; reflexivity|reflexivity|discriminate|discriminate|reflexivity|reflexivity|now apply num_balanced].
Qed.
Lemma bd_q16 ts n r : Forall num_tok ts -> bd (q16 ts ++ r) n = bd r n.
Proof.
  intros N. unfold q16, group. cbn [app bd]. change (opens 40) with true. cbv iota. rewrite <- app_assoc, bd_num by exact N. reflexivity.
Qed.
Lemma row_balanced a b c : Forall num_tok a -> Forall num_tok b -> Forall num_tok c -> balanced (row_toks3 a b c).
Proof.
  intros A B C. unfold balanced, row_toks3. rewrite bd_q16 by exact A. cbn [bd]. change (opens 44) with false. change (closes 44) with false. cbv iota.
  rewrite bd_q16 by exact B. cbn [bd]. change (opens 44) with false. change (closes 44) with false. cbv iota.
  rewrite <- (app_nil_r (q16 c)), bd_q16 by exact C. reflexivity.
Qed.
Lemma fields_row a b c r : Forall num_tok a -> Forall num_tok b -> Forall num_tok c ->
  fields_of (row_toks3 a b c ++ P 125 :: r) 0 [] = Some ([q16 a; q16 b; q16 c], r).
Proof.
  intros A B C. unfold row_toks3. rewrite <- app_assoc, fields_q16 by exact A. cbn [app fields_of]. change (44 =? 44) with true. cbv iota.
  rewrite <- app_assoc, fields_q16 by exact B. cbn [app fields_of]. change (44 =? 44) with true. cbv iota.
  rewrite fields_q16 by exact C. reflexivity.
Qed.
(** rows of an initialiser *)
Fixpoint sep_toks (rows : list (list tok)) : list tok :=
  match rows with [] => [] | [x] => x | x :: rest => x ++ P 44 :: sep_toks rest end.
Definition is_row (x : list tok) : Prop := exists body, x = group 123 body 125 /\ balanced body.
Lemma fields_rows rows r : Forall is_row rows -> fields_of (sep_toks rows ++ P 125 :: r) 0 [] = Some (rows, r).
Proof.
  assert (G : forall x cur s, is_row x -> fields_of (x ++ s) 0 cur = fields_of s 0 (cur ++ x)).
  { intros x cur s (body & -> & B). apply fields_group; try reflexivity; try discriminate. exact B. }
  intros F. induction F as [|x rows Hx F IH]; [reflexivity|]. cbn [sep_toks]. destruct rows as [|y rows].
  - rewrite (G _ _ _ Hx). destruct Hx as (body & -> & B). reflexivity.
  - rewrite <- app_assoc, (G _ _ _ Hx), <- app_comm_cons. cbn [fields_of]. change (44 =? 44) with true. cbv iota.
    change ((fix f (rows : list (list tok)) := match rows with [] => [] | [x] => x | x :: (_ :: _) as rest => x ++ P 44 :: f rest end) (y :: rows)) with (sep_toks (y :: rows)) in *.
    rewrite IH. reflexivity.
Qed.
Lemma bd_rows rows : Forall is_row rows -> balanced (sep_toks rows).
Proof.
  intros F. induction F as [|x rows (body & -> & B) F IH]; [reflexivity|].
  assert (G : balanced (group 123 body 125)).
  { unfold balanced, group. cbn [bd]. change (opens 123) with true. cbv iota. rewrite bd_app. rewrite (balanced_at body 1 B). reflexivity. }
  cbn [sep_toks]. destruct rows as [|y rows]; [exact G|]. unfold balanced. rewrite bd_app, G. cbn [bd]. change (opens 44) with false. change (closes 44) with false. cbv iota. exact IH.
Qed.
Lemma rows_text_lex sep texts rows : lexw [] sep [P 44] [] -> Forall2 (fun t x => lexw [] t x []) texts rows -> lexw [] (join_with sep texts) (sep_toks rows) [].
Proof.
  intros L F. induction F as [|t x texts rows H F IH]; [apply lexw_nil|]. destruct F as [|t' x' texts rows H' F]; [exact H|].
  change (join_with sep (t :: t' :: texts)) with (t ++ sep ++ join_with sep (t' :: texts)). change (sep_toks (x :: x' :: rows)) with (x ++ [P 44] ++ sep_toks (x' :: rows)).
  eapply lexw_app; [exact H|]. eapply lexw_app; [exact L|exact IH].
Qed.

Section Bayes.
Context (float_str : f64 -> text) (SR : str_reads_back float_str).
Lemma tofixed_ok x z : is_finite x = true -> c_tofixed float_str x = Ret z ->
  exists ts, Forall num_tok ts /\ lexw [] (c_tofixed_text float_str x) (q16 ts) [] /\ q16_field (q16 ts) z.
Proof using SR.
  intros FX E. destruct (SR x FX) as (v & TV & _). unfold c_tofixed in E. apply bind_Ret in E. destruct E as (y & Ey & E).
  destruct (EML_Q16_FROMFLOAT y) as [z'|] eqn:Q; [injection E as ->|discriminate].
  destruct (num_lex (float_str x) [] (num_chars _ _ TV)) as (ts & w' & L & T & N). cbn [app] in T.
  exists (ts ++ endw w'). split; [exact N|]. split.
  - unfold c_tofixed_text. set (o := float_str x) in *. clearbody o. clear - L. eapply lexw_eq.
    + eapply lexw_app; [lcc|]. eapply lexw_app; [exact L|]. l0.
    + unfold q16, group. cbn [app rev]. rewrite <- !app_assoc. reflexivity.
    + reflexivity.
  - exists (ts ++ endw w'), v, y. split; [reflexivity|]. split; [exists (float_str x); split; [rewrite T; symmetry; apply app_nil_r|exact TV]|].
    split; [|exact Q]. eapply (constant_nearest (float_str x) v []); [exact TV|exact I|]. rewrite app_nil_r. exact Ey.
Qed.
Lemma summary_ok a b c s : is_finite a = true -> is_finite b = true -> is_finite c = true ->
  (let* m := c_tofixed float_str a in let* d := c_tofixed float_str b in let* l := c_tofixed float_str c in Ret (mk_summary m d l)) = Ret s ->
  exists x, is_row x /\ lexw [] (c_struct_init float_str [a; b; c]) x [] /\ summary_row x s.
Proof using SR.
  intros FA FB FC E. apply bind_Ret in E. destruct E as (m & Em & E). apply bind_Ret in E. destruct E as (d & Ed & E). apply bind_Ret in E. destruct E as (l & El & E). injection E as <-.
  destruct (tofixed_ok a m FA Em) as (ta & Na & La & Qa). destruct (tofixed_ok b d FB Ed) as (tb & Nb & Lb & Qb). destruct (tofixed_ok c l FC El) as (tc & Nc & Lc & Qc).
  exists (group 123 (row_toks3 ta tb tc) 125). split; [exists (row_toks3 ta tb tc); split; [reflexivity|now apply row_balanced]|]. split.
  - unfold c_struct_init. cbn [map join_with]. set (xa := c_tofixed_text float_str a) in *. set (xb := c_tofixed_text float_str b) in *. set (xc := c_tofixed_text float_str c) in *.
    clearbody xa xb xc. clear - La Lb Lc. rewrite <- !app_assoc. eapply lexw_eq.
    + eapply lexw_app; [lcc|]. eapply lexw_app; [exact La|]. eapply lexw_app; [lcc|]. eapply lexw_app; [exact Lb|]. eapply lexw_app; [lcc|]. eapply lexw_app; [exact Lc|]. lcc.
    + unfold group, row_toks3. cbn [app rev]. repeat (progress (cbn [app]) || rewrite <- app_assoc). reflexivity.
    + reflexivity.
  - exists (row_toks3 ta tb tc ++ [P 125]), (q16 ta), (q16 tb), (q16 tc). split; [reflexivity|]. split; [now apply fields_row|]. cbn [s_mean s_std s_stdlog2]. auto.
Qed.
Definition finite3 (p : f64 * f64 * f64) : Prop := let '(a, b, c) := p in is_finite a = true /\ is_finite b = true /\ is_finite c = true.
Lemma summaries_ok l : forall ss, Forall finite3 l ->
  mapM (fun '(mean, std, std_log2) => let* m := c_tofixed float_str mean in let* s := c_tofixed float_str std in let* g := c_tofixed float_str std_log2 in Ret (mk_summary m s g)) l = Ret ss ->
  exists rows, Forall is_row rows /\ Forall2 (fun t x => lexw [] t x []) (map (fun '(mean, std, std_log2) => c_struct_init float_str [mean; std; std_log2]) l) rows /\
    Forall2 summary_row rows ss.
Proof using SR.
  induction l as [|[[a b] c] l IH]; intros ss F E; [injection E as <-; exists []; repeat constructor|]. cbn [mapM] in E.
  apply bind_Ret in E. destruct E as (s & Es & E). apply bind_Ret in E. destruct E as (ss' & Er & E). injection E as <-.
  inversion F as [|? ? FH F']; subst. cbn [finite3] in FH. destruct FH as (FA & FB & FC). destruct (summary_ok a b c s FA FB FC Es) as (x & X1 & X2 & X3). destruct (IH ss' F' Er) as (rows & R1 & R2 & R3).
  exists (x :: rows). cbn [map]. auto.
Qed.
Lemma summaries_file sn n l rows : wordy sn -> 0 <= n -> Forall is_row rows ->
  Forall2 (fun t x => lexw [] t x []) (map (fun '(mean, std, std_log2) => c_struct_init float_str [mean; std; std_log2]) l) rows ->
  is_file (bayes_summaries float_str sn n l) [decl "EmlBayesSummary" sn (arr_rest (tok_lit (fmt_int n)) (sep_toks rows))].
Proof using.
  intros [S1 S2] Hn R1 R2. destruct (fmt_nat_wordy n Hn) as [C1 C2]. unfold bayes_summaries.
  set (texts := map _ l) in *. clearbody texts.
  apply file_one; [|apply (defines_arr [txt "EmlBayesSummary"]); [apply tok_lit_bd|now apply bd_rows]].
  eapply lexw_eq.
  - eapply lexw_app; [lcc|]. eapply lexw_app; [lw|]. eapply lexw_app; [l0|]. eapply lexw_app; [lw|]. eapply lexw_app; [l0|].
    eapply lexw_app; [apply rows_text_lex; [lc|exact R2]|]. lcc.
  - cbn [app]. rewrite (endw_ne sn S1), (endw_ne _ C1). cbn [app rev map]. destruct (fmt_int_lit n) as [A B]. unfold decl_toks, decl, arr_rest. rewrite A, tok_lit_lit by exact B.
    destruct (Z.ltb_spec n 0); [lia|]. change (tokens (txt "EmlBayesSummary")) with [W (txt "EmlBayesSummary")]. repeat (progress (cbn [app]) || rewrite <- app_assoc). reflexivity.
  - reflexivity.
Qed.
End Bayes.
Lemma bayes_struct_file mn sn a b : wordy mn -> wordy sn ->
  is_file (bayes_struct mn a b sn) [decl "EmlBayesModel" mn (struct_rest (tok_lit (fmt_int a) ++ P 44 :: tok_lit (fmt_int b) ++ P 44 :: W sn :: [P 44]))].
Proof.
  intros [M1 M2] [S1 S2]. apply file_one.
  - unfold bayes_struct. eapply lexw_eq.
    + eapply lexw_app; [lcc|]. eapply lexw_app; [lw|]. eapply lexw_app; [l0|]. ltn. ltn. eapply lexw_app; [lw|]. l0.
    + cbn [app]. rewrite (endw_ne mn M1), (endw_ne sn S1). cbn [endw app rev map]. unfold decl_toks, decl, struct_rest.
      change (tokens (txt "EmlBayesModel")) with [W (txt "EmlBayesModel")]. repeat (progress (cbn [app]) || rewrite <- app_assoc). reflexivity.
    + reflexivity.
  - apply (defines_struct [txt "EmlBayesModel"]). unfold balanced. rewrite !bd_lit. reflexivity.
Qed.
Lemma bayes_struct_fields sn a b :
  struct_def (struct_rest (tok_lit (fmt_int a) ++ P 44 :: tok_lit (fmt_int b) ++ P 44 :: W sn :: [P 44])) = Some [tok_lit (fmt_int a); tok_lit (fmt_int b); [W sn]].
Proof.
  unfold struct_def, struct_rest.
  match goal with |- context [expect [ch "="; ch "{"] (P 61 :: P 123 :: ?l)] => change (expect [ch "="; ch "{"] (P 61 :: P 123 :: l)) with (Some l) end. cbv iota beta.
  repeat rewrite <- app_assoc, <- app_comm_cons. rewrite !fields_lit by apply fmt_int_litt. reflexivity.
Qed.
Lemma bayes_function_file name : wordy name ->
  is_file (bayes_function (name ++ txt "_predict") (name ++ txt "_model")) [func "int32_t" (name ++ txt "_predict") (bayes_code name)].
Proof.
  intros HN. destruct (wordy_app name (txt "_predict") HN eq_refl) as [F1 F2]. destruct (wordy_app name (txt "_model") HN eq_refl) as [C1 C2].
  assert (TC : tokens (bayes_code name) = fun_rest [W (txt "const"); W (txt "float"); P 42; W (txt "features"); P 44; W (txt "int32_t"); W (txt "n_features")]
    [W (txt "return"); W (txt "eml_bayes_predict"); P 40; P 38; W (name ++ txt "_model"); P 44; W (txt "features"); P 44; W (txt "n_features"); P 41; P 59]).
  { unfold bayes_code.
    match goal with |- context [name ++ txt ?s] => let v := eval vm_compute in (skipn 6 (txt s)) in
      replace (name ++ txt s) with ((name ++ txt "_model") ++ v) by (rewrite <- app_assoc; reflexivity) end.
    match goal with |- tokens ?t = ?r => assert (L : lexw [] t r []); [|rewrite (tokens_lexw _ _ _ L), app_nil_r; reflexivity] end.
    eapply lexw_eq; [eapply lexw_app; [lcc|]; eapply lexw_app; [lw|]; l0| |reflexivity]. cbn [app]. rewrite (endw_ne _ C1). reflexivity. }
  apply file_one; unfold func, decl, decl_toks, decl_def; rewrite TC; change (tokens (txt "int32_t")) with [W (txt "int32_t")].
  - unfold bayes_function. eapply lexw_eq; [eapply lexw_app; [lcc|]; eapply lexw_app; [lw|]; eapply lexw_app; [l0|]; eapply lexw_app; [lw|]; l0| |reflexivity].
    cbn [app]. rewrite (endw_ne _ F1), (endw_ne _ C1). reflexivity.
  - apply (defines_fun [txt "int32_t"]); reflexivity.
Qed.
Lemma rows_def_rest n rows : Forall is_row rows -> n = zlen rows -> SaveModelsSpec.rows_def (arr_rest (tok_lit (fmt_int n)) (sep_toks rows)) = Some (n, rows).
Proof.
  intros F ->. unfold SaveModelsSpec.rows_def, arr_rest.
  match goal with |- context [expect [ch "["] (P 91 :: ?l)] => change (expect [ch "["] (P 91 :: l)) with (Some l) end. cbv iota beta.
  rewrite (literal_litt _ _ (fmt_int_litt (zlen rows))). rewrite int_lit_fmt.
  match goal with |- context [expect [ch "]"; ch "="; ch "{"] (P 93 :: P 61 :: P 123 :: ?l)] => change (expect [ch "]"; ch "="; ch "{"] (P 93 :: P 61 :: P 123 :: l)) with (Some l) end. cbv iota beta.
  change [P 125; P 59] with (P 125 :: [P 59]). rewrite (fields_rows rows [P 59] F). change (expect [ch ";"] [P 59]) with (Some (@nil tok)). cbv iota beta.
  change (Z.of_nat (length rows)) with (zlen rows). rewrite Z.eqb_refl. reflexivity.
Qed.
Lemma pairs_len {X Y} (Q : X -> Y -> Prop) l k : Forall2 Q l k -> zlen k = zlen l.
Proof. induction 1 as [|x y l k H F IH]; [reflexivity|]. rewrite !zlen_cons, IH. reflexivity. Qed.
Lemma concat_rows {X} (l : list (list X)) k : Forall (fun r => zlen r = k) l -> zlen (concat l) = zlen l * k.
Proof. induction 1 as [|r l H F IH]; [reflexivity|]. cbn [concat]. rewrite zlen_app, zlen_cons, H, IH. ring. Qed.
Lemma bayes_reads float_str table name m : identifier name -> assert_valid_identifier name = Ret tt -> str_reads_back float_str ->
  (forall row, pyget table 0 = Ret row -> Forall (fun r => zlen r = zlen row) table) -> Forall (Forall finite3) table ->
  save_nb float_str table = Ret m ->
  exists t a s, bayes_text float_str table name = Ret t /\
    consists_of t [decl "EmlBayesSummary" (name ++ txt "_summaries") a; decl "EmlBayesModel" (name ++ txt "_model") s; func "int32_t" (name ++ txt "_predict") (bayes_code name)] /\
    NoDup (defined_names t) /\ holds_bayes t (name ++ txt "_model") m.
Proof.
  intros ID HA SR RECT FIN E. pose proof (identifier_wordy name ID) as HN.
  unfold save_nb in E. cbv zeta in E. apply bind_Ret in E. destruct E as (row & ER & E). apply bind_Ret in E. destruct E as (ss & ES & E). injection E as <-.
  specialize (RECT row ER). pose proof (wordy_app name (txt "_summaries") HN eq_refl) as H1. pose proof (wordy_app name (txt "_model") HN eq_refl) as H2.
  assert (LC : zlen (concat table) = zlen table * zlen row) by (apply concat_rows; exact RECT).
  destruct (summaries_ok float_str SR (concat table) ss ltac:(now apply Forall_concat) ES) as (rows & R1 & R2 & R3).
  assert (LR : zlen rows = zlen (concat table)).
  { rewrite (pairs_len _ _ _ R2). unfold zlen. rewrite map_length. reflexivity. }
  pose proof (summaries_file float_str (name ++ txt "_summaries") (zlen table * zlen row) (concat table) rows H1 ltac:(pose proof (zlen_nonneg table); pose proof (zlen_nonneg row); nia) R1 R2) as D1.
  pose proof (bayes_struct_file (name ++ txt "_model") (name ++ txt "_summaries") (zlen table) (zlen row) H2 H1) as D2.
  pose proof (bayes_function_file name HN) as D3.
  eexists _, _, _. split; [unfold bayes_text; rewrite HA; cbn [bind]; rewrite ER; reflexivity|].
  match goal with |- consists_of ?x _ /\ _ => set (t := x) end.
  match type of D1 with is_file _ [?d1] => match type of D2 with is_file _ [?d2] => match type of D3 with is_file _ [?d3] =>
    assert (C : consists_of t [d1; d2; d3]) end end end.
  { apply file_consists. subst t. cbn [join_with].
    match goal with |- is_file _ [?d1; ?d2; ?d3] => change [d1; d2; d3] with ([] ++ [] ++ [d1] ++ [] ++ [d2] ++ [] ++ [d3]) end.
    repeat first [apply file_app; [first [exact D1|exact D2|apply file_clean; lc]|]|exact D3]. }
  assert (ND : NoDup (defined_names t)).
  { unfold defined_names. destruct C as [_ ->]. cbn [map fst]. change (NoDup (map (fun s => name ++ s) [txt "_summaries"; txt "_model"; txt "_predict"])).
    apply suffixes_nodup. repeat constructor; cbn; intuition discriminate. }
  split; [exact C|]. split; [exact ND|].
  eexists _, _, _, _, _, rows. split; [apply lookup_In; [exact ND|]; rewrite (proj2 C); right; left; reflexivity|].
  split; [apply bayes_struct_fields|]. split; [apply field_int_lit|]. split; [apply field_int_lit|].
  split; [|exact R3]. unfold pointed. change (field_name [W (name ++ txt "_summaries")]) with (Some (name ++ txt "_summaries")). cbv iota beta.
  rewrite (lookup_In (name ++ txt "_summaries") (arr_rest (tok_lit (fmt_int (zlen table * zlen row))) (sep_toks rows))); [|exact ND|rewrite (proj2 C); left; reflexivity].
  apply rows_def_rest; [exact R1|]. rewrite LR, LC. reflexivity.
Qed.
Lemma mapM_all {X Y} (g : X -> res Y) (Q : Y -> Prop) l : (forall x y, g x = Ret y -> Q y) -> forall ys, mapM g l = Ret ys -> Forall Q ys.
Proof.
  intros H. induction l as [|x l IH]; intros ys E; [injection E as <-; constructor|]. cbn [mapM] in E. apply bind_Ret in E. destruct E as (y & Ey & E).
  apply bind_Ret in E. destruct E as (ys' & Er & E). injection E as <-. constructor; [eapply H; exact Ey|auto].
Qed.
Lemma mapM_size {X Y} (g : X -> res Y) l : forall ys, mapM g l = Ret ys -> zlen ys = zlen l.
Proof.
  induction l as [|x l IH]; intros ys E; [injection E as <-; reflexivity|]. cbn [mapM] in E. apply bind_Ret in E. destruct E as (y & Ey & E).
  apply bind_Ret in E. destruct E as (ys' & Er & E). injection E as <-. rewrite !zlen_cons, (IH _ Er). reflexivity.
Qed.
Lemma table_rectangle log2_fn f table : nb_table log2_fn f = Ret table -> forall row, pyget table 0 = Ret row -> Forall (fun r => zlen r = zlen row) table.
Proof.
  unfold nb_table. intros E row HR. apply bind_Ret in E. destruct E as (r0 & E0 & E). cbv zeta in E.
  assert (F : Forall (fun r : list (f64 * f64 * f64) => zlen r = zlen (zrange (zlen r0))) table).
  { eapply mapM_all; [|exact E]. intros c r Hr. cbv beta in Hr. exact (mapM_size _ _ _ Hr). }
  assert (I : In row table) by (destruct table as [|x l]; [discriminate HR|injection HR as <-; now left]).
  pose proof (proj1 (Forall_forall _ _) F row I) as Q. rewrite Q. exact F.
Qed.
