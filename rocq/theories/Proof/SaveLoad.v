(** The text of loadable tree models: the struct it initialises is the model. *)
From Coq Require Import String ZArith List Bool Lia.
From Flocq Require Import Core BinarySingleNaN.
From Verif.Base Require Import Res CInt ListX Loops Float.
From Verif.Model Require Import Common Text Cgen TreesConvert TreesC TreesInline TreesWrapper TreesRun SaveText.
From Verif.Spec Require Import CTextSpec CgenSpec SaveSpec.
From Verif.Proof Require Import Text Cgen CText SaveInline SaveFile.
Import ListNotations.
Open Scope Z_scope.
Open Scope list_scope.
Open Scope res_scope.

(** *** Rows *)
Definition row_toks (lits : list text) : list tok := P 123 :: comma_toks lits ++ [P 125].
Fixpoint rows_toks (rows : list (list text)) : list tok :=
  match rows with [] => [] | r :: rs => match rs with [] => row_toks r | _ => row_toks r ++ P 44 :: rows_toks rs end end.
Lemma row_bd lits n : bd (row_toks lits) n = Some n.
Proof. unfold row_toks. cbn [bd]. change (opens 123) with true. cbv iota. rewrite bd_app, comma_bd. reflexivity. Qed.
Lemma rows_bd rows n : bd (rows_toks rows) n = Some n.
Proof.
  induction rows as [|t [|u r] IH]; [reflexivity|apply row_bd|]. cbn [rows_toks] in *. rewrite bd_app, row_bd. exact IH.
Qed.
Lemma row_lex lits : Forall litt lits -> lexw [] (txt "{ " ++ join_with (txt ", ") lits ++ txt " }") (row_toks lits) [].
Proof.
  intros F. unfold row_toks. change (P 123 :: comma_toks lits ++ [P 125]) with ([P 123] ++ comma_toks lits ++ [P 125]).
  eapply lexw_app; [lc|].
  eapply lexw_eq; [eapply lexw_comma; [exact F|reflexivity|reflexivity|vm_compute; reflexivity|reflexivity|reflexivity|vm_compute; reflexivity]|reflexivity|reflexivity].
Qed.
Lemma rows_lex sep parts rows : lexw [] sep [P 44] [] -> Forall2 (fun p r => lexw [] p (row_toks r) []) parts rows ->
  lexw [] (join_with sep parts) (rows_toks rows) [].
Proof.
  intros HS. induction 1 as [|p r ps rs H F IH]; [apply lexw_nil|]. cbn [join_with rows_toks]. destruct F as [|q rq ps rs Hq F]; [exact H|].
  eapply lexw_app; [exact H|]. change (P 44 :: rows_toks (rq :: rs)) with ([P 44] ++ rows_toks (rq :: rs)).
  eapply lexw_app; [exact HS|exact IH].
Qed.
Lemma row_braced lits rest : Forall litt lits -> braced (row_toks lits ++ rest) = Some (lits, rest).
Proof. intros F. unfold row_toks. cbn [app]. rewrite <- app_assoc. apply braced_toks. exact F. Qed.
Lemma row_list_toks rows : forall fuel rest, Forall (Forall litt) rows -> rows <> [] -> (length rows <= fuel)%nat -> expect [ch ","] rest = None ->
  row_list (rows_toks rows ++ rest) fuel = Some (rows, rest).
Proof.
  induction rows as [|t r IH]; intros fuel rest F N L E; [congruence|]. inversion F as [|? ? Ht F']; subst.
  destruct fuel as [|fuel]; [cbn in L; lia|]. destruct r as [|u r].
  - cbn [rows_toks row_list]. rewrite (row_braced t _ Ht). rewrite E. reflexivity.
  - change (rows_toks (t :: u :: r)) with (row_toks t ++ P 44 :: rows_toks (u :: r)). cbn [row_list].
    rewrite <- app_assoc, (row_braced t _ Ht). cbn [app].
    match goal with |- context [expect [ch ","] (P 44 :: ?l)] => change (expect [ch ","] (P 44 :: l)) with (Some l) end. cbv iota beta.
    cbn [length] in L. rewrite (IH fuel rest F' ltac:(discriminate) ltac:(cbn [length]; lia) E). reflexivity.
Qed.
Lemma rows_toks_len rows : (length rows <= length (rows_toks rows))%nat.
Proof.
  induction rows as [|t r IH]; [cbn; lia|]. destruct r as [|u r]; [unfold rows_toks, row_toks; rewrite ?app_length; cbn [length]; lia|].
  change (rows_toks (t :: u :: r)) with (row_toks t ++ P 44 :: rows_toks (u :: r)). rewrite app_length. cbn [length] in *. lia.
Qed.
Lemma table_def_rest n rows : litt n -> Forall (Forall litt) rows -> table_def (arr_rest (tok_lit n) (rows_toks rows)) = Some (n, rows).
Proof.
  intros Hn F. unfold table_def, arr_rest.
  match goal with |- context [expect [ch "["] (P 91 :: ?l)] => change (expect [ch "["] (P 91 :: l)) with (Some l) end. cbv iota beta.
  rewrite (literal_litt n _ Hn).
  match goal with |- context [expect [ch "]"; ch "="; ch "{"] (P 93 :: P 61 :: P 123 :: ?l)] => change (expect [ch "]"; ch "="; ch "{"] (P 93 :: P 61 :: P 123 :: l)) with (Some l) end. cbv iota beta.
  destruct rows as [|r rs]; [reflexivity|].
  assert (E : expect [ch "}"; ch ";"] (rows_toks (r :: rs) ++ [P 125; P 59]) = None) by (destruct rs; reflexivity).
  rewrite E. rewrite row_list_toks; [reflexivity|exact F|discriminate| |reflexivity].
  rewrite app_length. eapply Nat.le_trans; [exact (rows_toks_len (r :: rs))|apply Nat.le_add_r].
Qed.
Lemma opt_all_map {A B C} (f : B -> option C) (g : A -> B) (h : A -> C) l : (forall a, f (g a) = Some (h a)) -> opt_all f (map g l) = Some (map h l).
Proof. intros H. induction l as [|a l IH]; [reflexivity|]. cbn [map opt_all]. rewrite H, IH. reflexivity. Qed.
Lemma int_array_rest zs : int_array (arr_rest (tok_lit (fmt_int (zlen zs))) (comma_toks (map fmt_int zs))) = Some zs.
Proof.
  unfold int_array. rewrite array_def_rest by (apply fmt_int_litt || apply fmt_ints_litt). rewrite int_lit_fmt, map_length.
  change (Z.of_nat (length zs)) with (zlen zs). rewrite Z.eqb_refl. rewrite (opt_all_map _ _ id) by (intros; apply int_lit_fmt). rewrite map_id. reflexivity.
Qed.
Lemma int_table_rest n rows : n = zlen rows -> int_table (arr_rest (tok_lit (fmt_int n)) (rows_toks (map (map fmt_int) rows))) = Some rows.
Proof.
  intros ->. unfold int_table. rewrite table_def_rest; [|apply fmt_int_litt|].
  - rewrite int_lit_fmt, map_length. change (Z.of_nat (length rows)) with (zlen rows). rewrite Z.eqb_refl.
    rewrite (opt_all_map _ _ id); [rewrite map_id; reflexivity|]. intros r. rewrite (opt_all_map _ _ id) by (intros; apply int_lit_fmt). rewrite map_id. reflexivity.
  - apply Forall_forall. intros r Hr. apply in_map_iff in Hr. destruct Hr as (x & <- & _). apply fmt_ints_litt.
Qed.

(** *** Nodes *)
Lemma nodes_def nodes name cn : wordy name -> generate_c_nodes nodes = Ret cn ->
  exists t rows, nodes_text nodes name (txt "int16_t") = Ret t /\ zlen rows = zlen nodes /\ opt_all node_of rows = Some cn /\
    is_def t [(name, arr_rest (tok_lit (fmt_int (zlen nodes))) (rows_toks (map (map fmt_int) rows)))].
Proof.
  intros [N1 N2] E. unfold generate_c_nodes in E.
  assert (G : forall l cs, mapM (fun '(i, n) => make_node i n) l = Ret cs -> exists parts rows,
    mapM (fun '(i, n) => make_node_text (txt "int16_t") i n) l = Ret parts /\ length rows = length l /\ opt_all node_of rows = Some cs /\
    Forall2 (fun p r => lexw [] p (row_toks (map fmt_int r)) []) parts rows).
  { induction l as [|[i n] l IH]; intros cs H; cbn [mapM] in H.
    - injection H as <-. exists [], []. repeat split; constructor.
    - apply bind_Ret in H. destruct H as (c & Hc & H). apply bind_Ret in H. destruct H as (cs' & Hcs & H). injection H as <-.
      destruct (IH _ Hcs) as (parts & rows & P1 & P2 & P3 & P4). unfold make_node in Hc.
      apply bind_Ret in Hc. destruct Hc as (lc & El & Hc). apply bind_Ret in Hc. destruct Hc as (rc & Er & Hc). apply bind_Ret in Hc. destruct Hc as (v & Ev & Hc). injection Hc as <-.
      cbn [mapM]. unfold make_node_text at 1. rewrite El, Er. cbn [bind]. rewrite (constant_int_text _ v (txt "int16_t") eq_refl Ev). cbn [bind]. rewrite P1. cbn [bind].
      eexists. exists ([d_feature n; v; lc; rc] :: rows). split; [reflexivity|]. split; [cbn [length]; lia|]. split; [cbn [opt_all node_of]; rewrite P3; reflexivity|].
      constructor; [|exact P4].
      pose proof (row_lex (map fmt_int [d_feature n; v; lc; rc]) (fmt_ints_litt _)) as L. cbn [map join_with] in L. rewrite <- !app_assoc in L. exact L. }
  destruct (G _ _ E) as (parts & rows & P1 & P2 & P3 & P4). unfold nodes_text. rewrite P1. cbn [bind].
  eexists. exists rows. split; [reflexivity|].
  assert (LR : zlen rows = zlen nodes).
  { unfold zlen. rewrite P2. unfold enumerate. rewrite combine_length, zrange_length. unfold zlen. lia. }
  split; [exact LR|]. split; [exact P3|].
  destruct (fmt_nat_wordy (zlen nodes) (zlen_nonneg _)) as [C1 C2].
  exists (map W [txt "static"; txt "const"; txt "EmlTreesNode"] ++ W name :: arr_rest (tok_lit (fmt_int (zlen nodes))) (rows_toks (map (map fmt_int) rows))). split.
  - rewrite (app_assoc (txt "static const")). eapply lexw_eq.
    + eapply lexw_app; [lcc|]. eapply lexw_app; [lw|]. eapply lexw_app; [l0|]. eapply lexw_app; [lw|]. eapply lexw_app; [l0|].
      eapply lexw_app; [|lcc]. apply rows_lex; [lc|].
      instantiate (1 := map (map fmt_int) rows). clear - P4. induction P4; constructor; assumption.
    + cbn [app]. rewrite (endw_ne name N1), (endw_ne _ C1). cbn [app rev map]. unfold arr_rest. f_equal. cbn [app].
      destruct (fmt_int_lit (zlen nodes)) as [A B]. rewrite A, tok_lit_lit by exact B. pose proof (zlen_nonneg nodes). destruct (Z.ltb_spec (zlen nodes) 0); [lia|]. reflexivity.
    + reflexivity.
  - apply defines_arr; [apply tok_lit_bd|apply rows_bd].
Qed.
Lemma roots_def roots name : wordy name ->
  is_def (roots_text roots name) [(name, arr_rest (tok_lit (fmt_int (zlen roots))) (comma_toks (map fmt_int roots)))].
Proof.
  intros HN. unfold roots_text.
  replace (txt "static const" ++ txt " int32_t " ++ name ++ txt "[" ++ fmt_int (zlen roots) ++ txt "] = { " ++ join_with (txt ", ") (map fmt_int roots) ++ txt " };")
    with (txt "static const int32_t " ++ name ++ txt "[" ++ fmt_int (zlen roots) ++ txt "]" ++ txt " = { " ++ join_with (txt ", ") (map fmt_int roots) ++ txt " };")
    by reflexivity.
  eapply array_lex with (ws := [txt "static"; txt "const"; txt "int32_t"]); [exact HN|apply zlen_nonneg|apply fmt_ints_litt|lc|reflexivity|now left].
Qed.

(** *** The struct *)
Definition ptr_field (ty n : text) : list tok := [P 40; W ty; P 42; P 41; P 40; W n; P 41].
Lemma fields_lit t r : litt t -> fields_of (tok_lit t ++ P 44 :: r) 0 [] = let? (fs, rest) := fields_of r 0 [] in Some (tok_lit t :: fs, rest).
Proof. intros (neg & v & -> & H). rewrite tok_lit_lit by exact H. destruct neg; reflexivity. Qed.
Lemma fields_ptr ty n r : fields_of (ptr_field ty n ++ P 44 :: r) 0 [] = let? (fs, rest) := fields_of r 0 [] in Some (ptr_field ty n :: fs, rest).
Proof. reflexivity. Qed.
Lemma field_int_lit z : field_int (tok_lit (fmt_int z)) = Some z.
Proof.
  unfold field_int. pose proof (literal_litt (fmt_int z) [] (fmt_int_litt z)) as L. rewrite app_nil_r in L. rewrite L. apply int_lit_fmt.
Qed.
Lemma field_name_ptr ty n : field_name (ptr_field ty n) = Some n.
Proof. reflexivity. Qed.
Lemma bd_lit t r n : bd (tok_lit t ++ P 44 :: r) n = bd r n.
Proof. rewrite bd_app, tok_lit_bd. reflexivity. Qed.
Lemma bd_ptr ty m r n : bd (ptr_field ty m ++ P 44 :: r) n = bd r n.
Proof. reflexivity. Qed.
Definition struct_toks (a b c d e g : Z) (nn rn ln : text) : list tok :=
  tok_lit (fmt_int a) ++ P 44 :: ptr_field (txt "EmlTreesNode") nn ++ P 44 :: tok_lit (fmt_int b) ++ P 44 :: ptr_field (txt "int32_t") rn ++ P 44 ::
  tok_lit (fmt_int c) ++ P 44 :: ptr_field (txt "uint8_t") ln ++ P 44 :: tok_lit (fmt_int d) ++ P 44 :: tok_lit (fmt_int e) ++ P 44 :: tok_lit (fmt_int g) ++ [P 44].
Ltac ltn := match goal with |- lexw _ (fmt_int ?a ++ txt ?s ++ ?r) _ _ => rewrite (app_assoc (fmt_int a) (txt s) r) end;
  eapply lexw_app; [eapply lexw_lit_then; [apply fmt_int_litt|reflexivity|reflexivity|vm_compute; reflexivity]|].
Lemma struct_lex name nn rn ln a b c d e g : wordy name -> wordy nn -> wordy rn -> wordy ln ->
  is_def (forest_struct name nn rn ln (txt "uint8_t") a b c d e g) [(name, struct_rest (struct_toks a b c d e g nn rn ln))].
Proof.
  intros [N1 N2] [A1 A2] [B1 B2] [C1 C2]. exists (map W [txt "EmlTrees"] ++ W name :: struct_rest (struct_toks a b c d e g nn rn ln)). split.
  - unfold forest_struct. eapply lexw_eq.
    + eapply lexw_app; [lcc|]. eapply lexw_app; [lw|]. eapply lexw_app; [l0|].
      ltn. eapply lexw_app; [lw|]. eapply lexw_app; [l0|].
      ltn. eapply lexw_app; [lw|]. eapply lexw_app; [l0|].
      ltn. eapply lexw_app; [lw|]. eapply lexw_app; [l0|]. eapply lexw_app; [lw|]. eapply lexw_app; [l0|].
      ltn. ltn.
      eapply lexw_lit_then; [apply fmt_int_litt|reflexivity|reflexivity|vm_compute; reflexivity].
    + cbn [app]. rewrite (endw_ne name N1), (endw_ne nn A1), (endw_ne rn B1), (endw_ne ln C1). cbn [endw app rev map]. unfold struct_rest, struct_toks, ptr_field.
      repeat (progress (cbn [app]) || rewrite <- app_assoc). reflexivity.
    + reflexivity.
  - apply defines_struct. unfold balanced, struct_toks. rewrite !bd_lit, !bd_ptr, !bd_lit, !bd_ptr, !bd_lit, !bd_ptr, !bd_lit. reflexivity.
Qed.
Lemma struct_def_toks a b c d e g nn rn ln : struct_def (struct_rest (struct_toks a b c d e g nn rn ln)) =
  Some [tok_lit (fmt_int a); ptr_field (txt "EmlTreesNode") nn; tok_lit (fmt_int b); ptr_field (txt "int32_t") rn; tok_lit (fmt_int c); ptr_field (txt "uint8_t") ln;
        tok_lit (fmt_int d); tok_lit (fmt_int e); tok_lit (fmt_int g)].
Proof.
  unfold struct_def, struct_rest.
  match goal with |- context [expect [ch "="; ch "{"] (P 61 :: P 123 :: ?l)] => change (expect [ch "="; ch "{"] (P 61 :: P 123 :: l)) with (Some l) end. cbv iota beta.
  unfold struct_toks. repeat rewrite <- app_assoc, <- app_comm_cons.
  rewrite fields_lit by apply fmt_int_litt. rewrite fields_ptr. rewrite fields_lit by apply fmt_int_litt. rewrite fields_ptr.
  rewrite fields_lit by apply fmt_int_litt. rewrite fields_ptr. rewrite fields_lit by apply fmt_int_litt. rewrite fields_lit by apply fmt_int_litt.
  cbn [app]. rewrite fields_lit by apply fmt_int_litt. reflexivity.
Qed.

(** *** The functions *)
Ltac fun_lex :=
  eapply lexw_eq; [
    eapply lexw_app; [lcc|]; eapply lexw_app; [lw|]; eapply lexw_app; [l0|]; eapply lexw_app; [lw|]; eapply lexw_app; [l0|]; eapply lexw_app; [lw|]; l0 | |reflexivity].
Section Funcs.
Variables (name dtype : text).
Hypothesis HN : wordy name.
Hypothesis HD : wordy dtype.
Lemma load_classifier_def : exists rest, is_def (loadable_forest_classifier_func name dtype) [(name ++ txt "_predict", rest)] /\
  forwards rest = Some (txt "eml_trees_predict", [[P 38; W name]; [W (txt "features")]; [W (txt "features_length")]]).
Proof using HN HD.
  destruct (wordy_app name (txt "_predict") HN eq_refl) as [F1 F2]. destruct HD as [D1 D2]. destruct HN as [N1 N2].
  eexists (fun_rest (feature_params dtype) _). split.
  - eapply fun_def with (ws := [txt "int32_t"]); [reflexivity| |unfold is_fun, loadable_forest_classifier_func; cbv zeta; fun_lex;
      cbn [app]; rewrite (endw_ne _ F1), (endw_ne _ D1), (endw_ne _ N1); cbn [app rev map]; unfold fun_rest, feature_params; cbn [app]; strip; last_one].
    reflexivity.
  - reflexivity.
Qed.
Lemma load_regressor_def : exists rest, is_def (loadable_forest_regressor_func name dtype) [(name ++ txt "_predict", rest)] /\
  forwards rest = Some (txt "eml_trees_regress1", [[P 38; W name]; [W (txt "features")]; [W (txt "features_length")]]).
Proof using HN HD.
  destruct (wordy_app name (txt "_predict") HN eq_refl) as [F1 F2]. destruct HD as [D1 D2]. destruct HN as [N1 N2].
  eexists (fun_rest (feature_params dtype) _). split.
  - eapply fun_def with (ws := [txt "float"]); [reflexivity| |unfold is_fun, loadable_forest_regressor_func; cbv zeta; fun_lex;
      cbn [app]; rewrite (endw_ne _ F1), (endw_ne _ D1), (endw_ne _ N1); cbn [app rev map]; unfold fun_rest, feature_params; cbn [app]; strip; last_one].
    reflexivity.
  - reflexivity.
Qed.
Lemma load_proba_def : exists rest, is_def (loadable_forest_proba_func name dtype) [(name ++ txt "_predict_proba", rest)] /\
  forwards rest = Some (txt "eml_trees_predict_proba", [[P 38; W name]; [W (txt "features")]; [W (txt "features_length")]; [W (txt "out")]; [W (txt "out_length")]]).
Proof using HN HD.
  destruct (wordy_app name (txt "_predict_proba") HN eq_refl) as [F1 F2]. destruct HD as [D1 D2]. destruct HN as [N1 N2].
  eexists (fun_rest (proba_params dtype) _). split.
  - eapply fun_def with (ws := [txt "int"]); [reflexivity| |unfold is_fun, loadable_forest_proba_func; cbv zeta; fun_lex;
      cbn [app]; rewrite (endw_ne _ F1), (endw_ne _ D1), (endw_ne _ N1); cbn [app rev map]; unfold fun_rest, proba_params, feature_params; cbn [app]; strip; last_one].
    reflexivity.
  - reflexivity.
Qed.
End Funcs.

(** *** The file *)
Lemma uint8_idem x : to_uint8 (to_uint8 x) = to_uint8 x.
Proof. unfold to_uint8, to_unsigned. rewrite Z.mod_mod by discriminate. reflexivity. Qed.
Lemma uint8_mod x : to_uint8 (x mod 256) = x mod 256.
Proof. unfold to_uint8, to_unsigned. change (2 ^ 8) with 256. rewrite Z.mod_mod by discriminate. reflexivity. Qed.
Lemma map_flat {A} (f : Z -> Z) (g : A -> list Z) l : (forall a, map f (g a) = g a) -> map f (flat_map g l) = flat_map g l.
Proof. intros H. induction l as [|a l IH]; [reflexivity|]. cbn [flat_map]. rewrite map_app, H, IH. reflexivity. Qed.
Lemma bits_uint8 b : map to_uint8 (bytes_of_bits b) = bytes_of_bits b.
Proof. unfold bytes_of_bits. cbn [map]. rewrite !uint8_mod. reflexivity. Qed.
Lemma leaves_table_uint8 leaves leaf_bits lv : leaves_table leaves leaf_bits = Ret lv -> map to_uint8 lv = lv.
Proof.
  unfold leaves_table. intros E. destruct (leaf_bits =? 0).
  - apply bind_Ret in E. destruct E as (zs & _ & E). injection E as <-. rewrite map_map. apply map_ext. apply uint8_idem.
  - destruct (leaf_bits =? 32).
    + apply bind_Ret in E. destruct E as ([] & _ & E). injection E as <-. apply map_flat. intros [c|bs|x]; cbn [leaf_f32_bytes]; try apply bits_uint8.
      apply map_flat. intros b. apply bits_uint8.
    + destruct (leaf_bits <=? 8); [|discriminate]. injection E as <-. apply map_flat. intros [c|bs|x]; cbn [leaf_u8_bytes map].
      * rewrite uint8_idem. reflexivity.
      * rewrite map_map. apply map_ext. apply uint8_idem.
      * rewrite uint8_idem. reflexivity.
Qed.
Lemma lookup_here n r ds : lookup_def n ((n, r) :: ds) = Some r.
Proof. cbn [lookup_def]. destruct (list_eq_dec Z.eq_dec n n); [reflexivity|congruence]. Qed.
Lemma lookup_skip n m r ds : n <> m -> lookup_def n ((m, r) :: ds) = lookup_def n ds.
Proof. intros H. cbn [lookup_def]. destruct (list_eq_dec Z.eq_dec n m); [contradiction|reflexivity]. Qed.
Lemma tail_ne (name x y : list Z) : x <> y -> name ++ x <> name ++ y.
Proof. intros H E. apply app_inv_head in E. auto. Qed.
Lemma self_ne (name x : list Z) : x <> [] -> name <> name ++ x.
Proof. intros H E. apply (f_equal (@length Z)) in E. rewrite app_length in E. destruct x; [congruence|]. cbn in E. lia. Qed.

Lemma loadable_reads w name pr m : w_method w = MLoadable -> w_dtype w = DInt16 -> assert_valid_identifier name = Ret tt -> identifier name ->
  save_loadable w = Ret m ->
  exists t data funcs, trees_text w name pr = Ret t /\ definitions t = data ++ funcs /\
    map fst data = [name ++ txt "_nodes"; name ++ txt "_tree_roots"; name ++ txt "_leaves"; name] /\
    map fst funcs = entry_points name (w_classifier w) pr /\ NoDup (defined_names t) /\
    map (fun d => forwards (snd d)) funcs = map Some (calls_library name (w_classifier w) pr) /\
    load_trees t name = Some m.
Proof.
  intros HM HD HA HI E. unfold save_loadable, generate_c_loadable in E. destruct (w_forest w) as [[nodes roots] leaves] eqn:HF.
  apply bind_Ret in E. destruct E as (cn & Ec & E). apply bind_Ret in E. destruct E as (lv & El & E). injection E as <-.
  pose proof (identifier_wordy name HI) as HW. assert (W16 : wordy (txt "int16_t")) by (split; [discriminate|reflexivity]).
  destruct (nodes_def nodes (name ++ txt "_nodes") cn (wordy_app _ (txt "_nodes") HW eq_refl) Ec) as (tn & rows & En & Lr & Or & Dn).
  pose proof (roots_def roots (name ++ txt "_tree_roots") (wordy_app _ (txt "_tree_roots") HW eq_refl)) as Dr.
  destruct (leaves_code_def name leaves (w_leaf_bits w) lv HW El) as (v & tl & Ev & _ & Lv & Mv & Etl & Dl).
  set (tb := if (w_leaf_bits w =? 0) || (w_leaf_bits w =? 32) then w_leaf_bits w else 8).
  pose proof (struct_lex name (name ++ txt "_nodes") (name ++ txt "_tree_roots") (name ++ txt "_leaves") (zlen nodes) (zlen roots) (zlen (map PyInt v)) tb (w_n_features w) (w_n_classes w)
    HW (wordy_app _ (txt "_nodes") HW eq_refl) (wordy_app _ (txt "_tree_roots") HW eq_refl) (wordy_app _ (txt "_leaves") HW eq_refl)) as Ds.
  destruct (load_classifier_def name (txt "int16_t") HW W16) as (rc & Dc & Fc). destruct (load_regressor_def name (txt "int16_t") HW W16) as (rr & Drr & Fr).
  destruct (load_proba_def name (txt "int16_t") HW W16) as (rp & Dp & Fp).
  assert (FS : exists fts funcs, (if w_classifier w then [loadable_forest_classifier_func name (txt "int16_t")] ++ (if pr then [loadable_forest_proba_func name (txt "int16_t")] else [])
      else [loadable_forest_regressor_func name (txt "int16_t")]) = fts /\ Forall2 is_def fts (map (fun d => [d]) funcs) /\ map fst funcs = entry_points name (w_classifier w) pr /\
      map (fun d => forwards (snd d)) funcs = map Some (calls_library name (w_classifier w) pr)).
  { unfold entry_points, calls_library. destruct (w_classifier w); [destruct pr|].
    - exists [loadable_forest_classifier_func name (txt "int16_t"); loadable_forest_proba_func name (txt "int16_t")], [(name ++ txt "_predict", rc); (name ++ txt "_predict_proba", rp)].
      split; [reflexivity|]. split; [repeat constructor; assumption|]. split; [reflexivity|]. cbn [map snd]. rewrite Fc, Fp. reflexivity.
    - exists [loadable_forest_classifier_func name (txt "int16_t")], [(name ++ txt "_predict", rc)].
      split; [reflexivity|]. split; [repeat constructor; assumption|]. split; [reflexivity|]. cbn [map snd]. rewrite Fc. reflexivity.
    - exists [loadable_forest_regressor_func name (txt "int16_t")], [(name ++ txt "_predict", rr)].
      split; [reflexivity|]. split; [repeat constructor; assumption|]. split; [reflexivity|]. cbn [map snd]. rewrite Fr. reflexivity. }
  destruct FS as (fts & funcs & Ef & Df & Mf & Cf).
  assert (HEAD : is_def loadable_head []) by (apply is_def_only; lc).
  set (data := [(name ++ txt "_nodes", arr_rest (tok_lit (fmt_int (zlen nodes))) (rows_toks (map (map fmt_int) rows)));
    (name ++ txt "_tree_roots", arr_rest (tok_lit (fmt_int (zlen roots))) (comma_toks (map fmt_int roots)));
    (name ++ txt "_leaves", arr_rest (tok_lit (fmt_int (zlen v))) (comma_toks (map fmt_int v)));
    (name, struct_rest (struct_toks (zlen nodes) (zlen roots) (zlen (map PyInt v)) tb (w_n_features w) (w_n_classes w) (name ++ txt "_nodes") (name ++ txt "_tree_roots") (name ++ txt "_leaves")))]).
  assert (EX : exists t, trees_text w name pr = Ret t /\ definitions t = data ++ funcs).
  { eexists. split.
    - unfold trees_text. rewrite HD. cbn [dtype_text bind]. rewrite HM, HF. unfold loadable_text. rewrite HA. cbn [bind]. rewrite En. cbn [bind]. rewrite Ev. cbn [bind]. rewrite Etl. cbn [bind]. reflexivity.
    - apply is_def_definitions, is_def_nil_app; [lc|]. rewrite Ef.
      replace (data ++ funcs) with (concat ([[]; [nth 0 data ([], [])]; [nth 1 data ([], [])]; [nth 2 data ([], [])]; [nth 3 data ([], [])]] ++ map (fun d => [d]) funcs)).
      2:{ rewrite concat_app. cbn [concat app]. unfold data. cbn [nth app]. do 4 f_equal. clear. induction funcs as [|d l IH]; [reflexivity|]. cbn [map concat app]. rewrite IH. reflexivity. }
      apply join_defs; [lc|]. apply Forall2_app; [|exact Df]. unfold data. cbn [nth]. fold tb. repeat constructor; assumption. }
  destruct EX as (t & Et & Dt). exists t, data, funcs. split; [exact Et|]. split; [exact Dt|]. split; [reflexivity|]. split; [exact Mf|].
  split.
  { unfold defined_names. rewrite Dt, map_app, Mf. unfold data. cbn [map fst app].
    assert (SN : forall x, x <> [] -> name ++ x <> name) by (intros x Hx Q; symmetry in Q; revert Q; now apply self_ne).
    unfold entry_points; destruct (w_classifier w && pr); repeat constructor; cbn [In]; intros Q;
      repeat match type of Q with _ \/ _ => destruct Q as [Q|Q] end; try contradiction;
      first [symmetry in Q; revert Q; apply tail_ne; discriminate | revert Q; apply tail_ne; discriminate
            | symmetry in Q; revert Q; apply SN; discriminate | revert Q; apply SN; discriminate | idtac]. }
  split; [exact Cf|].
  unfold load_trees, pointed. rewrite Dt. unfold data.
  assert (SN : forall x, x <> [] -> name <> name ++ x) by (intros x Hx; now apply self_ne).
  cbn [app]. rewrite !(lookup_skip name) by (apply SN; discriminate). rewrite lookup_here.
  rewrite struct_def_toks. cbv iota beta. rewrite !field_int_lit. cbv iota beta.
  rewrite !field_name_ptr. cbv iota beta. rewrite lookup_here. rewrite int_table_rest by (symmetry; exact Lr). cbv iota beta. rewrite Or. cbv iota beta.
  rewrite (lookup_skip (name ++ txt "_tree_roots")) by (apply tail_ne; discriminate). rewrite lookup_here, int_array_rest. cbv iota beta.
  rewrite !(lookup_skip (name ++ txt "_leaves")) by (apply tail_ne; discriminate). rewrite lookup_here, int_array_rest. cbv iota beta.
  rewrite Mv, (leaves_table_uint8 _ _ _ El), zlen_map, Lv. reflexivity.
Qed.
