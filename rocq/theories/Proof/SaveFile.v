(** The whole text of an inline tree model: its definitions, in order, and what they read back as. *)
From Coq Require Import String ZArith List Bool Lia.
From Flocq Require Import Core BinarySingleNaN.
From Verif.Base Require Import Res CInt ListX Loops Float.
From Verif.Model Require Import Common Text Cgen TreesConvert TreesC TreesInline TreesWrapper TreesRun SaveText.
From Verif.Spec Require Import CTextSpec CgenSpec CRunSpec.
From Verif.Proof Require Import Text Cgen CText CRun SaveInline.
Import ListNotations.
Open Scope Z_scope.
Open Scope list_scope.
Open Scope res_scope.

(** *** Lists of numbers *)
Fixpoint comma_toks (lits : list text) : list tok :=
  match lits with [] => [] | t :: r => match r with [] => tok_lit t | _ => tok_lit t ++ P 44 :: comma_toks r end end.
Lemma comma_bd lits n : bd (comma_toks lits) n = Some n.
Proof.
  induction lits as [|t [|u r] IH]; [reflexivity|apply tok_lit_bd|]. cbn [comma_toks] in *. rewrite bd_app, tok_lit_bd. exact IH.
Qed.
Lemma lexw_comma sep c0 v0 lits s c v ts w' : Forall litt lits ->
  sep = c0 :: v0 -> word_char c0 = false -> fold_left lex_step (c0 :: v0) (InCode, [], []) = (InCode, [], [P 44]) ->
  s = c :: v -> word_char c = false -> fold_left lex_step (c :: v) (InCode, [], []) = (InCode, w', ts) ->
  lexw [] (join_with sep lits ++ s) (comma_toks lits ++ rev ts) w'.
Proof.
  intros F S0 S1 S2 T0 T1 T2. induction F as [|t r Ht F IH].
  - cbn [join_with comma_toks app]. rewrite T0. apply lexw_const_clean. exact T2.
  - destruct r as [|u r].
    + cbn [join_with comma_toks]. eapply lexw_lit_then; eassumption.
    + change (comma_toks (t :: u :: r)) with (tok_lit t ++ P 44 :: comma_toks (u :: r)).
      change (join_with sep (t :: u :: r)) with (t ++ sep ++ join_with sep (u :: r)).
      replace ((t ++ sep ++ join_with sep (u :: r)) ++ s) with ((t ++ sep) ++ (join_with sep (u :: r) ++ s)) by (rewrite <- !app_assoc; reflexivity).
      replace ((tok_lit t ++ P 44 :: comma_toks (u :: r)) ++ rev ts) with ((tok_lit t ++ [P 44]) ++ (comma_toks (u :: r) ++ rev ts)) by (rewrite <- !app_assoc; reflexivity).
      eapply lexw_app; [|exact IH].
      eapply lexw_eq; [eapply lexw_lit_then; [exact Ht|exact S0|exact S1|exact S2]|reflexivity|reflexivity].
Qed.
Lemma expect_comma_lit t x : litt t -> expect [ch ","] (tok_lit t ++ x) = None.
Proof. intros (neg & v & -> & H). rewrite tok_lit_lit by exact H. destruct neg; reflexivity. Qed.
Lemma number_list_toks lits : forall fuel rest, Forall litt lits -> lits <> [] -> (length lits <= fuel)%nat -> expect [ch ","] rest = None ->
  number_list (comma_toks lits ++ rest) fuel = Some (lits, rest).
Proof.
  induction lits as [|t r IH]; intros fuel rest F N L E; [congruence|]. inversion F as [|? ? Ht F']; subst.
  destruct fuel as [|fuel]; [cbn in L; lia|]. destruct r as [|u r].
  - cbn [comma_toks number_list]. rewrite (literal_litt t _ Ht). rewrite E. reflexivity.
  - change (comma_toks (t :: u :: r)) with (tok_lit t ++ P 44 :: comma_toks (u :: r)). cbn [number_list].
    rewrite <- app_assoc, (literal_litt t _ Ht). cbn [app].
    match goal with |- context [expect [ch ","] (P 44 :: ?l)] => change (expect [ch ","] (P 44 :: l)) with (Some l) end. cbv iota beta.
    cbn [length] in L. rewrite (IH fuel rest F' ltac:(discriminate) ltac:(cbn [length]; lia) E). reflexivity.
Qed.
Lemma comma_toks_len lits : Forall litt lits -> (length lits <= length (comma_toks lits))%nat.
Proof.
  assert (G : forall t, litt t -> (1 <= length (tok_lit t))%nat).
  { intros t (neg & v & -> & H). rewrite tok_lit_lit by exact H. destruct neg; cbn; lia. }
  induction 1 as [|t [|u r] Ht F IH]; [cbn; lia|cbn [comma_toks length]; auto|]. cbn [comma_toks] in *. rewrite app_length. cbn [length] in *. specialize (G t Ht). lia.
Qed.
Lemma comma_no_close lits x : Forall litt lits -> lits <> [] -> expect [ch "}"] (comma_toks lits ++ x) = None.
Proof.
  intros F N. destruct F as [|t r (neg & v & -> & H) F]; [congruence|]. cbn [comma_toks]. rewrite tok_lit_lit by exact H.
  destruct r, neg; reflexivity.
Qed.
Lemma braced_toks lits rest : Forall litt lits -> braced (P 123 :: comma_toks lits ++ P 125 :: rest) = Some (lits, rest).
Proof.
  intros F. unfold braced.
  match goal with |- context [expect [ch "{"] (P 123 :: ?l)] => change (expect [ch "{"] (P 123 :: l)) with (Some l) end. cbv iota beta.
  destruct lits as [|t r].
  - reflexivity.
  - rewrite comma_no_close by (auto; discriminate).
    rewrite number_list_toks; [reflexivity|exact F|discriminate| |reflexivity].
    pose proof (comma_toks_len _ F). rewrite app_length. lia.
Qed.
Lemma array_def_rest n lits : litt n -> Forall litt lits -> array_def (arr_rest (tok_lit n) (comma_toks lits)) = Some (n, lits).
Proof.
  intros Hn F. unfold array_def, arr_rest.
  match goal with |- context [expect [ch "["] (P 91 :: ?l)] => change (expect [ch "["] (P 91 :: l)) with (Some l) end. cbv iota beta.
  rewrite (literal_litt n _ Hn).
  match goal with |- context [expect [ch "]"; ch "="] (P 93 :: P 61 :: ?l)] => change (expect [ch "]"; ch "="] (P 93 :: P 61 :: l)) with (Some l) end. cbv iota beta.
  rewrite braced_toks by exact F. reflexivity.
Qed.

(** *** Arrays *)
(** A text that makes the definitions [ds]. *)
Definition is_def (t : text) (ds : list (list Z * list tok)) : Prop := exists ts, lexw [] t ts [] /\ defines ts ds.
Lemma fun_def t ws name params body : balanced params -> balanced body -> is_fun t ws name params body -> is_def t [(name, fun_rest params body)].
Proof. intros A B H. eexists. split; [exact H|]. now apply defines_fun. Qed.
(** TYPE NAME[n] = { ... };  where the type is written as in [pre] *)
Lemma array_lex pre ws name n lits sep1 tail : wordy name -> 0 <= n -> Forall litt lits ->
  lexw [] pre (map W ws) [] -> sep1 = txt ", " -> tail = txt " };" \/ tail = txt " };" ++ [] ->
  is_def (pre ++ name ++ txt "[" ++ fmt_int n ++ txt "]" ++ txt " = { " ++ join_with sep1 lits ++ tail) [(name, arr_rest (tok_lit (fmt_int n)) (comma_toks lits))].
Proof.
  intros [N1 N2] Hn F Lp -> T. destruct (fmt_nat_wordy n Hn) as [C1 C2].
  exists (map W ws ++ W name :: arr_rest (tok_lit (fmt_int n)) (comma_toks lits)). split.
  - eapply lexw_eq.
    + eapply lexw_app; [exact Lp|]. eapply lexw_app; [lw|]. eapply lexw_app; [l0|]. eapply lexw_app; [lw|].
      eapply lexw_app; [l0|]. eapply lexw_app; [lcc|]. eapply lexw_comma; [exact F|reflexivity|reflexivity|vm_compute; reflexivity| | |].
      * instantiate (1 := ltac:(exact (tl (txt " };")))). instantiate (1 := ltac:(exact 32)). destruct T as [-> | ->]; reflexivity.
      * reflexivity.
      * vm_compute. reflexivity.
    + cbn [app]. rewrite (endw_ne name N1), (endw_ne _ C1). cbn [app rev map]. unfold arr_rest. f_equal. cbn [app].
      destruct (fmt_int_lit n) as [A B]. rewrite A, tok_lit_lit by exact B. destruct (Z.ltb_spec n 0); [lia|]. reflexivity.
    + reflexivity.
  - apply defines_arr; [apply tok_lit_bd|apply comma_bd].
Qed.

Lemma constant_int_text v z dtype : contains (txt "int") dtype = true -> py_int v = Ret z -> constant no_str v dtype = Ret (fmt_int z).
Proof. intros H E. unfold constant. rewrite (float_not_int _ H), H, E. reflexivity. Qed.
Lemma constants_int dtype zs : contains (txt "int") dtype = true -> mapM (fun v => constant no_str v dtype) (map PyInt zs) = Ret (map fmt_int zs).
Proof.
  intros H. induction zs as [|z zs IH]; [reflexivity|]. cbn [map mapM]. rewrite (constant_int_text (PyInt z) z dtype H eq_refl). cbn [bind]. rewrite IH. reflexivity.
Qed.
Lemma fmt_ints_litt zs : Forall litt (map fmt_int zs).
Proof. induction zs; constructor; [apply fmt_int_litt|assumption]. Qed.
Lemma int_lits zs : map int_lit (map fmt_int zs) = map Some zs.
Proof. induction zs as [|z zs IH]; [reflexivity|]. cbn [map]. rewrite int_lit_fmt, IH. reflexivity. Qed.
Lemma leaves_code_def name leaves leaf_bits lv : wordy name -> leaves_table leaves leaf_bits = Ret lv ->
  exists v t, leaves_values leaves leaf_bits = Ret (map PyInt v) /\ (leaf_bits <> 0 -> v = lv) /\ zlen v = zlen lv /\ map to_uint8 v = map to_uint8 lv /\
    leaves_code name leaves leaf_bits = Ret t /\
    is_def t [(name ++ txt "_leaves", arr_rest (tok_lit (fmt_int (zlen v))) (comma_toks (map fmt_int v)))].
Proof.
  intros HN E. assert (V : exists v, leaves_values leaves leaf_bits = Ret (map PyInt v) /\ (leaf_bits <> 0 -> v = lv) /\ zlen v = zlen lv /\ map to_uint8 v = map to_uint8 lv).
  { unfold leaves_values. destruct (Z.eqb_spec leaf_bits 0) as [Z0|Z0].
    - unfold leaves_table in E. rewrite Z0 in E. cbn [Z.eqb] in E. apply bind_Ret in E. destruct E as (zs & E1 & E2). injection E2 as <-.
      exists zs. rewrite E1. cbn [bind]. split; [reflexivity|]. split; [congruence|]. split; [rewrite zlen_map; reflexivity|].
      rewrite map_map. apply map_ext. intros a. unfold to_uint8, to_unsigned. rewrite Z.mod_mod by discriminate. reflexivity.
    - exists lv. rewrite E. cbn [bind]. auto. }
  destruct V as (v & V1 & V2 & V3 & V4). exists v. unfold leaves_code. rewrite V1. cbn [bind]. unfold array_declare.
  rewrite Z.eqb_refl. cbn [py_assert bind]. rewrite constants_int by reflexivity. cbn [bind].
  eexists. split; [reflexivity|]. split; [exact V2|]. split; [exact V3|]. split; [exact V4|]. split; [reflexivity|].
  cbn [app]. rewrite zlen_map. rewrite <- !app_assoc.
  rewrite (app_assoc (txt "static const")), (app_assoc (_ ++ txt " ")), (app_assoc (_ ++ txt "uint8_t")), (app_assoc name).
  eapply array_lex with (ws := [txt "static"; txt "const"; txt "uint8_t"]).
  - now apply wordy_app.
  - apply zlen_nonneg.
  - apply fmt_ints_litt.
  - lc.
  - reflexivity.
  - now right.
Qed.

(** *** The file *)
Lemma tree_name_ok name i : wordy name -> 0 <= i -> wordy (tree_name name i) /\ control (tree_name name i) = false.
Proof.
  intros HN Hi. destruct (fmt_nat_wordy i Hi) as [C1 C2]. split.
  - unfold tree_name. apply wordy_app; [exact HN|]. rewrite forallb_app, C2. reflexivity.
  - apply control_short. unfold tree_name. rewrite !app_length. destruct HN as [N1 _]. destruct name; [congruence|]. destruct (fmt_int i); [congruence|]. cbn [length]. change (length (txt "_tree_")) with 6%nat. lia.
Qed.
Lemma called_fun params body : called (P 40 :: params) = [] -> called (fun_rest params body) = called body.
Proof.
  intros H. unfold fun_rest. change (P 40 :: params ++ P 41 :: P 123 :: body ++ [P 125]) with ((P 40 :: params) ++ (P 41 :: P 123 :: body ++ [P 125])).
  rewrite called_app by (cbn; lia). rewrite H. cbn [app].
  change (called (P 41 :: P 123 :: body ++ [P 125])) with (called (body ++ [P 125])). rewrite called_app by (cbn; lia). apply app_nil_r.
Qed.
Lemma feature_params_ok dtype : balanced (feature_params dtype) /\ called (P 40 :: feature_params dtype) = [].
Proof. split; reflexivity. Qed.
Lemma proba_params_ok dtype : balanced (proba_params dtype) /\ called (P 40 :: proba_params dtype) = [].
Proof. split; reflexivity. Qed.
Lemma tree_function_rest dtype c : good c -> tree_function dtype (fun_rest (feature_params dtype) (code_toks c)) = Some c.
Proof.
  intros G. unfold tree_function, fun_rest, feature_params. cbn [app].
  match goal with |- context [expect ?p ?l] => assert (E : expect p l = Some (code_toks c ++ [P 125])) end.
  { assert (IW : is_word dtype (W dtype) = true) by (cbn; destruct (list_eq_dec Z.eq_dec dtype dtype); congruence).
    unfold expect. rewrite IW. reflexivity. }
  rewrite E. rewrite read_code_toks; [reflexivity|exact G|]. pose proof (cdepth_toks c). rewrite app_length. lia.
Qed.

(** texts joined: definitions in order *)
Lemma join_defs sep parts dss : lexw [] sep [] [] -> Forall2 is_def parts dss -> is_def (join_with sep parts) (concat dss).
Proof.
  intros S F. assert (G : exists tss, Forall2 (fun p ts => lexw [] p ts []) parts tss /\ defines (concat tss) (concat dss)).
  { induction F as [|p ds ps dss (ts & L & D) F (tss & L' & D')]; [exists []; split; [constructor|apply defines_nil]|].
    exists (ts :: tss). split; [constructor; assumption|]. cbn [concat]. now apply defines_app. }
  destruct G as (tss & L & D). exists (concat tss). split; [now apply lexw_join|exact D].
Qed.
Lemma is_def_definitions t ds : is_def t ds -> definitions t = ds.
Proof. intros (ts & L & D). eapply definitions_of; eauto. Qed.
Lemma is_def_nil_app a t ds : lexw [] a [] [] -> is_def t ds -> is_def (a ++ t) ds.
Proof. intros A (ts & L & D). exists ts. split; [change ts with ([] ++ ts); eapply lexw_app; eauto|exact D]. Qed.
Lemma is_def_only t : lexw [] t [] [] -> is_def t [].
Proof. intros H. exists []. split; [exact H|apply defines_nil]. Qed.

Definition tree_names (name : text) (n : Z) : list text := map (tree_name name) (zrange n).
Lemma names_enumerate {X} name (l : list X) : map (fun '(i, _) => tree_name name i) (enumerate l) = tree_names name (zlen l).
Proof.
  unfold enumerate, tree_names. assert (L : length (zrange (zlen l)) = length l) by (rewrite zrange_length; unfold zlen; lia).
  revert L. generalize (zrange (zlen l)). induction l as [|x l IH]; intros [|i is] L; try discriminate; [reflexivity|].
  cbn [combine map]. f_equal. apply IH. cbn in L. lia.
Qed.
Lemma tree_names_ok name n : wordy name -> Forall (fun x => wordy x /\ control x = false) (tree_names name n).
Proof.
  intros HN. apply Forall_forall. intros x Hx. apply in_map_iff in Hx. destruct Hx as (i & <- & Hi). apply zrange_In in Hi. apply tree_name_ok; [exact HN|lia].
Qed.

Lemma identifier_is_name name s : identifier name -> is_name (name ++ s).
Proof. intros (c & t & -> & H & _). exact H. Qed.
Lemma tree_names_named name n : identifier name -> Forall (fun x => (wordy x /\ is_name x) /\ control x = false) (tree_names name n).
Proof.
  intros HI. pose proof (tree_names_ok name n (identifier_wordy _ HI)) as F. unfold tree_names in *. apply Forall_map. apply Forall_map in F.
  eapply Forall_impl; [|exact F]. cbn beta. intros i [A B]. split; [split; [exact A|]|exact B]. unfold tree_name. now apply identifier_is_name.
Qed.
(** the parameters and the statements of the functions a user calls *)
Definition forest_asts (name dtype : text) (n_classes leaf_bits nt : Z) (classifier include_proba : bool) : list (list tok * stmt) :=
  let ns := tree_names name nt in
  let soft := seq_all (map (soft_vote_ast (name ++ txt "_leaves") n_classes) ns) in
  if classifier then
    [(feature_params dtype, if leaf_bits =? 0 then majority_ast n_classes (seq_all (map vote_ast ns)) else proportions_ast n_classes soft)] ++
    (if include_proba then
       [(proba_params dtype, if leaf_bits =? 0 then proba_ast nt (SInt (txt "_class") (EVal (VI (-1)))) (seq_all (map proba_vote_ast ns))
                             else proba_ast nt (SInt (txt "offset") (EVal (VI 0))) soft)] else [])
  else [(feature_params dtype, regress_ast nt (seq_all (map regress_vote_ast ns)))].
Definition fun_is (d : list Z * list tok) (ps : list tok * stmt) : Prop := exists body, snd d = fun_rest (fst ps) body /\ code body (snd ps).

Section Inline.
Context {K X V : Type}.
Variable const : pynum -> res K.
Variable leaf_const : Z -> res V.
Variable lt : X -> K -> bool.
Variable cst : list Z -> option K.
Variable ret : list Z -> option V.
Variable dtype : text.
Hypothesis Hd : wordy dtype.
Hypothesis Hconst : forall v k, const v = Ret k -> exists t, constant no_str v dtype = Ret t /\ litt t /\ cst t = Some k.
Variables (nodes : list (dnode pynum)) (roots : list Z) (leaves : list pyleaf) (name : text) (n_classes leaf_bits : Z) (classifier include_proba : bool).
Hypothesis Hleaf : forall i r, leaf_const i = Ret r -> exists t, leaf_text classifier leaves leaf_bits i = Ret t /\ litt t /\ ret t = Some r.
Hypothesis HA : assert_valid_identifier name = Ret tt.
Hypothesis HI : identifier name.
Hypothesis HC : 0 <= n_classes.
Variables (lv : list Z) (Ts : list (itree K V)).
Hypothesis HL : leaves_table leaves leaf_bits = Ret lv.
Hypothesis HT : mapM (c_node const leaf_const (S (length nodes)) nodes) roots = Ret Ts.

(** The definition of tree function [T]: its code does what [T] does. *)
Definition tree_def (n : text) (T : itree K V) (d : list Z * list tok) : Prop :=
  fst d = n /\ exists c, tree_function dtype (snd d) = Some c /\ forall features, exec int_lit cst ret lt features c = ok_of (run_tree lt features T).
Definition forest_names : list text :=
  if classifier then [name ++ txt "_predict"] ++ (if include_proba then [name ++ txt "_predict_proba"] else []) else [name ++ txt "_predict"].

Lemma trees_defs rt : wordy rt -> forall names rs ts, Forall wordy names ->
  Forall2 (fun r T => c_node const leaf_const (S (length nodes)) nodes r = Ret T) rs ts -> length names = length rs ->
  exists fs ds, mapM (fun '(n, r) =>
      let* code := c_node_text (leaf_text classifier leaves leaf_bits) dtype (S (length nodes)) nodes r 0 in
      Ret (tree_func dtype rt n code)) (combine names rs) = Ret fs /\ Forall2 is_def fs (map (fun d => [d]) ds) /\
    Forall2 (fun '(n, T) d => tree_def n T d) (combine names ts) ds.
Proof using Hd Hconst Hleaf.
  intros Hrt names rs ts FN F. revert names FN. induction F as [|r T rs ts E F IH]; intros [|n ns] FN L; try discriminate.
  - exists [], []. repeat split; constructor.
  - inversion FN as [|? ? Hn FN']; subst. destruct (IH ns FN' ltac:(cbn in L; lia)) as (fs & ds & Ef & Fd & Ft).
    destruct (c_node_code const leaf_const lt cst ret dtype _ Hconst Hleaf _ _ _ 0 _ E) as (t & c & Et & G & Lx & Ex).
    exists (tree_func dtype rt n t :: fs), ((n, fun_rest (feature_params dtype) (code_toks c)) :: ds).
    cbn [combine mapM map]. rewrite Et. cbn [bind]. rewrite Ef. split; [reflexivity|]. split.
    + constructor; [|exact Fd]. eapply fun_def; [apply feature_params_ok|apply code_bd|]. now apply tree_func_lex.
    + constructor; [|exact Ft]. split; [reflexivity|]. exists c. split; [now apply tree_function_rest|exact Ex].
Qed.

Lemma forest_defs (P1 : (fun n => 0 <= n) (zlen roots)) : exists fs ds,
  (if classifier then
     [if leaf_bits =? 0 then forest_predict_majority_func name dtype n_classes (votes tree_vote_classifier (tree_names name (zlen roots)))
      else forest_predict_proportions_func name dtype n_classes (votes (tree_vote_leaf_proportion (name ++ txt "_leaves") n_classes) (tree_names name (zlen roots)))] ++
     (if include_proba then
        [if leaf_bits =? 0 then forest_proba_majority_func name dtype (zlen roots) (votes tree_vote_proba (tree_names name (zlen roots)))
         else forest_proba_proportions_func name dtype (zlen roots) (votes (tree_vote_leaf_proportion (name ++ txt "_leaves") n_classes) (tree_names name (zlen roots)))] else [])
   else [forest_regressor_func name dtype (zlen roots) (votes tree_vote_regressor (tree_names name (zlen roots)))]) = fs /\
  Forall2 is_def fs (map (fun d => [d]) ds) /\ map fst ds = forest_names /\ Forall (fun d => called (snd d) = tree_names name (zlen roots)) ds /\
  Forall2 fun_is ds (forest_asts name dtype n_classes leaf_bits (zlen roots) classifier include_proba).
Proof using Hd HI HC.
  clear Hleaf. pose proof (identifier_wordy _ HI) as HN. pose proof (tree_names_named name (zlen roots) HI) as TN. unfold forest_asts. cbv zeta. set (NS := tree_names name (zlen roots)) in *.
  assert (LN : wordy (name ++ txt "_leaves") /\ is_name (name ++ txt "_leaves")) by (split; [now apply wordy_app|now apply identifier_is_name]).
  destruct (votes_lex _ _ NS TN vote_classifier_lex) as (t1 & V1 & B1 & N1 & C1 & Q1).
  destruct (votes_lex _ _ NS TN vote_proba_lex) as (t2 & V2 & B2 & N2 & C2 & Q2).
  destruct (votes_lex _ _ NS TN vote_regressor_lex) as (t3 & V3 & B3 & N3 & C3 & Q3).
  destruct (votes_lex _ _ NS TN (fun n => vote_proportion_lex (name ++ txt "_leaves") n_classes n LN HC)) as (t4 & V4 & B4 & N4 & C4 & Q4).
  pose proof (feature_params_ok dtype) as [FB FC]. pose proof (proba_params_ok dtype) as [PB PC].
  unfold forest_names. destruct classifier.
  - assert (D1 : exists f1 d1, (if leaf_bits =? 0 then forest_predict_majority_func name dtype n_classes (votes tree_vote_classifier NS)
      else forest_predict_proportions_func name dtype n_classes (votes (tree_vote_leaf_proportion (name ++ txt "_leaves") n_classes) NS)) = f1 /\ is_def f1 [d1] /\ fst d1 = name ++ txt "_predict" /\ called (snd d1) = NS /\ fun_is d1 (feature_params dtype, (if leaf_bits =? 0 then majority_ast n_classes (seq_all (map vote_ast NS)) else proportions_ast n_classes (seq_all (map (soft_vote_ast (name ++ txt "_leaves") n_classes) NS))))).
    { destruct (leaf_bits =? 0).
      - destruct (majority_lex name dtype _ t1 HN Hd V1 B1 N1 _ Q1 n_classes HC) as (b & L & B & C & Q). eexists. exists (name ++ txt "_predict", fun_rest (feature_params dtype) b).
        split; [reflexivity|]. split; [eapply fun_def; eauto|]. split; [reflexivity|]. split; [cbn [snd]; rewrite called_fun, C, C1 by exact FC; reflexivity|]. exists b. split; [reflexivity|exact Q].
      - destruct (proportions_lex name dtype _ t4 HN Hd V4 B4 N4 _ Q4 n_classes HC) as (b & L & B & C & Q). eexists. exists (name ++ txt "_predict", fun_rest (feature_params dtype) b).
        split; [reflexivity|]. split; [eapply fun_def; eauto|]. split; [reflexivity|]. split; [cbn [snd]; rewrite called_fun, C, C4 by exact FC; reflexivity|]. exists b. split; [reflexivity|exact Q]. }
    assert (D2 : exists f1 d1, (if leaf_bits =? 0 then forest_proba_majority_func name dtype (zlen roots) (votes tree_vote_proba NS)
      else forest_proba_proportions_func name dtype (zlen roots) (votes (tree_vote_leaf_proportion (name ++ txt "_leaves") n_classes) NS)) = f1 /\ is_def f1 [d1] /\ fst d1 = name ++ txt "_predict_proba" /\ called (snd d1) = NS /\ fun_is d1 (proba_params dtype, (if leaf_bits =? 0 then proba_ast (zlen roots) (SInt (txt "_class") (EVal (VI (-1)))) (seq_all (map proba_vote_ast NS)) else proba_ast (zlen roots) (SInt (txt "offset") (EVal (VI 0))) (seq_all (map (soft_vote_ast (name ++ txt "_leaves") n_classes) NS))))).
    { destruct (leaf_bits =? 0).
      - destruct (proba_majority_lex name dtype _ t2 HN Hd V2 B2 N2 _ Q2 (zlen roots) P1) as (b & L & B & C & Q). eexists. exists (name ++ txt "_predict_proba", fun_rest (proba_params dtype) b).
        split; [reflexivity|]. split; [eapply fun_def; eauto|]. split; [reflexivity|]. split; [cbn [snd]; rewrite called_fun, C, C2 by exact PC; reflexivity|]. exists b. split; [reflexivity|exact Q].
      - destruct (proba_proportions_lex name dtype _ t4 HN Hd V4 B4 N4 _ Q4 (zlen roots) P1) as (b & L & B & C & Q). eexists. exists (name ++ txt "_predict_proba", fun_rest (proba_params dtype) b).
        split; [reflexivity|]. split; [eapply fun_def; eauto|]. split; [reflexivity|]. split; [cbn [snd]; rewrite called_fun, C, C4 by exact PC; reflexivity|]. exists b. split; [reflexivity|exact Q]. }
    destruct D1 as (f1 & d1 & -> & I1 & M1 & K1 & A1). destruct D2 as (f2 & d2 & -> & I2 & M2 & K2 & A2).
    destruct include_proba.
    + eexists. exists [d1; d2]. split; [reflexivity|]. split; [repeat constructor; assumption|]. split; [cbn [map app]; rewrite M1, M2; reflexivity|]. split; [repeat constructor; assumption|]. constructor; [exact A1|]. constructor; [exact A2|constructor].
    + eexists. exists [d1]. split; [reflexivity|]. split; [repeat constructor; assumption|]. split; [cbn [map app]; rewrite M1; reflexivity|]. split; [repeat constructor; assumption|]. constructor; [exact A1|constructor].
  - destruct (regressor_lex name dtype _ t3 HN Hd V3 B3 N3 _ Q3 (zlen roots) P1) as (b & L & B & C & Q). eexists. exists [(name ++ txt "_predict", fun_rest (feature_params dtype) b)].
    split; [reflexivity|]. split; [constructor; [eapply fun_def; eauto|constructor]|]. split; [reflexivity|]. split; [constructor; [|constructor]; cbn [snd]; rewrite called_fun, C, C3 by exact FC; reflexivity|]. constructor; [|constructor]. exists b. split; [reflexivity|exact Q].
Qed.

Lemma inline_file : exists t trees lvs funcs,
  inline_text (nodes, roots, leaves) name n_classes leaf_bits dtype classifier include_proba = Ret t /\
  is_def t (trees ++ lvs ++ funcs) /\
  Forall2 (fun '(n, T) d => tree_def n T d) (combine (tree_names name (zlen roots)) Ts) trees /\
  (if leaf_bits =? 0 then lvs = [] else
     exists rest, lvs = [(name ++ txt "_leaves", rest)] /\ exists n lits, array_def rest = Some (n, lits) /\ int_lit n = Some (zlen lv) /\ map int_lit lits = map Some lv) /\
  map fst funcs = forest_names /\ Forall (fun d => called (snd d) = tree_names name (zlen roots)) funcs /\
  Forall2 fun_is funcs (forest_asts name dtype n_classes leaf_bits (zlen roots) classifier include_proba).
Proof using All.
  pose proof (identifier_wordy _ HI) as HN. destruct (leaves_code_def name leaves leaf_bits lv HN HL) as (v & lt' & V1 & V2 & V3 & V4 & LC & LD).
  pose proof (tree_names_ok name (zlen roots) HN) as TN.
  assert (TW : Forall wordy (tree_names name (zlen roots))) by (eapply Forall_impl; [|exact TN]; intros ? []; assumption).
  assert (LEN : length (tree_names name (zlen roots)) = length roots) by (unfold tree_names; rewrite map_length, zrange_length; unfold zlen; lia).
  assert (RW : wordy (if classifier then txt "int32_t" else txt "float")) by (destruct classifier; (split; [discriminate|reflexivity])).
  apply mapM_Ret in HT. destruct (trees_defs _ RW (tree_names name (zlen roots)) roots Ts TW HT LEN) as (fs & ds & Ef & Fd & Ft).
  destruct (forest_defs (zlen_nonneg _)) as (ff & fd & Eff & Ffd & Mfd & Cfd).
  unfold inline_text. rewrite HA. cbn [bind]. cbv zeta. rewrite LC. cbn [bind]. rewrite names_enumerate.
  match goal with |- context [mapM ?f ?l] => replace (mapM f l) with (Ret fs) by (symmetry; exact Ef) end. cbn [bind].
  match goal with |- context [(if classifier then ?a else ?b)] => lazymatch type of a with list text => replace (if classifier then a else b) with ff end end.
  set (lvd := if leaf_bits =? 0 then [] else [(name ++ txt "_leaves", arr_rest (tok_lit (fmt_int (zlen v))) (comma_toks (map fmt_int v)))]).
  eexists. exists ds, lvd, fd. split; [reflexivity|]. split.
  - replace (ds ++ lvd ++ fd) with (concat ([[]] ++ map (fun d => [d]) ds ++ (if leaf_bits =? 0 then [] else [lvd]) ++ map (fun d => [d]) fd)).
    + apply join_defs; [lc|]. apply Forall2_app; [constructor; [apply is_def_only; lc|constructor]|].
      apply Forall2_app; [exact Fd|]. apply Forall2_app; [|exact Ffd]. unfold lvd. destruct (leaf_bits =? 0); [constructor|constructor; [exact LD|constructor]].
    + cbn [app concat]. rewrite !concat_app. assert (CS : forall l : list (list Z * list tok), concat (map (fun d => [d]) l) = l) by (induction l; cbn [map concat app]; congruence).
      rewrite !CS. unfold lvd. destruct (leaf_bits =? 0); reflexivity.
  - split; [exact Ft|]. split; [|split; [assumption|exact Cfd]]. unfold lvd. destruct (Z.eqb_spec leaf_bits 0) as [|NZ]; [reflexivity|].
    eexists. split; [reflexivity|]. exists (fmt_int (zlen v)), (map fmt_int v). split; [apply array_def_rest; [apply fmt_int_litt|apply fmt_ints_litt]|].
    rewrite int_lit_fmt, int_lits, (V2 NZ). auto.
Qed.
End Inline.
