(** The text of inline tree models: what it defines, and what its tree functions return. *)
From Coq Require Import String ZArith List Bool Lia.
From Flocq Require Import Core BinarySingleNaN.
From Verif.Base Require Import Res CInt ListX Float.
From Verif.Model Require Import Common Text Cgen TreesConvert TreesC TreesInline TreesWrapper TreesRun SaveText.
From Verif.Spec Require Import CTextSpec CgenSpec CRunSpec.
From Verif.Proof Require Import Text Cgen CText CRun CRunRead.
Import ListNotations.
Open Scope Z_scope.
Open Scope list_scope.
Open Scope res_scope.

Lemma lexw_const0 w s c v ts w' : s = c :: v -> word_char c = false ->
  fold_left lex_step (c :: v) (InCode, [], []) = (InCode, w', ts) -> lexw w s (endw w ++ rev ts) w'.
Proof.
  intros -> Hc R. pose proof (lexw_const w (c :: v) [] (c :: v) ts w') as L. cbn [split_word] in L. rewrite Hc, app_nil_r in L. apply L; auto.
Qed.
Lemma lexw_slash w ds : wordy ds -> lexw w (47 :: ds) (endw w ++ [P 47]) ds.
Proof.
  intros [NE H] out. destruct ds as [|c ds]; [congruence|]. cbn [forallb] in H. apply andb_prop in H. destruct H as [Hc Hd].
  assert (E : c =? 47 = false) by (destruct (Z.eqb_spec c 47); [subst; discriminate|reflexivity]).
  cbn [fold_left]. assert (S1 : lex_step (InCode, w, out) 47 = (AfterSlash, [], end_word w out)) by reflexivity. rewrite S1.
  assert (S2 : forall o, lex_step (AfterSlash, [], o) c = (InCode, [c], P 47 :: o)).
  { intros o. cbn [lex_step]. rewrite E. unfold lex_code. rewrite Hc. reflexivity. }
  rewrite S2, (lexw_word [c] ds Hd). rewrite end_word_endw, rev_app_distr. cbn [rev app]. f_equal. f_equal. destruct w; reflexivity.
Qed.
Lemma lexw_eq w a ts w' ts' w'' : lexw w a ts w' -> ts = ts' -> w' = w'' -> lexw w a ts' w''.
Proof. intros H -> ->. exact H. Qed.
Lemma lexw_join sep parts tss : lexw [] sep [] [] -> Forall2 (fun p ts => lexw [] p ts []) parts tss -> lexw [] (join_with sep parts) (concat tss) [].
Proof.
  intros S. induction 1 as [|p ts ps tss H F IH]; [apply lexw_nil|]. cbn [join_with concat]. destruct F as [|q tq ps tss Hq F].
  - cbn [concat]. rewrite app_nil_r. exact H.
  - eapply lexw_app; [exact H|]. change (concat (tq :: tss)) with ([] ++ concat (tq :: tss)). eapply lexw_app; [exact S|exact IH].
Qed.

Ltac lc := eapply lexw_eq; [eapply lexw_const_clean; vm_compute; reflexivity|reflexivity|reflexivity].

(** *** Words and numbers of the text *)
Lemma identifier_wordy s : identifier s -> wordy s.
Proof.
  intros (c & t & -> & Hc & Ht). split; [discriminate|].
  assert (G : forall d, letter d \/ digit d -> word_char d = true).
  { intros d H. unfold word_char. unfold letter, digit in H.
    destruct (Z.eqb_spec d 95); [reflexivity|]. destruct (Z.eqb_spec d 46); [reflexivity|].
    destruct (Z.leb_spec 48 d), (Z.leb_spec d 57), (Z.leb_spec 65 d), (Z.leb_spec d 90), (Z.leb_spec 97 d), (Z.leb_spec d 122); cbn; try reflexivity; lia. }
  cbn [forallb]. rewrite (G c) by auto. cbn [andb]. rewrite forallb_forall. rewrite Forall_forall in Ht. auto.
Qed.
Lemma digits_wordy ds : digits ds -> ds <> [] -> wordy ds.
Proof.
  intros D N. split; [exact N|]. apply digits_word. rewrite forallb_forall. unfold digits in D. rewrite Forall_forall in D. intros c Hc. specialize (D c Hc). cbv beta in D.
  apply andb_true_intro. rewrite !Z.leb_le. lia.
Qed.
Lemma digits_all ds : digits ds -> ds <> [] -> all_digits ds = true.
Proof.
  intros D N. unfold all_digits. apply andb_true_intro. split; [|destruct ds; [congruence|reflexivity]]. rewrite forallb_forall. unfold digits in D. rewrite Forall_forall in D. intros c Hc. specialize (D c Hc). cbv beta in D.
  apply andb_true_intro. rewrite !Z.leb_le. lia.
Qed.
Definition litt (t : list Z) : Prop := exists neg v, t = lit neg v /\ wordy v.
Lemma fmt_int_lit z : fmt_int z = lit (z <? 0) (dec_digits (Z.abs z)) /\ wordy (dec_digits (Z.abs z)).
Proof.
  split.
  - unfold fmt_int, lit. destruct (Z.ltb_spec z 0); [rewrite Z.abs_neq by lia|rewrite Z.abs_eq by lia]; reflexivity.
  - destruct (dec_digits_ok (Z.abs z) ltac:(lia)) as (_ & B & C). apply digits_wordy; assumption.
Qed.
Lemma fmt_int_litt z : litt (fmt_int z).
Proof. destruct (fmt_int_lit z) as [A B]. exists (z <? 0), (dec_digits (Z.abs z)). auto. Qed.
Lemma fmt_nat_wordy z : 0 <= z -> wordy (fmt_int z).
Proof. intros H. destruct (fmt_int_lit z) as [A B]. rewrite A. destruct (Z.ltb_spec z 0); [lia|]. exact B. Qed.
Lemma wordy_head v : wordy v -> match v with c :: _ => c <> 45 | [] => False end.
Proof. intros [N H]. destruct v as [|c v]; [congruence|]. cbn in H. intros ->. discriminate. Qed.
Lemma int_lit_fmt z : int_lit (fmt_int z) = Some z.
Proof.
  destruct (dec_digits_ok (Z.abs z) ltac:(lia)) as (A & B & C). destruct (fmt_int_lit z) as [E Wd]. rewrite E. unfold lit.
  assert (V : value_of (dec_digits (Z.abs z)) = Z.abs z) by exact A.
  destruct (Z.ltb_spec z 0); cbn [int_lit].
  - change (45 =? 45) with true. cbv iota. rewrite (digits_all _ B C), V. f_equal. lia.
  - pose proof (wordy_head _ Wd) as Hh. set (ds := dec_digits (Z.abs z)) in *. destruct ds as [|c ds]; [contradiction|]. cbn [int_lit].
    destruct (Z.eqb_spec c 45); [contradiction|]. rewrite (digits_all _ B C), V. f_equal. lia.
Qed.
Lemma until_point_ok ds fs : digits ds -> until_point (ds ++ 46 :: fs) = (ds, fs).
Proof.
  induction 1 as [|c ds Hc D IH]; [reflexivity|]. cbn [app until_point]. destruct (Z.eqb_spec c 46); [lia|]. rewrite IH. reflexivity.
Qed.
(** A float constant: the text is one literal; finite ones read back as the compiler reads them. *)
Lemma fixed_litt (x : f64) : litt (fmt_fixed 6 x ++ txt "f").
Proof.
  destruct (is_finite x) eqn:F.
  - destruct (fmt_fixed_split 6 x F) as (ds & fs & T & D1 & D2 & D3 & L & N). rewrite T.
    assert (Wd : wordy ((ds ++ [46] ++ fs) ++ txt "f")).
    { split; [destruct ds; [congruence|discriminate]|]. rewrite !forallb_app.
      destruct (digits_wordy ds D1 D3) as [_ ->]. cbn [andb]. change (forallb word_char [46]) with true. cbn [andb].
      destruct fs as [|f fs]; [discriminate L|]. destruct (digits_wordy (f :: fs) D2 ltac:(discriminate)) as [_ ->]. reflexivity. }
    exists (Bsign x), ((ds ++ [46] ++ fs) ++ txt "f"). split; [|exact Wd]. unfold signed, lit. destruct (Bsign x); reflexivity.
  - destruct x as [s|s| |s m e H]; try discriminate.
    + exists s, (txt "inff"). split; [destruct s; reflexivity|]. split; [discriminate|reflexivity].
    + exists false, (txt "nanf"). split; [reflexivity|]. split; [discriminate|reflexivity].
Qed.
Lemma float_lit_fixed (x : f64) k : c_float_literal (fmt_fixed 6 x ++ txt "f") = Ret k -> float_lit (fmt_fixed 6 x ++ txt "f") = Some k.
Proof.
  destruct (is_finite x) eqn:F.
  - destruct (fmt_fixed_split 6 x F) as (ds & fs & T & D1 & D2 & D3 & L & N).
    unfold c_float_literal. rewrite (scan_fixed 6 x (txt "f") F) by reflexivity.
    replace (text_eqb (txt "f") (txt "f")) with true by (symmetry; now apply text_eqb_iff).
    destruct (is_finite (f_of_dec (Bsign x) (scaled_int 6 x) (Z.of_nat 6) : f32)); [|discriminate]. intros E. injection E as <-.
    rewrite T. assert (HD : ds <> [] /\ match ds with c :: _ => c <> 45 | [] => False end).
    { split; [exact D3|]. destruct ds as [|c ds]; [congruence|]. inversion D1 as [|? ? Hc _]; subst. unfold digit in Hc. lia. }
    assert (NE : fs <> []) by (destruct fs; [discriminate L|discriminate]).
    assert (R : float_lit (signed (Bsign x) (ds ++ [46] ++ fs) ++ txt "f") =
      (let '(ds', fs') := until_point (ds ++ 46 :: (fs ++ [102])) in
       match rev fs' with
       | c :: fs'' => if (c =? 102) && all_digits ds' && all_digits (rev fs'') then Some (f_of_dec (Bsign x) (value_of (ds' ++ rev fs'')) (Z.of_nat (length fs''))) else None
       | [] => None end)).
    { change (txt "f") with [102]. destruct (Bsign x); cbn [signed app].
      - unfold float_lit. change (45 =? 45) with true. cbv iota. rewrite <- app_assoc. reflexivity.
      - destruct HD as [_ HD]. destruct ds as [|c ds]; [contradiction|]. cbn [app]. unfold float_lit. destruct (Z.eqb_spec c 45); [contradiction|].
        rewrite <- app_assoc. reflexivity. }
    rewrite R, (until_point_ok ds _ D1). rewrite rev_app_distr. cbn [rev app]. change (102 =? 102) with true. cbn [andb].
    rewrite rev_involutive, (digits_all ds D1 D3), (digits_all fs D2 NE). cbn [andb]. rewrite rev_length, L. f_equal. f_equal. exact N.
  - intros H. exfalso. unfold c_float_literal in H. destruct x as [s|s| |s m e Hx]; try discriminate.
    destruct s; vm_compute in H; discriminate.
Qed.

(** *** The code of a tree *)
Definition tok_lit (t : list Z) : list tok := match t with c :: v => if c =? 45 then [P 45; W v] else [W t] | [] => [] end.
Lemma tok_lit_lit neg v : wordy v -> tok_lit (lit neg v) = lit_toks neg v.
Proof.
  intros H. destruct neg; [reflexivity|]. cbn [lit lit_toks]. pose proof (wordy_head v H) as N. destruct v as [|c v]; [contradiction|].
  cbn [tok_lit]. destruct (Z.eqb_spec c 45); [contradiction|reflexivity].
Qed.
Lemma literal_litt t ts : litt t -> literal (tok_lit t ++ ts) = Some (t, ts).
Proof. intros (neg & v & -> & H). rewrite tok_lit_lit by exact H. apply literal_toks. Qed.
Lemma lexw_litt t : litt t -> exists ts w, lexw [] t ts w /\ ts ++ endw w = tok_lit t.
Proof.
  intros (neg & v & -> & H). exists (if neg then [P 45] else []), v. split; [now apply lexw_lit|].
  rewrite tok_lit_lit by exact H. rewrite endw_ne by apply H. destruct neg; reflexivity.
Qed.
(** a literal between two constants *)
Lemma lexw_lit_then t s c v ts w' : litt t -> s = c :: v -> word_char c = false ->
  fold_left lex_step (c :: v) (InCode, [], []) = (InCode, w', ts) -> lexw [] (t ++ s) (tok_lit t ++ rev ts) w'.
Proof.
  intros H E Hc R. destruct (lexw_litt t H) as (tt & w & L & EQ). rewrite <- EQ, <- app_assoc.
  eapply lexw_app; [exact L|]. now apply (lexw_const0 w s c v).
Qed.
Lemma tok_lit_bd t n : bd (tok_lit t) n = Some n.
Proof. destruct t as [|c v]; [reflexivity|]. cbn [tok_lit]. destruct (c =? 45); reflexivity. Qed.

Fixpoint code_toks (c : ccode) : list tok :=
  match c with
  | CReturn v => W (txt "return") :: tok_lit v ++ [P 59]
  | CIf f v yes no =>
      [W (txt "if"); P 40; W (txt "features"); P 91] ++ tok_lit f ++ [P 93; P 60] ++ tok_lit v ++ [P 41; P 123] ++
      code_toks yes ++ [P 125; W (txt "else"); P 123] ++ code_toks no ++ [P 125]
  end.
Fixpoint good (c : ccode) : Prop :=
  match c with CReturn v => litt v | CIf f v yes no => litt f /\ litt v /\ good yes /\ good no end.
Fixpoint cdepth (c : ccode) : nat := match c with CReturn _ => 1 | CIf _ _ a b => S (Nat.max (cdepth a) (cdepth b)) end.
Lemma cdepth_toks c : (cdepth c <= length (code_toks c))%nat.
Proof.
  induction c as [v|f v a IHa b IHb]; cbn [cdepth code_toks].
  - cbn [length]. lia.
  - rewrite !app_length. cbn [length]. lia.
Qed.
Lemma read_code_toks : forall c fuel rest, good c -> (cdepth c <= fuel)%nat -> read_code fuel (code_toks c ++ rest) = Some (c, rest).
Proof.
  induction c as [v|f v a IHa b IHb]; intros fuel rest G D; cbn [cdepth] in D; (destruct fuel as [|fuel]; [lia|]); cbn [good] in G.
  - cbn [code_toks app read_code]. change (expect [kw "return"] (W (txt "return") :: (tok_lit v ++ [P 59]) ++ rest)) with (Some ((tok_lit v ++ [P 59]) ++ rest)).
    cbv iota. rewrite <- app_assoc, (literal_litt v _ G). cbv iota beta. reflexivity.
  - destruct G as (Gf & Gv & Ga & Gb). cbn [code_toks read_code]. rewrite <- !app_assoc. cbn [app].
    match goal with |- context [expect [kw "return"] ?l] => change (expect [kw "return"] l) with (@None (list tok)) end. cbv iota.
    match goal with |- context [expect [kw "if"; ch "("; kw "features"; ch "["] (_ :: _ :: _ :: _ :: ?l)] =>
      change (expect [kw "if"; ch "("; kw "features"; ch "["] (W (txt "if") :: P 40 :: W (txt "features") :: P 91 :: l)) with (Some l) end. cbv iota.
    rewrite (literal_litt f _ Gf). cbv iota beta.
    match goal with |- context [expect [ch "]"; ch "<"] (_ :: _ :: ?l)] => change (expect [ch "]"; ch "<"] (P 93 :: P 60 :: l)) with (Some l) end. cbv iota.
    rewrite (literal_litt v _ Gv). cbv iota beta.
    match goal with |- context [expect [ch ")"; ch "{"] (_ :: _ :: ?l)] => change (expect [ch ")"; ch "{"] (P 41 :: P 123 :: l)) with (Some l) end. cbv iota.
    rewrite (IHa fuel _ Ga) by lia. cbv iota beta.
    match goal with |- context [expect [ch "}"; kw "else"; ch "{"] (_ :: _ :: _ :: ?l)] => change (expect [ch "}"; kw "else"; ch "{"] (P 125 :: W (txt "else") :: P 123 :: l)) with (Some l) end. cbv iota.
    rewrite (IHb fuel _ Gb) by lia. cbv iota beta. reflexivity.
Qed.
Lemma code_bd : forall c n, bd (code_toks c) n = Some n.
Proof.
  induction c as [v|f v a IHa b IHb]; intros n; cbn [code_toks].
  - cbn [bd]. rewrite bd_app, tok_lit_bd. reflexivity.
  - rewrite !bd_app. cbn [bd]. change (opens 40) with true. change (opens 91) with true. cbn match. rewrite bd_app, tok_lit_bd.
    cbn [app bd]. change (opens 93) with false. change (closes 93) with true. change (opens 60) with false. change (closes 60) with false. cbn match.
    rewrite bd_app, tok_lit_bd. cbn [app bd]. change (opens 41) with false. change (closes 41) with true. change (opens 123) with true. cbn match.
    rewrite bd_app, IHa. cbn [app bd]. change (opens 125) with false. change (closes 125) with true. change (opens 123) with true. cbn match.
    rewrite bd_app, IHb. reflexivity.
Qed.

Definition ok_of {V} (r : res V) : option V := match r with Ret v => Some v | Err _ => None end.
Lemma zget_nth {X} (l : list X) i : ok_of (zget l i) = if i <? 0 then None else nth_error l (Z.to_nat i).
Proof. unfold zget. destruct (i <? 0) eqn:E; [reflexivity|]. destruct (nth_error l (Z.to_nat i)); reflexivity. Qed.

Section Node.
Context {K X V : Type}.
Variable const : pynum -> res K.
Variable leaf_const : Z -> res V.
Variable lt : X -> K -> bool.
Variable cst : list Z -> option K.
Variable ret : list Z -> option V.
Variable dtype : text.
Variable leaf : Z -> res text.
Hypothesis Hconst : forall v k, const v = Ret k -> exists t, constant no_str v dtype = Ret t /\ litt t /\ cst t = Some k.
Hypothesis Hleaf : forall i r, leaf_const i = Ret r -> exists t, leaf i = Ret t /\ litt t /\ ret t = Some r.

Lemma c_node_code : forall fuel nodes idx depth T, c_node const leaf_const fuel nodes idx = Ret T ->
  exists t c, c_node_text leaf dtype fuel nodes idx depth = Ret t /\ good c /\ lexw [] t (code_toks c) [] /\
    forall features, exec int_lit cst ret lt features c = ok_of (run_tree lt features T).
Proof.
  induction fuel as [|fuel IH]; intros nodes idx depth T E; [discriminate|]. cbn [c_node c_node_text] in *. destruct (idx <? 0).
  - apply bind_Ret in E. destruct E as (r & Er & E). injection E as <-. destruct (Hleaf _ _ Er) as (t & Et & Lt & Rt). rewrite Et. cbn [bind].
    exists (c_leaf_text t (depth + 1)), (CReturn t). split; [reflexivity|]. split; [exact Lt|]. split.
    + unfold c_leaf_text, spaces. cbn [code_toks]. change (W (txt "return") :: tok_lit t ++ [P 59]) with ([] ++ [] ++ W (txt "return") :: tok_lit t ++ [P 59]).
      eapply lexw_app; [apply lexw_spaces|]. cbn [app].
      change (W (txt "return") :: tok_lit t ++ [P 59]) with ([W (txt "return")] ++ (tok_lit t ++ [P 59])).
      eapply lexw_app; [lc|].
      eapply lexw_eq; [eapply lexw_lit_then; [exact Lt|reflexivity|reflexivity|vm_compute; reflexivity]|reflexivity|reflexivity].
    + intros features. cbn [exec run_tree ok_of]. exact Rt.
  - apply bind_Ret in E. destruct E as (n & En & E). rewrite En. cbn [bind]. apply bind_Ret in E. destruct E as (k & Ek & E).
    destruct (Hconst _ _ Ek) as (tv & Etv & Ltv & Cv). rewrite Etv. cbn [bind].
    apply bind_Ret in E. destruct E as (a & Ea & E). apply bind_Ret in E. destruct E as (b & Eb & E). injection E as <-.
    destruct (IH _ _ (depth + 2) _ Ea) as (ta & ca & Eta & Ga & La & Xa). destruct (IH _ _ (depth + 2) _ Eb) as (tb & cb & Etb & Gb & Lb & Xb).
    rewrite Eta, Etb. cbn [bind]. exists (c_internal_text (d_feature n) tv ta tb (depth + 1)), (CIf (fmt_int (d_feature n)) tv ca cb).
    split; [reflexivity|]. split; [cbn [good]; split; [apply fmt_int_litt|auto]|]. split.
    + unfold c_internal_text, spaces. cbn [code_toks].
      eapply lexw_eq with (w' := []); [|apply (app_nil_l (_ ++ _))|reflexivity].
      eapply lexw_app; [apply lexw_spaces|].
      eapply lexw_app; [lc|].
      match goal with |- lexw _ (?f ++ txt ?s ++ ?r) _ _ => rewrite (app_assoc f (txt s) r) end. rewrite (app_assoc (tok_lit _)).
      eapply lexw_app; [eapply lexw_eq; [eapply lexw_lit_then; [apply fmt_int_litt|reflexivity|reflexivity|vm_compute; reflexivity]|reflexivity|reflexivity]|].
      match goal with |- lexw _ (?f ++ txt ?s ++ ?r) _ _ => rewrite (app_assoc f (txt s) r) end. rewrite (app_assoc (tok_lit _)).
      eapply lexw_app; [eapply lexw_eq; [eapply lexw_lit_then; [exact Ltv|reflexivity|reflexivity|vm_compute; reflexivity]|reflexivity|reflexivity]|].
      eapply lexw_app; [exact La|].
      change ([P 125; W (txt "else"); P 123] ++ code_toks cb ++ [P 125]) with ([] ++ [] ++ [P 125; W (txt "else"); P 123] ++ code_toks cb ++ [] ++ [P 125]).
      eapply lexw_app; [lc|]. eapply lexw_app; [apply lexw_spaces|].
      eapply lexw_app; [lc|].
      eapply lexw_app; [exact Lb|]. change ([] ++ [P 125]) with ([] ++ [] ++ [P 125]).
      eapply lexw_app; [lc|]. eapply lexw_app; [apply lexw_spaces|].
      lc.
    + intros features. cbn [exec run_tree]. rewrite int_lit_fmt, Cv. pose proof (zget_nth features (d_feature n)) as Z1.
      destruct (d_feature n <? 0) eqn:Es.
      * unfold zget in *. rewrite Es in *. reflexivity.
      * rewrite <- Z1. destruct (zget features (d_feature n)) as [x|]; cbn [ok_of bind]; [|reflexivity]. destruct (lt x k); [apply Xa|apply Xb].
Qed.
End Node.

(** *** Functions *)
Ltac l0 := eapply lexw_const0; [reflexivity|reflexivity|vm_compute; reflexivity].
Ltac lcc := eapply lexw_const_clean; vm_compute; reflexivity.
Ltac lw := first [eapply lexw_word; first [eassumption | reflexivity] | eapply (lexw_word []); first [eassumption | reflexivity]].
Definition feature_params (dtype : text) : list tok :=
  [W (txt "const"); W dtype; P 42; W (txt "features"); P 44; W (txt "int32_t"); W (txt "features_length")].
Definition proba_params (dtype : text) : list tok :=
  feature_params dtype ++ [P 44; W (txt "float"); P 42; W (txt "out"); P 44; W (txt "int"); W (txt "out_length")].
(** A text that is one function definition. *)
Definition is_fun (t : text) (ws : list text) (name : text) (params body : list tok) : Prop :=
  lexw [] t (map W ws ++ W name :: fun_rest params body) [].

Lemma tree_func_lex dtype rt name code c : wordy dtype -> wordy rt -> wordy name -> lexw [] code (code_toks c) [] ->
  is_fun (tree_func dtype rt name code) [txt "static"; txt "inline"; rt] name (feature_params dtype) (code_toks c).
Proof.
  intros [D1 D2] [R1 R2] [N1 N2] L. unfold is_fun, tree_func. eapply lexw_eq.
  - eapply lexw_app; [lcc|]. eapply lexw_app; [lw|]. eapply lexw_app; [l0|]. eapply lexw_app; [lw|]. eapply lexw_app; [l0|].
    eapply lexw_app; [lw|]. eapply lexw_app; [l0|]. eapply lexw_app; [exact L|]. lcc.
  - cbn [app]. rewrite (endw_ne rt R1), (endw_ne name N1), (endw_ne dtype D1). cbn [app rev map feature_params fun_rest].
    reflexivity.
  - reflexivity.
Qed.

(** the votes: one line per tree *)
Definition vote_ok (ts : list tok) (n : text) : Prop := balanced ts /\ no_call ts /\ called ts = if control n then [] else [n].
Ltac before n l := lazymatch l with W n :: ?r => constr:(@nil tok) | ?x :: ?r => let a := before n r in constr:(x :: a) end.
Ltac after n l := lazymatch l with W n :: _ :: ?r => r | ?x :: ?r => after n r end.
Ltac one_call n :=
  lazymatch goal with |- called ?l = _ =>
    let l := eval cbn [app rev] in l in
    let a := before n l in let b := after n l in exact (called_parts a n b eq_refl eq_refl)
  end.
Lemma votes_lex line ast names : Forall (fun n => (wordy n /\ is_name n) /\ control n = false) names ->
  (forall n, wordy n /\ is_name n -> exists ts, lexw [] (line n) ts [] /\ vote_ok ts n /\ code ts (ast n)) ->
  exists ts, lexw [] (votes line names) ts [] /\ balanced ts /\ no_call ts /\ called ts = names /\ code ts (seq_all (map ast names)).
Proof.
  intros F H. assert (G : exists tss, Forall2 (fun p ts => lexw [] p ts []) (map line names) tss /\ balanced (concat tss) /\ no_call (concat tss) /\ called (concat tss) = names /\ code (concat tss) (seq_all (map ast names))).
  { induction F as [|n ns [Hn Cn] F (tss & L & B & N & C & D)]; [exists []; repeat split; constructor|].
    destruct (H n Hn) as (ts & Lt & (Bt & Nt & Ct) & Dt). exists (ts :: tss). cbn [map concat]. split; [constructor; assumption|].
    split; [now apply balanced_app|]. split; [now apply no_call_app|]. split; [rewrite called_app by exact N; rewrite Ct, Cn, C; reflexivity|].
    exact (C_seq _ _ _ _ Dt D). }
  destruct G as (tss & L & B & N & C & D). exists (concat tss). split; [|auto]. unfold votes. apply lexw_join; [lc|exact L].
Qed.
Lemma vote_classifier_lex n : wordy n /\ is_name n -> exists ts, lexw [] (tree_vote_classifier n) ts [] /\ vote_ok ts n /\ code ts (vote_ast n).
Proof.
  intros [[N1 N2] N3]. eexists. split.
  - unfold tree_vote_classifier. eapply lexw_eq.
    + eapply lexw_app; [lcc|]. eapply lexw_app; [lw|]. l0.
    + cbn [app]. rewrite (endw_ne n N1). reflexivity.
    + reflexivity.
  - split; [split; [reflexivity|split; [exact I|one_call n]]|]. cbn [app rev]. unfold vote_ast, proba_vote_ast, regress_vote_ast, soft_vote_ast, soft_body, class_ast, add_ast, f255, CRun.one, seq_all. cbn [fold_right]. sq.
Qed.
Lemma vote_proba_lex n : wordy n /\ is_name n -> exists ts, lexw [] (tree_vote_proba n) ts [] /\ vote_ok ts n /\ code ts (proba_vote_ast n).
Proof.
  intros [[N1 N2] N3]. eexists. split.
  - unfold tree_vote_proba. eapply lexw_eq.
    + eapply lexw_app; [lcc|]. eapply lexw_app; [lw|]. l0.
    + cbn [app]. rewrite (endw_ne n N1). reflexivity.
    + reflexivity.
  - split; [split; [reflexivity|split; [exact I|one_call n]]|]. cbn [app rev]. unfold vote_ast, proba_vote_ast, regress_vote_ast, soft_vote_ast, soft_body, class_ast, add_ast, f255, CRun.one, seq_all. cbn [fold_right]. sq.
Qed.
Lemma vote_regressor_lex n : wordy n /\ is_name n -> exists ts, lexw [] (tree_vote_regressor n) ts [] /\ vote_ok ts n /\ code ts (regress_vote_ast n).
Proof.
  intros [[N1 N2] N3]. eexists. split.
  - unfold tree_vote_regressor. eapply lexw_eq.
    + eapply lexw_app; [lcc|]. eapply lexw_app; [lw|]. l0.
    + cbn [app]. rewrite (endw_ne n N1). reflexivity.
    + reflexivity.
  - split; [split; [reflexivity|split; [exact I|one_call n]]|]. cbn [app rev]. unfold vote_ast, proba_vote_ast, regress_vote_ast, soft_vote_ast, soft_body, class_ast, add_ast, f255, CRun.one, seq_all. cbn [fold_right]. sq.
Qed.
Lemma vote_proportion_lex leaves n_classes n : wordy leaves /\ is_name leaves -> 0 <= n_classes -> wordy n /\ is_name n ->
  exists ts, lexw [] (tree_vote_leaf_proportion leaves n_classes n) ts [] /\ vote_ok ts n /\ code ts (soft_vote_ast leaves n_classes n).
Proof.
  intros [[L1 L2] L3] HC [[N1 N2] N3]. pose proof (int_lit_fmt n_classes) as IL. destruct (fmt_nat_wordy n_classes HC) as [C1 C2]. eexists. split.
  - unfold tree_vote_leaf_proportion. eapply lexw_eq.
    + eapply lexw_app; [lcc|]. eapply lexw_app; [lw|]. eapply lexw_app; [l0|]. eapply lexw_app; [lw|]. eapply lexw_app; [l0|].
      eapply lexw_app; [lw|]. eapply lexw_app; [l0|]. eapply lexw_app; [lw|]. l0.
    + cbn [app]. rewrite (endw_ne n N1), (endw_ne leaves L1), (endw_ne _ C1). cbn [app rev]. reflexivity.
    + reflexivity.
  - split; [split; [reflexivity|split; [exact I|one_call n]]|]. cbn [app rev]. unfold vote_ast, proba_vote_ast, regress_vote_ast, soft_vote_ast, soft_body, class_ast, add_ast, f255, CRun.one, seq_all. cbn [fold_right]. sq.
Qed.

Ltac butlast L :=
  lazymatch L with
  | [?z] => constr:(@nil tok)
  | ?x :: ?r => let r' := butlast r in constr:(x :: r')
  | ?a ++ ?r => let r' := butlast r in constr:(a ++ r')
  end.
Ltac last_one := lazymatch goal with |- ?L = ?b ++ [_] => let r := butlast L in unify b r; repeat (progress (cbn [app]) || rewrite <- app_assoc); reflexivity end.
Ltac strip := repeat lazymatch goal with |- ?x :: ?r = ?y :: ?r' => refine (f_equal2 (@cons tok) (eq_refl : x = y) _) end.
Ltac tok_pre l := lazymatch l with ?x :: ?r => let a := tok_pre r in constr:(x :: a) | ?a ++ ?r => constr:(@nil tok) end.
Ltac tok_post l := lazymatch l with ?x :: ?r => tok_post r | ?a ++ ?r => r end.
Ltac tok_mid l := lazymatch l with ?x :: ?r => tok_mid r | ?a ++ ?r => a end.
Ltac bal HB :=
  unfold balanced;
  lazymatch goal with |- bd ?l 0 = _ =>
    let a := tok_pre l in let m := tok_mid l in let b := tok_post l in
    change (bd (a ++ m ++ b) 0 = Some 0%nat);
    let k := eval lazy in (bd a 0) in
    rewrite (bd_app a), (eq_refl : bd a 0 = k); rewrite bd_app, (balanced_at _ _ HB); reflexivity
  end.

Ltac cal HNC :=
  lazymatch goal with |- called ?l = _ =>
    let a := tok_pre l in let m := tok_mid l in let b := tok_post l in
    change (called (a ++ m ++ b) = called m);
    rewrite (called_app a) by (apply no_call_app; [exact HNC|exact I]); rewrite (called_app m) by exact I;
    rewrite (eq_refl : called a = []), (eq_refl : called b = []); apply app_nil_r
  end.

Section Forest.
Variables (name dtype : text) (tp : text) (tpt : list tok).
Hypothesis HN : wordy name.
Hypothesis HD : wordy dtype.
Hypothesis HL : lexw [] tp tpt [].
Hypothesis HB : balanced tpt.
Hypothesis HC : no_call tpt.
Variable vs : stmt.
Hypothesis HS : code tpt vs.
Lemma fname s : forallb word_char s = true -> name ++ s <> [] /\ forallb word_char (name ++ s) = true.
Proof using HN. intros H. exact (wordy_app name s HN H). Qed.
Lemma majority_lex n : 0 <= n -> exists body, is_fun (forest_predict_majority_func name dtype n tp) [txt "int32_t"] (name ++ txt "_predict") (feature_params dtype) body /\ balanced body /\ called body = called tpt /\ code body (majority_ast n vs).
Proof using HN HD HL HB HC HS.
  intros Hn. pose proof (int_lit_fmt n) as IL. destruct (fmt_nat_wordy n Hn) as [C1 C2]. destruct (fname (txt "_predict") eq_refl) as [F1 F2]. destruct HD as [D1 D2]. eexists. split.
  - unfold is_fun, forest_predict_majority_func. cbv zeta. eapply lexw_eq.
    + eapply lexw_app; [lcc|]. eapply lexw_app; [lw|]. eapply lexw_app; [l0|]. eapply lexw_app; [lw|]. eapply lexw_app; [l0|].
      eapply lexw_app; [lw|]. eapply lexw_app; [l0|]. eapply lexw_app; [exact HL|]. eapply lexw_app; [lcc|]. eapply lexw_app; [lw|]. l0.
    + cbn [app]. rewrite (endw_ne _ F1), (endw_ne _ D1), (endw_ne _ C1). cbn [app rev map]. unfold fun_rest, feature_params. cbn [app]. strip. last_one.
    + reflexivity.
  - split; [bal HB|split; [cal HC|]]. unfold majority_ast, proba_ast, proportions_ast, regress_ast, most_body, argmax_body, out_zero, out_mean, seq_all; cbn [fold_right]. sq.
Qed.
Lemma proba_majority_lex n : 0 <= n -> exists body, is_fun (forest_proba_majority_func name dtype n tp) [txt "int"] (name ++ txt "_predict_proba") (proba_params dtype) body /\ balanced body /\ called body = called tpt /\ code body (proba_ast n (SInt (txt "_class") (EVal (VI (-1)))) vs).
Proof using HN HD HL HB HC HS.
  intros Hn. pose proof (int_lit_fmt n) as IL. destruct (fmt_nat_wordy n Hn) as [C1 C2]. destruct (fname (txt "_predict_proba") eq_refl) as [F1 F2]. destruct HD as [D1 D2]. eexists. split.
  - unfold is_fun, forest_proba_majority_func. cbv zeta. eapply lexw_eq.
    + eapply lexw_app; [lcc|]. eapply lexw_app; [lw|]. eapply lexw_app; [l0|]. eapply lexw_app; [lw|]. eapply lexw_app; [l0|].
      eapply lexw_app; [exact HL|]. eapply lexw_app; [lcc|]. eapply lexw_app; [lw|]. l0.
    + cbn [app]. rewrite (endw_ne _ F1), (endw_ne _ D1), (endw_ne _ C1). cbn [app rev map]. unfold fun_rest, proba_params, feature_params. cbn [app]. strip. last_one.
    + reflexivity.
  - split; [bal HB|split; [cal HC|]]. unfold majority_ast, proba_ast, proportions_ast, regress_ast, most_body, argmax_body, out_zero, out_mean, seq_all; cbn [fold_right]. sq.
Qed.
Lemma proba_proportions_lex n : 0 <= n -> exists body, is_fun (forest_proba_proportions_func name dtype n tp) [txt "int"] (name ++ txt "_predict_proba") (proba_params dtype) body /\ balanced body /\ called body = called tpt /\ code body (proba_ast n (SInt (txt "offset") (EVal (VI 0))) vs).
Proof using HN HD HL HB HC HS.
  intros Hn. pose proof (int_lit_fmt n) as IL. destruct (fmt_nat_wordy n Hn) as [C1 C2]. destruct (fname (txt "_predict_proba") eq_refl) as [F1 F2]. destruct HD as [D1 D2]. eexists. split.
  - unfold is_fun, forest_proba_proportions_func. cbv zeta. eapply lexw_eq.
    + eapply lexw_app; [lcc|]. eapply lexw_app; [lw|]. eapply lexw_app; [l0|]. eapply lexw_app; [lw|]. eapply lexw_app; [l0|].
      eapply lexw_app; [exact HL|]. eapply lexw_app; [lcc|]. eapply lexw_app; [lw|]. l0.
    + cbn [app]. rewrite (endw_ne _ F1), (endw_ne _ D1), (endw_ne _ C1). cbn [app rev map]. unfold fun_rest, proba_params, feature_params. cbn [app]. strip. last_one.
    + reflexivity.
  - split; [bal HB|split; [cal HC|]]. unfold majority_ast, proba_ast, proportions_ast, regress_ast, most_body, argmax_body, out_zero, out_mean, seq_all; cbn [fold_right]. sq.
Qed.
Lemma proportions_lex n : 0 <= n -> exists body, is_fun (forest_predict_proportions_func name dtype n tp) [txt "int32_t"] (name ++ txt "_predict") (feature_params dtype) body /\ balanced body /\ called body = called tpt /\ code body (proportions_ast n vs).
Proof using HN HD HL HB HC HS.
  intros Hn. pose proof (int_lit_fmt n) as IL. destruct (fmt_nat_wordy n Hn) as [C1 C2]. destruct (fname (txt "_predict") eq_refl) as [F1 F2]. destruct HD as [D1 D2]. eexists. split.
  - unfold is_fun, forest_predict_proportions_func. cbv zeta. eapply lexw_eq.
    + eapply lexw_app; [lcc|]. eapply lexw_app; [lw|]. eapply lexw_app; [l0|]. eapply lexw_app; [lw|]. eapply lexw_app; [l0|].
      eapply lexw_app; [lw|]. eapply lexw_app; [l0|]. eapply lexw_app; [exact HL|]. eapply lexw_app; [lcc|]. eapply lexw_app; [lw|]. l0.
    + cbn [app]. rewrite (endw_ne _ F1), (endw_ne _ D1), (endw_ne _ C1). cbn [app rev map]. unfold fun_rest, feature_params. cbn [app]. strip. last_one.
    + reflexivity.
  - split; [bal HB|split; [cal HC|]]. unfold majority_ast, proba_ast, proportions_ast, regress_ast, most_body, argmax_body, out_zero, out_mean, seq_all; cbn [fold_right]. sq.
Qed.
Lemma regressor_lex n : 0 <= n -> exists body, is_fun (forest_regressor_func name dtype n tp) [txt "float"] (name ++ txt "_predict") (feature_params dtype) body /\ balanced body /\ called body = called tpt /\ code body (regress_ast n vs).
Proof using HN HD HL HB HC HS.
  intros Hn. pose proof (int_lit_fmt n) as IL. pose proof (fmt_nat_wordy n Hn) as CW. destruct (fname (txt "_predict") eq_refl) as [F1 F2]. destruct HD as [D1 D2].
  pose (S2 := "
        
        return avg"%string).
  eexists. split.
  - unfold is_fun, forest_regressor_func. cbv zeta.
    match goal with |- context [txt ?s ++ fmt_int n ++ ?r] => replace (txt s ++ fmt_int n ++ r) with (txt S2 ++ (47 :: fmt_int n) ++ r) by reflexivity end.
    eapply lexw_eq.
    + eapply lexw_app; [lcc|]. eapply lexw_app; [lw|]. eapply lexw_app; [l0|]. eapply lexw_app; [lw|]. eapply lexw_app; [l0|].
      eapply lexw_app; [exact HL|]. eapply lexw_app; [lcc|]. eapply lexw_app; [apply (lexw_slash _ _ CW)|]. l0.
    + destruct CW as [C1 C2]. cbn [app]. rewrite (endw_ne _ F1), (endw_ne _ D1), (endw_ne _ C1). cbn [endw app rev map]. unfold fun_rest, feature_params. cbn [app]. strip. last_one.
    + reflexivity.
  - split; [bal HB|split; [cal HC|]]. unfold majority_ast, proba_ast, proportions_ast, regress_ast, most_body, argmax_body, out_zero, out_mean, seq_all; cbn [fold_right]. sq.
Qed.
End Forest.
