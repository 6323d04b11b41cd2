(** Saved inline tree models: the definitions of the file, and the tree functions against the fitted trees. *)
From Coq Require Import String ZArith List Bool Lia Reals.
From Flocq Require Import Core BinarySingleNaN.
From Verif.Base Require Import Res CInt ListX Loops Float.
From Verif.Model Require Import Common Text Cgen TreesConvert TreesC TreesInline TreesWrapper Harness TreesRun SaveText.
From Verif.Spec Require Import TreesSpec TreesCSpec VoteSpec ClassifierSpec HarnessSpec RunSpec CTextSpec CgenSpec SaveSpec.
From Verif.Proof Require Import Text Cgen TreesFlatten TreesForest TreesTop TreesNodes TreesApi TreesInlineRun TreesRun TreesRegRun TreesFloatRun TreesRegress CText SaveInline SaveFile SaveInlineTop.
Import Verif.Spec.HarnessSpec ListNotations.
Open Scope Z_scope.
Open Scope list_scope.
Open Scope res_scope.

Lemma flatten_forest_roots {T V L} (z : T) (mk : V -> res L) trees nodes roots leaves : flatten_forest z mk trees = Ret (nodes, roots, leaves) -> zlen roots = zlen trees.
Proof.
  unfold flatten_forest. intros E. apply bind_Ret in E. destruct E as ([[[[fn rs] fl] no] lo] & E & E2).
  apply bind_Ret in E2. destruct E2 as ([] & _ & E2). injection E2 as <- <- <-.
  assert (G : forall ts st st', foldM (flatten_forest_step z mk) st ts = Ret st' -> zlen (snd (fst (fst (fst st')))) = zlen (snd (fst (fst (fst st)))) + zlen ts).
  { induction ts as [|t ts IH]; intros st st' H; cbn [foldM] in H; [injection H as <-; unfold zlen; cbn; lia|].
    apply bind_Ret in H. destruct H as (s1 & H1 & H2). rewrite (IH _ _ H2), zlen_cons.
    destruct st as [[[[f1 r1] l1] n1] o1]. unfold flatten_forest_step in H1. apply bind_Ret in H1. destruct H1 as ([dn ln] & _ & H1).
    apply bind_Ret in H1. destruct H1 as ([] & _ & H1). injection H1 as <-. cbn [fst snd]. rewrite zlen_app. unfold zlen at 2. cbn [length]. lia. }
  specialize (G _ _ _ E). cbn [fst snd] in G. unfold zlen in *. cbn [length] in G. lia.
Qed.
Lemma convert_forest_roots {T L} (z : T) mk (eqb : L -> L -> bool) (trees : list (sktree T (list f64))) nodes roots leaves :
  convert_forest z mk eqb trees = Ret (nodes, roots, leaves) -> zlen roots = zlen trees.
Proof.
  unfold convert_forest. intros E. apply bind_Ret in E. destruct E as ([[n1 r1] l1] & E1 & E2).
  apply remove_duplicate_leaves_inv in E2. destruct E2 as (un & rm & _ & E2 & _). injection E2 as _ <- _. eapply flatten_forest_roots; eauto.
Qed.
Lemma n_trees_init classifier method dtype lb trees nf n w : wrapper_init classifier method dtype lb trees nf n = Ret w -> n_trees w = zlen trees.
Proof.
  intros E. destruct (wrapper_init_Ret _ _ _ _ _ _ _ _ E) as (C & _). unfold n_trees. destruct (w_forest w) as [[nodes roots] leaves].
  eapply convert_forest_roots; eauto.
Qed.
Lemma accepted name : identifier name -> ~ keyword name -> name <> txt "_Packed" -> assert_valid_identifier name = Ret tt.
Proof. intros A B C. apply accepts_iff. left. auto. Qed.
Lemma init_method classifier method dtype lb trees nf n w : wrapper_init classifier method dtype lb trees nf n = Ret w ->
  w_method w = (match method with None => MInline | Some m => m end) /\ w_dtype w = (match dtype with None => DInt16 | Some d => d end).
Proof.
  unfold wrapper_init. intros E. apply bind_Ret in E. destruct E as (f & _ & E). apply bind_Ret in E. destruct E as ([] & _ & E). apply bind_Ret in E. destruct E as ([] & _ & E).
  destruct (_ <? nf); [discriminate|]. injection E as <-. split; reflexivity.
Qed.

(** ** The definitions of the file *)
Lemma saved_definitions classifier method dtype lb trees nf n w c name pr :
  wrapper_init classifier method dtype lb trees nf n = Ret w -> In method [None; Some MInline] -> save_code w = Ret c -> 0 <= n ->
  identifier name -> ~ keyword name -> name <> txt "_Packed" ->
  exists t fns lvs funcs, trees_text w name pr = Ret t /\ definitions t = fns ++ lvs ++ funcs /\
    tree_fns name (zlen trees) (map fst fns) /\
    map fst lvs = (if choose_leaf_bits classifier lb =? 0 then [] else [name ++ txt "_leaves"]) /\
    map fst funcs = entry_points name classifier pr /\
    Forall (fun d => called (snd d) = map fst fns) funcs /\ NoDup (defined_names t).
Proof.
  intros E Hm Ec Hn I1 I2 I3. destruct (wrapper_init_Ret _ _ _ _ _ _ _ _ E) as (_ & W1 & _ & W3 & W4 & _).
  destruct (init_method _ _ _ _ _ _ _ _ E) as [M _].
  assert (HM : w_method w = MInline) by (destruct Hm as [<-|[<-|[]]]; exact M).
  destruct (inline_reads w name pr c HM (accepted _ I1 I2 I3) I1 ltac:(rewrite W3; destruct classifier; lia) Ec) as (t & fns & lvs & funcs & bytes & (T1 & T2 & T3 & T4 & T5 & T6 & _) & _).
  rewrite (n_trees_init _ _ _ _ _ _ _ _ E) in *. rewrite W1 in T4. rewrite W4 in T5.
  assert (LV : map fst lvs = (if choose_leaf_bits classifier lb =? 0 then [] else [name ++ txt "_leaves"])).
  { destruct (choose_leaf_bits classifier lb =? 0); [now subst|]. destruct T4 as (rest & -> & _). reflexivity. }
  exists t, fns, lvs, funcs. split; [exact T1|]. split; [exact T2|]. split; [rewrite T3; apply tree_names_fns, zlen_nonneg|]. split; [exact LV|]. split; [exact T5|].
  split; [rewrite T3; exact T6|]. unfold defined_names. rewrite T2, !map_app, T3, T5. apply file_nodup. rewrite LV. destruct (choose_leaf_bits classifier lb =? 0); [left|right]; reflexivity.
Qed.

(** ** What the tree functions return, for a program of trees *)
Lemma forall2_nth {A B} (R : A -> B -> Prop) l l' i a : Forall2 R l l' -> nth_error l i = Some a -> exists b, nth_error l' i = Some b /\ R a b.
Proof.
  intros F. revert i. induction F as [|x y l l' H F IH]; intros [|i] E; try discriminate; cbn in E.
  - injection E as <-. exists y. split; [reflexivity|exact H].
  - apply IH. exact E.
Qed.
Lemma reads_does {K X V} (lt : X -> K -> bool) cst (ret : list Z -> option V) dtype Ts w name pr t fns lvs funcs bytes :
  file_ok w name pr t fns lvs funcs bytes -> reads_as lt cst ret dtype Ts fns ->
  forall i T, zget Ts i = Ret T -> tree_does cst ret lt t name dtype i (fun features => ok_of (run_tree lt features T)).
Proof.
  intros (T1 & T2 & T3 & _) H i T HT. pose proof (zget_bound _ _ _ HT) as B. apply zget_Ret in HT. destruct HT as [_ HT].
  destruct (forall2_nth _ _ _ _ _ H HT) as ([wd rest] & Ed & code & Ec & Ex). cbn [snd] in Ec.
  assert (NW : nth_error (map fst fns) (Z.to_nat i) = Some wd) by (rewrite nth_error_map, Ed; reflexivity).
  assert (FN : tree_fn name i wd).
  { destruct (tree_names_fns name (n_trees w)) as [_ G].
    - unfold n_trees. destruct (w_forest w) as [[? ?] ?]. apply zlen_nonneg.
    - apply (G i wd); [rewrite <- T3; exact NW|lia]. }
  exists wd, rest, code. split; [exact FN|]. split; [|split; [exact Ec|exact Ex]].
  rewrite T2. apply in_or_app. left. eapply nth_error_In; eauto.
Qed.

Section Hard.
Variables (nf n : Z) (trees : sk_forest).
Hypothesis Hfit : fitted nf (class_row n) trees.
Hypothesis Hn : 1 <= n <= 127.
Variable lb : option Z.
Hypothesis Hlb : hard_args lb.
Section Code.
Context {K X : Type} (const : pynum -> res K) (lt : X -> K -> bool) (ok : K -> bool).
Hypothesis HQ : Forall (fun t => Forall (fun th => exists k, const th = Ret k /\ ok k = true) (sk_threshold t)) trees.
Hypothesis H0 : exists k, const (PyInt 0) = Ret k /\ ok k = true.
Lemma hard_trees : exists f p, convert_forest (PyInt 0) (mk_pyleaf LeafArgmax 0) pyleaf_eqb trees = Ret f /\
  generate_c_inlined const f n 0 = Ret p /\ forallb (tests_ok ok) (ip_trees p) = true /\
  forall features cs, nf <= zlen features -> Forall2 (tree_class_by (decide const lt features)) trees cs ->
    Forall2 (fun T c => run_tree lt features T = Ret c) (ip_trees p) cs.
Proof using Hfit Hn HQ H0.
  destruct (hard_forest nf n trees Hfit Hn) as (nodes & roots & leaves & E & HFF & _).
  pose proof HFF as (V & R & L & P & _).
  assert (HT : Forall (fun d => exists k, const (d_value d) = Ret k /\ ok k = true) nodes).
  { eapply (convert_forest_nodes (PyInt 0) (mk_pyleaf LeafArgmax 0) pyleaf_eqb (fun th => exists k, const th = Ret k /\ ok k = true)); [|exact E].
    eapply Forall_impl; [|exact HQ]. intros t Ht. split; auto. }
  destruct (inline_hard_gen const lt nf nodes roots leaves n ok V HT R P Hn) as (p & Ep & _ & _ & _ & T & G).
  exists (nodes, roots, leaves), p. split; [exact E|]. split; [exact Ep|]. split; [exact T|]. intros features cs Hf HC.
  apply G; [exact Hf|]. exact (class_by_leaf nf n trees Hfit _ nodes roots leaves cs HFF HC).
Qed.
End Code.

(** once the program is known *)
Lemma hard_text {K X} (const : pynum -> res K) (lt : X -> K -> bool) cst dtype w p name pr t fns lvs funcs bytes :
  n_trees w = zlen trees -> file_ok w name pr t fns lvs funcs bytes -> reads_as lt cst int32_ret dtype (ip_trees p) fns ->
  (forall features cs, nf <= zlen features -> Forall2 (tree_class_by (decide const lt features)) trees cs ->
    Forall2 (fun T c => run_tree lt features T = Ret c) (ip_trees p) cs) -> zlen (ip_trees p) = zlen trees ->
  forall i tree, zget trees i = Ret tree -> exists run, tree_does cst int32_ret lt t name dtype i run /\
      forall features c, nf <= zlen features -> tree_class_by (decide const lt features) tree c -> run features = Some c.
Proof using Hfit Hn.
  intros NT F R G LT i tree Hi.
  pose proof (zget_bound _ _ _ Hi) as Bi. destruct (zget_ok (ip_trees p) i ltac:(lia)) as [Ti HTi].
  exists (fun features => ok_of (run_tree lt features Ti)). split; [exact (reads_does _ _ _ _ _ _ _ _ _ _ _ _ _ F R i Ti HTi)|].
  intros features c Lf Hc. destruct (class_by_total nf n trees Hfit Hn (decide const lt features)) as [cs HC].
  specialize (G features cs Lf HC). destruct (Forall2_zget _ _ _ _ _ HC Hi) as (c' & Hc' & (row & Hr & Hrow)).
  destruct (Forall2_zget _ _ _ _ _ G HTi) as (c'' & Hc'' & Hrun). rewrite Hc' in Hc''. injection Hc'' as <-. rewrite Hrun. cbn [ok_of]. f_equal.
  destruct Hc as (row' & Hr' & Hrow'). rewrite (sk_reaches_det _ _ _ _ _ Hr Hr') in Hrow. exact (row_class_det _ _ _ Hrow Hrow').
Qed.
Lemma prog_len {K} (const : pynum -> res K) f n0 b p : generate_c_inlined const f n0 b = Ret p -> zlen (ip_trees p) = zlen (snd (fst f)).
Proof.
  destruct f as [[nodes roots] leaves]. unfold generate_c_inlined. intros Ep. apply bind_Ret in Ep. destruct Ep as (lv & _ & Ep).
  apply bind_Ret in Ep. destruct Ep as (Ts & Et & Ep). injection Ep as <-. cbn [ip_trees fst snd]. apply mapM_Ret, Forall2_zlen in Et. lia.
Qed.

Lemma int16_text method dtype name pr : In method [None; Some MInline] -> In dtype [None; Some DInt16] -> nf <= 10000 ->
  thresholds_within (-32767) 32767 trees -> identifier name -> ~ keyword name -> name <> txt "_Packed" ->
  exists w t, wrapper_init true method dtype lb trees nf n = Ret w /\ trees_text w name pr = Ret t /\
    forall i tree, zget trees i = Ret tree -> exists run, tree_does int_lit int32_ret Z.ltb t name (txt "int16_t") i run /\
      forall features c, nf <= zlen features -> tree_class features tree c -> run features = Some c.
Proof using Hfit Hn Hlb.
  intros Hm Hd Hnf HTH I1 I2 I3.
  destruct (hard_trees py_int Z.ltb int16_test_ok) as (f & p & E & Ep & T & G).
  { eapply Forall_impl; [|exact HTH]. intros t Ht. eapply Forall_impl; [|exact Ht]. intros th (k & Ek & Bk). exists k. split; [exact Ek|].
    unfold int16_test_ok. destruct (Z.leb_spec (-32767) k); [|lia]. destruct (Z.leb_spec k 32767); [reflexivity|lia]. }
  { exists 0. split; reflexivity. }
  assert (Ew : wrapper_init true method dtype lb trees nf n = Ret (mk_wrapper true MInline DInt16 0 f nf n)).
  { unfold wrapper_init. rewrite (hard_bits lb Hlb). change (choose_leaf true 0) with LeafArgmax. rewrite E. cbn [bind].
    destruct Hm as [<-|[<-|[]]]; destruct Hd as [<-|[<-|[]]]; cbn [bind]; (destruct (Z.ltb_spec 10000 nf); [lia|reflexivity]). }
  assert (Ec : save_code (mk_wrapper true MInline DInt16 0 f nf n) = Ret (CodeInt16 p)).
  { unfold save_code. cbn [w_method w_dtype w_classifier]. unfold save_inline. cbn [w_forest w_n_classes w_leaf_bits].
    change (generate_c_inlined_int16 f n 0) with (generate_c_inlined py_int f n 0). rewrite Ep. cbn [bind]. unfold compiles. rewrite T. reflexivity. }
  assert (N0 : 0 <= n) by lia. destruct (inline_reads (mk_wrapper true MInline DInt16 0 f nf n) name pr _ eq_refl (accepted _ I1 I2 I3) I1 N0 Ec) as (t & fns & lvs & funcs & bytes & F & R & _).
  pose proof (n_trees_init _ _ _ _ _ _ _ _ Ew) as NT. pose proof (prog_len _ _ _ _ _ Ep) as PL.
  eexists. exists t. split; [exact Ew|]. split; [apply F|].
  refine (hard_text py_int Z.ltb int_lit (txt "int16_t") _ p name pr t fns lvs funcs bytes NT F R G _).
  unfold n_trees in NT. cbn [w_forest] in NT. destruct f as [[? ?] ?]. cbn [fst snd] in PL. lia.
Qed.

(** Features compared as floats with the constant written, a float within half a millionth of the threshold (and the
    rounding of the literal). *)
Lemma float_text method name pr : In method [None; Some MInline] -> nf <= 10000 ->
  float_thresholds trees -> identifier name -> ~ keyword name -> name <> txt "_Packed" ->
  exists w t, wrapper_init true method (Some DFloat) lb trees nf n = Ret w /\ trees_text w name pr = Ret t /\
    forall i tree, zget trees i = Ret tree -> exists run, tree_does float_lit int32_ret fltb t name (txt "float") i run /\
      forall features : list f32, nf <= zlen features -> exists go,
        (forall f th x, In th (sk_threshold tree) -> zget features f = Ret x -> is_finite x = true ->
           exists k : f32, is_finite k = true /\ through_decimals 6 (num_val th) k /\ (go f th = true <-> (B2R x < B2R k)%R)) /\
        forall c, tree_class_by go tree c -> run features = Some c.
Proof using Hfit Hn Hlb.
  intros Hm Hnf HTH I1 I2 I3.
  destruct (hard_trees float_const fltb (fun _ => true)) as (f & p & E & Ep & T & G).
  { eapply Forall_impl; [|exact HTH]. intros t Ht. eapply Forall_impl; [|exact Ht]. intros th (A & B).
    destruct (float_const_ok th A B) as (k & Ek & _). eauto. }
  { exists fzero. split; [apply float_const_zero|reflexivity]. }
  assert (Ew : wrapper_init true method (Some DFloat) lb trees nf n = Ret (mk_wrapper true MInline DFloat 0 f nf n)).
  { unfold wrapper_init. rewrite (hard_bits lb Hlb). change (choose_leaf true 0) with LeafArgmax. rewrite E. cbn [bind].
    destruct Hm as [<-|[<-|[]]]; cbn [bind]; (destruct (Z.ltb_spec 10000 nf); [lia|reflexivity]). }
  assert (Ec : save_code (mk_wrapper true MInline DFloat 0 f nf n) = Ret (CodeFloat p)).
  { unfold save_code. cbn [w_method w_dtype w_classifier w_forest w_n_classes w_leaf_bits]. rewrite Ep. reflexivity. }
  assert (N0 : 0 <= n) by lia. destruct (inline_reads (mk_wrapper true MInline DFloat 0 f nf n) name pr _ eq_refl (accepted _ I1 I2 I3) I1 N0 Ec) as (t & fns & lvs & funcs & bytes & F & R & _).
  pose proof (n_trees_init _ _ _ _ _ _ _ _ Ew) as NT. pose proof (prog_len _ _ _ _ _ Ep) as PL.
  eexists. exists t. split; [exact Ew|]. split; [apply F|]. intros i tree Hi.
  destruct (hard_text float_const fltb float_lit (txt "float") _ p name pr t fns lvs funcs bytes NT F R G) with (i := i) (tree := tree) as (run & D & Hrun).
  - unfold n_trees in NT. cbn [w_forest] in NT. destruct f as [[? ?] ?]. cbn [fst snd] in PL. lia.
  - exact Hi.
  - exists run. split; [exact D|]. intros features Lf. exists (decide float_const fltb features). split; [|intros c Hc; now apply Hrun].
    intros ff th x Ith Hx Fx. unfold float_thresholds in HTH. rewrite Forall_forall in HTH. specialize (HTH tree (zget_In _ _ _ Hi)). rewrite Forall_forall in HTH.
    destruct (HTH th Ith) as [A B]. destruct (float_const_ok th A B) as (k & Ek & Fk & Tk). exists k. split; [exact Fk|]. split; [exact Tk|].
    unfold decide. rewrite Hx, Ek. now apply fltb_iff.
Qed.
End Hard.

(** ** Regressors *)
Lemma regress_text nf nc trees B lb method dtype name pr : (0 <= B <= bpow radix2 99)%R -> fitted nf (value_within B) trees ->
  In lb [None; Some 32] -> In method [None; Some MInline] -> In dtype [None; Some DInt16] -> nf <= 10000 ->
  thresholds_within (-32767) 32767 trees -> identifier name -> ~ keyword name -> name <> txt "_Packed" ->
  exists w t, wrapper_init false method dtype lb trees nf nc = Ret w /\ trees_text w name pr = Ret t /\
    forall i tree, zget trees i = Ret tree -> exists run, tree_does int_lit float_lit Z.ltb t name (txt "int16_t") i run /\
      forall features x, nf <= zlen features -> tree_value_by (go_lt features) tree x ->
        exists k : f32, run features = Some k /\ is_finite k = true /\ through_decimals 6 (B2R x) k.
Proof.
  intros HB Hfit Hlb Hm Hd Hnf HTH I1 I2 I3.
  destruct (reg_trees nf trees B HB Hfit py_int Z.ltb int16_test_ok) as (f & p & E & Ep & T & Lp & G).
  { eapply Forall_impl; [|exact HTH]. intros t Ht. eapply Forall_impl; [|exact Ht]. intros th (k & Ek & Bk). exists k. split; [exact Ek|].
    unfold int16_test_ok. destruct (Z.leb_spec (-32767) k); [|lia]. destruct (Z.leb_spec k 32767); [reflexivity|lia]. }
  { exists 0. split; reflexivity. }
  assert (Ew : wrapper_init false method dtype lb trees nf nc = Ret (mk_wrapper false MInline DInt16 32 f nf 0)).
  { unfold wrapper_init. rewrite (val_bits lb Hlb). change (choose_leaf false 32) with LeafValue. rewrite E. cbn [bind].
    destruct Hm as [<-|[<-|[]]]; destruct Hd as [<-|[<-|[]]]; cbn [bind]; (destruct (Z.ltb_spec 10000 nf); [lia|reflexivity]). }
  assert (Ec : save_code (mk_wrapper false MInline DInt16 32 f nf 0) = Ret (CodeRegInt16 p)).
  { unfold save_code. cbn [w_method w_dtype w_classifier w_forest w_leaf_bits]. rewrite Ep. cbn [bind]. unfold compiles. rewrite T. reflexivity. }
  destruct (inline_reads (mk_wrapper false MInline DInt16 32 f nf 0) name pr _ eq_refl (accepted _ I1 I2 I3) I1 ltac:(apply Z.le_refl) Ec) as (t & fns & lvs & funcs & bytes & F & R & _).
  eexists. exists t. split; [exact Ew|]. split; [apply F|]. intros i tree Hi.
  pose proof (zget_bound _ _ _ Hi) as Bi. destruct (zget_ok p i ltac:(lia)) as [Ti HTi].
  exists (fun features => ok_of (run_tree Z.ltb features Ti)). split; [exact (reads_does _ _ _ _ _ _ _ _ _ _ _ _ _ F R i Ti HTi)|].
  intros features x Lf Hx. destruct (value_by_total nf trees B Hfit (go_lt features)) as (xs & HX & _).
  destruct (G features xs Lf HX) as (ks & K1 & K2). destruct (Forall2_zget _ _ _ _ _ HX Hi) as (x' & Hx' & Hr).
  destruct (Forall2_zget _ _ _ _ _ K1 Hx') as (k & Hk & Kf & Kt). destruct (Forall2_zget _ _ _ _ _ K2 HTi) as (k' & Hk' & Hrun).
  rewrite Hk in Hk'. injection Hk' as <-. exists k. rewrite Hrun. split; [reflexivity|]. split; [exact Kf|].
  assert (EX : x' = x) by (pose proof (sk_reaches_det _ _ _ _ _ Hr Hx) as Q; injection Q; auto). rewrite <- EX. exact Kt.
Qed.
