(** Cost of evaluating trees: the estimate, and the iterations of the C loop. *)
From Coq Require Import ZArith List Bool Lia Reals Lra.
From Verif.Base Require Import Res CInt ListX Loops.
From Verif.Model Require Import Common TreesConvert TreesC TreesWrapper TreesCost.
From Verif.Spec Require Import TreesSpec TreesCSpec ClassifierSpec CostSpec.
From Verif.Proof Require Import TreesFlatten TreesForest TreesWalk TreesDedup TreesLeaves TreesEnd TreesTop TreesApi TreesRegress.
Import ListNotations.
Open Scope Z_scope.
Open Scope res_scope.

Section Eval.
Context {T V : Type} (nf : Z) (t : sktree T V).
Hypothesis WF : wf_sktree nf t.

Lemma node_cases i : 0 <= i < sk_node_count t -> exists l r f th,
  zget (sk_left t) i = Ret l /\ zget (sk_right t) i = Ret r /\ zget (sk_feature t) i = Ret f /\
  zget (sk_threshold t) i = Ret th /\
  ((l = -1 /\ r = -1) \/ (i < l < sk_node_count t /\ i < r < sk_node_count t /\ 0 <= f < nf)).
Proof.
  intros Hi.
  destruct (zget_ok (sk_left t) i) as [l Hl]; [rewrite (wf_len_left _ _ WF); lia|].
  destruct (zget_ok (sk_right t) i) as [r Hr]; [rewrite (wf_len_right _ _ WF); lia|].
  destruct (zget_ok (sk_feature t) i) as [f Hf]; [rewrite (wf_len_feature _ _ WF); lia|].
  destruct (zget_ok (sk_threshold t) i) as [th Hth]; [rewrite (wf_len_threshold _ _ WF); lia|].
  exists l, r, f, th. repeat (split; [assumption|]). exact (wf_nodes _ _ WF i l r f Hl Hr Hf).
Qed.

Lemma decision_path_ok {Row} (go : Row -> Z -> T -> bool) row : forall fuel i,
  0 <= i < sk_node_count t -> sk_node_count t - i < Z.of_nat fuel ->
  exists n p, evaluates t (go row) i n /\ 0 <= n /\ decision_path go fuel t row i = Ret p /\ zlen p = n + 1.
Proof.
  induction fuel as [|fuel IH]; intros i Hi Hf; [lia|].
  destruct (node_cases i Hi) as (l & r & f & th & Hl & Hr & Hft & Hth & [[-> ->]|(Bl & Br & Bf)]).
  - exists 0, [i]. split; [now constructor|]. split; [lia|]. cbn [decision_path]. rewrite Hl, Hr. split; reflexivity.
  - destruct (IH (if go row f th then l else r)) as (n & p & E & Hn & Hp & Hlen);
      [destruct (go row f th); lia | destruct (go row f th); lia |].
    exists (n + 1), (i :: p). split; [|split; [lia|split]].
    + eapply evaluates_node; eauto. lia.
    + cbn [decision_path]. rewrite Hl, Hr. cbn [bind]. destruct (Z.eqb_spec l (-1)); [lia|].
      rewrite Hft, Hth. cbn [bind]. rewrite Hp. reflexivity.
    + rewrite zlen_cons, Hlen. lia.
Qed.

Lemma evaluates_det go i n m : evaluates t go i n -> evaluates t go i m -> n = m.
Proof.
  intros H. revert m. induction H as [i E1 E2|i l r f th n E1 E2 E3 E4 E5 E6 IH]; intros m Hm.
  - symmetry. exact (evaluates_leaf_inv t go i m E1 E2 Hm).
  - destruct Hm as [i F1 F2|i l' r' f' th' m F1 F2 F3 F4 F5 F6].
    + elim E3. split; congruence.
    + rewrite F1 in E1; rewrite F2 in E2; rewrite F4 in E4; rewrite F5 in E5.
      inv E1; inv E2; inv E4; inv E5. f_equal. auto.
Qed.

Lemma evaluates_total go : exists n, evaluates t go 0 n /\ 0 <= n.
Proof.
  pose proof (wf_count _ _ WF) as Hc.
  destruct (decision_path_ok (fun _ : unit => go) tt (S (Z.to_nat (sk_node_count t))) 0) as (n & p & E & Hn & _);
    [lia|lia|]. eauto.
Qed.

Lemma evaluates_depth go i n d : evaluates t go i n -> depth t i d -> n <= d.
Proof.
  intros H. revert d. induction H as [i E1 E2|i l r f th n E1 E2 E3 E4 E5 E6 IH]; intros d Hd.
  - clear -Hd. induction Hd; lia.
  - destruct Hd as [i F1 F2|i l' r' dl dr F1 F2 F3 F4 F5].
    + elim E3. split; congruence.
    + rewrite F1 in E1; rewrite F2 in E2. inv E1; inv E2. destruct (go f th); [apply IH in F4|apply IH in F5]; lia.
Qed.
End Eval.

(** ** The estimate *)
Lemma path_sums_ok {T V Row} nf (t : sktree T V) (go : Row -> Z -> T -> bool) X : wf_sktree nf t ->
  exists ns, Forall2 (fun row n => evaluates t (go row) 0 n) X ns /\
    path_sums go t X = Ret (map (fun n => n + 1) ns).
Proof.
  intros WF. pose proof (wf_count _ _ WF) as Hc. unfold path_sums. induction X as [|row X IH].
  - exists []. split; [constructor|reflexivity].
  - destruct IH as (ns & F & E).
    destruct (decision_path_ok nf t WF go row (S (Z.to_nat (sk_node_count t))) 0) as (n & p & Ev & Hn & Hp & Hl); [lia|lia|].
    exists (n :: ns). split; [now constructor|]. cbn [mapM map]. rewrite Hp. cbn [bind]. rewrite E. cbn [bind].
    now rewrite Hl.
Qed.

Lemma sum_plus1 ns : fold_right (fun x s => (IZR x + s)%R) 0%R (map (fun n => n + 1) ns) =
  (fold_right (fun x s => (IZR x + s)%R) 0%R ns + IZR (zlen ns))%R.
Proof.
  induction ns as [|n ns IH]; [change (0 = 0 + 0)%R; lra|]. cbn [map fold_right]. rewrite IH, plus_IZR, zlen_cons, plus_IZR. lra.
Qed.

Lemma cost_ok {T V Row} nf (go : Row -> Z -> T -> bool) (X : list Row) : X <> [] -> forall trees : list (sktree T V),
  Forall (wf_sktree nf) trees ->
  exists nss, Forall2 (fun t ns => Forall2 (fun row n => evaluates t (go row) 0 n) X ns) trees nss /\
  compute_cost_estimate go trees X =
    Ret (fold_right (fun ns s => mean_evaluations ns + s)%R 0%R nss + IZR (zlen trees))%R.
Proof.
  intros HX trees HW. unfold compute_cost_estimate.
  assert (HXl : (0 < IZR (zlen X))%R).
  { apply IZR_lt. destruct X; [easy|]. rewrite zlen_cons. pose proof (zlen_nonneg X). lia. }
  assert (G : forall acc, exists nss, Forall2 (fun t ns => Forall2 (fun row n => evaluates t (go row) 0 n) X ns) trees nss /\
     foldM (fun total t => let* ts := path_sums go t X in let* m := mean_of ts in Ret (total + m)%R) acc trees =
       Ret (acc + (fold_right (fun ns s => mean_evaluations ns + s) 0 nss + IZR (zlen trees)))%R).
  { clear -HW HX HXl. induction trees as [|t ts IH]; intros acc.
    - exists []. split; [constructor|]. change (zlen (@nil (sktree T V))) with 0. cbn [foldM fold_right]. f_equal. lra.
    - apply Forall_cons_iff in HW as [W1 W2].
      destruct (path_sums_ok nf t go X W1) as (ns & F & E).
      destruct (IH W2 (acc + (mean_evaluations ns + 1))%R) as (nss & F2 & E2).
      exists (ns :: nss). split; [now constructor|]. cbn [foldM]. rewrite E. cbn [bind].
      assert (Hns : zlen ns = zlen X) by (symmetry; exact (Forall2_zlen _ _ _ F)).
      assert (Em : mean_of (map (fun n => n + 1) ns) = Ret (mean_evaluations ns + 1)%R).
      { destruct ns as [|n0 ns0]; [change (zlen (@nil Z)) with 0 in Hns; rewrite <- Hns in HXl; lra|].
        unfold mean_of. cbn [map]. rewrite <- (map_cons (fun n => n + 1)). rewrite sum_plus1.
        replace (zlen (map (fun n => n + 1) (n0 :: ns0))) with (zlen (n0 :: ns0)) by (now rewrite zlen_map).
        unfold mean_evaluations. f_equal. rewrite Hns. field. lra. }
      rewrite Em. cbn [bind]. rewrite E2. f_equal. rewrite zlen_cons, plus_IZR. cbn [fold_right]. lra. }
  destruct (G 0%R) as (nss & F & E). exists nss. split; [exact F|]. rewrite E. f_equal. lra.
Qed.

(** ** Iterations of the C loop *)
Section Walk.
Variables (nf nl : Z) (nodes : list (dnode pynum)) (cn : list cnode) (features : list Z).
Hypothesis HV : valid_nodes nf nl nodes.
Hypothesis HF : fits_c nodes.
Hypothesis Hcn : forall i n, zget nodes i = Ret n -> exists c, zget cn i = Ret c /\ c_of i n c.
Hypothesis Hfeat : nf <= zlen features.

Lemma loop_cost c n : flat_evaluates nodes (go_lt features) c n -> c < zlen nodes -> 0 <= n /\ forall k : nat,
  (n < Z.of_nat k -> exists e, predict_tree_loop k cn features c = Ret e) /\
  (Z.of_nat k <= n -> predict_tree_loop k cn features c = Err NoFuel).
Proof.
  induction 1 as [c Hc|c d n Hz Hk IH]; intros Hb.
  - split; [lia|]. intros k. split; intros Hn.
    + destruct k as [|k]; [lia|]. cbn [predict_tree_loop]. destruct (Z.leb_spec 0 c); [lia|]. eauto.
    + destruct k as [|k]; [reflexivity|lia].
  - pose proof (zget_bound _ _ _ Hz) as Hi.
    destruct (Hcn c d Hz) as (x & Hc & C1 & C2 & C3 & C4).
    destruct HF as [Hsz HF']. destruct (HF' c d Hz) as (Hf & _ & [Fl1 Fl2] & [Fr1 Fr2]).
    destruct (HV c d Hz) as (Hf' & [Vl1 Vl2] & [Vr1 Vr2]).
    destruct (zget_ok features (cn_feature x)) as [y Hy]; [lia|].
    assert (Hgo : go_lt features (d_feature d) (d_value d) = (y <? cn_value x)).
    { unfold go_lt. rewrite <- C1, Hy, C2. reflexivity. }
    set (tgt := if go_lt features (d_feature d) (d_value d) then d_left d else d_right d) in *.
    assert (Vt : 0 <= tgt -> c < tgt < zlen nodes).
    { unfold tgt. destruct (go_lt _ _ _); auto. }
    destruct IH as [Hn IH]; [destruct (Z.leb_spec 0 tgt); [apply Vt; auto|lia]|].
    split; [lia|].
    assert (Hstep : forall k, predict_tree_loop (S k) cn features c = predict_tree_loop k cn features tgt).
    { intros k. cbn [predict_tree_loop]. destruct (Z.leb_spec 0 c); [|lia]. rewrite Hc. cbn [bind].
      rewrite Hy. cbn [bind].
      assert (Ht : (if y <? cn_value x then cn_left x else cn_right x) = if 0 <=? tgt then tgt - c else tgt).
      { unfold tgt. rewrite Hgo, C3, C4. destruct (y <? cn_value x); auto. }
      rewrite Ht. destruct (Z.leb_spec 0 tgt) as [P|P].
      - specialize (Vt P). destruct (Z.leb_spec 0 (tgt - c)); [|lia].
        rewrite chk_int32_ok by (unfold int32_ok; lia). cbn [bind]. f_equal. lia.
      - destruct (Z.leb_spec 0 tgt); [lia|]. reflexivity. }
    intros k. destruct k as [|k].
    + split; intros; [lia|reflexivity].
    + rewrite Hstep. destruct (IH k) as [I1 I2]. split; intros; [apply I1|apply I2]; lia.
Qed.
End Walk.


Lemma facts_cost nf P trees kind bits (PL : pyleaf -> Prop) nodes roots leaves : fitted nf P trees ->
  (forall row, P row -> exists l, mk_pyleaf kind bits row = Ret l /\ PL l) ->
  (forall l, PL l -> pyleaf_eqb l l = true) ->
  convert_forest (PyInt 0) (mk_pyleaf kind bits) pyleaf_eqb trees = Ret (nodes, roots, leaves) ->
  valid_nodes nf (zlen leaves) nodes /\ Forall (fun r => 0 <= r < zlen nodes) roots /\
  Forall2 (fun t root => forall go n, evaluates t go 0 n -> flat_evaluates nodes go root (Z.max 1 n)) trees roots.
Proof.
  intros Hfit Hmk Heq E.
  destruct (convert_facts nf P trees Hfit kind bits PL Hmk Heq) as (n1 & r1 & l1 & E1 & (HV & HR & _) & _).
  rewrite E in E1. inv E1. split; [exact HV|]. split; [exact HR|].
  assert (HC : Forall (leaves_convertible (mk_pyleaf kind bits)) trees).
  { apply (rows_convertible nf P trees Hfit). intros row Hr. destruct (Hmk row Hr) as (l & E1 & _). eauto. }
  assert (HS : Forall (leaf_source (mk_pyleaf kind bits) PL) trees).
  { apply (rows_source nf P trees Hfit). intros row l Hr E1. destruct (Hmk row Hr) as (l' & E' & Hl'). congruence. }
  assert (Ex : convert_forest (PyInt 0) (mk_pyleaf kind bits) eqb' trees = Ret (n1, r1, l1)).
  { rewrite <- E. symmetry. apply (convert_forest_ext (PyInt 0) (mk_pyleaf kind bits) pyleaf_eqb eqb' PL); auto.
    intros. apply eqb'_ext; auto. }
  pose proof (ft_features _ _ _ Hfit) as Hnf.
  exact (convert_forest_cost (PyInt 0) (mk_pyleaf kind bits) eqb' nf Hnf eqb'_refl trees n1 r1 l1 (ft_trees _ _ _ Hfit) HC Ex).
Qed.

Theorem c_loop_cost nf n trees classifier lb dt w m :
  convertible_model nf n trees classifier lb -> 1 <= n <= 127 ->
  wrapper_init classifier (Some MLoadable) dt lb trees nf n = Ret w -> fits_c (forest_nodes (w_forest w)) ->
  save_loadable w = Ret m ->
  Forall2 (fun t root => forall features, nf <= zlen features ->
     exists steps, evaluates t (go_lt features) 0 steps /\ takes m features root (Z.max 1 steps) /\
       forall d, depth t 0 d -> steps <= d) trees (et_tree_roots m).
Proof.
  intros HM Hn HI HF HS. apply wrapper_init_Ret in HI as (EC & _).
  assert (G : exists P kind bits PL, choose_leaf_bits classifier lb = bits /\ choose_leaf classifier bits = kind /\
     fitted nf P trees /\ (forall row, P row -> exists l, mk_pyleaf kind bits row = Ret l /\ PL l) /\
     (forall l, PL l -> pyleaf_eqb l l = true)).
  { destruct HM as [(-> & Hlb & Hfit)|[(-> & (b & -> & Hb) & Hfit)|(-> & Hlb & Hfit)]].
    - exists (class_row n), LeafArgmax, 0, (hard_leaf n). split; [exact (hard_bits lb Hlb)|].
      split; [reflexivity|]. split; [exact Hfit|]. split; [intros; now apply hard_mk|apply hard_leaf_eqb].
    - destruct (soft_bits b Hb) as [S1 S2]. exists (proba_row n), LeafProbabilities, b, (soft_leaf n).
      split; [exact S1|]. split; [exact S2|]. split; [exact Hfit|]. split; [intros; now apply soft_mk|apply soft_leaf_eqb].
    - exists value_row, LeafValue, 32, val_leaf. split; [exact (val_bits lb Hlb)|].
      split; [reflexivity|]. split; [exact Hfit|]. split; [intros; now apply val_mk|apply val_leaf_eqb]. }
  destruct G as (P & kind & bits & PL & G1 & G2 & Hfit & Hmk & Heq). rewrite G1, G2 in EC.
  destruct (w_forest w) as [[nodes roots] leaves] eqn:Ew. cbn [forest_nodes fst] in HF.
  destruct (facts_cost nf P trees kind bits PL nodes roots leaves Hfit Hmk Heq EC) as (HV & HR & HC).
  destruct (generate_c_nodes_ok nf (zlen leaves) nodes HV HF) as (cn & Ecn & Hlen & Hof).
  unfold save_loadable, generate_c_loadable in HS. rewrite Ew in HS. rewrite Ecn in HS. cbn [bind] in HS.
  apply bind_Ret in HS as (lv & _ & HS). inv HS. unfold takes. cbn [et_nodes et_tree_roots].
  assert (Hsz : zlen nodes <= 2147483647) by (destruct HF as [Hsz _]; lia).
  assert (WT := ft_trees _ _ _ Hfit).
  clear - WT HC HR HV HF Hof Hsz. revert WT HR. induction HC as [|t root ts rs Hc HC IH]; intros WT HR; [constructor|].
  apply Forall_cons_iff in WT as [W1 W2]. apply Forall_cons_iff in HR as [R1 R2].
  cbn [map]. constructor; [|apply IH; auto].
  intros features Hfeat. destruct (evaluates_total nf t W1 (go_lt features)) as (k & Ek & Hk).
  exists k. split; [exact Ek|]. rewrite to_int32_id by (unfold int32_ok; lia).
  split; [|intros d Hd; exact (evaluates_depth t _ 0 k d Ek Hd)].
  destruct (loop_cost nf (zlen leaves) nodes cn features HV HF Hof Hfeat root (Z.max 1 k) (Hc _ _ Ek)) as [_ L]; [lia|].
  split; intros fuel Hfu; apply (L fuel); auto.
Qed.
