(** C06, C11, C14, C15, C16. *)
From Coq Require Import ZArith List Bool Lia Reals Lra.
From Flocq Require Import Core BinarySingleNaN.
From Verif.Base Require Import Res CInt ListX Float Loops.
From Verif.Model Require Import Common TreesConvert TreesC TreesInline TreesWrapper.
From Verif.Spec Require Import TreesSpec TreesCSpec VoteSpec ClassifierSpec CsvSpec.
From Verif.Proof Require Import TreesFlatten TreesForest TreesLeaves TreesWalk Vote TreesEnd TreesHard
  Quantize TreesSoft TreesNodes TreesTop TreesApi TreesRegress.
Import ListNotations.
Open Scope Z_scope.
Open Scope res_scope.

(** ** C06 *)
Lemma encode_child_Ret i c e : encode_child i c = Ret e ->
  -32768 <= e <= 32768 /\ abs_child i e = c.
Proof.
  unfold encode_child. intros H. invbind H. inv H.
  assert (R : -32768 <= e <= 32768).
  { unfold assert_valid_child in *. match goal with H : bind _ _ = Ret _ |- _ => invbind H; rename H into HA end.
    apply py_assert_Ret in HA.
    match goal with H : py_assert (- 2 ^ 15 <=? _) = Ret _ |- _ => apply py_assert_Ret in H; rename H into HB end.
    change (- 2 ^ 15) with (-32768) in HB. change (2 ^ 15) with 32768 in HA. lia. }
  split; auto. unfold abs_child. destruct (Z.leb_spec 0 c).
  - invbind E. inv E. apply py_assert_Ret in E1. destruct (Z.leb_spec 0 (c - i)); lia.
  - inv E. destruct (Z.leb_spec 0 e); lia.
Qed.

Lemma encode_child_fits i c e : encode_child i c = Ret e -> e <> 32768 ->
  int16_ok e /\ abs_child i (to_int16 e) = c.
Proof.
  intros H Hne. apply encode_child_Ret in H as [R E]. assert (int16_ok e) by (unfold int16_ok; lia).
  rewrite to_int16_id by auto. auto.
Qed.

(** ** C11 *)
Lemma ftrunc_real (th : f64) : ftrunc th = Ztrunc (B2R th).
Proof.
  apply eq_IZR. unfold ftrunc. rewrite (Btrunc_correct 53 1024 eq_refl). apply (round_FIX0 Ztrunc).
Qed.

(** The generated comparison against scikit-learn's. *)
Lemma branch_agree (x : Z) (th : f64) :
  ((x <? ftrunc th) = true <-> (IZR x <= B2R th)%R) <->
  (x <> Ztrunc (B2R th) \/ (B2R th < IZR x)%R).
Proof.
  rewrite ftrunc_real. set (t := B2R th).
  assert (Hlt : (x <? Ztrunc t) = true <-> x < Ztrunc t) by apply Z.ltb_lt.
  destruct (Rle_or_lt 0 t) as [H0|H0].
  - rewrite Ztrunc_floor in * by auto.
    pose proof (Zfloor_lb t) as L1. pose proof (Zfloor_ub t) as L2.
    destruct (Z.lt_trichotomy x (Zfloor t)) as [H|[H|H]].
    + pose proof (IZR_lt _ _ H) as H'. split; intros _; [left; lia|].
      rewrite Hlt. split; auto. intros _. lra.
    + subst x. split.
      * intros [_ I2]. specialize (I2 L1). apply Hlt in I2. lia.
      * intros [?|?]; [congruence|lra].
    + assert (Zfloor t + 1 <= x) as H' by lia. apply IZR_le in H'. rewrite plus_IZR in H'.
      split; intros _; [left; lia|]. rewrite Hlt. split; [lia|]. intros. lra.
  - rewrite Ztrunc_ceil in * by lra.
    pose proof (Zceil_ub t) as L1. pose proof (Zceil_lb t) as L2.
    destruct (Z.lt_trichotomy x (Zceil t)) as [H|[H|H]].
    + assert (x + 1 <= Zceil t) as H' by lia. apply IZR_le in H'. rewrite plus_IZR in H'.
      split; intros _; [left; lia|]. rewrite Hlt. split; auto. intros _. lra.
    + subst x. split.
      * intros [_ I2]. right. destruct L1 as [?|L1]; auto. rewrite <- L1 in I2. specialize (I2 (Rle_refl _)).
        apply Hlt in I2. lia.
      * intros [?|?]; [congruence|]. rewrite Hlt. split; [lia|lra].
    + pose proof (IZR_lt _ _ H) as H'. split; intros _; [left; lia|]. rewrite Hlt. split; [lia|]. intros. lra.
Qed.

(** All integer features are treated alike iff the threshold is negative and not an integer. *)
Lemma branch_agree_all (th : f64) :
  (forall x, ((x <? ftrunc th) = true <-> (IZR x <= B2R th)%R)) <->
  (B2R th < 0)%R /\ (forall k, B2R th <> IZR k).
Proof.
  split.
  - intros H. destruct (proj1 (branch_agree _ th) (H (Ztrunc (B2R th)))) as [?|H1]; [congruence|].
    destruct (Rle_or_lt 0 (B2R th)) as [H0|H0].
    + rewrite Ztrunc_floor in H1 by auto. pose proof (Zfloor_lb (B2R th)). lra.
    + split; auto. intros k E. rewrite E, Ztrunc_IZR in H1. lra.
  - intros [H0 Hk] x. apply branch_agree.
    destruct (Z.eq_dec x (Ztrunc (B2R th))) as [->|?]; auto. right.
    rewrite Ztrunc_ceil by lra. pose proof (Zceil_ub (B2R th)) as [?|E]; auto. exfalso. now apply (Hk _ E).
Qed.

(** ** C14: wrapper *)
Lemma f32_to_int16_ok x : int16_ok x -> f32_to_int16 (f_of_Z x) = Ret x.
Proof.
  intros H. unfold int16_ok in H. destruct (@f_of_Z_exact 24 128 _ _ x) as [B F]; [lia|].
  assert (T : ftrunc (f_of_Z x : f32) = x).
  { apply eq_IZR. unfold ftrunc. rewrite Btrunc_correct by reflexivity. rewrite round_FIX0 by auto with typeclass_instances.
    now rewrite B, Ztrunc_IZR. }
  unfold f32_to_int16. destruct (f_of_Z x : f32) as [s|s| |s m e Bd] eqn:E; try discriminate; rewrite T;
  (destruct (Z.leb_spec (-32768) x); [|lia]); (destruct (Z.leb_spec x 32767); [|lia]); reflexivity.
Qed.

Lemma wrapper_features_ok nf values features :
  Forall2 (fun v x => f32_to_int16 v = Ret x) values features -> zlen values <= nf ->
  exists tl, wrapper_features nf values = Ret (features ++ tl) /\ zlen (features ++ tl) = nf.
Proof.
  intros HF Hl. unfold wrapper_features.
  pose proof (zlen_nonneg values) as Hv0.
  pose proof (Forall2_zlen _ _ _ HF) as Hlen.
  assert (G : forall n, 0 <= n <= zlen values -> exists fs,
     foldM (fun fs i => let* v := zget values i in let* x := f32_to_int16 v in zset fs i x)
       (repeat 0 (Z.to_nat nf)) (zrange n) = Ret fs /\ zlen fs = nf /\
     forall i, 0 <= i < n -> zget fs i = zget features i).
  { intros n Hn. eapply (foldM_range_inv _ (fun n fs => zlen fs = nf /\ forall i, 0 <= i < n -> zget fs i = zget features i)).
    - lia.
    - split; [rewrite zlen_repeat; lia|intros; lia].
    - intros i fs Hi [L G]. destruct (zget_ok values i ltac:(lia)) as [v Hv]. rewrite Hv. cbn [bind].
      destruct (Forall2_zget _ _ _ _ _ HF Hv) as (x & Hx & Ex). rewrite Ex. cbn [bind].
      exists (list_set fs (Z.to_nat i) x). split; [apply zset_ok; lia|]. split; [now rewrite zlen_list_set|].
      intros j Hj. rewrite zget_list_set by lia. destruct (Z.eqb_spec i j).
      + subst. auto.
      + apply G. lia. }
  destruct (G (zlen values)) as (fs & E & L & Hg); [lia|].
  exists (skipn (length features) fs). rewrite E.
  assert (Q : fs = features ++ skipn (length features) fs).
  { rewrite <- (firstn_skipn (length features) fs) at 1. f_equal.
    apply zget_eq.
    - unfold zlen in *. rewrite firstn_length. lia.
    - intros i Hi. assert (Hi' : 0 <= i < zlen features) by (unfold zlen in *; rewrite firstn_length in Hi; lia).
      rewrite <- Hg by lia. destruct (zget_ok fs i) as [a Ha]; [lia|]. rewrite Ha.
      apply zget_Ret in Ha as [Ha0 Ha]. apply zget_Ret. split; auto.
      rewrite <- (firstn_skipn (length features) fs) in Ha. rewrite nth_error_app1 in Ha; auto.
      rewrite firstn_length. unfold zlen in *. lia. }
  rewrite <- Q. auto.
Qed.

(** A row with too few columns, or a model with 31..127 classes: every prediction is "class 3". *)
Lemma wrapper_short_row (m : eml_trees) nf values features :
  Forall2 (fun v x => f32_to_int16 v = Ret x) values features -> zlen values < nf -> nf <= 127 ->
  et_n_features m = nf -> predict_wrapper_loadable m nf values = Ret 3.
Proof.
  intros HF Hl Hnf He. unfold predict_wrapper_loadable.
  destruct (wrapper_features_ok nf values features HF ltac:(lia)) as (tl & E & _). rewrite E. cbn [bind].
  unfold eml_trees_predict. pose proof (zlen_nonneg values).
  rewrite to_int8_id by (unfold int8_ok; lia). rewrite He.
  destruct (Z.eqb_spec (zlen values) nf); [lia|]. reflexivity.
Qed.

Lemma wrapper_many_classes (m : eml_trees) nf values features :
  Forall2 (fun v x => f32_to_int16 v = Ret x) values features -> zlen values <= nf -> 
  30 < et_n_classes m -> predict_wrapper_loadable m nf values = Ret 3.
Proof.
  intros HF Hl Hn. unfold predict_wrapper_loadable.
  destruct (wrapper_features_ok nf values features HF ltac:(lia)) as (tl & E & _). rewrite E. cbn [bind].
  unfold eml_trees_predict. destruct (negb _); [reflexivity|].
  unfold EMTREES_MAX_CLASSES. destruct (Z.ltb_spec 30 (et_n_classes m)); [reflexivity|lia].
Qed.

Theorem wrapper_predict_hard nf n trees lb dt w m features cs :
  fitted nf (class_row n) trees -> 1 <= n <= 30 -> hard_args lb -> zlen trees < 2 ^ 24 ->
  wrapper_init true (Some MLoadable) dt lb trees nf n = Ret w ->
  fits_c (forest_nodes (w_forest w)) -> save_loadable w = Ret m ->
  zlen features = nf -> Forall int16_ok features ->
  Forall2 (tree_class features) trees cs ->
  exists c, predict_wrapper_loadable m nf (map f_of_Z features) = Ret c /\ majority n cs c.
Proof.
  intros Hfit Hn Hlb Hnt Hw HF Hm Hl Hi HC.
  destruct (api_predict nf n trees lb dt w m Hfit ltac:(lia) Hlb Hnt Hw HF Hm features cs ltac:(lia) Hl HC) as (c & E & M).
  exists c. split; auto. unfold predict_wrapper_loadable.
  destruct (wrapper_features_ok nf (map f_of_Z features) features) as (tl & Ef & L).
  - clear -Hi. induction Hi; constructor; auto. now apply f32_to_int16_ok.
  - rewrite zlen_map. lia.
  - rewrite Ef. cbn [bind]. rewrite zlen_map.
    assert (tl = []). { rewrite zlen_app in L. destruct tl; auto. rewrite zlen_cons in L. pose proof (zlen_nonneg tl). lia. }
    subst tl. rewrite app_nil_r, Hl, E. cbn [bind]. destruct M as (M & _). unfold flip_negative.
    destruct (Z.ltb_spec c 0); [lia|]. reflexivity.
Qed.

(** ** C15 *)
Lemma save_nodes_count w m : save_loadable w = Ret m -> zlen (et_nodes m) = model_size_nodes w.
Proof.
  unfold save_loadable, model_size_nodes. destruct (w_forest w) as [[nodes roots] leaves].
  unfold generate_c_loadable. intros H. invbind H. inv H. cbn [et_nodes].
  unfold generate_c_nodes in E. apply mapM_Ret in E.
  rewrite <- (Forall2_zlen _ _ _ E). apply enumerate_zlen.
Qed.

Lemma flat_map_len (leaves : list pyleaf) (g : pyleaf -> list Z) k :
  Forall (fun l => zlen (g l) = k) leaves -> zlen (flat_map g leaves) = k * zlen leaves.
Proof.
  induction 1; [unfold zlen; simpl; lia|]. simpl flat_map. rewrite zlen_app, zlen_cons, IHForall, H. lia.
Qed.

(** Table bytes per leaf of a converted model. *)
Lemma leaf_table_bytes w m (k : Z) : save_loadable w = Ret m ->
  (w_leaf_bits w = 0 -> k = 1) -> (w_leaf_bits w = 32 -> k = 4) ->
  (w_leaf_bits w <> 0 -> w_leaf_bits w <> 32 -> forall l, In l (snd (w_forest w)) -> zlen (leaf_u8_bytes l) = k) ->
  zlen (et_leaves m) = k * model_size_leaves w.
Proof.
  unfold save_loadable, model_size_leaves. destruct (w_forest w) as [[nodes roots] leaves]. cbn [snd].
  intros H K0 K32 K8. unfold generate_c_loadable in H. invbind H. inv H. cbn [et_leaves].
  rename a0 into lv. rename E0 into ET. unfold leaves_table in ET. 
  destruct (Z.eqb_spec (w_leaf_bits w) 0).
  - invbind ET. inv ET. rewrite K0 by auto. apply mapM_Ret in E0. rewrite zlen_map, <- (Forall2_zlen _ _ _ E0). lia.
  - destruct (Z.eqb_spec (w_leaf_bits w) 32).
    + invbind ET. inv ET. apply py_assert_Ret in E0. rewrite K32 by auto. lia.
    + destruct (w_leaf_bits w <=? 8); [|discriminate]. inv ET. apply flat_map_len.
      apply Forall_forall. auto.
Qed.

(** ** C16 *)
Definition round_node (n : dnode pynum) : dnode pynum :=
  match d_value n with
  | PyFloat x => mk_dnode (d_feature n) (PyFloat (np_round6 x)) (d_left n) (d_right n)
  | PyInt _ => n
  end.
Definition float_threshold (n : dnode pynum) : Prop := exists x, d_value n = PyFloat x.

Lemma csv_leaves_app a b : csv_leaves (a ++ b) = csv_leaves a ++ csv_leaves b.
Proof. apply flat_map_app. Qed.
Lemma csv_roots_app a b : csv_roots (a ++ b) = csv_roots a ++ csv_roots b.
Proof. apply flat_map_app. Qed.
Lemma csv_nodes_app a : forall b i, csv_nodes_from i (a ++ b) =
  csv_nodes_from i a ++ csv_nodes_from (i + zlen (csv_nodes_from i a)) b.
Proof.
  induction a as [|r a IH]; intros b i.
  - simpl. now replace (i + zlen (A := dnode pynum) []) with i by (unfold zlen; simpl; lia).
  - cbn [app csv_nodes_from]. rewrite IH, <- app_assoc, zlen_app. do 3 f_equal. lia.
Qed.
Lemma csv_leaves_leaf l : csv_leaves (map RLeaf l) = l.
Proof. induction l; simpl; congruence. Qed.
Lemma csv_roots_leaf l : csv_roots (map RLeaf l) = [].
Proof. induction l; simpl; congruence. Qed.
Lemma csv_roots_root l : csv_roots (map RRoot l) = l.
Proof. induction l; simpl; congruence. Qed.
Lemma csv_leaves_root l : csv_leaves (map RRoot l) = [].
Proof. induction l; simpl; congruence. Qed.
Lemma csv_nodes_leaf l i : csv_nodes_from i (map RLeaf l) = [].
Proof. revert i; induction l; intros; simpl; auto. Qed.
Lemma csv_nodes_root l i : csv_nodes_from i (map RRoot l) = [].
Proof. revert i; induction l; intros; simpl; auto. Qed.

Definition is_rnode (r : csv_record) : Prop := match r with RNode _ _ _ _ => True | _ => False end.
Lemma csv_rnodes_none l : Forall is_rnode l -> csv_leaves l = [] /\ csv_roots l = [].
Proof. induction 1 as [|r l Hr _ [IH1 IH2]]; auto. destruct r; try destruct Hr. simpl. auto. Qed.

Lemma serialize_node_inv i n r : serialize_node i n = Ret r ->
  is_rnode r /\ float_threshold n /\ csv_node i r = [round_node n].
Proof.
  unfold serialize_node. intros H. invbind H. apply encode_child_Ret in E as [_ E]. apply encode_child_Ret in E0 as [_ E0].
  unfold float_threshold, round_node. destruct (d_value n) as [|x]; [discriminate|]. inv H. simpl.
  split; auto. split; [eauto|]. now rewrite E, E0.
Qed.

Lemma csv_nodes_ok rs : forall (ns : list (dnode pynum)) i,
  Forall2 (fun '(j, n) r => serialize_node j n = Ret r) (combine (map (fun k => i + Z.of_nat k) (seq 0 (length ns))) ns) rs ->
  csv_nodes_from i rs = map round_node ns /\ Forall is_rnode rs /\ Forall float_threshold ns.
Proof.
  induction rs as [|r rs IH]; intros ns i H.
  - destruct ns; [auto|]. inversion H.
  - destruct ns as [|n ns]; [inversion H|]. cbn [length seq map combine] in H.
    inversion H as [|? ? ? ? Hr Hrs]; subst. rewrite Z.add_0_r in Hr.
    apply serialize_node_inv in Hr as (H1 & H2 & H3).
    destruct (IH ns (i + 1)) as (I1 & I2 & I3).
    { rewrite <- seq_shift, map_map in Hrs.
      erewrite map_ext; [exact Hrs|]. intros k. cbv beta. lia. }
    cbn [csv_nodes_from]. rewrite H3. change (zlen [round_node n]) with 1. rewrite I1. auto.
Qed.

Theorem save_csv_decode w rs : save_csv w = Ret rs ->
  let '(nodes, roots, leaves) := w_forest w in
  csv_decode rs = (map round_node nodes, roots, leaves) /\ Forall float_threshold nodes /\
  exists tl, rs = RFeatures (w_n_features w) :: RClasses (w_n_classes w) :: RLeafBits (w_leaf_bits w) :: tl.
Proof.
  unfold save_csv. destruct (w_forest w) as [[nodes roots] leaves]. intros H. invbind H. inv H.
  rename a into ns. apply mapM_Ret in E.
  assert (E' : Forall2 (fun '(j, n) r => serialize_node j n = Ret r)
     (combine (map (fun k => 0 + Z.of_nat k) (seq 0 (length nodes))) nodes) ns).
  { unfold enumerate, zrange, zlen in E. rewrite Nat2Z.id in E.
    erewrite map_ext; [|intros; apply Z.add_0_l]. 
    eapply Forall2_impl_In; [exact E|]. intros [j n] r _ _ Q. exact Q. }
  apply csv_nodes_ok in E' as (N1 & N2 & N3). apply csv_rnodes_none in N2 as [N4 N5].
  split; [|split; [auto|eexists; reflexivity]].
  unfold csv_decode. f_equal; [f_equal|].
  - change (csv_nodes_from 0 (map RLeaf leaves ++ map RRoot roots ++ ns) = map round_node nodes).
    rewrite csv_nodes_app, csv_nodes_leaf. cbn [app]. rewrite csv_nodes_app, csv_nodes_root. cbn [app].
    exact N1.
  - change (csv_roots (map RLeaf leaves ++ map RRoot roots ++ ns) = roots).
    rewrite !csv_roots_app, csv_roots_leaf, csv_roots_root, N5. cbn. now rewrite app_nil_r.
  - change (csv_leaves (map RLeaf leaves ++ map RRoot roots ++ ns) = leaves).
    rewrite !csv_leaves_app, csv_leaves_leaf, csv_leaves_root, N4. cbn. now rewrite app_nil_r.
Qed.

(** It succeeds exactly when every threshold is a float and every reference is accepted. *)
Theorem save_csv_total w nf : let '(nodes, roots, leaves) := w_forest w in
  valid_nodes nf (zlen leaves) nodes ->
  (forall i n, zget nodes i = Ret n -> child_fits i (d_left n) /\ child_fits i (d_right n)) ->
  Forall float_threshold nodes -> exists rs, save_csv w = Ret rs.
Proof.
  unfold save_csv. destruct (w_forest w) as [[nodes roots] leaves]. intros HV HC HF.
  destruct (mapM_ok (fun '(i, n) => serialize_node i n) (enumerate nodes)) as [ns Hns].
  - intros [i n] Hin. apply enumerate_In in Hin.
    destruct (HV i n Hin) as (_ & V1 & V2). destruct (HC i n Hin) as (C1 & C2).
    pose proof (zget_bound _ _ _ Hin).
    destruct (encode_child_ok (zlen nodes) (zlen leaves) i (d_left n)) as (E1 & _); auto; try lia.
    destruct (encode_child_ok (zlen nodes) (zlen leaves) i (d_right n)) as (E2 & _); auto; try lia.
    unfold serialize_node. rewrite E1, E2. cbn [bind]. rewrite Forall_forall in HF.
    destruct (HF n) as [x Hx]; [eapply zget_In; eauto|]. rewrite Hx. eauto.
  - rewrite Hns. cbn [bind]. eauto.
Qed.

(** Six decimals are enough for numbers that have six decimals. *)
Lemma np_round6_exact (x : f64) k : is_finite x = true -> (B2R x * 1000000 = IZR k)%R -> Z.abs k <= 2 ^ 53 ->
  B2R (np_round6 x) = B2R x /\ is_finite (np_round6 x) = true.
Proof.
  intros F E Hk. unfold np_round6, f64_1e6.
  destruct (@f_of_Z_exact 53 1024 _ _ 1000000) as [B6 F6]; [lia|].
  assert (Hk' : (Rabs (IZR k) <= IZR (2 ^ 53))%R) by (rewrite <- abs_IZR; now apply IZR_le).
  destruct (@fmul_correct 53 1024 _ _ x (f_of_Z 1000000) F F6) as [M1 M2].
  { rewrite B6, E. exact Hk'. }
  rewrite B6, E in M1. rewrite (@rnd_int 53 1024 _ _ k Hk) in M1.
  assert (R : B2R (frint (fmul x (f_of_Z 1000000))) = IZR k /\ is_finite (frint (fmul x (f_of_Z 1000000))) = true).
  { unfold frint. destruct (Bnearbyint_correct 53 1024 _ mode_NE (fmul x (f_of_Z 1000000))) as (N1 & N2 & _).
    rewrite N1, N2, M1. simpl round_mode. rewrite round_FIX0 by auto with typeclass_instances.
    split; auto. now rewrite (Zrnd_IZR ZnearestE). }
  destruct R as [R1 R2].
  destruct (@fdiv_correct 53 1024 _ _ (frint (fmul x (f_of_Z 1000000))) (f_of_Z 1000000) R2) as [D1 D2].
  - rewrite B6. lra.
  - rewrite R1, B6. unfold Rdiv. rewrite Rabs_mult.
    assert (Rabs (/ 1000000) <= 1)%R by (rewrite Rabs_pos_eq; lra).
    pose proof (Rabs_pos (IZR k)). pose proof (Rabs_pos (/ 1000000)).
    apply Rle_trans with (Rabs (IZR k) * 1)%R; [apply Rmult_le_compat_l; auto|lra].
  - split; auto. rewrite D1, R1, B6, <- E. replace (B2R x * 1000000 / 1000000)%R with (B2R x) by field.
    apply round_generic; auto with typeclass_instances. apply generic_format_B2R.
Qed.
