(** Regression (C13): the byte table gives back the float32 leaf values. *)
From Coq Require Import ZArith List Bool Lia Reals Lra.
From Flocq Require Import Core BinarySingleNaN Bits Plus_error.
From Verif.Base Require Import Res CInt ListX Float Loops.
From Verif.Model Require Import Common TreesConvert TreesC TreesInline TreesWrapper.
From Verif.Spec Require Import TreesSpec TreesCSpec VoteSpec ClassifierSpec.
From Verif.Proof Require Import TreesFlatten TreesForest TreesLeaves TreesWalk Vote TreesEnd TreesHard
  TreesSoft TreesNodes TreesTop.
Import ListNotations.
Open Scope Z_scope.
Open Scope res_scope.

(** Four little-endian bytes of a float give the float back. *)
Lemma f32_bits_range x : 0 <= f32_bits x < 2 ^ 32.
Proof. apply (bits_of_binary_float_range 23 8); reflexivity. Qed.

Lemma f32_of_bits_bits x : f32_of_bits (f32_bits x) = x.
Proof.
  unfold f32_of_bits, f32_bits, b32_of_bits, bits_of_b32.
  rewrite (binary_float_of_bits_of_binary_float 23 8 eq_refl eq_refl eq_refl).
  apply Binary.B2BSN_BSN2B.
Qed.

Lemma bytes_roundtrip b : 0 <= b < 2 ^ 32 ->
  bits_of_bytes (b mod 256) ((b / 256) mod 256) ((b / 65536) mod 256) ((b / 16777216) mod 256) = b.
Proof.
  intros H. unfold bits_of_bytes. change (2 ^ 32) with 4294967296 in H.
  pose proof (Z.div_mod b 256 ltac:(lia)). 
  pose proof (Z.div_mod (b / 256) 256 ltac:(lia)).
  pose proof (Z.div_mod (b / 65536) 256 ltac:(lia)).
  assert (E1 : b / 65536 = b / 256 / 256) by (rewrite Z.div_div by lia; reflexivity).
  assert (E2 : b / 16777216 = b / 65536 / 256) by (rewrite Z.div_div by lia; reflexivity).
  rewrite (Z.mod_small (b / 16777216)).
  - lia.
  - split; [apply Z.div_pos; lia|]. apply Z.div_lt_upper_bound; lia.
Qed.

(** The sum does not depend on the sign of zero values. *)
Definition negzero : f32 := B754_zero true.
Definition zeq (a b : f32) : Prop := a = b \/ exists s t, a = B754_zero s /\ b = B754_zero t.

Lemma fadd_zeq s a b : s <> negzero -> zeq a b -> fadd s a = fadd s b.
Proof.
  intros Hs [->|(u & v & -> & ->)]; auto.
  destruct s as [[]|[]| |[]]; try reflexivity; try (now destruct u, v); exfalso; apply Hs; reflexivity.
Qed.

Lemma fadd_nonneg0 s y : s <> negzero -> fadd s y <> negzero.
Proof.
  intros Hs E. destruct (is_finite s && is_finite y) eqn:F.
  - apply andb_true_iff in F as [F1 F2].
    pose proof (Bplus_correct 24 128 _ _ mode_NE s y F1 F2) as C. unfold fadd in E.
    rewrite E in C. destruct (Rlt_bool _ _) in C.
    + destruct C as (C1 & _ & C3). simpl round_mode in C1. change (B2R negzero) with 0%R in C1. symmetry in C1.
      apply round_plus_eq_0 in C1.
      * rewrite C1, Rcompare_Eq in C3 by auto. cbn [Bsign negzero] in C3. symmetry in C3.
        apply andb_true_iff in C3 as [S1 S2].
        destruct s as [s1|s1| |s1 m1 e1 B1]; try discriminate; destruct y as [s2|s2| |s2 m2 e2 B2]; try discriminate;
          simpl in S1, S2; subst.
        -- apply Hs; reflexivity.
        -- simpl in C1. unfold F2R in C1; simpl in C1.
           pose proof (bpow_gt_0 radix2 e1). pose proof (bpow_gt_0 radix2 e2).
           assert (IZR (Z.neg m1) < 0)%R by (apply IZR_lt; lia).
           assert (IZR (Z.neg m2) < 0)%R by (apply IZR_lt; lia).
           assert (IZR (Z.neg m1) * bpow radix2 e1 < 0)%R by (apply Ropp_lt_cancel; rewrite Ropp_0, Ropp_mult_distr_l; apply Rmult_lt_0_compat; lra).
           assert (IZR (Z.neg m2) * bpow radix2 e2 < 0)%R by (apply Ropp_lt_cancel; rewrite Ropp_0, Ropp_mult_distr_l; apply Rmult_lt_0_compat; lra).
           lra.
      * apply FLT_exp_valid. reflexivity.
      * apply monotone_exp_not_FTZ; [apply FLT_exp_valid; reflexivity|apply FLT_exp_monotone].
      * auto with typeclass_instances.
      * apply generic_format_B2R.
      * apply generic_format_B2R.
    + destruct C as [C _]. discriminate.
  - destruct s as [[]|[]| |s1 ? ? ?]; destruct y as [[]|[]| |s2 ? ? ?]; try discriminate.
Qed.

Lemma fold_fadd_zeq la lb s : Forall2 zeq la lb -> s <> negzero -> fold_left fadd la s = fold_left fadd lb s.
Proof.
  intros H; revert s; induction H; intros s Hs; auto. simpl. rewrite (fadd_zeq s x y) by auto.
  apply IHForall2. now apply fadd_nonneg0.
Qed.

(** Equal (C comparison) doubles convert to equal floats, up to the sign of zero. *)
Lemma beqb_zeq (x y : f64) : Beqb x y = true -> zeq (f32_of_f64 x) (f32_of_f64 y).
Proof.
  intros H. destruct x as [s|s| |s m e B]; destruct y as [t|t| |t m' e' B'];
    try discriminate; try (destruct s; discriminate); try (destruct t; discriminate); try (destruct s, t; discriminate).
  - right. simpl. eauto.
  - left. destruct s, t; auto; discriminate.
  - left. unfold Beqb, SpecFloat.SFeqb in H. cbn in H.
    assert (E : s = t /\ e = e' /\ m = m').
    { destruct s, t; try discriminate; destruct (Z.compare_spec e e'); try discriminate; subst;
      fold (Pos.compare m m') in H; destruct (Pos.compare_spec m m'); try discriminate; auto. }
    destruct E as (-> & -> & ->). reflexivity.
Qed.

(** Nearest float32. *)
Lemma f32_of_f64_correct (x : f64) : is_finite x = true ->
  (Rabs (rnd32 (B2R x)) < bpow radix2 128)%R ->
  B2R (f32_of_f64 x) = rnd32 (B2R x) /\ is_finite (f32_of_f64 x) = true.
Proof.
  intros F H. destruct x as [s|s| |s m e B]; try discriminate.
  - simpl. rewrite round_0 by auto with typeclass_instances. auto.
  - unfold f32_of_f64, f_convert.
    pose proof (binary_normalize_correct 24 128 _ _ mode_NE (cond_Zopp s (Zpos m)) e s) as C.
    cbv zeta in C. simpl round_mode in C. change (F2R (Float radix2 (cond_Zopp s (Z.pos m)) e)) with (B2R (B754_finite s m e B)) in C.
    rewrite Rlt_bool_true in C by auto. destruct C as (C1 & C2 & _). auto.
Qed.

Section Regress.
Variables (nf : Z) (trees : sk_forest) (dt : option dtype_arg) (nc : Z) (w : wrapper) (m : eml_trees).
Variable lb : option Z.
Hypothesis Hlb : In lb [None; Some 32].
Hypothesis Hfit : fitted nf value_row trees.
Hypothesis Hnt : zlen trees < 2 ^ 31.
Definition val_leaf (l : pyleaf) : Prop := exists x, l = LValue x /\ is_finite x = true.

Lemma val_mk bits row : value_row row -> exists l, mk_pyleaf LeafValue bits row = Ret l /\ val_leaf l.
Proof. intros (x & -> & F). simpl. eexists; split; [reflexivity|]. exists x; auto. Qed.
Lemma val_leaf_eqb l : val_leaf l -> pyleaf_eqb l l = true.
Proof. intros (x & -> & F). simpl. apply beqb_refl. destruct x; auto; discriminate. Qed.

Lemma val_forest : exists nodes roots leaves,
  convert_forest (PyInt 0) (mk_pyleaf LeafValue 32) pyleaf_eqb trees = Ret (nodes, roots, leaves) /\
  forest_facts nf trees val_leaf LeafValue 32 nodes roots leaves /\
  (small_model nf trees -> fits_c nodes).
Proof. apply convert_facts with (P := value_row); auto. { intros; now apply val_mk. } apply val_leaf_eqb. Qed.

Lemma val_bits : choose_leaf_bits false lb = 32.
Proof. destruct Hlb as [<-|[<-|[]]]; reflexivity. Qed.

Lemma val_init method dtype : In dtype [None; Some DInt16] -> method <> Some MUnknown ->
  nf <= (match method with Some MLoadable => 127 | _ => 10000 end) ->
  exists w, wrapper_init false method dtype lb trees nf nc = Ret w /\
    (small_model nf trees -> fits_c (forest_nodes (w_forest w))).
Proof.
  intros Hd Hm Hf. destruct val_forest as (nodes & roots & leaves & E & _ & HS).
  unfold wrapper_init. rewrite val_bits. change (choose_leaf false 32) with LeafValue. rewrite E. cbn [bind].
  destruct method as [[]|]; try congruence; destruct Hd as [<-|[<-|[]]]; cbn [bind];
  (match goal with |- context [?a <? ?b] => destruct (Z.ltb_spec a b); [lia|] end);
  (eexists; split; [reflexivity|]; auto).
Qed.

Lemma zget4 (a b c d : Z) : zget [a; b; c; d] 0 = Ret a /\ zget [a; b; c; d] 1 = Ret b /\
  zget [a; b; c; d] 2 = Ret c /\ zget [a; b; c; d] 3 = Ret d.
Proof. auto. Qed.

Lemma bytes_table leaves : Forall val_leaf leaves ->
  exists lv, leaves_table leaves 32 = Ret lv /\ zlen lv = 4 * zlen leaves /\
   forall k x, zget leaves k = Ret (LValue x) -> read_f32 lv (k * 4) = Ret (f32_of_f64 x).
Proof.
  intros HP. unfold leaves_table. change (32 =? 0) with false. change (32 =? 32) with true. cbv iota zeta.
  rewrite flat_map_concat_map.
  assert (Hr : Forall (fun r => zlen r = 4) (map leaf_f32_bytes leaves)).
  { apply Forall_map. eapply Forall_impl; [|exact HP]. intros l (x & -> & _). reflexivity. }
  assert (Hl : zlen (concat (map leaf_f32_bytes leaves)) = 4 * zlen leaves).
  { rewrite <- (zlen_map leaf_f32_bytes). clear HP. induction Hr; [reflexivity|].
    simpl concat. rewrite zlen_app, zlen_cons, IHHr, H. lia. }
  rewrite Hl, Z.eqb_refl. cbn [py_assert bind]. eexists; split; [reflexivity|]. split; [exact Hl|].
  intros k x Hk.
  assert (Hk' : zget (map leaf_f32_bytes leaves) k = Ret (bytes_of_bits (f32_bits (f32_of_f64 x)))).
  { apply zget_map_Ret. exists (LValue x). auto. }
  unfold read_f32.
  replace (k * 4) with (k * 4 + 0) at 1 by lia.
  rewrite !(zget_concat _ 4 k _ _ ltac:(lia) Hr Hk') by lia.
  unfold bytes_of_bits. destruct (zget4 (f32_bits (f32_of_f64 x) mod 256) ((f32_bits (f32_of_f64 x) / 256) mod 256)
    ((f32_bits (f32_of_f64 x) / 65536) mod 256) ((f32_bits (f32_of_f64 x) / 16777216) mod 256)) as (Z0 & Z1 & Z2 & Z3).
  rewrite Z0, Z1, Z2, Z3. cbn [bind].
  rewrite bytes_roundtrip by apply f32_bits_range. now rewrite f32_of_bits_bits.
Qed.

Hypothesis Hw : wrapper_init false (Some MLoadable) dt lb trees nf nc = Ret w.
Hypothesis HF : fits_c (forest_nodes (w_forest w)).

Lemma val_api_forest : exists nodes roots leaves lv, w_forest w = (nodes, roots, leaves) /\
  forest_facts nf trees val_leaf LeafValue 32 nodes roots leaves /\ fits_c nodes /\ 1 <= nf <= 127 /\
  leaves_table leaves 32 = Ret lv /\
  exists m', save_loadable w = Ret m' /\
  generate_c_nodes nodes = Ret (et_nodes m') /\ et_tree_roots m' = roots /\ et_n_trees m' = zlen roots /\
    et_leaves m' = lv /\ et_leaf_bits m' = 32.
Proof.
  apply wrapper_init_Ret in Hw as (E & H1 & H2 & H3 & _ & H4). rewrite val_bits in *.
  change (choose_leaf false 32) with LeafValue in E.
  destruct val_forest as (nodes & roots & leaves & E' & HFF & _).
  rewrite E in E'. injection E' as E'. rewrite E' in HF. cbn in HF.
  pose proof HFF as (V & R & L & P & _).
  destruct (bytes_table leaves P) as (lv & Hlv & _).
  pose proof (trees_pos _ _ _ Hfit). pose proof (ft_features _ _ _ Hfit).
  destruct (loadable_ok nf nodes roots leaves V HF R ltac:(lia) nf 0 32 lv Hlv)
    as (m' & Em & M1 & M2 & M3 & M4 & M5 & _).
  exists nodes, roots, leaves, lv. rewrite E'. unfold save_loadable. rewrite E', H1, H2, H3.
  split; [auto|]. split; [auto|]. split; [auto|]. split; [auto|]. split; [auto|].
  exists m'. auto 10.
Qed.

Hypothesis Hm : save_loadable w = Ret m.

(** the leaf value of tree [t] *)
Definition tree_value (features : list Z) (t : sktree pynum (list f64)) (x : f64) : Prop :=
  sk_reaches t (go_lt features) 0 [x].

Theorem regress_ok features out out_length xs : zlen features = nf -> 1 <= out_length -> 1 <= zlen out ->
  Forall2 (tree_value features) trees xs ->
  eml_trees_regress m features out out_length =
  Ret (EmlOk, list_set out 0 (fdiv (fold_left fadd (map f32_of_f64 xs) fzero) (f_of_Z (zlen trees)))).
Proof.
  intros Hfe Hol Ho HX.
  destruct val_api_forest as (nodes & roots & leaves & lv & E & HFF & HC & Hnf & Hlv & m' & Em & M1 & M2 & M3 & M4 & M5).
  rewrite Hm in Em. injection Em as <-. pose proof HFF as (V & R & L & P & HR & _).
  pose proof (trees_pos _ _ _ Hfit) as Hpos.
  destruct (bytes_table leaves P) as (lv' & Hlv' & _ & Hread). rewrite Hlv in Hlv'. injection Hlv' as <-.
  unfold eml_trees_regress. destruct (Z.ltb_spec out_length 1); [lia|]. rewrite M5. cbn [negb Z.eqb Pos.eqb].
  destruct (walk_total nf nodes roots leaves V HC R features ltac:(lia)) as [ks HK].
  assert (HK1 : Forall2 (fun r k => flat_leaf nodes (go_lt features) r k) roots ks)
    by (eapply Forall2_impl_In; [exact HK|tauto]).
  pose proof (trees_loop nf nodes roots leaves V HC R ltac:(lia) features ltac:(lia) m M1 M2 M3
     (fun s leaf => let* leaf_offset := chk_int32 (leaf * 4) in
        let* val := read_f32 (et_leaves m) leaf_offset in Ret (fadd s val)) fzero ks HK1) as EL.
  rewrite EL. clear EL.
  (* the value read for each tree *)
  assert (HV : exists ys, Forall2 (fun k y => (let* o := chk_int32 (k * 4) in read_f32 (et_leaves m) o) = Ret y) ks ys
      /\ Forall2 zeq ys (map f32_of_f64 xs)).
  { rewrite M4.
    assert (Hks : Forall (fun k => k <= 32767) ks).
    { rewrite Forall_forall. intros k Hk. apply In_zget in Hk as [i Hi].
      destruct (Forall2_zget _ _ _ _ _ (Forall2_flip _ _ _ HK1) Hi) as (r & Hr & Hfl).
      eapply (tree_leaf nf nodes roots leaves V HC R ltac:(lia) features ltac:(lia) m M1); eauto. eapply zget_In; eauto. }
    clear -HK HX HR Hread P Hks. unfold tree_value in HX. revert roots ks HK HR Hks.
    induction HX as [|t x ts xs Hx HX IH]; intros roots ks HK HR Hks.
    - inversion HR; subst. inversion HK; subst. exists []. split; constructor.
    - inversion HR as [|? r ? rs Hrep HR']; subst. inversion HK as [|? k ? ks' [Hk Hkb] HK']; subst.
      inversion Hks; subst.
      destruct (IH rs ks' HK' HR') as (ys & Y1 & Y2); auto.
      destruct Hrep as [_ Hrep]. destruct (Hrep _ _ Hx) as (l & l' & E1 & E2 & k' & E3 & E4).
      assert (k' = k) by (eapply flat_leaf_det; eauto). subst k'.
      simpl in E1. injection E1 as <-. destruct l' as [| |x']; simpl in E2; try discriminate.
      exists (f32_of_f64 x' :: ys). split; constructor; auto.
      + rewrite chk_int32_ok by (unfold int32_ok; lia). cbn [bind]. now apply Hread.
      + destruct (beqb_zeq _ _ E2) as [->|(u & v & -> & ->)]; [left; auto|right; eauto]. }
  destruct HV as (ys & HY1 & HY2).
  assert (EF : foldM (fun (s : f32) (leaf : Z) => let* leaf_offset := chk_int32 (leaf * 4) in
        let* val := read_f32 (et_leaves m) leaf_offset in Ret (fadd s val)) fzero ks
      = Ret (fold_left fadd ys fzero)).
  { generalize (fzero : f32) as s. clear -HY1. induction HY1; intros s; auto.
    cbn [foldM fold_left]. rewrite <- IHHY1.
    destruct (chk_int32 (x * 4)); [|discriminate]. cbn [bind] in *. rewrite H. reflexivity. }
  rewrite EF. cbn [bind]. rewrite (fold_fadd_zeq ys (map f32_of_f64 xs) fzero HY2) by discriminate.
  rewrite M3, L. unfold zset. cbn [Z.leb]. unfold zlen in Ho.
  destruct (Z.ltb_spec 0 (Z.of_nat (length out))); [|lia]. reflexivity.
Qed.

Theorem regress1_ok features xs : zlen features = nf ->
  Forall2 (tree_value features) trees xs ->
  eml_trees_regress1 m features =
  Ret (fdiv (fold_left fadd (map f32_of_f64 xs) fzero) (f_of_Z (zlen trees))).
Proof.
  intros Hfe HX. unfold eml_trees_regress1.
  rewrite (regress_ok features [fzero] 1 xs Hfe ltac:(lia) ltac:(unfold zlen; simpl; lia) HX). reflexivity.
Qed.

Lemma tree_value_total features : exists xs, Forall2 (tree_value features) trees xs.
Proof.
  apply Forall2_exists. intros t Ht. pose proof (ft_trees _ _ _ Hfit) as HW. rewrite Forall_forall in HW.
  destruct (reaches_total nf t (go_lt features) (HW t Ht)) as [row Hr].
  destruct (reach_row nf value_row trees Hfit t _ row Ht Hr) as (x & -> & _). exists x. auto.
Qed.
End Regress.

(** Other leaf formats. *)
Theorem regress_unsupported m features out out_length : 1 <= out_length -> et_leaf_bits m <> 32 ->
  eml_trees_regress m features out out_length = Ret (EmlUnsupported, out) /\
  eml_trees_regress1 m features = Ret B754_nan.
Proof.
  intros H1 H2. unfold eml_trees_regress1, eml_trees_regress.
  destruct (Z.ltb_spec out_length 1); [lia|]. destruct (Z.eqb_spec (et_leaf_bits m) 32); [congruence|]. auto.
Qed.
