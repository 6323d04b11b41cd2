(** Soft voting: inline and loadable (C10). *)
From Coq Require Import ZArith List Bool Lia Reals Lra.
From Flocq Require Import Core BinarySingleNaN Mult_error.
From Verif.Base Require Import Res CInt ListX Float Loops.
From Verif.Model Require Import Common TreesConvert TreesC TreesInline TreesWrapper.
From Verif.Spec Require Import TreesSpec TreesCSpec VoteSpec.
From Verif.Proof Require Import TreesFlatten TreesForest TreesLeaves TreesWalk Vote TreesEnd TreesHard.
Import ListNotations.
Open Scope Z_scope.
Open Scope res_scope.

(** Class c gets one more proportion. *)
Lemma prop_bounds b : 0 <= b <= 255 ->
  let x := fdiv (f_of_Z b : f32) (f_of_Z 255) in
  is_finite x = true /\ (0 <= B2R x <= 1)%R /\ (B2R x = 0%R \/ bpow radix2 (-8) <= B2R x)%R.
Proof.
  intros Hb x. destruct (@f_of_Z_exact 24 128 _ _ b) as [B1 F1]; [lia|].
  destruct (@f_of_Z_exact 24 128 _ _ 255) as [B2 F2]; [lia|].
  assert (Hr : (0 <= IZR b <= 255)%R) by (split; apply IZR_le; lia).
  assert (H24 : (IZR (2^24) = 16777216)%R) by reflexivity.
  destruct (fdiv_correct (f_of_Z b) (f_of_Z 255) F1) as [B3 F3].
  - rewrite B2. lra.
  - rewrite B1, B2, Rabs_pos_eq; lra.
  - unfold x. split; auto. rewrite B3, B1, B2. split.
    + split; [apply (@rnd_nonneg 24 128 _); lra|]. apply (@rnd_le_int 24 128 _ _ _ 1); [lia|lra].
    + destruct (Z.eq_dec b 0).
      * left. subst b. unfold Rdiv. rewrite Rmult_0_l. apply round_0. auto with typeclass_instances.
      * right. apply (@rnd_ge_bpow 24 128 _); [unfold SpecFloat.emin; lia|].
        simpl. assert (1 <= IZR b)%R by (apply IZR_le; lia). lra.
Qed.

(** A running sum: bounded by the number of terms, zero or at least 2^-8. *)
Definition sum_ok (k : Z) (x : f32) : Prop :=
  is_finite x = true /\ (0 <= B2R x <= IZR k)%R /\ (B2R x = 0%R \/ bpow radix2 (-8) <= B2R x)%R.

Lemma sum_ok_add k x b : 0 <= k < 2 ^ 24 -> 0 <= b <= 255 -> sum_ok k x ->
  sum_ok (k + 1) (fadd x (fdiv (f_of_Z b) (f_of_Z 255))).
Proof.
  intros Hk Hb (Fx & Bx & Lx). destruct (prop_bounds b Hb) as (Fp & Bp & Lp).
  set (p := fdiv (f_of_Z b : f32) (f_of_Z 255)) in *.
  assert (H24 : (IZR (2^24) = 16777216)%R) by reflexivity.
  assert (Hkr : (IZR k + 1 <= 16777216)%R) by (rewrite <- plus_IZR; apply IZR_le; lia).
  destruct (fadd_correct x p Fx Fp) as [B F]. { rewrite Rabs_pos_eq; lra. }
  split; auto. rewrite B. split.
  - split; [apply (@rnd_nonneg 24 128 _); lra|].
    apply (@rnd_le_int 24 128 _ _ _ (k + 1)); [lia|]. rewrite plus_IZR. lra.
  - destruct Lx as [Zx|Lx], Lp as [Zp|Lp].
    + left. rewrite Zx, Zp, Rplus_0_r. apply round_0. auto with typeclass_instances.
    + right. apply (@rnd_ge_bpow 24 128 _); [unfold SpecFloat.emin; lia|lra].
    + right. apply (@rnd_ge_bpow 24 128 _); [unfold SpecFloat.emin; lia|lra].
    + right. apply (@rnd_ge_bpow 24 128 _); [unfold SpecFloat.emin; lia|].
      pose proof (bpow_gt_0 radix2 (-8)). lra.
Qed.

Lemma sum_ok_0 : sum_ok 0 fzero.
Proof. split; auto. simpl. split; [lra|auto]. Qed.

(** Adding the proportions stored at [off] to the first n entries. *)
Lemma add_proportions_ok lv off n out :
  0 <= n <= zlen out ->
  (forall c, 0 <= c < n -> exists b, zget lv (off + c) = Ret b /\ 0 <= b <= 255) ->
  exists out', add_proportions lv off n out = Ret out' /\ zlen out' = zlen out /\
    (forall c x b, 0 <= c < n -> zget out c = Ret x -> zget lv (off + c) = Ret b ->
       zget out' c = Ret (fadd x (fdiv (f_of_Z b) (f_of_Z 255)))) /\
    (forall i, n <= i -> zget out' i = zget out i).
Proof.
  intros Hn Hlv. unfold add_proportions.
  set (bf := fun c => match zget lv (off + c) with Ret b => b | Err _ => 0 end).
  destruct (foldM_update (fun c x => fadd x (fdiv (f_of_Z (bf c)) (f_of_Z 255)) : f32) out n Hn)
    as (o & E & L & G & R).
  exists o. split; [|split; [auto|split; [|auto]]].
  - rewrite <- E. apply foldM_ext. intros s a Ha. apply zrange_In in Ha.
    destruct (Hlv a Ha) as (b & Hb & _). unfold bf. rewrite Hb. cbn [bind]. reflexivity.
  - intros c x b Hc Hx Hb. rewrite (G c x Hc Hx). unfold bf. now rewrite Hb.
Qed.

(** Concatenated rows of equal length. *)
Lemma zget_concat (rows : list (list Z)) n k row c :
  0 <= n -> Forall (fun r => zlen r = n) rows -> zget rows k = Ret row -> 0 <= c < n ->
  zget (concat rows) (k * n + c) = zget row c.
Proof.
  intros Hn HF. revert k. induction HF as [|r rows Hr HF IH]; intros k Hk Hc.
  - apply zget_bound in Hk. unfold zlen in Hk; simpl in Hk. lia.
  - apply zget_Ret in Hk as [Hk0 Hk]. simpl concat.
    destruct (Z.eq_dec k 0).
    + subst k. simpl in Hk. inv Hk. rewrite Z.mul_0_l, Z.add_0_l.
      destruct (zget_ok row c) as [x Hx]; [lia|]. rewrite Hx. now apply zget_app1.
    + replace (Z.to_nat k) with (S (Z.to_nat (k - 1))) in Hk by lia. simpl in Hk.
      assert (Hk1 : zget rows (k - 1) = Ret row) by (apply zget_Ret; split; [lia|auto]).
      specialize (IH (k - 1) Hk1 Hc). rewrite <- IH.
      assert (Hlen : 0 <= (k - 1) * n + c < zlen (concat rows)).
      { assert (zlen (concat rows) = n * zlen rows).
        { clear -HF. induction HF; simpl; [unfold zlen; simpl; lia|].
          rewrite zlen_app, zlen_cons, IHHF. lia. }
        apply zget_bound in Hk1. nia. }
      destruct (zget_ok _ _ Hlen) as [x Hx]. rewrite Hx.
      replace (k * n + c) with (zlen r + ((k - 1) * n + c)) by nia. now apply zget_app2.
Qed.

Section Soft.
Variables (nf : Z) (nodes : list (dnode pynum)) (roots : list Z) (leaves : list pyleaf).
Hypothesis HV : valid_nodes nf (zlen leaves) nodes.
Hypothesis HF : fits_c nodes.
Hypothesis Hroots : Forall (fun r => 0 <= r < zlen nodes) roots.
Hypothesis Hnr : 1 <= zlen roots < 2 ^ 24.
Variable n : Z.
Hypothesis Hleaves : Forall (fun l => exists bs, l = LProba bs /\ zlen bs = n /\ Forall (fun b => 0 <= b <= 255) bs) leaves.
Hypothesis Hn : 1 <= n <= 127.
Variable bits : Z.
Hypothesis Hbits : 2 <= bits <= 8.
Variable features : list Z.
Hypothesis Hfeat : nf <= zlen features.
Hypothesis Hnf : 0 <= nf <= 127.

Definition leaf_bytes (l : pyleaf) : list Z := match l with LProba bs => bs | _ => [] end.

Lemma soft_table : exists lv, leaves_table leaves bits = Ret lv /\
  forall k c, 0 <= k < zlen leaves -> 0 <= c < n -> exists b, zget lv (k * n + c) = Ret b /\ 0 <= b <= 255.
Proof.
  unfold leaves_table. destruct (Z.eqb_spec bits 0); [lia|]. destruct (Z.eqb_spec bits 32); [lia|].
  destruct (Z.leb_spec bits 8); [|lia]. eexists; split; [reflexivity|].
  assert (E : flat_map leaf_u8_bytes leaves = concat (map leaf_bytes leaves)).
  { clear -Hleaves. rewrite flat_map_concat_map. f_equal. apply map_ext_in. intros l Hl.
    rewrite Forall_forall in Hleaves. destruct (Hleaves l Hl) as (bs & -> & _ & Hb). simpl.
    clear -Hb. induction Hb; simpl; auto. f_equal; auto. now apply to_uint8_id. }
  rewrite E. intros k c Hk Hc. destruct (zget_ok leaves k Hk) as [l Hl].
  rewrite Forall_forall in Hleaves. destruct (Hleaves l) as (bs & -> & Hlen & Hb); [eapply zget_In; eauto|].
  rewrite zget_concat with (row := bs); auto; try lia.
  - destruct (zget_ok bs c) as [b Eb]; [lia|]. exists b. split; auto.
    rewrite Forall_forall in Hb. apply Hb. eapply zget_In; eauto.
  - apply Forall_map. apply Forall_forall. intros l' Hl'. destruct (Hleaves l' Hl') as (bs' & -> & H' & _). auto.
  - apply zget_map_Ret. eauto.
Qed.

Variable m : eml_trees.
Hypothesis Hm : generate_c_loadable (nodes, roots, leaves) nf n bits = Ret m.

Lemma soft_fields : generate_c_nodes nodes = Ret (et_nodes m) /\ et_tree_roots m = roots /\
  et_n_trees m = zlen roots /\ et_leaf_bits m = 8 /\ et_n_features m = nf /\ et_n_classes m = n /\
  leaves_table leaves bits = Ret (et_leaves m).
Proof.
  destruct soft_table as (lv & Hlv & _).
  destruct (loadable_ok nf nodes roots leaves HV HF Hroots ltac:(lia) nf n bits lv Hlv)
    as (m' & E & H1 & H2 & H3 & H4 & H5 & H6 & H7 & H8).
  rewrite Hm in E. inv E.
  rewrite H6, H7, H5, (to_int8_id nf), (to_int8_id n) by (unfold int8_ok; lia).
  destruct (Z.eqb_spec bits 0); [lia|]. destruct (Z.eqb_spec bits 32); [lia|]. cbn [orb].
  rewrite (to_int8_id 8) by (unfold int8_ok; lia). auto 10.
Qed.

Definition soft_step (lv : list Z) (o : list f32) (k : Z) : res (list f32) :=
  let* off := chk_int32 (n * k) in add_proportions lv off n o.

Definition reach_leaves (ks : list Z) : Prop :=
  Forall2 (fun r k => flat_leaf nodes (go_lt features) r k /\ 0 <= k < zlen leaves) roots ks.

Lemma loadable_soft_loop out0 ks : reach_leaves ks ->
  foldM (vote_soft m features) out0 (zrange (et_n_trees m)) = foldM (soft_step (et_leaves m)) out0 ks.
Proof.
  intros HK. destruct soft_fields as (F1 & F2 & F3 & F4 & F5 & F6 & F7).
  assert (HK1 : Forall2 (fun r k => flat_leaf nodes (go_lt features) r k) roots ks)
    by (eapply Forall2_impl_In; [exact HK|tauto]).
  pose proof (trees_loop nf nodes roots leaves HV HF Hroots ltac:(lia) features Hfeat m F1 F2 F3
     (soft_step (et_leaves m)) out0 ks HK1) as E.
  rewrite <- E. apply foldM_ext. intros s i _. unfold vote_soft, soft_step. rewrite F6.
  destruct (zget (et_tree_roots m) i); auto. cbn [bind].
  destruct (eml_trees_predict_tree m a features) as [k|]; auto. cbn [bind].
  now replace (k * (1 * n)) with (n * k) by lia.
Qed.

(** The sum for class [c]. *)
Definition byte_at (lv : list Z) (i : Z) : Z := match zget lv i with Ret b => b | Err _ => 0 end.
Definition soft_sum (lv ks : list Z) (c : Z) : f32 :=
  fold_left (fun acc k => fadd acc (fdiv (f_of_Z (byte_at lv (n * k + c))) (f_of_Z 255))) ks fzero.

(** The loop succeeds and keeps the sums bounded. *)
Lemma soft_sums out0 ks : n <= zlen out0 -> reach_leaves ks -> Forall (fun k => k <= 32767) ks ->
  (forall c, 0 <= c < n -> zget out0 c = Ret fzero) ->
  exists o, foldM (soft_step (et_leaves m)) out0 ks = Ret o /\ zlen o = zlen out0 /\
    (forall c, 0 <= c < n -> zget o c = Ret (soft_sum (et_leaves m) ks c) /\
                             sum_ok (zlen roots) (soft_sum (et_leaves m) ks c)) /\
    (forall i, n <= i -> zget o i = zget out0 i).
Proof.
  intros Hlen HK Hks H0. destruct soft_fields as (F1 & F2 & F3 & F4 & F5 & F6 & F7).
  destruct soft_table as (lv & Hlv & Hget). rewrite F7 in Hlv. inv Hlv.
  assert (Lk : zlen ks = zlen roots) by (symmetry; eapply Forall2_zlen; exact HK).
  rewrite <- Lk.
  apply (foldM_inv (soft_step (et_leaves m)) (fun d o => zlen o = zlen out0 /\
    (forall c, 0 <= c < n -> zget o c = Ret (soft_sum (et_leaves m) d c) /\
                             sum_ok (zlen d) (soft_sum (et_leaves m) d c)) /\
    (forall i, n <= i -> zget o i = zget out0 i))).
  - split; auto. split; auto. intros c Hc. split; auto. apply sum_ok_0.
  - intros d k todo o El (L & G & R).
    assert (Hin : In k ks) by (rewrite El; apply in_elt).
    assert (Hk : 0 <= k < zlen leaves).
    { destruct (In_zget ks k Hin) as [i Hi]. unfold reach_leaves in HK. apply Forall2_flip in HK.
      destruct (Forall2_zget _ _ _ _ _ HK Hi) as (r & _ & _ & Hr). auto. }
    assert (Hk2 : k <= 32767) by (rewrite Forall_forall in Hks; auto).
    unfold soft_step at 1. rewrite chk_int32_ok by (unfold int32_ok; nia). cbn [bind].
    destruct (add_proportions_ok (et_leaves m) (n * k) n o) as (o' & E & L' & G' & R').
    { lia. } { intros c Hc. replace (n * k) with (k * n) by lia. auto. }
    exists o'. split; [auto|]. split; [lia|]. split.
    + intros c Hc. destruct (G c Hc) as (Hx & Sx). destruct (Hget k c Hk Hc) as (b & Hb & Bb).
      replace (k * n) with (n * k) in Hb by lia.
      assert (Es : soft_sum (et_leaves m) (d ++ [k]) c =
                   fadd (soft_sum (et_leaves m) d c) (fdiv (f_of_Z b) (f_of_Z 255))).
      { unfold soft_sum. rewrite fold_left_app. cbn [fold_left].
        replace (byte_at (et_leaves m) (n * k + c)) with b by (unfold byte_at; now rewrite Hb). reflexivity. }
      rewrite Es. split; [now apply (G' c _ b Hc Hx)|].
      rewrite zlen_app. change (zlen [k]) with 1. apply sum_ok_add; auto.
      split; [apply zlen_nonneg|]. rewrite <- Lk in Hnr. rewrite El, zlen_app, zlen_cons in Hnr.
      pose proof (zlen_nonneg todo). lia.
    + intros i Hi. rewrite R', R; auto.
Qed.

Lemma reach_total : exists ks, reach_leaves ks /\ Forall (fun k => k <= 32767) ks.
Proof.
  destruct (walk_total nf nodes roots leaves HV HF Hroots features Hfeat) as [ks HK].
  exists ks. split; auto. destruct soft_fields as (F1 & F2 & F3 & _).
  apply Forall_forall. intros k Hk. destruct (In_zget ks k Hk) as [i Hi].
  pose proof (Forall2_flip _ _ _ HK) as HK'. destruct (Forall2_zget _ _ _ _ _ HK' Hi) as (r & Hr & Hfl & _).
  destruct (tree_leaf nf nodes roots leaves HV HF Hroots ltac:(lia) features Hfeat m F1 F2 F3 r k) as (_ & _ & H); auto.
  eapply zget_In; eauto.
Qed.

(** ** Inline *)
Variable p : inline_prog Z.
Hypothesis Hp : generate_c_inlined_int16 (nodes, roots, leaves) n bits = Ret p.

Lemma inline_soft_fields : ip_n_classes p = n /\ ip_leaf_bits p = bits /\ zlen (ip_trees p) = zlen roots /\
  ip_leaves p = et_leaves m /\
  forall ks, reach_leaves ks -> Forall (fun k => k <= 32767) ks ->
    Forall2 (fun t k => run_tree Z.ltb features t = Ret k) (ip_trees p) ks.
Proof.
  pose proof Hp as Hq. unfold generate_c_inlined_int16, generate_c_inlined in Hq.
  destruct soft_fields as (_ & _ & _ & _ & _ & _ & F7). rewrite F7 in Hq. cbn [bind] in Hq. invbind Hq.
  injection Hq as Hq. rewrite <- Hq. cbn [ip_n_classes ip_leaf_bits ip_trees ip_leaves].
  split; [auto|]. split; [auto|]. apply mapM_Ret in E. rename a into ts.
  split. { symmetry. eapply Forall2_zlen; eauto. } split; [auto|].
  intros ks HK Hks. unfold reach_leaves in HK.
  assert (HT : forall i nd, zget nodes i = Ret nd -> exists k, py_int (d_value nd) = Ret k).
  { intros i nd Hnd. destruct HF as [_ HF']. destruct (HF' i nd Hnd) as (_ & (k & Hk & _) & _). eauto. }
  assert (HL : forall k, 0 <= k < zlen leaves -> exists r, class_leaf_const leaves bits k = Ret r).
  { intros k Hk. unfold class_leaf_const. destruct (Z.eqb_spec bits 0); [lia|]. eauto. }
  clear Hq Hp p Hm m F7. rewrite Forall_forall in Hroots. revert ks HK Hks. clear Hnr.
  induction E as [|r t rs ts Ert E IH]; intros ks HK Hks; inversion HK as [|? k ? ? [Hfl Hkl] Hrest]; subst; constructor.
  - destruct (c_node_ok nf (zlen leaves) nodes (class_leaf_const leaves bits) HV HT HL (S (length nodes)) r)
      as (t' & Et & Ht).
    { intros Q. unfold zlen in *. lia. } { lia. } { apply Hroots; left; auto. }
    { specialize (Hroots r (or_introl eq_refl)). lia. }
    rewrite Ert in Et. inv Et.
    destruct (Ht features Hfeat) as (k' & c & K1 & K2 & K3 & K4). rewrite K4. f_equal.
    assert (k' = k) by (eapply flat_leaf_det; eauto). subst k'.
    unfold class_leaf_const in K3. destruct (Z.eqb_spec bits 0); [lia|]. inv K3.
    apply to_int32_id. inv Hks. unfold int32_ok. lia.
  - inv Hks. apply IH; auto. intros x Hx. apply Hroots. right; auto.
Qed.

Lemma inline_soft_loop out0 ks : reach_leaves ks -> Forall (fun k => k <= 32767) ks ->
  foldM (inline_soft_step Z.ltb p features) out0 (ip_trees p) = foldM (soft_step (et_leaves m)) out0 ks.
Proof.
  intros HK Hks. destruct inline_soft_fields as (F1 & F2 & F3 & F4 & F5).
  rewrite <- (foldM_map2 (fun t => run_tree Z.ltb features t) (soft_step (et_leaves m)) (ip_trees p) ks) by auto.
  apply foldM_ext. intros s t _. unfold inline_soft_step, soft_step. now rewrite F1, F4.
Qed.

(** Bit-identical probabilities; both succeed. *)
Theorem soft_proba_agree out : n <= zlen out ->
  exists o, eml_trees_predict_proba m features out n = Ret (EmlOk, o) /\
            inline_predict_proba_int16 p features out n = Ret (0, o) /\ zlen o = zlen out.
Proof.
  intros Hlen. destruct reach_total as (ks & HK & Hks).
  destruct soft_fields as (F1 & F2 & F3 & F4 & F5 & F6 & F7).
  destruct inline_soft_fields as (I1 & I2 & I3 & I4 & I5).
  unfold eml_trees_predict_proba, inline_predict_proba_int16, inline_predict_proba, inline_proba_soft.
  rewrite F6, Z.eqb_refl, I2, F4. cbn [negb]. destruct (Z.eqb_spec bits 0); [lia|].
  destruct (foldM_fill (fun _ => fzero : f32) out n) as (o0 & E0 & L0 & G0 & R0); [lia|].
  unfold clear_out. rewrite E0. cbn [bind]. change (8 =? 0) with false. change (8 =? 8) with true. cbn [bind].
  rewrite (loadable_soft_loop o0 ks HK), (inline_soft_loop o0 ks HK Hks).
  destruct (soft_sums o0 ks) as (o1 & E1 & L1 & G1 & R1); auto; [lia|].
  rewrite E1. cbn [bind]. rewrite I3, F3. unfold mean_out.
  destruct (foldM_update (fun _ x => fdiv x (f_of_Z (zlen roots)) : f32) o1 n) as (o2 & E2 & L2 & _); [lia|].
  rewrite E2. cbn [bind]. exists o2. split; [auto|]. split; [auto|]. lia.
Qed.

(** The rounded mean of a sum. *)
Lemma mean_val x : sum_ok (zlen roots) x ->
  let y := fdiv x (f_of_Z (zlen roots) : f32) in
  is_finite y = true /\ B2R y = rnd32 (B2R x / IZR (zlen roots)) /\ (0 <= B2R y)%R /\
  ((0 < B2R x)%R -> (0 < B2R y)%R).
Proof.
  intros (Fx & Bx & Lx) y.
  destruct (@f_of_Z_exact 24 128 _ _ (zlen roots)) as [B1 F1]; [lia|].
  assert (Hge1 : (1 <= IZR (zlen roots))%R) by (apply IZR_le; lia).
  assert (H24 : (IZR (2^24) = 16777216)%R) by reflexivity.
  assert (Hlt : (IZR (zlen roots) <= 16777216)%R) by (apply IZR_le; lia).
  pose proof (Rinv_0_lt_compat (IZR (zlen roots)) ltac:(lra)) as Hi.
  assert (Hd : (0 <= B2R x / IZR (zlen roots) <= 1)%R).
  { split; [apply Rmult_le_pos; lra|]. apply Rmult_le_reg_r with (IZR (zlen roots)); [lra|].
    unfold Rdiv. rewrite Rmult_assoc, Rinv_l by lra. lra. }
  destruct (fdiv_correct x (f_of_Z (zlen roots)) Fx) as [B F].
  - rewrite B1. lra.
  - rewrite B1, Rabs_pos_eq; lra.
  - unfold y. rewrite B, B1. split; [auto|]. split; [auto|].
    split; [apply (@rnd_nonneg 24 128 _); lra|].
    intros Hpos. destruct Lx as [Hz|Hl]; [lra|].
    apply Rlt_le_trans with (bpow radix2 (-33)); [apply bpow_gt_0|].
    apply (@rnd_ge_bpow 24 128 _); [unfold SpecFloat.emin; lia|].
    apply Rmult_le_reg_r with (IZR (zlen roots)); [lra|].
    unfold Rdiv. rewrite Rmult_assoc, Rinv_l, Rmult_1_r by lra.
    apply Rle_trans with (bpow radix2 (-33) * bpow radix2 24)%R.
    + apply Rmult_le_compat_l; [apply bpow_ge_0|]. simpl. lra.
    + rewrite <- bpow_plus. apply Rle_trans with (bpow radix2 (-8)); [apply bpow_le; lia|auto].
Qed.

Lemma mean_mono x y : (B2R x <= B2R y)%R ->
  (rnd32 (B2R (x : f32) / IZR (zlen roots)) <= rnd32 (B2R (y : f32) / IZR (zlen roots)))%R.
Proof.
  intros H. apply (@rnd_le 24 128 _). apply Rmult_le_compat_r; auto.
  left. apply Rinv_0_lt_compat. apply IZR_lt. lia.
Qed.

(** Division by a power of two is exact. *)
Lemma mean_exact x kp : sum_ok (zlen roots) x -> 0 <= kp -> zlen roots = 2 ^ kp ->
  rnd32 (B2R x / IZR (zlen roots)) = (B2R x / IZR (zlen roots))%R.
Proof.
  intros (Fx & Bx & Lx) Hk0 Hk. destruct Lx as [Hz|Hl].
  - rewrite Hz. unfold Rdiv. rewrite Rmult_0_l. apply round_0. auto with typeclass_instances.
  - apply round_generic; [auto with typeclass_instances|].
    assert (Hb : (/ IZR (zlen roots) = bpow radix2 (- kp))%R).
    { rewrite bpow_opp. f_equal. rewrite Hk. change 2 with (radix_val radix2) at 1. now apply IZR_Zpower. }
    unfold Rdiv. rewrite Hb. change (SpecFloat.fexp 24 128) with (FLT_exp (SpecFloat.emin 24 128) 24).
    apply mult_bpow_exact_FLT.
    + apply generic_format_B2R.
    + assert (Hkp : kp < 24) by (apply (Z.pow_lt_mono_r_iff 2); lia).
      assert (-7 <= mag radix2 (B2R x)).
      { apply mag_ge_bpow. rewrite Rabs_pos_eq by lra. exact Hl. }
      unfold SpecFloat.emin. lia.
Qed.

(** The two argmaxes: equal, except that the loadable one may pick an earlier class whose
    smaller sum becomes equal after the rounded division. *)
Theorem soft_predict_relation : n <= 30 ->
  exists i j o, inline_predict_int16 p features = Ret i /\ eml_trees_predict m features nf = Ret j /\
    eml_trees_predict_proba m features (repeat fzero (Z.to_nat 30)) n = Ret (EmlOk, o) /\
    (i = j \/
     (0 <= j < i /\ i < n /\ exists yi yj, zget o i = Ret yi /\ zget o j = Ret yj /\
        is_finite yi = true /\ B2R yi = B2R yj)) /\
    ((exists kp, 0 <= kp /\ zlen roots = 2 ^ kp) -> i = j).
Proof.
  intros Hn30. destruct reach_total as (ks & HK & Hks).
  destruct soft_fields as (F1 & F2 & F3 & F4 & F5 & F6 & F7).
  destruct inline_soft_fields as (I1 & I2 & I3 & I4 & I5).
  (* inline *)
  set (z1 := repeat (fzero : f32) (Z.to_nat n)).
  assert (Lz1 : zlen z1 = n) by (unfold z1; rewrite zlen_repeat; lia).
  destruct (soft_sums z1 ks) as (s1 & E1 & L1 & G1 & _); auto; [lia| |].
  { intros c Hc. apply zget_repeat. lia. }
  (* loadable *)
  set (z2 := repeat (fzero : f32) (Z.to_nat 30)).
  assert (Lz2 : zlen z2 = 30) by (unfold z2; now rewrite zlen_repeat).
  destruct (foldM_fill (fun _ => fzero : f32) z2 n) as (o0 & E0 & L0 & G0 & R0); [lia|].
  destruct (soft_sums o0 ks) as (s2 & E2 & L2 & G2 & _); auto; [lia|].
  destruct (foldM_update (fun _ x => fdiv x (f_of_Z (zlen roots)) : f32) s2 n) as (o & E3 & L3 & G3 & _); [lia|].
  set (S := soft_sum (et_leaves m) ks) in *.
  assert (Go : forall c, 0 <= c < n -> zget o c = Ret (fdiv (S c) (f_of_Z (zlen roots)))).
  { intros c Hc. apply G3; auto. now apply G2. }
  assert (Ei : inline_predict_int16 p features = argmax_f32 s1 n).
  { unfold inline_predict_int16, inline_predict, inline_predict_soft. rewrite I2, I1.
    destruct (Z.eqb_spec bits 0); [lia|]. fold z1. now rewrite (inline_soft_loop z1 ks HK Hks), E1. }
  assert (Ep : eml_trees_predict_proba m features z2 n = Ret (EmlOk, o)).
  { unfold eml_trees_predict_proba. rewrite F6, Z.eqb_refl, F4. cbn [negb].
    unfold clear_out. rewrite E0. cbn [bind]. change (8 =? 0) with false. change (8 =? 8) with true. cbn [bind].
    rewrite (loadable_soft_loop o0 ks HK), E2. cbn [bind]. rewrite F3. unfold mean_out. now rewrite E3. }
  assert (Ej : eml_trees_predict m features nf = argmax_f32 o n).
  { unfold eml_trees_predict. rewrite F5, to_int8_id, Z.eqb_refl by (unfold int8_ok; lia). cbn [negb].
    rewrite F6. unfold EMTREES_MAX_CLASSES. destruct (Z.ltb_spec 30 n); [lia|].
    fold z2. rewrite Ep. reflexivity. }
  destruct (argmax_f32_spec s1 n) as (i & Ai & Pi).
  { lia. } { intros c Hc. destruct (G1 c Hc) as [Q1 [Q2 _]]. eauto. }
  destruct (argmax_f32_spec o n) as (j & Aj & Pj).
  { lia. } { intros c Hc. eexists. split; [now apply Go|]. destruct (G1 c Hc) as [_ Q2].
             now apply mean_val. }
  exists i, j, o. rewrite Ei, Ej, Ai, Aj. split; [auto|]. split; [auto|]. split; [auto|].
  assert (HS : forall c, 0 <= c < n -> sum_ok (zlen roots) (S c)) by (intros c Hc; now apply G1).
  assert (Main : i = j \/ (0 <= j < i /\ i < n /\
     rnd32 (B2R (S i) / IZR (zlen roots)) = rnd32 (B2R (S j) / IZR (zlen roots)) /\ (B2R (S j) < B2R (S i))%R)).
  { destruct Pi as [(-> & Pi)|(y & Hy & Hi & Hpos & Hmax & Hfirst)];
    destruct Pj as [(-> & Pj)|(y' & Hy' & Hj & Hpos' & Hmax' & Hfirst')].
    - now left.
    - exfalso. rewrite Go in Hy' by auto. inv Hy'.
      destruct (mean_val (S j) (HS j Hj)) as (_ & _ & _ & Q).
      destruct (HS j Hj) as (_ & [Q0 _] & _). destruct (G1 j Hj) as [Q1 _].
      specialize (Pi j _ Hj Q1). assert (HZ : B2R (S j) = 0%R) by lra.
      destruct (mean_val (S j) (HS j Hj)) as (_ & Q3 & _). rewrite Q3, HZ in Hpos'.
      unfold Rdiv in Hpos'. rewrite Rmult_0_l, round_0 in Hpos' by auto with typeclass_instances. lra.
    - exfalso. destruct (G1 i Hi) as [Q1 _]. rewrite Q1 in Hy. inv Hy.
      destruct (mean_val (S i) (HS i Hi)) as (_ & _ & _ & Q). specialize (Q Hpos).
      specialize (Pj i _ Hi (Go i Hi)). lra.
    - destruct (G1 i Hi) as [Q1 _]. rewrite Q1 in Hy. inv Hy. rewrite Go in Hy' by auto. inv Hy'.
      destruct (mean_val (S i) (HS i Hi)) as (_ & Vi & _ & _).
      destruct (mean_val (S j) (HS j Hj)) as (_ & Vj & _ & _).
      assert (Hle : (B2R (S j) <= B2R (S i))%R) by (apply (Hmax j); auto; now apply G1).
      pose proof (Hmax' i _ Hi (Go i Hi)) as Hge. rewrite Vi, Vj in Hge.
      pose proof (mean_mono _ _ Hle) as Hle'.
      destruct (Z.lt_trichotomy i j) as [Hij|[Hij|Hij]].
      + exfalso. specialize (Hfirst' i _ (conj (proj1 Hi) Hij) (Go i Hi)). rewrite Vi, Vj in Hfirst'. lra.
      + now left.
      + right. split; [lia|]. split; [lia|]. split; [lra|].
        apply (Hfirst j); [lia|]. now apply G1. }
  split.
  - destruct Main as [->|(H1 & H2 & H3 & _)]; [now left|]. right. split; [auto|]. split; [auto|].
    eexists; eexists. split; [apply Go; lia|]. split; [apply Go; lia|].
    destruct (mean_val (S i) (HS i ltac:(lia))) as (Fi & Vi & _).
    destruct (mean_val (S j) (HS j ltac:(lia))) as (_ & Vj & _). rewrite Vi, Vj. auto.
  - intros (kp & Hk0 & Hk). destruct Main as [->|(H1 & H2 & H3 & H4)]; auto. exfalso.
    rewrite (mean_exact (S i) kp), (mean_exact (S j) kp) in H3 by (auto; apply HS; lia).
    assert (0 < IZR (zlen roots))%R by (apply IZR_lt; lia).
    apply Rmult_eq_reg_r in H3; [lra|]. apply Rinv_neq_0_compat. lra.
Qed.
End Soft.
