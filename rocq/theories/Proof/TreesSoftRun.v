(** Soft voting from the fitted model to the numbers predict() and predict_proba() return (C139, C140). *)
From Coq Require Import ZArith List Bool Lia Reals Lra.
From Flocq Require Import Core BinarySingleNaN.
From Verif.Base Require Import Res CInt ListX Float Loops RealSum.
From Verif.Model Require Import Common TreesConvert TreesC TreesInline TreesWrapper Harness TreesRun.
From Verif.Spec Require Import TreesSpec TreesCSpec VoteSpec ClassifierSpec HarnessSpec RunSpec RealSpec SoftSpec.
From Verif.Proof Require Import TreesFlatten TreesForest TreesLeaves TreesWalk Vote TreesEnd TreesHard
  Quantize TreesSoft TreesNodes TreesTop TreesApi TreesMisc TreesInlineRun Harness RunRows Through FloatMean TreesRun TreesRegRun TreesRunTop TreesFloatRun EndToEnd.
Import Verif.Spec.HarnessSpec ListNotations.
Open Scope Z_scope.
Open Scope res_scope.

Definition col (row : list f64) (c : Z) : f64 := nth (Z.to_nat c) row fzero.
Definition share32 (bits : Z) (x : f64) : f32 := fdiv (f_of_Z (byte_of bits x)) (f_of_Z 255).
Definition soft_total (bits : Z) (rows : list (list f64)) (c : Z) : f32 :=
  fold_left fadd (map (fun row => share32 bits (col row c)) rows) fzero.

Section Core.
Variables (n bits : Z).
Hypothesis Hn : 1 <= n <= 127.
Hypothesis Hbits : 2 <= bits <= 8.

Lemma col_ok row c : proba_row n row -> 0 <= c < n ->
  zget row c = Ret (col row c) /\ is_finite (col row c) = true /\ (0 <= B2R (col row c) <= 1)%R.
Proof.
  intros [L F] Hc. destruct (zget_ok row c ltac:(lia)) as [x Hx].
  assert (E : col row c = x).
  { unfold col. unfold zget in Hx. destruct (c <? 0); [discriminate|]. destruct (nth_error row (Z.to_nat c)) eqn:En; [|discriminate].
    injection Hx as <-. now apply nth_error_nth. }
  rewrite E. split; [exact Hx|]. rewrite Forall_forall in F. apply F. eapply zget_In; eauto.
Qed.

(** The leaf [k] of the table holds the quantised row. *)
Definition holds_row (lv : list Z) (row : list f64) (k : Z) : Prop :=
  int32_ok (n * k) /\ forall c, 0 <= c < n -> zget lv (n * k + c) = Ret (byte_of bits (col row c)).

Lemma soft_totals lv rows ks out0 : Forall2 (holds_row lv) rows ks -> Forall (proba_row n) rows -> n <= zlen out0 ->
  (forall c, 0 <= c < n -> zget out0 c = Ret fzero) ->
  exists o, foldM (soft_step n lv) out0 ks = Ret o /\ zlen o = zlen out0 /\
    forall c, 0 <= c < n -> zget o c = Ret (soft_total bits rows c).
Proof.
  intros HK HR Ho H0. unfold soft_total.
  assert (G : forall (s : Z -> f32) out, n <= zlen out -> (forall c, 0 <= c < n -> zget out c = Ret (s c)) ->
    exists o, foldM (soft_step n lv) out ks = Ret o /\ zlen o = zlen out /\
      forall c, 0 <= c < n -> zget o c = Ret (fold_left fadd (map (fun row => share32 bits (col row c)) rows) (s c))).
  { clear Ho H0 out0. induction HK as [|row k rows ks [Hi Hk] HK IH]; intros s out Ho Hs.
    - exists out. cbn. auto.
    - inversion HR as [|? ? Hr HR']; subst. cbn [foldM]. unfold soft_step at 1. rewrite chk_int32_ok by exact Hi. cbn [bind].
      destruct (add_proportions_ok lv (n * k) n out ltac:(lia)) as (o1 & E1 & L1 & G1 & _).
      { intros c Hc. rewrite (Hk c Hc). eexists. split; [reflexivity|]. destruct (col_ok row c Hr Hc) as (_ & F & B).
        now destruct (byte_of_spec bits _ Hbits F B). }
      rewrite E1. cbn [bind]. destruct (IH HR' (fun c => fadd (s c) (share32 bits (col row c))) o1 ltac:(lia)) as (o & E & L & G).
      { intros c Hc. apply (G1 c (s c) _ Hc (Hs c Hc) (Hk c Hc)). }
      exists o. split; [exact E|]. split; [lia|]. intros c Hc. rewrite (G c Hc). reflexivity. }
  destruct (G (fun _ => fzero) out0 Ho H0) as (o & E & L & Q). eauto.
Qed.

Lemma soft_total_ok rows c : Forall (proba_row n) rows -> zlen rows < 2 ^ 24 -> 0 <= c < n -> sum_ok (zlen rows) (soft_total bits rows c).
Proof.
  intros HR HL Hc. unfold soft_total.
  assert (G : forall k s, 0 <= k -> k + zlen rows < 2 ^ 24 -> sum_ok k s ->
    sum_ok (k + zlen rows) (fold_left fadd (map (fun row => share32 bits (col row c)) rows) s)).
  { clear HL. induction HR as [|row rows Hr HR IH]; intros k s Hk HL Hs.
    - cbn. change (zlen (@nil (list f64))) with 0. now rewrite Z.add_0_r.
    - rewrite zlen_cons in *. cbn [map fold_left]. pose proof (zlen_nonneg rows). replace (k + (1 + zlen rows)) with ((k + 1) + zlen rows) by lia.
      apply IH; [lia|lia|]. destruct (col_ok row c Hr Hc) as (_ & F & B). destruct (byte_of_spec bits _ Hbits F B) as [Bb _].
      apply sum_ok_add; auto. lia. }
  apply (G 0 fzero); [lia|lia|apply sum_ok_0].
Qed.

(** The mean as computed, against the mean of the proportions. *)
Lemma share32_close x : is_finite x = true -> (0 <= B2R x <= 1)%R ->
  is_finite (share32 bits x) = true /\ (Rabs (B2R (share32 bits x)) <= 1)%R /\
  (Rabs (B2R (share32 bits x) - B2R x) <= level_err bits + 3 / 2 / 16777216)%R.
Proof.
  intros F B. destruct (byte_of_spec bits x Hbits F B) as (Bb & D & _).
  destruct (prop_bounds _ Bb) as (Fp & Bp & _). unfold share32. cbn zeta in *. split; [exact Fp|]. split; [rewrite Rabs_pos_eq; lra|].
  destruct (@f_of_Z_exact 24 128 _ _ (byte_of bits x)) as [Vb Fb]; [lia|].
  assert (Hr : (0 <= IZR (byte_of bits x) <= 255)%R) by (split; apply IZR_le; lia).
  destruct (fdiv32 (f_of_Z (byte_of bits x)) 255 Fb ltac:(lia)) as [_ D'].
  { rewrite Vb, Rabs_pos_eq by lra. apply Rle_trans with (bpow radix2 8); [change (bpow radix2 8) with 256%R; lra|apply bpow_le; lia]. }
  rewrite Vb, (Rabs_pos_eq (IZR (byte_of bits x))) in D' by lra.
  assert (E : (bpow radix2 (-150) <= / 4 / 16777216)%R).
  { change (/ 4 / 16777216)%R with (/ 4 * / 16777216)%R. replace (/ 4 * / 16777216)%R with (bpow radix2 (-26)) by (change (bpow radix2 (-26)) with (/ 67108864)%R; lra). apply bpow_le. lia. }
  assert (E2 : (bpow radix2 (-46) <= / 1099511627776)%R) by (change (/ 1099511627776)%R with (bpow radix2 (-40)); apply bpow_le; lia).
  assert (E3 : (IZR (byte_of bits x) / 255 * u24 <= u24)%R).
  { assert (0 < u24)%R by (change u24 with (/ 16777216)%R; lra). assert (IZR (byte_of bits x) / 255 <= 1)%R by lra. nra. }
  change u24 with (/ 16777216)%R in *. unfold level_err.
  assert (E4 : ((/ 2 + bpow radix2 (-46)) / IZR (2 ^ bits - 2) <= (/ 2 + / 1099511627776) / IZR (2 ^ bits - 2))%R).
  { pose proof (pow_bits bits Hbits). apply Rmult_le_compat_r; [|lra]. left. apply Rinv_0_lt_compat. apply IZR_lt. lia. }
  set (y := B2R (fdiv (f_of_Z (byte_of bits x)) (f_of_Z 255))) in *. clearbody y.
  set (q := (IZR (byte_of bits x) / 255)%R) in *. set (a := ((/ 2 + / 1099511627776) / IZR (2 ^ bits - 2))%R) in *.
  replace (y - B2R x)%R with ((y - q) + (q - B2R x))%R by ring. eapply Rle_trans; [apply Rabs_triang|].
  clearbody q a. lra.
Qed.

Definition soft_mean (rows : list (list f64)) (c : Z) : f32 := fdiv (soft_total bits rows c) (f_of_Z (zlen rows)).

Lemma soft_mean_close rows c : Forall (proba_row n) rows -> 1 <= zlen rows <= 8388608 -> 0 <= c < n ->
  is_finite (soft_mean rows c) = true /\ (0 <= B2R (soft_mean rows c) <= 1)%R /\
  (Rabs (B2R (soft_mean rows c) - mean_share rows c) <= level_err bits + (IZR (zlen rows) + 5) / 16777216)%R.
Proof.
  intros HR HL Hc. pose proof (soft_total_ok rows c HR ltac:(lia) Hc) as (Ft & Bt & _).
  set (ys := map (fun row => share32 bits (col row c)) rows).
  assert (LY : zlen ys = zlen rows) by (unfold ys; apply zlen_map).
  assert (FY : Forall (fun y => is_finite y = true /\ (Rabs (B2R y) <= 1)%R) ys).
  { unfold ys. apply Forall_map. eapply Forall_impl; [|exact HR]. intros row Hr. destruct (col_ok row c Hr Hc) as (_ & F & B).
    destruct (share32_close _ F B) as (A1 & A2 & _). auto. }
  assert (B1 : (0 <= 1 <= bpow radix2 100)%R) by (split; [lra|]; change 1%R with (bpow radix2 0); apply bpow_le; lia).
  destruct (mean32_gen ys 1 B1 ltac:(lia) FY) as [Fm Dm]. rewrite LY in Fm, Dm.
  change (fdiv (fold_left fadd ys fzero) (f_of_Z (zlen rows))) with (soft_mean rows c) in Fm, Dm.
  split; [exact Fm|].
  assert (HN : (1 <= IZR (zlen rows))%R) by (apply IZR_le; lia).
  split.
  - unfold soft_mean in *. destruct (@f_of_Z_exact 24 128 _ _ (zlen rows)) as [VN FN]; [lia|].
    assert (Hd : (0 <= B2R (soft_total bits rows c) / IZR (zlen rows) <= 1)%R).
    { split; [apply Rmult_le_pos; [lra|apply Rlt_le, Rinv_0_lt_compat; lra]|]. apply Rmult_le_reg_r with (IZR (zlen rows)); [lra|].
      unfold Rdiv. rewrite Rmult_assoc, Rinv_l by lra. lra. }
    destruct (fdiv_correct (soft_total bits rows c) (f_of_Z (zlen rows)) Ft) as [V _].
    { rewrite VN. lra. } { rewrite VN, Rabs_pos_eq by lra. change (IZR (2 ^ 24)) with 16777216%R. lra. }
    rewrite V, VN. split; [apply (@rnd_nonneg 24 128 _); lra|]. apply (@rnd_le_int 24 128 _ _ _ 1); [lia|lra].
  - pose proof (rsum_close (fun row => B2R (share32 bits (col row c))) (fun row => B2R (col row c)) rows (level_err bits + 3 / 2 / 16777216)) as Q.
    assert (Q' : (Rabs (rsum (map (fun row => B2R (share32 bits (col row c))) rows) - rsum (map (fun row => B2R (col row c)) rows)) <=
                  IZR (zlen rows) * (level_err bits + 3 / 2 / 16777216))%R).
    { apply Q. eapply Forall_impl; [|exact HR]. intros row Hr. destruct (col_ok row c Hr Hc) as (_ & F & B). now apply share32_close. }
    clear Q. unfold ys in Dm. rewrite map_map in Dm.
    assert (M : mean_share rows c = (rsum (map (fun row => B2R (col row c)) rows) / IZR (zlen rows))%R).
    { unfold mean_share. f_equal. }
    rewrite M. set (a := rsum (map (fun row => B2R (share32 bits (col row c))) rows)) in *.
    set (b := rsum (map (fun row => B2R (col row c)) rows)) in *. clearbody a b. clear M FY HR.
    set (N := IZR (zlen rows)) in *. clearbody N.
    assert (E : (Rabs (a / N - b / N) <= level_err bits + 3 / 2 / 16777216)%R).
    { replace (a / N - b / N)%R with ((a - b) / N)%R by (field; lra). unfold Rdiv at 1. rewrite Rabs_mult, (Rabs_pos_eq (/ N)) by (left; apply Rinv_0_lt_compat; lra).
      apply Rmult_le_reg_r with N; [lra|]. rewrite Rmult_assoc, Rinv_l by lra. lra. }
    assert (E150 : (bpow radix2 (-150) <= / 4 / 16777216)%R).
    { replace (/ 4 / 16777216)%R with (bpow radix2 (-26)) by (change (bpow radix2 (-26)) with (/ 67108864)%R; lra). apply bpow_le. lia. }
    replace (B2R (soft_mean rows c) - b / N)%R with ((B2R (soft_mean rows c) - a / N) + (a / N - b / N))%R by ring.
    eapply Rle_trans; [apply Rabs_triang|]. change u24 with (/ 16777216)%R in Dm. lra.
Qed.

(** Dividing keeps the order. *)
Lemma soft_mean_mono rows c d : Forall (proba_row n) rows -> 1 <= zlen rows <= 8388608 -> 0 <= c < n -> 0 <= d < n ->
  (B2R (soft_total bits rows c) <= B2R (soft_total bits rows d))%R -> (B2R (soft_mean rows c) <= B2R (soft_mean rows d))%R.
Proof.
  intros HR HL Hc Hd H.
  destruct (soft_total_ok rows c HR ltac:(lia) Hc) as (F1 & B1 & _). destruct (soft_total_ok rows d HR ltac:(lia) Hd) as (F2 & B2 & _).
  destruct (@f_of_Z_exact 24 128 _ _ (zlen rows)) as [VN FN]; [lia|].
  assert (HN : (1 <= IZR (zlen rows))%R) by (apply IZR_le; lia).
  assert (HD : forall x, (0 <= x <= IZR (zlen rows))%R -> (0 <= x / IZR (zlen rows) <= 1)%R).
  { intros x Hx. split; [apply Rmult_le_pos; [lra|apply Rlt_le, Rinv_0_lt_compat; lra]|]. apply Rmult_le_reg_r with (IZR (zlen rows)); [lra|].
    unfold Rdiv. rewrite Rmult_assoc, Rinv_l by lra. lra. }
  unfold soft_mean.
  destruct (fdiv_correct (soft_total bits rows c) (f_of_Z (zlen rows)) F1) as [V1 _].
  { rewrite VN. lra. } { rewrite VN, Rabs_pos_eq by (apply HD; lra). change (IZR (2 ^ 24)) with 16777216%R. specialize (HD _ B1). lra. }
  destruct (fdiv_correct (soft_total bits rows d) (f_of_Z (zlen rows)) F2) as [V2 _].
  { rewrite VN. lra. } { rewrite VN, Rabs_pos_eq by (apply HD; lra). change (IZR (2 ^ 24)) with 16777216%R. specialize (HD _ B2). lra. }
  rewrite V1, V2, VN. apply (@rnd_le 24 128 _). apply Rmult_le_compat_r; [|exact H]. left. apply Rinv_0_lt_compat. lra.
Qed.
End Core.

Section SoftRun.
Variables (nf n bits : Z) (trees : sk_forest).
Hypothesis Hfit : fitted nf (proba_row n) trees.
Hypothesis Hn : 1 <= n <= 127.
Hypothesis Hbits : 2 <= bits <= 8.
Hypothesis Hnt : zlen trees <= 8388608.
Hypothesis Htab : table_fits n trees.

Lemma shares_total go : exists rows, Forall2 (tree_shares_by go) trees rows /\ Forall (proba_row n) rows /\ zlen rows = zlen trees.
Proof.
  destruct (Forall2_exists (fun t row => tree_shares_by go t row /\ proba_row n row) trees) as [rows H].
  { intros t Ht. pose proof (ft_trees _ _ _ Hfit) as HW. rewrite Forall_forall in HW.
    destruct (reaches_total nf t go (HW t Ht)) as [row Hr]. exists row. split; [exact Hr|]. eapply reach_row; eauto. }
  exists rows. split; [|split].
  - clear - H. induction H as [|t r ts rs [H1 H2] H IH]; constructor; auto.
  - clear - H. induction H as [|t r ts rs [H1 H2] H IH]; constructor; auto.
  - symmetry. eapply Forall2_zlen; eauto.
Qed.
Lemma shares_ok go rows : Forall2 (tree_shares_by go) trees rows -> Forall (proba_row n) rows /\ zlen rows = zlen trees.
Proof.
  intros H. split; [|symmetry; eapply Forall2_zlen; eauto].
  assert (G : forall t, In t trees -> forall row, tree_shares_by go t row -> proba_row n row) by (intros; eapply reach_row; eauto).
  clear Hfit Hn Hbits Hnt Htab. induction H as [|t r ts rs H1 H IH]; constructor.
  - eapply G; [left; reflexivity|exact H1].
  - apply IH. intros; eapply G; [right|]; eauto.
Qed.

(** The leaves reached in the converted forest. *)
Lemma shares_leaf go nodes roots leaves rows :
  forest_facts nf trees (soft_leaf n) LeafProbabilities bits nodes roots leaves ->
  Forall2 (tree_shares_by go) trees rows ->
  exists ks, Forall2 (fun r k => flat_leaf nodes go r k /\ 0 <= k < zlen leaves) roots ks /\
    Forall2 (fun row k => zget leaves k = Ret (LProba (map (byte_of bits) row))) rows ks.
Proof.
  intros (_ & _ & _ & HP & HR & _) HC. destruct (shares_ok go rows HC) as [FR _].
  clear Hfit Hnt Htab. revert roots HR rows HC FR. induction trees as [|t ts IH]; intros roots HR rows HC FR;
    inversion HR as [|? r ? rs H1 HR']; inversion HC as [|? row ? rows' H3 HC']; subst.
  - exists []. split; constructor.
  - inversion FR as [|? ? Hr FR']; subst. destruct (IH rs HR' rows' HC' FR') as (ks & K1 & K2).
    destruct H1 as [_ H1]. destruct (H1 _ _ H3) as (lf & lf' & E1 & E2 & (k & E3 & E4)).
    assert (Hne : row <> []) by (destruct Hr as [Hl _]; intros ->; unfold zlen in Hl; simpl in Hl; lia).
    unfold mk_pyleaf in E1. rewrite (quantize_ok row bits Hbits Hne (proj2 Hr)) in E1. cbn [bind] in E1. injection E1 as <-.
    destruct lf' as [c'| bs |]; simpl in E2; try discriminate. apply list_eqb_eq in E2. subst bs.
    exists (k :: ks). split; constructor; auto. split; [exact E3|]. eapply zget_bound; eauto.
Qed.

Lemma table_holds leaves rows ks : Forall (soft_leaf n) leaves ->
  zlen leaves <= fold_right Z.add 0 (map flat_size trees) -> Forall (proba_row n) rows ->
  Forall2 (fun row k => zget leaves k = Ret (LProba (map (byte_of bits) row))) rows ks ->
  exists lv, leaves_table leaves bits = Ret lv /\ Forall2 (holds_row n bits lv) rows ks.
Proof.
  intros HL HS HR HK. unfold leaves_table. destruct (Z.eqb_spec bits 0); [lia|]. destruct (Z.eqb_spec bits 32); [lia|].
  destruct (Z.leb_spec bits 8); [|lia]. eexists; split; [reflexivity|].
  assert (E : flat_map leaf_u8_bytes leaves = concat (map leaf_bytes leaves)).
  { clear -HL. rewrite flat_map_concat_map. f_equal. apply map_ext_in. intros l Hl.
    rewrite Forall_forall in HL. destruct (HL l Hl) as (bs & -> & _ & Hb). simpl.
    clear -Hb. induction Hb; simpl; auto. f_equal; auto. now apply to_uint8_id. }
  rewrite E. clear E. revert HR. induction HK as [|row k rows ks Hk HK IH]; intros HR; constructor; inversion HR as [|? ? Hr HR']; subst; auto.
  pose proof (zget_bound _ _ _ Hk) as Bk. unfold table_fits in Htab. split.
  - unfold int32_ok. split; nia.
  - intros c Hc. replace (n * k + c) with (k * n + c) by lia.
    rewrite zget_concat with (row := map (byte_of bits) row); auto; try lia.
    + rewrite zget_map. destruct (col_ok n row c Hr Hc) as (Ec & _). now rewrite Ec.
    + apply Forall_map. eapply Forall_impl; [|exact HL]. intros l (bs & -> & Hb & _). exact Hb.
    + apply zget_map_Ret. eauto.
Qed.

Lemma table_size leaves lv : Forall (soft_leaf n) leaves -> zlen leaves <= fold_right Z.add 0 (map flat_size trees) ->
  leaves_table leaves bits = Ret lv -> zlen lv <= 2147483647.
Proof.
  intros HL HS. unfold leaves_table. destruct (Z.eqb_spec bits 0); [lia|]. destruct (Z.eqb_spec bits 32); [lia|].
  destruct (Z.leb_spec bits 8); [|lia]. intros E. injection E as <-.
  assert (L : zlen (flat_map leaf_u8_bytes leaves) = n * zlen leaves).
  { clear - HL Hn. induction HL as [|l ls (bs & -> & Hb & _) HL IH]; [unfold zlen; cbn; lia|]. cbn [flat_map]. rewrite zlen_app, zlen_cons, IH.
    cbn [leaf_u8_bytes]. unfold zlen in Hb |- *. rewrite ?map_length. lia. }
  unfold table_fits in Htab. nia.
Qed.

(** The class chosen: the largest mean, or -1 when all are zero. *)
Definition best (rows : list (list f64)) (c : Z) : Prop :=
  (c = -1 /\ forall k, 0 <= k < n -> (B2R (soft_mean bits rows k) <= 0)%R) \/
  (0 <= c < n /\ forall k, 0 <= k < n -> (B2R (soft_mean bits rows k) <= B2R (soft_mean bits rows c))%R).

Lemma best_of_totals rows (vs : list f32) : Forall (proba_row n) rows -> 1 <= zlen rows <= 8388608 -> n <= zlen vs ->
  (forall c, 0 <= c < n -> zget vs c = Ret (soft_total bits rows c)) -> exists c, argmax_f32 vs n = Ret c /\ best rows c.
Proof.
  intros HR HL Lv G. destruct (argmax_f32_spec vs n) as (c & E & Q); [lia| |].
  { intros i Hi. rewrite (G i Hi). eexists. split; [reflexivity|]. now destruct (soft_total_ok n bits Hbits rows i HR ltac:(lia) Hi). }
  exists c. split; [exact E|]. destruct Q as [(-> & Q)|(y & Hy & Hc & _ & Q & _)].
  - left. split; [reflexivity|]. intros k Hk. specialize (Q k _ Hk (G k Hk)).
    destruct (soft_total_ok n bits Hbits rows k HR ltac:(lia) Hk) as (Ft & Bt & _).
    assert (Z : B2R (soft_total bits rows k) = 0%R) by lra. unfold soft_mean.
    destruct (@f_of_Z_exact 24 128 _ _ (zlen rows)) as [VN FN]; [lia|].
    assert (HN : (1 <= IZR (zlen rows))%R) by (apply IZR_le; lia).
    destruct (fdiv_correct (soft_total bits rows k) (f_of_Z (zlen rows)) Ft) as [V _].
    { rewrite VN. lra. } { rewrite Z, VN. unfold Rdiv. rewrite Rmult_0_l, Rabs_R0. change (IZR (2 ^ 24)) with 16777216%R. lra. }
    rewrite V, Z. unfold Rdiv. rewrite Rmult_0_l, round_0 by auto with typeclass_instances. lra.
  - right. split; [exact Hc|]. intros k Hk. apply (soft_mean_mono n bits Hbits); auto.
    rewrite (G c Hc) in Hy. injection Hy as <-. apply (Q k _ Hk (G k Hk)).
Qed.
Lemma best_of_means rows (vs : list f32) : Forall (proba_row n) rows -> 1 <= zlen rows <= 8388608 -> n <= zlen vs ->
  (forall c, 0 <= c < n -> zget vs c = Ret (soft_mean bits rows c)) -> exists c, argmax_f32 vs n = Ret c /\ best rows c.
Proof.
  intros HR HL Lv G. destruct (argmax_f32_spec vs n) as (c & E & Q); [lia| |].
  { intros i Hi. rewrite (G i Hi). eexists. split; [reflexivity|]. now destruct (soft_mean_close n bits Hbits rows i HR ltac:(lia) Hi). }
  exists c. split; [exact E|]. destruct Q as [(-> & Q)|(y & Hy & Hc & _ & Q & _)].
  - left. split; [reflexivity|]. intros k Hk. exact (Q k _ Hk (G k Hk)).
  - right. split; [exact Hc|]. intros k Hk. rewrite (G c Hc) in Hy. injection Hy as <-. exact (Q k _ Hk (G k Hk)).
Qed.

Lemma means_out rows (o1 : list f32) : n <= zlen o1 -> (forall c, 0 <= c < n -> zget o1 c = Ret (soft_total bits rows c)) ->
  exists o2, mean_out o1 n (zlen rows) = Ret o2 /\ zlen o2 = zlen o1 /\ forall c, 0 <= c < n -> zget o2 c = Ret (soft_mean bits rows c).
Proof.
  intros Lo G. unfold mean_out.
  destruct (foldM_update (fun _ x => fdiv x (f_of_Z (zlen rows)) : f32) o1 n) as (o2 & E2 & L2 & G2 & _); [lia|].
  exists o2. split; [exact E2|]. split; [exact L2|]. intros c Hc. rewrite (G2 c _ Hc (G c Hc)). reflexivity.
Qed.

(** ** Inline programs *)
Section Code.
Context {K X : Type} (const : pynum -> res K) (lt : X -> K -> bool) (ok : K -> bool).
Hypothesis HQ : Forall (fun t => Forall (fun th => exists k, const th = Ret k /\ ok k = true) (sk_threshold t)) trees.
Hypothesis H0 : exists k, const (PyInt 0) = Ret k /\ ok k = true.

Lemma soft_size nodes roots leaves : convert_forest (PyInt 0) (mk_pyleaf LeafProbabilities bits) pyleaf_eqb trees = Ret (nodes, roots, leaves) ->
  zlen leaves <= fold_right Z.add 0 (map flat_size trees).
Proof.
  intros E. pose proof (zlen_nonneg nodes).
  assert (zlen nodes + zlen leaves <= fold_right Z.add 0 (map flat_size trees)); [|lia].
  eapply (convert_forest_size (PyInt 0) (mk_pyleaf LeafProbabilities bits) pyleaf_eqb nf); eauto.
  - apply (ft_features _ _ _ Hfit). - apply (ft_trees _ _ _ Hfit).
  - eapply rows_convertible; [exact Hfit|]. intros row Hr. destruct (soft_mk n bits Hn Hbits row Hr) as (l & El & _). eauto.
Qed.

Lemma soft_code : exists f p, convert_forest (PyInt 0) (mk_pyleaf LeafProbabilities bits) pyleaf_eqb trees = Ret f /\
  generate_c_inlined const f n bits = Ret p /\ forallb (tests_ok ok) (ip_trees p) = true /\ zlen (ip_leaves p) <= 2147483647 /\
  forall features rows, nf <= zlen features -> Forall2 (tree_shares_by (decide const lt features)) trees rows ->
    (exists c, inline_predict lt p features = Ret c /\ best rows c) /\
    (forall out, n <= zlen out -> exists o, inline_predict_proba lt p features out n = Ret (0, o) /\ zlen o = zlen out /\
      (forall c, 0 <= c < n -> zget o c = Ret (soft_mean bits rows c))).
Proof.
  destruct (soft_forest nf n bits trees Hfit Hn Hbits) as (nodes & roots & leaves & E & HFF & _).
  pose proof HFF as (V & R & L & P & _). pose proof (trees_pos _ _ _ Hfit).
  pose proof (soft_size nodes roots leaves E) as HS.
  assert (HT : Forall (fun d => exists k, const (d_value d) = Ret k /\ ok k = true) nodes).
  { eapply (convert_forest_nodes (PyInt 0) (mk_pyleaf LeafProbabilities bits) pyleaf_eqb (fun th => exists k, const th = Ret k /\ ok k = true)); [|exact E].
    eapply Forall_impl; [|exact HQ]. intros t Ht. split; auto. }
  assert (HL : forall k, 0 <= k < zlen leaves -> exists r, class_leaf_const leaves bits k = Ret r).
  { intros k Hk. unfold class_leaf_const. destruct (Z.eqb_spec bits 0); [lia|]. eauto. }
  destruct (roots_gen const lt nf (zlen leaves) nodes (class_leaf_const leaves bits) ok V HT HL roots R) as (ts & Et & Lt & T & H').
  destruct (table_holds leaves [] [] P HS (Forall_nil _) (Forall2_nil _)) as (lv & Elv & _).
  exists (nodes, roots, leaves), (mk_inline ts lv n bits). split; [exact E|].
  split. { unfold generate_c_inlined. rewrite Elv. cbn [bind]. rewrite Et. reflexivity. }
  split; [exact T|]. split; [exact (table_size leaves lv P HS Elv)|]. intros features rows Hf HC.
  destruct (shares_ok _ rows HC) as [FR LR].
  destruct (shares_leaf _ nodes roots leaves rows HFF HC) as (ks & K1 & K2).
  destruct (table_holds leaves rows ks P HS FR K2) as (lv' & Elv' & HH). rewrite Elv in Elv'. injection Elv' as <-.
  assert (RT : Forall2 (fun t k => run_tree lt features t = Ret k) ts ks).
  { specialize (H' features Hf). unfold table_fits in Htab. clear - H' K1 HS Htab Hbits Hn. revert ks K1.
    induction H' as [|t r ts rs (k & v & F1 & F2 & F3 & F4) H IH]; intros ks K1; inversion K1 as [|? k' ? ks' [F5 F6] K1']; subst; constructor; [|now apply IH].
    rewrite F4. f_equal. assert (k' = k) by (eapply flat_leaf_det; eauto). subst k'.
    unfold class_leaf_const in F3. destruct (Z.eqb_spec bits 0); [lia|]. injection F3 as <-. apply to_int32_id. unfold int32_ok. nia. }
  assert (EL : forall out0, foldM (inline_soft_step lt (mk_inline ts lv n bits) features) out0 ts = foldM (soft_step n lv) out0 ks).
  { intros out0. rewrite <- (foldM_map2 (fun t => run_tree lt features t) (soft_step n lv) ts ks) by exact RT. apply foldM_ext.
    intros s t _. reflexivity. }
  assert (Lts : zlen ts = zlen rows) by lia.
  split.
  - unfold inline_predict. cbn [ip_leaf_bits]. destruct (Z.eqb_spec bits 0); [lia|].
    unfold inline_predict_soft. cbn [ip_trees ip_n_classes]. rewrite EL.
    assert (Lz : zlen (repeat (fzero : f32) (Z.to_nat n)) = n) by (rewrite zlen_repeat; lia).
    destruct (soft_totals n bits Hn Hbits lv rows ks (repeat fzero (Z.to_nat n)) HH FR ltac:(lia)) as (o & Eo & Lo & Go).
    { intros c Hc. apply zget_repeat. lia. }
    rewrite Eo. cbn [bind]. apply best_of_totals; auto; lia.
  - intros out Ho. unfold inline_predict_proba. cbn [ip_leaf_bits]. destruct (Z.eqb_spec bits 0); [lia|].
    unfold inline_proba_soft. cbn [ip_trees]. 
    destruct (foldM_fill (fun _ => fzero : f32) out n) as (o0 & E0 & L0 & G0 & R0); [lia|].
    unfold clear_out. rewrite E0. cbn [bind]. rewrite EL.
    destruct (soft_totals n bits Hn Hbits lv rows ks o0 HH FR ltac:(lia) G0) as (o1 & E1 & L1 & G1).
    rewrite E1. cbn [bind]. rewrite Lts. destruct (means_out rows o1 ltac:(lia) G1) as (o2 & E2 & L2 & G2).
    rewrite E2. cbn [bind]. exists o2. split; [reflexivity|]. split; [lia|exact G2].
Qed.
End Code.

Lemma soft_int16_code method dtype : thresholds_within (-32767) 32767 trees -> nf <= 10000 ->
  inline_args method dtype -> exists w p, wrapper_init true method dtype (Some bits) trees nf n = Ret w /\
  save_code w = Ret (CodeInt16 p) /\ w_classifier w = true /\ w_n_features w = nf /\ w_n_classes w = n /\ zlen (ip_leaves p) <= 2147483647 /\
  forall features rows, nf <= zlen features -> Forall2 (tree_shares_by (go_lt features)) trees rows ->
    (exists c, inline_predict_int16 p features = Ret c /\ best rows c) /\
    (forall out, n <= zlen out -> exists o, inline_predict_proba_int16 p features out n = Ret (0, o) /\ zlen o = zlen out /\
      (forall c, 0 <= c < n -> zget o c = Ret (soft_mean bits rows c))).
Proof.
  intros HTH Hnf [Hm Hd].
  destruct (soft_code py_int Z.ltb int16_test_ok) as (f & p & E & Ep & T & TB & G).
  { eapply Forall_impl; [|exact HTH]. intros t Ht. eapply Forall_impl; [|exact Ht]. intros th (k & Ek & Bk). exists k. split; [exact Ek|].
    unfold int16_test_ok. destruct (Z.leb_spec (-32767) k); [|lia]. destruct (Z.leb_spec k 32767); [reflexivity|lia]. }
  { exists 0. split; reflexivity. }
  destruct (soft_bits bits Hbits) as [S1 S2].
  assert (Ew : wrapper_init true method dtype (Some bits) trees nf n = Ret (mk_wrapper true MInline DInt16 bits f nf n)).
  { unfold wrapper_init. rewrite S1, S2, E. cbn [bind].
    destruct Hm as [<-|[<-|[]]]; destruct Hd as [<-|[<-|[]]]; cbn [bind]; (destruct (Z.ltb_spec 10000 nf); [lia|reflexivity]). }
  eexists _, p. split; [exact Ew|]. split.
  { unfold save_code. cbn [w_method w_dtype w_classifier]. unfold save_inline. cbn [w_forest w_n_classes w_leaf_bits].
    change (generate_c_inlined_int16 f n bits) with (generate_c_inlined py_int f n bits). rewrite Ep. cbn [bind].
    unfold compiles. rewrite T. reflexivity. }
  cbn [w_classifier w_n_features w_n_classes]. split; [reflexivity|]. split; [reflexivity|]. split; [reflexivity|]. split; [exact TB|].
  intros features cs Hf HC. exact (G features cs Hf HC).
Qed.

Lemma soft_float_code method : float_thresholds trees -> nf <= 10000 ->
  In method [None; Some MInline] -> exists w p, wrapper_init true method (Some DFloat) (Some bits) trees nf n = Ret w /\
  save_code w = Ret (CodeFloat p) /\ w_classifier w = true /\ w_n_features w = nf /\ w_n_classes w = n /\ zlen (ip_leaves p) <= 2147483647 /\
  forall features rows, nf <= zlen features -> Forall2 (tree_shares_by (decide float_const fltb features)) trees rows ->
    (exists c, inline_predict fltb p features = Ret c /\ best rows c) /\
    (forall out, n <= zlen out -> exists o, inline_predict_proba fltb p features out n = Ret (0, o) /\ zlen o = zlen out /\
      (forall c, 0 <= c < n -> zget o c = Ret (soft_mean bits rows c))).
Proof.
  intros HT Hnf Hm.
  destruct (soft_code float_const fltb (fun _ => true)) as (f & p & E & Ep & _ & TB & G).
  { eapply Forall_impl; [|exact HT]. intros t Ht. eapply Forall_impl; [|exact Ht]. intros th (A & B).
    destruct (float_const_ok th A B) as (k & Ek & _). eauto. }
  { exists fzero. split; [apply float_const_zero|reflexivity]. }
  destruct (soft_bits bits Hbits) as [S1 S2].
  assert (Ew : wrapper_init true method (Some DFloat) (Some bits) trees nf n = Ret (mk_wrapper true MInline DFloat bits f nf n)).
  { unfold wrapper_init. rewrite S1, S2, E. cbn [bind].
    destruct Hm as [<-|[<-|[]]]; cbn [bind]; (destruct (Z.ltb_spec 10000 nf); [lia|reflexivity]). }
  eexists _, p. split; [exact Ew|]. split.
  { unfold save_code. cbn [w_method w_dtype w_classifier w_forest w_n_classes w_leaf_bits]. rewrite Ep. reflexivity. }
  split; [reflexivity|]. split; [reflexivity|]. split; [reflexivity|]. split; [exact TB|]. exact G.
Qed.

(** ** Loadable *)
Lemma soft_loadable_code dtype : small_model nf trees -> In dtype [None; Some DInt16] ->
  exists w m, wrapper_init true (Some MLoadable) dtype (Some bits) trees nf n = Ret w /\
  save_code w = Ret (CodeLoadable m) /\ w_classifier w = true /\ w_n_features w = nf /\ w_n_classes w = n /\
  forall features rows, zlen features = nf -> Forall2 (tree_shares_by (go_lt features)) trees rows ->
    (n <= 30 -> exists c, eml_trees_predict m features nf = Ret c /\ best rows c) /\
    (forall out, n <= zlen out -> exists o, eml_trees_predict_proba m features out n = Ret (EmlOk, o) /\ zlen o = zlen out /\
      (forall c, 0 <= c < n -> zget o c = Ret (soft_mean bits rows c))).
Proof.
  intros HSM Hd. pose proof HSM as (Hnf & _).
  destruct (soft_forest nf n bits trees Hfit Hn Hbits) as (nodes & roots & leaves & E & HFF & HFC). specialize (HFC HSM).
  pose proof HFF as (V & R & L & P & _). pose proof (trees_pos _ _ _ Hfit).
  pose proof (soft_size nodes roots leaves E) as HS.
  destruct (table_holds leaves [] [] P HS (Forall_nil _) (Forall2_nil _)) as (lv & Elv & _).
  destruct (loadable_ok nf nodes roots leaves V HFC R ltac:(lia) nf n bits lv Elv) as (m & Em & _).
  destruct (soft_bits bits Hbits) as [S1 S2].
  assert (Ew : wrapper_init true (Some MLoadable) dtype (Some bits) trees nf n = Ret (mk_wrapper true MLoadable DInt16 bits (nodes, roots, leaves) nf n)).
  { unfold wrapper_init. rewrite S1, S2, E. cbn [bind]. destruct Hd as [<-|[<-|[]]]; cbn [bind]; (destruct (Z.ltb_spec 127 nf); [lia|reflexivity]). }
  eexists _, m. split; [exact Ew|]. split.
  { unfold save_code. cbn [w_method]. unfold save_loadable. cbn [w_forest w_n_features w_n_classes w_leaf_bits]. rewrite Em. reflexivity. }
  split; [reflexivity|]. split; [reflexivity|]. split; [reflexivity|].
  intros features rows Hf HC. pose proof (ft_features _ _ _ Hfit) as Hf1.
  destruct (shares_ok _ rows HC) as [FR LR].
  destruct (shares_leaf _ nodes roots leaves rows HFF HC) as (ks & K1 & K2).
  destruct (table_holds leaves rows ks P HS FR K2) as (lv' & Elv' & HH). rewrite Elv in Elv'. injection Elv' as <-.
  destruct (soft_fields nf nodes roots leaves V HFC R ltac:(lia) n P Hn bits Hbits ltac:(lia) m Em) as (F1 & F2 & F3 & F4 & F5 & F6 & F7).
  rewrite Elv in F7. injection F7 as F7.
  assert (EP : forall out, n <= zlen out -> exists o, eml_trees_predict_proba m features out n = Ret (EmlOk, o) /\ zlen o = zlen out /\
      (forall c, 0 <= c < n -> zget o c = Ret (soft_mean bits rows c))).
  { intros out Ho. unfold eml_trees_predict_proba. rewrite F6, Z.eqb_refl, F4. cbn [negb].
    destruct (foldM_fill (fun _ => fzero : f32) out n) as (o0 & E0 & L0 & G0 & R0); [lia|].
    unfold clear_out. rewrite E0. cbn [bind]. change (8 =? 0) with false. change (8 =? 8) with true. cbn [bind].
    rewrite (loadable_soft_loop nf nodes roots leaves V HFC R ltac:(lia) n P Hn bits Hbits features ltac:(lia) ltac:(lia) m Em o0 ks K1).
    rewrite <- F7. destruct (soft_totals n bits Hn Hbits lv rows ks o0 HH FR ltac:(lia) G0) as (o1 & E1 & L1 & G1).
    rewrite E1. cbn [bind]. rewrite F3. replace (zlen roots) with (zlen rows) by lia.
    destruct (means_out rows o1 ltac:(lia) G1) as (o2 & E2 & L2 & G2). rewrite E2. cbn [bind]. exists o2. split; [reflexivity|]. split; [lia|exact G2]. }
  split; [|exact EP]. intros H30. unfold eml_trees_predict. rewrite F5, to_int8_id, Z.eqb_refl by (unfold int8_ok; lia). cbn [negb].
  rewrite F6. unfold EMTREES_MAX_CLASSES. destruct (Z.ltb_spec 30 n); [lia|].
  destruct (EP (repeat fzero (Z.to_nat 30))) as (o & Eo & Lo & Go); [rewrite zlen_repeat; lia|]. rewrite Eo. cbn [bind].
  rewrite zlen_repeat in Lo.
  apply best_of_means; auto; lia.
Qed.
End SoftRun.

(** ** predict and predict_proba *)
Section Finish.
Variables (nf n bits : Z) (trees : sk_forest).
Hypothesis Hfit : fitted nf (proba_row n) trees.
Hypothesis Hn : 1 <= n <= 127.
Hypothesis Hbits : 2 <= bits <= 8.
Hypothesis Hnt : zlen trees <= 8388608.
Variables (w : wrapper) (c : tree_code) (X : list (list f64)) (Dec : list f64 -> (Z -> pynum -> bool) -> Prop).
Hypothesis Hc : save_code w = Ret c.
Hypothesis Hcl : w_classifier w = true.
Hypothesis Hf : w_n_features w = nf.
Hypothesis Hk : w_n_classes w = n.
Hypothesis NX : X <> [].
Hypothesis GX : Forall good_row X.
Hypothesis AX : all_fit (map serialize_row X).
Hypothesis LX : zlen X <= 2147483647.

Lemma finish_predict : 2 <= n ->
  (forall row values, In row X -> holds row values -> exists go rows k, Dec row go /\ Forall2 (tree_shares_by go) trees rows /\
     code_predict c nf values (zlen row) = Ret k /\ best n bits rows k) ->
  exists out, wrapper_predict w X = Ret out /\ zlen out = zlen X /\
  forall i row, zget X i = Ret row -> exists go rows k, Dec row go /\ Forall2 (tree_shares_by go) trees rows /\
    zget out i = Ret (PyInt k) /\ 0 <= k < n /\
    forall j, 0 <= j < n -> (mean_share rows j <= mean_share rows k + 2 * soft_err bits (zlen trees))%R.
Proof.
  intros H2 HP. unfold wrapper_predict. rewrite Hc, Hcl, Hf. cbn [bind].
  destruct (predict_classes (fun values length => let* out := code_predict c nf values length in Ret (f_of_Z (flip_negative out))) X
     (fun row k => exists go rows, Dec row go /\ Forall2 (tree_shares_by go) trees rows /\ 0 <= k < n /\
        forall j, 0 <= j < n -> (mean_share rows j <= mean_share rows k + 2 * soft_err bits (zlen trees))%R) NX GX AX LX)
    as (out & Eo & Lo & Go).
  { intros row values I Hv. destruct (HP row values I Hv) as (go & rows & k & D & HC & Ek & B).
    rewrite Ek. cbn [bind]. destruct (shares_ok nf n trees Hfit go rows HC) as [FR LR].
    pose proof (trees_pos _ _ _ Hfit).
    assert (CL : forall j, 0 <= j < n -> (Rabs (B2R (soft_mean bits rows j) - mean_share rows j) <= soft_err bits (zlen trees))%R).
    { intros j Hj. unfold soft_err. rewrite <- LR. now destruct (soft_mean_close n bits Hbits rows j FR ltac:(lia) Hj). }
    exists (flip_negative k). split; [reflexivity|].
    assert (KB : 0 <= flip_negative k < n /\ forall j, 0 <= j < n -> (mean_share rows j <= mean_share rows (flip_negative k) + 2 * soft_err bits (zlen trees))%R).
    { destruct B as [[-> Z]|[Bk M]].
      - change (flip_negative (-1)) with 1. split; [lia|]. intros j Hj. pose proof (CL j Hj) as C1. pose proof (CL 1 ltac:(lia)) as C2.
        pose proof (Z j Hj). destruct (soft_mean_close n bits Hbits rows 1 FR ltac:(lia) ltac:(lia)) as (_ & B1 & _).
        apply Rabs_le_inv in C1. apply Rabs_le_inv in C2. lra.
      - unfold flip_negative. destruct (Z.ltb_spec k 0); [lia|]. split; [exact Bk|]. intros j Hj. pose proof (CL j Hj) as C1. pose proof (CL k Bk) as C2.
        pose proof (M j Hj). apply Rabs_le_inv in C1. apply Rabs_le_inv in C2. lra. }
    destruct KB as [KB1 KB2]. split; [lia|]. exists go, rows. auto. }
  exists out. split; [exact Eo|]. split; [exact Lo|]. intros i row Hr.
  destruct (Go i row Hr) as (k & Ek & go & rows & D & HC & B & M). exists go, rows, k. auto.
Qed.

Lemma finish_proba :
  (forall row values before, In row X -> holds row values -> zlen before = n -> exists go rows o, Dec row go /\ Forall2 (tree_shares_by go) trees rows /\
     code_predict_proba c nf n before values (zlen row) = Ret o /\ zlen o = n /\ forall k, 0 <= k < n -> zget o k = Ret (soft_mean bits rows k)) ->
  exists m, wrapper_predict_proba w X = Ret m /\ zlen m = zlen X /\
  forall i row, zget X i = Ret row -> exists go rows r, Dec row go /\ Forall2 (tree_shares_by go) trees rows /\ zget m i = Ret r /\
    forall k, 0 <= k < n -> exists p, zget r k = Ret (Some p) /\ is_finite p = true /\
      (Rabs (B2R p - mean_share rows k) <= soft_err bits (zlen trees) + / 1000000)%R.
Proof.
  intros HP. unfold wrapper_predict_proba. rewrite Hc, Hcl, Hf, Hk. cbn [bind negb].
  destruct (proba_rows (code_predict_proba c nf n) n X (fun row o => exists go rows, Dec row go /\ Forall2 (tree_shares_by go) trees rows /\
     forall k, 0 <= k < n -> zget o k = Ret (soft_mean bits rows k)) ltac:(lia) NX GX AX LX) as (m & Em & Lm & Gm).
  { intros row values before I Hv Hb. destruct (HP row values before I Hv Hb) as (go & rows & o & D & HC & Eo & Lo & Go).
    exists o. split; [exact Eo|]. split; [exact Lo|]. eauto. }
  exists m. split; [exact Em|]. split; [exact Lm|]. intros i row Hr.
  destruct (Gm i row Hr) as (r & o & Er & (go & rows & D & HC & Go) & Gr). exists go, rows, r.
  split; [exact D|]. split; [exact HC|]. split; [exact Er|]. intros k Bk.
  destruct (shares_ok nf n trees Hfit go rows HC) as [FR LR]. pose proof (trees_pos _ _ _ Hfit).
  destruct (soft_mean_close n bits Hbits rows k FR ltac:(lia) Bk) as (Fy & By & Dy). rewrite LR in Dy.
  destruct (Gr k _ Bk (Go k Bk)) as (p & Ep & T). exists p. split; [exact Ep|]. specialize (T Fy).
  set (y := B2R (soft_mean bits rows k)) in *. destruct (through6_f64 y p) as [F D6]; [|exact T|].
  { rewrite Rabs_pos_eq by lra. assert (1 <= bpow radix2 1022)%R by (change 1%R with (bpow radix2 0); apply bpow_le; lia). lra. }
  split; [exact F|]. rewrite (Rabs_pos_eq y) in D6 by lra.
  assert (P : (0 < bpow radix2 (-53) <= / 1099511627776)%R).
  { split; [apply bpow_gt_0|]. change (/ 1099511627776)%R with (bpow radix2 (-40)). apply bpow_le. lia. }
  assert (y * bpow radix2 (-53) <= 1 * / 1099511627776)%R by (apply Rmult_le_compat; lra).
  replace (B2R p - mean_share rows k)%R with ((B2R p - y) + (y - mean_share rows k))%R by ring.
  eapply Rle_trans; [apply Rabs_triang|]. unfold soft_err. lra.
Qed.
End Finish.

Section Top.
Variables (nf n bits : Z) (trees : sk_forest).
Hypothesis Hfit : fitted nf (proba_row n) trees.
Hypothesis Hn : 1 <= n <= 127.
Hypothesis Hbits : 2 <= bits <= 8.
Hypothesis Hnt : zlen trees <= 8388608.

Lemma small_table : small_model nf trees -> table_fits n trees.
Proof. intros (_ & H & _). unfold table_fits. nia. Qed.

(** int16_t features. *)
Definition int16_dec (row : list f64) (go : Z -> pynum -> bool) : Prop := exists features, int16_row row features /\ go = go_lt features.

Theorem soft_predict_run method dtype X : nf <= 127 -> 2 <= n -> In dtype [None; Some DInt16] ->
  (In method [None; Some MInline] /\ thresholds_within (-32767) 32767 trees /\ table_fits n trees \/
   method = Some MLoadable /\ small_model nf trees /\ n <= 30) -> int16_rows nf X ->
  exists w out, wrapper_init true method dtype (Some bits) trees nf n = Ret w /\ wrapper_predict w X = Ret out /\ zlen out = zlen X /\
  forall i row, zget X i = Ret row -> exists go rows k, int16_dec row go /\ Forall2 (tree_shares_by go) trees rows /\
    zget out i = Ret (PyInt k) /\ 0 <= k < n /\
    forall j, 0 <= j < n -> (mean_share rows j <= mean_share rows k + 2 * soft_err bits (zlen trees))%R.
Proof.
  intros Hnf H2 Hd Hm HX. pose proof (ft_features _ _ _ Hfit).
  destruct (int16_rows_fit nf X HX ltac:(lia)) as (NX & GX & AX & LX).
  pose proof HX as (_ & _ & FX). rewrite Forall_forall in FX.
  destruct Hm as [(Hm & HT & HB)|(-> & HS & H30)].
  - destruct (soft_int16_code nf n bits trees Hfit Hn Hbits Hnt HB method dtype HT ltac:(lia) (conj Hm Hd)) as (w & p & A & B & C & D & E & _ & G).
    exists w. destruct (finish_predict nf n bits trees Hfit Hn Hbits Hnt w (CodeInt16 p) X int16_dec B C D NX GX AX LX H2) as (out & O1 & O2 & O3).
    { intros row values I Hh. destruct (FX row I) as (L & features & R). destruct (cast_int16 nf row features values L R Hh) as (LF & _ & Ef).
      destruct (shares_total nf n trees Hfit (go_lt features)) as (rows & HC & _).
      destruct (G features rows ltac:(lia) HC) as [(k & Ek & Bk) _]. exists (go_lt features), rows, k.
      split; [exists features; auto|]. split; [exact HC|]. split; [|exact Bk]. rewrite L. cbn [code_predict]. rewrite Ef. exact Ek. }
    exists out. auto.
  - destruct (soft_loadable_code nf n bits trees Hfit Hn Hbits Hnt (small_table HS) dtype HS Hd) as (w & m & A & B & C & D & E & G).
    exists w. destruct (finish_predict nf n bits trees Hfit Hn Hbits Hnt w (CodeLoadable m) X int16_dec B C D NX GX AX LX H2) as (out & O1 & O2 & O3).
    { intros row values I Hh. destruct (FX row I) as (L & features & R). destruct (cast_int16 nf row features values L R Hh) as (LF & Ef & _).
      destruct (shares_total nf n trees Hfit (go_lt features)) as (rows & HC & _).
      destruct (G features rows ltac:(lia) HC) as [G1 _]. destruct (G1 H30) as (k & Ek & Bk). exists (go_lt features), rows, k.
      split; [exists features; auto|]. split; [exact HC|]. split; [|exact Bk]. rewrite L. cbn [code_predict]. rewrite Ef. exact Ek. }
    exists out. auto.
Qed.

Theorem soft_proba_run method dtype X : nf <= 127 -> In dtype [None; Some DInt16] ->
  (In method [None; Some MInline] /\ thresholds_within (-32767) 32767 trees /\ table_fits n trees \/
   method = Some MLoadable /\ small_model nf trees) -> int16_rows nf X ->
  exists w m, wrapper_init true method dtype (Some bits) trees nf n = Ret w /\ wrapper_predict_proba w X = Ret m /\ zlen m = zlen X /\
  forall i row, zget X i = Ret row -> exists go rows r, int16_dec row go /\ Forall2 (tree_shares_by go) trees rows /\ zget m i = Ret r /\
    forall k, 0 <= k < n -> exists p, zget r k = Ret (Some p) /\ is_finite p = true /\
      (Rabs (B2R p - mean_share rows k) <= soft_err bits (zlen trees) + / 1000000)%R.
Proof.
  intros Hnf Hd Hm HX. pose proof (ft_features _ _ _ Hfit).
  destruct (int16_rows_fit nf X HX ltac:(lia)) as (NX & GX & AX & LX).
  pose proof HX as (_ & _ & FX). rewrite Forall_forall in FX.
  destruct Hm as [(Hm & HT & HB)|(-> & HS)].
  - destruct (soft_int16_code nf n bits trees Hfit Hn Hbits Hnt HB method dtype HT ltac:(lia) (conj Hm Hd)) as (w & p & A & B & C & D & E & _ & G).
    exists w. destruct (finish_proba nf n bits trees Hfit Hn Hbits Hnt w (CodeInt16 p) X int16_dec B C D E NX GX AX LX) as (out & O1 & O2 & O3).
    { intros row values before I Hh Hb. destruct (FX row I) as (L & features & R). destruct (cast_int16 nf row features values L R Hh) as (LF & _ & Ef).
      destruct (shares_total nf n trees Hfit (go_lt features)) as (rows & HC & _).
      destruct (G features rows ltac:(lia) HC) as [_ G1]. destruct (G1 before ltac:(lia)) as (o & Eo & Lo & Go). exists (go_lt features), rows, o.
      split; [exists features; auto|]. split; [exact HC|]. split; [|split; [lia|exact Go]]. rewrite L. cbn [code_predict_proba]. rewrite Ef. cbn [bind]. rewrite Eo. reflexivity. }
    exists out. auto.
  - destruct (soft_loadable_code nf n bits trees Hfit Hn Hbits Hnt (small_table HS) dtype HS Hd) as (w & m & A & B & C & D & E & G).
    exists w. destruct (finish_proba nf n bits trees Hfit Hn Hbits Hnt w (CodeLoadable m) X int16_dec B C D E NX GX AX LX) as (out & O1 & O2 & O3).
    { intros row values before I Hh Hb. destruct (FX row I) as (L & features & R). destruct (cast_int16 nf row features values L R Hh) as (LF & _ & Ef).
      destruct (shares_total nf n trees Hfit (go_lt features)) as (rows & HC & _).
      destruct (G features rows ltac:(lia) HC) as [_ G1]. destruct (G1 before ltac:(lia)) as (o & Eo & Lo & Go). exists (go_lt features), rows, o.
      split; [exists features; auto|]. split; [exact HC|]. split; [|split; [lia|exact Go]]. rewrite L. cbn [code_predict_proba]. rewrite Ef. cbn [bind]. rewrite Eo. reflexivity. }
    exists out. auto.
Qed.

(** float features. *)
Theorem soft_float_run method X : nf <= 10000 -> In method [None; Some MInline] -> float_thresholds trees -> table_fits n trees -> float_rows nf X ->
  exists w m out, wrapper_init true method (Some DFloat) (Some bits) trees nf n = Ret w /\
  wrapper_predict_proba w X = Ret m /\ zlen m = zlen X /\
  (2 <= n -> wrapper_predict w X = Ret out /\ zlen out = zlen X) /\
  forall i row, zget X i = Ret row ->
   (exists go rows r, float_decisions row trees go /\ Forall2 (tree_shares_by go) trees rows /\ zget m i = Ret r /\
    forall k, 0 <= k < n -> exists p, zget r k = Ret (Some p) /\ is_finite p = true /\
      (Rabs (B2R p - mean_share rows k) <= soft_err bits (zlen trees) + / 1000000)%R) /\
   (2 <= n -> exists go rows k, float_decisions row trees go /\ Forall2 (tree_shares_by go) trees rows /\
    zget out i = Ret (PyInt k) /\ 0 <= k < n /\
    forall j, 0 <= j < n -> (mean_share rows j <= mean_share rows k + 2 * soft_err bits (zlen trees))%R).
Proof.
  intros Hnf Hm HT HB HX. pose proof (ft_features _ _ _ Hfit).
  destruct (float_rows_fit nf X HX ltac:(lia)) as (NX & GX & AX & LX).
  pose proof HX as (_ & _ & FX). rewrite Forall_forall in FX.
  destruct (soft_float_code nf n bits trees Hfit Hn Hbits Hnt HB method HT Hnf Hm) as (w & p & A & B & C & D & E & _ & G).
  destruct (finish_proba nf n bits trees Hfit Hn Hbits Hnt w (CodeFloat p) X (fun row go => float_decisions row trees go) B C D E NX GX AX LX) as (m & M1 & M2 & M3).
  { intros row values before I Hh Hb. destruct (FX row I) as (L & FR & _).
    destruct (float_values nf row values L FR Hh) as (ws & AW & LW & Ef).
    destruct (shares_total nf n trees Hfit (decide float_const fltb ws)) as (rows & HC & _).
    destruct (G ws rows ltac:(lia) HC) as [_ G1]. destruct (G1 before ltac:(lia)) as (o & Eo & Lo & Go). exists (decide float_const fltb ws), rows, o.
    split; [now apply float_go|]. split; [exact HC|]. split; [|split; [lia|exact Go]]. rewrite L. cbn [code_predict_proba]. rewrite Ef. cbn [bind]. rewrite Eo. reflexivity. }
  exists w, m. destruct (Z_le_gt_dec 2 n) as [H2|H2].
  - destruct (finish_predict nf n bits trees Hfit Hn Hbits Hnt w (CodeFloat p) X (fun row go => float_decisions row trees go) B C D NX GX AX LX H2) as (out & O1 & O2 & O3).
    { intros row values I Hh. destruct (FX row I) as (L & FR & _).
      destruct (float_values nf row values L FR Hh) as (ws & AW & LW & Ef).
      destruct (shares_total nf n trees Hfit (decide float_const fltb ws)) as (rows & HC & _).
      destruct (G ws rows ltac:(lia) HC) as [(k & Ek & Bk) _]. exists (decide float_const fltb ws), rows, k.
      split; [now apply float_go|]. split; [exact HC|]. split; [|exact Bk]. rewrite L. cbn [code_predict]. rewrite Ef. exact Ek. }
    exists out. split; [exact A|]. split; [exact M1|]. split; [exact M2|]. split; [auto|]. intros i row Hr. split; [exact (M3 i row Hr)|]. intros _. exact (O3 i row Hr).
  - exists []. split; [exact A|]. split; [exact M1|]. split; [exact M2|]. split; [lia|]. intros i row Hr. split; [exact (M3 i row Hr)|lia].
Qed.

(** Decisions that agree lead to the same proportions. *)
Lemma shares_by_ext go1 go2 rows : (forall t f th, In t trees -> decision t f th -> go1 f th = go2 f th) ->
  Forall2 (tree_shares_by go1) trees rows -> Forall2 (tree_shares_by go2) trees rows.
Proof.
  clear Hfit Hnt. intros H F. induction F as [|t x ts xs Hr F IH]; constructor.
  - eapply reaches_ext; [|exact Hr]. intros f th D. apply (H t f th); [left; reflexivity|exact D].
  - apply IH. intros t' f th I D. apply (H t' f th); [right; exact I|exact D].
Qed.
End Top.
