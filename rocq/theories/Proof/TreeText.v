(** The text of an exported forest. *)
From Coq Require Import String ZArith List Bool Lia Reals Lra.
From Flocq Require Import Core BinarySingleNaN.
From Verif.Base Require Import Res CInt ListX Loops Float FloatOrder.
From Verif.Model Require Import Common Text Cgen TreesConvert TreesC TreesWrapper TreesCsv.
From Verif.Spec Require Import StrSpec TreeTextSpec.
From Verif.Proof Require Import Text Str Quantize TreesMisc.
Import ListNotations.
Open Scope Z_scope.
Open Scope list_scope.

Lemma fmt_int_text z : int_text (fmt_int z) z.
Proof.
  unfold fmt_int, int_text. destruct (Z.ltb_spec z 0).
  - destruct (dec_digits_ok (- z)) as (A & B & C); [lia|]. exists true, (dec_digits (- z)). repeat split; auto. change (number (dec_digits (- z))) with (dval 0 (dec_digits (- z))). lia.
  - destruct (dec_digits_ok z) as (A & B & C); [lia|]. exists false, (dec_digits z). repeat split; auto.
Qed.
Definition rec_ok (r : csv_record) : Prop :=
  match r with
  | RLeaf (LValue x) => is_finite x = true
  | RLeaf (LProba _) => False
  | RNode _ v _ _ => is_finite v = true
  | _ => True
  end.
Lemma line_ok fs ar r : str_reads_back fs -> rec_ok r -> exists e, line_says (csv_line fs ar r) e /\ entry_is e r.
Proof.
  intros SR RO. destruct r as [n|n|n|[c|b|x]|n|f v a b]; cbn [csv_line]; cbn [rec_ok] in RO.
  - exists (Features n). split; [apply ls_features, fmt_int_text|reflexivity].
  - exists (Classes n). split; [apply ls_classes, fmt_int_text|reflexivity].
  - exists (LeafBits n). split; [apply ls_bits, fmt_int_text|reflexivity].
  - exists (LeafClass c). split; [apply ls_class, fmt_int_text|reflexivity].
  - destruct RO.
  - destruct (SR x RO) as (w & T & E). exists (LeafValue_ w). split; [now apply ls_value|exact E].
  - exists (Root n). split; [apply ls_root, fmt_int_text|reflexivity].
  - destruct (SR v RO) as (w & T & E). exists (Node f w a b). split; [|cbn; auto].
    apply ls_node; auto using fmt_int_text.
Qed.
Lemma file_ok fs ar rs : str_reads_back fs -> rs <> [] -> Forall rec_ok rs ->
  exists es, file_says (join_with [13; 10] (map (csv_line fs ar) rs)) es /\ Forall2 entry_is es rs.
Proof.
  intros SR NE F. induction rs as [|r rs IH]; [congruence|]. inversion F as [|? ? F1 F2]; subst.
  destruct (line_ok fs ar r SR F1) as (e & L & E). destruct rs as [|r' rs].
  - exists [e]. split; [now apply fs_last|]. constructor; [exact E|constructor].
  - destruct IH as (es & H1 & H2); [discriminate|exact F2|]. exists (e :: es). split; [|now constructor].
    cbn [map]. change (join_with [13; 10] (csv_line fs ar r :: csv_line fs ar r' :: map (csv_line fs ar) rs)) with (csv_line fs ar r ++ [13; 10] ++ join_with [13; 10] (map (csv_line fs ar) (r' :: rs))).
    now apply fs_more.
Qed.

(** ** A text says only one thing *)
Lemma sep_unique (c : Z) : forall a b x y, ~ In c a -> ~ In c b -> a ++ c :: x = b ++ c :: y -> a = b /\ x = y.
Proof.
  induction a as [|u a IH]; intros [|v b] x y Ha Hb E; cbn [app] in E.
  - injection E as E. auto.
  - injection E as <- E. exfalso. apply Hb. now left.
  - injection E as -> E. exfalso. apply Ha. now left.
  - injection E as -> E. destruct (IH b x y) as [-> ->]; auto; intros I; [apply Ha|apply Hb]; now right.
Qed.
Lemma int_chars t z : int_text t z -> Forall (fun c => 48 <= c <= 57 \/ c = 45) t.
Proof.
  intros (neg & ds & -> & D & _). apply Forall_app. split; [destruct neg; repeat constructor; lia|]. eapply Forall_impl; [|exact D]. cbv beta. lia.
Qed.
Lemma float_chars t v : float_text t v -> Forall (fun c => 48 <= c <= 57 \/ c = 45 \/ c = 46 \/ c = 101 \/ c = 43) t.
Proof.
  intros (neg & w & fr & pt & ex & e & -> & D1 & _ & D2 & X & P & _).
  assert (DD : forall l, digit_text l -> Forall (fun c => 48 <= c <= 57 \/ c = 45 \/ c = 46 \/ c = 101 \/ c = 43) l).
  { intros l D. eapply Forall_impl; [|exact D]. cbv beta. lia. }
  repeat (apply Forall_app; split); auto.
  - destruct neg; repeat constructor; lia.
  - destruct P as [-> |(-> & _)]; [constructor; [lia|auto]|constructor].
  - destruct X; repeat (constructor; [lia|]); auto.
Qed.
Lemma no_char (P : Z -> Prop) (c : Z) t : Forall P t -> ~ P c -> ~ In c t.
Proof. intros F N I. apply N. exact (proj1 (Forall_forall _ _) F c I). Qed.
Lemma int_unique t z z' : int_text t z -> int_text t z' -> z = z'.
Proof.
  intros (n1 & d1 & -> & D1 & N1 & ->) (n2 & d2 & E & D2 & N2 & ->).
  assert (H : forall d : list Z, digit_text d -> ~ In 45 d) by (intros d D; apply (no_char _ _ _ D); lia).
  destruct n1, n2; cbn [app] in E.
  - injection E as ->. reflexivity.
  - subst d2. exfalso. apply (H _ D2). now left.
  - subst d1. exfalso. apply (H _ D1). now left.
  - subst. reflexivity.
Qed.
Lemma float_unique t v v' : float_text t v -> float_text t v' -> v = v'.
Proof.
  intros H1 H2. destruct (text_read t v [] H1 I) as (s & n & k & e & rest & _ & _ & E1 & E2 & _ & ->).
  destruct (text_read t v' [] H2 I) as (s' & n' & k' & e' & rest' & _ & _ & E1' & E2' & _ & ->). congruence.
Qed.
Lemma int_not_float t z v : int_text t z -> float_text t v -> False.
Proof.
  intros H1 (neg & w & fr & pt & ex & e & E & _ & _ & _ & X & P & _). apply int_chars in H1. rewrite E in H1.
  apply Forall_app in H1 as [_ H1]. apply Forall_app in H1 as [_ H1]. apply Forall_app in H1 as [H1 H2].
  destruct P as [-> |(_ & _ & NE)]; [inversion H1; lia|]. destruct X; [congruence|inversion H2; lia..].
Qed.
Lemma line_unique t e e' : line_says t e -> line_says t e' -> e = e'.
Proof.
  intros H1 H2. remember t as t0 eqn:T in H2. assert (T' : t = t0) by congruence. clear T.
  destruct H1 as [t n I|t n I|t n I|t n I|t n I|t n I|t1 t2 t3 t4 f v l r I1 I2 I3 I4]; destruct H2 as [t' n' J|t' n' J|t' n' J|t' n' J|t' n' J|t' n' J|u1 u2 u3 u4 f' v' l' r' J1 J2 J3 J4];
    cbn [app] in T'; try discriminate T'; injection T' as T';
    try (subst t'; f_equal; eauto using int_unique, float_unique; fail);
    try (subst t'; exfalso; eauto using int_not_float; fail).
  assert (HI : forall t z, int_text t z -> ~ In 44 t) by (intros ? ? K; apply (no_char _ _ _ (int_chars _ _ K)); lia).
  assert (HF : forall t z, float_text t z -> ~ In 44 t) by (intros ? ? K; apply (no_char _ _ _ (float_chars _ _ K)); lia).
  apply sep_unique in T' as [-> T']; [|eauto..]. apply sep_unique in T' as [-> T']; [|eauto..]. apply sep_unique in T' as [-> ->]; [|eauto..].
  f_equal; eauto using int_unique, float_unique.
Qed.
Lemma line_chars t e : line_says t e -> ~ In 13 t.
Proof.
  intros H. assert (HI : forall t z, int_text t z -> ~ In 13 t) by (intros ? ? K; apply (no_char _ _ _ (int_chars _ _ K)); lia).
  assert (HF : forall t z, float_text t z -> ~ In 13 t) by (intros ? ? K; apply (no_char _ _ _ (float_chars _ _ K)); lia).
  destruct H; rewrite ?in_app_iff; cbn [In]; intros I;
  repeat match goal with H : int_text _ _ |- _ => apply HI in H | H : float_text _ _ |- _ => apply HF in H end;
  intuition lia.
Qed.
Lemma file_unique t es : file_says t es -> forall es', file_says t es' -> es = es'.
Proof.
  induction 1 as [t e L|t e rest es L F IH]; intros es' H2; inversion H2 as [t' e' L'|t' e' rest' es2 L' F']; subst.
  - f_equal. eauto using line_unique.
  - exfalso. apply (line_chars _ _ L). apply in_app_iff. right. now left.
  - exfalso. apply (line_chars _ _ L'). apply in_app_iff. right. now left.
  - cbn [app] in H. apply sep_unique in H as [-> H]; [|eauto using line_chars..]. injection H as ->. f_equal; eauto using line_unique.
Qed.

(** ** Rounding to six decimals *)
Lemma rnd53 v : exists e t, (Rabs e <= / 9007199254740992)%R /\ (Rabs t <= / 1125899906842624)%R /\ round radix2 (SpecFloat.fexp 53 1024) ZnearestE v = (v * (1 + e) + t)%R.
Proof.
  destruct (@Relative.error_N_FLT radix2 (-1074) 53 ltac:(reflexivity) (fun x => negb (Z.even x)) v) as (e & t & E1 & E2 & _ & Q).
  exists e, t. split; [|split; [|exact Q]].
  - eapply Rle_trans; [exact E1|]. change (bpow radix2 (Z.opp 53 + 1)) with (/ 4503599627370496)%R. lra.
  - eapply Rle_trans; [exact E2|]. assert (bpow radix2 (-1074) <= bpow radix2 (-50))%R by (apply bpow_le; lia). change (bpow radix2 (-50)) with (/ 1125899906842624)%R in H. pose proof (bpow_gt_0 radix2 (-1074)). lra.
Qed.
Lemma rnd_big v : (Rabs v <= bpow radix2 900)%R -> (Rabs (round radix2 (SpecFloat.fexp 53 1024) ZnearestE v) < bpow radix2 1024)%R.
Proof.
  intros H. apply Rle_lt_trans with (bpow radix2 900); [|apply bpow_lt; lia].
  apply abs_round_le_generic; auto with typeclass_instances. { apply (fexp_correct 53 1024). reflexivity. }
  apply generic_format_bpow. vm_compute. discriminate.
Qed.
Lemma np_round6_close (x : f64) : is_finite x = true -> (Rabs (B2R x) <= bpow radix2 128)%R ->
  is_finite (np_round6 x) = true /\ (Rabs (B2R (np_round6 x) - B2R x) <= 500001 / 1000000000000 + Rabs (B2R x) / 1125899906842624)%R.
Proof.
  intros F HX. unfold np_round6. set (m := f64_1e6).
  destruct (@f_of_Z_exact 53 1024 _ _ 1000000) as [B6 F6]; [lia|]. change (f_of_Z 1000000 : f64) with m in *. 
  assert (H900 : (bpow radix2 148 <= bpow radix2 900)%R) by (apply bpow_le; lia).
  assert (H148 : bpow radix2 148 = (bpow radix2 128 * 1048576)%R) by (change 1048576%R with (bpow radix2 20); rewrite <- bpow_plus; reflexivity).
  assert (H128 : (1 <= bpow radix2 128)%R) by (change 1%R with (bpow radix2 0); apply bpow_le; lia).
  unfold fmul, fdiv, frint. pose proof (Bmult_correct 53 1024 _ _ mode_NE x m) as C. rewrite B6 in C. change (round_mode mode_NE) with ZnearestE in C.
  assert (BX : (Rabs (B2R x * 1000000) <= bpow radix2 128 * 1000000)%R).
  { rewrite Rabs_mult. rewrite (Rabs_pos_eq 1000000) by lra. apply Rmult_le_compat_r; lra. }
  rewrite Rlt_bool_true in C by (apply rnd_big; lra). destruct C as (C1 & C2 & _). rewrite F, F6 in C2. cbn [andb] in C2.
  set (p := Bmult mode_NE x m) in *. 
  destruct (Bnearbyint_correct 53 1024 _ mode_NE p) as (N1 & N2 & _). rewrite C2 in N2. set (r := Bnearbyint mode_NE p) in *.
  change (round_mode mode_NE) with ZnearestE in N1. rewrite round_FIX0 in N1 by auto with typeclass_instances.
  destruct (rnd53 (B2R x * 1000000)) as (e1 & t1 & E1 & T1 & Q1). rewrite Q1 in C1.
  pose proof (Znearest_half (fun x => negb (Z.even x)) (B2R p)) as NH. rewrite <- N1 in NH.
  generalize dependent (bpow radix2 128). intros B HX H148 H128 BX. pose proof (Rabs_pos (B2R x)) as XP.
  assert (E1x : (Rabs (B2R x * e1) <= Rabs (B2R x) / 9007199254740992)%R).
  { rewrite Rabs_mult. unfold Rdiv. apply Rmult_le_compat_l; lra. }
  assert (RV : (Rabs (B2R r / 1000000 - B2R x) <= 1 / 2000000 + / 1000000000000000 + Rabs (B2R x) / 9007199254740992)%R).
  { replace (B2R r / 1000000 - B2R x)%R with (- (B2R p - B2R r) / 1000000 + B2R x * e1 + t1 / 1000000)%R by (rewrite C1; field).
    eapply Rle_trans; [apply Rabs_triang|]. eapply Rle_trans; [apply Rplus_le_compat_r, Rabs_triang|].
    unfold Rdiv. rewrite !Rabs_mult, Rabs_Ropp. rewrite (Rabs_pos_eq (/ 1000000)) by lra. rewrite Rabs_mult in E1x. unfold Rdiv in E1x. lra. }
  pose proof (Bdiv_correct 53 1024 _ _ mode_NE r m) as D. rewrite B6 in D. specialize (D ltac:(lra)). change (round_mode mode_NE) with ZnearestE in D.
  assert (BR : (Rabs (B2R r / 1000000) <= 2 * Rabs (B2R x) + 1)%R).
  { pose proof (Rabs_triang (B2R r / 1000000 - B2R x) (B2R x)) as TT. replace (B2R r / 1000000 - B2R x + B2R x)%R with (B2R r / 1000000)%R in TT by ring. lra. }
  rewrite Rlt_bool_true in D by (apply rnd_big; lra). destruct D as (D1 & D2 & _). rewrite N2 in D2. split; [exact D2|].
  destruct (rnd53 (B2R r / 1000000)) as (e2 & t2 & E2 & T2 & Q2). rewrite D1, Q2.
  assert (E2x : (Rabs (B2R r / 1000000 * e2) <= (2 * Rabs (B2R x) + 1) * / 9007199254740992)%R).
  { rewrite Rabs_mult. apply Rmult_le_compat; auto using Rabs_pos. }
  replace (B2R r / 1000000 * (1 + e2) + t2 - B2R x)%R with ((B2R r / 1000000 - B2R x) + B2R r / 1000000 * e2 + t2)%R by ring.
  eapply Rle_trans; [apply Rabs_triang|]. eapply Rle_trans; [apply Rplus_le_compat_r, Rabs_triang|]. lra.
Qed.
