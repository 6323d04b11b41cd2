(** Floating constants in the generated code. *)
From Coq Require Import String ZArith List Bool Lia Reals Lra.
From Flocq Require Import Core BinarySingleNaN.
From Flocq.Prop Require Import Relative.
From Verif.Base Require Import Res CInt ListX Loops Float FloatOrder.
From Verif.Model Require Import Common Text Harness Cgen DistanceRun.
From Verif.Spec Require Import NetRunSpec StrSpec.
From Verif.Proof Require Import Text Harness.
Import ListNotations.
Open Scope Z_scope.
Open Scope res_scope.

(** The number n / 10^k * 10^e with its sign. *)
Definition sci_val (s : bool) (n k e : Z) : R := ((if s then -1 else 1) * IZR n * powerRZ 10 (e - k))%R.
Lemma powerRZ10 k : 0 <= k -> powerRZ 10 k = IZR (10 ^ k).
Proof. intros H. rewrite <- (Z2Nat.id k H) at 1. rewrite <- pow_powerRZ. rewrite pow_IZR. now rewrite Z2Nat.id by exact H. Qed.
Lemma f_of_sci_ok {prec emax} {Hp : Prec_gt_0 prec} {Hm : Prec_lt_emax prec emax} s n k e : 0 <= n -> 0 <= k ->
  is_nan (f_of_sci s n k e : binary_float prec emax) = false /\
  key (f_of_sci s n k e : binary_float prec emax) = clampR (bpow radix2 emax) (round radix2 (SpecFloat.fexp prec emax) ZnearestE (sci_val s n k e)).
Proof.
  intros Hn Hk. unfold f_of_sci, sci_val. destruct (Z.leb_spec k e).
  - assert (P : 0 <= n * 10 ^ (e - k)) by (apply Z.mul_nonneg_nonneg; [lia|apply Z.pow_nonneg; lia]).
    replace ((if s then -1 else 1) * IZR n * powerRZ 10 (e - k))%R with ((if s then -1 else 1) * (IZR (n * 10 ^ (e - k)) / IZR (10 ^ 0)))%R.
    + apply f_of_dec_ok; lia.
    + rewrite powerRZ10 by lia. rewrite mult_IZR. change (IZR (10 ^ 0)) with 1%R. field.
  - replace ((if s then -1 else 1) * IZR n * powerRZ 10 (e - k))%R with ((if s then -1 else 1) * (IZR n / IZR (10 ^ (k - e))))%R.
    + apply f_of_dec_ok; lia.
    + replace (e - k) with (- (k - e)) by ring. rewrite powerRZ_neg', powerRZ10 by lia. rewrite Rmult_assoc. reflexivity.
Qed.

(** ** Reading such a text *)
Definition ends (sfx : list Z) : Prop :=
  match sfx with [] => True | c :: _ => is_digit c = false /\ c <> 46 /\ c <> 101 /\ c <> 69 /\ c <> 43 /\ c <> 45 end.
Lemma number_dval l : number l = dval 0 l. Proof. reflexivity. Qed.
Lemma number_nonneg l : digit_text l -> 0 <= number l.
Proof.
  intros D. rewrite number_dval. assert (H : forall a, 0 <= a -> 0 <= dval a l).
  { clear - D. induction D as [|c l Hc D IH]; intros a Ha; [exact Ha|]. change (dval a (c :: l)) with (dval (10 * a + (c - 48)) l). apply IH. lia. }
  apply H. lia.
Qed.
Lemma exponent_read ex e sfx : exponent_text ex e -> ends sfx -> take_exponent (ex ++ sfx) = Some (e, sfx).
Proof.
  intros H S.
  assert (NS : match sfx with [] => True | c :: _ => is_digit c = false end) by (destruct sfx; [exact I|apply S]).
  assert (NE : forall ds : list Z, ds <> [] -> (0 + zlen ds =? 0) = false).
  { intros ds D. apply Z.eqb_neq. unfold zlen. destruct ds; [congruence|]. cbn [length]. lia. }
  assert (TS : forall ds, digit_text ds -> ds <> [] -> take_sign (ds ++ sfx) = (false, ds ++ sfx)).
  { intros ds D N. destruct ds as [|c ds]; [congruence|]. apply Forall_inv in D. cbn [app take_sign].
    destruct (Z.eqb_spec c 45); [lia|]. destruct (Z.eqb_spec c 43); [lia|]. reflexivity. }
  destruct H as [|ds D N|ds D N|ds D N].
  - cbn [app]. unfold take_exponent. destruct sfx as [|c sfx]; [reflexivity|]. destruct S as (_ & _ & S1 & S2 & _).
    destruct (Z.eqb_spec c 101); [contradiction|]. destruct (Z.eqb_spec c 69); [contradiction|]. reflexivity.
  - cbn [app]. unfold take_exponent. change ((101 =? 101) || (101 =? 69)) with true. cbv iota.
    rewrite (TS ds D N). rewrite (take_digits_ok 0 0 ds sfx D NS). rewrite (NE ds N). reflexivity.
  - cbn [app]. unfold take_exponent. change ((101 =? 101) || (101 =? 69)) with true. cbv iota.
    change (take_sign (43 :: ds ++ sfx)) with (false, ds ++ sfx). cbv iota. rewrite (take_digits_ok 0 0 ds sfx D NS). rewrite (NE ds N). reflexivity.
  - cbn [app]. unfold take_exponent. change ((101 =? 101) || (101 =? 69)) with true. cbv iota.
    change (take_sign (45 :: ds ++ sfx)) with (true, ds ++ sfx). cbv iota. rewrite (take_digits_ok 0 0 ds sfx D NS). rewrite (NE ds N). reflexivity.
Qed.
Lemma exponent_head ex e sfx : exponent_text ex e -> ends sfx -> match ex ++ sfx with [] => True | c :: _ => is_digit c = false /\ c <> 46 end.
Proof. intros H S. destruct H; [|split; [reflexivity|discriminate]..]. cbn [app]. destruct sfx; [exact I|]. destruct S as (A & B & _). auto. Qed.
Lemma text_read t v sfx : float_text t v -> ends sfx -> exists s n k e rest, 0 <= n /\ 0 <= k /\
  scan_decimal (t ++ sfx) = Some (s, n, k, rest) /\ take_exponent rest = Some (e, sfx) /\ (In 46 t \/ rest <> sfx) /\ v = sci_val s n k e.
Proof.
  intros (neg & A & B & P & ex & e & -> & DA & NA & DB & X & PB & ->) S.
  assert (SG : forall r, take_sign (skip_spaces ((if neg then [45] else []) ++ A ++ r)) = (neg, A ++ r)).
  { intros r. destruct neg; cbn [app]; [reflexivity|]. destruct A as [|c A]; [congruence|]. apply Forall_inv in DA as Hc. cbn [app].
    assert (SP : is_space c = false).
    { unfold is_space. destruct (Z.eqb_spec c 32); [lia|]. destruct (Z.leb_spec 9 c); [|lia]. destruct (Z.leb_spec c 13); [lia|reflexivity]. }
    cbn [skip_spaces]. rewrite SP. cbn [take_sign]. destruct (Z.eqb_spec c 45); [lia|]. destruct (Z.eqb_spec c 43); [lia|]. reflexivity. }
  assert (LA : zlen A <> 0) by (unfold zlen; destruct A; [congruence|]; cbn [length]; lia).
  pose proof (exponent_head ex e sfx X S) as HD. pose proof (zlen_nonneg A) as LA0. pose proof (zlen_nonneg B) as LB0.
  assert (DAB : digit_text (A ++ B)) by (apply Forall_app; auto).
  exists neg, (number (A ++ B)), (zlen B), e, (ex ++ sfx). split; [now apply number_nonneg|]. split; [exact LB0|].
  assert (ET : ((if neg then [45] else []) ++ A ++ P ++ ex) ++ sfx = (if neg then [45] else []) ++ A ++ (P ++ ex ++ sfx)) by (rewrite !app_assoc; reflexivity).
  split; [|split; [now apply exponent_read|split; [|reflexivity]]].
  - unfold scan_decimal. rewrite ET, SG. destruct PB as [->|(-> & -> & NX)].
    + change ((46 :: B) ++ ex ++ sfx) with (46 :: (B ++ ex ++ sfx)). rewrite (take_digits_ok 0 0 A (46 :: B ++ ex ++ sfx) DA) by reflexivity.
      change (46 =? 46) with true. cbv iota. rewrite (take_digits_ok (dval 0 A) 0 B (ex ++ sfx) DB) by (destruct (ex ++ sfx); [exact I|apply HD]).
      cbv iota. destruct (Z.eqb_spec (0 + zlen A + (0 + zlen B)) 0); [lia|]. rewrite <- dval_app. reflexivity.
    + cbn [app]. rewrite (take_digits_ok 0 0 A (ex ++ sfx) DA) by (destruct (ex ++ sfx); [exact I|apply HD]).
      rewrite app_nil_r. change (zlen (@nil Z)) with 0.
      destruct (ex ++ sfx) as [|c r] eqn:ER; [apply app_eq_nil in ER as [-> _]; congruence|].
      destruct HD as [_ HD]. destruct (Z.eqb_spec c 46); [contradiction|]. destruct (Z.eqb_spec (0 + zlen A) 0); [lia|]. reflexivity.
  - destruct PB as [->|(_ & _ & NX)].
    + left. apply in_or_app. right. apply in_or_app. right. left. reflexivity.
    + right. intros E. apply (f_equal (@length Z)) in E. rewrite app_length in E. destruct ex; [congruence|]. cbn [length] in E. lia.
Qed.
(** The number that is read, when it is not out of range. *)
Lemma constant_ok {prec emax} {Hp : Prec_gt_0 prec} {Hm : Prec_lt_emax prec emax} t v sfx : float_text t v -> ends sfx ->
  let r := round radix2 (SpecFloat.fexp prec emax) ZnearestE v in (Rabs r < bpow radix2 emax)%R ->
  exists x : binary_float prec emax, c_constant sfx (t ++ sfx) = Ret x /\ is_finite x = true /\ B2R x = r.
Proof.
  intros H S r L. destruct (text_read t v sfx H S) as (s & n & k & e & rest & Hn & Hk & E1 & E2 & E3 & E4).
  destruct (@f_of_sci_ok prec emax Hp Hm s n k e Hn Hk) as [N K]. rewrite <- E4 in K. fold r in K. rewrite clampR_in in K by lra.
  destruct (key_fin_eq (f_of_sci s n k e : binary_float prec emax) r N L K) as [F V]. exists (f_of_sci s n k e). split; [|auto].
  unfold c_constant. rewrite E1, E2.
  assert (G : text_eqb sfx sfx && (existsb (Z.eqb 46) (t ++ sfx) || negb (text_eqb rest sfx)) = true).
  { apply andb_true_iff. split; [unfold text_eqb; destruct (list_eq_dec Z.eq_dec sfx sfx); congruence|]. apply orb_true_iff. destruct E3 as [I|NE].
    - left. apply existsb_exists. exists 46. split; [apply in_or_app; left; exact I|reflexivity].
    - right. unfold text_eqb. destruct (list_eq_dec Z.eq_dec rest sfx); [contradiction|reflexivity]. }
  rewrite G. cbv zeta. rewrite F. reflexivity.
Qed.

Lemma round53_back (v x : R) : round radix2 (SpecFloat.fexp 53 1024) ZnearestE v = x ->
  (Rabs (v - x) <= Rabs x / 1125899906842624 + bpow radix2 (-1060))%R.
Proof.
  intros E. pose proof (@error_N_FLT radix2 (-1074) 53 ltac:(reflexivity) (fun x => negb (Z.even x)) v) as (eps & eta & E1 & E2 & E3 & Q).
  change (round radix2 (FLT_exp (-1074) 53) (Znearest (fun x => negb (Z.even x))) v) with (round radix2 (SpecFloat.fexp 53 1024) ZnearestE v) in Q. rewrite E in Q.
  change (Rabs eps <= / 2 * / 4503599627370496)%R in E1.
  assert (HE2 : (Rabs eta <= bpow radix2 (-1070))%R).
  { eapply Rle_trans; [exact E2|]. apply Rle_trans with (bpow radix2 (-1074)); [pose proof (bpow_gt_0 radix2 (-1074)); lra|apply bpow_le; lia]. }
  assert (B4 : (bpow radix2 (-1060) = 1024 * bpow radix2 (-1070))%R).
  { change 1024%R with (bpow radix2 10). rewrite <- bpow_plus. reflexivity. }
  pose proof (bpow_gt_0 radix2 (-1070)). rewrite B4. set (t := bpow radix2 (-1070)) in *. clearbody t. clear E E3 B4 E2.
  assert (A1 : (x = v + v * eps + eta)%R) by lra.
  assert (A2 : (Rabs (v * eps) <= Rabs v / 9007199254740992)%R).
  { rewrite Rabs_mult. pose proof (Rmult_le_compat_l (Rabs v) _ _ (Rabs_pos v) E1). lra. }
  assert (A3 : (Rabs v <= Rabs x + (Rabs (v * eps) + Rabs eta))%R).
  { replace v with (x + (- (v * eps) + - eta))%R at 1 by lra. eapply Rle_trans; [apply Rabs_triang|]. pose proof (Rabs_triang (- (v * eps)) (- eta)) as Q2. rewrite !Rabs_Ropp in Q2. lra. }
  replace (v - x)%R with (- (v * eps) + - eta)%R by lra. pose proof (Rabs_triang (- (v * eps)) (- eta)) as Q2. rewrite !Rabs_Ropp in Q2.
  pose proof (Rabs_pos v). pose proof (Rabs_pos eta). pose proof (Rabs_pos x). lra.
Qed.
Lemma round24_err (v : R) : (Rabs (round radix2 (SpecFloat.fexp 24 128) ZnearestE v - v) <= Rabs v / 16777216 + bpow radix2 (-149))%R.
Proof.
  pose proof (@error_N_FLT radix2 (-149) 24 ltac:(reflexivity) (fun x => negb (Z.even x)) v) as (eps & eta & E1 & E2 & E3 & Q).
  change (round radix2 (FLT_exp (-149) 24) (Znearest (fun x => negb (Z.even x))) v) with (round radix2 (SpecFloat.fexp 24 128) ZnearestE v) in Q. rewrite Q.
  change (Rabs eps <= / 2 * / 8388608)%R in E1. replace (v * (1 + eps) + eta - v)%R with (v * eps + eta)%R by ring.
  eapply Rle_trans; [apply Rabs_triang|]. rewrite Rabs_mult. pose proof (Rmult_le_compat_l (Rabs v) _ _ (Rabs_pos v) E1). pose proof (bpow_gt_0 radix2 (-149)). lra.
Qed.
Lemma boundary_ok float_str (x : f64) : str_reads_back float_str -> good_number x ->
  exists b, c_float_constant (float_str x ++ txt "f") = Ret b /\ is_finite b = true /\
    (Rabs (B2R b - B2R x) <= Rabs (B2R x) / 16777215 + bpow radix2 (-140))%R.
Proof.
  intros SR [FX BX]. destruct (SR x FX) as (v & T & XV). change (round radix2 (SpecFloat.fexp 53 1024) ZnearestE v = B2R x) in XV.
  pose proof (round53_back v _ XV) as D1. pose proof (round24_err v) as D2. pose proof (bpow_gt_0 radix2 (-140)) as PT.
  assert (T1 : (bpow radix2 (-1060) <= / 4 * bpow radix2 (-140))%R) by (change (/ 4)%R with (bpow radix2 (-2)); rewrite <- bpow_plus; apply bpow_le; lia).
  assert (T2 : (bpow radix2 (-149) <= / 4 * bpow radix2 (-140))%R) by (change (/ 4)%R with (bpow radix2 (-2)); rewrite <- bpow_plus; apply bpow_le; lia).
  assert (T3 : (bpow radix2 (-140) <= 1)%R) by (change 1%R with (bpow radix2 0); apply bpow_le; lia).
  set (r := round radix2 (SpecFloat.fexp 24 128) ZnearestE v) in *.
  assert (AV : (Rabs v <= Rabs (B2R x) + Rabs (v - B2R x))%R) by (replace v with (B2R x + (v - B2R x))%R at 1 by ring; apply Rabs_triang).
  assert (DR : (Rabs (r - B2R x) <= Rabs (B2R x) / 16777215 + bpow radix2 (-140))%R).
  { replace (r - B2R x)%R with ((r - v) + (v - B2R x))%R by ring. eapply Rle_trans; [apply Rabs_triang|]. pose proof (Rabs_pos (B2R x)).
    set (c := bpow radix2 (-140)) in *. set (p := bpow radix2 (-1060)) in *. set (q := bpow radix2 (-149)) in *. clearbody c p q. lra. }
  assert (LR : (Rabs r < bpow radix2 128)%R).
  { assert (AR : (Rabs r <= Rabs (B2R x) + Rabs (r - B2R x))%R) by (replace r with (B2R x + (r - B2R x))%R at 1 by ring; apply Rabs_triang).
    assert (B4 : (bpow radix2 128 = 4 * bpow radix2 126)%R) by (change 4%R with (bpow radix2 2); rewrite <- bpow_plus; reflexivity).
    assert (B1 : (1 <= bpow radix2 126)%R) by (change 1%R with (bpow radix2 0); apply bpow_le; lia).
    set (c := bpow radix2 (-140)) in *. set (p := bpow radix2 126) in *. rewrite B4. clearbody c p. pose proof (Rabs_pos (B2R x)). lra. }
  destruct (@constant_ok 24 128 _ _ _ v (txt "f") T ltac:(cbn; repeat split; discriminate) LR) as (b & E & F & V).
  exists b. split; [exact E|]. split; [exact F|]. rewrite V. exact DR.
Qed.
(** A double constant is the number itself. *)
Lemma double_constant_ok float_str (x : f64) : str_reads_back float_str -> is_finite x = true ->
  exists y, c_double_constant (float_str x) = Ret y /\ is_finite y = true /\ B2R y = B2R x.
Proof.
  intros SR FX. destruct (SR x FX) as (v & T & XV).
  destruct (@constant_ok 53 1024 _ _ _ v [] T I) as (y & E & F & V).
  - change (Rabs (round radix2 (FLT_exp (-1074) 53) ZnearestE v) < bpow radix2 1024)%R. rewrite XV. apply abs_B2R_lt_emax.
  - exists y. rewrite app_nil_r in E. split; [exact E|]. split; [exact F|]. rewrite V. exact XV.
Qed.

(** Printing enough decimals reads back. *)
Lemma fixed_reads_back (k : nat) : 1074 <= Z.of_nat k -> str_reads_back (fmt_fixed k).
Proof.
  intros Hk x FX. assert (P10 : 0 < 10 ^ Z.of_nat k) by (apply Z.pow_pos_nonneg; lia).
  assert (EX : exists z, 0 <= z /\ (Rabs (B2R x) * IZR (10 ^ Z.of_nat k) = IZR z)%R).
  { assert (exists z, 0 <= z /\ (Rabs (B2R x) = IZR z * bpow radix2 (-1074))%R) as (z & Hz & E).
    { pose proof (generic_format_abs _ _ _ (generic_format_B2R 53 1024 x)) as GF. unfold generic_format in GF.
      set (m := Ztrunc (scaled_mantissa radix2 (SpecFloat.fexp 53 1024) (Rabs (B2R x)))) in *. set (c := cexp radix2 (SpecFloat.fexp 53 1024) (Rabs (B2R x))) in *.
      assert (C : -1074 <= c) by (unfold c, cexp, SpecFloat.fexp, SpecFloat.emin; lia). unfold F2R in GF. cbn [Fnum Fexp] in GF.
      assert (M0 : 0 <= m).
      { apply le_IZR. pose proof (bpow_gt_0 radix2 c) as P. pose proof (Rabs_pos (B2R x)) as P2. rewrite GF in P2. apply Rmult_le_reg_r with (bpow radix2 c); [exact P|lra]. }
      exists (m * 2 ^ (c - -1074)). split; [apply Z.mul_nonneg_nonneg; [exact M0|apply Z.pow_nonneg; lia]|]. rewrite GF. rewrite mult_IZR, Rmult_assoc. f_equal.
      replace c with ((c - -1074) + -1074) at 1 by ring. rewrite bpow_plus. f_equal. rewrite (IZR_Zpower radix2) by lia. reflexivity. }
    exists (z * (2 ^ (Z.of_nat k - 1074) * 5 ^ Z.of_nat k)). split; [repeat apply Z.mul_nonneg_nonneg; try exact Hz; apply Z.pow_nonneg; lia|]. rewrite E.
    replace (10 ^ Z.of_nat k) with (2 ^ 1074 * (2 ^ (Z.of_nat k - 1074) * 5 ^ Z.of_nat k)).
    - rewrite !mult_IZR. replace (IZR (2 ^ 1074)) with (bpow radix2 1074) by (symmetry; apply (IZR_Zpower radix2); lia).
      replace (IZR z * bpow radix2 (-1074) * (bpow radix2 1074 * (IZR (2 ^ (Z.of_nat k - 1074)) * IZR (5 ^ Z.of_nat k))))%R
        with (IZR z * (bpow radix2 (-1074) * bpow radix2 1074) * (IZR (2 ^ (Z.of_nat k - 1074)) * IZR (5 ^ Z.of_nat k)))%R by ring.
      rewrite <- bpow_plus. change (bpow radix2 (-1074 + 1074)) with 1%R. ring.
    - rewrite Z.mul_assoc, <- Z.pow_add_r by lia. replace (1074 + (Z.of_nat k - 1074)) with (Z.of_nat k) by ring. rewrite <- Z.pow_mul_l. reflexivity. }
  destruct EX as (z & Hz & EZ).
  assert (SI : scaled_int k x = z) by (rewrite scaled_int_ok by exact FX; rewrite EZ; apply ZnE_IZR).
  assert (TX : fmt_fixed k x = (if Bsign x then [45] else []) ++ dec_digits (z / 10 ^ Z.of_nat k) ++ (46 :: pad_digits k (z mod 10 ^ Z.of_nat k)) ++ [])
    by (rewrite app_nil_r; rewrite <- SI; destruct x; try discriminate FX; reflexivity).
  destruct (dec_digits_ok (z / 10 ^ Z.of_nat k)) as (D1 & D2 & D3); [apply Z.div_pos; lia|].
  destruct (pad_digits_ok k (z mod 10 ^ Z.of_nat k)) as (E1 & E2 & E3); [apply Z.mod_pos_bound; lia|].
  exists (B2R x). split.
  - eexists (Bsign x), _, _, _, [], 0. split; [exact TX|]. split; [exact D2|]. split; [exact D3|]. split; [exact E2|]. split; [constructor|]. split; [left; reflexivity|].
    rewrite number_dval, dval_app, D1, dval_shift, E1, E3.
    replace (z / 10 ^ Z.of_nat k * 10 ^ Z.of_nat k + z mod 10 ^ Z.of_nat k) with z by (pose proof (Z.div_mod z (10 ^ Z.of_nat k) ltac:(lia)); lia).
    replace (0 - Z.of_nat k) with (- Z.of_nat k) by ring. rewrite powerRZ_neg', powerRZ10 by lia. rewrite <- EZ.
    replace ((if Bsign x then -1 else 1) * (Rabs (B2R x) * IZR (10 ^ Z.of_nat k)) * / IZR (10 ^ Z.of_nat k))%R with ((if Bsign x then -1 else 1) * Rabs (B2R x))%R
      by (field; apply IZR_neq; lia).
    destruct x as [s|s| |s m e H]; try discriminate FX; [cbn; rewrite Rabs_R0; destruct s; ring|].
    cbn [Bsign]. destruct s.
    + rewrite Rabs_left1; [ring|]. apply F2R_le_0. cbn. lia.
    + rewrite Rabs_pos_eq; [ring|]. apply F2R_ge_0. cbn. lia.
  - apply round_generic; [apply valid_rnd_N|]. apply (generic_format_B2R 53 1024 x).
Qed.
