(** Printing and reading numbers. *)
From Coq Require Import String Ascii ZArith List Bool Reals Lia Lra.
From Flocq Require Import Core BinarySingleNaN.
From Verif.Base Require Import Res Float FloatOrder Loops.
From Verif.Model Require Import Text.
Import ListNotations.
Open Scope Z_scope.

(** The value of a text of digits. *)
Definition dval (acc : Z) (l : list Z) : Z := fold_left (fun a c => 10 * a + (c - 48)) l acc.
Definition digits (l : list Z) : Prop := Forall (fun c => 48 <= c <= 57) l.

Lemma dval_snoc a l c : dval a (l ++ [c]) = 10 * dval a l + (c - 48).
Proof. unfold dval. now rewrite fold_left_app. Qed.
Lemma dval_app a l1 l2 : dval a (l1 ++ l2) = dval (dval a l1) l2.
Proof. unfold dval. now rewrite fold_left_app. Qed.
Lemma dval_shift a l : dval a l = a * 10 ^ zlen l + dval 0 l.
Proof.
  revert a. induction l as [|c l IH]; intros a.
  - change (zlen (@nil Z)) with 0. unfold dval. cbn [fold_left]. rewrite Z.pow_0_r. lia.
  - change (dval a (c :: l)) with (dval (10 * a + (c - 48)) l). change (dval 0 (c :: l)) with (dval (10 * 0 + (c - 48)) l).
    rewrite IH, (IH (10 * 0 + (c - 48))). rewrite zlen_cons, Z.pow_add_r by (pose proof (zlen_nonneg l); lia). ring.
Qed.
Lemma dec_fuel_ok f n : 0 <= n < 10 ^ Z.of_nat f -> dval 0 (dec_fuel f n) = n /\ digits (dec_fuel f n) /\ (f <> O -> dec_fuel f n <> []).
Proof.
  revert n. induction f as [|f IH]; intros n H.
  - cbn in H. split; [cbn; lia|]. split; [constructor|congruence].
  - cbn [dec_fuel]. destruct (Z.ltb_spec n 10).
    + split; [cbn; lia|]. split; [constructor; [lia|constructor]|discriminate].
    + assert (0 <= n / 10 < 10 ^ Z.of_nat f).
      { split; [apply Z.div_pos; lia|]. apply Z.div_lt_upper_bound; [lia|].
        rewrite <- Z.pow_succ_r by lia. replace (Z.succ (Z.of_nat f)) with (Z.of_nat (S f)) by lia. lia. }
      destruct (IH (n / 10) H1) as (D & G & _). pose proof (Z.mod_pos_bound n 10 ltac:(lia)).
      split; [rewrite dval_snoc, D; pose proof (Z.div_mod n 10 ltac:(lia)); lia|].
      split; [apply Forall_app; split; [exact G|constructor; [lia|constructor]]|].
      intros _ E. destruct (dec_fuel f (n / 10)); discriminate E.
Qed.
Lemma log2_fuel n : 0 <= n -> n < 10 ^ Z.of_nat (S (Z.to_nat (Z.log2 n))).
Proof.
  intros H. destruct (Z.eq_dec n 0) as [->|NE]; [reflexivity|].
  pose proof (Z.log2_spec n ltac:(lia)) as [_ L]. pose proof (Z.log2_nonneg n).
  replace (Z.of_nat (S (Z.to_nat (Z.log2 n)))) with (Z.succ (Z.log2 n)) by lia.
  eapply Z.lt_le_trans; [exact L|]. apply Z.pow_le_mono_l. lia.
Qed.
Lemma dec_digits_ok n : 0 <= n -> dval 0 (dec_digits n) = n /\ digits (dec_digits n) /\ dec_digits n <> [].
Proof.
  intros H. unfold dec_digits. destruct (dec_fuel_ok (S (Z.to_nat (Z.log2 n))) n) as (A & B & C).
  - split; [exact H|now apply log2_fuel].
  - auto.
Qed.
Lemma pad_digits_ok k r : 0 <= r < 10 ^ Z.of_nat k ->
  dval 0 (pad_digits k r) = r /\ digits (pad_digits k r) /\ zlen (pad_digits k r) = Z.of_nat k.
Proof.
  revert r. induction k as [|k IH]; intros r H; cbn [pad_digits].
  - cbn in H. split; [cbn; lia|]. split; [constructor|reflexivity].
  - assert (0 <= r / 10 < 10 ^ Z.of_nat k).
    { split; [apply Z.div_pos; lia|]. apply Z.div_lt_upper_bound; [lia|].
      rewrite <- Z.pow_succ_r by lia. replace (Z.succ (Z.of_nat k)) with (Z.of_nat (S k)) by lia. lia. }
    destruct (IH (r / 10) H0) as (D & G & L). pose proof (Z.mod_pos_bound r 10 ltac:(lia)).
    split; [rewrite dval_snoc, D; pose proof (Z.div_mod r 10 ltac:(lia)); lia|].
    split; [apply Forall_app; split; [exact G|constructor; [lia|constructor]]|].
    rewrite zlen_app, L. unfold zlen. cbn [length]. lia.
Qed.

Lemma is_digit_iff c : is_digit c = true <-> 48 <= c <= 57.
Proof. unfold is_digit. rewrite andb_true_iff, !Z.leb_le. tauto. Qed.
Lemma take_digits_ok a n l rest : digits l -> match rest with [] => True | c :: _ => is_digit c = false end ->
  take_digits a n (l ++ rest) = (dval a l, n + zlen l, rest).
Proof.
  intros D R. revert a n. induction D as [|c l Hc D IH]; intros a n.
  - cbn [app]. destruct rest as [|c rest]; cbn; [|rewrite R]; unfold zlen; cbn; now rewrite Z.add_0_r.
  - cbn [app take_digits]. rewrite (proj2 (is_digit_iff c) Hc). rewrite IH. unfold dval. cbn [fold_left].
    rewrite zlen_cons. f_equal. f_equal. lia.
Qed.

Lemma rne_div_nearest n d : 0 <= n -> 0 < d -> rne_div n d = ZnearestE (IZR n / IZR d).
Proof.
  intros Hn Hd. assert (Pd : (0 < IZR d)%R) by (apply IZR_lt; lia).
  assert (E : IZR n = (IZR d * IZR (n / d) + IZR (n mod d))%R).
  { rewrite <- mult_IZR, <- plus_IZR. f_equal. apply Z.div_mod. lia. }
  pose proof (Z.mod_pos_bound n d Hd) as M.
  assert (V : (IZR n / IZR d = IZR (n / d) + IZR (n mod d) / IZR d)%R) by (rewrite E; field; lra).
  assert (F : Zfloor (IZR n / IZR d) = n / d).
  { apply Zfloor_imp. rewrite plus_IZR, V. split.
    - assert (0 <= IZR (n mod d) / IZR d)%R by (apply Rmult_le_pos; [apply IZR_le; lia|left; now apply Rinv_0_lt_compat]). lra.
    - apply Rplus_lt_compat_l. apply Rmult_lt_reg_r with (IZR d); [exact Pd|]. unfold Rdiv. rewrite Rmult_assoc, Rinv_l, Rmult_1_r by lra.
      change (IZR 1) with 1%R. rewrite Rmult_1_l. apply IZR_lt. lia. }
  unfold rne_div, Znearest. cbv zeta. rewrite F.
  replace (IZR n / IZR d - IZR (n / d))%R with (IZR (n mod d) / IZR d)%R by lra.
  assert (C : Zceil (IZR n / IZR d) = if n mod d =? 0 then n / d else n / d + 1).
  { destruct (Z.eqb_spec (n mod d) 0) as [Z0|Z0].
    - rewrite V, Z0. replace (IZR (n / d) + IZR 0 / IZR d)%R with (IZR (n / d)) by (unfold Rdiv; rewrite Rmult_0_l; ring). apply Zceil_IZR.
    - rewrite Zceil_floor_neq; [now rewrite F|]. rewrite F. intros Q. rewrite V in Q.
      assert (IZR (n mod d) / IZR d = 0)%R by lra.
      assert (0 < IZR (n mod d) / IZR d)%R by (apply Rmult_lt_0_compat; [apply IZR_lt; lia|now apply Rinv_0_lt_compat]). lra. }
  rewrite C.
  assert (CMP : forall c, Rcompare (IZR (n mod d) / IZR d) (/ 2) = c -> Z.compare (2 * (n mod d)) d = c).
  { intros c <-. rewrite <- Rcompare_IZR. rewrite mult_IZR.
    replace (IZR (n mod d) / IZR d)%R with (IZR 2 * IZR (n mod d) * (/ (2 * IZR d)))%R by (field; apply Rgt_not_eq; exact Pd).
    replace (/ 2)%R with (IZR d * (/ (2 * IZR d)))%R by (field; apply Rgt_not_eq; exact Pd).
    rewrite Rcompare_mult_r; [reflexivity|]. apply Rinv_0_lt_compat. apply Rmult_lt_0_compat; [apply IZR_lt; lia|exact Pd]. }
  clear F V E. destruct (Rcompare (IZR (n mod d) / IZR d) (/ 2)) eqn:RC; specialize (CMP _ eq_refl).
  - apply Z.compare_eq_iff in CMP. destruct (Z.ltb_spec (2 * (n mod d)) d); [lia|]. destruct (Z.ltb_spec d (2 * (n mod d))); [lia|].
    destruct (Z.eqb_spec (n mod d) 0); [lia|]. destruct (Z.even (n / d)); reflexivity.
  - pose proof (proj1 (Z.compare_lt_iff _ _) CMP) as CL. clear CMP. destruct (Z.ltb_spec (2 * (n mod d)) d); [reflexivity|lia].
  - pose proof (proj1 (Z.compare_gt_iff _ _) CMP) as CL. clear CMP. destruct (Z.ltb_spec (2 * (n mod d)) d); [lia|]. destruct (Z.ltb_spec d (2 * (n mod d))); [|lia].
    destruct (Z.eqb_spec (n mod d) 0); [lia|reflexivity].
Qed.

Lemma ZnE_IZR n : ZnearestE (IZR n) = n.
Proof. apply Zrnd_IZR. auto with typeclass_instances. Qed.
Lemma ZnE_le x y : (x <= y)%R -> ZnearestE x <= ZnearestE y.
Proof. apply Zrnd_le. auto with typeclass_instances. Qed.

Section F.
Context {prec emax : Z} {Hp : Prec_gt_0 prec} {Hm : Prec_lt_emax prec emax}.
Notation fl := (binary_float prec emax).
Notation fexp := (SpecFloat.fexp prec emax).
Notation rnd := (round radix2 fexp ZnearestE).
#[local] Instance vft : Valid_exp fexp.
Proof. apply FLT_exp_valid. exact Hp. Qed.

Lemma scaled_int_ok k (x : fl) : is_finite x = true -> scaled_int k x = ZnearestE (Rabs (B2R x) * IZR (10 ^ Z.of_nat k)).
Proof.
  intros F. assert (P10 : 0 < 10 ^ Z.of_nat k) by (apply Z.pow_pos_nonneg; lia).
  destruct x as [s|s| |s m e H]; try discriminate.
  - cbn [scaled_int B2R]. rewrite Rabs_R0, Rmult_0_l. symmetry. apply (ZnE_IZR 0).
  - assert (A : Rabs (B2R (B754_finite s m e H : fl)) = (IZR (Zpos m) * bpow radix2 e)%R).
    { cbn [B2R]. rewrite <- F2R_Zabs. unfold F2R. cbn [Fnum Fexp]. f_equal. f_equal. destruct s; reflexivity. }
    rewrite A. cbn [scaled_int]. destruct (Z.leb_spec 0 e).
    + rewrite <- IZR_Zpower by assumption. rewrite <- !mult_IZR. rewrite ZnE_IZR. reflexivity.
    + assert (P2 : 0 < 2 ^ (- e)) by (apply Z.pow_pos_nonneg; lia).
      rewrite rne_div_nearest by lia. f_equal. replace e with (- - e) at 2 by ring. rewrite bpow_opp.
      change 2 with (radix_val radix2). rewrite IZR_Zpower by lia. rewrite mult_IZR. field.
      apply Rgt_not_eq. apply bpow_gt_0.
Qed.
Lemma f_of_dec_ok s n k : 0 <= n -> 0 <= k ->
  is_nan (f_of_dec s n k : fl) = false /\
  key (f_of_dec s n k : fl) = clampR (bpow radix2 emax) (rnd ((if s then -1 else 1) * (IZR n / IZR (10 ^ k)))).
Proof.
  intros Hn Hk. pose proof (bpow_gt_0 radix2 emax) as BP. destruct n as [|p|p]; [| |lia].
  - cbn [f_of_dec]. split; [reflexivity|]. cbn [key B2R].
    replace ((if s then -1 else 1) * (IZR 0 / IZR (10 ^ k)))%R with 0%R by (cbn; unfold Rdiv; ring).
    rewrite round_0 by auto with typeclass_instances. rewrite clampR_in; [reflexivity|]. rewrite Rabs_R0. lra.
  - cbn [f_of_dec]. set (q := Z.to_pos (10 ^ k)).
    assert (Eq : Zpos q = 10 ^ k) by (unfold q; rewrite Z2Pos.id; [reflexivity|apply Z.pow_pos_nonneg; lia]).
    generalize (proj1 (Bdiv_correct_aux prec emax Hp Hm mode_NE s p 0 false q 0)) (proj2 (Bdiv_correct_aux prec emax Hp Hm mode_NE s p 0 false q 0)).
    cbv zeta. intros V C.
    set (z := let '(mz, ez, lz) := SpecFloat.SFdiv_core_binary prec emax (Zpos p) 0 (Zpos q) 0 in
              binary_round_aux prec emax mode_NE (xorb s false) mz ez lz) in *. clearbody z. rewrite xorb_false_r in C.
    assert (X : (@F2R radix2 {| Fnum := SpecFloat.cond_Zopp s (Zpos p); Fexp := 0 |} / @F2R radix2 {| Fnum := SpecFloat.cond_Zopp false (Zpos q); Fexp := 0 |}
       = (if s then -1 else 1) * (IZR (Zpos p) / IZR (10 ^ k)))%R).
    { rewrite <- Eq. unfold F2R. cbn [Fnum Fexp SpecFloat.cond_Zopp bpow]. rewrite !Rmult_1_r. destruct s; cbn [SpecFloat.cond_Zopp].
      - rewrite opp_IZR. unfold Rdiv. ring.
      - unfold Rdiv. ring. }
    rewrite X in C. clear X. cbn [round_mode] in C.
    set (y := ((if s then -1 else 1) * (IZR (Zpos p) / IZR (10 ^ k)))%R) in *.
    assert (PY : (0 < IZR (Zpos p) / IZR (10 ^ k))%R).
    { apply Rmult_lt_0_compat; [now apply IZR_lt|]. apply Rinv_0_lt_compat. apply IZR_lt. lia. }
    destruct (Rlt_bool_spec (Rabs (rnd y)) (bpow radix2 emax)) as [L|L].
    + destruct C as (C1 & C2 & C3).
      assert (Fz : is_finite (SF2B z V : fl) = true) by (rewrite is_finite_SF2B; exact C2).
      split; [destruct (SF2B z V : fl); try discriminate; reflexivity|].
      rewrite key_finite by exact Fz. rewrite B2R_SF2B, C1. symmetry. apply clampR_in. now apply Rlt_le.
    + unfold binary_overflow in C. cbn in C. subst z. cbn [SF2B is_nan key]. split; [reflexivity|].
      destruct s.
      * rewrite clampR_lo; auto; [lra|]. rewrite Rabs_left1 in L; [lra|].
        apply round_le_generic; auto with typeclass_instances; [apply generic_format_0|]. unfold y. lra.
      * rewrite clampR_hi; auto; [lra|]. rewrite Rabs_pos_eq in L; [exact L|]. apply rnd_nonneg. unfold y. lra.
Qed.

(** Reading what fmt_fixed printed. *)
Lemma scan_fixed k (x : fl) rest : is_finite x = true -> match rest with [] => True | c :: _ => is_digit c = false end ->
  scan_decimal (fmt_fixed k x ++ rest) = Some (Bsign x, scaled_int k x, Z.of_nat k, rest).
Proof.
  intros F R. assert (P10 : 0 < 10 ^ Z.of_nat k) by (apply Z.pow_pos_nonneg; lia).
  assert (N0 : 0 <= scaled_int k x).
  { rewrite scaled_int_ok by exact F. apply Z.le_trans with (ZnearestE 0).
    - rewrite (ZnE_IZR 0). lia.
    - apply ZnE_le. apply Rmult_le_pos; [apply Rabs_pos|apply IZR_le; lia]. }
  set (n := scaled_int k x) in *.
  assert (T : fmt_fixed k x = (if Bsign x then [45] else []) ++ dec_digits (n / 10 ^ Z.of_nat k) ++ [46] ++ pad_digits k (n mod 10 ^ Z.of_nat k))
    by (destruct x; try discriminate; reflexivity).
  rewrite T. clear T. clearbody n. generalize (Bsign x). intros s.
  destruct (dec_digits_ok (n / 10 ^ Z.of_nat k)) as (D1 & D2 & D3); [apply Z.div_pos; lia|].
  destruct (pad_digits_ok k (n mod 10 ^ Z.of_nat k)) as (E1 & E2 & E3); [apply Z.mod_pos_bound; lia|].
  set (A := dec_digits (n / 10 ^ Z.of_nat k)) in *. set (B := pad_digits k (n mod 10 ^ Z.of_nat k)) in *.
  assert (S : take_sign (skip_spaces (((if s then [45] else []) ++ A ++ [46] ++ B) ++ rest)) = (s, A ++ 46 :: (B ++ rest))).
  { destruct s; cbn [app].
    - cbn. rewrite <- app_assoc. reflexivity.
    - destruct A as [|c A]; [congruence|]. inversion D2 as [|? ? Hc _]; subst. cbn [app].
      assert (SP : is_space c = false).
      { unfold is_space. destruct (Z.eqb_spec c 32); [lia|]. destruct (Z.leb_spec 9 c); [|lia]. destruct (Z.leb_spec c 13); [lia|reflexivity]. }
      cbn [skip_spaces]. rewrite SP. cbn [take_sign]. destruct (Z.eqb_spec c 45); [lia|]. destruct (Z.eqb_spec c 43); [lia|].
      rewrite <- app_assoc. reflexivity. }
  unfold scan_decimal. rewrite S. rewrite (take_digits_ok 0 0 A (46 :: B ++ rest) D2) by reflexivity.
  cbn [Z.eqb]. change (46 =? 46) with true. cbv iota. rewrite D1.
  rewrite (take_digits_ok (n / 10 ^ Z.of_nat k) 0 B rest E2 R). rewrite dval_shift, E1, E3. cbv iota beta.
  assert (zlen A <> 0). { unfold zlen. destruct A; [congruence|]. cbn [length]. lia. }
  pose proof (zlen_nonneg A). destruct (Z.eqb_spec (0 + zlen A + (0 + Z.of_nat k)) 0); [lia|].
  pose proof (Z.div_mod n (10 ^ Z.of_nat k) ltac:(lia)) as DM.
  replace (n / 10 ^ Z.of_nat k * 10 ^ Z.of_nat k + n mod 10 ^ Z.of_nat k) with n by lia. reflexivity.
Qed.
Lemma fmt_fixed_chars k (x : fl) : is_finite x = true ->
  Forall (fun c => c = 45 \/ c = 46 \/ 48 <= c <= 57) (fmt_fixed k x) /\ fmt_fixed k x <> [].
Proof.
  intros F. assert (P10 : 0 < 10 ^ Z.of_nat k) by (apply Z.pow_pos_nonneg; lia).
  assert (N0 : 0 <= scaled_int k x).
  { rewrite scaled_int_ok by exact F. apply Z.le_trans with (ZnearestE 0).
    - rewrite (ZnE_IZR 0). lia.
    - apply ZnE_le. apply Rmult_le_pos; [apply Rabs_pos|apply IZR_le; lia]. }
  set (n := scaled_int k x) in *.
  assert (T : fmt_fixed k x = (if Bsign x then [45] else []) ++ dec_digits (n / 10 ^ Z.of_nat k) ++ [46] ++ pad_digits k (n mod 10 ^ Z.of_nat k))
    by (destruct x; try discriminate; reflexivity).
  rewrite T. clear T. generalize (Bsign x). intros s.
  destruct (dec_digits_ok (n / 10 ^ Z.of_nat k)) as (D1 & D2 & D3); [apply Z.div_pos; lia|].
  destruct (pad_digits_ok k (n mod 10 ^ Z.of_nat k)) as (E1 & E2 & E3); [apply Z.mod_pos_bound; lia|].
  split.
  - rewrite !Forall_app. split; [destruct s; constructor; auto|]. split; [eapply Forall_impl; [|exact D2]; auto|].
    split; [constructor; auto|]. eapply Forall_impl; [|exact E2]; auto.
  - destruct s; [discriminate|]. cbn [app]. destruct (dec_digits (n / 10 ^ Z.of_nat k)); [congruence|discriminate].
Qed.
End F.

Lemma scan_int z rest : match rest with [] => True | c :: _ => is_digit c = false /\ c <> 46 end ->
  scan_decimal (fmt_int z ++ rest) = Some (z <? 0, Z.abs z, 0, rest).
Proof.
  intros R. unfold fmt_int.
  assert (G : forall n (s : bool), 0 <= n -> scan_decimal ((if s then 45 :: dec_digits n else dec_digits n) ++ rest) = Some (s, n, 0, rest)).
  { intros n s Hn. destruct (dec_digits_ok n Hn) as (D1 & D2 & D3). set (A := dec_digits n) in *.
    assert (S : take_sign (skip_spaces ((if s then 45 :: A else A) ++ rest)) = (s, A ++ rest)).
    { destruct s; cbn [app]; [reflexivity|]. destruct A as [|c A]; [congruence|]. inversion D2 as [|? ? Hc _]; subst. cbn [app].
      assert (SP : is_space c = false).
      { unfold is_space. destruct (Z.eqb_spec c 32); [lia|]. destruct (Z.leb_spec 9 c); [|lia]. destruct (Z.leb_spec c 13); [lia|reflexivity]. }
      cbn [skip_spaces]. rewrite SP. cbn [take_sign]. destruct (Z.eqb_spec c 45); [lia|]. destruct (Z.eqb_spec c 43); [lia|]. reflexivity. }
    unfold scan_decimal. rewrite S. rewrite (take_digits_ok 0 0 A rest D2) by (destruct rest; [exact I|apply R]).
    assert (zlen A <> 0). { unfold zlen. destruct A; [congruence|]. cbn [length]. lia. }
    rewrite D1. destruct rest as [|c rest].
    - destruct (Z.eqb_spec (0 + zlen A) 0); [lia|reflexivity].
    - destruct (Z.eqb_spec c 46); [destruct R; congruence|]. destruct (Z.eqb_spec (0 + zlen A) 0); [lia|reflexivity]. }
  destruct (Z.ltb_spec z 0).
  - rewrite (G (- z) true) by lia. rewrite Z.abs_neq by lia. reflexivity.
  - rewrite (G z false) by lia. rewrite Z.abs_eq by lia. reflexivity.
Qed.

(** split and join *)
Lemma split_on_nil sep l : split_on sep l <> [].
Proof. destruct l as [|c l]; cbn; [discriminate|]. destruct (sep c); [discriminate|]. destruct (split_on sep l); discriminate. Qed.
Lemma split_on_none sep l : Forall (fun c => sep c = false) l -> split_on sep l = [l].
Proof. induction 1 as [|c l H F IH]; cbn; [reflexivity|]. now rewrite H, IH. Qed.
Lemma split_on_app sep p c rest : Forall (fun c => sep c = false) p -> sep c = true ->
  split_on sep (p ++ c :: rest) = p :: split_on sep rest.
Proof.
  intros F H. induction F as [|d p Hd F IH]; cbn; [now rewrite H|]. now rewrite Hd, IH.
Qed.
Lemma split_join sep c parts : sep c = true -> parts <> [] -> Forall (Forall (fun x => sep x = false)) parts ->
  split_on sep (join_with [c] parts) = parts.
Proof.
  intros H NE F. induction F as [|p ps Hp F IH]; [congruence|]. cbn [join_with]. destruct ps as [|q ps].
  - now apply split_on_none.
  - cbn [app]. rewrite split_on_app by assumption. f_equal. apply IH. discriminate.
Qed.
