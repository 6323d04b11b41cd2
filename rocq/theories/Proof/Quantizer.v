(** Proofs about the feature quantisers. *)
From Coq Require Import ZArith List Bool Reals Lia Lra.
From Flocq Require Import Core BinarySingleNaN.
From Flocq.Prop Require Import Relative.
From Verif.Base Require Import Res CInt ListX Loops Float FloatOrder Kernels.
From Verif.Model Require Import Common Quantizer.
From Verif.Spec Require Import QuantizerSpec.
From Verif.Proof Require Import FixedPoint.
Import ListNotations.
Open Scope Z_scope.
Open Scope res_scope.

Section G.
Context {prec emax : Z} {Hp : Prec_gt_0 prec} {Hm : Prec_lt_emax prec emax}.
Notation fl := (binary_float prec emax).
Notation fexp := (SpecFloat.fexp prec emax).
Notation rnd := (round radix2 fexp ZnearestE).
#[local] Instance vfq : Valid_exp fexp.
Proof. apply FLT_exp_valid. exact Hp. Qed.
Variable m : Z.
Hypothesis Hmm : 0 <= m <= 2 ^ prec.

Lemma m_big : (IZR m < bpow radix2 emax)%R.
Proof.
  rewrite <- (Rabs_pos_eq (IZR m)) by (apply IZR_le; lia).
  apply (bpow_emax_gt (prec:=prec)). rewrite Rabs_pos_eq by (apply IZR_le; lia). apply IZR_le. lia.
Qed.
Lemma below_key (x : fl) : is_nan x = false -> below m x = Rlt_bool (key x) (- IZR m).
Proof.
  intros N. pose proof m_big. assert (0 <= IZR m)%R by (apply IZR_le; lia).
  destruct x as [?|[]| |? ? ? ?]; try discriminate N; auto; cbn; symmetry.
  - apply Rlt_bool_true. lra.
  - apply Rlt_bool_false. pose proof (bpow_gt_0 radix2 emax). lra.
Qed.
Lemma above_key (x : fl) : is_nan x = false -> above m x = Rlt_bool (IZR m) (key x).
Proof.
  intros N. pose proof m_big. assert (0 <= IZR m)%R by (apply IZR_le; lia).
  destruct x as [?|[]| |? ? ? ?]; try discriminate N; auto; cbn; symmetry.
  - apply Rlt_bool_false. pose proof (bpow_gt_0 radix2 emax). lra.
  - apply Rlt_bool_true. lra.
Qed.
Lemma quantised_key (x : fl) : is_nan x = false -> quantised m x = Ztrunc (clampR (IZR m) (key x)).
Proof.
  intros N. unfold quantised. rewrite below_key, above_key by exact N. assert (P : (0 <= IZR m)%R) by (apply IZR_le; lia).
  destruct (Rlt_bool_spec (key x) (- IZR m)) as [H|H].
  - rewrite clampR_lo by lra. rewrite <- opp_IZR. now rewrite Ztrunc_IZR.
  - destruct (Rlt_bool_spec (IZR m) (key x)) as [H'|H'].
    + rewrite clampR_hi by lra. now rewrite Ztrunc_IZR.
    + rewrite clampR_in by (apply Rabs_le; lra). f_equal. pose proof m_big.
      destruct x as [?|[]| |? ? ? ?]; try discriminate N; auto; cbn in *; lra.
Qed.
Lemma quantised_bound (x : fl) : is_nan x = false -> - m <= quantised m x <= m.
Proof.
  intros N. rewrite quantised_key by exact N. pose proof (clampR_bound (IZR m) (key x) ltac:(apply IZR_le; lia)) as [H1 H2].
  split.
  - rewrite <- (Ztrunc_IZR (- m)). apply Ztrunc_le. rewrite opp_IZR. exact H1.
  - apply Z.le_trans with (Ztrunc (IZR m)); [apply Ztrunc_le|rewrite Ztrunc_IZR; lia]. exact H2.
Qed.
(** The clamped float casts to the quantised value. *)
Lemma clip_cast (lo hi : Z) (fm fM x : fl) : is_nan x = false ->
  is_finite fm = true -> is_finite fM = true -> B2R fm = (- IZR m)%R -> B2R fM = IZR m -> lo <= - m -> m <= hi ->
  cast_to lo hi (let y := if fltb x fm then fm else x in if fltb fM y then fM else y) = Ret (quantised m x).
Proof.
  intros N Fm FM Em EM Hlo Hhi. cbv zeta. assert (P : (0 <= IZR m)%R) by (apply IZR_le; lia). pose proof m_big as MB.
  assert (Nm : is_nan fm = false) by (destruct fm; try discriminate; reflexivity).
  assert (NM : is_nan fM = false) by (destruct fM; try discriminate; reflexivity).
  set (y := if fltb x fm then fm else x).
  assert (Ny : is_nan y = false) by (unfold y; destruct (fltb x fm); assumption).
  assert (Ky : key y = Rmax (- IZR m) (key x)).
  { unfold y. rewrite key_ltb by assumption. rewrite (key_finite fm Fm), Em.
    destruct (Rlt_bool_spec (key x) (- IZR m)).
    - rewrite key_finite by exact Fm. rewrite Em. now rewrite Rmax_left by lra.
    - now rewrite Rmax_right by lra. }
  set (z := if fltb fM y then fM else y).
  assert (Nz : is_nan z = false) by (unfold z; destruct (fltb fM y); assumption).
  assert (Kz : key z = clampR (IZR m) (key x)).
  { unfold z. rewrite key_ltb by assumption. rewrite (key_finite fM FM), EM. unfold clampR.
    destruct (Rlt_bool_spec (IZR m) (key y)) as [W|W].
    - rewrite key_finite by exact FM. rewrite EM. rewrite Ky in W. assert (IZR m < key x)%R by (revert W; unfold Rmax; destruct (Rle_dec (- IZR m) (key x)); lra).
      rewrite Rmin_left by lra. rewrite Rmax_right by lra. reflexivity.
    - rewrite Ky in *. assert (key x <= IZR m)%R by (pose proof (Rmax_r (- IZR m) (key x)); lra). now rewrite Rmin_right by lra. }
  pose proof (clampR_bound (IZR m) (key x) P) as B. rewrite <- Kz in B.
  assert (Fz : is_finite z = true).
  { destruct z as [?|[]| |? ? ? ?]; try discriminate Nz; auto; cbn in B; lra. }
  rewrite quantised_key by exact N. rewrite <- Kz. rewrite (key_finite z Fz) in *.
  assert (T : Btrunc z = Ztrunc (B2R z)) by exact (ftrunc_R z).
  assert (- m <= Ztrunc (B2R z) <= m).
  { split.
    - rewrite <- (Ztrunc_IZR (- m)). apply Ztrunc_le. rewrite opp_IZR. lra.
    - apply Z.le_trans with (Ztrunc (IZR m)); [apply Ztrunc_le|rewrite Ztrunc_IZR; lia]. lra. }
  unfold cast_to. rewrite T.
  destruct (Z.leb_spec lo (Ztrunc (B2R z))); [|lia]. destruct (Z.leb_spec (Ztrunc (B2R z)) hi); [|lia].
  destruct z; try discriminate; reflexivity.
Qed.
Lemma quantised_mono (v w s : fl) : is_nan v = false -> is_nan w = false -> is_finite s = true -> (0 < B2R s)%R ->
  fleb v w = true -> quantised m (fmul v s) <= quantised m (fmul w s).
Proof.
  intros Nv Nw Fs Ps L. apply leb_key in L; auto.
  assert (KN : forall z : fl, is_nan z = false -> is_nan (fmul z s) = false).
  { intros z Nz. destruct (is_finite z) eqn:Fz.
    - now apply key_mul.
    - destruct z; try discriminate. rewrite key_mul_inf by assumption. reflexivity. }
  rewrite !quantised_key by auto. apply Ztrunc_le. apply clampR_le. now apply key_mul_le.
Qed.
Lemma quantised_err (v s : fl) : m < 2 ^ prec -> is_finite v = true -> is_finite s = true -> (Rabs (B2R v * B2R s) <= IZR m)%R ->
  (Rabs (IZR (quantised m (fmul v s)) - B2R v * B2R s) < 1)%R.
Proof.
  intros Hlt Fv Fs H. destruct (key_mul v s Fv Fs) as [N K]. rewrite quantised_key by exact N. rewrite K.
  apply Rabs_le_inv in H as H'.
  assert (R1 : (- IZR m <= rnd (B2R v * B2R s))%R). { rewrite <- opp_IZR. apply rnd_ge_int; [lia|]. rewrite opp_IZR. lra. }
  assert (R2 : (rnd (B2R v * B2R s) <= IZR m)%R) by (apply rnd_le_int; [lia|lra]).
  pose proof m_big. rewrite (clampR_in (bpow radix2 emax)) by (apply Rabs_le; lra).
  rewrite clampR_in by (apply Rabs_le; lra). now apply (trunc_rnd_err _ m).
Qed.
(** out of range: saturated up to the rounding of the product *)
Lemma quantised_hi (v s : fl) : is_finite v = true -> is_finite s = true -> (IZR m <= B2R v * B2R s)%R ->
  quantised m (fmul v s) = m.
Proof.
  intros Fv Fs H. destruct (key_mul v s Fv Fs) as [N K]. rewrite quantised_key by exact N. rewrite K. pose proof m_big.
  assert (P : (0 <= IZR m)%R) by (apply IZR_le; lia).
  assert (IZR m <= rnd (B2R v * B2R s))%R by (apply rnd_ge_int; [lia|lra]).
  rewrite clampR_hi; [apply Ztrunc_IZR|exact P|]. unfold clampR. eapply Rle_trans; [|apply Rmax_r]. apply Rmin_glb; lra.
Qed.
Lemma quantised_lo (v s : fl) : is_finite v = true -> is_finite s = true -> (B2R v * B2R s <= - IZR m)%R ->
  quantised m (fmul v s) = - m.
Proof.
  intros Fv Fs H. destruct (key_mul v s Fv Fs) as [N K]. rewrite quantised_key by exact N. rewrite K. pose proof m_big.
  assert (P : (0 <= IZR m)%R) by (apply IZR_le; lia).
  assert (rnd (B2R v * B2R s) <= IZR (- m))%R by (apply rnd_le_int; [lia|rewrite opp_IZR; lra]). rewrite opp_IZR in *.
  rewrite clampR_lo; [rewrite <- opp_IZR; apply Ztrunc_IZR|exact P|]. unfold clampR. apply Rmax_lub; [lra|]. eapply Rle_trans; [apply Rmin_r|lra].
Qed.
(** dividing back *)
Lemma inverse_err (v s : fl) (e : Z) : m < 2 ^ prec -> is_finite v = true -> is_finite s = true -> (0 < B2R s)%R ->
  (Rabs (B2R v * B2R s) <= IZR m)%R ->
  (IZR m / B2R s < bpow radix2 (emax - 1))%R -> emax <= e + 1 - prec - SpecFloat.emin prec emax ->
  (IZR m <= bpow radix2 e)%R -> 1 <= e ->
  (Rabs (B2R (fdiv (f_of_Z (quantised m (fmul v s)) : fl) s) - B2R v) < (1 + bpow radix2 (e - prec)) / B2R s)%R /\
  is_finite (fdiv (f_of_Z (quantised m (fmul v s)) : fl) s) = true.
Proof.
  intros Hlt Fv Fs Ps H HO HU He Hee. pose proof (quantised_err v s Hlt Fv Fs H) as Q.
  assert (N : is_nan (fmul v s) = false) by now apply key_mul.
  pose proof (quantised_bound (fmul v s) N) as QB. set (k := quantised m (fmul v s)) in *.
  destruct (f_of_Z_exact (prec:=prec) (emax:=emax) k ltac:(lia)) as [Ek Fk].
  assert (KM : (Rabs (IZR k) <= IZR m)%R) by (rewrite <- abs_IZR; apply IZR_le; lia).
  unfold fdiv. pose proof (Bdiv_correct prec emax Hp Hm mode_NE (f_of_Z k) s ltac:(lra)) as C.
  simpl round_mode in C. rewrite Ek in C.
  assert (BW : (Rabs (IZR k / B2R s) <= IZR m / B2R s)%R).
  { unfold Rdiv. rewrite Rabs_mult, (Rabs_pos_eq (/ B2R s)) by (left; now apply Rinv_0_lt_compat).
    apply Rmult_le_compat_r; [left; now apply Rinv_0_lt_compat|exact KM]. }
  assert (RB : (Rabs (rnd (IZR k / B2R s)) <= bpow radix2 (emax - 1))%R).
  { apply abs_round_le_generic; auto with typeclass_instances; [|lra].
    apply generic_format_bpow. unfold SpecFloat.fexp, SpecFloat.emin. unfold Prec_gt_0, Prec_lt_emax in *. lia. }
  rewrite Rlt_bool_true in C by (eapply Rle_lt_trans; [exact RB|]; apply bpow_lt; lia).
  destruct C as (C1 & C2 & _). rewrite C2. split; [|exact Fk]. rewrite C1.
  set (w := (IZR k / B2R s)%R) in *.
  assert (W : (Rabs (w - B2R v) < / B2R s)%R).
  { replace (w - B2R v)%R with ((IZR k - B2R v * B2R s) * / B2R s)%R by (unfold w; field; lra).
    rewrite Rabs_mult, (Rabs_pos_eq (/ B2R s)) by (left; now apply Rinv_0_lt_compat).
    rewrite <- (Rmult_1_l (/ B2R s)) at 2. apply Rmult_lt_compat_r; [now apply Rinv_0_lt_compat|exact Q]. }
  assert (E : (Rabs (rnd w - w) <= bpow radix2 (e - prec) / B2R s)%R).
  { destruct (Z.eq_dec k 0) as [K0|K0].
    - assert (w = 0%R) as -> by (unfold w; rewrite K0; unfold Rdiv; ring). rewrite round_0 by auto with typeclass_instances.
      rewrite Rminus_0_r, Rabs_R0. apply Rmult_le_pos; [apply bpow_ge_0|left; now apply Rinv_0_lt_compat].
    - pose proof (rnd_err (prec:=prec) (emax:=emax) w) as RE.
      assert (NZ : w <> 0%R).
      { unfold w. intros Z. apply K0. apply eq_IZR. apply Rmult_eq_reg_r with (/ B2R s)%R; [|apply Rinv_neq_0_compat; lra].
        unfold Rdiv in Z. rewrite Z. ring. }
      eapply Rle_trans; [exact RE|].
      assert (U : (ulp radix2 fexp w <= Rmax (bpow radix2 (SpecFloat.emin prec emax)) (Rabs w * bpow radix2 (1 - prec)))%R).
      { change fexp with (FLT_exp (SpecFloat.emin prec emax) prec).
        destruct (Rle_lt_dec (bpow radix2 (SpecFloat.emin prec emax + prec - 1)) (Rabs w)) as [L|L].
        - eapply Rle_trans; [|apply Rmax_r]. apply ulp_FLT_le. exact L.
        - eapply Rle_trans; [|apply Rmax_l]. rewrite ulp_FLT_small; [lra|exact Hp|].
          eapply Rlt_le_trans; [exact L|]. apply bpow_le. lia. }
      eapply Rle_trans; [apply Rmult_le_compat_l; [lra|exact U]|].
      assert (I : (0 < / B2R s)%R) by now apply Rinv_0_lt_compat.
      assert (B1 : (bpow radix2 (SpecFloat.emin prec emax) <= bpow radix2 (e + 1 - prec) / B2R s)%R).
      { apply Rmult_le_reg_r with (B2R s); [exact Ps|]. unfold Rdiv. rewrite Rmult_assoc, Rinv_l, Rmult_1_r by lra.
        replace (e + 1 - prec) with (SpecFloat.emin prec emax + (e + 1 - prec - SpecFloat.emin prec emax)) by ring.
        rewrite bpow_plus. apply Rmult_le_compat_l; [apply bpow_ge_0|].
        eapply Rle_trans; [|apply bpow_le; exact HU]. pose proof (key_fin s Fs) as KF. rewrite key_finite in KF by exact Fs. lra. }
      assert (B2 : (Rabs w * bpow radix2 (1 - prec) <= bpow radix2 (e + 1 - prec) / B2R s)%R).
      { replace (e + 1 - prec) with (e + (1 - prec)) by ring. rewrite bpow_plus. unfold Rdiv.
        replace (bpow radix2 e * bpow radix2 (1 - prec) * / B2R s)%R with (bpow radix2 e * / B2R s * bpow radix2 (1 - prec))%R by ring.
        apply Rmult_le_compat_r; [apply bpow_ge_0|]. eapply Rle_trans; [exact BW|]. unfold Rdiv. apply Rmult_le_compat_r; lra. }
      replace (bpow radix2 (e - prec)) with (/ 2 * bpow radix2 (e + 1 - prec))%R.
      + unfold Rdiv in *. rewrite (Rmult_assoc (/ 2)). apply Rmult_le_compat_l; [lra|]. apply Rmax_lub; assumption.
      + replace (e + 1 - prec) with (1 + (e - prec)) by ring. rewrite bpow_plus. cbn [bpow]. change (IZR (Z.pow_pos radix2 1)) with 2%R. field. }
  apply Rabs_lt_inv in W. apply Rabs_le_inv in E. apply Rabs_lt. unfold Rdiv in *.
  rewrite !Rmult_plus_distr_r, Rmult_1_l. lra.
Qed.
End G.

(** ** C functions *)
Lemma f32_int z : Z.abs z <= 2 ^ 24 -> B2R (f_of_Z z : f32) = IZR z /\ is_finite (f_of_Z z : f32) = true.
Proof. intros H. apply f_of_Z_exact. exact H. Qed.
Lemma not_below_nan (x : f32) m : is_nan x = true -> below m x = false /\ above m x = false.
Proof. destruct x; try discriminate; auto. Qed.

Lemma count_snoc {A} (p : A -> bool) l a : count p (l ++ [a]) = count p l + if p a then 1 else 0.
Proof. unfold count. rewrite filter_app, zlen_app. cbn. destruct (p a); reflexivity. Qed.
Lemma count_le {A} (p : A -> bool) l : 0 <= count p l <= zlen l.
Proof. unfold count, zlen. induction l as [|a l IH]; cbn; [lia|]. destruct (p a); cbn; lia. Qed.
Lemma firstn_snoc {A} (l : list A) i a : zget l i = Ret a -> firstn (Z.to_nat (i + 1)) l = firstn (Z.to_nat i) l ++ [a].
Proof.
  intros H. apply zget_Ret in H as [P H]. replace (Z.to_nat (i + 1)) with (S (Z.to_nat i)) by lia.
  revert H. generalize (Z.to_nat i). clear. intros n. revert l. induction n as [|n IH]; destruct l as [|b l]; try discriminate.
  - cbn. congruence.
  - intros H. cbn in H. change (b :: firstn (S n) l = (b :: firstn n l) ++ [a]). rewrite (IH l H). reflexivity.
Qed.
Lemma skipn_zget {A} (l : list A) i a : zget l i = Ret a -> skipn (Z.to_nat i) l = a :: skipn (Z.to_nat (i + 1)) l.
Proof.
  intros H. apply zget_Ret in H as [P H]. replace (Z.to_nat (i + 1)) with (S (Z.to_nat i)) by lia.
  revert H. generalize (Z.to_nat i). clear. intros n. revert l. induction n as [|n IH]; destruct l as [|b l]; try discriminate.
  - cbn. congruence.
  - intros H. cbn in H. change (skipn n l = a :: skipn (S n) l). exact (IH l H).
Qed.
Lemma list_set_app {A} (l1 : list A) a l2 v : list_set (l1 ++ a :: l2) (length l1) v = l1 ++ v :: l2.
Proof. induction l1; cbn; auto. now rewrite IHl1. Qed.

Section C.
Variables (scale : f32) (values : list f32).
Let prod v : f32 := fmul v scale.
Let step := fun '((out, underflows, overflows) : list Z * Z * Z) (i : Z) =>
        let* v := zget values i in
        let scaled := fmul v scale in
        let* (underflows, scaled) :=
          (if fltb scaled min_value then let* u := chk_int32 (underflows + 1) in Ret (u, min_value)
           else Ret (underflows, scaled)) in
        let* (overflows, scaled) :=
          (if fltb max_value scaled then let* o := chk_int32 (overflows + 1) in Ret (o, max_value)
           else Ret (overflows, scaled)) in
        let* z := cast_to (-32768) 32767 scaled in
        let* out := zset out i z in
        Ret (out, underflows, overflows).
Lemma step_ok out u o i v : zget values i = Ret v -> is_nan (fmul v scale) = false -> 0 <= u < 2147483647 -> 0 <= o < 2147483647 ->
  step (out, u, o) i = let* out' := zset out i (quantised 32767 (fmul v scale)) in
    Ret (out', u + (if below 32767 (fmul v scale) then 1 else 0), o + (if above 32767 (fmul v scale) then 1 else 0)).
Proof.
  intros Ev N Hu Ho. unfold step. rewrite Ev. cbn [bind]. cbv zeta.
  destruct (f32_int 32767) as [EM FM]; [lia|]. destruct (f32_int (-32767)) as [Em Fm]; [lia|].
  pose proof (@clip_cast 24 128 _ _ 32767 ltac:(lia) (-32768) 32767 min_value max_value (fmul v scale) N Fm FM Em EM ltac:(lia) ltac:(lia)) as CC.
  cbv zeta in CC. pose proof (@m_big 24 128 _ _ 32767 ltac:(lia)) as MB.
  rewrite (@below_key 24 128 _ _ 32767) by (lia || exact N). rewrite (@above_key 24 128 _ _ 32767) by (lia || exact N).
  assert (Nm : is_nan min_value = false) by reflexivity. assert (NM : is_nan max_value = false) by reflexivity.
  assert (Km : key min_value = (- IZR 32767)%R) by (rewrite (key_finite min_value Fm); exact Em).
  assert (KM : key max_value = IZR 32767) by (rewrite (key_finite max_value FM); exact EM).
  rewrite <- Km, <- KM. rewrite <- !key_ltb by assumption.
  destruct (fltb (fmul v scale) min_value) eqn:B.
  - rewrite chk_int32_ok by (unfold int32_ok; lia). cbn [bind].
    assert (A : fltb max_value (fmul v scale) = false).
    { apply not_true_iff_false. rewrite ltb_key by assumption. apply ltb_key in B; auto. rewrite Km in B. rewrite KM. lra. }
    assert (A2 : fltb max_value min_value = false) by reflexivity.
    rewrite A. rewrite A2 in CC |- *. cbn [bind]. rewrite CC. cbn [bind]. now rewrite Z.add_0_r.
  - cbn [bind]. destruct (fltb max_value (fmul v scale)) eqn:A.
    + rewrite chk_int32_ok by (unfold int32_ok; lia). cbn [bind]. rewrite CC. cbn [bind]. now rewrite Z.add_0_r.
    + cbn [bind]. rewrite CC. cbn [bind]. now rewrite !Z.add_0_r.
Qed.
Lemma step_nan out u o i v : zget values i = Ret v -> is_nan (fmul v scale) = true -> step (out, u, o) i = Err BadCast.
Proof.
  intros Ev N. unfold step. rewrite Ev. cbn [bind]. cbv zeta. destruct (fmul v scale); try discriminate. reflexivity.
Qed.
Lemma forward_prefix out k : 0 <= k <= zlen values -> k <= zlen out -> zlen values < 2147483648 ->
  (forall i v, 0 <= i < k -> zget values i = Ret v -> is_nan (fmul v scale) = false) ->
  foldM step (out, 0, 0) (zrange k) =
  Ret (map (fun v => quantised 32767 (fmul v scale)) (firstn (Z.to_nat k) values) ++ skipn (Z.to_nat k) out,
       count (fun v => below 32767 (fmul v scale)) (firstn (Z.to_nat k) values),
       count (fun v => above 32767 (fmul v scale)) (firstn (Z.to_nat k) values)).
Proof.
  intros Hk Ho Hv HN.
  destruct (foldM_range_inv step (fun i s => s =
   (map (fun v => quantised 32767 (fmul v scale)) (firstn (Z.to_nat i) values) ++ skipn (Z.to_nat i) out,
       count (fun v => below 32767 (fmul v scale)) (firstn (Z.to_nat i) values),
       count (fun v => above 32767 (fmul v scale)) (firstn (Z.to_nat i) values))) k (out, 0, 0) ltac:(lia)) as (s & E & P).
  - reflexivity.
  - intros i s Hi ->. destruct (zget_ok values i ltac:(lia)) as [v Ev]. destruct (zget_ok out i ltac:(lia)) as [q Eq].
    pose proof (count_le (fun v => below 32767 (fmul v scale)) (firstn (Z.to_nat i) values)) as C1.
    pose proof (count_le (fun v => above 32767 (fmul v scale)) (firstn (Z.to_nat i) values)) as C2.
    rewrite zlen_firstn in C1, C2 by lia.
    rewrite (step_ok _ _ _ i v Ev (HN i v Hi Ev)) by lia.
    assert (LL : length (map (fun v => quantised 32767 (fmul v scale)) (firstn (Z.to_nat i) values)) = Z.to_nat i).
    { rewrite map_length, firstn_length. unfold zlen in *. lia. }
    rewrite zset_ok.
    2:{ rewrite zlen_app, zlen_skipn by lia. unfold zlen at 1. rewrite LL. lia. }
    cbn [bind]. eexists. split; [reflexivity|].
    rewrite (skipn_zget out i q Eq). 
    pose proof (list_set_app (map (fun v => quantised 32767 (fmul v scale)) (firstn (Z.to_nat i) values)) q
      (skipn (Z.to_nat (i + 1)) out) (quantised 32767 (fmul v scale))) as LS. rewrite LL in LS. rewrite LS.
    rewrite (firstn_snoc values i v Ev), map_app, !count_snoc, <- app_assoc. reflexivity.
  - rewrite E. f_equal. exact P.
Qed.
Lemma check_forward_ok out u0 o0 : zlen values <= zlen out -> zlen values < 2147483648 ->
  Forall (fun v => is_nan (fmul v scale) = false) values ->
  eml_quantizer_check_forward_int16 scale values (zlen values) out (zlen values) u0 o0 =
  Ret (EmlOk, map (fun v => quantised 32767 (fmul v scale)) values ++ skipn (length values) out,
       count (fun v => below 32767 (fmul v scale)) values,
       count (fun v => above 32767 (fmul v scale)) values).
Proof.
  intros Lo Lv HN. unfold eml_quantizer_check_forward_int16. rewrite Z.eqb_refl. cbn [negb].
  pose proof (forward_prefix out (zlen values) ltac:(pose proof (zlen_nonneg values); lia) Lo Lv) as F.
  unfold step in F. rewrite F.
  - cbn [bind]. unfold zlen. now rewrite Nat2Z.id, firstn_all.
  - intros i v _ Ev. rewrite Forall_forall in HN. apply HN. now apply zget_In in Ev.
Qed.
Lemma zrange_at k n : 0 <= k < n -> exists rest, zrange n = zrange k ++ k :: rest.
Proof.
  intros H. exists (map Z.of_nat (seq (S (Z.to_nat k)) (Z.to_nat (n - k - 1)))). unfold zrange.
  replace (Z.to_nat n) with (Z.to_nat k + S (Z.to_nat (n - k - 1)))%nat by lia. rewrite seq_app, map_app. cbn. f_equal. f_equal. lia.
Qed.
Lemma check_forward_nan out u0 o0 : zlen values <= zlen out -> zlen values < 2147483648 ->
  Exists (fun v => is_nan (fmul v scale) = true) values ->
  eml_quantizer_check_forward_int16 scale values (zlen values) out (zlen values) u0 o0 = Err BadCast.
Proof.
  intros Lo Lv HE.
  assert (F : exists k v, zget values k = Ret v /\ is_nan (fmul v scale) = true /\
     forall i w, 0 <= i < k -> zget values i = Ret w -> is_nan (fmul w scale) = false).
  { clear - HE. induction values as [|a l IH]; [inversion HE|]. destruct (is_nan (fmul a scale)) eqn:N.
    - exists 0, a. split; [reflexivity|]. split; [exact N|]. intros; lia.
    - assert (HE' : Exists (fun v => is_nan (fmul v scale) = true) l) by (inversion HE; subst; [congruence|assumption]).
      destruct (IH HE') as (k & v & Ev & Nv & Hk). exists (k + 1), v. split; [|split; [exact Nv|]].
      + apply zget_Ret in Ev as [P Ev]. apply zget_Ret. split; [lia|]. replace (Z.to_nat (k + 1)) with (S (Z.to_nat k)) by lia. exact Ev.
      + intros i w Hi Ew. destruct (Z.eq_dec i 0) as [->|NE].
        * injection Ew as <-. exact N.
        * apply (Hk (i - 1) w ltac:(lia)). apply zget_Ret in Ew as [P Ew]. apply zget_Ret. split; [lia|].
          replace (Z.to_nat i) with (S (Z.to_nat (i - 1))) in Ew by lia. exact Ew. }
  destruct F as (k & v & Ev & Nv & Hk). pose proof (zget_bound _ _ _ Ev) as Bk.
  unfold eml_quantizer_check_forward_int16. rewrite Z.eqb_refl. cbn [negb].
  destruct (zrange_at k (zlen values) Bk) as [rest Er]. rewrite Er, foldM_app.
  pose proof (forward_prefix out k ltac:(lia) ltac:(lia) Lv Hk) as F. unfold step in F. rewrite F. cbn [bind].
  cbn [foldM]. pose proof (step_nan) as SN. unfold step in SN. rewrite (SN _ _ _ k v Ev Nv). reflexivity.
Qed.
End C.

Lemma inverse_ok scale (values : list Z) (out : list f32) : zlen values <= zlen out ->
  eml_quantizer_inverse_int16 scale values (zlen values) out (zlen values) =
  Ret (EmlOk, map (fun k => fdiv (f_of_Z k) scale) values ++ skipn (length values) out).
Proof.
  intros L. unfold eml_quantizer_inverse_int16. rewrite Z.eqb_refl. cbn [negb].
  pose proof (zlen_nonneg values).
  pose proof (fill_app_ext (fun out i => let* v := zget values i in zset out i (fdiv (f_of_Z v) scale))
    (fun i => fdiv (f_of_Z (znth 0 values i)) scale) out (zlen values) ltac:(lia)) as F.
  rewrite F.
  - cbn [bind]. rewrite <- (map_map (znth 0 values) (fun k => fdiv (f_of_Z k) scale)), map_znth. unfold zlen. now rewrite Nat2Z.id.
  - intros o i Hi. rewrite (zget_znth 0) by lia. reflexivity.
Qed.

(** ** Python *)
Lemma transform_ok out_max d scale X : 0 <= out_max <= 2 ^ 53 -> iinfo_min d <= - out_max -> out_max <= iinfo_max d ->
  Forall (fun x => is_nan (fmul x scale) = false) X ->
  transform out_max d scale X = Ret (map (fun x => quantised out_max (fmul x scale)) X).
Proof.
  intros H Hlo Hhi HN. unfold transform. apply mapM_Ret. induction HN as [|x X Nx HN IH]; cbn; constructor; auto.
  destruct (@f_of_Z_exact 53 1024 _ _ out_max ltac:(lia)) as [EM FM].
  apply (@clip_cast 53 1024 _ _ out_max H); auto.
  - now rewrite is_finite_Bopp.
  - now rewrite B2R_Bopp, EM.
Qed.
Lemma inverse_transform_ok out_max scale k : 0 <= out_max <= 2 ^ 53 -> - out_max <= k <= out_max ->
  inverse_transform out_max scale [k] = [fdiv (f_of_Z k) scale].
Proof.
  intros H Hk. unfold inverse_transform. cbn [map]. f_equal.
  destruct (@f_of_Z_exact 53 1024 _ _ out_max ltac:(lia)) as [EM FM].
  destruct (@f_of_Z_exact 53 1024 _ _ k ltac:(lia)) as [EK FK].
  f_equal. unfold np_clip. rewrite (fltb_correct (f_of_Z k) (Bopp (f_of_Z out_max))); [|exact FK|now rewrite is_finite_Bopp]. rewrite B2R_Bopp, EM, EK.
  rewrite Rlt_bool_false by (rewrite <- opp_IZR; apply IZR_le; lia).
  rewrite fltb_correct by assumption. rewrite EM, EK. rewrite Rlt_bool_false by (apply IZR_le; lia). reflexivity.
Qed.

(** fit *)
Lemma np_min_ok x0 l : is_finite x0 = true -> Forall (fun x => is_finite x = true) l ->
  In (np_min x0 l) (x0 :: l) /\ is_finite (np_min x0 l) = true /\ forall x, In x (x0 :: l) -> (B2R (np_min x0 l) <= B2R x)%R.
Proof.
  unfold np_min. revert x0. induction l as [|a l IH]; intros x0 F0 F; cbn [fold_left].
  - split; [now left|]. split; [exact F0|]. intros x [<-|[]]. lra.
  - inversion F as [|? ? Fa Fl]; subst. set (y := if fltb a x0 then a else x0).
    assert (Fy : is_finite y = true) by (unfold y; destruct (fltb a x0); assumption).
    assert (Y : (B2R y <= B2R a /\ B2R y <= B2R x0)%R).
    { unfold y. rewrite fltb_correct by assumption. destruct (Rlt_bool_spec (B2R a) (B2R x0)); lra. }
    destruct (IH y Fy Fl) as (I & Fi & Hle). split; [|split; [exact Fi|]].
    + destruct I as [<-|I]; [|right; right; exact I]. unfold y. destruct (fltb a x0); [right; left|left]; reflexivity.
    + pose proof (Hle y (or_introl eq_refl)). intros x [<-|[<-|I']]; try lra. apply Hle. now right.
Qed.
Lemma np_max_ok x0 l : is_finite x0 = true -> Forall (fun x => is_finite x = true) l ->
  In (np_max x0 l) (x0 :: l) /\ is_finite (np_max x0 l) = true /\ forall x, In x (x0 :: l) -> (B2R x <= B2R (np_max x0 l))%R.
Proof.
  unfold np_max. revert x0. induction l as [|a l IH]; intros x0 F0 F; cbn [fold_left].
  - split; [now left|]. split; [exact F0|]. intros x [<-|[]]. lra.
  - inversion F as [|? ? Fa Fl]; subst. set (y := if fltb x0 a then a else x0).
    assert (Fy : is_finite y = true) by (unfold y; destruct (fltb x0 a); assumption).
    assert (Y : (B2R a <= B2R y /\ B2R x0 <= B2R y)%R).
    { unfold y. rewrite fltb_correct by assumption. destruct (Rlt_bool_spec (B2R x0) (B2R a)); lra. }
    destruct (IH y Fy Fl) as (I & Fi & Hle). split; [|split; [exact Fi|]].
    + destruct I as [<-|I]; [|right; right; exact I]. unfold y. destruct (fltb x0 a); [right; left|left]; reflexivity.
    + pose proof (Hle y (or_introl eq_refl)). intros x [<-|[<-|I']]; try lra. apply Hle. now right.
Qed.
Lemma largest_ok x0 l (L : f64) : is_finite x0 = true -> Forall (fun x => is_finite x = true) l ->
  L = (let lo := np_min x0 l in let hi := np_max x0 l in if fltb hi (Bopp lo) then Bopp lo else hi) ->
  is_finite L = true /\ (forall x, In x (x0 :: l) -> (Rabs (B2R x) <= B2R L)%R) /\
  exists x, In x (x0 :: l) /\ (Rabs (B2R x) = B2R L)%R.
Proof.
  intros F0 F ->. cbv zeta. destruct (np_min_ok x0 l F0 F) as (I1 & F1 & H1). destruct (np_max_ok x0 l F0 F) as (I2 & F2 & H2).
  rewrite fltb_correct; [|exact F2|now rewrite is_finite_Bopp]. rewrite B2R_Bopp. pose proof (H1 _ I2) as M.
  destruct (Rlt_bool_spec (B2R (np_max x0 l)) (- B2R (np_min x0 l))) as [C|C].
  - rewrite is_finite_Bopp, B2R_Bopp. split; [exact F1|]. split.
    + intros x Hx. apply Rabs_le. specialize (H1 x Hx). specialize (H2 x Hx). lra.
    + exists (np_min x0 l). split; [exact I1|]. apply Rabs_left1. lra.
  - split; [exact F2|]. split.
    + intros x Hx. apply Rabs_le. specialize (H1 x Hx). specialize (H2 x Hx). lra.
    + exists (np_max x0 l). split; [exact I2|]. apply Rabs_pos_eq. lra.
Qed.
Notation rnd64 := (round radix2 (SpecFloat.fexp 53 1024) ZnearestE).
#[local] Instance vf64 : Valid_exp (SpecFloat.fexp 53 1024).
Proof. apply FLT_exp_valid. reflexivity. Qed.
(** scale = out_max / L up to 2^-53, relatively. *)
Lemma scale_ok M (L : f64) : 1 <= M <= 2 ^ 31 -> is_finite L = true -> (bpow radix2 (-900) <= B2R L <= bpow radix2 900)%R ->
  is_finite (fdiv (f_of_Z M) L) = true /\
  (Rabs (B2R (fdiv (f_of_Z M) L) - IZR M / B2R L) <= bpow radix2 (-53) * (IZR M / B2R L))%R.
Proof.
  intros HM FL [HL1 HL2]. assert (PL : (0 < B2R L)%R) by (pose proof (bpow_gt_0 radix2 (-900)); lra).
  destruct (@f_of_Z_exact 53 1024 _ _ M ltac:(lia)) as [EM FM].
  pose proof (Bdiv_correct 53 1024 _ _ mode_NE (f_of_Z M) L ltac:(lra)) as C. simpl round_mode in C. rewrite EM in C.
  assert (M1 : (1 <= IZR M)%R) by (apply IZR_le; lia). assert (M2 : (IZR M <= bpow radix2 31)%R) by (rewrite <- IZR_Zpower by lia; apply IZR_le; exact (proj2 HM)).
  assert (I1 : (/ B2R L <= bpow radix2 900)%R).
  { rewrite <- (Rinv_inv (bpow radix2 900)), <- bpow_opp. apply Rinv_le; [apply bpow_gt_0|exact HL1]. }
  assert (I2 : (bpow radix2 (-900) <= / B2R L)%R).
  { rewrite <- (Rinv_inv (bpow radix2 (-900))), <- bpow_opp. apply Rinv_le; [exact PL|exact HL2]. }
  assert (I0 : (0 < / B2R L)%R) by now apply Rinv_0_lt_compat.
  assert (U : (IZR M / B2R L <= bpow radix2 931)%R).
  { change 931 with (31 + 900). rewrite bpow_plus. unfold Rdiv. apply Rmult_le_compat; lra. }
  assert (D : (bpow radix2 (-900) <= IZR M / B2R L)%R).
  { unfold Rdiv. rewrite <- (Rmult_1_l (bpow radix2 (-900))). apply Rmult_le_compat; try lra. apply bpow_ge_0. }
  assert (W0 : (0 < IZR M / B2R L)%R) by (pose proof (bpow_gt_0 radix2 (-900)); lra).
  rewrite Rlt_bool_true in C.
  - destruct C as (C1 & C2 & _). unfold fdiv. rewrite C2. split; [exact FM|]. rewrite C1.
    assert (ABS : Rabs (IZR M / B2R L) = (IZR M / B2R L)%R) by (apply Rabs_pos_eq; lra).
    pose proof (@relative_error_N_FLT radix2 (SpecFloat.emin 53 1024) 53 eq_refl (fun x => negb (Z.even x)) (IZR M / B2R L)) as RE.
    rewrite ABS in RE. eapply Rle_trans; [apply RE|].
    + eapply Rle_trans; [|exact D]. apply bpow_le. vm_compute. discriminate.
    + right. change (- (53) + 1) with (1 + -53). rewrite bpow_plus. generalize (bpow radix2 (-53)). intros b. change (bpow radix2 1) with 2%R. field. lra.
  - eapply Rle_lt_trans with (bpow radix2 931); [|apply bpow_lt; lia].
    apply abs_round_le_generic; auto with typeclass_instances.
    + apply generic_format_bpow. vm_compute. discriminate.
    + rewrite Rabs_pos_eq by lra. exact U.
Qed.
Lemma fit_close M (L x : f64) : 1 <= M <= 2 ^ 31 -> is_finite L = true -> (bpow radix2 (-900) <= B2R L <= bpow radix2 900)%R ->
  is_finite x = true -> (Rabs (B2R x) <= B2R L)%R ->
  (Rabs (IZR (quantised M (fmul x (fdiv (f_of_Z M) L))) - B2R x * (IZR M / B2R L)) < 1 + bpow radix2 (-21))%R.
Proof.
  intros HM FL HL Fx Hx. destruct (scale_ok M L HM FL HL) as [Fs Es]. set (s := fdiv (f_of_Z M) L) in *.
  assert (PL : (0 < B2R L)%R) by (pose proof (bpow_gt_0 radix2 (-900)); lra).
  assert (M1 : (1 <= IZR M)%R) by (apply IZR_le; lia). assert (M2 : (IZR M <= bpow radix2 31)%R) by (rewrite <- IZR_Zpower by lia; apply IZR_le; exact (proj2 HM)).
  set (t := (IZR M / B2R L)%R) in *.
  assert (T : (B2R L * t = IZR M)%R) by (unfold t; field; lra).
  assert (Pt : (0 < t)%R) by (unfold t; apply Rmult_lt_0_compat; [lra|now apply Rinv_0_lt_compat]).
  assert (XT : (Rabs (B2R x * t) <= IZR M)%R).
  { rewrite Rabs_mult, (Rabs_pos_eq t) by lra. rewrite <- T. apply Rmult_le_compat_r; lra. }
  assert (D : (Rabs (B2R x * B2R s - B2R x * t) <= bpow radix2 (-22))%R).
  { rewrite <- Rmult_minus_distr_l, Rabs_mult.
    apply Rle_trans with (B2R L * (bpow radix2 (-53) * t))%R.
    - apply Rmult_le_compat; try apply Rabs_pos; assumption.
    - replace (B2R L * (bpow radix2 (-53) * t))%R with (bpow radix2 (-53) * (B2R L * t))%R by ring. rewrite T.
      change (-22) with (-53 + 31). rewrite bpow_plus. apply Rmult_le_compat_l; [apply bpow_ge_0|exact M2]. }
  assert (B21 : (bpow radix2 (-21) = 2 * bpow radix2 (-22))%R).
  { change (-21) with (1 + -22). rewrite bpow_plus. cbn [bpow]. change (IZR (Z.pow_pos radix2 1)) with 2%R. reflexivity. }
  pose proof (bpow_gt_0 radix2 (-22)) as B22. apply Rabs_le_inv in XT. apply Rabs_le_inv in D.
  assert (S1 : (bpow radix2 (-22) < 1)%R) by (change 1%R with (bpow radix2 0); apply bpow_lt; lia).
  destruct (Rle_lt_dec (Rabs (B2R x * B2R s)) (IZR M)) as [I|O].
  - pose proof (@quantised_err 53 1024 _ _ M ltac:(lia) x s ltac:(lia) Fx Fs I) as Q. apply Rabs_lt_inv in Q. apply Rabs_lt. lra.
  - destruct (Rle_lt_dec 0 (B2R x * B2R s)) as [P|P].
    + rewrite Rabs_pos_eq in O by exact P. rewrite (@quantised_hi 53 1024 _ _ M) by (auto; lia || lra). apply Rabs_lt. lra.
    + rewrite Rabs_left in O by exact P. rewrite (@quantised_lo 53 1024 _ _ M) by (auto; lia || lra). rewrite opp_IZR. apply Rabs_lt. lra.
Qed.
