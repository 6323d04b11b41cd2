(** Quantisation of leaf probabilities (C12). *)
From Coq Require Import ZArith List Bool Lia Reals Lra Psatz.
From Flocq Require Import Core BinarySingleNaN.
From Verif.Base Require Import Res CInt ListX Float Loops.
From Verif.Model Require Import Common TreesConvert TreesC TreesWrapper.
Import ListNotations.
Open Scope Z_scope.
Open Scope res_scope.

Notation rnd64 := (round radix2 (SpecFloat.fexp 53 1024) ZnearestE).

Lemma round_FIX0 f `{Valid_rnd f} (x : R) : round radix2 (FIX_exp 0) f x = IZR (f x).
Proof.
  unfold round, scaled_mantissa, cexp, FIX_exp, F2R. simpl. now rewrite !Rmult_1_r.
Qed.

Lemma ulp64_le (x : R) (e : Z) : (-900 <= e) -> (Rabs x < bpow radix2 e)%R ->
  (ulp radix2 (SpecFloat.fexp 53 1024) x <= bpow radix2 (e - 53))%R.
Proof.
  intros He H. destruct (Req_dec x 0) as [->|Hx].
  - change (SpecFloat.fexp 53 1024) with (FLT_exp (SpecFloat.emin 53 1024) 53).
    rewrite ulp_FLT_0 by exact prec53. apply bpow_le. unfold SpecFloat.emin. lia.
  - rewrite ulp_neq_0 by auto. apply bpow_le. unfold cexp, SpecFloat.fexp, SpecFloat.emin.
    assert (mag radix2 x <= e) by now apply mag_le_bpow. lia.
Qed.

(** nearest integer of a rounded product *)
Lemma quantize1_ok k (x : f64) : 1 <= k <= 254 -> is_finite x = true -> (0 <= B2R x <= 1)%R ->
  let q := ZnearestE (rnd64 (B2R x * IZR k)) in
  B2R (quantize1 k x) = IZR q /\ is_finite (quantize1 k x) = true /\ 0 <= q <= k /\
  (Rabs (IZR q - B2R x * IZR k) <= / 2 + bpow radix2 (-46))%R.
Proof.
  intros Hk Fx Bx q.
  destruct (@f_of_Z_exact 53 1024 _ _ k) as [Bk Fk]; [lia|].
  assert (Hkr : (1 <= IZR k <= 254)%R) by (split; apply IZR_le; lia).
  assert (Hprod : (0 <= B2R x * IZR k <= IZR k)%R) by nra.
  assert (Habs : (Rabs (B2R x * IZR k) <= IZR (2 ^ 53))%R).
  { rewrite Rabs_pos_eq by lra. assert (IZR (2^53) = 9007199254740992)%R by reflexivity. lra. }
  unfold quantize1. destruct (fmul_correct x (f_of_Z k) Fx Fk) as [Bm Fm].
  { rewrite Bk. exact Habs. }
  rewrite Bk in Bm.
  unfold frint. destruct (Bnearbyint_correct 53 1024 _ mode_NE (fmul x (f_of_Z k))) as (B1 & F1 & _).
  rewrite B1, F1, Bm. simpl round_mode. rewrite round_FIX0 by auto with typeclass_instances.
  split; [reflexivity|]. split; [auto|].
  assert (Hr0 : (0 <= rnd64 (B2R x * IZR k))%R) by (apply (@rnd_nonneg 53 1024 _); lra).
  assert (Hrk : (rnd64 (B2R x * IZR k) <= IZR k)%R) by (apply (@rnd_le_int 53 1024 _ _); [lia|lra]).
  assert (Hq : 0 <= q <= k).
  { assert (M0 : ZnearestE (IZR 0) <= q) by (apply Zrnd_le; auto with typeclass_instances).
    assert (M1 : q <= ZnearestE (IZR k)) by (apply Zrnd_le; auto with typeclass_instances).
    rewrite (Zrnd_IZR ZnearestE) in M0, M1. split; auto. }
  split; [exact Hq|].
  pose proof (Znearest_half (fun x => negb (Z.even x)) (rnd64 (B2R x * IZR k))) as Hh.
  change (Znearest (fun x => negb (Z.even x))) with ZnearestE in Hh. fold q in Hh.
  pose proof (@rnd_err 53 1024 _ (B2R x * IZR k)%R) as He.
  assert (Hu : (ulp radix2 (SpecFloat.fexp 53 1024) (B2R x * IZR k) <= bpow radix2 (8 - 53))%R).
  { apply ulp64_le; [lia|]. rewrite Rabs_pos_eq by lra. simpl. lra. }
  replace (bpow radix2 (-46)) with (/ 2 * bpow radix2 (8 - 53))%R.
  2: { change (-46) with (-1 + (8 - 53)). rewrite bpow_plus. f_equal. }
  rewrite Rabs_minus_sym in Hh.
  replace (IZR q - B2R x * IZR k)%R with
    ((IZR q - rnd64 (B2R x * IZR k)) + (rnd64 (B2R x * IZR k) - B2R x * IZR k))%R by lra.
  eapply Rle_trans; [apply Rabs_triang|]. lra.
Qed.

Lemma quantize1_mono k (x y : f64) : 1 <= k <= 254 -> (B2R x <= B2R y)%R ->
  ZnearestE (rnd64 (B2R x * IZR k)) <= ZnearestE (rnd64 (B2R y * IZR k)).
Proof.
  intros Hk H. apply Zrnd_le; auto with typeclass_instances. apply (@rnd_le 53 1024 _).
  apply Rmult_le_compat_r; auto. apply IZR_le; lia.
Qed.

(** The byte of a level depends only on the level. *)
Definition level_byte (k q : Z) : Z := scale_byte k (f_of_Z q).

Lemma div_mul_val k (x : f64) q : 1 <= k <= 254 -> 0 <= q <= k -> is_finite x = true -> B2R x = IZR q ->
  B2R (fmul (fdiv x (f_of_Z k)) (f_of_Z 255)) = rnd64 (rnd64 (IZR q / IZR k) * 255).
Proof.
  intros Hk Hq Fx Bx.
  destruct (@f_of_Z_exact 53 1024 _ _ k) as [Bk Fk]; [lia|].
  destruct (@f_of_Z_exact 53 1024 _ _ 255) as [B5 F5]; [lia|].
  assert (Hkr : (1 <= IZR k <= 254)%R) by (split; apply IZR_le; lia).
  assert (Hqr : (0 <= IZR q <= IZR k)%R) by (split; apply IZR_le; lia).
  assert (Hd : (0 <= IZR q / IZR k <= 1)%R).
  { split.
    - apply Rmult_le_pos; [lra|]. left. apply Rinv_0_lt_compat. lra.
    - apply Rmult_le_reg_r with (IZR k); [lra|]. unfold Rdiv. rewrite Rmult_assoc, Rinv_l by lra. lra. }
  assert (H53 : (IZR (2^53) = 9007199254740992)%R) by reflexivity.
  destruct (fdiv_correct x (f_of_Z k) Fx) as [Bd Fd].
  - rewrite Bk. lra.
  - rewrite Bk, Bx, Rabs_pos_eq by lra. lra.
  - rewrite Bk, Bx in Bd.
    assert (0 <= rnd64 (IZR q / IZR k))%R by (apply (@rnd_nonneg 53 1024 _); lra).
    assert (rnd64 (IZR q / IZR k) <= 1)%R by (apply (@rnd_le_int 53 1024 _ _ _ 1); [lia|lra]).
    destruct (fmul_correct (fdiv x (f_of_Z k)) (f_of_Z 255) Fd F5) as [Bm Fm].
    + rewrite Bd, B5, Rabs_pos_eq by lra. lra.
    + rewrite Bm, Bd, B5. reflexivity.
Qed.

Lemma scale_byte_level k (x : f64) q : 1 <= k <= 254 -> 0 <= q <= k -> is_finite x = true -> B2R x = IZR q ->
  scale_byte k x = level_byte k q.
Proof.
  intros Hk Hq Fx Bx. unfold level_byte, scale_byte. f_equal. unfold ftrunc.
  destruct (@f_of_Z_exact 53 1024 _ _ q) as [Bq Fq]; [lia|].
  apply eq_IZR. rewrite !Btrunc_correct by exact emax1024.
  rewrite (div_mul_val k x q), (div_mul_val k (f_of_Z q) q); auto.
Qed.

(** All levels of all bit widths: a finite table, computed by the kernel. *)
Definition levels_check (k : Z) : bool :=
  forallb (fun q => let b := level_byte k q in
    (0 <=? b) && (b <=? 255) && (Z.abs (b * k - 255 * q) <=? k)
      && (if q =? k then b =? 255 else b <? level_byte k (q + 1))
      && (if q =? 0 then b =? 0 else true)) (zrange (k + 1)).
Lemma levels_ok : forallb (fun bits => levels_check (2 ^ bits - 2)) [2;3;4;5;6;7;8] = true.
Proof. vm_compute. reflexivity. Qed.

Lemma level_facts bits q : 2 <= bits <= 8 -> 0 <= q <= 2 ^ bits - 2 ->
  let k := 2 ^ bits - 2 in
  0 <= level_byte k q <= 255 /\ Z.abs (level_byte k q * k - 255 * q) <= k /\
  (q < k -> level_byte k q < level_byte k (q + 1)) /\ (q = 0 -> level_byte k q = 0) /\
  (q = k -> level_byte k q = 255).
Proof.
  intros Hb Hq k. pose proof levels_ok as H. rewrite forallb_forall in H.
  assert (Hin : In bits [2;3;4;5;6;7;8]).
  { simpl. lia. }
  specialize (H bits Hin). unfold levels_check in H. rewrite forallb_forall in H.
  specialize (H q). rewrite zrange_In in H. specialize (H ltac:(lia)). cbv zeta in H. fold k in H.
  rewrite !andb_true_iff in H. destruct H as ((((H1 & H2) & H3) & H4) & H5).
  apply Z.leb_le in H1, H2, H3.
  destruct (Z.eqb_spec q k); destruct (Z.eqb_spec q 0); try apply Z.eqb_eq in H4;
    try apply Z.eqb_eq in H5; try apply Z.ltb_lt in H4; repeat split; auto; try lia.
Qed.

Lemma level_mono bits q1 q2 : 2 <= bits <= 8 -> 0 <= q1 <= q2 -> q2 <= 2 ^ bits - 2 ->
  level_byte (2 ^ bits - 2) q1 <= level_byte (2 ^ bits - 2) q2.
Proof.
  intros Hb Hq Hk.
  assert (H : forall d, 0 <= d -> q1 + d <= 2 ^ bits - 2 ->
    level_byte (2 ^ bits - 2) q1 <= level_byte (2 ^ bits - 2) (q1 + d)).
  { intros d Hd. pattern d. apply natlike_ind; auto.
    - rewrite Z.add_0_r. lia.
    - intros x Hx IH Hle. specialize (IH ltac:(lia)).
      destruct (level_facts bits (q1 + x) Hb ltac:(lia)) as (_ & _ & L & _ & _).
      specialize (L ltac:(lia)). replace (q1 + Z.succ x) with (q1 + x + 1) by lia. lia. }
  specialize (H (q2 - q1) ltac:(lia)). replace (q1 + (q2 - q1)) with q2 in H by lia. apply H. lia.
Qed.

(** One element. *)
Definition level_of (bits : Z) (x : f64) : Z := ZnearestE (rnd64 (B2R x * IZR (2 ^ bits - 2))).
Definition byte_of (bits : Z) (x : f64) : Z := scale_byte (2 ^ bits - 2) (quantize1 (2 ^ bits - 2) x).

Lemma pow_bits bits : 2 <= bits <= 8 -> 2 <= 2 ^ bits - 2 <= 254.
Proof.
  intros H. assert (In bits [2;3;4;5;6;7;8]) by (simpl; lia). simpl in H0.
  decompose [or] H0; subst; simpl; lia.
Qed.

Lemma byte_of_level bits x : 2 <= bits <= 8 -> is_finite x = true -> (0 <= B2R x <= 1)%R ->
  byte_of bits x = level_byte (2 ^ bits - 2) (level_of bits x) /\ 0 <= level_of bits x <= 2 ^ bits - 2.
Proof.
  intros Hb Fx Bx. pose proof (pow_bits bits Hb).
  destruct (quantize1_ok (2 ^ bits - 2) x ltac:(lia) Fx Bx) as (H1 & H2 & H3 & _).
  split; auto. unfold byte_of. apply scale_byte_level; auto. lia.
Qed.

Lemma fleb_iff (x y : f64) : is_finite x = true -> is_finite y = true ->
  (fleb x y = true <-> (B2R x <= B2R y)%R).
Proof.
  intros Fx Fy. unfold fleb. rewrite Bleb_correct by auto.
  destruct (Rle_bool_spec (B2R x) (B2R y)); split; auto; try discriminate; lra.
Qed.

(** Acceptance: exactly vectors of numbers in [0,1]. *)
Lemma in01_check (x : f64) :
  (fleb x f64_1 = true /\ fleb fzero x = true) <-> (is_finite x = true /\ (0 <= B2R x <= 1)%R).
Proof.
  destruct (@f_of_Z_exact 53 1024 _ _ 1) as [B1 F1]; [lia|]. fold f64_1 in B1, F1.
  split.
  - intros [H1 H2].
    assert (Fx : is_finite x = true).
    { destruct x as [s|s| |s m e Hb]; auto; try discriminate.
      destruct s; [vm_compute in H2|vm_compute in H1]; discriminate. }
    split; auto. apply fleb_iff in H1; auto. apply fleb_iff in H2; auto. simpl in H2. lra.
  - intros [Fx [H1 H2]]. split; apply fleb_iff; auto. lra.
Qed.

Theorem quantize_ok (p : list f64) (bits : Z) : 2 <= bits <= 8 -> p <> [] ->
  Forall (fun x => is_finite x = true /\ (0 <= B2R x <= 1)%R) p ->
  quantize_probabilities_into_byte p bits = Ret (map (byte_of bits) p).
Proof.
  intros Hb Hne HF. pose proof (pow_bits bits Hb). unfold quantize_probabilities_into_byte.
  destruct (Z.leb_spec bits 8); [|lia]. destruct (Z.leb_spec 1 bits); [|lia].
  destruct p as [|x0 p0] eqn:Ep; [congruence|]. rewrite <- Ep in *. cbn [py_assert bind].
  replace (forallb (fun x => fleb x f64_1) p) with true.
  2: { symmetry. apply forallb_forall. intros x Hx. rewrite Forall_forall in HF. now apply in01_check, HF. }
  replace (forallb (fun x => fleb fzero x) p) with true.
  2: { symmetry. apply forallb_forall. intros x Hx. rewrite Forall_forall in HF. now apply in01_check, HF. }
  cbn [py_assert bind]. replace (2 ^ bits - 1 - 1) with (2 ^ bits - 2) by lia.
  replace (forallb (fun x => fleb x (f_of_Z (2 ^ bits - 1))) (map (quantize1 (2 ^ bits - 2)) p)) with true.
  2: { symmetry. apply forallb_forall. intros y Hy. apply in_map_iff in Hy as (x & <- & Hx).
       rewrite Forall_forall in HF. destruct (HF x Hx) as [Fx Bx].
       destruct (quantize1_ok (2 ^ bits - 2) x ltac:(lia) Fx Bx) as (H1' & H2' & H3' & _).
       destruct (@f_of_Z_exact 53 1024 _ _ (2 ^ bits - 1)) as [Bs Fs]; [lia|].
       apply fleb_iff; auto. rewrite H1', Bs. apply IZR_le. lia. }
  cbn [py_assert bind]. rewrite map_map. reflexivity.
Qed.

Theorem byte_of_spec bits x : 2 <= bits <= 8 -> is_finite x = true -> (0 <= B2R x <= 1)%R ->
  0 <= byte_of bits x <= 255 /\
  (Rabs (IZR (byte_of bits x) / 255 - B2R x) <= (/ 2 + bpow radix2 (-46)) / IZR (2 ^ bits - 2) + / 255)%R /\
  (B2R x = 0%R -> byte_of bits x = 0) /\ (B2R x = 1%R -> byte_of bits x = 255).
Proof.
  intros Hb Fx Bx. pose proof (pow_bits bits Hb) as Hp.
  destruct (byte_of_level bits x Hb Fx Bx) as [E Hl].
  destruct (level_facts bits (level_of bits x) Hb Hl) as (L1 & L2 & _ & L4 & L5).
  destruct (quantize1_ok (2 ^ bits - 2) x ltac:(lia) Fx Bx) as (_ & _ & _ & Q).
  fold (level_of bits x) in Q. set (k := 2 ^ bits - 2) in *. set (q := level_of bits x) in *.
  rewrite E. set (b := level_byte k q) in *. split; [exact L1|]. split; [|split].
  - assert (Hk : (2 <= IZR k)%R) by (apply IZR_le; lia).
    assert (D1 : (Rabs (IZR b / 255 - IZR q / IZR k) <= / 255)%R).
    { replace (IZR b / 255 - IZR q / IZR k)%R with ((IZR (b * k - 255 * q)) / (255 * IZR k))%R.
      2: { rewrite minus_IZR, !mult_IZR. field. lra. }
      unfold Rdiv. rewrite Rabs_mult, (Rabs_pos_eq (/ _)).
      2: { left. apply Rinv_0_lt_compat. lra. }
      rewrite <- abs_IZR. apply IZR_le in L2.
      apply Rmult_le_reg_r with (255 * IZR k)%R; [lra|]. rewrite Rmult_assoc, Rinv_l by lra.
      replace (/ 255 * (255 * IZR k))%R with (IZR k) by field. lra. }
    assert (D2 : (Rabs (IZR q / IZR k - B2R x) <= (/ 2 + bpow radix2 (-46)) / IZR k)%R).
    { replace (IZR q / IZR k - B2R x)%R with ((IZR q - B2R x * IZR k) / IZR k)%R by (field; lra).
      unfold Rdiv. rewrite Rabs_mult, (Rabs_pos_eq (/ _)).
      2: { left. apply Rinv_0_lt_compat. lra. }
      apply Rmult_le_compat_r; [left; apply Rinv_0_lt_compat; lra|exact Q]. }
    replace (IZR b / 255 - B2R x)%R with ((IZR b / 255 - IZR q / IZR k) + (IZR q / IZR k - B2R x))%R by lra.
    eapply Rle_trans; [apply Rabs_triang|]. lra.
  - intros Hx. apply L4. unfold q, level_of. rewrite Hx, Rmult_0_l, round_0 by auto with typeclass_instances.
    apply (Zrnd_IZR ZnearestE).
  - intros Hx. apply L5. unfold q, level_of. fold k. rewrite Hx, Rmult_1_l.
    rewrite (@rnd_int 53 1024 _ _ k) by lia. apply (Zrnd_IZR ZnearestE).
Qed.

Theorem byte_of_mono bits x y : 2 <= bits <= 8 -> is_finite x = true -> is_finite y = true ->
  (0 <= B2R x)%R -> (B2R y <= 1)%R -> (B2R x <= B2R y)%R -> byte_of bits x <= byte_of bits y.
Proof.
  intros Hb Fx Fy H0 H1 Hle. pose proof (pow_bits bits Hb) as Hp.
  destruct (byte_of_level bits x Hb Fx ltac:(lra)) as [Ex Hx].
  destruct (byte_of_level bits y Hb Fy ltac:(lra)) as [Ey Hy].
  rewrite Ex, Ey. apply level_mono; auto; [|lia]. split; [lia|].
  apply quantize1_mono; auto. lia.
Qed.

(** At most 2^bits - 1 values. *)
Theorem byte_of_levels bits x : 2 <= bits <= 8 -> is_finite x = true -> (0 <= B2R x <= 1)%R ->
  In (byte_of bits x) (map (level_byte (2 ^ bits - 2)) (zrange (2 ^ bits - 1))).
Proof.
  intros Hb Fx Bx. destruct (byte_of_level bits x Hb Fx Bx) as [E H]. rewrite E. apply in_map.
  apply zrange_In. lia.
Qed.
