(** FFT: in exact arithmetic it is the discrete Fourier transform. *)
From Coq Require Import ZArith List Bool Lia Reals Lra.
From Verif.Base Require Import Res CInt ListX Loops Arith Kernels RealSum.
From Verif.Model Require Import Common Fft.
From Verif.Spec Require Import RealSpec FftSpec.
From Verif.Proof Require Import BitRev Fft.
Import ListNotations.
Open Scope R_scope.

Definition dr (m : Z) (y z : Z -> R) (k : Z) : R := sumr m (fun j => y j * cos (theta m j k) + z j * sin (theta m j k)).
Definition di (m : Z) (y z : Z -> R) (k : Z) : R := sumr m (fun j => z j * cos (theta m j k) - y j * sin (theta m j k)).

Lemma dr_ext m y z y' z' k : (forall j, (0 <= j < m)%Z -> y j = y' j /\ z j = z' j) -> dr m y z k = dr m y' z' k.
Proof. intros H. apply sumr_ext. intros j Hj. destruct (H j Hj) as [-> ->]. auto. Qed.
Lemma di_ext m y z y' z' k : (forall j, (0 <= j < m)%Z -> y j = y' j /\ z j = z' j) -> di m y z k = di m y' z' k.
Proof. intros H. apply sumr_ext. intros j Hj. destruct (H j Hj) as [-> ->]. auto. Qed.

Lemma sumr_even_odd m f : (0 <= m)%Z -> sumr (2 * m) f = sumr m (fun j => f (2 * j)%Z) + sumr m (fun j => f (2 * j + 1)%Z).
Proof.
  revert m. apply (sumr_ind (fun m => sumr (2 * m) f = sumr m (fun j => f (2 * j)%Z) + sumr m (fun j => f (2 * j + 1)%Z))).
  - rewrite !sumr_0 by lia. ring.
  - intros n Hn IH. replace (2 * (n + 1))%Z with (2 * n + 1 + 1)%Z by lia. rewrite !sumr_S by lia. rewrite IH. ring.
Qed.

Lemma theta_even m u k : (0 < m)%Z -> theta (2 * m) (2 * u) k = theta m u k.
Proof. intros H. unfold theta. rewrite !mult_IZR. apply IZR_lt in H. field. lra. Qed.
Lemma theta_odd m u k : (0 < m)%Z -> theta (2 * m) (2 * u + 1) k = theta m u k + PI * IZR k / IZR m.
Proof. intros H. unfold theta. rewrite plus_IZR, !mult_IZR. apply IZR_lt in H. field. lra. Qed.

Lemma dr_split m y z k : (0 < m)%Z ->
  dr (2 * m) y z k = dr m (fun u => y (2 * u)%Z) (fun u => z (2 * u)%Z) k +
    (dr m (fun u => y (2 * u + 1)%Z) (fun u => z (2 * u + 1)%Z) k * cos (PI * IZR k / IZR m) +
     di m (fun u => y (2 * u + 1)%Z) (fun u => z (2 * u + 1)%Z) k * sin (PI * IZR k / IZR m)).
Proof.
  intros Hm. unfold dr at 1. rewrite sumr_even_odd by lia. f_equal.
  - apply sumr_ext. intros. rewrite theta_even by auto. auto.
  - unfold dr, di. rewrite <- !sumr_scal_r, <- sumr_plus. apply sumr_ext. intros u Hu.
    rewrite theta_odd by auto. rewrite cos_plus, sin_plus. ring.
Qed.
Lemma di_split m y z k : (0 < m)%Z ->
  di (2 * m) y z k = di m (fun u => y (2 * u)%Z) (fun u => z (2 * u)%Z) k +
    (- dr m (fun u => y (2 * u + 1)%Z) (fun u => z (2 * u + 1)%Z) k * sin (PI * IZR k / IZR m) +
     di m (fun u => y (2 * u + 1)%Z) (fun u => z (2 * u + 1)%Z) k * cos (PI * IZR k / IZR m)).
Proof.
  intros Hm. unfold di at 1. rewrite sumr_even_odd by lia. f_equal.
  - apply sumr_ext. intros. rewrite theta_even by auto. auto.
  - unfold dr, di. rewrite Ropp_mult_distr_l_reverse. rewrite Ropp_mult_distr_r. rewrite <- !sumr_scal_r, <- sumr_plus. apply sumr_ext. intros u Hu.
    rewrite theta_odd by auto. rewrite cos_plus, sin_plus. ring.
Qed.

Lemma theta_period m u k : (0 < m)%Z -> theta m u (k + m) = theta m u k + 2 * IZR u * PI.
Proof. intros H. unfold theta. rewrite plus_IZR. apply IZR_lt in H. field. lra. Qed.
Lemma theta_per_cs m u k : (0 < m)%Z -> (0 <= u)%Z -> cos (theta m u (k + m)) = cos (theta m u k) /\ sin (theta m u (k + m)) = sin (theta m u k).
Proof.
  intros H Hu. rewrite theta_period by auto. replace (IZR u) with (INR (Z.to_nat u)) by (rewrite INR_IZR_INZ, Z2Nat.id by lia; auto).
  split; [apply cos_period|apply sin_period].
Qed.
Lemma dr_period m y z k : (0 < m)%Z -> dr m y z (k + m) = dr m y z k.
Proof. intros H. apply sumr_ext. intros u Hu. destruct (theta_per_cs m u k H ltac:(lia)) as [-> ->]. auto. Qed.
Lemma di_period m y z k : (0 < m)%Z -> di m y z (k + m) = di m y z k.
Proof. intros H. apply sumr_ext. intros u Hu. destruct (theta_per_cs m u k H ltac:(lia)) as [-> ->]. auto. Qed.
Lemma half_turn m k : (0 < m)%Z -> cos (PI * IZR (k + m) / IZR m) = - cos (PI * IZR k / IZR m) /\ sin (PI * IZR (k + m) / IZR m) = - sin (PI * IZR k / IZR m).
Proof.
  intros H. replace (PI * IZR (k + m) / IZR m) with (PI * IZR k / IZR m + PI).
  - split; [apply neg_cos|apply neg_sin].
  - rewrite plus_IZR. apply IZR_lt in H. field. lra.
Qed.

(** After the stages up to blocks of length h: entry p = b h + k is the k-th coefficient of the
    transform of every w-th sample, starting at the reversal of b. *)
Definition inv_re (n h : Z) (d : nat) (xr xi : Z -> R) (p : Z) : R :=
  let o := brev d (p / h) in dr h (fun j => xr (j * 2 ^ Z.of_nat d + o)%Z) (fun j => xi (j * 2 ^ Z.of_nat d + o)%Z) (p mod h).
Definition inv_im (n h : Z) (d : nat) (xr xi : Z -> R) (p : Z) : R :=
  let o := brev d (p / h) in di h (fun j => xr (j * 2 ^ Z.of_nat d + o)%Z) (fun j => xi (j * 2 ^ Z.of_nat d + o)%Z) (p mod h).

Definition is_table (n : Z) (c s : Z -> xreal) : Prop :=
  forall k, (0 <= k < n / 2)%Z -> c k = Fin (cos (2 * PI * IZR k / IZR n)) /\ s k = Fin (sin (2 * PI * IZR k / IZR n)).

Lemma split_pos h p : (0 < h)%Z -> (0 <= p)%Z ->
  let B := (p / (2 * h))%Z in let r := (p mod (2 * h))%Z in
  ((r < h)%Z -> (p / h = 2 * B)%Z /\ (p mod h = r)%Z /\ ((p + h) / h = 2 * B + 1)%Z /\ ((p + h) mod h = r)%Z) /\
  ((h <= r)%Z -> (p / h = 2 * B + 1)%Z /\ (p mod h = r - h)%Z /\ ((p - h) / h = 2 * B)%Z /\ ((p - h) mod h = r - h)%Z).
Proof.
  intros Hh Hp B r. pose proof (Z.div_mod p (2 * h) ltac:(lia)) as D. pose proof (Z.mod_pos_bound p (2 * h) ltac:(lia)) as M.
  fold B in D. fold r in D, M. split; intros Hr.
  - assert (E : p = (r + (2 * B) * h)%Z) by lia. assert (E2 : (p + h = r + (2 * B + 1) * h)%Z) by lia.
    rewrite E2. rewrite E. clearbody B r. rewrite !Z.div_add, !Z.mod_add by lia. rewrite Z.div_small, Z.mod_small by lia. lia.
  - assert (E : p = ((r - h) + (2 * B + 1) * h)%Z) by lia. assert (E2 : (p - h = (r - h) + (2 * B) * h)%Z) by lia.
    rewrite E2. rewrite E. clearbody B r. rewrite !Z.div_add, !Z.mod_add by lia. rewrite Z.div_small, Z.mod_small by lia. lia.
Qed.

Lemma stage_real n h d c s xr xi f g : (0 < h)%Z -> (n = h * 2 ^ Z.of_nat (S d))%Z -> is_table n c s ->
  (forall p, (0 <= p < n)%Z -> f p = Fin (inv_re n h (S d) xr xi p) /\ g p = Fin (inv_im n h (S d) xr xi p)) ->
  (forall p, (0 <= p < n)%Z ->
     stage_re real_arith n h c s f g p = Fin (inv_re n (2 * h) d xr xi p) /\
     stage_im real_arith n h c s f g p = Fin (inv_im n (2 * h) d xr xi p)).
Proof.
  intros Hh En Ht Hfg p Hp. rewrite Nat2Z.inj_succ, Z.pow_succ_r in En by lia.
  set (w := (2 ^ Z.of_nat d)%Z) in *. assert (Hw : (0 < w)%Z) by (apply Z.pow_pos_nonneg; lia).
  assert (Hst : (n / (2 * h) = w)%Z) by (rewrite En; replace (h * (2 * w))%Z with (w * (2 * h))%Z by ring; apply Z.div_mul; lia).
  assert (Hn2 : (n / 2 = w * h)%Z) by (rewrite En; replace (h * (2 * w))%Z with ((w * h) * 2)%Z by ring; apply Z.div_mul; lia).
  pose proof (split_pos h p Hh ltac:(lia)) as SP. cbv zeta in SP.
  assert (HB : (0 <= p / (2 * h) < w)%Z) by (split; [apply Z.div_pos; lia|apply Z.div_lt_upper_bound; nia]).
  pose proof (Z.div_mod p (2 * h) ltac:(lia)) as D. pose proof (Z.mod_pos_bound p (2 * h) ltac:(lia)) as M.
  unfold stage_re, stage_im, tw_re, tw_im. cbv zeta. rewrite Hst.
  unfold inv_re at 1, inv_im at 1. cbv zeta. fold w. rewrite dr_split, di_split by lia.
  (* the two halves *)
  assert (XE : forall j, (2 * j * w + brev d (p / (2 * h)) = j * 2 ^ Z.of_nat (S d) + brev (S d) (2 * (p / (2 * h))))%Z).
  { intros. rewrite brev_even, Nat2Z.inj_succ, Z.pow_succ_r by lia. fold w. ring. }
  assert (XO : forall j, ((2 * j + 1) * w + brev d (p / (2 * h)) = j * 2 ^ Z.of_nat (S d) + brev (S d) (2 * (p / (2 * h)) + 1))%Z).
  { intros. rewrite brev_odd, Nat2Z.inj_succ, Z.pow_succ_r by lia. fold w. ring. }
  set (B := (p / (2 * h))%Z) in *. set (r := (p mod (2 * h))%Z) in *.
  destruct (Z.ltb_spec r h) as [Hr|Hr].
  - destruct SP as [SP _]. specialize (SP Hr). destruct SP as (P1 & P2 & Q1 & Q2).
    destruct (Hfg p Hp) as [-> ->]. destruct (Hfg (p + h)%Z ltac:(nia)) as [-> ->].
    rewrite P2. destruct (Ht (r * w)%Z ltac:(nia)) as [-> ->].
    cbn [nadd nmul nneg nsub real_arith lift2 lift1].
    unfold inv_re, inv_im. cbv zeta. rewrite P1, P2, Q1, Q2.
    replace (2 * PI * IZR (r * w) / IZR n) with (PI * IZR r / IZR h).
    2:{ rewrite En, !mult_IZR. apply IZR_lt in Hh. apply IZR_lt in Hw. field. lra. }
    split; f_equal; f_equal; [apply dr_ext| |apply di_ext|].
    1,3: intros; rewrite XE; auto.
    1: f_equal; f_equal; [apply dr_ext|apply di_ext]; intros; rewrite XO; auto.
    f_equal; f_equal; [f_equal; apply dr_ext|apply di_ext]; intros; rewrite XO; auto.
  - destruct SP as [_ SP]. specialize (SP Hr). destruct SP as (P1 & P2 & Q1 & Q2).
    destruct (Hfg p Hp) as [-> ->]. destruct (Hfg (p - h)%Z ltac:(nia)) as [-> ->].
    rewrite P2. destruct (Ht ((r - h) * w)%Z ltac:(nia)) as [-> ->].
    cbn [nadd nmul nneg nsub real_arith lift2 lift1].
    unfold inv_re, inv_im. cbv zeta. rewrite P1, P2, Q1, Q2.
    replace (2 * PI * IZR ((r - h) * w) / IZR n) with (PI * IZR (r - h) / IZR h).
    2:{ rewrite En, !mult_IZR. apply IZR_lt in Hh. apply IZR_lt in Hw. field. lra. }
    set (t := (r - h)%Z) in *. replace r with (t + h)%Z by (unfold t; ring).
    rewrite !dr_period, !di_period by auto. destruct (half_turn h t Hh) as [-> ->].
    rewrite (dr_ext h (fun u => xr (2 * u * w + brev d B)%Z) (fun u => xi (2 * u * w + brev d B)%Z) _ _ t (fun j Hj => conj (f_equal xr (XE j)) (f_equal xi (XE j)))).
    rewrite (di_ext h (fun u => xr (2 * u * w + brev d B)%Z) (fun u => xi (2 * u * w + brev d B)%Z) _ _ t (fun j Hj => conj (f_equal xr (XE j)) (f_equal xi (XE j)))).
    rewrite (dr_ext h (fun u => xr ((2 * u + 1) * w + brev d B)%Z) (fun u => xi ((2 * u + 1) * w + brev d B)%Z) _ _ t (fun j Hj => conj (f_equal xr (XO j)) (f_equal xi (XO j)))).
    rewrite (di_ext h (fun u => xr ((2 * u + 1) * w + brev d B)%Z) (fun u => xi ((2 * u + 1) * w + brev d B)%Z) _ _ t (fun j Hj => conj (f_equal xr (XO j)) (f_equal xi (XO j)))).
    split; f_equal; ring.
Qed.

Lemma stages_real n c s xr xi d : forall h f g, (0 < h)%Z -> (n = h * 2 ^ Z.of_nat d)%Z -> is_table n c s ->
  (forall p, (0 <= p < n)%Z -> f p = Fin (inv_re n h d xr xi p) /\ g p = Fin (inv_im n h d xr xi p)) ->
  (forall p, (0 <= p < n)%Z ->
     fst (stages real_arith n c s d h (f, g)) p = Fin (inv_re n n 0 xr xi p) /\
     snd (stages real_arith n c s d h (f, g)) p = Fin (inv_im n n 0 xr xi p)).
Proof.
  induction d; intros h f g Hh En Ht Hfg p Hp.
  - cbn [stages fst snd]. cbn in En. assert (h = n) as -> by lia. auto.
  - cbn [stages]. apply IHd; try lia; auto.
    + rewrite En, Nat2Z.inj_succ, Z.pow_succ_r by lia. ring.
    + intros q Hq. apply (stage_real n h d c s xr xi f g); auto.
Qed.

Lemma forward_real n m c s xr xi tl : (0 <= m < 32)%Z -> n = (2 ^ m)%Z -> (tl = n / 2)%Z -> is_table n c s ->
  zlen xr = n -> zlen xi = n ->
  eml_fft_forward real_arith (mk_fft real_arith tl (buf (n / 2) s) (buf (n / 2) c)) (map Fin xr) (map Fin xi) n =
  Ret (EmlOk, map (fun k => Fin (dft_re n xr xi k)) (zrange n), map (fun k => Fin (dft_im n xr xi k)) (zrange n)).
Proof.
  intros Hm En Et Ht Lr Li.
  assert (Rr : map Fin xr = buf n (fun p => Fin (entry xr p))).
  { rewrite <- (map_map (entry xr) Fin (zrange n)) || unfold buf. rewrite <- (map_map (entry xr) Fin). f_equal.
    rewrite <- Lr. symmetry. exact (map_znth 0 xr). }
  assert (Ri : map Fin xi = buf n (fun p => Fin (entry xi p))).
  { unfold buf. rewrite <- (map_map (entry xi) Fin). f_equal.
    rewrite <- Li. symmetry. exact (map_znth 0 xi). }
  rewrite Rr, Ri.
  pose proof (forward_ok real_arith n m tl c s (fun p => Fin (entry xr p)) (fun p => Fin (entry xi p)) Hm En Et) as F.
  cbv zeta in F. etransitivity; [exact F|]. clear F.
  match goal with |- context[stages real_arith n c s ?d 1%Z (?f, ?g)] =>
    pose proof (stages_real n c s (entry xr) (entry xi) d 1 f g ltac:(lia)) as SR end.
  assert (0 < n)%Z by (subst n; apply Z.pow_pos_nonneg; lia).
  rewrite Z2Nat.id in SR by lia. specialize (SR ltac:(lia) Ht).
  assert (T00 : theta 1 0 0 = 0) by (unfold theta; field).
  assert (SR' := SR ltac:(
    intros p Hp; unfold inv_re, inv_im; cbv zeta; rewrite Z.div_1_r, Z.mod_1_r, Z2Nat.id by lia;
    rewrite reverse_bits_brev by lia; unfold dr, di;
    rewrite (sumr_delta 1 0) by (lia || (intros; lia)); rewrite (sumr_delta 1 0) by (lia || (intros; lia));
    rewrite T00, cos_0, sin_0; rewrite Z.mul_0_l, Z.add_0_l;
    split; f_equal; ring)).
  clear SR. rename SR' into SR.
  assert (E : forall p, (0 <= p < n)%Z -> inv_re n n 0 (entry xr) (entry xi) p = dft_re n xr xi p /\ inv_im n n 0 (entry xr) (entry xi) p = dft_im n xr xi p).
  { intros p Hp. unfold inv_re, inv_im. cbn [brev]. rewrite Z.mod_small by lia. unfold dft_re, dft_im.
    split; [apply sumr_ext|apply sumr_ext]; intros j Hj; change (2 ^ Z.of_nat 0)%Z with 1%Z; rewrite Z.mul_1_r, Z.add_0_r; auto. }
  apply f_equal. apply f_equal2; [apply f_equal2; [reflexivity|]|]; apply (buf_ext n); intros p Hp;
    destruct (SR p Hp) as [S1 S2]; destruct (E p Hp) as [E1 E2]; [rewrite <- E1; exact S1|rewrite <- E2; exact S2].
Qed.

Lemma fill_table n : (0 < n)%Z -> is_table n
   (fun i => t_cos real_trig (fft_angle real_arith real_trig i n)) (fun i => t_sin real_trig (fft_angle real_arith real_trig i n)).
Proof. intros Hn k Hk. split; reflexivity. Qed.

Lemma fft_dft n m s0 c0 xr xi : (0 <= m < 32)%Z -> n = (2 ^ m)%Z -> zlen s0 = (n / 2)%Z -> zlen c0 = (n / 2)%Z -> zlen xr = n -> zlen xi = n ->
  exists t, eml_fft_fill real_arith real_trig (mk_fft real_arith (n / 2) s0 c0) n = Ret (EmlOk, t) /\
  eml_fft_forward real_arith t (map Fin xr) (map Fin xi) n =
  Ret (EmlOk, map (fun k => Fin (dft_re n xr xi k)) (zrange n), map (fun k => Fin (dft_im n xr xi k)) (zrange n)).
Proof.
  intros Hm En L1 L2 Lr Li. eexists. split.
  - apply fill_ok; auto. subst n. split; [apply Z.pow_nonneg; lia|apply Z.pow_lt_mono_r; lia].
  - apply (forward_real n m); auto. apply fill_table. subst n; apply Z.pow_pos_nonneg; lia.
Qed.
