(** FFT in float32: the rounding error of every output. *)
From Coq Require Import ZArith List Bool Lia Reals Lra Rgeom.
From Flocq Require Import Core BinarySingleNaN.
From Verif.Base Require Import Res CInt ListX Loops Float FloatOrder Arith Kernels RealSum.
From Verif.Model Require Import Common Fft.
From Verif.Spec Require Import RealSpec RoundingSpec FftSpec.
From Verif.Proof Require Import FloatMean FloatErr BitRev Fft FftReal.
Import ListNotations.
Open Scope R_scope.

(** ** The modulus of a pair *)
Lemma cm_sq x y : modulus x y * modulus x y = x * x + y * y.
Proof. unfold modulus. apply sqrt_sqrt. nra. Qed.
Lemma cm_pos x y : 0 <= modulus x y.
Proof. apply sqrt_pos. Qed.
Lemma cm_le x y M : 0 <= M -> x * x + y * y <= M * M -> modulus x y <= M.
Proof. intros HM H. pose proof (cm_sq x y). pose proof (cm_pos x y). nra. Qed.
Lemma cm_tri a b c d : modulus (a + c) (b + d) <= modulus a b + modulus c d.
Proof.
  pose proof (cm_sq a b) as Q1. pose proof (cm_sq c d) as Q2. pose proof (cm_pos a b) as P1. pose proof (cm_pos c d) as P2.
  apply cm_le; [lra|]. set (m := modulus a b) in *. set (k := modulus c d) in *.
  assert (K : a * c + b * d <= m * k).
  { destruct (Rle_dec (a * c + b * d) 0) as [N|N]; [assert (0 <= m * k) by (apply Rmult_le_pos; auto); lra|].
    assert (0 <= m * k) by (apply Rmult_le_pos; auto).
    assert ((a * c + b * d) * (a * c + b * d) <= (m * k) * (m * k)).
    { replace (m * k * (m * k)) with ((m * m) * (k * k)) by ring. rewrite Q1, Q2. pose proof (Rle_0_sqr (a * d - b * c)) as Z0. unfold Rsqr in Z0. lra. }
    nra. }
  lra.
Qed.
Lemma cm_x x y : Rabs x <= modulus x y.
Proof. pose proof (cm_sq x y). pose proof (cm_pos x y). apply Rabs_le. split; nra. Qed.
Lemma cm_y x y : Rabs y <= modulus x y.
Proof. pose proof (cm_sq x y). pose proof (cm_pos x y). apply Rabs_le. split; nra. Qed.
Lemma cm_both x y M : Rabs x <= M -> Rabs y <= M -> modulus x y <= 3 / 2 * M.
Proof.
  intros Hx Hy. pose proof (Rabs_pos x). apply cm_le; [lra|]. apply Rabs_le_inv in Hx. apply Rabs_le_inv in Hy.
  assert (x * x <= M * M) by nra. assert (y * y <= M * M) by nra. nra.
Qed.
Lemma cm_scale x y a b k : Rabs a <= k -> Rabs b <= k -> modulus (x * a) (y * b) <= k * modulus x y.
Proof.
  intros Ha Hb. pose proof (Rabs_pos a). pose proof (cm_sq x y) as Q. pose proof (cm_pos x y) as P.
  apply cm_le; [apply Rmult_le_pos; lra|].
  replace (k * modulus x y * (k * modulus x y)) with ((k * k) * (modulus x y * modulus x y)) by ring. rewrite Q.
  apply Rabs_le_inv in Ha. apply Rabs_le_inv in Hb.
  assert (a * a <= k * k) by nra. assert (b * b <= k * k) by nra.
  assert (0 <= x * x) by nra. assert (0 <= y * y) by nra. clear - H0 H1 H2 H3. nra.
Qed.
Lemma cm_rot x y c s : modulus (x * c + y * s) (- x * s + y * c) = modulus x y * modulus c s.
Proof.
  unfold modulus. rewrite <- sqrt_mult by nra. f_equal. ring.
Qed.
Lemma cs_aux a b c s m k : 0 <= a -> 0 <= b -> 0 <= c -> 0 <= s -> 0 <= m -> 0 <= k -> k * k = a * a + b * b -> m * m = c * c + s * s ->
  a * c + b * s <= m * k.
Proof.
  intros Ha Hb Hc Hs Pm Pk Q1 Q2.
  assert (S : (a * c + b * s) * (a * c + b * s) <= (m * k) * (m * k)).
  { replace (m * k * (m * k)) with ((k * k) * (m * m)) by ring. rewrite Q1, Q2. pose proof (Rle_0_sqr (a * s - b * c)) as Z0. unfold Rsqr in Z0. lra. }
  assert (0 <= m * k) by (apply Rmult_le_pos; auto). assert (0 <= a * c + b * s) by (apply Rplus_le_le_0_compat; apply Rmult_le_pos; auto). nra.
Qed.
Lemma cm_cs a b c s : Rabs (a * c) + Rabs (b * s) <= modulus a b * modulus c s.
Proof.
  pose proof (cm_sq a b) as Q1. pose proof (cm_sq c s) as Q2. pose proof (cm_pos a b) as P1. pose proof (cm_pos c s) as P2.
  rewrite !Rabs_mult. pose proof (Rabs_pos a). pose proof (Rabs_pos b). pose proof (Rabs_pos c). pose proof (Rabs_pos s).
  assert (A1 : Rabs a * Rabs a = a * a) by (rewrite <- Rabs_mult; apply Rabs_pos_eq; nra).
  assert (A2 : Rabs b * Rabs b = b * b) by (rewrite <- Rabs_mult; apply Rabs_pos_eq; nra).
  assert (A3 : Rabs c * Rabs c = c * c) by (rewrite <- Rabs_mult; apply Rabs_pos_eq; nra).
  assert (A4 : Rabs s * Rabs s = s * s) by (rewrite <- Rabs_mult; apply Rabs_pos_eq; nra).
  rewrite <- A1, <- A2 in Q1. rewrite <- A3, <- A4 in Q2. clear A1 A2 A3 A4.
  rewrite (Rmult_comm (modulus a b)). apply (cs_aux (Rabs a) (Rabs b) (Rabs c) (Rabs s)); auto.
Qed.
Lemma cm_opp x y : modulus (- x) (- y) = modulus x y.
Proof. unfold modulus. f_equal. ring. Qed.
Lemma cm_swap_opp x y : modulus (- x) y = modulus x y.
Proof. unfold modulus. f_equal. ring. Qed.
Lemma cm_swap x y : modulus x y = modulus y x.
Proof. unfold modulus. f_equal. ring. Qed.
Lemma cm_unit t : modulus (cos t) (sin t) = 1.
Proof. unfold modulus. pose proof (sin2_cos2 t) as H. unfold Rsqr in H. rewrite Rplus_comm, H. apply sqrt_1. Qed.
Lemma cm_eq a b c d : a = c -> b = d -> modulus a b = modulus c d.
Proof. now intros -> ->. Qed.

(** ** The product with the table entry *)
Definition small : R := bpow radix2 (-120).
Lemma small_eta : bpow radix2 (-150) = / 1073741824 * small.
Proof. unfold small. change (/ 1073741824) with (bpow radix2 (-30)). rewrite <- bpow_plus. reflexivity. Qed.

Lemma tw_err (a b c s : f32) M : is_finite a = true -> is_finite b = true -> is_finite c = true -> is_finite s = true ->
  modulus (B2R a) (B2R b) <= M -> modulus (B2R c) (B2R s) <= 5 / 4 -> small <= M -> M <= 2 * max32 ->
  is_finite (fadd (fmul a c) (fmul b s)) = true /\
  Rabs (B2R (fadd (fmul a c) (fmul b s)) - (B2R a * B2R c + B2R b * B2R s)) <= 13 / 5 * u24 * M.
Proof.
  intros Fa Fb Fc Fs HM Hw Lo Hi. pose proof (cm_cs (B2R a) (B2R b) (B2R c) (B2R s)) as CS. pose proof max32_pos as MP. pose proof max32_126 as M126.
  assert (P : Rabs (B2R a * B2R c) + Rabs (B2R b * B2R s) <= 5 / 4 * M).
  { eapply Rle_trans; [exact CS|]. pose proof (cm_pos (B2R a) (B2R b)). pose proof (cm_pos (B2R c) (B2R s)).
    replace (5 / 4 * M) with (M * (5 / 4)) by ring. apply Rmult_le_compat; lra. }
  clear CS HM Hw. pose proof (Rabs_pos (B2R a * B2R c)) as A0. pose proof (Rabs_pos (B2R b * B2R s)) as B0.
  destruct (fmul32 a c Fa Fc) as (F1 & e1 & n1 & E1 & N1 & V1); [rewrite M126; lra|].
  destruct (fmul32 b s Fb Fs) as (F2 & e2 & n2 & E2 & N2 & V2); [rewrite M126; lra|].
  rewrite small_eta in N1, N2. assert (SP : 0 < small) by apply bpow_gt_0.
  set (p := B2R a * B2R c) in *. set (q := B2R b * B2R s) in *.
  assert (D1 : Rabs (B2R (fmul a c) - p) <= u24 * Rabs p + / 1073741824 * small).
  { rewrite V1. replace (p * (1 + e1) + n1 - p) with (e1 * p + n1) by ring. eapply Rle_trans; [apply Rabs_triang|].
    rewrite Rabs_mult. assert (Rabs e1 * Rabs p <= u24 * Rabs p) by (apply Rmult_le_compat_r; auto). lra. }
  assert (D2 : Rabs (B2R (fmul b s) - q) <= u24 * Rabs q + / 1073741824 * small).
  { rewrite V2. replace (q * (1 + e2) + n2 - q) with (e2 * q + n2) by ring. eapply Rle_trans; [apply Rabs_triang|].
    rewrite Rabs_mult. assert (Rabs e2 * Rabs q <= u24 * Rabs q) by (apply Rmult_le_compat_r; auto). lra. }
  clear V1 V2 E1 E2 N1 N2.
  assert (D : Rabs (B2R (fmul a c) + B2R (fmul b s) - (p + q)) <= u24 * (5 / 4 * M) + / 536870912 * small).
  { replace (B2R (fmul a c) + B2R (fmul b s) - (p + q)) with ((B2R (fmul a c) - p) + (B2R (fmul b s) - q)) by ring.
    eapply Rle_trans; [apply Rabs_triang|]. lra. }
  assert (PQ : Rabs (p + q) <= 5 / 4 * M) by (eapply Rle_trans; [apply Rabs_triang|]; lra).
  destruct (fadd32 (fmul a c) (fmul b s) F1 F2) as (F & e3 & E3 & V3).
  { rewrite M126. replace (B2R (fmul a c) + B2R (fmul b s)) with ((B2R (fmul a c) + B2R (fmul b s) - (p + q)) + (p + q)) by ring.
    eapply Rle_trans; [apply Rabs_triang|]. lra. }
  split; [exact F|]. rewrite V3. set (v := B2R (fmul a c) + B2R (fmul b s)) in *.
  replace (v * (1 + e3) - (p + q)) with ((v - (p + q)) * (1 + e3) + (p + q) * e3) by ring.
  eapply Rle_trans; [apply Rabs_triang|]. rewrite !Rabs_mult.
  assert (Rabs (1 + e3) <= 1 + u24) by (eapply Rle_trans; [apply Rabs_triang|]; rewrite Rabs_R1; lra).
  assert (Rabs (v - (p + q)) * Rabs (1 + e3) <= (u24 * (5 / 4 * M) + / 536870912 * small) * (1 + u24)) by (apply Rmult_le_compat; auto using Rabs_pos).
  assert (Rabs (p + q) * Rabs e3 <= 5 / 4 * M * u24) by (apply Rmult_le_compat; auto using Rabs_pos).
  lra.
Qed.

(** A sum or difference, rounded. *)
Lemma cm_round v1 v2 r1 r2 V1 V2 e1 e2 D Y : Rabs e1 <= u24 -> Rabs e2 <= u24 -> r1 = v1 * (1 + e1) -> r2 = v2 * (1 + e2) ->
  modulus (v1 - V1) (v2 - V2) <= D -> modulus V1 V2 <= Y -> modulus (r1 - V1) (r2 - V2) <= (1 + u24) * D + u24 * Y.
Proof.
  intros E1 E2 -> -> HD HY.
  rewrite (cm_eq _ _ ((v1 - V1) * (1 + e1) + V1 * e1) ((v2 - V2) * (1 + e2) + V2 * e2)) by ring.
  eapply Rle_trans; [apply cm_tri|]. apply Rplus_le_compat.
  - eapply Rle_trans; [apply (cm_scale _ _ _ _ (1 + u24))|].
    + eapply Rle_trans; [apply Rabs_triang|]; rewrite Rabs_R1; lra.
    + eapply Rle_trans; [apply Rabs_triang|]; rewrite Rabs_R1; lra.
    + apply Rmult_le_compat_l; lra.
  - eapply Rle_trans; [apply (cm_scale _ _ _ _ u24); auto|]. apply Rmult_le_compat_l; lra.
Qed.

Lemma butterfly_err (rj ij rl il c s : f32) Rj Ij Rl Il C S tau X Q :
  is_finite rj = true -> is_finite ij = true -> is_finite rl = true -> is_finite il = true -> is_finite c = true -> is_finite s = true ->
  modulus Rj Ij <= X -> modulus Rl Il <= X -> modulus C S = 1 -> Rabs (B2R c - C) <= tau -> Rabs (B2R s - S) <= tau -> tau <= / 64 ->
  modulus (B2R rj - Rj) (B2R ij - Ij) <= X * (Q - 1) -> modulus (B2R rl - Rl) (B2R il - Il) <= X * (Q - 1) ->
  1 <= Q <= 2 -> small <= X <= max32 ->
  let tr := fadd (fmul rl c) (fmul il s) in let ti := fadd (fmul (Bopp rl) s) (fmul il c) in
  let TR := Rl * C + Il * S in let TI := - Rl * S + Il * C in
  let E := 2 * X * (Q * (1 + (tau + 4 * u24)) - 1) in
  (is_finite (fadd rj tr) = true /\ is_finite (fadd ij ti) = true /\
   modulus (B2R (fadd rj tr) - (Rj + TR)) (B2R (fadd ij ti) - (Ij + TI)) <= E /\ modulus (Rj + TR) (Ij + TI) <= 2 * X) /\
  (is_finite (fsub rj tr) = true /\ is_finite (fsub ij ti) = true /\
   modulus (B2R (fsub rj tr) - (Rj - TR)) (B2R (fsub ij ti) - (Ij - TI)) <= E /\ modulus (Rj - TR) (Ij - TI) <= 2 * X).
Proof.
  intros Frj Fij Frl Fil Fc Fs Xj Xl U Dc Ds Ht Ej El HQ HX tr ti TR TI E.
  pose proof max32_pos as MP. pose proof max32_126 as M126. assert (T0 : 0 <= tau) by (pose proof (Rabs_pos (B2R c - C)); lra).
  assert (SP : 0 < small) by apply bpow_gt_0.
  assert (XQ : X <= X * Q <= 2 * X) by (split; nra).
  (* magnitudes *)
  assert (ML : modulus (B2R rl) (B2R il) <= X * Q).
  { rewrite (cm_eq _ _ ((B2R rl - Rl) + Rl) ((B2R il - Il) + Il)) by ring. eapply Rle_trans; [apply cm_tri|]. lra. }
  assert (MJ : modulus (B2R rj) (B2R ij) <= X * Q).
  { rewrite (cm_eq _ _ ((B2R rj - Rj) + Rj) ((B2R ij - Ij) + Ij)) by ring. eapply Rle_trans; [apply cm_tri|]. lra. }
  pose proof (cm_both _ _ _ Dc Ds) as DW.
  assert (MW : modulus (B2R c) (B2R s) <= 5 / 4).
  { rewrite (cm_eq _ _ ((B2R c - C) + C) ((B2R s - S) + S)) by ring. eapply Rle_trans; [apply cm_tri|]. lra. }
  (* the product *)
  destruct (tw_err rl il c s (X * Q)) as (Ftr & Dtr); auto; try lra.
  destruct (tw_err (Bopp rl) il s c (X * Q)) as (Fti & Dti); auto; try lra.
  { now rewrite is_finite_Bopp. }
  { rewrite B2R_Bopp, cm_swap_opp. lra. }
  { rewrite cm_swap. lra. }
  rewrite B2R_Bopp in Dti. fold tr in Ftr, Dtr. fold ti in Fti, Dti.
  pose proof (cm_both _ _ _ Dtr Dti) as DT.
  assert (TP : modulus (B2R tr - TR) (B2R ti - TI) <= 3 / 2 * (13 / 5 * u24 * (X * Q)) + (X * Q * (3 / 2 * tau) + X * (Q - 1))).
  { rewrite (cm_eq _ _
      ((B2R tr - (B2R rl * B2R c + B2R il * B2R s)) +
        ((B2R rl * (B2R c - C) + B2R il * (B2R s - S)) + ((B2R rl - Rl) * C + (B2R il - Il) * S)))
      ((B2R ti - (- B2R rl * B2R s + B2R il * B2R c)) +
        ((- B2R rl * (B2R s - S) + B2R il * (B2R c - C)) + (- (B2R rl - Rl) * S + (B2R il - Il) * C)))) by (unfold TR, TI; ring).
    eapply Rle_trans; [apply cm_tri|]. apply Rplus_le_compat; [exact DT|].
    eapply Rle_trans; [apply cm_tri|]. rewrite !cm_rot, U, Rmult_1_r. apply Rplus_le_compat; [|exact El].
    apply Rmult_le_compat; auto using cm_pos. }
  assert (TX : modulus TR TI <= X) by (unfold TR, TI; rewrite cm_rot, U; lra).
  assert (MT : modulus (B2R tr) (B2R ti) <= 4 * X).
  { rewrite (cm_eq _ _ ((B2R tr - TR) + TR) ((B2R ti - TI) + TI)) by ring. eapply Rle_trans; [apply cm_tri|].
    assert (X * Q * (3 / 2 * tau) <= 2 * X * (3 / 128)) by (apply Rmult_le_compat; lra). lra. }
  set (D := 3 / 2 * (13 / 5 * u24 * (X * Q)) + (X * Q * (3 / 2 * tau) + X * (Q - 1))) in *.
  assert (FIN : (1 + u24) * (X * (Q - 1) + D) + u24 * (2 * X) <= E).
  { unfold D, E.
    replace ((1 + u24) * (X * (Q - 1) + (3 / 2 * (13 / 5 * u24 * (X * Q)) + (X * Q * (3 / 2 * tau) + X * (Q - 1)))) + u24 * (2 * X))
      with (2 * X * (Q * ((1 + u24) * (1 + 3 / 4 * tau + 39 / 20 * u24)) - 1)) by field.
    apply Rmult_le_compat_l; [lra|]. apply Rplus_le_compat_r. apply Rmult_le_compat_l; lra. }
  pose proof (cm_x (B2R rj) (B2R ij)) as B1. pose proof (cm_y (B2R rj) (B2R ij)) as B2.
  pose proof (cm_x (B2R tr) (B2R ti)) as B3. pose proof (cm_y (B2R tr) (B2R ti)) as B4.
  clear Dtr Dti DT ML MW DW Dc Ds.
  assert (S1 : modulus (Rj + TR) (Ij + TI) <= 2 * X) by (eapply Rle_trans; [apply cm_tri|]; lra).
  assert (S2 : modulus (Rj - TR) (Ij - TI) <= 2 * X) by (unfold Rminus; eapply Rle_trans; [apply cm_tri|]; rewrite cm_opp; lra).
  split.
  - destruct (fadd32 rj tr Frj Ftr) as (F1 & e1 & E1 & V1). { rewrite M126. eapply Rle_trans; [apply Rabs_triang|]. lra. }
    destruct (fadd32 ij ti Fij Fti) as (F2 & e2 & E2 & V2). { rewrite M126. eapply Rle_trans; [apply Rabs_triang|]. lra. }
    split; [exact F1|]. split; [exact F2|]. split; [|exact S1].
    eapply Rle_trans; [|exact FIN].
    apply (cm_round _ _ _ _ _ _ e1 e2 (X * (Q - 1) + D) (2 * X) E1 E2 V1 V2); [|exact S1].
    rewrite (cm_eq _ _ ((B2R rj - Rj) + (B2R tr - TR)) ((B2R ij - Ij) + (B2R ti - TI))) by ring.
    eapply Rle_trans; [apply cm_tri|]. lra.
  - destruct (fsub_fadd rj tr Frj Ftr) as (F1 & e1 & E1 & V1). { rewrite M126. unfold Rminus. eapply Rle_trans; [apply Rabs_triang|]. rewrite Rabs_Ropp. lra. }
    destruct (fsub_fadd ij ti Fij Fti) as (F2 & e2 & E2 & V2). { rewrite M126. unfold Rminus. eapply Rle_trans; [apply Rabs_triang|]. rewrite Rabs_Ropp. lra. }
    split; [exact F1|]. split; [exact F2|]. split; [|exact S2].
    eapply Rle_trans; [|exact FIN].
    apply (cm_round _ _ _ _ _ _ e1 e2 (X * (Q - 1) + D) (2 * X) E1 E2 V1 V2); [|exact S2].
    rewrite (cm_eq _ _ ((B2R rj - Rj) + - (B2R tr - TR)) ((B2R ij - Ij) + - (B2R ti - TI))) by ring.
    eapply Rle_trans; [apply cm_tri|]. rewrite cm_opp. lra.
Qed.

(** ** A stage, all stages *)
Section Stages.
Context (ef lf tf : f32 -> f32).
Notation A32 := (f32_arith ef lf tf).

Definition close_table (n : Z) (tau : R) (c s : Z -> f32) : Prop :=
  forall k, (0 <= k < n / 2)%Z -> is_finite (c k) = true /\ is_finite (s k) = true /\
    Rabs (B2R (c k) - cos (2 * PI * IZR k / IZR n)) <= tau /\ Rabs (B2R (s k) - sin (2 * PI * IZR k / IZR n)) <= tau.

Definition near (n h : Z) (d : nat) (xr xi : Z -> R) (X Q : R) (f g : Z -> f32) : Prop :=
  forall p, (0 <= p < n)%Z -> is_finite (f p) = true /\ is_finite (g p) = true /\
    modulus (B2R (f p) - inv_re n h d xr xi p) (B2R (g p) - inv_im n h d xr xi p) <= X * (Q - 1) /\
    modulus (inv_re n h d xr xi p) (inv_im n h d xr xi p) <= X.

Lemma stage_err n h d c s xr xi f g tau X Q : (0 < h)%Z -> (n = h * 2 ^ Z.of_nat (S d))%Z -> close_table n tau c s ->
  tau <= / 64 -> 1 <= Q <= 2 -> small <= X <= max32 -> near n h (S d) xr xi X Q f g ->
  near n (2 * h) d xr xi (2 * X) (Q * (1 + (tau + 4 * u24))) (stage_re A32 n h c s f g) (stage_im A32 n h c s f g).
Proof.
  intros Hh En Ht Htau HQ HX Hfg p Hp.
  set (C := fun k => cos (2 * PI * IZR k / IZR n)). set (S' := fun k => sin (2 * PI * IZR k / IZR n)).
  destruct (stage_real n h d (fun k => Fin (C k)) (fun k => Fin (S' k)) xr xi (fun p => Fin (inv_re n h (S d) xr xi p)) (fun p => Fin (inv_im n h (S d) xr xi p)) Hh En) with (p := p) as [X1 X2]; auto.
  { intros k Hk. split; reflexivity. }
  rewrite Nat2Z.inj_succ, Z.pow_succ_r in En by lia.
  set (w := (2 ^ Z.of_nat d)%Z) in *. assert (Hw : (0 < w)%Z) by (apply Z.pow_pos_nonneg; lia).
  assert (Hst : (n / (2 * h) = w)%Z) by (rewrite En; replace (h * (2 * w))%Z with (w * (2 * h))%Z by ring; apply Z.div_mul; lia).
  assert (Hn2 : (n / 2 = w * h)%Z) by (rewrite En; replace (h * (2 * w))%Z with ((w * h) * 2)%Z by ring; apply Z.div_mul; lia).
  pose proof (split_pos h p Hh ltac:(lia)) as SP. cbv zeta in SP.
  assert (HB : (0 <= p / (2 * h) < w)%Z) by (split; [apply Z.div_pos; lia|apply Z.div_lt_upper_bound; nia]).
  pose proof (Z.div_mod p (2 * h) ltac:(lia)) as D. pose proof (Z.mod_pos_bound p (2 * h) ltac:(lia)) as M.
  assert (HU : (0 <= p mod h < h)%Z) by (apply Z.mod_pos_bound; lia).
  unfold stage_re, stage_im, tw_re, tw_im in *. cbv zeta in *. rewrite Hst in *.
  set (k := (p mod h * w)%Z) in *. assert (Hk : (0 <= k < n / 2)%Z) by (unfold k; nia).
  destruct (Ht k Hk) as (Fc & Fs & Dc & Ds). fold (C k) in Dc. fold (S' k) in Ds.
  assert (U : modulus (C k) (S' k) = 1) by apply cm_unit.
  set (B := (p / (2 * h))%Z) in *. set (r := (p mod (2 * h))%Z) in *.
  destruct (Z.ltb_spec r h) as [Hr|Hr].
  - destruct (Hfg p Hp) as (F1 & F2 & E1 & M1). destruct (Hfg (p + h)%Z ltac:(nia)) as (F3 & F4 & E2 & M2).
    cbn [nadd nmul nneg nsub real_arith lift2 lift1] in X1, X2. injection X1 as X1. injection X2 as X2. rewrite <- X1, <- X2.
    apply (butterfly_err (f p) (g p) (f (p + h)%Z) (g (p + h)%Z) (c k) (s k) _ _ _ _ (C k) (S' k) tau X Q); auto.
  - destruct (Hfg p Hp) as (F1 & F2 & E1 & M1). destruct (Hfg (p - h)%Z ltac:(nia)) as (F3 & F4 & E2 & M2).
    cbn [nadd nmul nneg nsub real_arith lift2 lift1] in X1, X2. injection X1 as X1. injection X2 as X2. rewrite <- X1, <- X2.
    apply (butterfly_err (f (p - h)%Z) (g (p - h)%Z) (f p) (g p) (c k) (s k) _ _ _ _ (C k) (S' k) tau X Q); auto.
Qed.

Lemma stages_err n c s xr xi tau d : forall h f g X Q, (0 < h)%Z -> (n = h * 2 ^ Z.of_nat d)%Z -> close_table n tau c s ->
  0 <= tau <= / 64 -> 1 <= Q -> Q * (1 + (tau + 4 * u24)) ^ d <= 2 -> small <= X -> X * 2 ^ d <= max32 -> near n h d xr xi X Q f g ->
  near n n 0 xr xi (X * 2 ^ d) (Q * (1 + (tau + 4 * u24)) ^ d) (fst (stages A32 n c s d h (f, g))) (snd (stages A32 n c s d h (f, g))).
Proof.
  induction d; intros h f g X Q Hh En Ht Htau HQ HQ2 HX HX2 Hfg.
  - cbn [stages fst snd pow] in *. cbn in En. assert (h = n) as -> by lia. rewrite !Rmult_1_r. exact Hfg.
  - assert (SP : 0 < small) by apply bpow_gt_0.
    set (q := 1 + (tau + 4 * u24)) in *. assert (Hq : 1 <= q) by (unfold q; lra).
    assert (P1 : 1 <= q ^ d) by (apply pow_R1_Rle; exact Hq). assert (P2 : 1 <= 2 ^ d) by (apply pow_R1_Rle; lra).
    cbn [pow] in HQ2, HX2. assert (Qq : Q * q * q ^ d <= 2) by lra. assert (XX : 2 * X * 2 ^ d <= max32) by lra.
    assert (Q1 : 1 <= Q * q) by nra.
    assert (Q2 : Q * q <= 2). { apply Rle_trans with (Q * q * q ^ d); [|exact Qq]. rewrite <- (Rmult_1_r (Q * q)) at 1. apply Rmult_le_compat_l; lra. }
    assert (X2 : 2 * X <= max32). { apply Rle_trans with (2 * X * 2 ^ d); [|exact XX]. rewrite <- (Rmult_1_r (2 * X)) at 1. apply Rmult_le_compat_l; lra. }
    cbn [stages]. replace (X * 2 ^ S d) with (2 * X * 2 ^ d) by (cbn [pow]; ring).
    replace (Q * q ^ S d) with (Q * q * q ^ d) by (cbn [pow]; ring).
    apply IHd; auto; try lia; try lra.
    + rewrite En, Nat2Z.inj_succ, Z.pow_succ_r by lia. ring.
    + apply stage_err; auto; try lra; split; nra.
Qed.
End Stages.

(** (1 + k)^m - 1 <= 2 m k *)
Lemma pow_lin k m : 0 <= k -> INR m * k <= / 2 -> (1 + k) ^ m <= 1 + 2 * INR m * k.
Proof.
  intros Hk H. assert (G : (1 + k) ^ m <= / (1 - INR m * k)).
  { induction m as [|m IH].
    - simpl. rewrite Rmult_0_l, Rminus_0_r, Rinv_1. lra.
    - rewrite S_INR in *. assert (P : 0 <= INR m) by apply pos_INR. assert (Pk : 0 <= INR m * k) by (apply Rmult_le_pos; auto).
      specialize (IH ltac:(lra)). cbn [pow]. apply Rle_trans with ((1 + k) * / (1 - INR m * k)).
      + apply Rmult_le_compat_l; lra.
      + apply Rmult_le_reg_r with ((1 - INR m * k) * (1 - (INR m + 1) * k)).
        * apply Rmult_lt_0_compat; lra.
        * replace ((1 + k) * / (1 - INR m * k) * ((1 - INR m * k) * (1 - (INR m + 1) * k))) with ((1 + k) * (1 - (INR m + 1) * k)) by (field; lra).
          replace (/ (1 - (INR m + 1) * k) * ((1 - INR m * k) * (1 - (INR m + 1) * k))) with (1 - INR m * k) by (field; lra).
          nra. }
  assert (P : 0 <= INR m) by apply pos_INR. assert (Pk : 0 <= INR m * k) by (apply Rmult_le_pos; auto).
  eapply Rle_trans; [exact G|]. apply Rmult_le_reg_r with (1 - INR m * k); [lra|]. rewrite Rinv_l by lra. nra.
Qed.

Lemma INR_to_nat z : (0 <= z)%Z -> INR (Z.to_nat z) = IZR z.
Proof. intros. rewrite INR_IZR_INZ, Z2Nat.id by lia. reflexivity. Qed.
Lemma pow2_IZR m : (0 <= m)%Z -> 2 ^ Z.to_nat m = IZR (2 ^ m).
Proof. intros. rewrite pow_IZR. f_equal. rewrite Z2Nat.id by lia. reflexivity. Qed.

Lemma forward_err ef lf tf n m tl c s (re im : list f32) B tau :
  (0 <= m < 32)%Z -> n = (2 ^ m)%Z -> (tl = n / 2)%Z -> close_table n tau c s -> 0 <= tau <= / 64 ->
  zlen re = n -> zlen im = n ->
  (forall j, (0 <= j < n)%Z -> is_finite (znth fzero re j) = true /\ is_finite (znth fzero im j) = true /\ modulus (B2R (znth fzero re j)) (B2R (znth fzero im j)) <= B) ->
  small <= B -> IZR n * B <= max32 ->
  exists re' im', eml_fft_forward (f32_arith ef lf tf) (mk_fft (f32_arith ef lf tf) tl (buf (n / 2) s) (buf (n / 2) c)) re im n = Ret (EmlOk, re', im') /\
  zlen re' = n /\ zlen im' = n /\
  forall k, (0 <= k < n)%Z -> is_finite (znth fzero re' k) = true /\ is_finite (znth fzero im' k) = true /\
    modulus (B2R (znth fzero re' k) - dft_re n (map B2R re) (map B2R im) k) (B2R (znth fzero im' k) - dft_im n (map B2R re) (map B2R im) k)
      <= 2 * IZR m * (tau + 4 * u24) * (IZR n * B).
Proof.
  intros Hm En Et Ht Htau Lr Li Hin HB HnB.
  assert (Hn : (0 < n)%Z) by (subst n; apply Z.pow_pos_nonneg; lia).
  set (A := f32_arith ef lf tf).
  assert (Rr : re = buf n (znth (fzero : f32) re)) by (rewrite <- Lr; apply buf_of).
  assert (Ri : im = buf n (znth (fzero : f32) im)) by (rewrite <- Li; apply buf_of).
  assert (ER : forall j, entry (map B2R re) j = B2R (znth (fzero : f32) re j)) by (intros j; unfold entry, znth; change 0 with (B2R (fzero : f32)); apply map_nth).
  assert (EI : forall j, entry (map B2R im) j = B2R (znth (fzero : f32) im j)) by (intros j; unfold entry, znth; change 0 with (B2R (fzero : f32)); apply map_nth).
  set (xr := entry (map B2R re)) in *. set (xi := entry (map B2R im)) in *.
  pose proof (forward_ok A n m tl c s (znth fzero re) (znth fzero im) Hm En Et) as F. cbv zeta in F.
  change (Arith.num A) with f32 in F. rewrite <- Rr, <- Ri in F.
  match type of F with context [stages A n c s ?d 1%Z (?f, ?g)] =>
    pose proof (stages_err ef lf tf n c s xr xi tau d 1 f g B 1 ltac:(lia)) as SR end.
  fold A in SR. rewrite Z2Nat.id in SR by lia. rewrite Z.mul_1_l in SR. specialize (SR En Ht Htau (Rle_refl 1)). rewrite !Rmult_1_l in SR.
  assert (M31 : IZR m <= 31) by (apply IZR_le; lia). assert (M0 : 0 <= IZR m) by (apply IZR_le; lia).
  set (kap := tau + 4 * u24) in *. assert (K : 0 <= kap <= / 63) by (unfold kap; lra).
  assert (KM : INR (Z.to_nat m) * kap <= / 2).
  { rewrite INR_to_nat by lia. apply Rle_trans with (31 * / 63); [apply Rmult_le_compat; lra|lra]. }
  pose proof (pow_lin kap (Z.to_nat m) (proj1 K) KM) as PL. rewrite INR_to_nat in PL, KM by lia.
  specialize (SR ltac:(lra) HB). rewrite pow2_IZR, <- En, (Rmult_comm B) in SR by lia. specialize (SR HnB).
  assert (T00 : theta 1 0 0 = 0) by (unfold theta; field).
  assert (BR : forall p, (0 <= p < n)%Z -> (0 <= reverse_bits p m < n)%Z) by (intros p Hp; subst n; apply (reverse_bits_reversed p m); lia).
  match type of SR with ?P -> _ => assert (P0 : P) end.
  { intros p Hp. assert (I1 : inv_re n 1 (Z.to_nat m) xr xi p = B2R (znth (fzero : f32) re (reverse_bits p m)) /\ inv_im n 1 (Z.to_nat m) xr xi p = B2R (znth (fzero : f32) im (reverse_bits p m))).
    { unfold inv_re, inv_im. cbv zeta. rewrite Z.div_1_r, Z.mod_1_r. rewrite reverse_bits_brev by lia. unfold dr, di.
      rewrite (sumr_delta 1 0) by (lia || (intros; lia)). rewrite (sumr_delta 1 0) by (lia || (intros; lia)).
      rewrite T00, cos_0, sin_0, Z.mul_0_l, Z.add_0_l, ER, EI. split; ring. }
    destruct I1 as [-> ->]. destruct (Hin _ (BR p Hp)) as (F1 & F2 & M1). split; [exact F1|]. split; [exact F2|]. split; [|exact M1].
    rewrite (cm_eq _ _ 0 0) by ring. unfold modulus. rewrite Rmult_0_l, Rplus_0_l, sqrt_0. lra. }
  specialize (SR P0). clear P0.
  match type of F with _ = Ret (EmlOk, ?a, ?b) => exists a, b end.
  split; [exact F|]. rewrite !zlen_buf by lia. split; [reflexivity|]. split; [reflexivity|].
  intros k Hk. destruct (SR k Hk) as (F1 & F2 & E1 & M1).
  assert (N1 : forall f : Z -> f32, znth fzero (buf n f) k = f k).
  { intros f. pose proof (buf_get n f k Hk) as G. rewrite (zget_znth (fzero : f32)) in G by (rewrite zlen_buf; lia). now injection G. }
  assert (IE : inv_re n n 0 xr xi k = dft_re n (map B2R re) (map B2R im) k /\ inv_im n n 0 xr xi k = dft_im n (map B2R re) (map B2R im) k).
  { unfold inv_re, inv_im. cbn [brev]. rewrite Z.mod_small by lia. unfold dft_re, dft_im.
    split; apply sumr_ext; intros j Hj; change (2 ^ Z.of_nat 0)%Z with 1%Z; rewrite Z.mul_1_r, Z.add_0_r; auto. }
  destruct IE as [IE1 IE2]. rewrite IE1, IE2 in E1. change (Arith.num A) with f32. rewrite !N1.
  split; [exact F1|]. split; [exact F2|]. eapply Rle_trans; [exact E1|].
  assert (BP : 0 < small) by apply bpow_gt_0. assert (N0 : 0 < IZR n) by (apply IZR_lt; lia).
  assert (NB : 0 <= IZR n * B) by (apply Rmult_le_pos; lra).
  rewrite (Rmult_comm (2 * IZR m * kap)). apply Rmult_le_compat_l; lra.
Qed.
