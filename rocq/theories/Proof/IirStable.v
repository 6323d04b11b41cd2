(** Stability of sections. *)
From Coq Require Import ZArith List Bool Lia Reals Lra.
From Coquelicot Require Import Complex.
From Verif.Base Require Import Res.
From Verif.Spec Require Import IirSpec IirErrSpec.
From Verif.Proof Require Import Iir IirErr.
Import ListNotations.
Open Scope R_scope.

Lemma first_order (q : R) (B : R) (a : Z -> R) N : 0 <= q < 1 -> 0 <= B -> (forall n, (n < 0)%Z -> a n = 0) -> (forall n, (0 <= n < N)%Z -> a n <= B + q * a (n - 1)%Z) ->
  forall n, (n < N)%Z -> a n <= B / (1 - q).
Proof.
  intros Q B0 Z0 H.
  assert (Q1 : 0 <= B / (1 - q)) by (apply Rmult_le_pos; [exact B0|apply Rlt_le, Rinv_0_lt_compat; lra]).
  assert (K : forall k : nat, forall n, (n < Z.of_nat k)%Z -> (n < N)%Z -> a n <= B / (1 - q)).
  { induction k as [|k IH]; intros n Hk Hn.
    - rewrite Z0 by lia. exact Q1.
    - destruct (Z.ltb_spec n 0) as [C|C]; [rewrite Z0 by lia; exact Q1|]. eapply Rle_trans; [apply H; lia|].
      specialize (IH (n - 1)%Z ltac:(lia) ltac:(lia)). apply (Rmult_le_compat_l q) in IH; [|lra].
      assert (EQ : B / (1 - q) = B + q * (B / (1 - q))) by (field; lra). lra. }
  intros n Hn. apply (K (Z.to_nat (n + 1))); lia.
Qed.

Lemma poles_gain s p1 p2 : poles s p1 p2 -> Cmod p1 < 1 -> Cmod p2 < 1 -> gain s (/ ((1 - Cmod p1) * (1 - Cmod p2))).
Proof.
  intros [P1 P2] C1 C2 w u D [L H] F.
  pose proof (Cmod_ge_0 p1) as N1. pose proof (Cmod_ge_0 p2) as N2.
  destruct (Z.leb_spec (zlen w) 0) as [E|E].
  { destruct w; [|unfold zlen in E; simpl in E; lia]. destruct u; [constructor|discriminate]. }
  assert (D0 : 0 <= D). { destruct F as [|d w Hd F]; [unfold zlen in E; simpl in E; lia|]. pose proof (Rabs_pos d). lra. }
  set (v := fun n : Z => Cminus (RtoC (at_ u n)) (Cmult p1 (RtoC (at_ u (n - 1))))).
  assert (V : forall n, (0 <= n < zlen w)%Z -> v n = Cplus (RtoC (at_ w n)) (Cmult p2 (v (n - 1)%Z))).
  { intros n Hn. unfold v. replace (n - 1 - 1)%Z with (n - 2)%Z by lia. specialize (H n Hn). cbn [b0 b1 b2 a1 a2] in H.
    rewrite H. 
    replace (1 * at_ w n + 0 * at_ w (n - 1) + 0 * at_ w (n - 2) - a1 s * at_ u (n - 1) - a2 s * at_ u (n - 2)) with
      (at_ w n + (- a1 s) * at_ u (n - 1) - a2 s * at_ u (n - 2)) by ring.
    rewrite RtoC_minus, RtoC_plus, !RtoC_mult. rewrite <- P1, <- P2. ring. }
  assert (BV : forall n, (n < zlen w)%Z -> Cmod (v n) <= D / (1 - Cmod p2)).
  { apply first_order; auto.
    - intros n Hn. unfold v. rewrite !at_neg by lia. replace (Cminus (RtoC 0) (Cmult p1 (RtoC 0))) with (RtoC 0) by ring. apply Cmod_0.
    - intros n Hn. rewrite (V n Hn). eapply Rle_trans; [apply Cmod_triangle|]. rewrite Cmod_mult, Cmod_R.
      apply Rplus_le_compat_r. now apply at_bound. }
  assert (BU : forall n, (n < zlen w)%Z -> Rabs (at_ u n) <= D / (1 - Cmod p2) / (1 - Cmod p1)).
  { apply first_order; auto.
    - apply Rmult_le_pos; [exact D0|apply Rlt_le, Rinv_0_lt_compat; lra].
    - intros n Hn. rewrite at_neg by lia. apply Rabs_R0.
    - intros n Hn. rewrite <- (Cmod_R (at_ u n)). replace (RtoC (at_ u n)) with (Cplus (v n) (Cmult p1 (RtoC (at_ u (n - 1))))) by (unfold v; ring).
      eapply Rle_trans; [apply Cmod_triangle|]. rewrite Cmod_mult, Cmod_R. apply Rplus_le_compat_r. apply BV. lia. }
  apply Forall_at. intros n Hn. eapply Rle_trans; [apply BU; unfold zlen in *; lia|]. apply Req_le. field. lra.
Qed.

(** A pole outside: the signal (n+1) p^n. *)
Fixpoint cpow (p : C) (n : nat) : C := match n with O => RtoC 1 | S n => Cmult p (cpow p n) end.
Lemma cpow_mod p n : Cmod (cpow p n) = Cmod p ^ n.
Proof. induction n as [|n IH]; cbn [cpow pow]; [rewrite Cmod_R, Rabs_R1; reflexivity|]. now rewrite Cmod_mult, IH. Qed.

Lemma Z2Nat_ge z : (z <= Z.of_nat (Z.to_nat z))%Z.
Proof. lia. Qed.
Section Outside.
Variables (s : sos R) (G : R) (p1 p2 : C).
Hypothesis (P : poles s p1 p2) (HG : gain s G) (HP : 1 <= Cmod p1).
Let r := Cmod p1.
Let K := Cmod (Cplus (Cmult (RtoC 2) p1) (RtoC (a1 s))).
Let c (n : Z) : C := if (n <? 0)%Z then RtoC 0 else Cmult (RtoC (IZR (n + 1))) (cpow p1 (Z.to_nat n)).
Lemma root : Cplus (Cplus (Cmult p1 p1) (Cmult (RtoC (a1 s)) p1)) (RtoC (a2 s)) = RtoC 0.
Proof using P.
  destruct P as [P1 P2]. replace (RtoC (a1 s)) with (Copp (Cplus p1 p2)) by (rewrite P1, RtoC_opp; ring). rewrite <- P2. ring.
Qed.
Lemma c_rec n : (0 <= n)%Z -> Cmod (Cplus (Cplus (c n) (Cmult (RtoC (a1 s)) (c (n - 1)%Z))) (Cmult (RtoC (a2 s)) (c (n - 2)%Z))) <= (K + 1) * r ^ Z.to_nat n.
Proof using P HP.
  intros Hn. assert (K0 : 0 <= K) by apply Cmod_ge_0. assert (R1 : 1 <= r) by exact HP.
  destruct (Z.eq_dec n 0) as [->|N].
  - unfold c. change (0 <? 0)%Z with false. change (0 - 1 <? 0)%Z with true. change (0 - 2 <? 0)%Z with true. cbv iota.
    change (0 + 1)%Z with 1%Z. change (Z.to_nat 0) with 0%nat. cbn [cpow pow].
    replace (Cplus (Cplus (Cmult (RtoC 1) (RtoC 1)) (Cmult (RtoC (a1 s)) (RtoC 0))) (Cmult (RtoC (a2 s)) (RtoC 0))) with (RtoC 1) by ring.
    rewrite Cmod_R, Rabs_R1. lra.
  - set (m := Z.to_nat (n - 1)).
    assert (E : Cplus (Cplus (c n) (Cmult (RtoC (a1 s)) (c (n - 1)%Z))) (Cmult (RtoC (a2 s)) (c (n - 2)%Z)) =
      Cmult (cpow p1 m) (Cplus (Cmult (RtoC 2) p1) (RtoC (a1 s)))).
    { unfold c. destruct (Z.ltb_spec n 0); [lia|]. destruct (Z.ltb_spec (n - 1) 0); [lia|].
      replace (Z.to_nat n) with (S m) by (unfold m; lia). fold m. replace (n - 1 + 1)%Z with n by lia.
      assert (EI : RtoC (IZR (n + 1)) = Cplus (RtoC (IZR n)) (RtoC 1)) by (rewrite plus_IZR, RtoC_plus; reflexivity).
      pose proof root as RT. assert (E2 : RtoC 2 = Cplus (RtoC 1) (RtoC 1)) by (rewrite <- RtoC_plus; f_equal; ring).
      destruct (Z.ltb_spec (n - 2) 0).
      - assert (n = 1%Z) as -> by lia. rewrite EI, E2. unfold m. change (Z.to_nat (1 - 1)) with 0%nat. cbn [cpow]. ring.
      - replace (n - 2 + 1)%Z with (n - 1)%Z by lia. assert (EJ : RtoC (IZR (n - 1)) = Cminus (RtoC (IZR n)) (RtoC 1)) by (rewrite minus_IZR, RtoC_minus; reflexivity).
        rewrite EI, EJ. replace m with (S (Z.to_nat (n - 2))) by (unfold m; lia). cbn [cpow]. set (q := cpow p1 (Z.to_nat (n - 2))). set (x := RtoC (IZR n)).
        rewrite E2.
        transitivity (Cplus (Cmult (Cmult (Cminus x (RtoC 1)) q) (Cplus (Cplus (Cmult p1 p1) (Cmult (RtoC (a1 s)) p1)) (RtoC (a2 s))))
          (Cmult (Cmult p1 q) (Cplus (Cmult (Cplus (RtoC 1) (RtoC 1)) p1) (RtoC (a1 s))))); [ring|]. rewrite RT. ring. }
    rewrite E, Cmod_mult, cpow_mod. fold K. fold r. replace (Z.to_nat n) with (S m) by (unfold m; lia). cbn [pow].
    assert (RM : 1 <= r ^ m) by (apply pow_R1_Rle; exact R1).
    replace ((K + 1) * (r * r ^ m)) with ((r ^ m) * (K * r + r)) by ring. apply Rmult_le_compat_l; [lra|].
    assert (0 <= K * (r - 1)) by (apply Rmult_le_pos; lra). lra.
Qed.
Lemma part (f : C -> R) N : (forall z, Rabs (f z) <= Cmod z) -> (forall y z, f (Cplus y z) = f y + f z) -> (forall a z, f (Cmult (RtoC a) z) = a * f z) ->
  Rabs (f (c (Z.of_nat N))) <= G * ((K + 1) * r ^ N).
Proof using P HP HG.
  intros FM FA FS. assert (K0 : 0 <= K) by apply Cmod_ge_0. assert (R1 : 1 <= r) by exact HP.
  set (fu := fun n : Z => f (c n)). set (fw := fun n : Z => fu n + a1 s * fu (n - 1)%Z + a2 s * fu (n - 2)%Z).
  set (u := map (fun i => fu (Z.of_nat i)) (seq 0 (S N))). set (w := map (fun i => fw (Z.of_nat i)) (seq 0 (S N))).
  assert (F0 : f (RtoC 0) = 0). { replace (RtoC 0) with (Cmult (RtoC 0) (RtoC 0)) by ring. rewrite FS. ring. }
  assert (AU : forall n, (n < Z.of_nat (S N))%Z -> at_ u n = fu n).
  { intros n Hn. destruct (Z.ltb_spec n 0) as [C|C].
    - rewrite at_neg by exact C. unfold fu, c. destruct (Z.ltb_spec n 0); [symmetry; exact F0|lia].
    - unfold u. apply at_map_seq. lia. }
  assert (L : length w = S N) by (unfold w; now rewrite map_length, seq_length).
  assert (F : Forall (fun v => Rabs v <= G * ((K + 1) * r ^ N)) u).
  { apply (HG w u).
    - split; [unfold u, w; now rewrite !map_length|]. intros n Hn. assert (Hn' : (0 <= n < Z.of_nat (S N))%Z) by (unfold zlen in Hn; rewrite L in Hn; exact Hn).
      rewrite !AU by lia. unfold w. rewrite at_map_seq by exact Hn'. cbn [b0 b1 b2 a1 a2]. unfold fw. ring.
    - unfold w. apply Forall_forall. intros v I. apply in_map_iff in I as (i & <- & I). apply in_seq in I. unfold fw, fu. rewrite <- !FS, <- !FA.
      eapply Rle_trans; [apply FM|]. eapply Rle_trans; [apply c_rec; lia|]. rewrite Nat2Z.id. apply Rmult_le_compat_l; [lra|].
      apply Rle_pow; [exact R1|lia]. }
  change (f (c (Z.of_nat N))) with (fu (Z.of_nat N)). rewrite <- (AU (Z.of_nat N)) by lia. apply at_bound; [exact F|].
  pose proof (gain_ge_1 s G HG). assert (1 <= r ^ N) by (apply pow_R1_Rle; exact R1). apply Rmult_le_pos; [lra|]. apply Rmult_le_pos; lra.
Qed.
Lemma outside : False.
Proof using P HP HG.
  assert (K0 : 0 <= K) by apply Cmod_ge_0. assert (R1 : 1 <= r) by exact HP. pose proof (gain_ge_1 s G HG) as G1.
  assert (B : forall N : nat, INR (S N) <= 2 * (G * (K + 1))).
  { intros N.
    assert (H1 : Rabs (Re (c (Z.of_nat N))) <= G * ((K + 1) * r ^ N)).
    { apply part.
      - intros z. eapply Rle_trans; [apply Rmax_l|apply Rmax_Cmod].
      - intros [y1 y2] [z1 z2]. reflexivity.
      - intros a [z1 z2]. unfold Re. simpl. ring. }
    assert (H2 : Rabs (Im (c (Z.of_nat N))) <= G * ((K + 1) * r ^ N)).
    { apply part.
      - intros z. eapply Rle_trans; [apply Rmax_r|apply Rmax_Cmod].
      - intros [y1 y2] [z1 z2]. reflexivity.
      - intros a [z1 z2]. unfold Im. simpl. ring. }
    assert (H3 : Cmod (c (Z.of_nat N)) <= Rabs (Re (c (Z.of_nat N))) + Rabs (Im (c (Z.of_nat N)))).
    { generalize (c (Z.of_nat N)). intros [x y]. unfold Re, Im. cbn [fst snd]. rewrite <- (Cmod_R x).
      replace (Rabs y) with (Cmod (0, y)). 
      - replace ((x, y) : C) with (Cplus (RtoC x) (0, y)) by (unfold Cplus, RtoC; cbn [fst snd]; f_equal; ring). apply Cmod_triangle.
      - unfold Cmod. cbn [fst snd]. replace (0 ^ 2 + y ^ 2) with (Rsqr y) by (unfold Rsqr; ring). apply sqrt_Rsqr_abs. }
    assert (H4 : Cmod (c (Z.of_nat N)) = INR (S N) * r ^ N).
    { unfold c. destruct (Z.ltb_spec (Z.of_nat N) 0); [lia|]. rewrite Nat2Z.id, Cmod_mult, cpow_mod, Cmod_R. fold r. f_equal.
      rewrite Rabs_pos_eq by (apply IZR_le; lia). rewrite INR_IZR_INZ. f_equal. lia. }
    assert (RM : 1 <= r ^ N) by (apply pow_R1_Rle; exact R1).
    apply (Rmult_le_reg_r (r ^ N)); [lra|]. replace (2 * (G * (K + 1)) * r ^ N) with (G * ((K + 1) * r ^ N) + G * ((K + 1) * r ^ N)) by ring. lra. }
  destruct (archimed (2 * (G * (K + 1)))) as [U _]. specialize (B (Z.to_nat (up (2 * (G * (K + 1)))))). rewrite S_INR, INR_IZR_INZ in B.
  pose proof (Z2Nat_ge (up (2 * (G * (K + 1))))) as Z. apply IZR_le in Z. lra.
Qed.
End Outside.
Theorem stable_iff s p1 p2 : poles s p1 p2 -> (stable s <-> Cmod p1 < 1 /\ Cmod p2 < 1).
Proof.
  intros P. split.
  - intros [G HG]. split; apply Rnot_le_lt; intros H; [exact (outside s G p1 p2 P HG H)|].
    apply (outside s G p2 p1); auto. destruct P as [A B]. split; [rewrite <- A; ring|rewrite <- B; ring].
  - intros [H1 H2]. eexists. exact (poles_gain s p1 p2 P H1 H2).
Qed.
Lemma poles_exist s : exists p1 p2, poles s p1 p2.
Proof.
  set (d := a1 s * a1 s / 4 - a2 s). destruct (Rle_dec 0 d) as [H|H].
  - exists (RtoC (- a1 s / 2 + sqrt d)), (RtoC (- a1 s / 2 - sqrt d)). unfold poles. split; rewrite <- ?RtoC_plus, <- ?RtoC_mult; f_equal; [field|].
    replace ((- a1 s / 2 + sqrt d) * (- a1 s / 2 - sqrt d)) with (a1 s * a1 s / 4 - sqrt d * sqrt d) by field. rewrite sqrt_sqrt by exact H. unfold d. ring.
  - exists (- a1 s / 2, sqrt (- d)), (- a1 s / 2, - sqrt (- d)). unfold poles, Cplus, Cmult, RtoC. cbn [fst snd]. split; f_equal; try field.
    replace (- a1 s / 2 * (- a1 s / 2) - sqrt (- d) * - sqrt (- d)) with (a1 s * a1 s / 4 + sqrt (- d) * sqrt (- d)) by field. rewrite sqrt_sqrt by lra. unfold d. ring.
Qed.

Lemma at_scale c x n : at_ (map (Rmult c) x) n = c * at_ x n.
Proof.
  unfold at_. destruct (n <? 0)%Z; [ring|]. replace 0 with (c * 0) at 1 by ring. apply (map_nth (Rmult c)).
Qed.
Lemma section_scale s c x y : section_of s x y -> section_of s (map (Rmult c) x) (map (Rmult c) y).
Proof.
  intros [L H]. split; [now rewrite !map_length|]. intros n Hn. rewrite !at_scale, H; [ring|].
  unfold zlen in *. now rewrite map_length in Hn.
Qed.
Lemma gain_scale s M : (forall w u, section_of (mk_sos 1 0 0 1 (a1 s) (a2 s)) w u -> Forall (fun v => Rabs v <= 1) w -> Forall (fun v => Rabs v <= M) u) ->
  gain s (Rmax M 0).
Proof.
  intros H w u D Su Fw. destruct (Rle_lt_dec D 0) as [D0|D0].
  - assert (Z : forall v, In v w -> v = 0).
    { intros v Iv. pose proof (proj1 (Forall_forall _ _) Fw v Iv) as B. cbv beta in B. pose proof (Rabs_pos v). destruct (Req_dec v 0) as [|N]; [auto|]. pose proof (Rabs_pos_lt v N). lra. }
    destruct w as [|x w]; [destruct Su as [L _]; destruct u; [constructor|discriminate]|].
    assert (D = 0). { inversion Fw as [|? ? B _]. pose proof (Rabs_pos x). lra. } subst D. rewrite Rmult_0_r.
    assert (S1 : section_of (mk_sos 1 0 0 1 (a1 s) (a2 s)) (map (Rmult 0) (x :: w)) (map (Rmult 0) u)) by (now apply section_scale).
    assert (E1 : map (Rmult 0) (x :: w) = x :: w).
    { rewrite <- (map_id (x :: w)) at 2. apply map_ext_in. intros v Iv. rewrite (Z v Iv). ring. }
    rewrite E1 in S1. assert (EU : u = map (Rmult 0) u). { apply (cascade_unique [mk_sos 1 0 0 1 (a1 s) (a2 s)] (x :: w)); [exists u|exists (map (Rmult 0) u)]; split; auto; reflexivity. }
    rewrite EU. apply Forall_map, Forall_forall. intros v _. rewrite Rmult_0_l, Rabs_R0. lra.
  - assert (S1 := section_scale _ (/ D) _ _ Su). assert (B := H _ _ S1).
    assert (F1 : Forall (fun v => Rabs v <= 1) (map (Rmult (/ D)) w)).
    { apply Forall_map. eapply Forall_impl; [|exact Fw]. cbv beta. intros v Hv. rewrite Rabs_mult, Rabs_pos_eq by (apply Rlt_le, Rinv_0_lt_compat; lra).
      apply Rmult_le_reg_l with D; [lra|]. rewrite <- Rmult_assoc, Rinv_r by lra. lra. }
    specialize (B F1). apply Forall_map in B. eapply Forall_impl; [|exact B]. cbv beta. intros v Hv.
    rewrite Rabs_mult, Rabs_pos_eq in Hv by (apply Rlt_le, Rinv_0_lt_compat; lra).
    apply (Rmult_le_compat_l D) in Hv; [|lra]. rewrite <- Rmult_assoc, Rinv_r, Rmult_1_l in Hv by lra.
    pose proof (Rmax_l M 0). pose proof (Rmult_le_compat_l D _ _ (Rlt_le _ _ D0) H0). lra.
Qed.
