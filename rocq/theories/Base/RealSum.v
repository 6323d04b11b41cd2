(** Finite sums of real numbers, and the C loops that compute them in exact arithmetic. *)
From Coq Require Import ZArith Reals List Lia Lra.
From Verif.Base Require Import Res CInt Loops Arith Kernels.
From Verif.Spec Require Import RealSpec.
Import ListNotations.
Open Scope R_scope.

(** Sum over i = 0 .. n-1. *)
Definition sumr (n : Z) (f : Z -> R) : R := rsum (map f (zrange n)).

Lemma rsum_app l1 l2 : rsum (l1 ++ l2) = rsum l1 + rsum l2.
Proof. induction l1; simpl; [lra|]. rewrite IHl1. lra. Qed.
Lemma sumr_ext n f g : (forall i, (0 <= i < n)%Z -> f i = g i) -> sumr n f = sumr n g.
Proof.
  intros H. unfold sumr. f_equal. apply map_ext_in. intros i Hi. apply H. apply Kernels.zrange_In in Hi. exact Hi.
Qed.
Lemma sumr_0 n f : (n <= 0)%Z -> sumr n f = 0.
Proof. intros. unfold sumr. rewrite zrange_0 by lia. reflexivity. Qed.
Lemma sumr_S n f : (0 <= n)%Z -> sumr (n + 1) f = sumr n f + f n.
Proof. intros. unfold sumr. rewrite zrange_S by lia. rewrite map_app, rsum_app. simpl. lra. Qed.
Lemma sumr_ind (P : Z -> Prop) : P 0%Z -> (forall n, (0 <= n)%Z -> P n -> P (n + 1)%Z) -> forall n, (0 <= n)%Z -> P n.
Proof.
  intros H0 HS n Hn. rewrite <- (Z2Nat.id n Hn). induction (Z.to_nat n) as [|k IH]; [exact H0|].
  rewrite Nat2Z.inj_succ. apply HS; [lia|exact IH].
Qed.
Lemma sumr_plus n f g : sumr n (fun i => f i + g i) = sumr n f + sumr n g.
Proof. unfold sumr. induction (zrange n); simpl; [lra|]. rewrite IHl. lra. Qed.
Lemma sumr_minus n f g : sumr n (fun i => f i - g i) = sumr n f - sumr n g.
Proof. unfold sumr. induction (zrange n); simpl; [lra|]. rewrite IHl. lra. Qed.
Lemma sumr_scal n c f : sumr n (fun i => c * f i) = c * sumr n f.
Proof. unfold sumr. induction (zrange n); simpl; [lra|]. rewrite IHl. lra. Qed.
Lemma sumr_scal_r n c f : sumr n (fun i => f i * c) = sumr n f * c.
Proof. unfold sumr. induction (zrange n); simpl; [lra|]. rewrite IHl. lra. Qed.
Lemma sumr_zero n : sumr n (fun _ => 0) = 0.
Proof. unfold sumr. induction (zrange n); simpl; [lra|]. rewrite IHl. lra. Qed.
Lemma sumr_swap n m f : sumr n (fun i => sumr m (fun j => f i j)) = sumr m (fun j => sumr n (fun i => f i j)).
Proof.
  unfold sumr at 1 4. induction (zrange n) as [|a l IH]; simpl.
  - symmetry. apply sumr_zero.
  - rewrite IH. rewrite <- sumr_plus. reflexivity.
Qed.
Lemma sumr_nonneg n f : (forall i, (0 <= i < n)%Z -> 0 <= f i) -> 0 <= sumr n f.
Proof.
  intros H. unfold sumr. assert (G : forall l, (forall i, In i l -> 0 <= f i) -> 0 <= rsum (map f l)).
  { induction l; simpl; intros; [lra|]. assert (0 <= f a) by auto. assert (0 <= rsum (map f l)) by auto. lra. }
  apply G. intros i Hi. apply H. apply Kernels.zrange_In in Hi. exact Hi.
Qed.
(** Only the term at [k] is not zero. *)
Lemma sumr_delta n k f : (0 <= k < n)%Z -> (forall i, (0 <= i < n)%Z -> i <> k -> f i = 0) -> sumr n f = f k.
Proof.
  intros Hk H. assert (G : forall m, (0 <= m)%Z -> (m <= n)%Z -> sumr m f = if (k <? m)%Z then f k else 0).
  { apply (sumr_ind (fun m => (m <= n)%Z -> sumr m f = if (k <? m)%Z then f k else 0)).
    - intros _. rewrite sumr_0 by lia. destruct (Z.ltb_spec k 0); [lia|reflexivity].
    - intros m Hm IH Hn. rewrite sumr_S by lia. rewrite IH by lia.
      destruct (Z.ltb_spec k m), (Z.ltb_spec k (m + 1)); try lia.
      + rewrite (H m) by lia. lra.
      + replace m with k by lia. lra.
      + rewrite (H m) by lia. lra. }
  rewrite G by lia. destruct (Z.ltb_spec k n); [reflexivity|lia].
Qed.
Lemma rsum_sumr (l : list R) : rsum l = sumr (zlen l) (fun i => nth (Z.to_nat i) l 0).
Proof. unfold sumr. change (fun i => nth (Z.to_nat i) l 0) with (znth 0 l). rewrite map_znth. reflexivity. Qed.

Lemma sumr_split n m f : (0 <= n)%Z -> (0 <= m)%Z -> sumr (n + m) f = sumr n f + sumr m (fun d => f (n + d)%Z).
Proof.
  intros Hn. revert m. apply (sumr_ind (fun m => sumr (n + m) f = sumr n f + sumr m (fun d => f (n + d)%Z))).
  - rewrite Z.add_0_r. rewrite (sumr_0 0) by lia. ring.
  - intros k Hk IH. rewrite Z.add_assoc, !sumr_S by lia. rewrite IH. ring.
Qed.

Lemma sumr_1 f : sumr 1 f = f 0%Z.
Proof. change 1%Z with (0 + 1)%Z. rewrite sumr_S, sumr_0 by lia. lra. Qed.

(** A loop adding up. *)
Lemma foldM_sumr (body : xreal -> Z -> res xreal) (f : Z -> R) n a :
  (forall s i, (0 <= i < n)%Z -> body (Fin s) i = Ret (Fin (s + f i))) ->
  foldM body (Fin a) (zrange n) = Ret (Fin (a + sumr n f)).
Proof.
  intros H. unfold sumr. assert (G : forall l a, (forall i, In i l -> (0 <= i < n)%Z) ->
     foldM body (Fin a) l = Ret (Fin (a + rsum (map f l)))).
  { clear a. induction l as [|i l IH]; intros a Hl; simpl. { do 2 f_equal. lra. }
    rewrite H by (apply Hl; now left). cbn [bind]. rewrite IH by (intros; apply Hl; now right). do 2 f_equal. lra. }
  apply G. intros i Hi. apply Kernels.zrange_In in Hi. exact Hi.
Qed.
