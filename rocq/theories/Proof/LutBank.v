(** A filterbank with printed coefficients. *)
From Coq Require Import ZArith List Bool Lia Reals Lra.
From Verif.Base Require Import Res CInt ListX Loops Float Arith Kernels RealSum.
From Verif.Model Require Import Common Vector Fft Audio.
From Verif.Spec Require Import RealSpec FftSpec AudioSpec.
From Verif.Proof Require Import Vector Fft Filterbank NetClose.
Import ListNotations.
Open Scope Z_scope.
Open Scope res_scope.

Lemma split_like {B} (P : R -> B -> Prop) (parts : list (list B)) : forall cs, Forall2 P cs (List.concat parts) ->
  exists parts', cs = List.concat parts' /\ Forall2 (Forall2 P) parts' parts.
Proof.
  induction parts as [|p parts IH]; intros cs H; cbn [List.concat] in H.
  - inversion H; subst. exists []. split; [reflexivity|constructor].
  - apply Forall2_app_inv_r in H as (c1 & c2 & H1 & H2 & ->). destruct (IH c2 H2) as (parts' & -> & HF).
    exists (c1 :: parts'). split; [reflexivity|constructor; auto].
Qed.
Lemma retime (P : R -> R -> Prop) ts : forall cs, Forall2 P cs (List.concat (map mid ts)) ->
  exists ts', cs = List.concat (map mid ts') /\
    Forall2 (fun t' t => start_of t' = start_of t /\ zlen (mid t') = zlen (mid t) /\ snd t' = snd t /\ Forall2 P (mid t') (mid t)) ts' ts.
Proof.
  intros cs H. apply split_like in H as (parts' & -> & HF). revert parts' HF.
  induction ts as [|[[a b] c] ts IH]; intros parts' HF; cbn [map] in HF.
  - inversion HF; subst. exists []. split; [reflexivity|constructor].
  - inversion HF as [|b' b0 ps ps0 HB HF' E1 E2]; subst. destruct (IH ps HF') as (ts' & E & HT).
    exists ((a, b', c) :: ts'). split; [cbn [map List.concat]; unfold mid at 1; cbn [fst snd]; now rewrite E|].
    constructor; [|exact HT]. unfold start_of, mid in *. cbn [fst snd] in *. split; [reflexivity|]. split; [|auto].
    clear -HB. induction HB; [reflexivity|]. rewrite !zlen_cons. lia.
Qed.
Lemma sub_sum x k n : 0 <= k -> 0 <= n -> k + n <= zlen x ->
  (sumr n (fun d => Rabs (entry x (k + d))) <= sumr (zlen x) (fun j => Rabs (entry x j)))%R.
Proof.
  intros Hk Hn HL.
  assert (SH : forall n m f, 0 <= n -> 0 <= m -> (sumr (n + m) f = sumr n f + sumr m (fun d => f (n + d)%Z))%R).
  { clear. intros n m f Hn. revert m. apply (sumr_ind (fun m => sumr (n + m) f = (sumr n f + sumr m (fun d => f (n + d)%Z))%R)).
    - rewrite Z.add_0_r. rewrite (sumr_0 0) by lia. ring.
    - intros k Hk IH. rewrite Z.add_assoc, !sumr_S by lia. rewrite IH. ring. }
  assert (P : forall m g, 0 <= m -> (forall i, 0 <= g i)%R -> (0 <= sumr m g)%R).
  { clear. intros m g Hm Hg. revert m Hm. apply (sumr_ind (fun m => (0 <= sumr m g)%R)); [rewrite sumr_0 by lia; lra|].
    intros k Hk IH. rewrite sumr_S by lia. specialize (Hg k). lra. }
  replace (zlen x) with (k + (n + (zlen x - k - n))) by lia. rewrite SH by lia. rewrite (SH n) by lia.
  assert (A : forall i, (0 <= Rabs (entry x i))%R) by (intros; apply Rabs_pos).
  pose proof (P k (fun j => Rabs (entry x j)) Hk A).
  pose proof (P (zlen x - k - n) (fun d => Rabs (entry x (k + (n + d)))) ltac:(lia) (fun i => A _)). lra.
Qed.
Lemma Forall2_entry (P : R -> R -> Prop) a b : Forall2 P a b -> P 0%R 0%R -> forall d, P (entry a d) (entry b d).
Proof.
  intros H H0 d. unfold entry. generalize (Z.to_nat d). induction H; intros [|n]; cbn; auto.
Qed.

Lemma near_sum eps x k (m' m : list R) : (0 <= eps)%R -> 0 <= k -> k + zlen m <= zlen x -> zlen m' = zlen m ->
  Forall2 (fun a b => (Rabs (a - b) <= eps)%R) m' m ->
  (Rabs (sumr (zlen m') (fun d => entry x (k + d) * entry m' d) - sumr (zlen m) (fun d => entry x (k + d) * entry m d)) <=
   eps * sumr (zlen x) (fun j => Rabs (entry x j)))%R.
Proof.
  intros He Hk HL EL HF. rewrite EL. pose proof (zlen_nonneg m) as N.
  apply Rle_trans with (eps * sumr (zlen m) (fun d => Rabs (entry x (k + d))))%R.
  2:{ apply Rmult_le_compat_l; [exact He|]. apply sub_sum; lia. }
  assert (HP : forall d, (Rabs (entry m' d - entry m d) <= eps)%R).
  { intros d. apply (Forall2_entry (fun a b => (Rabs (a - b) <= eps)%R) _ _ HF). replace (0 - 0)%R with 0%R by ring. rewrite Rabs_R0. exact He. }
  revert N. generalize (zlen m). apply (sumr_ind (fun n => (Rabs (sumr n (fun d => entry x (k + d) * entry m' d) - sumr n (fun d => entry x (k + d) * entry m d)) <= eps * sumr n (fun d => Rabs (entry x (k + d))))%R)).
  - rewrite !(sumr_0 0) by lia. replace (0 - 0)%R with 0%R by ring. rewrite Rabs_R0. lra.
  - intros n Hn IH. rewrite !sumr_S by lia.
    set (A := sumr n (fun d => entry x (k + d) * entry m' d)%R) in *. set (B := sumr n (fun d => entry x (k + d) * entry m d)%R) in *.
    replace (A + entry x (k + n) * entry m' n - (B + entry x (k + n) * entry m n))%R
      with ((A - B) + entry x (k + n) * (entry m' n - entry m n))%R by ring.
    eapply Rle_trans; [apply Rabs_triang|]. rewrite Rabs_mult. rewrite Rmult_plus_distr_l.
    apply Rplus_le_compat; [exact IH|]. rewrite (Rmult_comm eps). apply Rmult_le_compat_l; [apply Rabs_pos|apply HP].
Qed.

Theorem printed_bank eps mels x starts ends coeffs cs : (0 <= eps)%R ->
  Forall band mels -> Forall (fun r => zlen r <= zlen x) mels -> zlen (List.concat mels) < 2 ^ 31 ->
  sparse_filterbank real_arith (map (map Fin) mels) = Ret (starts, ends, map Fin coeffs) ->
  Forall2 (fun a b => (Rabs (a - b) <= eps)%R) cs coeffs ->
  exists out, sparse_filterbank_py real_arith (map Fin x) starts ends (map Fin cs) = Ret (map Fin out) /\
    Forall2 (fun o d => (Rabs (o - d) <= eps * sumr (zlen x) (fun j => Rabs (entry x j)))%R) out (dense mels x).
Proof.
  intros He HB HL HC ES HF. destruct (bands_ts mels HB) as (ts & E & C & N).
  assert (B : sparse_filterbank real_arith (map (map Fin) mels) = Ret (map start_of ts, map end_of ts, map Fin (List.concat (map mid ts)))).
  { rewrite E, map_map. rewrite build_ok by auto. replace (map (fun t => nzvals (mid t)) ts) with (map mid ts); [reflexivity|].
    apply map_ext_in. intros t Ht. symmetry. apply nz_all. rewrite Forall_forall in N. auto. }
  rewrite ES in B. injection B as E1 E2 E3.
  assert (E3' : coeffs = List.concat (map mid ts)).
  { clear -E3. revert E3. generalize (List.concat (map mid ts)). induction coeffs as [|c cs IH]; intros [|d ds] H; try discriminate; [reflexivity|].
    injection H as H1 H2. f_equal; [exact H1|apply IH, H2]. }
  rewrite E3' in HF. apply retime in HF as (ts' & -> & HT).
  assert (S1 : starts = map start_of ts').
  { rewrite E1. clear -HT. induction HT as [|? ? ? ? (H & _) _ IH]; [reflexivity|]. cbn [map]. now rewrite H, IH. }
  assert (S2 : ends = map end_of ts').
  { rewrite E2. clear -HT. induction HT as [|? ? ? ? (H & H2 & _) _ IH]; [reflexivity|]. cbn [map]. unfold end_of at 1 3. now rewrite H, H2, IH. }
  assert (RL : forall t' t, start_of t' = start_of t -> zlen (mid t') = zlen (mid t) -> snd t' = snd t -> zlen (row_of t') = zlen (row_of t)).
  { intros [[a' b'] c'] [[a b] c]. unfold start_of, mid, row_of. cbn [fst snd]. intros Ha Hb Hc. rewrite !zlen_app, !zlen_repeat. lia. }
  assert (R' : Forall (fun t => zlen (row_of t) <= zlen x) ts').
  { clear -HT HL E RL. subst mels. revert HL. induction HT as [|t' t ts' ts (H1 & H2 & H3 & _) HT IH]; intros HL; [constructor|].
    cbn [map] in HL. apply Forall_cons_iff in HL as [L1 L2]. constructor; [rewrite (RL t' t) by auto; exact L1|apply IH, L2]. }
  destruct (reduce_ok ts' x R') as (out & EO & VO). exists out. split.
  - rewrite S1, S2. apply c_is_python; [| |exact EO].
    + apply Forall_forall. intros s Hs. apply in_map_iff in Hs as (t & <- & _). unfold start_of. lia.
    + change (num real_arith) with xreal. rewrite zlen_map. apply Z.le_lt_trans with (zlen (List.concat mels)); auto. subst mels. clear -HT.
      induction HT as [|t' t ts' ts (H1 & H2 & H3 & _) HT IH]; [cbn; lia|]. cbn [map List.concat]. rewrite !zlen_app.
      destruct t as [[a b] c]. unfold row_of, mid in *. cbn [fst snd] in *. rewrite !zlen_app. pose proof (zlen_nonneg (repeat 0%R a)). pose proof (zlen_nonneg (repeat 0%R c)). lia.
  - rewrite VO, E. unfold dense. rewrite map_map. clear -HT HL E He. subst mels. revert HL.
    induction HT as [|t' t ts' ts (H1 & H2 & H3 & H4) HT IH]; intros HL; [constructor|]. cbn [map] in *. apply Forall_cons_iff in HL as [L1 L2].
    constructor; [|apply IH, L2]. rewrite dense_core. rewrite H1. apply near_sum; auto; [unfold start_of; lia|].
    destruct t as [[a b] c]. unfold row_of, start_of, mid in *. cbn [fst snd] in *. rewrite !zlen_app, !zlen_repeat in L1. lia.
Qed.
