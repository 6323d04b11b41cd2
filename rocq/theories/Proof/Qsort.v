(** Correctness of the in-place sort. *)
From Coq Require Import ZArith List Bool Lia Permutation.
From Verif.Base Require Import Res ListX Loops.
From Verif.Model Require Import Qsort.
Import ListNotations.
Open Scope Z_scope.
Open Scope res_scope.

Section Proof.
Context {A : Type} (key : A -> Z).
Notation kv a k := (match zget a k with Ret x => key x | Err _ => 0 end).
Implicit Types a b : list A.

Lemma q_less_ok a i j : 0 <= i < zlen a -> 0 <= j < zlen a ->
  q_less key a i j = Ret (kv a i <? kv a j).
Proof.
  intros Hi Hj. unfold q_less. destruct (zget_ok a i Hi) as [x ->]. destruct (zget_ok a j Hj) as [y ->].
  reflexivity.
Qed.

Lemma swap_perm a b i j : 0 <= i < zlen a -> 0 <= j < zlen a -> zlen b = zlen a ->
  (forall k, zget b k = if k =? i then zget a j else if k =? j then zget a i else zget a k) ->
  Permutation a b.
Proof.
  intros Hi Hj Hl H. apply Permutation_nth_error. split; [unfold zlen in Hl; lia|].
  exists (fun n => if Nat.eqb n (Z.to_nat i) then Z.to_nat j else if Nat.eqb n (Z.to_nat j) then Z.to_nat i else n).
  split.
  - intros x y. destruct (Nat.eqb_spec x (Z.to_nat i)), (Nat.eqb_spec y (Z.to_nat i)),
      (Nat.eqb_spec x (Z.to_nat j)), (Nat.eqb_spec y (Z.to_nat j)); lia.
  - intros n. 
    assert (G : forall (l : list A) k, 0 <= k -> match nth_error l (Z.to_nat k) with Some a0 => Ret a0 | None => Err OutOfBounds end = zget l k).
    { intros l k Hk. unfold zget. destruct (Z.ltb_spec k 0); [lia|reflexivity]. }
    specialize (H (Z.of_nat n)). rewrite <- (G b) in H by lia. rewrite Nat2Z.id in H.
    destruct (Nat.eqb_spec n (Z.to_nat i)) as [->|N1].
    + rewrite Z2Nat.id, Z.eqb_refl in H by lia. rewrite <- (G a) in H by lia.
      destruct (nth_error b (Z.to_nat i)), (nth_error a (Z.to_nat j)); congruence.
    + destruct (Z.eqb_spec (Z.of_nat n) i); [lia|].
      destruct (Nat.eqb_spec n (Z.to_nat j)) as [->|N2].
      * rewrite Z2Nat.id, Z.eqb_refl in H by lia. rewrite <- (G a) in H by lia.
        destruct (nth_error b (Z.to_nat j)), (nth_error a (Z.to_nat i)); congruence.
      * destruct (Z.eqb_spec (Z.of_nat n) j); [lia|]. rewrite <- (G a) in H by lia. rewrite Nat2Z.id in H.
        destruct (nth_error b n), (nth_error a n); congruence.
Qed.

Lemma q_swap_ok a i j : 0 <= i < zlen a -> 0 <= j < zlen a ->
  exists b, q_swap a i j = Ret b /\ zlen b = zlen a /\
    (forall k, zget b k = if k =? i then zget a j else if k =? j then zget a i else zget a k).
Proof.
  intros Hi Hj. unfold q_swap. destruct (zget_ok a i Hi) as [x Ex]. destruct (zget_ok a j Hj) as [y Ey].
  rewrite Ex, Ey. cbn [bind]. rewrite zset_ok by auto. cbn [bind].
  rewrite zset_ok by (rewrite zlen_list_set; auto). eexists; split; [reflexivity|].
  rewrite !zlen_list_set. split; auto. intros k.
  rewrite !zget_list_set by (rewrite ?zlen_list_set; auto).
  destruct (Z.eqb_spec j k), (Z.eqb_spec i k), (Z.eqb_spec k i), (Z.eqb_spec k j); subst; try lia; try congruence; auto.
Qed.

(** Reachable by swaps inside [l,r]. *)
Inductive steps (l r : Z) : list A -> list A -> Prop :=
| steps_refl a : steps l r a a
| steps_swap a b c i j : steps l r a b -> l <= i <= r -> l <= j <= r -> q_swap b i j = Ret c -> steps l r a c.

Lemma steps_trans l r a b c : steps l r a b -> steps l r b c -> steps l r a c.
Proof.
  intros H1 H2; revert H1. induction H2 as [|a0 b c i j H IH Hi Hj Hs]; intros H1; [exact H1|].
  eapply steps_swap; [apply IH; exact H1|exact Hi|exact Hj|exact Hs].
Qed.
Lemma steps_mono l r l' r' a b : l' <= l -> r <= r' -> steps l r a b -> steps l' r' a b.
Proof. intros H1 H2 H. induction H; [constructor|]. eapply steps_swap; eauto; lia. Qed.
Lemma steps_one l r a b i j : l <= i <= r -> l <= j <= r -> q_swap a i j = Ret b -> steps l r a b.
Proof. intros Hi Hj Hs. exact (steps_swap l r a a b i j (steps_refl l r a) Hi Hj Hs). Qed.

Lemma steps_facts l r a b : 0 <= l -> r < zlen a -> steps l r a b ->
  zlen b = zlen a /\ Permutation a b /\
  (forall k, ~ (l <= k <= r) -> zget b k = zget a k) /\
  (forall k, l <= k <= r -> exists k', l <= k' <= r /\ zget b k = zget a k').
Proof.
  intros Hl Hr H. induction H as [|a b c i j H IH Hi Hj Hs].
  - repeat split; auto. intros k Hk; exists k; auto.
  - destruct (IH Hr) as (I1 & I2 & I3 & I4).
    destruct (q_swap_ok b i j) as (c' & E & L & G); try lia.
    rewrite Hs in E. injection E as <-. split; [lia|]. split; [|split].
    + eapply perm_trans; [exact I2|]. apply (swap_perm b c i j); auto; lia.
    + intros k Hk. rewrite G. destruct (Z.eqb_spec k i); [lia|]. destruct (Z.eqb_spec k j); [lia|]. auto.
    + intros k Hk. rewrite G. destruct (Z.eqb_spec k i); [|destruct (Z.eqb_spec k j)]; apply I4; lia.
Qed.

(** ** Q_SORT3 *)
Lemma q_sort3_ok a x y z l r : 0 <= l -> r < zlen a -> l <= x -> x < y -> y < z -> z <= r ->
  exists b, q_sort3 key a x y z = Ret b /\ steps l r a b /\ kv b x <= kv b y /\ kv b y <= kv b z.
Proof.
  intros Hl Hr Hx Hxy Hyz Hz. unfold q_sort3.
  rewrite !q_less_ok by lia. cbn [bind].
  destruct (Z.ltb_spec (kv a y) (kv a x)).
  - destruct (Z.ltb_spec (kv a z) (kv a y)).
    + destruct (q_swap_ok a x z) as (b & E & L & G); try lia. rewrite E.
      exists b. split; [auto|]. split; [apply (steps_one l r a b x z); auto; lia|].
      rewrite !G. rewrite !Z.eqb_refl.
      destruct (Z.eqb_spec y x); [lia|]. destruct (Z.eqb_spec y z); [lia|].
      destruct (Z.eqb_spec z x); [lia|]. lia.
    + destruct (q_swap_ok a x y) as (b & E & L & G); try lia. rewrite E. cbn [bind].
      rewrite q_less_ok by lia. cbn [bind].
      assert (Gx := G x). assert (Gy := G y). assert (Gz := G z). rewrite Z.eqb_refl in Gx.
      rewrite Z.eqb_refl in Gy. destruct (Z.eqb_spec y x); [lia|].
      destruct (Z.eqb_spec z x); [lia|]. destruct (Z.eqb_spec z y); [lia|].
      assert (S1 : steps l r a b) by (apply (steps_one l r a b x y); auto; lia).
      destruct (Z.ltb_spec (kv b z) (kv b y)).
      * destruct (q_swap_ok b y z) as (c & E' & L' & G'); try lia. rewrite E'.
        exists c. split; [auto|]. split.
        { eapply steps_trans; [exact S1|]. apply (steps_one l r b c y z); auto; lia. }
        rewrite !G'. rewrite !Z.eqb_refl. destruct (Z.eqb_spec x y); [lia|]. destruct (Z.eqb_spec x z); [lia|].
        destruct (Z.eqb_spec z y); [lia|]. rewrite Gx, Gy, Gz in *. lia.
      * exists b. split; [auto|]. split; [auto|]. rewrite Gx, Gy, Gz in *. lia.
  - destruct (Z.ltb_spec (kv a z) (kv a y)).
    + destruct (q_swap_ok a y z) as (b & E & L & G); try lia. rewrite E. cbn [bind].
      rewrite q_less_ok by lia. cbn [bind].
      assert (Gx := G x). assert (Gy := G y). assert (Gz := G z). rewrite !Z.eqb_refl in *.
      destruct (Z.eqb_spec x y); [lia|]. destruct (Z.eqb_spec x z); [lia|].
      destruct (Z.eqb_spec z y); [lia|].
      assert (S1 : steps l r a b) by (apply (steps_one l r a b y z); auto; lia).
      destruct (Z.ltb_spec (kv b y) (kv b x)).
      * destruct (q_swap_ok b x y) as (c & E' & L' & G'); try lia. rewrite E'.
        exists c. split; [auto|]. split.
        { eapply steps_trans; [exact S1|]. apply (steps_one l r b c x y); auto; lia. }
        rewrite !G'. rewrite !Z.eqb_refl. destruct (Z.eqb_spec y x); [lia|]. destruct (Z.eqb_spec z x); [lia|].
        destruct (Z.eqb_spec z y); [lia|]. rewrite Gx, Gy, Gz in *. lia.
      * exists b. split; [auto|]. split; [auto|]. rewrite Gx, Gy, Gz in *. lia.
    + exists a. split; [auto|]. split; [constructor|]. lia.
Qed.

(** ** Scans *)
Lemma scan_up_ok a l i j : 0 <= l -> l < i -> i < j -> j < zlen a -> kv a l <= kv a j ->
  forall fuel, (Z.to_nat (j - i) <= fuel)%nat ->
  exists i', q_scan_up key fuel a l i = Ret i' /\ i < i' <= j /\ kv a l <= kv a i' /\
    forall k, i < k < i' -> kv a k < kv a l.
Proof.
  intros Hl Hi Hij Hj Hs fuel. revert i Hi Hij.
  induction fuel as [|f IH]; intros i Hi Hij Hf; [lia|]. cbn [q_scan_up]. cbv zeta.
  rewrite q_less_ok by lia. cbn [bind]. destruct (Z.ltb_spec (kv a (i + 1)) (kv a l)) as [C|C].
  - destruct (Z.eq_dec (i + 1) j) as [E|E]; [rewrite E in C; lia|].
    destruct (IH (i + 1)) as (i' & E1 & E2 & E3 & E4); try lia.
    exists i'. split; [auto|]. split; [lia|]. split; [auto|]. intros k Hk.
    destruct (Z.eq_dec k (i + 1)) as [->|]; [auto|]. apply E4; lia.
  - exists (i + 1). split; [auto|]. split; [lia|]. split; [auto|]. intros; lia.
Qed.
Lemma scan_down_ok a l i j : 0 <= l -> l < i -> i < j -> j <= zlen a -> kv a i <= kv a l ->
  forall fuel, (Z.to_nat (j - i) <= fuel)%nat ->
  exists j', q_scan_down key fuel a l j = Ret j' /\ i <= j' < j /\ kv a j' <= kv a l /\
    forall k, j' < k < j -> kv a l < kv a k.
Proof.
  intros Hl Hi Hij Hj Hs fuel. revert j Hj Hij.
  induction fuel as [|f IH]; intros j Hj Hij Hf; [lia|]. cbn [q_scan_down]. cbv zeta.
  rewrite q_less_ok by lia. cbn [bind]. destruct (Z.ltb_spec (kv a l) (kv a (j - 1))) as [C|C].
  - destruct (Z.eq_dec (j - 1) i) as [E|E]; [rewrite E in C; lia|].
    destruct (IH (j - 1)) as (j' & E1 & E2 & E3 & E4); try lia.
    exists j'. split; [auto|]. split; [lia|]. split; [auto|]. intros k Hk.
    destruct (Z.eq_dec k (j - 1)) as [->|]; [auto|]. apply E4; lia.
  - exists (j - 1). split; [auto|]. split; [lia|]. split; [auto|]. intros; lia.
Qed.

(** ** The partitioning loop *)
Lemma part_loop_ok l r : 0 <= l -> forall fuel a i j,
  r < zlen a -> l + 1 <= i -> i < j -> j <= r -> (Z.to_nat (j - i) <= fuel)%nat ->
  (forall k, l + 1 <= k <= i -> kv a k <= kv a l) ->
  (forall k, j <= k <= r -> kv a l <= kv a k) ->
  exists b j', q_part_loop key fuel a l i j = Ret (b, j') /\ l + 1 <= j' <= r - 1 /\
    steps (l + 1) r a b /\
    (forall k, l + 1 <= k <= j' -> kv b k <= kv b l) /\
    (forall k, j' < k <= r -> kv b l <= kv b k).
Proof.
  intros Hl fuel. induction fuel as [|f IH]; intros a i j Hr Hi Hij Hj Hf Lo Hi'; [lia|].
  cbn [q_part_loop].
  destruct (scan_up_ok a l i j) with (fuel := S (length a)) as (i1 & E1 & B1 & C1 & D1); try lia.
  { apply Hi'; lia. } { unfold zlen in *; lia. }
  rewrite E1. cbn [bind].
  destruct (scan_down_ok a l i j) with (fuel := S (length a)) as (j1 & E2 & B2 & C2 & D2); try lia.
  { apply Lo; lia. } { unfold zlen in *; lia. }
  rewrite E2. cbn [bind].
  destruct (Z.leb_spec j1 i1).
  - exists a, j1. split; [auto|]. split; [lia|]. split; [constructor|]. split.
    + intros k Hk. destruct (Z.le_gt_cases k i); [apply Lo; lia|].
      destruct (Z.eq_dec k j1) as [->|]; [auto|]. assert (kv a k < kv a l) by (apply D1; lia). lia.
    + intros k Hk. destruct (Z.le_gt_cases j k); [apply Hi'; lia|].
      assert (kv a l < kv a k) by (apply D2; lia). lia.
  - destruct (q_swap_ok a i1 j1) as (b & E & L & G); try lia. rewrite E. cbn [bind].
    assert (Gl : zget b l = zget a l).
    { rewrite G. destruct (Z.eqb_spec l i1); [lia|]. destruct (Z.eqb_spec l j1); [lia|]. auto. }
    destruct (IH b i1 j1) as (c & j' & R1 & R2 & R3 & R4 & R5); try lia.
    + intros k Hk. rewrite Gl, G. destruct (Z.eqb_spec k i1) as [->|]; [auto|].
      destruct (Z.eqb_spec k j1); [lia|]. destruct (Z.le_gt_cases k i); [apply Lo; lia|].
      assert (kv a k < kv a l) by (apply D1; lia). lia.
    + intros k Hk. rewrite Gl, G. destruct (Z.eqb_spec k i1); [lia|].
      destruct (Z.eqb_spec k j1) as [->|]; [auto|]. destruct (Z.le_gt_cases j k); [apply Hi'; lia|].
      assert (kv a l < kv a k) by (apply D2; lia). lia.
    + exists c, j'. split; [auto|]. split; [lia|]. split; [|auto].
      eapply steps_trans; [|exact R3]. apply (steps_one _ _ a b i1 j1); auto; lia.
Qed.

Lemma q_partition_ok a l r : 0 <= l -> r < zlen a -> 4 <= r - l ->
  exists b j, q_partition key a l r = Ret (b, j + 1, j - 1) /\ l + 1 <= j <= r - 1 /\
    steps l r a b /\
    (forall k, l <= k < j -> kv b k <= kv b j) /\ (forall k, j < k <= r -> kv b j <= kv b k).
Proof.
  intros Hl Hr Hs. unfold q_partition. cbv zeta. rewrite Z.shiftr_div_pow2 by lia. change (2 ^ 1) with 2.
  set (m := l + (r - l) / 2).
  assert (Hm : l + 2 <= m < r) by (unfold m; pose proof (Z.div_mod (r - l) 2); pose proof (Z.mod_pos_bound (r - l) 2); lia).
  destruct (q_sort3_ok a (l + 1) m r l r) as (b & E1 & S1 & A1 & A2); try lia. rewrite E1. cbn [bind].
  destruct (steps_facts l r a b Hl Hr S1) as (L1 & _).
  destruct (q_swap_ok b l m) as (c & E2 & L2 & G2); try lia. rewrite E2. cbn [bind].
  assert (S2 : steps l r b c) by (apply (steps_one l r b c l m); auto; lia).
  assert (Gl : zget c l = zget b m) by (rewrite G2, Z.eqb_refl; auto).
  assert (Gl1 : zget c (l + 1) = zget b (l + 1)).
  { rewrite G2. destruct (Z.eqb_spec (l + 1) l); [lia|]. destruct (Z.eqb_spec (l + 1) m); [lia|]. auto. }
  assert (Gr : zget c r = zget b r).
  { rewrite G2. destruct (Z.eqb_spec r l); [lia|]. destruct (Z.eqb_spec r m); [lia|]. auto. }
  destruct (part_loop_ok l r Hl (S (length c)) c (l + 1) r) as (d & j & E3 & B3 & S3 & A3 & A4); try lia.
  { unfold zlen in *; lia. }
  { intros k Hk. replace k with (l + 1) by lia. rewrite Gl, Gl1. auto. }
  { intros k Hk. replace k with r by lia. rewrite Gl, Gr. auto. }
  rewrite E3. cbn [bind].
  destruct (steps_facts (l + 1) r c d) as (L3 & _ & O3 & _); try lia; auto.
  destruct (q_swap_ok d l j) as (e & E4 & L4 & G4); try lia. rewrite E4. cbn [bind].
  exists e, j. split; [auto|]. split; [lia|]. split.
  { eapply steps_trans; [exact S1|]. eapply steps_trans; [exact S2|].
    eapply steps_trans; [apply (steps_mono (l + 1) r); [lia|lia|exact S3]|].
    apply (steps_one l r d e l j); auto; lia. }
  assert (Gj : zget e j = zget d l).
  { rewrite G4. destruct (Z.eqb_spec j l); [lia|]. rewrite Z.eqb_refl. auto. }
  split; intros k Hk; rewrite Gj, G4.
  - destruct (Z.eqb_spec k l); [apply A3; lia|]. destruct (Z.eqb_spec k j); [lia|]. apply A3; lia.
  - destruct (Z.eqb_spec k l); [lia|]. destruct (Z.eqb_spec k j); [lia|]. apply A4; lia.
Qed.

(** ** Insertion sort *)
Definition sorted_on (a : list A) (l r : Z) : Prop :=
  forall i j, l <= i <= j -> j <= r -> kv a i <= kv a j.

(** Everything in [l,p] is in order except possibly element [j], which is not greater than the
    elements after it. *)
Lemma q_sift_ok l p : 0 <= l -> forall fuel a j,
  p < zlen a -> l <= j <= p -> (Z.to_nat (j - l) < fuel)%nat ->
  (forall x y, l <= x <= y -> y <= p -> x <> j -> y <> j -> kv a x <= kv a y) ->
  (forall y, j < y <= p -> kv a j <= kv a y) ->
  exists b, q_sift key fuel a l j = Ret b /\ steps l p a b /\ sorted_on b l p.
Proof.
  intros Hl fuel. induction fuel as [|f IH]; intros a j Hp Hj Hf H1 H2; [lia|].
  cbn [q_sift]. destruct (Z.ltb_spec l j) as [C|C].
  - rewrite q_less_ok by lia. cbn [bind]. destruct (Z.ltb_spec (kv a j) (kv a (j - 1))) as [D|D].
    + destruct (q_swap_ok a j (j - 1)) as (b & E & L & G); try lia. rewrite E. cbn [bind].
      assert (Gj : zget b j = zget a (j - 1)) by (rewrite G, Z.eqb_refl; auto).
      assert (Gj1 : zget b (j - 1) = zget a j).
      { rewrite G. destruct (Z.eqb_spec (j - 1) j); [lia|]. rewrite Z.eqb_refl; auto. }
      assert (Go : forall k, k <> j -> k <> j - 1 -> zget b k = zget a k).
      { intros k N1 N2. rewrite G. destruct (Z.eqb_spec k j); [lia|]. destruct (Z.eqb_spec k (j - 1)); [lia|]. auto. }
      destruct (IH b (j - 1)) as (c & E' & S & O); try lia.
      * intros x y Hx Hy N1 N2.
        destruct (Z.eq_dec x j) as [->|Nx]; destruct (Z.eq_dec y j) as [->|Ny]; try lia.
        -- rewrite Gj, Go by lia. apply H1; lia.
        -- rewrite Gj, Go by lia. apply H1; lia.
        -- rewrite !Go by lia. apply H1; lia.
      * intros y Hy. rewrite Gj1. destruct (Z.eq_dec y j) as [->|].
        -- rewrite Gj. lia.
        -- rewrite Go by lia. apply H2; lia.
      * exists c. split; [auto|]. split; [|auto]. eapply steps_trans; [|exact S].
        apply (steps_one l p a b j (j - 1)); auto; lia.
    + exists a. split; [auto|]. split; [constructor|]. intros x y Hx Hy.
      destruct (Z.eq_dec x j) as [->|]; destruct (Z.eq_dec y j) as [->|]; try lia.
      * apply H2; lia.
      * assert (kv a x <= kv a (j - 1)) by (apply H1; lia). lia.
      * apply H1; lia.
  - assert (j = l) by lia. subst j. exists a. split; [auto|]. split; [constructor|]. intros x y Hx Hy.
    destruct (Z.eq_dec x l) as [->|]; destruct (Z.eq_dec y l) as [->|]; try lia.
    + apply H2; lia.
    + apply H1; lia.
Qed.

Lemma q_insertion_ok a l r : 0 <= l -> l <= r -> r < zlen a ->
  exists b, q_insertion_sort key a l r = Ret b /\ steps l r a b /\ sorted_on b l r.
Proof.
  intros Hl Hlr Hr. unfold q_insertion_sort.
  destruct (foldM_range_inv (fun a k => q_sift key (S (length a)) a l (l + 1 + k))
     (fun n b => steps l r a b /\ sorted_on b l (l + n)) (r - l) a) as (b & E & S & O).
  - lia.
  - split; [constructor|]. intros i j Hi Hj. replace i with l by lia. replace j with l by lia. lia.
  - intros i b Hi [S O]. destruct (steps_facts l r a b Hl Hr S) as (L & _).
    destruct (q_sift_ok l (l + (i + 1)) Hl (Datatypes.S (length b)) b (l + 1 + i)) as (c & E & S' & O').
    + lia.
    + lia.
    + unfold zlen in *; lia.
    + intros x y Hx Hy N1 N2. apply O; lia.
    + intros y Hy. lia.
    + exists c. split; [auto|]. split; [|auto]. eapply steps_trans; [exact S|].
      apply (steps_mono l (l + (i + 1))); auto; lia.
  - exists b. split; [auto|]. split; [auto|]. intros i j Hi Hj. apply O; lia.
Qed.

(** ** Main loop *)
Definition in_seg (s : Z * Z) (k : Z) : Prop := fst s <= k <= snd s.
Definition seg_size (s : Z * Z) : Z := snd s - fst s + 1.

(** Positions not in a common pending segment are in order. *)
Definition pre_sorted (a : list A) (n : Z) (segs : list (Z * Z)) : Prop :=
  forall i j, 0 <= i < j -> j < n ->
    (exists s, In s segs /\ in_seg s i /\ in_seg s j) \/ kv a i <= kv a j.

Fixpoint stack_ok (n : Z) (st : list (Z * Z)) : Prop :=
  match st with
  | [] => True
  | s :: st' => 0 <= fst s <= snd s /\ snd s < n /\ seg_size s * 2 ^ zlen st' <= n /\ stack_ok n st'
  end.
Fixpoint disjoint_segs (segs : list (Z * Z)) : Prop :=
  match segs with
  | [] => True
  | s :: rest => (forall t, In t rest -> snd s < fst t \/ snd t < fst s) /\ disjoint_segs rest
  end.
Fixpoint measure (segs : list (Z * Z)) : Z :=
  match segs with [] => 0 | s :: rest => 2 * seg_size s + 1 + measure rest end.

Lemma stack_bounds n st s : stack_ok n st -> In s st -> 0 <= fst s <= snd s /\ snd s < n.
Proof. induction st as [|x st IH]; simpl; [tauto|]. intros (H1 & H2 & H3 & H4) [->|H]; auto. Qed.

(** Replacing a segment's content by swaps inside it keeps [pre_sorted]. *)
Lemma pre_sorted_steps a b n l r rest : 0 <= l -> r < n -> n <= zlen a ->
  (forall t, In t rest -> r < fst t \/ snd t < l) ->
  steps l r a b -> pre_sorted a n ((l, r) :: rest) -> pre_sorted b n ((l, r) :: rest).
Proof.
  intros Hl Hr Hn Hd S H.
  destruct (steps_facts l r a b Hl ltac:(lia) S) as (L & _ & O & I).
  intros i j Hij Hj.
  assert (Dec : forall k, l <= k <= r \/ ~ (l <= k <= r)) by (intros; lia).
  destruct (Dec i) as [Di|Di], (Dec j) as [Dj|Dj].
  - left. exists (l, r). split; [left; auto|]. unfold in_seg; simpl; lia.
  - destruct (I i Di) as (i' & Bi & Ei). rewrite Ei, (O j Dj).
    destruct (H i' j) as [(s & Hs & Si & Sj)|Hle]; [lia|lia| |auto].
    unfold in_seg in *. destruct Hs as [<-|Hs]; [simpl in *; lia|].
    destruct (Hd s Hs); lia.
  - destruct (I j Dj) as (j' & Bj & Ej). rewrite Ej, (O i Di).
    destruct (H i j') as [(s & Hs & Si & Sj)|Hle]; [lia|lia| |auto].
    unfold in_seg in *. destruct Hs as [<-|Hs]; [simpl in *; lia|].
    destruct (Hd s Hs); lia.
  - rewrite (O i Di), (O j Dj). auto.
Qed.

Lemma measure_nonneg n st : stack_ok n st -> 0 <= measure st.
Proof.
  induction st as [|s st IH]; simpl; [lia|]. intros (H1 & H2 & _ & H4). unfold seg_size. specialize (IH H4). lia.
Qed.

Theorem q_loop_ok n : n < 2 ^ 48 -> forall fuel a st l r,
  n <= zlen a -> 0 <= l <= r -> r < n ->
  (r - l + 1) * 2 ^ zlen st <= n ->
  stack_ok n st -> disjoint_segs ((l, r) :: st) -> pre_sorted a n ((l, r) :: st) ->
  (Z.to_nat (measure ((l, r) :: st)) < fuel)%nat ->
  exists b, q_loop key fuel a st l r = Ret b /\ steps 0 (n - 1) a b /\ sorted_on b 0 (n - 1).
Proof.
  intros Hn fuel. induction fuel as [|f IH]; intros a st l r Hz Hlr Hr Hsz Hst Hdis Hpre Hf; [lia|].
  cbn [q_loop]. unfold Q_THRESH.
  pose proof (measure_nonneg n st Hst) as Mn.
  cbn [measure] in Hf. unfold seg_size in Hf. cbn [fst snd] in Hf.
  destruct Hdis as [Hd1 Hd2]. cbn [fst snd] in Hd1.
  assert (P2 : 0 < 2 ^ zlen st) by (apply Z.pow_pos_nonneg; [lia|apply zlen_nonneg]).
  destruct (Z.leb_spec 16 (r - l + 1)) as [C|C].
  - destruct (q_partition_ok a l r) as (b & j & E & Bj & S & Lo & Hi); try lia.
    rewrite E. cbn [bind].
    destruct (steps_facts l r a b ltac:(lia) ltac:(lia) S) as (L & _).
    assert (Hpre' := pre_sorted_steps a b n l r st ltac:(lia) Hr Hz Hd1 S Hpre).
    (* the two subfiles *)
    assert (Hsplit : forall s1 s2, (s1 = (l, j - 1) /\ s2 = (j + 1, r)) \/ (s1 = (j + 1, r) /\ s2 = (l, j - 1)) ->
        pre_sorted b n (s1 :: s2 :: st)).
    { intros s1 s2 Hs x y Hxy Hy. destruct (Hpre' x y Hxy Hy) as [(s & Hs' & Sx & Sy)|Hle]; [|auto].
      unfold in_seg in Sx, Sy. destruct Hs' as [<-|Hs'].
      - cbn [fst snd] in Sx, Sy.
        assert (Q : (l <= x <= j - 1 /\ l <= y <= j - 1) \/ (j + 1 <= x <= r /\ j + 1 <= y <= r) \/
                    (x < j /\ j <= y) \/ (x = j /\ j < y)) by lia.
        destruct Q as [Q|[Q|[Q|Q]]].
        + left. exists (l, j - 1). split; [destruct Hs as [[-> ->]|[-> ->]]; simpl; auto|]. unfold in_seg; simpl; lia.
        + left. exists (j + 1, r). split; [destruct Hs as [[-> ->]|[-> ->]]; simpl; auto|]. unfold in_seg; simpl; lia.
        + right. assert (kv b x <= kv b j) by (apply Lo; lia).
          destruct (Z.eq_dec y j) as [->|]; [auto|]. assert (kv b j <= kv b y) by (apply Hi; lia). lia.
        + right. destruct Q as [-> Q]. apply Hi; lia.
      - left. exists s. split; [right; right; auto|]. unfold in_seg; auto. }
    (* dropping a one-element segment keeps pre_sorted *)
    assert (Hdrop : forall s1 x, pre_sorted b n (s1 :: (x, x) :: st) -> pre_sorted b n (s1 :: st)).
    { intros s1 x H p q Hpq Hq. destruct (H p q Hpq Hq) as [(s & [<-|[<-|Hs]] & Sp & Sq)|]; auto.
      - left; exists s1; simpl; auto.
      - unfold in_seg in *; simpl in *; lia.
      - left; exists s; simpl; auto. }
    assert (Main : forall l1 r1 l2 r2,
        ((l1, r1) = (l, j - 1) /\ (l2, r2) = (j + 1, r)) \/ ((l1, r1) = (j + 1, r) /\ (l2, r2) = (l, j - 1)) ->
        r2 - l2 <= r1 - l1 ->
        exists b', (let* (st, l, r) := q_subfiles st l1 r1 l2 r2 in q_loop key f b st l r) = Ret b' /\
                   steps 0 (n - 1) a b' /\ sorted_on b' 0 (n - 1)).
    { intros l1 r1 l2 r2 Hs Hsmall.
      assert (Bs : l <= l1 <= r1 /\ r1 <= r /\ l <= l2 <= r2 /\ r2 <= r /\ (r1 < l2 \/ r2 < l1) /\
                   (r1 - l1 + 1) + (r2 - l2 + 1) = r - l).
      { destruct Hs as [[H1 H2]|[H1 H2]]; injection H1 as -> ->; injection H2 as -> ->; lia. }
      assert (Hps := Hsplit (l1, r1) (l2, r2) ltac:(tauto)).
      assert (S0 : steps 0 (n - 1) a b) by (apply (steps_mono l r); [lia|lia|exact S]).
      assert (Dout : forall s t, (s = (l1, r1) \/ s = (l2, r2)) -> In t st -> snd s < fst t \/ snd t < fst s).
      { intros s t Hs' Ht. destruct (Hd1 t Ht); destruct Hs' as [-> | ->]; simpl; lia. }
      unfold q_subfiles. destruct (Z.eqb_spec l2 r2) as [E2|E2].
      - cbn [bind]. subst r2. destruct (IH b st l1 r1) as (b' & R1 & R2 & R3); [lia|lia|lia| | | | | |].
        + apply Z.le_trans with ((r - l + 1) * 2 ^ zlen st); [|exact Hsz]. apply Z.mul_le_mono_nonneg_r; lia.
        + auto.
        + split; [|auto]. intros t Ht. apply (Dout (l1, r1)); auto.
        + eapply Hdrop; eauto.
        + cbn [measure]. unfold seg_size; cbn [fst snd]. lia.
        + exists b'. split; [auto|]. split; [|auto]. eapply steps_trans; eauto.
      - assert (Hcap : zlen st < 48).
        { destruct (Z.lt_ge_cases (zlen st) 48); auto. exfalso.
          assert (2 ^ 48 <= 2 ^ zlen st) by (apply Z.pow_le_mono_r; lia). nia. }
        unfold Q_STACK. destruct (Z.leb_spec 48 (zlen st)); [lia|]. cbn [bind].
        assert (Pz : 2 ^ zlen ((l1, r1) :: st) = 2 * 2 ^ zlen st).
        { rewrite zlen_cons. rewrite Z.pow_add_r by (try lia; apply zlen_nonneg). lia. }
        destruct (IH b ((l1, r1) :: st) l2 r2) as (b' & R1 & R2 & R3); [lia|lia|lia| | | | | |].
        + rewrite Pz. apply Z.le_trans with ((r - l + 1) * 2 ^ zlen st); [|exact Hsz].
          replace ((r2 - l2 + 1) * (2 * 2 ^ zlen st)) with ((2 * (r2 - l2 + 1)) * 2 ^ zlen st) by ring.
          apply Z.mul_le_mono_nonneg_r; lia.
        + cbn [stack_ok]. unfold seg_size; cbn [fst snd]. split; [lia|]. split; [lia|]. split; [|auto].
          apply Z.le_trans with ((r - l + 1) * 2 ^ zlen st); [|exact Hsz]. apply Z.mul_le_mono_nonneg_r; lia.
        + split.
          * intros t [<-|Ht]; [cbn [fst snd]; lia|]. apply (Dout (l2, r2)); auto.
          * split; [|auto]. intros t Ht. apply (Dout (l1, r1)); auto.
        + intros p q Hp Hq. destruct (Hps p q Hp Hq) as [(s & Hs' & Sp & Sq)|]; auto.
          left. exists s. split; auto. simpl in *. tauto.
        + cbn [measure]. unfold seg_size; cbn [fst snd]. lia.
        + exists b'. split; [auto|]. split; [|auto]. eapply steps_trans; eauto. }
    cbv beta.
    destruct (Z.leb_spec (r - (j + 1)) (j - 1 - l)); apply Main; auto; lia.
  - destruct (q_insertion_ok a l r) as (b & E & S & O); try lia. rewrite E. cbn [bind].
    destruct (steps_facts l r a b ltac:(lia) ltac:(lia) S) as (L & _).
    assert (Hpre' := pre_sorted_steps a b n l r st ltac:(lia) Hr Hz Hd1 S Hpre).
    assert (Hp2 : pre_sorted b n st).
    { intros x y Hxy Hy. destruct (Hpre' x y Hxy Hy) as [(s & [<-|Hs] & Sx & Sy)|]; auto.
      - right. unfold in_seg in *; cbn [fst snd] in *. apply O; lia.
      - left; exists s; auto. }
    assert (S0 : steps 0 (n - 1) a b) by (apply (steps_mono l r); [lia|lia|exact S]).
    destruct st as [|[l' r'] st'].
    + exists b. split; [auto|]. split; [auto|]. intros i j Hi Hj.
      destruct (Z.eq_dec i j) as [->|]; [lia|].
      destruct (Hp2 i j) as [(s & [] & _)|]; auto; lia.
    + destruct Hst as (B1 & B2 & B3 & B4). cbn [fst snd] in *.
      destruct (IH b st' l' r') as (b' & R1 & R2 & R3); [lia|lia|lia| |auto|auto|auto| |].
      * unfold seg_size in B3; cbn [fst snd] in B3. exact B3.
      * cbn [measure] in Hf, Mn |- *. unfold seg_size in Hf, Mn |- *; cbn [fst snd] in Hf, Mn |- *. lia.
      * exists b'. split; [auto|]. split; [|auto]. eapply steps_trans; eauto.
Qed.

Theorem q_sort_ok a n : 0 <= n <= zlen a -> n < 2 ^ 48 ->
  exists b, q_sort key a n = Ret b /\ Permutation a b /\ zlen b = zlen a /\
    (forall k, n <= k -> zget b k = zget a k) /\
    (forall k, 0 <= k < n -> exists k', 0 <= k' < n /\ zget b k = zget a k') /\
    (forall i j x y, 0 <= i <= j -> j < n -> zget b i = Ret x -> zget b j = Ret y -> key x <= key y).
Proof.
  intros Hn Hb. unfold q_sort. destruct (Z.ltb_spec 1 n).
  - destruct (q_loop_ok n Hb (Z.to_nat (2 * n + 2)) a [] 0 (n - 1)) as (b & E & S & O); try lia.
    + change (2 ^ zlen []) with 1. lia.
    + exact I.
    + split; [intros t []|exact I].
    + intros i j Hij Hj. left. exists (0, n - 1). split; [left; auto|]. unfold in_seg; simpl; lia.
    + cbn [measure]. unfold seg_size; simpl fst; simpl snd. lia.
    + exists b. destruct (steps_facts 0 (n - 1) a b ltac:(lia) ltac:(lia) S) as (L & P & Out & In_).
      split; [auto|]. split; [auto|]. split; [auto|]. split; [intros; apply Out; lia|]. split.
      * intros k Hk. destruct (In_ k) as (k' & Hk' & Ek); [lia|]. exists k'; split; [lia|auto].
      * intros i j x y Hij Hj Ex Ey. specialize (O i j Hij ltac:(lia)). rewrite Ex, Ey in O. auto.
  - exists a. split; [auto|]. split; [auto|]. split; [auto|]. split; [auto|]. split; [eauto|].
    intros i j x y Hij Hj Ex Ey. replace j with i in Ey by lia. rewrite Ex in Ey. injection Ey as ->. lia.
Qed.
End Proof.
