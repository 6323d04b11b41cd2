(** Closed forms of the loops of numeric kernels. *)
From Coq Require Import ZArith List Lia Bool.
From Verif.Base Require Import Res ListX Loops.
Import ListNotations.
Open Scope Z_scope.
Open Scope res_scope.

Lemma foldM_pure {A S} (f : S -> A -> S) l s : foldM (fun s a => Ret (f s a)) s l = Ret (fold_left f l s).
Proof. revert s; induction l as [|a l IH]; intros s; simpl; auto. Qed.
Lemma foldM_pure_ext {A S} (g : S -> A -> res S) (f : S -> A -> S) l s :
  (forall s a, In a l -> g s a = Ret (f s a)) -> foldM g s l = Ret (fold_left f l s).
Proof. intros H. rewrite <- foldM_pure. apply foldM_ext. exact H. Qed.
Lemma zrange_In i n : In i (zrange n) -> 0 <= i < n.
Proof. unfold zrange. rewrite in_map_iff. intros (k & <- & H). apply in_seq in H. lia. Qed.
Lemma zlen_map {A B} (f : A -> B) l : zlen (map f l) = zlen l.
Proof. unfold zlen. now rewrite map_length. Qed.
Lemma zlen_zrange' n : zlen (zrange n) = Z.max 0 n.
Proof. unfold zlen, zrange. rewrite map_length, seq_length. lia. Qed.
Lemma zget_zrange' n i : 0 <= i < n -> zget (zrange n) i = Ret i.
Proof.
  intros H. apply zget_Ret. split; [lia|]. unfold zrange. rewrite nth_error_map.
  rewrite (nth_error_nth' _ 0%nat) by (rewrite seq_length; lia). rewrite seq_nth by lia. simpl. f_equal. lia.
Qed.
Lemma zget_skipn {A} (l : list A) n i : 0 <= n -> 0 <= i -> zget (skipn (Z.to_nat n) l) i = zget l (n + i).
Proof.
  intros Hn Hi. unfold zget. destruct (Z.ltb_spec i 0), (Z.ltb_spec (n + i) 0); try lia.
  replace (Z.to_nat (n + i)) with (Z.to_nat n + Z.to_nat i)%nat by lia. generalize (Z.to_nat n) (Z.to_nat i). clear.
  intros n i. revert l. induction n as [|n IH]; intros l; simpl; auto. destruct l; simpl; [destruct i; reflexivity|]. apply IH.
Qed.
Lemma zget_firstn {A} (l : list A) n i : 0 <= i < n -> zget (firstn (Z.to_nat n) l) i = zget l i.
Proof.
  intros H. unfold zget. destruct (Z.ltb_spec i 0); [lia|]. assert (L : (Z.to_nat i < Z.to_nat n)%nat) by lia.
  revert L. generalize (Z.to_nat n) (Z.to_nat i). clear. intros n i. revert l i.
  induction n as [|n IH]; intros l i L; [lia|]. destruct l; [reflexivity|]. destruct i; [reflexivity|]. simpl. apply IH. lia.
Qed.
Lemma zget_app_l {A} (l1 l2 : list A) i : 0 <= i < zlen l1 -> zget (l1 ++ l2) i = zget l1 i.
Proof. intros H. destruct (zget_ok l1 i H) as [x E]. rewrite E. now apply zget_app1. Qed.
Lemma zget_app_r {A} (l1 l2 : list A) i : zlen l1 <= i -> zget (l1 ++ l2) i = zget l2 (i - zlen l1).
Proof.
  intros H. unfold zget, zlen in *. destruct (Z.ltb_spec i 0), (Z.ltb_spec (i - Z.of_nat (length l1)) 0); try lia.
  rewrite nth_error_app2 by lia. replace (Z.to_nat (i - _)) with (Z.to_nat i - length l1)%nat by lia. reflexivity.
Qed.
Lemma zlen_skipn {A} (l : list A) n : 0 <= n -> zlen (skipn (Z.to_nat n) l) = Z.max 0 (zlen l - n).
Proof. intros. unfold zlen. rewrite skipn_length. lia. Qed.
Lemma zlen_firstn {A} (l : list A) n : 0 <= n -> zlen (firstn (Z.to_nat n) l) = Z.min n (zlen l).
Proof. intros. unfold zlen. rewrite firstn_length. lia. Qed.

(** for (i=0;i<n;i++) out[i] = g(i) *)
Lemma fill_app {A} (g : Z -> A) (out : list A) n : 0 <= n <= zlen out ->
  foldM (fun o i => zset o i (g i)) out (zrange n) = Ret (map g (zrange n) ++ skipn (Z.to_nat n) out).
Proof.
  intros Hn. destruct (foldM_fill g out n Hn) as (o & E & H1 & H2 & H3). rewrite E. f_equal.
  apply zget_eq.
  - rewrite zlen_app, zlen_map, zlen_zrange', zlen_skipn by lia. lia.
  - intros i Hi. destruct (Z.lt_ge_cases i n).
    + rewrite H2 by lia. rewrite zget_app_l by (rewrite zlen_map, zlen_zrange'; lia).
      rewrite zget_map, zget_zrange' by lia. reflexivity.
    + rewrite H3 by lia. rewrite zget_app_r by (rewrite zlen_map, zlen_zrange'; lia).
      rewrite zlen_map, zlen_zrange', zget_skipn by lia. f_equal. lia.
Qed.
(** The body may read anything that the loop does not change. *)
Lemma fill_app_ext {A} (body : list A -> Z -> res (list A)) (g : Z -> A) (out : list A) n : 0 <= n <= zlen out ->
  (forall o i, 0 <= i < n -> body o i = zset o i (g i)) ->
  foldM body out (zrange n) = Ret (map g (zrange n) ++ skipn (Z.to_nat n) out).
Proof.
  intros Hn H. rewrite <- fill_app by exact Hn. apply foldM_ext. intros o i Hi. apply H. now apply zrange_In.
Qed.
(** for (i=0;i<n;i++) out[i] = f(out[i]) *)
Lemma update_app {A} (f : A -> A) (l rest : list A) n : n = zlen l ->
  foldM (fun o i => let* x := zget o i in zset o i (f x)) (l ++ rest) (zrange n) = Ret (map f l ++ rest).
Proof.
  intros ->. pose proof (zlen_nonneg l). pose proof (zlen_nonneg rest).
  destruct (foldM_update (fun _ => f) (l ++ rest) (zlen l)) as (o & E & H1 & H2 & H3); [rewrite zlen_app; lia|].
  rewrite E. f_equal. rewrite zlen_app in H1. apply zget_eq.
  - rewrite zlen_app, zlen_map. lia.
  - intros i Hi. destruct (Z.lt_ge_cases i (zlen l)).
    + destruct (zget_ok l i ltac:(lia)) as [x Hx]. rewrite (H2 i x) by (try lia; now rewrite zget_app_l by lia).
      rewrite zget_app_l by (rewrite zlen_map; lia). rewrite zget_map, Hx. reflexivity.
    + rewrite H3 by lia. rewrite !zget_app_r by (rewrite ?zlen_map; lia). now rewrite zlen_map.
Qed.
(** A loop that reads a list from the start. *)
Lemma fold_prefix {A S} (f : S -> A -> S) (l rest : list A) n s : n = zlen l ->
  foldM (fun s i => let* x := zget (l ++ rest) i in Ret (f s x)) s (zrange n) = Ret (fold_left f l s).
Proof.
  intros ->. rewrite (foldM_ext _ (fun s i => let* x := zget l i in Ret (f s x))).
  - rewrite foldM_index, foldM_pure. reflexivity.
  - intros a i Hi. apply zrange_In in Hi. rewrite zget_app_l by exact Hi. reflexivity.
Qed.
(** Elements by index. *)
Definition znth {A} (d : A) (l : list A) (i : Z) : A := nth (Z.to_nat i) l d.
Lemma zget_znth {A} (d : A) l i : 0 <= i < zlen l -> zget l i = Ret (znth d l i).
Proof. intros. apply zget_nth. auto. Qed.
Lemma znth_app_l {A} (d : A) l1 l2 i : 0 <= i < zlen l1 -> znth d (l1 ++ l2) i = znth d l1 i.
Proof. intros. unfold znth, zlen in *. apply app_nth1. lia. Qed.
Lemma map_znth {A} (d : A) l : map (znth d l) (zrange (zlen l)) = l.
Proof.
  apply zget_eq; [rewrite zlen_map, zlen_zrange'; pose proof (zlen_nonneg l); lia|].
  intros i Hi. rewrite zlen_map, zlen_zrange' in Hi. rewrite zget_map, zget_zrange' by lia. cbn [bind].
  symmetry. apply zget_znth. lia.
Qed.
Lemma fold_left_ext {A S} (f g : S -> A -> S) l s :
  (forall s a, In a l -> f s a = g s a) -> fold_left f l s = fold_left g l s.
Proof.
  revert s; induction l as [|a l IH]; intros s H; simpl; auto. rewrite H by (left; auto). apply IH. intros; apply H; now right.
Qed.
Lemma copy_app {A} (dst src : list A) n : 0 <= n <= zlen dst -> n <= zlen src ->
  foldM (fun d i => let* x := zget src i in zset d i x) dst (zrange n) = Ret (firstn (Z.to_nat n) src ++ skipn (Z.to_nat n) dst).
Proof.
  intros H1 H2. destruct src as [|d0 src'].
  { assert (n = 0) by (unfold zlen in H2; simpl in H2; lia). subst. reflexivity. }
  set (src := d0 :: src') in *. rewrite (fill_app_ext _ (znth d0 src) dst n H1).
  - f_equal. f_equal. transitivity (map (znth d0 (firstn (Z.to_nat n) src)) (zrange n)).
    + apply map_ext_in. intros i Hi. apply zrange_In in Hi. unfold znth.
      assert (L : (Z.to_nat i < Z.to_nat n)%nat) by lia. revert L. generalize (Z.to_nat i) (Z.to_nat n) src.
      clear. intros i n l. revert i n. induction l as [|a l IH]; intros [|i] [|n] L; try lia; simpl; auto. apply IH. lia.
    + rewrite <- (map_znth d0 (firstn (Z.to_nat n) src)) at 2. rewrite zlen_firstn by lia. do 2 f_equal. lia.
  - intros o i Hi. rewrite (zget_znth d0) by lia. reflexivity.
Qed.
