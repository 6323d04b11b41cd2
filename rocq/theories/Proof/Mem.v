(** memcpy. *)
From Coq Require Import ZArith List Bool Lia.
From Verif.Base Require Import Res ListX Loops.
From Verif.Model Require Import Mem.
Import ListNotations.
Open Scope Z_scope.
Open Scope res_scope.

Theorem memcpy2_ok {A} (pre old post spre new spost : list A) : length old = length new ->
  memcpy2 (pre ++ old ++ post) (zlen pre) (spre ++ new ++ spost) (zlen spre) (zlen new)
  = Ret (pre ++ new ++ post).
Proof.
  intros Hl. unfold memcpy2.
  rewrite (foldM_ext _ (fun d i => let* v := zget new i in zset d (zlen pre + i) v)).
  2:{ intros s i Hi. apply zrange_In in Hi. destruct (zget_ok new i Hi) as [v Ev]. rewrite Ev.
      rewrite (zget_app2 spre (new ++ spost) i v); [reflexivity|]. apply zget_app1; auto. }
  destruct (foldM_range_inv (fun d i => let* v := zget new i in zset d (zlen pre + i) v)
    (fun k d => zlen d = zlen (pre ++ old ++ post) /\
       forall j, zget d j = if (zlen pre <=? j) && (j <? zlen pre + k) then zget new (j - zlen pre)
                            else zget (pre ++ old ++ post) j) (zlen new) (pre ++ old ++ post))
    as (d & E & L & G).
  - apply zlen_nonneg.
  - split; [auto|]. intros j. destruct (Z.leb_spec (zlen pre) j), (Z.ltb_spec j (zlen pre + 0)); cbn; auto; lia.
  - intros i d Hi (L & G). destruct (zget_ok new i Hi) as [v Ev]. rewrite Ev. cbn [bind].
    assert (B : 0 <= zlen pre + i < zlen d).
    { rewrite L, !zlen_app. pose proof (zlen_nonneg pre). pose proof (zlen_nonneg post). unfold zlen in *. lia. }
    rewrite zset_ok by exact B. eexists. split; [reflexivity|]. rewrite zlen_list_set. split; [auto|].
    intros j. rewrite zget_list_set by exact B. rewrite G.
    destruct (Z.eqb_spec (zlen pre + i) j), (Z.leb_spec (zlen pre) j), (Z.ltb_spec j (zlen pre + i)),
      (Z.ltb_spec j (zlen pre + (i + 1))); cbn [andb]; try lia; auto.
    subst j. replace (zlen pre + i - zlen pre) with i by lia. auto.
  - rewrite E. f_equal. apply zget_eq.
    + rewrite L, !zlen_app. unfold zlen. lia.
    + intros j Hj. rewrite G.
      destruct (Z.leb_spec (zlen pre) j); cbn [andb].
      * destruct (Z.ltb_spec j (zlen pre + zlen new)).
        -- destruct (zget_ok new (j - zlen pre)) as [v Ev]; [lia|]. rewrite Ev. symmetry.
           replace j with (zlen pre + (j - zlen pre)) by lia. apply zget_app2. apply zget_app1. auto.
        -- destruct (zget_ok (pre ++ old ++ post) j) as [v Ev]; [lia|]. rewrite Ev. symmetry.
           apply zget_app_inv in Ev as [Ev|[_ Ev]]; [apply zget_bound in Ev; lia|].
           apply zget_app_inv in Ev as [Ev|[B2 Ev]]; [apply zget_bound in Ev; unfold zlen in *; lia|].
           replace j with (zlen pre + (zlen new + (j - zlen pre - zlen new))) by lia.
           apply zget_app2, zget_app2. replace (zlen new) with (zlen old) by (unfold zlen; lia). auto.
      * destruct (zget_ok pre j) as [v Ev]; [lia|]. now rewrite !(zget_app1 _ _ _ _ Ev).
Qed.

Lemma list_set_split {A} (pre : list A) o post v : list_set (pre ++ o :: post) (length pre) v = pre ++ v :: post.
Proof. induction pre; simpl; f_equal; auto. Qed.

(** Rows of equal size. *)
Lemma rows_length {A} (R : list (list A)) rs :
  Forall (fun r => zlen r = rs) R -> zlen (concat R) = rs * zlen R.
Proof.
  induction 1 as [|x l Hx H IH]; simpl; [unfold zlen; simpl; lia|].
  rewrite zlen_app, zlen_cons, IH, Hx. ring.
Qed.
Lemma rows_split {A} (R : list (list A)) rs i r : Forall (fun r => zlen r = rs) R ->
  zget R i = Ret r -> exists R1 R2, R = R1 ++ r :: R2 /\ Z.of_nat (length R1) = i /\
    concat R = concat R1 ++ r ++ concat R2 /\ zlen (concat R1) = rs * i /\ zlen r = rs.
Proof.
  intros H E. apply zget_Ret in E as [Hi E]. apply nth_error_split in E as (R1 & R2 & -> & Hl).
  exists R1, R2. split; [auto|]. split; [lia|]. apply Forall_app in H as [H1 H2]. split; [|split].
  - rewrite concat_app. reflexivity.
  - rewrite (rows_length R1 rs H1). unfold zlen. f_equal. lia.
  - inversion H2; auto.
Qed.

(** Copying row [j] of one table over row [i] of another. *)
Theorem memcpy2_row {A} (R R' : list (list A)) rest rest' rs i j old new :
  Forall (fun r => zlen r = rs) R -> Forall (fun r => zlen r = rs) R' ->
  zget R i = Ret old -> zget R' j = Ret new ->
  memcpy2 (concat R ++ rest) (rs * i) (concat R' ++ rest') (rs * j) rs
  = Ret (concat (list_set R (Z.to_nat i) new) ++ rest).
Proof.
  intros H H' Ei Ej.
  destruct (rows_split R rs i old H Ei) as (R1 & R2 & -> & L1 & C1 & Z1 & Lo).
  destruct (rows_split R' rs j new H' Ej) as (R1' & R2' & -> & L1' & C1' & Z1' & Ln).
  rewrite C1, C1', <- Z1, <- Z1', <- Ln, <- !app_assoc.
  rewrite memcpy2_ok by (unfold zlen in *; lia).
  replace (Z.to_nat i) with (length R1) by lia. rewrite list_set_split, concat_app. simpl.
  now rewrite <- !app_assoc.
Qed.
Theorem memcpy1_row {A} (R : list (list A)) rest rs i j old new :
  Forall (fun r => zlen r = rs) R -> i <> j ->
  zget R i = Ret old -> zget R j = Ret new ->
  memcpy1 (concat R ++ rest) (rs * i) (rs * j) rs
  = Ret (concat (list_set R (Z.to_nat i) new) ++ rest).
Proof.
  intros H N Ei Ej. unfold memcpy1.
  destruct (Z.ltb_spec 0 rs); cbn [andb].
  - destruct (Z.ltb_spec (Z.abs (rs * i - rs * j)) rs); [exfalso|apply (memcpy2_row R R rest rest rs i j old new); auto].
    replace (rs * i - rs * j) with (rs * (i - j)) in * by ring. rewrite Z.abs_mul in *.
    assert (1 <= Z.abs (i - j)) by lia. nia.
  - apply (memcpy2_row R R rest rest rs i j old new); auto.
Qed.
