(** Proofs about the IIR filter. *)
From Coq Require Import ZArith List Bool Lia Reals Lra.
From Verif.Base Require Import Res CInt ListX Loops Arith Kernels.
From Verif.Model Require Import Common Iir.
From Verif.Spec Require Import IirSpec.
Import ListNotations.
Open Scope Z_scope.
Open Scope res_scope.

Section Any.
Context (A : arith).
Notation num := (num A).

(** What one section does. *)
Definition bq (s : sos num) (st : num * num) (x : num) : num * (num * num) :=
  let y := nadd A (fst st) (nmul A (b0 s) x) in
  (y, (nsub A (nadd A (snd st) (nmul A (b1 s) x)) (nmul A (a1 s) y), nsub A (nmul A (b2 s) x) (nmul A (a2 s) y))).
Fixpoint casc (ss : list (sos num)) (sts : list (num * num)) (x : num) : num * list (num * num) :=
  match ss, sts with
  | s :: ss, st :: sts => let '(y, st') := bq s st x in let '(z, sts') := casc ss sts y in (z, st' :: sts')
  | _, _ => (x, [])
  end.
(** The states in memory. *)
Fixpoint states_at (mem : list num) (off : Z) (sts : list (num * num)) : Prop :=
  match sts with
  | [] => True
  | (p, q) :: r => zget mem (off + 1) = Ret p /\ zget mem (off + 3) = Ret q /\ states_at mem (off + 4) r
  end.
Lemma states_at_ext mem mem' off sts :
  (forall i, off <= i < off + 4 * zlen sts -> zget mem' i = zget mem i) -> states_at mem off sts -> states_at mem' off sts.
Proof.
  revert off; induction sts as [|[p q] sts IH]; intros off H; simpl; auto. intros (H1 & H2 & H3).
  assert (Z1 : zlen ((p, q) :: sts) = zlen sts + 1) by (unfold zlen; simpl; lia). rewrite Z1 in H. pose proof (zlen_nonneg sts).
  rewrite !H by lia. split; [auto|]. split; [auto|]. apply IH; auto. intros i Hi. apply H. lia.
Qed.
Lemma states_exist mem off n : 0 <= n -> region_ok A mem off n -> exists sts, zlen sts = n /\ states_at mem off sts.
Proof.
  intros Hn. rewrite <- (Z2Nat.id n Hn). generalize (Z.to_nat n). clear n Hn. intros n. revert off; induction n as [|n IH]; intros off (H1 & H2).
  - exists []. split; [reflexivity|exact I].
  - destruct (IH (off + 4)) as (sts & L & S). { split; lia. }
    destruct (zget_ok mem (off + 1) ltac:(lia)) as [p Ep]. destruct (zget_ok mem (off + 3) ltac:(lia)) as [q Eq].
    exists ((p, q) :: sts). split; [unfold zlen in *; simpl; lia|]. simpl. auto.
Qed.

Lemma biquad_ok mem off coef c (s : sos num) p q x : 0 <= off -> off + 4 <= zlen mem ->
  zget mem (off + 1) = Ret p -> zget mem (off + 3) = Ret q ->
  zget coef (c + 0) = Ret (b0 s) -> zget coef (c + 1) = Ret (b1 s) -> zget coef (c + 2) = Ret (b2 s) ->
  zget coef (c + 3 + 1) = Ret (a1 s) -> zget coef (c + 3 + 2) = Ret (a2 s) ->
  let '(y, (p', q')) := bq s (p, q) x in
  exists mem', eml_biquad_tdf2 A mem off (off + 2) coef (c + 3) c x = Ret (y, mem') /\ zlen mem' = zlen mem /\
    zget mem' (off + 1) = Ret p' /\ zget mem' (off + 3) = Ret q' /\
    (forall i, i < off \/ off + 4 <= i -> zget mem' i = zget mem i).
Proof.
  intros O1 O2 P Q C0 C1 C2 D1 D2. unfold bq, fst, snd. unfold eml_biquad_tdf2.
  replace (off + 2 + 1) with (off + 3) by lia. replace (off + 2 + 0) with (off + 2) by lia. replace (off + 0) with off by lia.
  rewrite P, C0, Q, C1, D1. cbn [bind].
  set (y := nadd A p (nmul A (b0 s) x)). set (p' := nsub A (nadd A q (nmul A (b1 s) x)) (nmul A (a1 s) y)).
  rewrite zset_ok by lia. cbn [bind]. rewrite C2, D2. cbn [bind]. set (q' := nsub A (nmul A (b2 s) x) (nmul A (a2 s) y)).
  rewrite zset_ok by (rewrite zlen_list_set; lia). cbn [bind].
  rewrite zget_list_set by (rewrite zlen_list_set; lia). destruct (Z.eqb_spec (off + 2) off); [lia|].
  rewrite zget_list_set by lia. rewrite Z.eqb_refl. cbn [bind].
  rewrite zset_ok by (rewrite !zlen_list_set; lia). cbn [bind].
  rewrite zget_list_set by (rewrite !zlen_list_set; lia). destruct (Z.eqb_spec (off + 1) (off + 2)); [lia|].
  rewrite zget_list_set by (rewrite !zlen_list_set; lia). rewrite Z.eqb_refl. cbn [bind].
  rewrite zset_ok by (rewrite !zlen_list_set; lia). cbn [bind].
  eexists. split; [reflexivity|]. split; [rewrite !zlen_list_set; reflexivity|].
  split; [|split].
  - rewrite zget_list_set by (rewrite !zlen_list_set; lia). destruct (Z.eqb_spec (off + 3) (off + 1)); [lia|].
    rewrite zget_list_set by (rewrite !zlen_list_set; lia). rewrite Z.eqb_refl. reflexivity.
  - rewrite zget_list_set by (rewrite !zlen_list_set; lia). rewrite Z.eqb_refl. reflexivity.
  - intros i Hi. rewrite zget_list_set by (rewrite !zlen_list_set; lia). destruct (Z.eqb_spec (off + 3) i); [lia|].
    rewrite zget_list_set by (rewrite !zlen_list_set; lia). destruct (Z.eqb_spec (off + 1) i); [lia|].
    rewrite zget_list_set by (rewrite !zlen_list_set; lia). destruct (Z.eqb_spec (off + 2) i); [lia|].
    rewrite zget_list_set by lia. destruct (Z.eqb_spec off i); [lia|]. reflexivity.
Qed.

Lemma zlen_flat (ss : list (sos num)) : zlen (flat_map sos_list ss) = 6 * zlen ss.
Proof. induction ss as [|s ss IH]; [reflexivity|]. simpl flat_map. unfold zlen in *. simpl List.length. lia. Qed.
Lemma coef_at (dn : list (sos num)) s ss j : 0 <= j < 6 ->
  zget (flat_map sos_list (dn ++ s :: ss)) (6 * zlen dn + j) = zget (sos_list s) j.
Proof.
  intros Hj. rewrite flat_map_app, zget_app_r by (rewrite zlen_flat; lia). rewrite zlen_flat.
  replace (6 * zlen dn + j - 6 * zlen dn) with j by lia. cbn [flat_map]. apply zget_app_l.
  change (zlen (sos_list s)) with 6. exact Hj.
Qed.

Definition iir_body (f : iir A) := (fun '(out, mem) stage =>
      let* c0 := chk_int32 (6 * stage + 0) in
      let* c3 := chk_int32 (6 * stage + 3) in
      let* t0 := chk_int32 (4 * stage + 0) in
      let* t2 := chk_int32 (4 * stage + 2) in
      eml_biquad_tdf2 A mem (i_states A f + t0) (i_states A f + t2) (i_coefficients A f) c3 c0 out).

Lemma filter_loop all off : 6 * zlen all < 2 ^ 31 -> 0 <= off -> forall ss dn sts mem x,
  all = dn ++ ss -> zlen sts = zlen ss -> states_at mem (off + 4 * zlen dn) sts -> off + 4 * zlen all <= zlen mem ->
  let '(y, sts') := casc ss sts x in
  exists mem', foldM (iir_body (filter_of A all off)) (x, mem) (map Z.of_nat (seq (List.length dn) (List.length ss))) = Ret (y, mem') /\
    zlen mem' = zlen mem /\ zlen sts' = zlen ss /\ states_at mem' (off + 4 * zlen dn) sts' /\
    (forall i, i < off + 4 * zlen dn \/ off + 4 * zlen all <= i -> zget mem' i = zget mem i).
Proof.
  intros B O. induction ss as [|s ss IH]; intros dn sts mem x EA LS ST LM.
  - destruct sts as [|st sts]; [|unfold zlen in LS; simpl in LS; lia]. simpl. exists mem. auto 10.
  - destruct sts as [|[p q] sts]; [unfold zlen in LS; simpl in LS; lia|]. destruct ST as (S1 & S2 & S3).
    assert (ZA : zlen all = zlen dn + 1 + zlen ss) by (rewrite EA, zlen_app; unfold zlen; simpl; lia).
    pose proof (zlen_nonneg dn). pose proof (zlen_nonneg ss).
    pose proof (biquad_ok mem (off + 4 * zlen dn) (flat_map sos_list all) (6 * zlen dn) s p q x) as BQ.
    cbn [casc]. destruct (bq s (p, q) x) as [y [p' q']] eqn:EBQ. cbv zeta in BQ. try rewrite EBQ in BQ.
    destruct BQ as (mem1 & E1 & L1 & P1 & Q1 & F1); try lia; try assumption.
    1-5: rewrite EA, <- ?Z.add_assoc, coef_at by lia; reflexivity.
    specialize (IH (dn ++ [s]) sts mem1 y). assert (ZD : zlen (dn ++ [s]) = zlen dn + 1) by (rewrite zlen_app; reflexivity).
    rewrite ZD in IH. replace (off + 4 * (zlen dn + 1)) with (off + 4 * zlen dn + 4) in IH by lia.
    destruct (casc ss sts y) as [z sts'] eqn:EC.
    destruct IH as (mem2 & E2 & L2 & LS2 & ST2 & F2).
    + rewrite <- app_assoc. exact EA.
    + unfold zlen in *. simpl in LS. lia.
    + apply (states_at_ext mem); auto. intros i Hi. apply F1. right. lia.
    + lia.
    + exists mem2. simpl List.length. rewrite app_length in E2. simpl List.length in E2. rewrite Nat.add_1_r in E2.
      split.
      * simpl seq. simpl map. cbn [foldM]. unfold iir_body at 1.
        change (Z.of_nat (List.length dn)) with (zlen dn). rewrite !chk_int32_ok by (unfold int32_ok; lia). cbn [bind].
        unfold filter_of at 1 2 3. cbn [i_states i_coefficients].
        replace (6 * zlen dn + 0) with (6 * zlen dn) by lia. replace (off + (4 * zlen dn + 0)) with (off + 4 * zlen dn) by lia.
        replace (off + (4 * zlen dn + 2)) with (off + 4 * zlen dn + 2) by lia. rewrite E1. cbn [bind]. exact E2.
      * split; [lia|]. split; [unfold zlen in *; simpl in *; lia|]. split.
        -- simpl. rewrite !F2 by lia. auto.
        -- intros i Hi. rewrite F2 by lia. apply F1. lia.
Qed.
Theorem filter_ok ss off sts mem x : 6 * zlen ss < 2 ^ 31 -> 0 <= off -> zlen sts = zlen ss -> states_at mem off sts ->
  off + 4 * zlen ss <= zlen mem ->
  let '(y, sts') := casc ss sts x in
  exists mem', eml_iir_filter A (filter_of A ss off) mem x = Ret (y, mem') /\ zlen mem' = zlen mem /\ zlen sts' = zlen ss /\
    states_at mem' off sts' /\ (forall i, i < off \/ off + 4 * zlen ss <= i -> zget mem' i = zget mem i).
Proof.
  intros B O LS ST LM. pose proof (filter_loop ss off B O ss [] sts mem x eq_refl LS) as H.
  change (zlen (@nil (sos num))) with 0 in H. rewrite Z.mul_0_r, Z.add_0_r in H. specialize (H ST LM).
  destruct (casc ss sts x) as [y sts'].
  destruct H as (mem' & E & R). exists mem'. split; [|exact R]. unfold eml_iir_filter. simpl i_n_stages. unfold zrange, zlen.
  rewrite Nat2Z.id. exact E.
Qed.

(** Streams *)
Fixpoint run (ss : list (sos num)) (sts : list (num * num)) (xs : list num) : list num * list (num * num) :=
  match xs with
  | [] => ([], sts)
  | x :: xs => let '(y, sts1) := casc ss sts x in let '(ys, sts2) := run ss sts1 xs in (y :: ys, sts2)
  end.
Definition feed_body (f : iir A) := (fun '(ys, mem) x => bind (eml_iir_filter A f mem x) (fun '(y, mem) => Ret (ys ++ [y], mem))).
Lemma feed_ok ss off : 6 * zlen ss < 2 ^ 31 -> 0 <= off -> forall xs acc sts mem,
  zlen sts = zlen ss -> states_at mem off sts -> off + 4 * zlen ss <= zlen mem ->
  let '(ys, sts') := run ss sts xs in
  exists mem', foldM (feed_body (filter_of A ss off)) (acc, mem) xs = Ret (acc ++ ys, mem') /\ zlen mem' = zlen mem /\
    zlen sts' = zlen ss /\ states_at mem' off sts' /\ (forall i, i < off \/ off + 4 * zlen ss <= i -> zget mem' i = zget mem i).
Proof.
  intros B O. induction xs as [|x xs IH]; intros acc sts mem LS ST LM; simpl.
  - exists mem. rewrite app_nil_r. auto 10.
  - pose proof (filter_ok ss off sts mem x B O LS ST LM) as F. destruct (casc ss sts x) as [y sts1].
    destruct F as (m1 & E1 & L1 & LS1 & ST1 & F1). specialize (IH (acc ++ [y]) sts1 m1 LS1 ST1 ltac:(lia)).
    destruct (run ss sts1 xs) as [ys sts2]. destruct IH as (m2 & E2 & L2 & LS2 & ST2 & F2).
    exists m2. rewrite E1. cbn [bind]. rewrite E2, <- app_assoc. split; [reflexivity|]. split; [lia|]. split; [auto|]. split; [auto|].
    intros i Hi. rewrite F2, F1 by auto. reflexivity.
Qed.
Lemma feed_shift f acc mem xs : foldM (feed_body f) (acc, mem) xs =
  let* (ys, mem') := feed A f mem xs in Ret (acc ++ ys, mem').
Proof.
  unfold feed. fold (feed_body f). revert acc mem. assert (G : forall xs acc a2 mem, foldM (feed_body f) (acc ++ a2, mem) xs =
     let* (ys, mem') := foldM (feed_body f) (a2, mem) xs in Ret (acc ++ ys, mem')).
  { clear xs. induction xs as [|x xs IH]; intros acc a2 mem; simpl; [reflexivity|].
    destruct (eml_iir_filter A f mem x) as [[y m1]|]; cbn [bind]; [|reflexivity]. rewrite <- app_assoc. apply IH. }
  intros acc mem. rewrite <- (G xs acc [] mem), app_nil_r. reflexivity.
Qed.
(** Blocks *)
Theorem feed_blocks f mem xs1 xs2 : feed A f mem (xs1 ++ xs2) =
  let* (ys1, mem1) := feed A f mem xs1 in
  let* (ys2, mem2) := feed A f mem1 xs2 in Ret (ys1 ++ ys2, mem2).
Proof.
  unfold feed at 1. rewrite foldM_app. fold (feed_body f). fold (feed A f mem xs1).
  change (foldM (feed_body f) ([], mem) xs1) with (feed A f mem xs1).
  destruct (feed A f mem xs1) as [[ys1 m1]|]; cbn [bind]; [|reflexivity]. apply feed_shift.
Qed.

(** Two filters *)
Theorem two_filters ss1 ss2 o1 o2 mem xs :
  6 * zlen ss1 < 2 ^ 31 -> 6 * zlen ss2 < 2 ^ 31 -> region_ok A mem o1 (zlen ss1) -> region_ok A mem o2 (zlen ss2) ->
  o1 + 4 * zlen ss1 <= o2 \/ o2 + 4 * zlen ss2 <= o1 ->
  exists ys zs m m1 m2,
    feed2 A (filter_of A ss1 o1) (filter_of A ss2 o2) mem xs = Ret (ys, zs, m) /\
    feed A (filter_of A ss1 o1) mem (inputs_of A true xs) = Ret (ys, m1) /\
    feed A (filter_of A ss2 o2) mem (inputs_of A false xs) = Ret (zs, m2).
Proof.
  intros B1 B2 R1 R2 D. unfold feed2. unfold feed. fold (feed_body (filter_of A ss1 o1)) (feed_body (filter_of A ss2 o2)).
  destruct (states_exist mem o1 (zlen ss1) (zlen_nonneg _) R1) as (st1 & L1 & S1).
  destruct (states_exist mem o2 (zlen ss2) (zlen_nonneg _) R2) as (st2 & L2 & S2).
  destruct R1 as [R1 R1']. destruct R2 as [R2 R2'].
  pose proof (feed_ok ss1 o1 B1 R1 (inputs_of A true xs) [] st1 mem L1 S1 R1') as F1.
  pose proof (feed_ok ss2 o2 B2 R2 (inputs_of A false xs) [] st2 mem L2 S2 R2') as F2.
  destruct (run ss1 st1 (inputs_of A true xs)) as [ys sy] eqn:E1. destruct (run ss2 st2 (inputs_of A false xs)) as [zs sz] eqn:E2.
  destruct F1 as (m1 & F1 & _). destruct F2 as (m2 & F2 & _). exists ys, zs.
  assert (G : forall xs mem accy accz st1 st2 ys sy zs sz, zlen st1 = zlen ss1 -> zlen st2 = zlen ss2 ->
     states_at mem o1 st1 -> states_at mem o2 st2 -> o1 + 4 * zlen ss1 <= zlen mem -> o2 + 4 * zlen ss2 <= zlen mem ->
     run ss1 st1 (inputs_of A true xs) = (ys, sy) -> run ss2 st2 (inputs_of A false xs) = (zs, sz) ->
     exists m, foldM (fun '(ys, zs, mem) '(w, x) =>
      if w : bool then bind (eml_iir_filter A (filter_of A ss1 o1) mem x) (fun '(y, mem) => Ret (ys ++ [y], zs, mem))
      else bind (eml_iir_filter A (filter_of A ss2 o2) mem x) (fun '(z, mem) => Ret (ys, zs ++ [z], mem))) (accy, accz, mem) xs = Ret (accy ++ ys, accz ++ zs, m)).
  { clear - B1 B2 R1 R2 D. induction xs as [|[w x] xs IH]; intros mem accy accz st1 st2 ys sy zs sz L1 L2 S1 S2 M1 M2.
    - simpl. intros Q1 Q2. injection Q1 as <- _. injection Q2 as <- _. rewrite !app_nil_r. eauto.
    - destruct w; simpl; intros Q1 Q2.
      + pose proof (filter_ok ss1 o1 st1 mem x B1 R1 L1 S1 M1) as F. unfold inputs_of in Q1. simpl in Q1. fold (inputs_of A true xs) in Q1.
        destruct (casc ss1 st1 x) as [y st1']. destruct F as (m1 & E1 & LM & LS & ST & FR).
        destruct (run ss1 st1' (inputs_of A true xs)) as [yr syr] eqn:ER. injection Q1 as <- <-.
        rewrite E1. cbn [bind]. destruct (IH m1 (accy ++ [y]) accz st1' st2 yr syr zs sz) as [m Em]; auto; try lia.
        * apply (states_at_ext mem); auto. intros i Hi. apply FR. rewrite L2 in Hi. lia.
        * exists m. rewrite Em, <- app_assoc. reflexivity.
      + pose proof (filter_ok ss2 o2 st2 mem x B2 R2 L2 S2 M2) as F. unfold inputs_of in Q2. simpl in Q2. fold (inputs_of A false xs) in Q2.
        destruct (casc ss2 st2 x) as [z st2']. destruct F as (m1 & E1 & LM & LS & ST & FR).
        destruct (run ss2 st2' (inputs_of A false xs)) as [zr szr] eqn:ER. injection Q2 as <- <-.
        rewrite E1. cbn [bind]. destruct (IH m1 accy (accz ++ [z]) st1 st2' ys sy zr szr) as [m Em]; auto; try lia.
        * apply (states_at_ext mem); auto. intros i Hi. apply FR. rewrite L1 in Hi. lia.
        * exists m. rewrite Em, <- app_assoc. reflexivity. }
  destruct (G xs mem [] [] st1 st2 ys sy zs sz L1 L2 S1 S2 R1' R2' E1 E2) as [m Em].
  exists m, m1, m2. auto.
Qed.
End Any.

(** ** Exact arithmetic *)
Section Exact.
Open Scope R_scope.
Definition rbq (s : sos R) (st : R * R) (x : R) : R * (R * R) :=
  let y := fst st + b0 s * x in (y, (snd st + b1 s * x - a1 s * y, b2 s * x - a2 s * y)).
Fixpoint rcasc (ss : list (sos R)) (sts : list (R * R)) (x : R) : R * list (R * R) :=
  match ss, sts with
  | s :: ss, st :: sts => let '(y, st') := rbq s st x in let '(z, sts') := rcasc ss sts y in (z, st' :: sts')
  | _, _ => (x, [])
  end.
Fixpoint rrun (ss : list (sos R)) (sts : list (R * R)) (xs : list R) : list R :=
  match xs with
  | [] => []
  | x :: xs => let '(y, sts1) := rcasc ss sts x in y :: rrun ss sts1 xs
  end.
Definition fin2 (p : R * R) : xreal * xreal := (Fin (fst p), Fin (snd p)).
Lemma casc_Fin ss sts x :
  casc real_arith (map (sos_map Fin) ss) (map fin2 sts) (Fin x) =
  let '(y, sts') := rcasc ss sts x in (Fin y, map fin2 sts').
Proof.
  revert sts x; induction ss as [|s ss IH]; intros [|[p q] sts] x; try reflexivity.
  cbn [map casc]. change (fin2 (p, q)) with (Fin p, Fin q). unfold bq. cbn [fst snd].
  change (nadd real_arith (Fin p) (nmul real_arith (b0 (sos_map Fin s)) (Fin x))) with (Fin (p + b0 s * x)).
  rewrite IH. cbn [rcasc]. unfold rbq. cbn [fst snd]. destruct (rcasc ss sts (p + b0 s * x)) as [z sts']. reflexivity.
Qed.
Lemma run_Fin ss sts xs : fst (run real_arith (map (sos_map Fin) ss) (map fin2 sts) (map Fin xs)) = map Fin (rrun ss sts xs).
Proof.
  revert sts; induction xs as [|x xs IH]; intros sts; [reflexivity|]. cbn [map run rrun]. rewrite casc_Fin.
  destruct (rcasc ss sts x) as [y sts1]. specialize (IH sts1). destruct (run real_arith (map (sos_map Fin) ss) (map fin2 sts1) (map Fin xs)) as [ys sts2]. cbn [fst] in *. cbn [map]. now rewrite IH.
Qed.

Fixpoint run1 (s : sos R) (st : R * R) (xs : list R) : list R :=
  match xs with [] => [] | x :: xs => let '(y, st') := rbq s st x in y :: run1 s st' xs end.
Lemma rrun_nil xs : rrun [] [] xs = xs.
Proof. induction xs; simpl; congruence. Qed.
Lemma rrun_cons s ss st sts xs : rrun (s :: ss) (st :: sts) xs = rrun ss sts (run1 s st xs).
Proof.
  revert st sts; induction xs as [|x xs IH]; intros st sts; [reflexivity|]. cbn [rrun rcasc run1].
  destruct (rbq s st x) as [y st']. cbn [rrun]. destruct (rcasc ss sts y) as [z sts']. rewrite IH. reflexivity.
Qed.
Lemma run1_length s st xs : length (run1 s st xs) = length xs.
Proof. revert st; induction xs as [|x xs IH]; intros st; [reflexivity|]. simpl. now rewrite IH. Qed.
Lemma at_app_l (l1 l2 : list R) n : (n < zlen l1)%Z -> at_ (l1 ++ l2) n = at_ l1 n.
Proof. intros H. unfold at_. destruct (Z.ltb_spec n 0); auto. apply app_nth1. unfold zlen in H. lia. Qed.
Lemma at_app_mid (l1 l2 : list R) x : at_ (l1 ++ x :: l2) (zlen l1) = x.
Proof.
  unfold at_. destruct (Z.ltb_spec (zlen l1) 0); [pose proof (zlen_nonneg l1); lia|].
  unfold zlen. rewrite Nat2Z.id, app_nth2 by lia. now rewrite Nat.sub_diag.
Qed.
Lemma run1_eq s xs : forall hx hy p q, zlen hx = zlen hy ->
  p = b1 s * at_ hx (zlen hx - 1) + b2 s * at_ hx (zlen hx - 2) - a1 s * at_ hy (zlen hx - 1) - a2 s * at_ hy (zlen hx - 2) ->
  q = b2 s * at_ hx (zlen hx - 1) - a2 s * at_ hy (zlen hx - 1) ->
  forall n, (zlen hx <= n < zlen hx + zlen xs)%Z ->
  let X := hx ++ xs in let Y := hy ++ run1 s (p, q) xs in
  at_ Y n = b0 s * at_ X n + b1 s * at_ X (n - 1) + b2 s * at_ X (n - 2) - a1 s * at_ Y (n - 1) - a2 s * at_ Y (n - 2).
Proof.
  induction xs as [|x xs IH]; intros hx hy p q L P Q n Hn; [unfold zlen in *; simpl in *; lia|].
  cbv zeta. cbn [run1]. unfold rbq. cbn [fst snd]. set (y := p + b0 s * x).
  destruct (Z.eq_dec n (zlen hx)) as [->|N].
  - rewrite at_app_mid. rewrite L at 1. rewrite at_app_mid. rewrite !at_app_l by lia. unfold y. rewrite P. ring.
  - specialize (IH (hx ++ [x]) (hy ++ [y]) (q + b1 s * x - a1 s * y) (b2 s * x - a2 s * y)).
    assert (ZX : zlen (hx ++ [x]) = (zlen hx + 1)%Z) by (rewrite zlen_app; reflexivity).
    assert (ZY : zlen (hy ++ [y]) = (zlen hx + 1)%Z) by (rewrite zlen_app, L; reflexivity).
    rewrite <- !app_assoc in IH. cbn [app] in IH. apply IH.
    + lia.
    + rewrite ZX. replace (zlen hx + 1 - 1)%Z with (zlen hx) by lia. replace (zlen hx + 1 - 2)%Z with (zlen hx - 1)%Z by lia.
      rewrite at_app_mid. rewrite L at 2. rewrite at_app_mid. rewrite !at_app_l by lia. rewrite Q. ring.
    + rewrite ZX. replace (zlen hx + 1 - 1)%Z with (zlen hx) by lia. rewrite at_app_mid. rewrite L at 1. rewrite at_app_mid. ring.
    + rewrite ZX. unfold zlen in *. simpl in Hn. lia.
Qed.
Lemma run1_section s xs : section_of s xs (run1 s (0, 0) xs).
Proof.
  split; [apply run1_length|]. intros n Hn. pose proof (run1_eq s xs [] [] 0 0 eq_refl) as H.
  apply H; unfold at_; simpl; try ring. unfold zlen in *. simpl. lia.
Qed.
Theorem cascade_ok ss xs : cascade ss xs (rrun ss (repeat (0, 0) (length ss)) xs).
Proof.
  revert xs; induction ss as [|s ss IH]; intros xs; [simpl; apply rrun_nil|].
  simpl cascade. exists (run1 s (0, 0) xs). split; [apply run1_section|]. simpl repeat. rewrite rrun_cons. apply IH.
Qed.
(** The difference equation has only one solution. *)
Theorem section_unique s x y y' : section_of s x y -> section_of s x y' -> y = y'.
Proof.
  intros [L H] [L' H'].
  assert (G : forall n : nat, forall k : Z, (k < Z.of_nat n)%Z -> (k < zlen x)%Z -> at_ y k = at_ y' k).
  { induction n as [|n IH]; intros k Hk Hx.
    - unfold at_. destruct (Z.ltb_spec k 0); [reflexivity|lia].
    - destruct (Z.ltb_spec k 0) as [K|K]. { unfold at_. destruct (Z.ltb_spec k 0); [reflexivity|lia]. }
      rewrite H, H' by lia. rewrite (IH (k - 1)%Z), (IH (k - 2)%Z) by lia. reflexivity. }
  apply (nth_ext y y' 0 0); [congruence|]. intros n Hn. specialize (G (S n) (Z.of_nat n) ltac:(lia)).
  unfold at_ in G. destruct (Z.ltb_spec (Z.of_nat n) 0); [lia|]. rewrite Nat2Z.id in G. apply G. unfold zlen. lia.
Qed.
Theorem cascade_unique ss : forall x y y', cascade ss x y -> cascade ss x y' -> y = y'.
Proof.
  induction ss as [|s ss IH]; simpl; intros x y y'; [congruence|]. intros (z & S & C) (z' & S' & C').
  rewrite (section_unique s x z z' S S') in C. exact (IH z' y y' C C').
Qed.
End Exact.

Lemma states_zero n off mem : 0 <= off -> off + 4 * Z.of_nat n <= zlen mem ->
  (forall i, off <= i < off + 4 * Z.of_nat n -> zget mem i = Ret (Fin 0)) ->
  states_at real_arith mem off (map fin2 (repeat (0, 0)%R n)).
Proof.
  revert off; induction n as [|n IH]; intros off O M H; simpl; auto. rewrite !H by lia. split; [reflexivity|]. split; [reflexivity|].
  apply IH; try lia. intros i Hi. apply H. lia.
Qed.
Theorem filter_real (ss : list (sos R)) off mem xs : 6 * zlen ss < 2 ^ 31 -> region_ok real_arith mem off (zlen ss) ->
  (forall i, off <= i < off + 4 * zlen ss -> zget mem i = Ret (Fin 0)) ->
  exists ys mem', feed real_arith (filter_of real_arith (map (sos_map Fin) ss) off) mem (map Fin xs) = Ret (map Fin ys, mem') /\
    cascade ss xs ys.
Proof.
  intros B [O M] H.
  assert (ZM : @zlen (sos (num real_arith)) (map (sos_map Fin) ss) = zlen ss) by apply (zlen_map (sos_map Fin) ss).
  pose proof (feed_ok real_arith (map (sos_map Fin) ss) off ltac:(rewrite ZM; lia) O (map Fin xs) [] (map fin2 (repeat (0, 0)%R (List.length ss))) mem) as F.
  rewrite ZM in F. specialize (F ltac:(unfold zlen; now rewrite map_length, repeat_length)).
  specialize (F ltac:(apply states_zero; unfold zlen in *; auto)). specialize (F M).
  pose proof (run_Fin ss (repeat (0, 0)%R (List.length ss)) xs) as RF.
  destruct (run real_arith (map (sos_map Fin) ss) _ (map Fin xs)) as [ys sts']. simpl in RF. subst ys.
  destruct F as (mem' & E & _). exists (rrun ss (repeat (0, 0)%R (List.length ss)) xs), mem'. split; [exact E|]. apply cascade_ok.
Qed.

(** ** The binding *)
Lemma mapM_zget {T} (l : list T) n : 0 <= n <= zlen l -> mapM (fun i => zget l i) (zrange n) = Ret (firstn (Z.to_nat n) l).
Proof.
  intros Hn. destruct l as [|d l'] eqn:El.
  { assert (n = 0) by (unfold zlen in Hn; simpl in Hn; lia). subst. reflexivity. }
  rewrite <- El in *.
  assert (G : forall r, (forall i, In i r -> 0 <= i < zlen l) -> mapM (fun i => zget l i) r = Ret (map (znth d l) r)).
  { induction r as [|i r IH]; intros Hi; [reflexivity|]. simpl. rewrite (zget_znth d) by (apply Hi; now left). cbn [bind].
    rewrite IH by (intros; apply Hi; now right). reflexivity. }
  rewrite G by (intros i Hi; apply zrange_In in Hi; lia). f_equal.
  transitivity (map (znth d (firstn (Z.to_nat n) l)) (zrange (zlen (firstn (Z.to_nat n) l)))); [|apply map_znth].
  rewrite zlen_firstn by lia. replace (Z.min n (zlen l)) with n by lia. apply map_ext_in. intros i Hi. apply zrange_In in Hi.
  assert (E : zget (firstn (Z.to_nat n) l) i = zget l i) by (apply zget_firstn; lia).
  rewrite !(zget_znth d) in E by (rewrite ?zlen_firstn by lia; lia). congruence.
Qed.
Section Binding.
Context (A : arith).
Theorem iirfilter_py_ok (ss : list (sos (num A))) data : 1 <= zlen ss -> 6 * zlen ss < 2 ^ 31 ->
  exists mem', feed A (filter_of A ss 0) (repeat (nzero A) (Z.to_nat (4 * zlen ss))) data =
     (let* ys := iirfilter_py A (flat_map sos_list ss) (zlen ss) data in Ret (ys, mem')).
Proof.
  intros H1 H2. unfold iirfilter_py. rewrite mapM_zget by (rewrite zlen_flat; lia).
  replace (firstn (Z.to_nat (6 * zlen ss)) (flat_map sos_list ss)) with (flat_map sos_list ss)
    by (rewrite <- (zlen_flat A ss); unfold zlen; rewrite Nat2Z.id, firstn_all; reflexivity). cbn [bind].
  assert (ZR : zlen (repeat (nzero A) (Z.to_nat (4 * zlen ss))) = 4 * zlen ss) by (unfold zlen at 1; rewrite repeat_length; lia).
  rewrite ZR, zlen_flat. fold (filter_of A ss 0). unfold eml_iir_check. simpl i_n_stages. simpl i_states_length. simpl i_coefficients_length.
  destruct (Z.leb_spec 1 (zlen ss)); [|lia]. cbn [negb]. rewrite !chk_int32_ok by (unfold int32_ok; lia). cbn [bind].
  destruct (Z.eqb_spec (4 * zlen ss) (zlen ss * 4)); [|lia]. cbn [negb].
  destruct (Z.eqb_spec (6 * zlen ss) (zlen ss * 6)); [|lia]. cbn [negb].
  fold (filter_of A ss 0). unfold feed.
  cbn [bind]. match goal with |- context [foldM ?f ?a data] => destruct (foldM f a data) as [[ys m]|er] end.
  - exists m. reflexivity.
  - exists []. reflexivity.
Qed.
End Binding.
