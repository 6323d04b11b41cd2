(** Proofs about the nearest-neighbours model. *)
From Coq Require Import ZArith List Bool Lia Permutation.
From Verif.Base Require Import Res CInt ListX Loops.
From Verif.Model Require Import Common Qsort Neighbors.
From Verif.Spec Require Import VoteSpec NeighborsSpec NeighborsCSpec.
From Verif.Proof Require Import Qsort Vote.
Import ListNotations.
Open Scope Z_scope.
Open Scope res_scope.

(** ** Integer square root *)
Lemma pow4_mono m n : 0 <= m <= n -> 4 ^ m <= 4 ^ n.
Proof. intros. apply Z.pow_le_mono_r; lia. Qed.
Lemma pow4_pos m : 0 <= m -> 0 < 4 ^ m.
Proof. intros. apply Z.pow_pos_nonneg; lia. Qed.
Lemma pow4_sq m : 0 <= m -> 4 ^ m = 2 ^ m * 2 ^ m.
Proof. intros. change 4 with (2 * 2). apply Z.pow_mul_l. Qed.

Lemma isqrt_up_ok x : x < 2 ^ 30 -> forall fuel m, 0 <= m <= 15 -> (Z.to_nat (15 - m) < fuel)%nat ->
  exists m', isqrt_up fuel x (4 ^ m) = Ret (4 ^ m') /\ m <= m' <= 15 /\ x < 4 ^ m'.
Proof.
  intros Hx fuel. induction fuel as [|f IH]; intros m Hm Hf; [lia|]. cbn [isqrt_up].
  destruct (Z.leb_spec (4 ^ m) x) as [C|C].
  - assert (Hm15 : m < 15).
    { destruct (Z.eq_dec m 15) as [->|]; [|lia]. change (4 ^ 15) with (2 ^ 30) in C. lia. }
    rewrite Z.shiftl_mul_pow2 by lia.
    assert (E : 4 ^ m * 2 ^ 2 = 4 ^ (m + 1)) by (rewrite Z.pow_add_r by lia; reflexivity).
    rewrite E. rewrite chk_int32_ok.
    + cbn [bind]. destruct (IH (m + 1)) as (m' & E' & B & C'); try lia. exists m'. split; [auto|]. split; [lia|auto].
    + pose proof (pow4_mono (m + 1) 15 ltac:(lia)). pose proof (pow4_pos (m + 1) ltac:(lia)).
      change (4 ^ 15) with 1073741824 in *. unfold int32_ok. lia.
  - exists m. split; [auto|]. split; [lia|auto].
Qed.

Lemma isqrt_down_ok X : 0 <= X < 2 ^ 30 -> forall fuel k s x, 0 <= k <= 15 -> (Z.to_nat k < fuel)%nat ->
  0 <= s -> s * s <= X < (s + 2 ^ k) * (s + 2 ^ k) -> x = X - s * s ->
  isqrt_down fuel x (4 ^ k) (s * 2 ^ k) = Ret (Z.sqrt X).
Proof.
  intros HX fuel. induction fuel as [|f IH]; intros k s x Hk Hf Hs B Ex; [lia|]. cbn [isqrt_down].
  destruct (Z.ltb_spec 1 (4 ^ k)) as [C|C].
  - assert (K0 : 0 < k) by (destruct (Z.eq_dec k 0) as [->|]; [simpl in C; lia|lia]).
    assert (E4 : Z.shiftr (4 ^ k) 2 = 4 ^ (k - 1)).
    { rewrite Z.shiftr_div_pow2 by lia. replace (4 ^ k) with (4 ^ (k - 1) * 2 ^ 2).
      - apply Z.div_mul; lia.
      - change (2 ^ 2) with (4 ^ 1). rewrite <- Z.pow_add_r by lia. f_equal; lia. }
    cbv zeta. rewrite E4.
    assert (E2 : 2 ^ k = 2 * 2 ^ (k - 1)).
    { rewrite <- Z.pow_succ_r by lia. f_equal; lia. }
    set (p := 2 ^ (k - 1)) in *.
    assert (Hp : 0 < p) by (apply Z.pow_pos_nonneg; lia).
    assert (Hp2 : p <= 2 ^ 14) by (apply Z.pow_le_mono_r; lia).
    change (2 ^ 14) with 16384 in Hp2. change (2 ^ 30) with 1073741824 in HX.
    assert (Hs2 : s < 32768) by nia.
    rewrite pow4_sq by lia. fold p.
    rewrite E2 in *.
    assert (Q0 : 0 <= s * (2 * p) <= 1073741824) by nia.
    assert (Q1 : 0 <= p * p <= 268435456) by nia.
    rewrite (chk_int32_ok (x - s * (2 * p))) by (unfold int32_ok; lia). cbn [bind].
    rewrite chk_int32_ok by (unfold int32_ok; lia). cbn [bind].
    replace (Z.shiftr (s * (2 * p)) 1) with (s * p).
    2:{ rewrite Z.shiftr_div_pow2 by lia. change (2 ^ 1) with 2. replace (s * (2 * p)) with (s * p * 2) by ring.
        now rewrite Z.div_mul by lia. }
    destruct (Z.leb_spec 0 (x - s * (2 * p) - p * p)) as [D|D].
    + rewrite chk_int32_ok by (unfold int32_ok; nia). cbn [bind].
      replace (s * p + p * p) with ((s + p) * p) by ring.
      replace (p * p) with (4 ^ (k - 1)) at 2 by (rewrite pow4_sq by lia; reflexivity).
      unfold p at 3. apply IH; try lia; fold p; try (subst x; ring); nia.
    + replace (p * p) with (4 ^ (k - 1)) by (rewrite pow4_sq by lia; reflexivity).
      unfold p. apply IH; try lia; fold p; nia.
  - assert (K0 : k = 0).
    { destruct (Z.eq_dec k 0); auto. pose proof (pow4_mono 1 k ltac:(lia)). change (4 ^ 1) with 4 in *. lia. }
    subst k. change (2 ^ 0) with 1 in *. rewrite Z.mul_1_r. f_equal. symmetry.
    apply Z.sqrt_unique. unfold Z.succ. lia.
Qed.

Theorem isqrt_ok x : 0 <= x < 2 ^ 30 -> eml_isqrt x = Ret (Z.sqrt x).
Proof.
  intros H. unfold eml_isqrt.
  destruct (isqrt_up_ok x ltac:(lia) 32 0) as (m & E & B & C); [lia|simpl; lia|].
  change (4 ^ 0) with 1 in E. rewrite E. cbn [bind].
  replace 0 with (0 * 2 ^ m) by lia. apply isqrt_down_ok; try lia.
  rewrite Z.add_0_l. rewrite <- pow4_sq by lia. lia.
Qed.
Theorem isqrt_neg x : x < 0 -> eml_isqrt x = Ret 0.
Proof.
  intros H. unfold eml_isqrt. cbn [isqrt_up]. destruct (Z.leb_spec 1 x); [lia|]. reflexivity.
Qed.
Lemma isqrt_up_big x : 2 ^ 30 <= x < 2 ^ 31 -> forall fuel m, 0 <= m <= 15 -> (Z.to_nat (15 - m) < fuel)%nat ->
  isqrt_up fuel x (4 ^ m) = Err SignedOverflow.
Proof.
  intros Hx fuel. induction fuel as [|f IH]; intros m Hm Hf; [lia|]. cbn [isqrt_up].
  pose proof (pow4_mono m 15 ltac:(lia)). change (4 ^ 15) with (2 ^ 30) in *.
  destruct (Z.leb_spec (4 ^ m) x) as [C|C]; [|lia].
  rewrite Z.shiftl_mul_pow2 by lia.
  destruct (Z.eq_dec m 15) as [->|].
  - reflexivity.
  - assert (E : 4 ^ m * 2 ^ 2 = 4 ^ (m + 1)) by (rewrite Z.pow_add_r by lia; reflexivity).
    rewrite E. pose proof (pow4_mono (m + 1) 15 ltac:(lia)). pose proof (pow4_pos (m + 1) ltac:(lia)).
    change (4 ^ 15) with 1073741824 in *.
    rewrite chk_int32_ok by (unfold int32_ok; lia). cbn [bind]. apply IH; lia.
Qed.
Theorem isqrt_big x : 2 ^ 30 <= x < 2 ^ 31 -> eml_isqrt x = Err SignedOverflow.
Proof.
  intros H. unfold eml_isqrt. change 1 with (4 ^ 0).
  rewrite (isqrt_up_big x H 32 0); [reflexivity|lia|simpl; lia].
Qed.

(** ** Distance *)
Lemma zsum_app l l' : zsum (l ++ l') = zsum l + zsum l'.
Proof. unfold zsum. induction l; simpl; lia. Qed.

Lemma sq_dist_app a b a' b' : length a = length b ->
  sq_dist (a ++ a') (b ++ b') = sq_dist a b + sq_dist a' b'.
Proof.
  revert b. induction a as [|x a IH]; intros [|y b] H; simpl in H; try lia; [reflexivity|].
  specialize (IH b ltac:(lia)). unfold sq_dist, zsum in *. simpl. lia.
Qed.
Lemma sq_dist_cons x a y b : sq_dist (x :: a) (y :: b) = (x - y) * (x - y) + sq_dist a b.
Proof. reflexivity. Qed.
Lemma sq_dist_nonneg a b : 0 <= sq_dist a b.
Proof.
  revert b. induction a as [|x a IH]; intros [|y b]; try (unfold sq_dist, zsum; simpl; lia).
  rewrite sq_dist_cons. specialize (IH b). pose proof (Z.square_nonneg (x - y)). lia.
Qed.

(** The accumulation loop on lists. *)
Definition dist_step (ret : Z) (p : Z * Z) : res Z :=
  let* diff := chk_int32 (fst p - snd p) in
  let* d := chk_int32 (diff * diff) in
  Ret (to_uint32 (ret + d)).

Lemma dist_loop a b pre post :
  length a = length b ->
  foldM (fun ret i =>
      let* x := zget a i in
      let* y := zget (pre ++ b ++ post) (zlen pre + i) in
      let* diff := chk_int32 (x - y) in
      let* d := chk_int32 (diff * diff) in
      Ret (to_uint32 (ret + d)))
    0 (zrange (zlen a)) = foldM dist_step 0 (combine a b).
Proof.
  intros Hl.
  replace (zlen a) with (zlen (combine a b)) by (unfold zlen; rewrite combine_length; lia).
  rewrite <- (foldM_index dist_step (combine a b) 0). apply foldM_ext. intros s i Hi.
  apply zrange_In in Hi. destruct (zget_ok _ _ Hi) as [[x y] E]. rewrite E. cbn [bind].
  apply zget_Ret in E as [E0 E]. apply nth_error_combine in E as [Ex Ey].
  assert (Ea : zget a i = Ret x) by (apply zget_Ret; auto). rewrite Ea. cbn [bind].
  assert (Eb : zget (pre ++ b ++ post) (zlen pre + i) = Ret y).
  { apply zget_app2. apply zget_app1. apply zget_Ret; auto. }
  rewrite Eb. reflexivity.
Qed.

Lemma to_uint32_mod x : to_uint32 x = x mod 2 ^ 32.
Proof. reflexivity. Qed.

Lemma dist_steps_ok (l : list (Z * Z)) s :
  (forall p, In p l -> - 46340 <= fst p - snd p <= 46340) ->
  0 <= s < 2 ^ 32 ->
  foldM dist_step s l = Ret ((s + zsum (map (fun p => (fst p - snd p) * (fst p - snd p)) l)) mod 2 ^ 32).
Proof.
  revert s. induction l as [|p l IH]; intros s H Hs.
  - cbn. rewrite Z.add_0_r, Z.mod_small by lia. reflexivity.
  - cbn [foldM]. unfold dist_step at 1.
    assert (Hp := H p (or_introl eq_refl)). set (d := fst p - snd p) in *.
    rewrite (chk_int32_ok d) by (unfold int32_ok; lia). cbn [bind].
    rewrite (chk_int32_ok (d * d)) by (unfold int32_ok; nia). cbn [bind].
    rewrite to_uint32_mod, IH.
    + f_equal. cbn [map zsum fold_right]. fold d. rewrite Z.add_mod_idemp_l by lia.
      unfold zsum. f_equal. lia.
    + intros q Hq. apply H. right; auto.
    + apply Z.mod_pos_bound. lia.
Qed.

Lemma dist_steps_bad (l : list (Z * Z)) p s :
  In p l -> - 65535 <= fst p - snd p <= 65535 -> ~ (- 46340 <= fst p - snd p <= 46340) ->
  (forall q, In q l -> int16_ok (fst q) /\ int16_ok (snd q)) ->
  foldM dist_step s l = Err SignedOverflow.
Proof.
  revert s. induction l as [|q l IH]; intros s Hin H1 H2 Hall; [destruct Hin|].
  cbn [foldM]. destruct Hin as [->|Hin].
  - unfold dist_step at 1. set (d := fst p - snd p) in *.
    rewrite (chk_int32_ok d) by (unfold int32_ok; lia). cbn [bind].
    unfold chk_int32, chk_signed. change (2 ^ (32 - 1)) with 2147483648.
    destruct (Z.ltb_spec (d * d) 2147483648); [nia|]. rewrite andb_false_r. reflexivity.
  - unfold dist_step at 1. destruct (Hall q (or_introl eq_refl)) as [Q1 Q2]. unfold int16_ok in *.
    set (d := fst q - snd q).
    rewrite (chk_int32_ok d) by (unfold int32_ok, d; lia). cbn [bind].
    destruct (chk_int32 (d * d)) as [d2|f] eqn:E.
    + cbn [bind]. apply IH; auto. intros q' Hq'. apply Hall. right; auto.
    + cbn [bind]. unfold chk_int32, chk_signed in E. destruct (_ && _) in E; congruence.
Qed.

Lemma combine_In_int16 a b : Forall int16_ok a -> Forall int16_ok b ->
  forall q, In q (combine a b) -> int16_ok (fst q) /\ int16_ok (snd q).
Proof.
  intros Ha Hb [x y] H. rewrite Forall_forall in Ha, Hb. simpl.
  split; [apply Ha; eapply in_combine_l; eauto|apply Hb; eapply in_combine_r; eauto].
Qed.

(** Everything the distance function does, for int16 vectors stored anywhere. *)
Theorem distance_at_all a b pre post : length a = length b -> Forall int16_ok a -> Forall int16_ok b ->
  eml_distance_euclidean_int16_at a (pre ++ b ++ post) (zlen pre) (zlen a) =
    if forallb (fun p => Z.abs (fst p - snd p) <=? 46340) (combine a b) then
      let s := sq_dist a b mod 2 ^ 32 in
      if s <? 2 ^ 30 then Ret (Z.sqrt s)
      else if s <? 2 ^ 31 then Err SignedOverflow else Ret 0
    else Err SignedOverflow.
Proof.
  intros Hl Ha Hb. unfold eml_distance_euclidean_int16_at. rewrite dist_loop by auto.
  destruct (forallb _ _) eqn:F.
  - rewrite dist_steps_ok; [|
      intros p Hp; rewrite forallb_forall in F; specialize (F p Hp); apply Z.leb_le in F; lia|lia].
    rewrite Z.add_0_l. fold (sq_dist a b). cbn [bind]. cbv zeta.
    set (s := sq_dist a b mod 2 ^ 32).
    assert (Hs : 0 <= s < 2 ^ 32) by (apply Z.mod_pos_bound; lia).
    destruct (Z.ltb_spec s (2 ^ 30)).
    + change (2 ^ 30) with 1073741824 in *. rewrite to_int32_id by (unfold int32_ok; lia).
      rewrite isqrt_ok by (change (2 ^ 30) with 1073741824; lia). cbn [bind].
      rewrite to_uint32_mod, Z.mod_small; auto.
      pose proof (Z.sqrt_nonneg s). pose proof (Z.sqrt_le_lin s ltac:(lia)).
      change (2 ^ 32) with 4294967296. lia.
    + destruct (Z.ltb_spec s (2 ^ 31)).
      * change (2 ^ 31) with 2147483648 in *. rewrite to_int32_id by (unfold int32_ok; lia).
        rewrite isqrt_big by (change (2 ^ 31) with 2147483648; lia). reflexivity.
      * replace (to_int32 s) with (s - 2 ^ 32).
        -- rewrite isqrt_neg by lia. reflexivity.
        -- unfold to_int32, to_signed. rewrite Z.mod_small by lia. change (2 ^ (32 - 1)) with (2 ^ 31).
           destruct (Z.ltb_spec s (2 ^ 31)); lia.
  - apply forallb_false_ex in F as (p & Hp & F). apply Z.leb_gt in F.
    assert (Hall := combine_In_int16 a b Ha Hb).
    rewrite (dist_steps_bad _ p 0 Hp); [reflexivity| | |exact Hall].
    + destruct (Hall p Hp). unfold int16_ok in *. lia.
    + lia.
Qed.

Lemma sq_dist_each a b p : In p (combine a b) -> (fst p - snd p) * (fst p - snd p) <= sq_dist a b.
Proof.
  revert b. induction a as [|x a IH]; intros [|y b] H; simpl in H; try tauto.
  rewrite sq_dist_cons. destruct H as [<-|H].
  - pose proof (sq_dist_nonneg a b). simpl. lia.
  - specialize (IH b H). pose proof (Z.square_nonneg (x - y)). lia.
Qed.

Theorem distance_at_ok a b pre post : length a = length b -> Forall int16_ok a -> Forall int16_ok b ->
  sq_dist a b < 2 ^ 30 ->
  eml_distance_euclidean_int16_at a (pre ++ b ++ post) (zlen pre) (zlen a) = Ret (int_dist a b).
Proof.
  intros Hl Ha Hb H. rewrite distance_at_all by auto.
  pose proof (sq_dist_nonneg a b) as N.
  assert (F : forallb (fun p => Z.abs (fst p - snd p) <=? 46340) (combine a b) = true).
  { apply forallb_forall. intros p Hp. apply sq_dist_each in Hp. apply Z.leb_le.
    change (2 ^ 30) with 1073741824 in H. nia. }
  rewrite F. cbv zeta. rewrite Z.mod_small by (change (2^30) with 1073741824 in *; change (2 ^ 32) with 4294967296; lia).
  destruct (Z.ltb_spec (sq_dist a b) (2 ^ 30)); [reflexivity|lia].
Qed.

Theorem distance_iff a b : length a = length b -> Forall int16_ok a -> Forall int16_ok b ->
  eml_distance_euclidean_int16 a b (zlen a) = Ret (int_dist a b) <-> sq_dist a b < 2 ^ 30.
Proof.
  intros Hl Ha Hb.
  assert (E := fun P => distance_at_ok a b [] [] Hl Ha Hb P).
  assert (E' := distance_at_all a b [] [] Hl Ha Hb). cbn [app] in E, E'. rewrite app_nil_r in E, E'.
  change (zlen []) with 0 in E, E'. unfold eml_distance_euclidean_int16. split; [|auto].
  intros H. rewrite E' in H. destruct (forallb _ _); [|discriminate]. cbv zeta in H.
  pose proof (sq_dist_nonneg a b) as N. unfold int_dist in H.
  destruct (Z.lt_ge_cases (sq_dist a b) (2 ^ 30)) as [L|L]; auto. exfalso.
  assert (S15 : 2 ^ 15 <= Z.sqrt (sq_dist a b)).
  { change (2 ^ 15) with (Z.sqrt (2 ^ 30)). apply Z.sqrt_le_mono. auto. }
  destruct (Z.ltb_spec (sq_dist a b mod 2 ^ 32) (2 ^ 30)) as [L2|L2].
  - injection H as H.
    assert (L3 : Z.sqrt (sq_dist a b mod 2 ^ 32) < 2 ^ 15).
    { apply Z.sqrt_lt_square; [apply Z.mod_pos_bound; lia|lia|]. change (2 ^ 15 * 2 ^ 15) with (2 ^ 30). auto. }
    apply (Z.lt_irrefl (2 ^ 15)). eapply Z.le_lt_trans; [exact S15|]. rewrite <- H. exact L3.
  - destruct (_ <? 2 ^ 31) in H; [discriminate|]. injection H as H. change (2 ^ 15) with 32768 in *. lia.
Qed.

(** ** Rows in memory *)
Lemma concat_split (items : dataset) nf i r l :
  Forall (fun it => zlen (fst it) = nf /\ Forall int16_ok (fst it)) items ->
  zget items i = Ret (r, l) ->
  exists pre post, concat (map fst items) = pre ++ r ++ post /\ zlen pre = nf * i.
Proof.
  intros H E. apply zget_Ret in E as [Hi E].
  apply nth_error_split in E as (l1 & l2 & -> & Hl).
  exists (concat (map fst l1)), (concat (map fst l2)). split.
  - rewrite map_app, concat_app. simpl. reflexivity.
  - apply Forall_app in H as [H _]. replace i with (zlen l1) by (unfold zlen; lia). clear - H.
    induction H as [|x l1 [Hx _] H IH]; simpl; [unfold zlen; simpl; lia|].
    rewrite zlen_app, zlen_cons, IH, Hx. ring.
Qed.
Lemma concat_length (items : dataset) nf :
  Forall (fun it => zlen (fst it) = nf /\ Forall int16_ok (fst it)) items ->
  zlen (concat (map fst items)) = nf * zlen items.
Proof.
  induction 1 as [|x items [Hx _] H IH]; simpl; [unfold zlen; simpl; lia|].
  rewrite zlen_app, zlen_cons, IH, Hx. ring.
Qed.

Definition row_dist (items : dataset) (x : list Z) (i : Z) : Z :=
  match zget items i with Ret p => int_dist x (fst p) | Err _ => 0 end.

Section Predict.
Variables (data0 labels0 : list Z) (self : neighbors_model) (items : dataset) (x : list Z).
Hypothesis H : stores data0 labels0 self items.
Hypothesis Hx : zlen x = nm_n_features self.
Hypothesis Hx16 : Forall int16_ok x.
Hypothesis Hclose : forall r l, In (r, l) items -> sq_dist x r < 2 ^ 30.

Lemma infer_ok ds : zlen items <= zlen ds ->
  exists ds', eml_neighbors_infer self x (zlen x) ds (zlen ds) = Ret (EmlOk, ds') /\
    zlen ds' = zlen ds /\
    (forall i, 0 <= i < zlen items -> zget ds' i = Ret (mk_dist i (row_dist items x i))) /\
    (forall i, zlen items <= i -> zget ds' i = zget ds i).
Proof using All.
  intros Hds. destruct H as [Hc Hm Hf Hr Hrd Hrl Hd Hl].
  unfold eml_neighbors_infer. rewrite Hc.
  destruct (Z.leb_spec (zlen items) (zlen ds)); [|lia].
  cbn [negb]. replace (zlen x =? nm_n_features self) with true by (symmetry; apply Z.eqb_eq; exact Hx). cbn [negb].
  destruct (foldM_fill (fun i => mk_dist i (row_dist items x i)) ds (zlen items)) as (ds' & E & L & I & O).
  { pose proof (zlen_nonneg items). lia. }
  exists ds'. split; [|auto].
  rewrite (foldM_ext _ (fun o i => zset o i (mk_dist i (row_dist items x i)))).
  - rewrite E. reflexivity.
  - intros s i Hi. apply zrange_In in Hi.
    destruct (zget_ok items i Hi) as [[r l] Er].
    destruct (concat_split items _ i r l Hr Er) as (pre & post & Ec & Lp).
    rewrite chk_int32_ok by (unfold int32_ok; nia). cbn [bind].
    rewrite Hd, Ec, <- Lp, <- !app_assoc.
    assert (Hin : In (r, l) items) by (eapply zget_In; eauto).
    rewrite Forall_forall in Hr. destruct (Hr _ Hin) as [Lr Rr]. simpl in Lr, Rr.
    rewrite distance_at_ok.
    + cbn [bind]. rewrite to_int16_id by (unfold int16_ok; lia).
      unfold row_dist. rewrite Er. reflexivity.
    + unfold zlen in *; lia.
    + auto.
    + auto.
    + eapply Hclose; eauto.
Qed.
End Predict.

(** ** Sorting and selecting *)
Lemma firstn_zget {A} (l : list A) n i : (0 <= i < Z.of_nat n) -> zget (firstn n l) i = zget l i.
Proof.
  intros Hi. unfold zget. destruct (Z.ltb_spec i 0); [lia|].
  assert (E : (Z.to_nat i < n)%nat) by lia. revert E. generalize (Z.to_nat i) as m. clear.
  revert n. induction l as [|a l IH]; intros [|n] [|m] E; simpl; auto; try lia. apply IH; lia.
Qed.
Lemma skipn_zget {A} (l : list A) n i : 0 <= i -> zget (skipn n l) i = zget l (Z.of_nat n + i).
Proof.
  intros Hi. unfold zget. destruct (Z.ltb_spec i 0); [lia|]. destruct (Z.ltb_spec (Z.of_nat n + i) 0); [lia|].
  replace (Z.to_nat (Z.of_nat n + i)) with (n + Z.to_nat i)%nat by lia. generalize (Z.to_nat i) as m. clear.
  revert n. induction l as [|a l IH]; intros [|n] m; simpl; auto. destruct m; auto.
Qed.

Lemma zlen_firstn {A} (l : list A) n : Z.of_nat n <= zlen l -> zlen (firstn n l) = Z.of_nat n.
Proof. unfold zlen. intros. rewrite firstn_length. lia. Qed.
Lemma zlen_skipn {A} (l : list A) n : Z.of_nat n <= zlen l -> zlen (skipn n l) = zlen l - Z.of_nat n.
Proof. unfold zlen. intros. rewrite skipn_length. lia. Qed.

Lemma zget_zrange n i : 0 <= i < n -> zget (zrange n) i = Ret i.
Proof.
  intros Hi. unfold zrange. rewrite zget_map.
  assert (E : zget (seq 0 (Z.to_nat n)) i = Ret (Z.to_nat i)).
  { apply zget_Ret. split; [lia|]. rewrite nth_error_nth' with (d := O) by (rewrite seq_length; lia).
    rewrite seq_nth by lia. reflexivity. }
  rewrite E. cbn [bind]. f_equal. lia.
Qed.
Lemma zlen_zrange n : 0 <= n -> zlen (zrange n) = n.
Proof. intros. unfold zlen. rewrite zrange_length. lia. Qed.
Lemma NoDup_zrange n : NoDup (zrange n).
Proof. unfold zrange. apply FinFun.Injective_map_NoDup; [intros a b; lia|apply seq_NoDup]. Qed.

Lemma NoDup_zget {A} (l : list A) i j a : NoDup l -> zget l i = Ret a -> zget l j = Ret a -> i = j.
Proof.
  intros Hd Hi Hj. apply zget_Ret in Hi as [H1 H2]. apply zget_Ret in Hj as [H3 H4].
  assert (Z.to_nat i = Z.to_nat j); [|lia].
  apply (proj1 (NoDup_nth_error l) Hd); [apply nth_error_Some; congruence|congruence].
Qed.

Lemma sort_select (ds : list dist_item) (dist : Z -> Z) n k :
  0 <= k <= n -> n <= 32767 -> n <= zlen ds ->
  (forall i, 0 <= i < n -> zget ds i = Ret (mk_dist i (dist i))) ->
  exists ds' sel, eml_neighbors_sort_distances ds n = Ret ds' /\ zlen ds' = zlen ds /\
    zlen sel = k /\ NoDup sel /\ (forall i, In i sel -> 0 <= i < n) /\
    (forall p, 0 <= p < k -> exists i d, zget sel p = Ret i /\ zget ds' p = Ret (mk_dist i d)) /\
    (forall i j, In i sel -> ~ In j sel -> 0 <= j < n -> dist i <= dist j).
Proof.
  intros Hk Hn Hds Hd. unfold eml_neighbors_sort_distances.
  destruct (q_sort_ok di_distance ds n) as (b & E & P & L & O & I & S).
  { lia. } { apply Z.le_lt_trans with 32767; [lia|reflexivity]. }
  exists b, (map di_index (firstn (Z.to_nat k) b)). split; [exact E|]. split; [exact L|].
  assert (Pn : Permutation (map (fun i => mk_dist i (dist i)) (zrange n)) (firstn (Z.to_nat n) b)).
  { assert (Efn : firstn (Z.to_nat n) ds = map (fun i => mk_dist i (dist i)) (zrange n)).
    { apply zget_eq.
      - rewrite zlen_firstn by lia. rewrite zlen_map, zlen_zrange by lia. lia.
      - intros i Hi. rewrite zlen_firstn in Hi by lia. rewrite firstn_zget by lia. rewrite Hd by lia.
        rewrite zget_map, zget_zrange by lia. reflexivity. }
    rewrite <- Efn.
    apply (Permutation_app_inv_r (skipn (Z.to_nat n) ds)).
    rewrite firstn_skipn.
    replace (skipn (Z.to_nat n) ds) with (skipn (Z.to_nat n) b); [rewrite firstn_skipn; exact P|].
    apply zget_eq; [rewrite !zlen_skipn by lia; lia|].
    intros i Hi. rewrite !skipn_zget by lia. apply O. lia. }
  assert (Pi : Permutation (zrange n) (map di_index (firstn (Z.to_nat n) b))).
  { apply (Permutation_map di_index) in Pn. rewrite map_map in Pn. simpl in Pn. rewrite map_id in Pn. exact Pn. }
  assert (Eb : forall p, 0 <= p < n -> exists i, 0 <= i < n /\ zget b p = Ret (mk_dist i (dist i))).
  { intros p Hp. destruct (I p Hp) as (i & Hi & Ei). exists i. split; [auto|]. rewrite Ei. apply Hd; auto. }
  assert (ND : NoDup (map di_index (firstn (Z.to_nat n) b))).
  { eapply Permutation_NoDup; [exact Pi|apply NoDup_zrange]. }
  assert (Sel : forall i, In i (map di_index (firstn (Z.to_nat k) b)) <->
                  exists p, 0 <= p < k /\ zget b p = Ret (mk_dist i (dist i))).
  { intros i. split.
    - intros Hin. apply in_map_iff in Hin as (d & <- & Hin). apply In_zget in Hin as [p Hp].
      assert (Bp := zget_bound _ _ _ Hp). rewrite zlen_firstn in Bp by lia. rewrite firstn_zget in Hp by lia.
      exists p. split; [lia|]. destruct (Eb p ltac:(lia)) as (i & Bi & Ei). rewrite Ei in Hp. injection Hp as <-.
      exact Ei.
    - intros (p & Bp & Ep). apply in_map_iff. exists (mk_dist i (dist i)). split; [reflexivity|].
      apply zget_In with p. rewrite firstn_zget by lia. exact Ep. }
  split; [rewrite zlen_map, zlen_firstn by lia; lia|]. split; [|split; [|split]].
  - replace (Z.to_nat n) with (Z.to_nat k + Z.to_nat (n - k))%nat in ND by lia.
    rewrite <- (firstn_skipn (Z.to_nat k) (firstn _ b)) in ND. rewrite map_app in ND.
    rewrite firstn_firstn, Nat.min_l in ND by lia.
    clear - ND. induction (map di_index (firstn (Z.to_nat k) b)) as [|a l IH]; [constructor|].
    simpl in ND. apply NoDup_cons_iff in ND as [N1 N2]. constructor; auto. intros C. apply N1, in_or_app; auto.
  - intros i Hin. apply Sel in Hin as (p & Bp & Ep). destruct (Eb p ltac:(lia)) as (i' & Bi & Ei).
    rewrite Ep in Ei. injection Ei as ->. exact Bi.
  - intros p Hp. destruct (Eb p ltac:(lia)) as (i & Bi & Ei). exists i, (dist i). split; [|auto].
    rewrite zget_map, firstn_zget, Ei by lia. reflexivity.
  - intros i j Hi Hj Bj. apply Sel in Hi as (p & Bp & Ep).
    assert (Hin : In j (map di_index (firstn (Z.to_nat n) b))).
    { eapply Permutation_in; [exact Pi|]. apply zrange_In; auto. }
    apply in_map_iff in Hin as (d & Ej & Hin). apply In_zget in Hin as [q Hq].
    assert (Bq := zget_bound _ _ _ Hq). rewrite zlen_firstn in Bq by lia. rewrite firstn_zget in Hq by lia.
    destruct (Eb q ltac:(lia)) as (j' & Bj' & Ej'). rewrite Hq in Ej'. injection Ej' as ->. simpl in Ej. subst j'.
    assert (k <= q).
    { destruct (Z.lt_ge_cases q k); auto. exfalso. apply Hj. apply Sel. exists q. split; [lia|auto]. }
    specialize (S p q _ _ ltac:(lia) ltac:(lia) Ep Hq). exact S.
Qed.

(** ** Voting *)
Definition label_ok (l : Z) : Prop := 0 <= l < 10.
Definition vote_step (acc : option (list Z)) (label : Z) : res (option (list Z)) :=
  match acc with
  | None => Ret None
  | Some votes =>
      if (label <? 0) || (EML_NEIGHBORS_MAX_CLASSES <=? label) then Ret None
      else
        let* v := zget votes label in
        let* votes' := zset votes label (to_int16 (v + 1)) in
        Ret (Some votes')
  end.

Lemma vote_none ls : foldM vote_step None ls = Ret None.
Proof. induction ls; simpl; auto. Qed.

Lemma vote_steps done_ ls vs : zlen done_ + zlen ls <= 32767 -> zlen vs = 10 ->
  (forall c, 0 <= c < 10 -> zget vs c = Ret (votes done_ c)) ->
  (Forall label_ok ls -> exists vs', foldM vote_step (Some vs) ls = Ret (Some vs') /\ zlen vs' = 10 /\
     forall c, 0 <= c < 10 -> zget vs' c = Ret (votes (done_ ++ ls) c)) /\
  (~ Forall label_ok ls -> foldM vote_step (Some vs) ls = Ret None).
Proof.
  revert done_ vs. induction ls as [|a ls IH]; intros done_ vs Hlen Hvs Hv.
  - split; [|intros C; exfalso; apply C; constructor]. intros _. exists vs. rewrite app_nil_r. auto.
  - rewrite zlen_cons in Hlen. pose proof (zlen_nonneg ls) as N. cbn [foldM]. unfold vote_step at 1 3.
    unfold EML_NEIGHBORS_MAX_CLASSES.
    destruct (Z.ltb_spec a 0); [|destruct (Z.leb_spec 10 a)]; cbn [orb].
    + cbn [bind]. split; [intros F; inversion F; unfold label_ok in *; lia|]. intros _. apply vote_none.
    + cbn [bind]. split; [intros F; inversion F; unfold label_ok in *; lia|]. intros _. apply vote_none.
    + rewrite Hv by lia. cbn [bind]. pose proof (votes_nonneg done_ a). pose proof (votes_le done_ a).
      rewrite to_int16_id by (unfold int16_ok; lia). rewrite zset_ok by lia. cbn [bind].
      destruct (IH (done_ ++ [a]) (list_set vs (Z.to_nat a) (votes done_ a + 1))) as [I1 I2].
      * rewrite zlen_app. change (zlen [a]) with 1. lia.
      * rewrite zlen_list_set; auto.
      * intros c Hc. rewrite zget_list_set by lia. rewrite votes_app. destruct (Z.eqb_spec a c), (Z.eqb_spec c a); try lia.
        -- subst; reflexivity.
        -- rewrite Hv by auto. f_equal. lia.
      * split.
        -- intros F. inversion F; subst. destruct I1 as (vs' & E1 & E2 & E3); auto.
           exists vs'. rewrite <- app_assoc in E3. auto.
        -- intros F. apply I2. intros C. apply F. constructor; auto. unfold label_ok; lia.
Qed.

Lemma count_votes_list self items data0 labels0 ds k sel :
  stores data0 labels0 self items -> zlen sel = k ->
  (forall i, In i sel -> 0 <= i < zlen items) ->
  (forall p, 0 <= p < k -> exists i d, zget sel p = Ret i /\ zget ds p = Ret (mk_dist i d)) ->
  nb_count_votes self ds k = foldM vote_step (Some (repeat 0 10)) (labels_of items sel).
Proof.
  intros H Hk Hin Hp. destruct H as [Hc Hm Hf Hr Hrd Hrl Hd Hl].
  unfold nb_count_votes.
  assert (F : Forall2 (fun i l => (let* d := zget ds i in zget (nm_labels self) (di_index d)) = Ret l)
                (zrange k) (labels_of items sel)).
  { assert (G : mapM (fun i => let* d := zget ds i in zget (nm_labels self) (di_index d)) (zrange k)
               = Ret (labels_of items sel)).
    { subst k. unfold labels_of.
      replace (map (fun i => match zget items i with Ret p => snd p | Err _ => 0 end) sel)
        with (map (fun p => match (let* i := zget sel p in zget items i) with Ret p => snd p | Err _ => 0 end) (zrange (zlen sel))).
      2:{ apply zget_eq; [rewrite !zlen_map, zlen_zrange by apply zlen_nonneg; reflexivity|].
          intros i Hi. rewrite zlen_map, zlen_zrange in Hi by apply zlen_nonneg.
          rewrite !zget_map, zget_zrange by auto. cbn [bind]. destruct (zget_ok sel i Hi) as [y ->]. reflexivity. }
      apply mapM_Ret. 
      assert (A : forall p, In p (zrange (zlen sel)) ->
         (let* d := zget ds p in zget (nm_labels self) (di_index d)) =
         Ret (match (let* i := zget sel p in zget items i) with Ret p => snd p | Err _ => 0 end)).
      { intros p Bp. apply zrange_In in Bp. destruct (Hp p Bp) as (i & d & Es & Ed). rewrite Es, Ed. cbn [bind di_index].
        assert (Bi : 0 <= i < zlen items) by (apply Hin; eapply zget_In; eauto).
        destruct (zget_ok items i Bi) as [[r l] Er]. rewrite Er. cbn [snd]. rewrite Hl.
        apply zget_app1. rewrite zget_map, Er. reflexivity. }
      induction (zrange (zlen sel)) as [|p ps IH]; constructor; [apply A; left; auto|].
      apply IH. intros q Hq. apply A; right; auto. }
    apply mapM_Ret in G. exact G. }
  rewrite <- (foldM_map2 (fun i => let* d := zget ds i in zget (nm_labels self) (di_index d)) vote_step _ _ _ F).
  apply foldM_ext. intros s i Hi. 
  assert (Ev : exists l, (let* d := zget ds i in zget (nm_labels self) (di_index d)) = Ret l).
  { apply zrange_In in Hi. destruct (zget_ok (zrange k) i) as [y Ey]. { rewrite zlen_zrange; lia. }
    destruct (Forall2_zget _ _ _ _ _ F Ey) as (l & _ & El). rewrite zget_zrange in Ey by auto. injection Ey as <-. eauto. }
  destruct s as [vs|]; cbn [vote_step].
  - destruct (zget ds i) as [d|e]; [|reflexivity]. cbn [bind]. destruct (zget (nm_labels self) (di_index d)); reflexivity.
  - destruct Ev as [l ->]. reflexivity.
Qed.

Theorem predict_ok data0 labels0 self items x ds out k :
  stores data0 labels0 self items -> zlen x = nm_n_features self -> Forall int16_ok x ->
  (forall r l, In (r, l) items -> sq_dist x r < 2 ^ 30) ->
  zlen items <= zlen ds -> nm_k self = k -> 0 <= k <= zlen items ->
  exists ds' sel, k_nearest int_dist items x k sel /\
    (Forall label_ok (labels_of items sel) -> exists c,
       eml_neighbors_predict self x (zlen x) ds (zlen ds) out = Ret (EmlOk, ds', c) /\
       (k = 0 /\ c = -1 \/ 1 <= k /\ majority 10 (labels_of items sel) c)) /\
    (~ Forall label_ok (labels_of items sel) ->
       eml_neighbors_predict self x (zlen x) ds (zlen ds) out = Ret (EmlUnknownError, ds', out)).
Proof.
  intros H Hx Hx16 Hclose Hds Ek Hk.
  destruct (infer_ok data0 labels0 self items x H Hx Hx16 Hclose ds Hds) as (ds1 & E1 & L1 & I1 & O1).
  pose proof (stores_max _ _ _ _ H) as Hm. pose proof (stores_count _ _ _ _ H) as Hc.
  destruct (sort_select ds1 (row_dist items x) (zlen items) k) as (ds2 & sel & E2 & L2 & S1 & S2 & S3 & S4 & S5); auto; try lia.
  exists ds2, sel.
  assert (Enn : eml_neighbors_predict self x (zlen x) ds (zlen ds) out =
    (let* vts := foldM vote_step (Some (repeat 0 10)) (labels_of items sel) in
     match vts with
     | None => Ret (EmlUnknownError, ds2, out)
     | Some vts => let* c := most_voted vts in Ret (EmlOk, ds2, to_int16 c)
     end)).
  { unfold eml_neighbors_predict. rewrite E1. cbn [bind]. unfold eml_neighbors_find_nearest.
    rewrite Hc, Ek. destruct (Z.leb_spec k (zlen items)); [|lia]. cbn [negb]. rewrite E2. cbn [bind].
    rewrite (count_votes_list self items data0 labels0 ds2 k sel H S1 S3 S4).
    destruct (foldM vote_step _ _) as [[vts|]|]; cbn [bind]; auto.
    destruct (most_voted vts); reflexivity. }
  assert (Llab : zlen (labels_of items sel) = k) by (unfold labels_of; rewrite zlen_map; auto).
  destruct (vote_steps [] (labels_of items sel) (repeat 0 10)) as [V1 V2].
  { change (zlen []) with 0. lia. } { reflexivity. }
  { intros c Hc'. rewrite zget_repeat by lia. reflexivity. }
  split; [|split].
  - split; [auto|]. split; [auto|]. split; [auto|].
    intros i j ri li rj lj Hi Hj Ei Ej.
    specialize (S5 i j Hi Hj (zget_bound _ _ _ Ej)). unfold row_dist in S5. rewrite Ei, Ej in S5. exact S5.
  - intros F. destruct (V1 F) as (vs & Ev & Lv & Gv). rewrite Enn, Ev. cbn [bind]. cbn [app] in Gv.
    unfold most_voted, EML_NEIGHBORS_MAX_CLASSES.
    destruct (Z.eq_dec k 0) as [K0|K0].
    + assert (Enil : labels_of items sel = []).
      { destruct (labels_of items sel); auto. rewrite zlen_cons in Llab. pose proof (zlen_nonneg l). lia. }
      rewrite Enil in Gv.
      assert (Evs : vs = repeat 0 10).
      { apply zget_eq; [rewrite Lv; reflexivity|]. intros i Hi. rewrite Lv in Hi.
        rewrite Gv, zget_repeat by lia. reflexivity. }
      rewrite Evs.
      eexists. split; [reflexivity|]. left. split; [auto|reflexivity].
    + destruct (iargmax_votes 10 (labels_of items sel) vs) as (c & Em & Mc); auto.
      * lia.
      * intros C. rewrite C in Llab. change (zlen []) with 0 in Llab. lia.
      * rewrite Em. cbn [bind]. exists c. split; [|right; split; [lia|auto]].
        destruct Mc as [Bc _]. rewrite to_int16_id by (unfold int16_ok; lia). reflexivity.
  - intros F. rewrite Enn, (V2 F). reflexivity.
Qed.

Theorem predict_errors self x lx ds lds out :
  (lds < nm_n_items self \/ lx <> nm_n_features self ->
     eml_neighbors_predict self x lx ds lds out = Ret (EmlSizeMismatch, ds, out)).
Proof.
  intros Hc. unfold eml_neighbors_predict, eml_neighbors_infer.
  destruct (Z.leb_spec (nm_n_items self) lds); [|reflexivity]. cbn [negb].
  destruct (Z.eqb_spec lx (nm_n_features self)); [lia|reflexivity].
Qed.

Theorem predict_k_too_big data0 labels0 self items x ds out :
  stores data0 labels0 self items -> zlen x = nm_n_features self -> Forall int16_ok x ->
  (forall r l, In (r, l) items -> sq_dist x r < 2 ^ 30) ->
  zlen items <= zlen ds -> zlen items < nm_k self ->
  exists ds', eml_neighbors_predict self x (zlen x) ds (zlen ds) out = Ret (EmlSizeMismatch, ds', out).
Proof.
  intros H Hx Hx16 Hclose Hds Hk.
  destruct (infer_ok data0 labels0 self items x H Hx Hx16 Hclose ds Hds) as (ds1 & E1 & _).
  exists ds1. unfold eml_neighbors_predict. rewrite E1. cbn [bind]. unfold eml_neighbors_find_nearest.
  rewrite (stores_count _ _ _ _ H). destruct (Z.leb_spec (nm_k self) (zlen items)); [lia|]. reflexivity.
Qed.

(** ** Adding items *)
Lemma memcpy_at_ok (pre old post src : list Z) : length old = length src ->
  memcpy_at (pre ++ old ++ post) (zlen pre) src (zlen src) = Ret (pre ++ src ++ post).
Proof.
  intros Hl. unfold memcpy_at.
  destruct (foldM_range_inv (fun d i => let* v := zget src i in zset d (zlen pre + i) v)
    (fun k d => zlen d = zlen (pre ++ old ++ post) /\
       forall j, zget d j = if (zlen pre <=? j) && (j <? zlen pre + k) then zget src (j - zlen pre)
                            else zget (pre ++ old ++ post) j) (zlen src) (pre ++ old ++ post))
    as (d & E & L & G).
  - apply zlen_nonneg.
  - split; [auto|]. intros j. destruct (Z.leb_spec (zlen pre) j), (Z.ltb_spec j (zlen pre + 0)); cbn; auto; lia.
  - intros i d Hi (L & G). destruct (zget_ok src i Hi) as [v Ev]. rewrite Ev. cbn [bind].
    assert (B : 0 <= zlen pre + i < zlen d).
    { rewrite L, !zlen_app. pose proof (zlen_nonneg pre). pose proof (zlen_nonneg post). unfold zlen in *. lia. }
    rewrite zset_ok by exact B. eexists. split; [reflexivity|]. rewrite zlen_list_set. split; [auto|].
    intros j. rewrite zget_list_set by exact B. rewrite G.
    destruct (Z.eqb_spec (zlen pre + i) j), (Z.leb_spec (zlen pre) j), (Z.ltb_spec j (zlen pre + i)),
      (Z.ltb_spec j (zlen pre + (i + 1))); cbn [andb]; try lia; auto.
    subst j. replace (zlen pre + i - zlen pre) with i by lia. auto.
  - rewrite E. f_equal. apply zget_eq.
    + rewrite L, !zlen_app. unfold zlen. lia.
    + intros j Hj. rewrite G.
      destruct (Z.leb_spec (zlen pre) j); cbn [andb].
      * destruct (Z.ltb_spec j (zlen pre + zlen src)).
        -- destruct (zget_ok src (j - zlen pre)) as [v Ev]; [lia|]. rewrite Ev. symmetry.
           replace j with (zlen pre + (j - zlen pre)) by lia. apply zget_app2. apply zget_app1. auto.
        -- destruct (zget_ok (pre ++ old ++ post) j) as [v Ev]; [lia|]. rewrite Ev. symmetry.
           apply zget_app_inv in Ev as [Ev|[_ Ev]]; [apply zget_bound in Ev; lia|].
           apply zget_app_inv in Ev as [Ev|[B2 Ev]]; [apply zget_bound in Ev; unfold zlen in *; lia|].
           replace j with (zlen pre + (zlen src + (j - zlen pre - zlen src))) by lia.
           apply zget_app2, zget_app2. replace (zlen src) with (zlen old) by (unfold zlen; lia). auto.
      * destruct (zget_ok pre j) as [v Ev]; [lia|]. now rewrite !(zget_app1 _ _ _ _ Ev).
Qed.

Lemma skipn_add {A} (l : list A) n m : skipn (n + m) l = skipn m (skipn n l).
Proof. revert n. induction l as [|a l IH]; intros [|n]; simpl; auto. now rewrite skipn_nil. Qed.
Lemma list_set_app {A} (pre : list A) o post v : list_set (pre ++ o :: post) (length pre) v = pre ++ v :: post.
Proof. induction pre; simpl; f_equal; auto. Qed.

Theorem add_item_ok data0 labels0 self items v l :
  stores data0 labels0 self items -> Forall int16_ok v ->
  zlen v = nm_n_features self -> zlen items < nm_max_items self ->
  exists self', eml_neighbors_add_item self v (zlen v) l = Ret (EmlOk, self') /\
    stores data0 labels0 self' (items ++ [(v, l)]) /\
    nm_n_features self' = nm_n_features self /\ nm_max_items self' = nm_max_items self /\ nm_k self' = nm_k self.
Proof.
  intros H Hv Lv Hroom. destruct H as [Hc Hm Hf Hr Hrd Hrl Hd Hl].
  unfold eml_neighbors_add_item. replace (zlen v =? nm_n_features self) with true by (symmetry; apply Z.eqb_eq; exact Lv). rewrite Hc. cbn [negb].
  destruct (Z.ltb_spec (zlen items) (nm_max_items self)); [|lia]. cbn [negb].
  pose proof (zlen_nonneg items) as N.
  rewrite to_int16_id by (unfold int16_ok; lia).
  rewrite chk_int32_ok by (unfold int32_ok; nia). cbn [bind].
  assert (Lc := concat_length items _ Hr).
  set (c := concat (map fst items)) in *.
  assert (Hspace : nm_n_features self * (zlen items + 1) <= zlen data0) by nia.
  assert (Ed : exists old, skipn (length c) data0 = old ++ skipn (length c + length v) data0 /\ length old = length v).
  { exists (firstn (length v) (skipn (length c) data0)). split.
    - rewrite skipn_add. now rewrite firstn_skipn.
    - rewrite firstn_length, skipn_length. unfold zlen in *. nia. }
  destruct Ed as (old & Ed & Lo). rewrite Hd, Ed. rewrite <- Lc.
  rewrite memcpy_at_ok by auto. cbn [bind].
  assert (El : exists o, skipn (length items) labels0 = o :: skipn (length items + 1) labels0).
  { destruct (skipn (length items) labels0) as [|o rest] eqn:E.
    - assert (length (skipn (length items) labels0) = O) by (rewrite E; auto). rewrite skipn_length in *.
      unfold zlen in *. lia.
    - exists o. f_equal. rewrite skipn_add, E. reflexivity. }
  destruct El as (o & El). rewrite Hl, El.
  rewrite zset_ok.
  2:{ rewrite zlen_app, zlen_cons, zlen_map. pose proof (zlen_nonneg (skipn (length items + 1) labels0)). lia. }
  cbn [bind]. eexists. split; [reflexivity|]. cbn [nm_n_features nm_max_items nm_k].
  split; [|auto]. constructor; cbn [nm_n_features nm_max_items nm_k nm_n_items nm_data nm_labels]; auto.
  - rewrite zlen_app. change (zlen [(v, l)]) with 1. lia.
  - rewrite zlen_app. change (zlen [(v, l)]) with 1. lia.
  - apply Forall_app. split; [auto|]. constructor; [simpl; auto|constructor].
  - rewrite map_app, concat_app. cbn [map concat fst]. rewrite app_nil_r. fold c.
    rewrite app_length, <- app_assoc. reflexivity.
  - rewrite map_app, app_length. cbn [map snd length]. rewrite <- app_assoc. cbn [app].
    unfold zlen. rewrite Nat2Z.id. pose proof (list_set_app (map snd items) o (skipn (length items + 1) labels0) l) as Q. rewrite map_length in Q. exact Q.
Qed.

Theorem add_item_rejected self v l : zlen v <> nm_n_features self \/ nm_max_items self <= nm_n_items self ->
  eml_neighbors_add_item self v (zlen v) l = Ret (EmlSizeMismatch, self).
Proof.
  intros H. unfold eml_neighbors_add_item. destruct (Z.eqb_spec (zlen v) (nm_n_features self)); [|reflexivity].
  cbn [negb]. destruct (Z.ltb_spec (nm_n_items self) (nm_max_items self)); [lia|reflexivity].
Qed.

(** A history of calls; errors are ignored by the caller. *)
Definition add_all (self : neighbors_model) (requests : dataset) : res neighbors_model :=
  foldM (fun s r => let* (_, s') := eml_neighbors_add_item s (fst r) (zlen (fst r)) (snd r) in Ret s') self requests.

Theorem add_all_ok data0 labels0 requests : forall self items,
  stores data0 labels0 self items -> Forall (fun r => Forall int16_ok (fst r)) requests ->
  exists self', add_all self requests = Ret self' /\
    stores data0 labels0 self' (items ++ accepted (nm_n_features self) (nm_max_items self - zlen items) requests) /\
    nm_n_features self' = nm_n_features self /\ nm_max_items self' = nm_max_items self /\ nm_k self' = nm_k self.
Proof.
  induction requests as [|[v l] reqs IH]; intros self items H F.
  - exists self. simpl. rewrite app_nil_r. auto.
  - inversion F as [|? ? F1 F2]; subst. unfold add_all in *. cbn [foldM fst snd accepted].
    destruct (Z.eqb_spec (zlen v) (nm_n_features self)) as [E|E];
      [destruct (Z.ltb_spec 0 (nm_max_items self - zlen items)) as [R|R]|]; cbn [andb].
    + destruct (add_item_ok data0 labels0 self items v l H F1 E ltac:(lia)) as (s1 & E1 & H1 & A1 & A2 & A3).
      rewrite E1. cbn [bind]. destruct (IH s1 _ H1 F2) as (s2 & E2 & H2 & B1 & B2 & B3).
      exists s2. split; [auto|]. rewrite A1, A2, zlen_app in H2. change (zlen [(v, l)]) with 1 in H2.
      rewrite <- app_assoc in H2. cbn [app] in H2.
      replace (nm_max_items self - (zlen items + 1)) with (nm_max_items self - zlen items - 1) in H2 by lia.
      split; [exact H2|]. split; [congruence|]. split; congruence.
    + rewrite add_item_rejected by (right; rewrite (stores_count _ _ _ _ H); lia). cbn [bind]. apply IH; auto.
    + rewrite add_item_rejected by (left; auto). cbn [bind]. apply IH; auto.
Qed.
