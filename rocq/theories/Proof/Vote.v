(** Counting votes in binary32, dividing, argmax. *)
From Coq Require Import ZArith List Bool Lia Reals Lra.
From Flocq Require Import Core BinarySingleNaN.
From Verif.Base Require Import Res CInt ListX Float Loops.
From Verif.Model Require Import Common TreesConvert TreesC.
From Verif.Spec Require Import VoteSpec.
Import ListNotations.
Open Scope Z_scope.
Open Scope res_scope.

(** out[c] += 1.0f *)
Definition count_step (out : list f32) (c : Z) : res (list f32) :=
  let* x := zget out c in zset out c (fadd x (f_of_Z 1)).

Lemma votes_app cs c d : votes (cs ++ [d]) c = votes cs c + (if c =? d then 1 else 0).
Proof.
  unfold votes. rewrite filter_app, zlen_app. simpl. destruct (c =? d); reflexivity.
Qed.
Lemma votes_nonneg cs c : 0 <= votes cs c.
Proof. apply zlen_nonneg. Qed.
Lemma votes_le cs c : votes cs c <= zlen cs.
Proof.
  unfold votes, zlen. pose proof (filter_negb_length (Z.eqb c) cs). lia.
Qed.
Lemma votes_pos cs c : In c cs -> 1 <= votes cs c.
Proof.
  intros H. unfold votes. assert (In c (filter (Z.eqb c) cs)) by (apply filter_In; split; auto; apply Z.eqb_refl).
  destruct (filter (Z.eqb c) cs); [easy|]. rewrite zlen_cons. pose proof (zlen_nonneg l). lia.
Qed.

(** [x] is a finite float holding the integer [z]. *)
Definition holds (x : f32) (z : Z) : Prop := is_finite x = true /\ B2R x = IZR z.

Lemma count_votes n cs out0 :
  0 <= n <= zlen out0 -> Forall (fun c => 0 <= c < n) cs -> zlen cs <= 2 ^ 24 ->
  (forall i, 0 <= i < n -> zget out0 i = Ret fzero) ->
  exists out, foldM count_step out0 cs = Ret out /\ zlen out = zlen out0 /\
    (forall c, 0 <= c < n -> exists x, zget out c = Ret x /\ holds x (votes cs c)) /\
    (forall i, n <= i -> zget out i = zget out0 i).
Proof.
  intros Hn Hcs Hlen H0.
  destruct (foldM_inv count_step (fun d o => zlen o = zlen out0 /\
     (forall c, 0 <= c < n -> exists x, zget o c = Ret x /\ holds x (votes d c)) /\
     (forall i, n <= i -> zget o i = zget out0 i)) cs out0) as (o & E & Hl & Hv & Ho).
  - split; [auto|]. split; [|auto]. intros c Hc. exists fzero. split; [auto|].
    split; auto.
  - intros d a todo o El (Hl & Hv & Ho).
    assert (Ha : 0 <= a < n). { rewrite Forall_forall in Hcs. apply Hcs. rewrite El. apply in_elt. }
    destruct (Hv a Ha) as (x & Hx & Fx & Bx).
    unfold count_step at 1. rewrite Hx. cbn [bind]. rewrite zset_ok by lia.
    eexists; split; [reflexivity|]. rewrite zlen_list_set. split; [auto|].
    assert (Hz : zlen d + 1 <= zlen cs).
    { rewrite El, zlen_app, zlen_cons. pose proof (zlen_nonneg todo). lia. }
    destruct (@f_of_Z_exact 24 128 _ _ 1) as [B1 F1]; [simpl; lia|].
    destruct (fadd_int x (f_of_Z 1) (votes d a) 1 Fx F1 Bx B1) as [B2 F2].
    { pose proof (votes_nonneg d a). pose proof (votes_le d a). rewrite Z.abs_eq by lia. lia. }
    split.
    + intros c Hc. rewrite zget_list_set by lia. rewrite votes_app.
      destruct (Z.eqb_spec a c).
      * subst c. rewrite Z.eqb_refl. eexists; split; [reflexivity|]. split; auto.
      * destruct (Z.eqb_spec c a); [congruence|]. rewrite Z.add_0_r. auto.
    + intros i Hi. rewrite zget_list_set by lia. destruct (Z.eqb_spec a i); [lia|]. auto.
  - exists o. auto.
Qed.

(** Division by the number of trees: correctly rounded, order preserving. *)
Notation rnd32 := (round radix2 (SpecFloat.fexp 24 128) ZnearestE).

Lemma mean_votes n cs out n_trees :
  0 <= n <= zlen out -> zlen cs = n_trees -> 1 <= n_trees < 2 ^ 24 ->
  (forall c, 0 <= c < n -> exists x, zget out c = Ret x /\ holds x (votes cs c)) ->
  exists out', mean_out out n n_trees = Ret out' /\ zlen out' = zlen out /\
    (forall c, 0 <= c < n -> exists y, zget out' c = Ret y /\ is_finite y = true /\
       B2R y = rnd32 (IZR (votes cs c) / IZR n_trees)) /\
    (forall i, n <= i -> zget out' i = zget out i).
Proof.
  intros Hn Hcs Hnt H.
  destruct (foldM_update (fun _ x => fdiv x (f_of_Z n_trees : f32)) out n Hn) as (o & E & Hl & Hg & Ho).
  exists o. split; [exact E|]. split; [auto|]. split; [|auto].
  intros c Hc. destruct (H c Hc) as (x & Hx & Fx & Bx). exists (fdiv x (f_of_Z n_trees)).
  split; [now apply Hg|].
  destruct (@f_of_Z_exact 24 128 _ _ n_trees) as [B1 F1]; [lia|].
  assert (Hp : (0 < IZR n_trees)%R) by (apply IZR_lt; lia).
  destruct (fdiv_correct x (f_of_Z n_trees) Fx) as [B2 F2].
  - rewrite B1. lra.
  - rewrite B1, Bx. pose proof (votes_nonneg cs c). pose proof (votes_le cs c).
    assert (Hle : (IZR (votes cs c) / IZR n_trees <= 1)%R).
    { apply Rmult_le_reg_r with (IZR n_trees); auto. unfold Rdiv. rewrite Rmult_assoc, Rinv_l by lra.
      rewrite Rmult_1_r, Rmult_1_l. apply IZR_le; lia. }
    assert (0 <= IZR (votes cs c) / IZR n_trees)%R.
    { apply Rmult_le_pos; [apply IZR_le; lia|]. left; now apply Rinv_0_lt_compat. }
    rewrite Rabs_pos_eq by auto. eapply Rle_trans; [exact Hle|]. apply IZR_le. vm_compute. congruence.
  - rewrite B2, B1, Bx. auto.
Qed.

(** argmax over finite floats. *)
Lemma argmax_f32_spec (vs : list f32) (n : Z) :
  0 <= n <= zlen vs ->
  (forall i, 0 <= i < n -> exists x, zget vs i = Ret x /\ is_finite x = true) ->
  exists c, argmax_f32 vs n = Ret c /\
    ((c = -1 /\ forall i x, 0 <= i < n -> zget vs i = Ret x -> (B2R x <= 0)%R) \/
     (exists y, zget vs c = Ret y /\ 0 <= c < n /\ (0 < B2R y)%R /\
        (forall i x, 0 <= i < n -> zget vs i = Ret x -> (B2R x <= B2R y)%R) /\
        (forall i x, 0 <= i < c -> zget vs i = Ret x -> (B2R x < B2R y)%R))).
Proof.
  intros Hn Hf. unfold argmax_f32.
  destruct (foldM_range_inv (fun '(c, v) i =>
      let* x := zget vs i in if fltb v x then Ret (i, x) else Ret (c, v))
    (fun k (s : Z * f32) => is_finite (snd s) = true /\
       ((fst s = -1 /\ snd s = fzero /\ forall i x, 0 <= i < k -> zget vs i = Ret x -> (B2R x <= 0)%R) \/
        (zget vs (fst s) = Ret (snd s) /\ 0 <= fst s < k /\ (0 < B2R (snd s))%R /\
         (forall i x, 0 <= i < k -> zget vs i = Ret x -> (B2R x <= B2R (snd s))%R) /\
         (forall i x, 0 <= i < fst s -> zget vs i = Ret x -> (B2R x < B2R (snd s))%R))))
    n (-1, fzero)) as ([c v] & E & Fv & HP).
  - lia.
  - split; [reflexivity|]. left. cbn [fst snd]. split; [auto|]. split; [auto|]. intros; lia.
  - intros k [c v] Hk (Fv & HP). cbn [fst snd] in *.
    destruct (Hf k Hk) as (x & Hx & Fx). rewrite Hx. cbn [bind].
    destruct (fltb v x) eqn:Elt.
    + eexists; split; [reflexivity|]. cbn [fst snd]. split; auto.
      apply (fltb_iff v x Fv Fx) in Elt. right.
      assert (Hpre : forall i y, 0 <= i < k -> zget vs i = Ret y -> (B2R y < B2R x)%R).
      { intros i y Hi Hy. destruct HP as [(_ & Ev & HP)|(_ & _ & _ & HP & _)].
        - specialize (HP i y Hi Hy). subst v. simpl in Elt. lra.
        - specialize (HP i y Hi Hy). lra. }
      split; [auto|]. split; [lia|]. split.
      { destruct HP as [(_ & Ev & HP)|(_ & _ & HP & _)]; [subst v; simpl in Elt; lra|lra]. }
      split; [|auto]. intros i y Hi Hy. destruct (Z.eq_dec i k).
      * subst i. rewrite Hx in Hy. inv Hy. lra.
      * left. apply (Hpre i); auto. lia.
    + eexists; split; [reflexivity|]. cbn [fst snd]. split; auto.
      assert (Hge : (B2R x <= B2R v)%R).
      { apply Rnot_lt_le. intros Hlt. apply (fltb_iff v x Fv Fx) in Hlt. congruence. }
      destruct HP as [(H1 & Ev & HP)|(H1 & H2 & H3 & HP & HP')].
      * left. split; [auto|]. split; [auto|]. intros i y Hi Hy. destruct (Z.eq_dec i k).
        { subst i. rewrite Hx in Hy. inv Hy. simpl in Hge. lra. }
        apply (HP i); auto. lia.
      * right. split; [auto|]. split; [lia|]. split; [auto|]. split; [|auto].
        intros i y Hi Hy. destruct (Z.eq_dec i k).
        { subst i. rewrite Hx in Hy. inv Hy. auto. }
        apply (HP i); auto. lia.
  - rewrite E. cbn [bind]. exists c. split; [auto|]. cbn [fst snd] in HP.
    destruct HP as [(H1 & Ev & HP)|HP]; [left; auto|right; exists v; tauto].
Qed.

Lemma majority_unique n cs a b : majority n cs a -> majority n cs b -> a = b.
Proof.
  intros (A1 & A2 & A3) (B1 & B2 & B3). destruct (Z.lt_trichotomy a b) as [H|[H|H]]; auto.
  - specialize (B3 a ltac:(lia)). specialize (A2 b ltac:(lia)). lia.
  - specialize (A3 b ltac:(lia)). specialize (B2 a ltac:(lia)). lia.
Qed.

(** The argmax of rounded vote fractions is the majority class. *)
Lemma argmax_votes n cs out n_trees :
  1 <= n <= zlen out -> zlen cs = n_trees -> 1 <= n_trees < 2 ^ 24 ->
  Forall (fun c => 0 <= c < n) cs ->
  (forall c, 0 <= c < n -> exists y, zget out c = Ret y /\ is_finite y = true /\
       B2R y = rnd32 (IZR (votes cs c) / IZR n_trees)) ->
  exists c, argmax_f32 out n = Ret c /\ majority n cs c.
Proof.
  intros Hn Hl Hnt Hcs H.
  destruct (argmax_f32_spec out n) as (c & E & HP).
  { lia. } { intros i Hi. destruct (H i Hi) as (y & H1 & H2 & _). eauto. }
  exists c. split; [auto|].
  assert (Hlt : forall a b, 0 <= a < n -> 0 <= b < n -> votes cs a < votes cs b ->
    (rnd32 (IZR (votes cs a) / IZR n_trees) < rnd32 (IZR (votes cs b) / IZR n_trees))%R).
  { intros a b Ha Hb Hab. apply rnd_frac_lt; try lia.
    - pose proof (votes_nonneg cs a). lia.
    - rewrite <- Hl. apply votes_le. }
  assert (Hmon : forall a b, votes cs a <= votes cs b ->
    (rnd32 (IZR (votes cs a) / IZR n_trees) <= rnd32 (IZR (votes cs b) / IZR n_trees))%R).
  { intros a b Hab. apply (@rnd_le 24 128 _). unfold Rdiv. apply Rmult_le_compat_r.
    - left. apply Rinv_0_lt_compat. apply IZR_lt. lia.
    - now apply IZR_le. }
  destruct HP as [(Hc & HP)|(y & Hy & Hc & Hpos & Hmax & Hfirst)].
  - exfalso. destruct cs as [|a cs']; [unfold zlen in Hl; simpl in Hl; lia|].
    assert (Ha : 0 <= a < n) by (inversion Hcs; auto).
    destruct (H a Ha) as (y & Hy & Fy & By). specialize (HP a y Ha Hy).
    rewrite By in HP.
    assert (H0 : (rnd32 (IZR 0 / IZR n_trees) < rnd32 (IZR (votes (a :: cs') a) / IZR n_trees))%R).
    { apply rnd_frac_lt; try lia.
      - pose proof (votes_pos (a :: cs') a (or_introl eq_refl)). lia.
      - rewrite <- Hl. apply votes_le. }
    unfold Rdiv in H0 at 1. rewrite Rmult_0_l, round_0 in H0; [lra|].
    auto with typeclass_instances.
  - split; [auto|]. destruct (H c Hc) as (y' & Hy' & Fy & By). rewrite Hy in Hy'. inv Hy'.
    split.
    + intros c' Hc'. destruct (H c' Hc') as (z & Hz & Fz & Bz).
      specialize (Hmax c' z Hc' Hz). rewrite Bz, By in Hmax.
      destruct (Z_le_gt_dec (votes cs c') (votes cs c)); auto.
      specialize (Hlt c c' Hc Hc' ltac:(lia)). lra.
    + intros c' Hc'. destruct (H c' ltac:(lia)) as (z & Hz & Fz & Bz).
      specialize (Hfirst c' z Hc' Hz). rewrite Bz, By in Hfirst.
      destruct (Z_lt_ge_dec (votes cs c') (votes cs c)); auto.
      specialize (Hmon c c' ltac:(lia)). lra.
Qed.

(** ** The same with integer counters (inline code). *)
Definition icount_step (vs : list Z) (c : Z) : res (list Z) :=
  let* v := zget vs c in let* v' := chk_int32 (v + 1) in zset vs c v'.

Lemma icount_votes n cs :
  0 <= n -> Forall (fun c => 0 <= c < n) cs -> zlen cs <= 2147483647 ->
  exists out, foldM icount_step (repeat 0 (Z.to_nat n)) cs = Ret out /\ zlen out = n /\
    (forall c, 0 <= c < n -> zget out c = Ret (votes cs c)).
Proof.
  intros Hn Hcs Hlen.
  apply (foldM_inv icount_step (fun d o => zlen o = n /\
     (forall c, 0 <= c < n -> zget o c = Ret (votes d c)))).
  - rewrite zlen_repeat. split; [lia|]. intros c Hc. apply zget_repeat. lia.
  - intros d a todo o El (Hl & Hv).
    assert (Ha : 0 <= a < n). { rewrite Forall_forall in Hcs. apply Hcs. rewrite El. apply in_elt. }
    unfold icount_step at 1. rewrite Hv by auto. cbn [bind].
    assert (Hz : zlen d + 1 <= zlen cs).
    { rewrite El, zlen_app, zlen_cons. pose proof (zlen_nonneg todo). lia. }
    pose proof (votes_nonneg d a). pose proof (votes_le d a).
    rewrite chk_int32_ok by (unfold int32_ok; lia). cbn [bind]. rewrite zset_ok by lia.
    eexists; split; [reflexivity|]. rewrite zlen_list_set. split; [auto|].
    intros c Hc. rewrite zget_list_set by lia. rewrite votes_app.
    destruct (Z.eqb_spec a c).
    + subst c. rewrite Z.eqb_refl. auto.
    + destruct (Z.eqb_spec c a); [congruence|]. rewrite Z.add_0_r. auto.
Qed.

Lemma iargmax_spec (vs : list Z) n : 1 <= n <= zlen vs ->
  (exists i x, 0 <= i < n /\ zget vs i = Ret x /\ 0 < x) ->
  exists c y, (let* (cls, _) := foldM (fun '(c, m) i =>
      let* x := zget vs i in
      if m <? x then Ret (i, x) else Ret (c, m)) (-1, 0) (zrange n) in Ret cls) = Ret c /\
    zget vs c = Ret y /\ 0 <= c < n /\
    (forall i x, 0 <= i < n -> zget vs i = Ret x -> x <= y) /\
    (forall i x, 0 <= i < c -> zget vs i = Ret x -> x < y).
Proof.
  intros Hn (i0 & x0 & Hi0 & Hx0 & Hp0).
  destruct (foldM_range_inv (fun '(c, m) i =>
      let* x := zget vs i in if m <? x then Ret (i, x) else Ret (c, m))
    (fun k (s : Z * Z) =>
       ((fst s = -1 /\ snd s = 0 /\ forall i x, 0 <= i < k -> zget vs i = Ret x -> x <= 0) \/
        (zget vs (fst s) = Ret (snd s) /\ 0 <= fst s < k /\ (0 < snd s) /\
         (forall i x, 0 <= i < k -> zget vs i = Ret x -> x <= snd s) /\
         (forall i x, 0 <= i < fst s -> zget vs i = Ret x -> x < snd s))))
    n (-1, 0)) as ([c v] & E & HP).
  - lia.
  - left. cbn [fst snd]. split; [auto|]. split; [auto|]. intros; lia.
  - intros k [c v] Hk HP. cbn [fst snd] in *.
    destruct (zget_ok vs k) as [x Hx]; [lia|]. rewrite Hx. cbn [bind].
    destruct (Z.ltb_spec v x).
    + eexists; split; [reflexivity|]. cbn [fst snd]. right.
      assert (Hpre : forall i y, 0 <= i < k -> zget vs i = Ret y -> y < x).
      { intros i y Hi Hy. destruct HP as [(_ & Ev & HP)|(_ & _ & _ & HP & _)];
          specialize (HP i y Hi Hy); lia. }
      split; [auto|]. split; [lia|]. split. { destruct HP as [HP|HP]; lia. }
      split; [|auto]. intros i y Hi Hy. destruct (Z.eq_dec i k).
      * subst i. rewrite Hx in Hy. inv Hy. lia.
      * specialize (Hpre i y ltac:(lia) Hy). lia.
    + eexists; split; [reflexivity|]. cbn [fst snd].
      destruct HP as [(H1 & Ev & HP)|(H1 & H2 & H3 & HP & HP')].
      * left. split; [auto|]. split; [auto|]. intros i y Hi Hy. destruct (Z.eq_dec i k).
        { subst i. rewrite Hx in Hy. inv Hy. lia. }
        apply (HP i); auto. lia.
      * right. split; [auto|]. split; [lia|]. split; [auto|]. split; [|auto].
        intros i y Hi Hy. destruct (Z.eq_dec i k).
        { subst i. rewrite Hx in Hy. inv Hy. auto. }
        apply (HP i); auto. lia.
  - cbn [fst snd] in HP. destruct HP as [(H1 & Ev & HP)|(H1 & H2 & H3 & HP & HP')].
    + specialize (HP i0 x0 Hi0 Hx0). lia.
    + exists c, v. rewrite E. cbn [bind]. auto.
Qed.

Lemma iargmax_votes n cs vs : 1 <= n <= zlen vs -> cs <> [] ->
  Forall (fun c => 0 <= c < n) cs ->
  (forall c, 0 <= c < n -> zget vs c = Ret (votes cs c)) ->
  exists c, (let* (cls, _) := foldM (fun '(c, m) i =>
      let* x := zget vs i in
      if m <? x then Ret (i, x) else Ret (c, m)) (-1, 0) (zrange n) in Ret cls) = Ret c /\
    majority n cs c.
Proof.
  intros Hn Hne Hcs Hv. destruct cs as [|a cs']; [congruence|].
  assert (Ha : 0 <= a < n) by (inversion Hcs; auto).
  destruct (iargmax_spec vs n Hn) as (c & y & E & Hy & Hc & Hmax & Hfirst).
  { exists a, (votes (a :: cs') a). split; [auto|]. split; [auto|].
    pose proof (votes_pos (a :: cs') a (or_introl eq_refl)). lia. }
  exists c. split; [exact E|]. rewrite Hv in Hy by auto. inv Hy.
  split; [auto|]. split.
  - intros c' Hc'. apply (Hmax c'); auto.
  - intros c' Hc'. apply (Hfirst c'); auto. apply Hv. lia.
Qed.
