(** Proofs about pareto.py. *)
From Coq Require Import String ZArith List Bool Reals Lia Lra.
From Flocq Require Import Core BinarySingleNaN.
From Verif.Base Require Import Res ListX Loops Float FloatOrder Kernels.
From Verif.Model Require Import Pareto.
From Verif.Spec Require Import ParetoSpec.
Import ListNotations.
Open Scope Z_scope.
Open Scope res_scope.

(** masks *)
Lemma mask_assign_select {A} (g : A -> bool) (mask : list bool) (l : list A) : length mask = length l ->
  mask_assign mask (map g (mask_select mask l)) = Ret (map (fun ba => fst ba && g (snd ba)) (combine mask l)).
Proof.
  revert l. induction mask as [|b mask IH]; destruct l as [|a l]; cbn; try discriminate; auto.
  intros E. injection E as E. destruct b; cbn.
  - rewrite IH by assumption. reflexivity.
  - rewrite IH by assumption. reflexivity.
Qed.
Lemma zget_combine {A B} (l : list A) (l' : list B) i a b : zget l i = Ret a -> zget l' i = Ret b ->
  zget (combine l l') i = Ret (a, b).
Proof.
  intros H1 H2. apply zget_Ret in H1 as [P H1]. apply zget_Ret in H2 as [_ H2]. apply zget_Ret. split; [exact P|].
  now apply nth_error_combine.
Qed.

Section Rows.
Variables (m : nat) (costs : list (list f64)).
Hypothesis T : cost_table m costs.

Lemma row_ok i c : zget costs i = Ret c -> length c = m /\ Forall is_num c.
Proof. intros H. apply zget_In in H. unfold cost_table in T. rewrite Forall_forall in T. auto. Qed.

Lemma not_lower a b : length a = length b -> Forall is_num a -> Forall is_num b ->
  (any_lower b a = false <-> at_least_as_good a b).
Proof.
  unfold any_lower, at_least_as_good. revert b. induction a as [|x a IH]; destruct b as [|y b]; cbn; try discriminate.
  - split; constructor.
  - intros E Na Nb. injection E as E. inversion Na as [|? ? Nx Na']; inversion Nb as [|? ? Ny Nb']; subst.
    rewrite orb_false_iff, (IH b E Na' Nb'). split.
    + intros [H1 H2]. constructor; [|exact H2]. rewrite key_leb by assumption. now rewrite H1.
    + intros H. inversion H as [|? ? ? ? H1 H2]; subst. split; [|exact H2].
      rewrite key_leb in H1 by assumption. now apply negb_true_iff in H1.
Qed.
Lemma good_refl a : Forall is_num a -> at_least_as_good a a.
Proof. induction 1; constructor; auto. apply leb_key; auto; lra. Qed.
Lemma good_trans a b c : Forall is_num a -> Forall is_num b -> Forall is_num c ->
  at_least_as_good a b -> at_least_as_good b c -> at_least_as_good a c.
Proof.
  intros Na Nb Nc H. revert c Nc Na Nb. induction H as [|x y a b H1 H2 IH]; intros c Nc Na Nb H; inversion H; subst; constructor.
  - inversion Na; inversion Nb; inversion Nc; subst. apply leb_key; auto.
    rewrite leb_key in * by assumption. lra.
  - inversion Na; inversion Nb; inversion Nc; subst. apply IH; auto.
Qed.
Lemma same_good a b : length a = length b -> Forall is_num a -> Forall is_num b ->
  (same_costs a b <-> at_least_as_good a b /\ at_least_as_good b a).
Proof.
  unfold same_costs, at_least_as_good. revert b. induction a as [|x a IH]; destruct b as [|y b]; cbn; try discriminate.
  - repeat split; constructor.
  - intros E Na Nb. injection E as E. inversion Na as [|? ? Nx Na']; inversion Nb as [|? ? Ny Nb']; subst.
    specialize (IH b E Na' Nb'). split.
    + intros H. inversion H as [|? ? ? ? H1 H2]; subst. apply IH in H2 as [H2 H3].
      rewrite key_eqb in H1 by assumption. apply andb_true_iff in H1 as [H1 H4]. split; constructor; auto.
    + intros [H1 H2]. inversion H1; inversion H2; subst. constructor.
      * rewrite key_eqb by assumption. apply andb_true_iff; auto.
      * apply IH; auto.
Qed.
Lemma dominates_good a b : length a = length b -> Forall is_num a -> Forall is_num b ->
  (dominates a b <-> at_least_as_good a b /\ ~ at_least_as_good b a).
Proof.
  intros E Na Nb. split; intros [H1 H2]; split; auto.
  - destruct H2 as (k & x & y & Ex & Ey & L). intros G.
    assert (G' : forall k x y, nth_error b k = Some y -> nth_error a k = Some x -> fleb y x = true).
    { clear - G. induction G as [|u v b a H1 H2 IH]; intros [|k] x y; cbn; try discriminate; intros E1 E2.
      - congruence.
      - eapply IH; eauto. }
    specialize (G' k x y Ey Ex). rewrite key_leb in G'.
    + now rewrite L in G'.
    + apply nth_error_In in Ey. rewrite Forall_forall in Nb; now apply Nb.
    + apply nth_error_In in Ex. rewrite Forall_forall in Na; now apply Na.
  - clear H1. unfold better_somewhere. revert b E Nb H2. induction a as [|x a IH]; destruct b as [|y b]; cbn; try discriminate.
    + intros _ _ H; destruct H; constructor.
    + intros E Nb H. injection E as E. inversion Na as [|? ? Nx Na']; inversion Nb as [|? ? Ny Nb']; subst.
      destruct (fltb x y) eqn:L.
      * exists O, x, y. auto.
      * destruct (IH Na' b E Nb') as (k & u & v & H1 & H2 & H3).
        -- intros G. apply H. constructor; [|exact G]. rewrite key_leb by assumption. now rewrite L.
        -- exists (S k), u, v. auto.
Qed.

(** i beats j *)
Definition beats (i j : Z) : Prop := exists a b, zget costs i = Ret a /\ zget costs j = Ret b /\
  at_least_as_good a b /\ (~ at_least_as_good b a \/ i < j).
Lemma beats_trans i j k : beats i j -> beats j k -> beats i k.
Proof.
  intros (a & b & Ea & Eb & G1 & S1) (b' & c & Eb' & Ec & G2 & S2). rewrite Eb in Eb'. injection Eb' as <-.
  destruct (row_ok _ _ Ea) as [La Na], (row_ok _ _ Eb) as [Lb Nb], (row_ok _ _ Ec) as [Lc Nc].
  exists a, c. split; [exact Ea|]. split; [exact Ec|]. split; [now apply (good_trans a b c)|].
  destruct S1 as [S1|S1].
  - left. intros H. apply S1. now apply (good_trans b c a).
  - destruct S2 as [S2|S2]; [|right; lia]. left. intros H. apply S2. now apply (good_trans c a b).
Qed.

Lemma pareto_loop : exists mask, is_pareto_efficient_simple costs = Ret mask /\ zlen mask = zlen costs /\
  forall j, 0 <= j < zlen costs -> exists b, zget mask j = Ret b /\
    (b = true <-> forall i, 0 <= i < zlen costs -> ~ beats i j).
Proof.
  unfold is_pareto_efficient_simple.
  set (f := fun is_efficient i => _).
  destruct (foldM_range_inv f (fun k mask => zlen mask = zlen costs /\
    forall j, 0 <= j < zlen costs -> exists b, zget mask j = Ret b /\
    (b = true <-> forall i, 0 <= i < k -> ~ beats i j)) (zlen costs) (repeat true (length costs))
    (zlen_nonneg costs)) as (mask & E & H).
  - split; [now rewrite zlen_repeat|]. intros j Hj. exists true. split; [apply zget_repeat; exact Hj|].
    split; auto. intros _ i Hi. lia.
  - intros k mask Hk [L I]. unfold f. destruct (zget_ok costs k Hk) as [c Ec]. rewrite Ec. cbn [bind].
    destruct (I k Hk) as (e & Ee & He). rewrite Ee. cbn [bind]. destruct (row_ok _ _ Ec) as [Lc Nc].
    destruct e.
    + rewrite (mask_assign_select (fun row => any_lower row c)) by (unfold zlen in L; lia). cbn [bind].
      assert (LC : zlen (map (fun ba : bool * list f64 => fst ba && any_lower (snd ba) c) (combine mask costs)) = zlen costs)
        by (rewrite zlen_map; unfold zlen in *; rewrite combine_length; lia).
      rewrite zset_ok by (rewrite LC; exact Hk). eexists. split; [reflexivity|]. split; [now rewrite zlen_list_set|].
      intros j Hj. rewrite zget_list_set by (rewrite LC; exact Hk).
      destruct (I j Hj) as (b & Eb & Hb). destruct (zget_ok costs j Hj) as [d Ed]. destruct (row_ok _ _ Ed) as [Ld Nd].
      destruct (Z.eqb_spec k j) as [EQ|NE].
      * subst j. exists true. split; [reflexivity|]. split; auto. intros _ i Hi.
        destruct (Z.eq_dec i k) as [EQ|NE]; [|apply He; auto; lia]. subst i.
        intros (a & a' & E1 & E2 & G1 & G2). rewrite Ec in E1, E2. injection E1 as <-. injection E2 as <-.
        destruct G2 as [G2|G2]; [contradiction|lia].
      * rewrite zget_map, (zget_combine mask costs j b d Eb Ed). cbn. exists (b && any_lower d c). split; [reflexivity|].
        split.
        -- intros X. apply andb_true_iff in X as [X1 X2]. pose proof (proj1 Hb X1) as X1'. intros i Hi.
           destruct (Z.eq_dec i k) as [EQ|NE']; [|apply X1'; lia]. subst i. intros (a & a' & E1 & E2 & G1 & G2).
           rewrite Ec in E1. injection E1 as <-. rewrite Ed in E2. injection E2 as <-.
           apply not_lower in G1; auto; congruence.
        -- intros X. apply andb_true_iff. split; [apply Hb; intros i Hi; apply X; lia|].
           destruct (any_lower d c) eqn:AL; auto. exfalso. apply not_lower in AL; auto; [|congruence].
           destruct (Z.lt_ge_cases k j) as [KJ|KJ].
           ++ apply (X k); [lia|]. exists c, d. auto.
           ++ (* j < k: either k strictly better, or j beats k *)
              assert (NJ : ~ beats j k) by (apply He; auto; lia).
              apply (X k); [lia|]. exists c, d. split; [exact Ec|]. split; [exact Ed|]. split; [exact AL|]. left.
              intros G. apply NJ. exists d, c. repeat split; auto. right. lia.
    + exists mask. split; [reflexivity|]. split; [exact L|]. intros j Hj. destruct (I j Hj) as (b & Eb & Hb).
      exists b. split; [exact Eb|]. rewrite Hb. split; intros X i Hi.
      * destruct (Z.eq_dec i k) as [EQ|NE]; [|apply X; lia]. subst i. intros B.
        assert (NK : forall i, 0 <= i < k -> ~ beats i k).
        { intros i Hi' B'. apply (X i Hi'). eapply beats_trans; eauto. }
        pose proof (proj2 He NK) as Q. discriminate Q.
      * apply X. lia.
  - exists mask. split; [exact E|]. exact H.
Qed.

Lemma beats_front j : 0 <= j < zlen costs ->
  ((forall i, 0 <= i < zlen costs -> ~ beats i j) <-> on_front costs j).
Proof.
  intros Hj. destruct (zget_ok costs j Hj) as [c Ec]. destruct (row_ok _ _ Ec) as [Lc Nc]. split.
  - intros H. exists c. split; [exact Ec|]. split.
    + intros i d Ed D. destruct (row_ok _ _ Ed) as [Ld Nd]. apply dominates_good in D; auto; [|congruence].
      destruct D as [D1 D2]. apply (H i (zget_bound _ _ _ Ed)). exists d, c. auto.
    + intros i d Hi Ed D. destruct (row_ok _ _ Ed) as [Ld Nd]. apply same_good in D; auto; [|congruence].
      destruct D as [D1 D2]. apply (H i (zget_bound _ _ _ Ed)). exists d, c. repeat split; auto. right; lia.
  - intros (c' & Ec' & H1 & H2) i Hi (a & b & Ea & Eb & G1 & G2). rewrite Ec in Ec', Eb. injection Ec' as <-. injection Eb as <-.
    destruct (row_ok _ _ Ea) as [La Na].
    destruct G2 as [G2|G2].
    + apply (H1 i a Ea). apply dominates_good; auto; congruence.
    + destruct (any_lower a c) eqn:AL.
      * apply (H1 i a Ea). apply dominates_good; auto; [congruence|]. split; auto. intros G.
        apply not_lower in G; auto; congruence.
      * apply not_lower in AL; auto; [|congruence]. apply (H2 i a); auto; [lia|]. apply same_good; auto; congruence.
Qed.

Lemma pareto_ok : exists mask, is_pareto_efficient_simple costs = Ret mask /\ zlen mask = zlen costs /\
  forall j, 0 <= j < zlen costs -> exists b, zget mask j = Ret b /\ (b = true <-> on_front costs j).
Proof.
  destruct pareto_loop as (mask & E & L & H). exists mask. split; [exact E|]. split; [exact L|].
  intros j Hj. destruct (H j Hj) as (b & Eb & Hb). exists b. split; [exact Eb|]. rewrite Hb. now apply beats_front.
Qed.
End Rows.

(** data frames *)
Lemma df_get_set df name c other : df_get (df_set df name c) other = if String.eqb name other then Ret c else df_get df other.
Proof.
  induction df as [|[n col] df IH]; cbn.
  - reflexivity.
  - destruct (String.eqb_spec n name) as [E|E].
    + subst n. cbn. destruct (String.eqb name other); reflexivity.
    + cbn. rewrite IH. destruct (String.eqb_spec n other) as [E1|E1]; auto. subst other.
      destruct (String.eqb_spec name n) as [E2|E2]; auto. congruence.
Qed.
Lemma df_get_select df mask name : df_get (df_select df mask) name = res_map (mask_select mask) (df_get df name).
Proof.
  induction df as [|[n col] df IH]; cbn; auto. destruct (String.eqb n name); cbn; auto.
Qed.
Lemma mask_select_keep {A} mask (l : list A) : mask_select mask l = keep_rows mask l.
Proof.
  unfold keep_rows. revert l. induction mask as [|b mask IH]; destruct l as [|a l]; cbn; auto.
  destruct b; cbn; now rewrite IH.
Qed.
Lemma combine_map_l {A B C} (f : A -> C) (l : list A) (l' : list B) :
  combine (map f l) l' = map (fun ab => (f (fst ab), snd ab)) (combine l l').
Proof. revert l'. induction l as [|a l IH]; destruct l'; cbn; auto. now rewrite IH. Qed.
Lemma values2_front (hib : bool) perf cost :
  df_values2 (if hib then map Bopp perf else perf) cost = front_costs hib perf cost.
Proof.
  unfold df_values2, front_costs. destruct hib.
  - rewrite combine_map_l, map_map. reflexivity.
  - reflexivity.
Qed.
Lemma front_table hib perf cost : Forall is_num perf -> Forall is_num cost -> cost_table 2 (front_costs hib perf cost).
Proof.
  intros Np Nc. unfold cost_table, front_costs. apply Forall_forall. intros row H. apply in_map_iff in H as ([p c] & <- & H).
  rewrite Forall_forall in Np, Nc. pose proof (in_combine_l _ _ _ _ H) as H1. pose proof (in_combine_r _ _ _ _ H) as H2.
  split; [reflexivity|]. constructor; [|constructor; [|constructor]]; cbn.
  - destruct hib; [|auto]. unfold is_num. rewrite is_nan_Bopp. now apply Np.
  - now apply Nc.
Qed.
Lemma find_front_ok df cost_metric performance_metric hib mp perf cost :
  performance_metric <> "mean_test_score"%string -> cost_metric <> "mean_test_score"%string ->
  df_get df performance_metric = Ret perf -> df_get df cost_metric = Ret cost ->
  zlen perf = zlen cost -> Forall is_num perf -> Forall is_num cost ->
  exists keep out, find_pareto_front df cost_metric performance_metric hib mp = Ret out /\
    zlen keep = zlen perf /\
    (forall name, name <> "mean_test_score"%string -> df_get out name = res_map (keep_rows keep) (df_get df name)) /\
    (forall i p, zget perf i = Ret p -> exists b, zget keep i = Ret b /\
      (b = true <-> on_front (front_costs hib perf cost) i /\ meets hib mp p)).
Proof.
  intros NP NC Ep Ec L Np Nc. unfold find_pareto_front. rewrite Ep. cbn [bind]. cbv zeta.
  rewrite df_get_set, String.eqb_refl. cbn [bind].
  rewrite !df_get_set. destruct (String.eqb_spec "mean_test_score"%string cost_metric) as [E|_]; [congruence|]. rewrite Ec. cbn [bind].
  rewrite values2_front. destruct (pareto_ok 2 (front_costs hib perf cost) (front_table hib perf cost Np Nc)) as (mask & Em & Lm & Hm).
  rewrite Em. cbn [bind]. assert (LF : zlen (front_costs hib perf cost) = zlen perf).
  { unfold front_costs. rewrite zlen_map. unfold zlen in *. rewrite combine_length. lia. }
  rewrite LF in *.
  destruct (String.eqb_spec "mean_test_score"%string performance_metric) as [E|_]; [congruence|]. rewrite Ep. cbn [bind].
  assert (HK : forall keep, forall name, name <> "mean_test_score"%string ->
    df_get (df_select (df_set df "mean_test_score"%string (if hib then map Bopp perf else perf)) keep) name = res_map (keep_rows keep) (df_get df name)).
  { intros keep name NE. rewrite df_get_select, df_get_set. destruct (String.eqb_spec "mean_test_score"%string name) as [E|_]; [congruence|].
    destruct (df_get df name); cbn; auto. now rewrite mask_select_keep. }
  destruct mp as [mp|].
  - cbn [bind]. set (ok := if hib then map (fun v => fleb mp v) perf else map (fun v => fleb v mp) perf).
    exists (map (fun ab : bool * bool => fst ab && snd ab) (combine mask ok)). eexists. split; [reflexivity|].
    assert (Lo : zlen ok = zlen perf) by (unfold ok; destruct hib; apply zlen_map).
    split; [rewrite zlen_map; unfold zlen in *; rewrite combine_length; lia|]. split; [apply HK|].
    intros i p Hp. destruct (Hm i (zget_bound _ _ _ Hp)) as (b & Eb & Hb).
    exists (b && (if hib then fleb mp p else fleb p mp)). split.
    + rewrite zget_map. rewrite (zget_combine mask ok i b (if hib then fleb mp p else fleb p mp) Eb); [reflexivity|].
      unfold ok. destruct hib; rewrite zget_map, Hp; reflexivity.
    + rewrite andb_true_iff, Hb. unfold meets. destruct hib; reflexivity.
  - cbn [bind]. exists mask. eexists. split; [reflexivity|]. split; [exact Lm|]. split; [apply HK|].
    intros i p Hp. destruct (Hm i (zget_bound _ _ _ Hp)) as (b & Eb & Hb). exists b. split; [exact Eb|]. rewrite Hb. cbn. tauto.
Qed.
