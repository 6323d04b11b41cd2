(** flatten_forest and remove_duplicate_leaves. *)
From Coq Require Import ZArith List Lia Bool Permutation.
From Verif.Base Require Import Res ListX.
From Verif.Model Require Import TreesConvert.
From Verif.Spec Require Import TreesSpec CostSpec.
From Verif.Proof Require Import TreesFlatten.
Import ListNotations.
Open Scope Z_scope.
Open Scope res_scope.

Section Forest.
Context {T V L : Type} (t_zero : T) (mk_leaf : V -> res L) (leaf_eqb : L -> L -> bool).
Variable nf : Z.
Hypothesis Hnf : 1 <= nf.

Implicit Types (nodes fn dn : list (dnode T)) (leaves fl ln : list L).

Lemma flat_leaf_app nodes x go c k : flat_leaf nodes go c k -> flat_leaf (nodes ++ x) go c k.
Proof.
  induction 1; [now apply flat_leaf_leaf|]. eapply flat_leaf_node; eauto. now apply zget_app1.
Qed.

Lemma flat_reaches_app nodes leaves x y go c l :
  flat_reaches nodes leaves go c l -> flat_reaches (nodes ++ x) (leaves ++ y) go c l.
Proof.
  intros (k & H1 & H2). exists k. split; [now apply flat_leaf_app|now apply zget_app1].
Qed.

Lemma flat_leaf_offset fn dn loff go c k : 0 <= loff ->
  flat_leaf dn go c k ->
  flat_leaf (fn ++ map (offset_node (zlen fn) loff) dn) go (offset_ref (zlen fn) loff c) (loff + k).
Proof.
  intros Hl. induction 1 as [c Hc|c n k Hz Hk IH].
  - unfold offset_ref. destruct (Z.leb_spec 0 c); [lia|].
    replace (loff + (- c - 1)) with (- (c - loff) - 1) by lia. apply flat_leaf_leaf. lia.
  - pose proof (zget_bound _ _ _ Hz). unfold offset_ref at 1. destruct (Z.leb_spec 0 c); [|lia].
    apply flat_leaf_node with (n := offset_node (zlen fn) loff n).
    + replace (c + zlen fn) with (zlen fn + c) by lia. apply zget_app2.
      apply zget_map_Ret. eauto.
    + simpl. destruct (go (d_feature n) (d_value n)); auto.
Qed.

(** The number of node evaluations is kept (a tree that is a single leaf gets one node). *)
Definition same_cost nodes (t : sktree T V) (root : Z) : Prop :=
  forall go n, evaluates t go 0 n -> flat_evaluates nodes go root (Z.max 1 n).
Lemma flat_evaluates_app nodes x go c n : flat_evaluates nodes go c n -> flat_evaluates (nodes ++ x) go c n.
Proof.
  induction 1; [now apply flat_evaluates_leaf|]. eapply flat_evaluates_node; eauto. now apply zget_app1.
Qed.
Lemma flat_evaluates_offset fn dn loff go c n : 0 <= loff -> flat_evaluates dn go c n ->
  flat_evaluates (fn ++ map (offset_node (zlen fn) loff) dn) go (offset_ref (zlen fn) loff c) n.
Proof.
  intros Hl. induction 1 as [c Hc|c d n Hz Hk IH].
  - unfold offset_ref. destruct (Z.leb_spec 0 c); [lia|]. apply flat_evaluates_leaf. lia.
  - pose proof (zget_bound _ _ _ Hz). unfold offset_ref at 1. destruct (Z.leb_spec 0 c); [|lia].
    apply flat_evaluates_node with (d := offset_node (zlen fn) loff d).
    + replace (c + zlen fn) with (zlen fn + c) by lia. apply zget_app2.
      apply zget_map_Ret. eauto.
    + simpl. destruct (go (d_feature d) (d_value d)); auto.
Qed.

Lemma is_child_offset fn dn loff c : 
  is_child dn c -> is_child (fn ++ map (offset_node (zlen fn) loff) dn) (offset_ref (zlen fn) loff c).
Proof.
  intros (i & n & Hz & Ho). exists (zlen fn + i), (offset_node (zlen fn) loff n). split.
  - apply zget_app2. apply zget_map_Ret. eauto.
  - simpl. destruct Ho as [<-|<-]; auto.
Qed.

#[local] Notation represents := (TreesSpec.represents mk_leaf).

Record FInv (done_ : list (sktree T V)) (st : fforest_state (T:=T) (L:=L)) : Prop := {
  fi_noff : snd (fst st) = zlen (fst (fst (fst (fst st))));
  fi_loff : snd st = zlen (snd (fst (fst st)));
  fi_valid : valid_nodes nf (zlen (snd (fst (fst st)))) (fst (fst (fst (fst st))));
  fi_refd : all_referenced (fst (fst (fst (fst st)))) (snd (fst (fst (fst st)))) (zlen (snd (fst (fst st))));
  fi_roots : Forall2 (represents eq (fst (fst (fst (fst st)))) (snd (fst (fst st)))) done_
                     (snd (fst (fst (fst st))));
  fi_size : zlen (fst (fst (fst (fst st)))) + zlen (snd (fst (fst st))) =
            fold_right Z.add 0 (map flat_size done_);
  fi_nonempty : zlen done_ <= zlen (fst (fst (fst (fst st))));
  fi_cost : Forall2 (same_cost (fst (fst (fst (fst st))))) done_ (snd (fst (fst (fst st))))
}.

Lemma fold_right_add_app l x : fold_right Z.add 0 (l ++ [x]) = fold_right Z.add 0 l + x.
Proof. induction l; simpl; lia. Qed.

Lemma represents_app eqv nodes leaves x y t root :
  represents eqv nodes leaves t root -> represents eqv (nodes ++ x) (leaves ++ y) t root.
Proof.
  intros [Hb H]. split. { rewrite zlen_app. pose proof (zlen_nonneg x). lia. }
  intros go v Hr. destruct (H go v Hr) as (l & l' & H1 & H2 & H3). exists l, l'.
  repeat split; auto. now apply flat_reaches_app.
Qed.

Lemma Forall2_imp {A B} (R1 R2 : A -> B -> Prop) l l' :
  (forall a b, R1 a b -> R2 a b) -> Forall2 R1 l l' -> Forall2 R2 l l'.
Proof. intros H; induction 1; constructor; auto. Qed.

Lemma flatten_forest_step_ok done_ t st :
  wf_sktree nf t -> leaves_convertible mk_leaf t -> FInv done_ st ->
  exists st', flatten_forest_step t_zero mk_leaf st t = Ret st' /\ FInv (done_ ++ [t]) st'.
Proof.
  intros WF Conv HI. destruct st as [[[[fn roots] fl] noff] loff]. destruct HI. simpl in *. subst.
  destruct (flatten_tree_ok t_zero mk_leaf nf t Hnf WF Conv) as (dn & ln & E & [Fv Fr Fn Fs Fc Fq]).
  unfold flatten_forest_step. rewrite E. simpl. rewrite Z.add_0_l.
  set (fn' := fn ++ map (offset_node (zlen fn) (zlen fl)) dn).
  pose proof (zlen_nonneg fl) as Hfl. pose proof (zlen_nonneg fn) as Hfn.
  assert (Lfn : zlen fn' = zlen fn + zlen dn) by (unfold fn'; rewrite zlen_app, zlen_map; auto).
  assert (Hv : valid_nodes nf (zlen (fl ++ ln)) fn').
  { intros i n Hz. rewrite zlen_app, Lfn. apply zget_app_inv in Hz as [Hz|[Hi Hz]].
    - destruct (fi_valid0 _ _ Hz) as (H1 & H2 & H3). split; auto.
      pose proof (zlen_nonneg dn). pose proof (zlen_nonneg ln). unfold valid_ref in *. lia.
    - apply zget_map_Ret in Hz as (n' & Hz & ->). destruct (Fv _ _ Hz) as (H1 & H2 & H3).
      split; auto. simpl. unfold valid_ref, offset_ref in *.
      split; [destruct (Z.leb_spec 0 (d_left n'))|destruct (Z.leb_spec 0 (d_right n'))]; lia. }
  assert (Hr : all_referenced fn' (roots ++ [zlen fn]) (zlen (fl ++ ln))).
  { destruct fi_refd0 as [R1 R2]. destruct Fr as [R3 R4]. split.
    - intros i Hi. rewrite Lfn in Hi. destruct (Z_lt_ge_dec i (zlen fn)).
      + destruct (R1 i ltac:(lia)) as [?|?]; [left; apply in_app_iff; auto|right; now apply is_child_app].
      + destruct (R3 (i - zlen fn) ltac:(lia)) as [[?|[]]|Hc].
        * left. apply in_app_iff. right. left. lia.
        * right. apply (is_child_offset fn dn (zlen fl)) in Hc. unfold offset_ref in Hc.
          destruct (Z.leb_spec 0 (i - zlen fn)); [|lia].
          replace (i - zlen fn + zlen fn) with i in Hc by lia. exact Hc.
    - intros k Hk. rewrite zlen_app in Hk. destruct (Z_lt_ge_dec k (zlen fl)).
      + apply is_child_app. apply R2. lia.
      + specialize (R4 (k - zlen fl) ltac:(lia)).
        apply (is_child_offset fn dn (zlen fl)) in R4. unfold offset_ref in R4.
        destruct (Z.leb_spec 0 (- (k - zlen fl) - 1)); [lia|].
        replace (- (k - zlen fl) - 1 - zlen fl) with (- k - 1) in R4 by lia. exact R4. }
  unfold assert_forest_valid. rewrite (assert_refs_ok nf) by auto. simpl.
  eexists; split; [reflexivity|]. constructor; simpl; auto.
  - now rewrite zlen_app.
  - apply Forall2_app.
    + eapply Forall2_imp; [|exact fi_roots0]. intros a b. apply represents_app.
    + constructor; auto. split; [lia|]. intros go v Hreach.
      destruct (Fc go v Hreach) as (l & Hl & k & Hk & Hz). exists l, l. repeat split; auto.
      exists (zlen fl + k). split; [|now apply zget_app2].
      assert (Eo : offset_ref (zlen fn) (zlen fl) 0 = zlen fn) by (unfold offset_ref; simpl; lia).
      rewrite <- Eo. apply flat_leaf_offset; auto.
  - rewrite map_app. change (map flat_size [t]) with [flat_size t].
    rewrite fold_right_add_app, zlen_app. unfold flat_size at 2.
    destruct (sk_node_count t =? 1); lia.
  - rewrite zlen_app. change (zlen [t]) with 1. lia.
  - apply Forall2_app.
    + eapply Forall2_imp; [|exact fi_cost0]. intros a b Hab go n He. apply flat_evaluates_app. now apply Hab.
    + constructor; auto. intros go n He.
      assert (Eo : offset_ref (zlen fn) (zlen fl) 0 = zlen fn) by (unfold offset_ref; simpl; lia).
      rewrite <- Eo. apply flat_evaluates_offset; auto.
Qed.

Theorem flatten_forest_ok trees :
  Forall (wf_sktree nf) trees -> Forall (leaves_convertible mk_leaf) trees ->
  exists nodes roots leaves,
    flatten_forest t_zero mk_leaf trees = Ret (nodes, roots, leaves) /\
    valid_nodes nf (zlen leaves) nodes /\
    all_referenced nodes roots (zlen leaves) /\
    Forall2 (represents eq nodes leaves) trees roots /\
    zlen nodes + zlen leaves = fold_right Z.add 0 (map flat_size trees) /\
    zlen trees <= zlen nodes.
Proof.
  intros HW HC. rewrite Forall_forall in HW, HC.
  destruct (foldM_inv (flatten_forest_step t_zero mk_leaf) FInv trees ([], [], [], 0, 0)) as (st & E & HI).
  - constructor; simpl; auto; try (unfold zlen; simpl; lia).
    + intros i n H. apply zget_bound in H. unfold zlen in H; simpl in H. lia.
    + split; intros; unfold zlen in *; simpl in *; lia.
  - intros d t todo s0 El HP. apply flatten_forest_step_ok; auto; [apply HW|apply HC]; subst; apply in_elt.
  - destruct st as [[[[fn roots] fl] noff] loff]. destruct HI; simpl in *.
    exists fn, roots, fl. split; [|auto 6].
    unfold flatten_forest. rewrite E. simpl. unfold assert_forest_valid.
    rewrite (assert_refs_ok nf) by auto. reflexivity.
Qed.

Theorem flatten_forest_cost trees nodes roots leaves :
  Forall (wf_sktree nf) trees -> Forall (leaves_convertible mk_leaf) trees ->
  flatten_forest t_zero mk_leaf trees = Ret (nodes, roots, leaves) -> Forall2 (same_cost nodes) trees roots.
Proof.
  intros HW HC EF. rewrite Forall_forall in HW, HC.
  destruct (foldM_inv (flatten_forest_step t_zero mk_leaf) FInv trees ([], [], [], 0, 0)) as (st & E & HI).
  - constructor; simpl; auto; try (unfold zlen; simpl; lia).
    + intros i n H. apply zget_bound in H. unfold zlen in H; simpl in H. lia.
    + split; intros; unfold zlen in *; simpl in *; lia.
  - intros d t todo s0 El HP. apply flatten_forest_step_ok; auto; [apply HW|apply HC]; subst; apply in_elt.
  - unfold flatten_forest in EF. rewrite E in EF. destruct st as [[[[fn rts] fl] noff] loff]. cbn [bind] in EF.
    apply bind_Ret in EF as (u & _ & EF). inv EF. exact (fi_cost _ _ HI).
Qed.

(** ** remove_duplicate_leaves *)
Hypothesis eqb_refl : forall l, leaf_eqb l l = true.

Lemma find_array_index_from_spec i l x :
  match find_array_index_from leaf_eqb i l x with
  | Some k => exists u, i <= k /\ zget l (k - i) = Ret u /\ leaf_eqb x u = true
  | None => forall u, In u l -> leaf_eqb x u = false
  end.
Proof.
  revert i; induction l as [|a l IH]; intros i; simpl.
  - intros u [].
  - destruct (leaf_eqb x a) eqn:E.
    + exists a. split; [lia|]. split; auto. now rewrite Z.sub_diag.
    + specialize (IH (i + 1)). destruct (find_array_index_from leaf_eqb (i+1) l x).
      * destruct IH as (u & H1 & H2 & H3). exists u. split; [lia|]. split; auto.
        change (a :: l) with ([a] ++ l). replace (z - i) with (zlen [a] + (z - (i + 1))).
        { now apply zget_app2. } { change (zlen [a]) with 1. lia. }
      * intros u [<-|Hu]; auto.
Qed.

Lemma find_array_index_spec l x :
  match find_array_index leaf_eqb l x with
  | Some k => exists u, zget l k = Ret u /\ leaf_eqb x u = true
  | None => forall u, In u l -> leaf_eqb x u = false
  end.
Proof.
  pose proof (find_array_index_from_spec 0 l x) as H. unfold find_array_index.
  destruct (find_array_index_from leaf_eqb 0 l x); auto.
  destruct H as (u & _ & H1 & H2). rewrite Z.sub_0_r in H1. eauto.
Qed.

(** No two equal entries: no entry compares equal to an earlier one. *)
#[local] Notation no_equal_entries := (TreesSpec.no_equal_entries leaf_eqb).

Record DInv (done_ : list (Z * L)) (st : list L * pydict) : Prop := {
  di_fwd : forall k l, In (k, l) done_ -> exists new u,
     dict_find (snd st) (- k - 1) = Some (- new - 1) /\ zget (fst st) new = Ret u /\ leaf_eqb l u = true;
  di_keys : forall key x, dict_find (snd st) key = Some x ->
     exists k l new, key = - k - 1 /\ In (k, l) done_ /\ x = - new - 1 /\ 0 <= new < zlen (fst st);
  di_nodup : no_equal_entries (fst st);
  di_incl : forall u, In u (fst st) -> exists k, In (k, u) done_;
  di_len : zlen (fst st) <= zlen done_;
  di_surj : forall new, 0 <= new < zlen (fst st) ->
     exists k l, In (k, l) done_ /\ dict_find (snd st) (- k - 1) = Some (- new - 1)
}.

Lemma dedup_step_ok done_ k l st :
  (forall l', ~ In (k, l') done_) ->
  DInv done_ st -> DInv (done_ ++ [(k, l)]) (dedup_step leaf_eqb st (k, l)).
Proof.
  intros Hnew HI. destruct st as [un rm]. destruct HI; simpl in *.
  assert (Hne : forall k' l', In (k', l') done_ -> k' <> k) by (intros k' l' H ->; eapply Hnew; eauto).
  unfold dedup_step. pose proof (find_array_index_spec un l) as HF.
  assert (Hl1 : zlen (done_ ++ [(k, l)]) = zlen done_ + 1) by (rewrite zlen_app; reflexivity).
  destruct (find_array_index leaf_eqb un l) as [f|] eqn:EF.
  - destruct HF as (u & Hu & Heq). pose proof (zget_bound _ _ _ Hu) as Hfb.
    constructor; simpl.
    + intros k' l' Hin. apply in_app_iff in Hin as [Hin|[E|[]]].
      * destruct (di_fwd0 _ _ Hin) as (new & u' & H1 & H2 & H3).
        destruct (Z.eqb_spec (- k' - 1) (- k - 1)); [exfalso; apply (Hne _ _ Hin); lia|]. eauto.
      * inv E. rewrite Z.eqb_refl. eauto.
    + intros key x. destruct (Z.eqb_spec key (- k - 1)); intros E.
      * inv E. exists k, l, f. repeat split; auto; try lia. apply in_app_iff; right; left; auto.
      * destruct (di_keys0 _ _ E) as (k' & l' & new & H1 & H2 & H3 & H4).
        exists k', l', new. repeat split; auto; try lia. apply in_app_iff; auto.
    + auto.
    + intros u' Hu'. destruct (di_incl0 u' Hu') as [k' Hk']. exists k'. apply in_app_iff; auto.
    + lia.
    + intros new Hn. destruct (di_surj0 new Hn) as (k' & l' & H1 & H2). exists k', l'.
      split; [apply in_app_iff; auto|].
      destruct (Z.eqb_spec (- k' - 1) (- k - 1)); [exfalso; apply (Hne _ _ H1); lia|]. auto.
  - constructor; simpl.
    + intros k' l' Hin. apply in_app_iff in Hin as [Hin|[E|[]]].
      * destruct (di_fwd0 _ _ Hin) as (new & u' & H1 & H2 & H3).
        destruct (Z.eqb_spec (- k' - 1) (- k - 1)); [exfalso; apply (Hne _ _ Hin); lia|].
        exists new, u'. repeat split; auto. now apply zget_app1.
      * inv E. rewrite Z.eqb_refl. exists (zlen un), l'. repeat split; auto. apply zget_last.
    + rewrite zlen_app. change (zlen [l]) with 1. pose proof (zlen_nonneg un).
      intros key x. destruct (Z.eqb_spec key (- k - 1)); intros E.
      * inv E. exists k, l, (zlen un). repeat split; auto; try lia. apply in_app_iff; right; left; auto.
      * destruct (di_keys0 _ _ E) as (k' & l' & new & H1 & H2 & H3 & H4).
        exists k', l', new. repeat split; auto; try lia. apply in_app_iff; auto.
    + intros i j a b Hij Ha Hb.
      apply zget_app_inv in Ha as [Ha|[Ha1 Ha]]; apply zget_app_inv in Hb as [Hb|[Hb1 Hb]].
      * eapply di_nodup0; eauto.
      * assert (E : zget [l] (j - zlen un) = Ret b) by auto. apply zget_bound in E as E'.
        change (zlen [l]) with 1 in E'. replace (j - zlen un) with 0 in Hb by lia. inv Hb.
        apply HF. eapply zget_In; eauto.
      * apply zget_bound in Hb. lia.
      * apply zget_bound in Ha, Hb. change (zlen [l]) with 1 in *. lia.
    + intros u' Hu'. apply in_app_iff in Hu' as [Hu'|[<-|[]]].
      * destruct (di_incl0 u' Hu') as [k' Hk']. exists k'. apply in_app_iff; auto.
      * exists k. apply in_app_iff; right; left; auto.
    + rewrite zlen_app. change (zlen [l]) with 1. lia.
    + intros new Hn. rewrite zlen_app in Hn. change (zlen [l]) with 1 in Hn.
      destruct (Z.eq_dec new (zlen un)).
      * exists k, l. split; [apply in_app_iff; right; left; auto|]. rewrite Z.eqb_refl. congruence.
      * destruct (di_surj0 new ltac:(lia)) as (k' & l' & H1 & H2). exists k', l'.
        split; [apply in_app_iff; auto|].
        destruct (Z.eqb_spec (- k' - 1) (- k - 1)); [exfalso; apply (Hne _ _ H1); lia|]. auto.
Qed.

Lemma enumerate_In {A} (l : list A) k a : In (k, a) (enumerate l) <-> zget l k = Ret a.
Proof.
  unfold enumerate. split; intros H.
  - apply In_nth_error in H as [n Hn]. apply nth_error_combine in Hn as [H1 H2].
    unfold zrange in H1. rewrite nth_error_map in H1.
    destruct (nth_error (seq 0 _) n) eqn:E; [|discriminate]. simpl in H1. inv H1.
    assert (Hk : (n < Z.to_nat (zlen l))%nat).
    { rewrite <- (seq_length (Z.to_nat (zlen l)) 0). apply nth_error_Some. congruence. }
    apply nth_error_nth with (d := O) in E. rewrite seq_nth in E by auto. simpl in E. subst.
    apply zget_Ret. rewrite Nat2Z.id. split; auto; lia.
  - pose proof (zget_bound _ _ _ H) as Hb. apply zget_Ret in H as [H1 H2].
    apply nth_error_In with (n := Z.to_nat k). apply nth_error_combine. split; auto.
    unfold zrange. rewrite nth_error_map.
    assert (Hk : (Z.to_nat k < Z.to_nat (zlen l))%nat) by lia.
    rewrite (nth_error_nth' _ O) by now rewrite seq_length.
    rewrite seq_nth by auto. simpl. f_equal. lia.
Qed.

Lemma enumerate_NoDup {A} (l : list A) : NoDup (map fst (enumerate l)).
Proof.
  unfold enumerate.
  assert (E : map fst (combine (zrange (zlen l)) l) = zrange (zlen l)).
  { assert (H : length (zrange (zlen l)) = length l) by (rewrite zrange_length; unfold zlen; lia).
    revert H. generalize (zrange (zlen l)). clear. induction l as [|a l IH]; intros [|x r]; simpl; try discriminate; auto.
    intros; f_equal; auto. }
  rewrite E. unfold zrange. apply FinFun.Injective_map_NoDup; [|apply seq_NoDup].
  intros x y; lia.
Qed.

Lemma enumerate_zlen {A} (l : list A) : zlen (enumerate l) = zlen l.
Proof. unfold enumerate, zlen. rewrite combine_length, zrange_length. lia. Qed.

Lemma DInv_init : DInv [] ([], []).
Proof.
  constructor; simpl; try tauto; try discriminate.
  - intros i j a b _ H. apply zget_bound in H. unfold zlen in H; simpl in H; lia.
  - unfold zlen; simpl; lia.
Qed.

Lemma dedup_loop_ok (l : list (Z * L)) : NoDup (map fst l) ->
  DInv l (fold_left (dedup_step leaf_eqb) l ([], [])).
Proof.
  intros HN.
  assert (H : forall todo done_ st, l = done_ ++ todo -> DInv done_ st ->
            DInv l (fold_left (dedup_step leaf_eqb) todo st)).
  { induction todo as [|[k x] todo IH]; intros done_ st El HI; simpl.
    - rewrite app_nil_r in El. now subst.
    - apply (IH (done_ ++ [(k, x)])); [now rewrite <- app_assoc|].
      apply dedup_step_ok; auto. intros l' Hin. subst l. rewrite map_app in HN. simpl in HN.
      apply NoDup_remove_2 in HN. apply HN. apply in_app_iff. left.
      apply in_map_iff. exists (k, l'); auto. }
  apply (H l []); auto. apply DInv_init.
Qed.

(** What [remove_duplicate_leaves] computes. *)
Section Dedup.
Variables (nodes : list (dnode T)) (leaves unique : list L) (remap : pydict).
Hypothesis Efold : fold_left (dedup_step leaf_eqb) (enumerate leaves) ([], []) = (unique, remap).

Let rm c := dict_get_default remap c c.

Lemma dedup_DInv : DInv (enumerate leaves) (unique, remap).
Proof. rewrite <- Efold. apply dedup_loop_ok. apply enumerate_NoDup. Qed.

Lemma rm_nonneg c : 0 <= c -> rm c = c.
Proof.
  intros Hc. unfold rm, dict_get_default. destruct (dict_find remap c) eqn:E; auto.
  destruct (di_keys _ _ dedup_DInv _ _ E) as (k & l & new & H1 & H2 & _).
  apply enumerate_In in H2. apply zget_bound in H2. lia.
Qed.

Lemma rm_neg c : c < 0 -> rm c < 0.
Proof.
  intros Hc. unfold rm, dict_get_default. destruct (dict_find remap c) eqn:E; auto.
  destruct (di_keys _ _ dedup_DInv _ _ E) as (k & l & new & H1 & H2 & H3 & H4). lia.
Qed.

Lemma rm_leaf k l : zget leaves k = Ret l ->
  exists u, zget unique (- rm (- k - 1) - 1) = Ret u /\ leaf_eqb l u = true.
Proof.
  intros Hz. apply enumerate_In in Hz.
  destruct (di_fwd _ _ dedup_DInv _ _ Hz) as (new & u & H1 & H2 & H3). simpl in *.
  exists u. unfold rm, dict_get_default. rewrite H1.
  replace (- (- new - 1) - 1) with new by lia. auto.
Qed.

Lemma rm_valid c : c < 0 -> - c - 1 < zlen leaves -> - rm c - 1 < zlen unique.
Proof.
  intros H1 H2. destruct (zget_ok leaves (- c - 1) ltac:(lia)) as [l Hl].
  destruct (rm_leaf _ _ Hl) as (u & Hu & _). apply zget_bound in Hu.
  replace (- (- c - 1) - 1) with c in Hu by lia. lia.
Qed.

Lemma dedup_flat_leaf go c k : flat_leaf nodes go c k ->
  flat_leaf (map (remap_node remap) nodes) go (rm c) (- rm (- k - 1) - 1).
Proof.
  induction 1 as [c Hc|c n k Hz Hk IH].
  - replace (- (- c - 1) - 1) with c by lia. apply flat_leaf_leaf. now apply rm_neg.
  - pose proof (zget_bound _ _ _ Hz). rewrite rm_nonneg by lia.
    eapply flat_leaf_node; [apply zget_map_Ret; eauto|]. simpl.
    destruct (go (d_feature n) (d_value n)); auto.
Qed.

Lemma dedup_flat_evaluates go c n : flat_evaluates nodes go c n ->
  flat_evaluates (map (remap_node remap) nodes) go (rm c) n.
Proof.
  induction 1 as [c Hc|c d n Hz Hk IH].
  - apply flat_evaluates_leaf. now apply rm_neg.
  - pose proof (zget_bound _ _ _ Hz). rewrite rm_nonneg by lia.
    eapply flat_evaluates_node; [apply zget_map_Ret; eauto|]. simpl.
    destruct (go (d_feature d) (d_value d)); auto.
Qed.

Lemma dedup_flat_reaches go c l : 0 <= c -> flat_reaches nodes leaves go c l ->
  exists u, leaf_eqb l u = true /\ flat_reaches (map (remap_node remap) nodes) unique go c u.
Proof.
  intros Hc (k & Hk & Hz). destruct (rm_leaf _ _ Hz) as (u & Hu & He).
  exists u; split; auto. exists (- rm (- k - 1) - 1). split; auto.
  rewrite <- (rm_nonneg c Hc) at 1. now apply dedup_flat_leaf.
Qed.

Lemma dedup_valid : valid_nodes nf (zlen leaves) nodes ->
  valid_nodes nf (zlen unique) (map (remap_node remap) nodes).
Proof.
  intros Hv i n' Hz. apply zget_map_Ret in Hz as (n & Hz & ->).
  destruct (Hv _ _ Hz) as (H1 & H2 & H3). simpl. rewrite zlen_map. split; auto.
  assert (G : forall c, valid_ref (zlen nodes) (zlen leaves) i c -> valid_ref (zlen nodes) (zlen unique) i (rm c)).
  { intros c [A1 A2]. destruct (Z_lt_ge_dec c 0).
    - pose proof (rm_neg c ltac:(lia)). pose proof (rm_valid c ltac:(lia) ltac:(auto)). split; lia.
    - rewrite rm_nonneg by lia. split; [auto|lia]. }
  split; now apply G.
Qed.

Lemma dedup_refd roots : all_referenced nodes roots (zlen leaves) ->
  all_referenced (map (remap_node remap) nodes) roots (zlen unique).
Proof.
  intros [H1 H2].
  assert (G : forall c, is_child nodes c -> is_child (map (remap_node remap) nodes) (rm c)).
  { intros c (i & n & Hz & Ho). exists i, (remap_node remap n). split; [apply zget_map_Ret; eauto|].
    simpl. destruct Ho as [<-|<-]; auto. }
  split.
  - intros i Hi. rewrite zlen_map in Hi. destruct (H1 i Hi) as [?|Hc]; auto.
    right. apply G in Hc. rewrite rm_nonneg in Hc by lia. auto.
  - intros new Hn. destruct (di_surj _ _ dedup_DInv new Hn) as (k & l & Hin & Hf).
    apply enumerate_In in Hin. apply zget_bound in Hin. apply H2, G in Hin.
    unfold rm, dict_get_default in Hin. simpl in Hf. rewrite Hf in Hin. auto.
Qed.

End Dedup.

(** Second application: a table without equal entries is left alone. *)
Lemma dedup_fixpoint (un : list L) : no_equal_entries un ->
  exists remap, fold_left (dedup_step leaf_eqb) (enumerate un) ([], []) = (un, remap) /\
    forall c, dict_get_default remap c c = c.
Proof.
  intros Hnd.
  assert (H : forall todo done_ rmp,
      un = done_ ++ todo ->
      (forall c, dict_get_default rmp c c = c) ->
      exists remap,
        fold_left (dedup_step leaf_eqb)
          (combine (map Z.of_nat (seq (length done_) (length todo))) todo) (done_, rmp) = (un, remap)
        /\ forall c, dict_get_default remap c c = c).
  { induction todo as [|x todo IH]; intros done_ rmp El Hr; simpl.
    - exists rmp. rewrite app_nil_r in El. subst; auto.
    - pose proof (find_array_index_spec done_ x) as HF.
      destruct (find_array_index leaf_eqb done_ x) as [f|] eqn:EF.
      + exfalso. destruct HF as (u & Hu & He). pose proof (zget_bound _ _ _ Hu).
        assert (leaf_eqb x u = false); [|congruence].
        apply (Hnd f (zlen done_) u x); [lia| |]; subst un.
        * now apply zget_app1.
        * rewrite <- (Z.add_0_r (zlen done_)). now apply zget_app2.
      + destruct (IH (done_ ++ [x]) ((- zlen done_ - 1, - zlen done_ - 1) :: rmp)) as (remap & E & Hr').
        * now rewrite <- app_assoc.
        * intros c. unfold dict_get_default in *. simpl. destruct (Z.eqb_spec c (- zlen done_ - 1)); auto.
        * exists remap. split; auto. rewrite app_length in E. simpl in E.
          rewrite Nat.add_1_r in E. unfold zlen in *. exact E. }
  destruct (H un [] []) as (remap & E & Hr); auto.
  exists remap. split; auto. unfold enumerate, zrange, zlen. rewrite Nat2Z.id. exact E.
Qed.

Lemma remap_node_id m (n : dnode T) : (forall c, dict_get_default m c c = c) -> remap_node m n = n.
Proof. intros H. destruct n. unfold remap_node; simpl. now rewrite !H. Qed.

Theorem remove_duplicate_leaves_ok nodes roots leaves :
  1 <= zlen nodes ->
  valid_nodes nf (zlen leaves) nodes -> all_referenced nodes roots (zlen leaves) ->
  exists unique remap,
    remove_duplicate_leaves leaf_eqb (nodes, roots, leaves)
      = Ret (map (remap_node remap) nodes, roots, unique) /\
    fold_left (dedup_step leaf_eqb) (enumerate leaves) ([], []) = (unique, remap) /\
    valid_nodes nf (zlen unique) (map (remap_node remap) nodes) /\
    all_referenced (map (remap_node remap) nodes) roots (zlen unique).
Proof.
  intros Hn Hv Hr. unfold remove_duplicate_leaves.
  destruct (fold_left (dedup_step leaf_eqb) (enumerate leaves) ([], [])) as [un rmp] eqn:E.
  exists un, rmp.
  pose proof (dedup_valid nodes leaves un rmp E Hv) as Hv'.
  pose proof (dedup_refd nodes leaves un rmp E roots Hr) as Hr'.
  destruct (Z.eqb_spec (zlen nodes) 0); [lia|]. simpl.
  rewrite (assert_refs_ok nf) by auto. auto.
Qed.

Lemma remove_duplicate_leaves_inv nodes roots leaves f' :
  remove_duplicate_leaves leaf_eqb (nodes, roots, leaves) = Ret f' ->
  exists unique remap,
    fold_left (dedup_step leaf_eqb) (enumerate leaves) ([], []) = (unique, remap) /\
    f' = (map (remap_node remap) nodes, roots, unique) /\ zlen nodes <> 0 /\
    assert_node_references_valid (map (remap_node remap) nodes) unique roots = Ret tt.
Proof.
  unfold remove_duplicate_leaves.
  destruct (fold_left (dedup_step leaf_eqb) (enumerate leaves) ([], [])) as [un rmp] eqn:E.
  intros H. exists un, rmp. destruct (Z.eqb_spec (zlen nodes) 0); simpl in H; [discriminate|].
  invbind H. inv H. destruct a. auto.
Qed.

(** The whole conversion. *)
Theorem convert_forest_ok trees :
  trees <> [] ->
  Forall (wf_sktree nf) trees -> Forall (leaves_convertible mk_leaf) trees ->
  exists nodes roots leaves,
    convert_forest t_zero mk_leaf leaf_eqb trees = Ret (nodes, roots, leaves) /\
    valid_nodes nf (zlen leaves) nodes /\
    all_referenced nodes roots (zlen leaves) /\
    Forall2 (represents (fun a b => leaf_eqb a b = true) nodes leaves) trees roots /\
    no_equal_entries leaves /\
    zlen trees <= zlen nodes.
Proof.
  intros Hne HW HC.
  destruct (flatten_forest_ok trees HW HC) as (nodes & roots & leaves & E & Hv & Hr & HF & Hs & Hn).
  assert (1 <= zlen trees).
  { destruct trees; [congruence|]. unfold zlen; simpl length. lia. }
  destruct (remove_duplicate_leaves_ok nodes roots leaves ltac:(lia) Hv Hr)
    as (un & rmp & Er & Ef & Hv' & Hr').
  exists (map (remap_node rmp) nodes), roots, un.
  unfold convert_forest. rewrite E. cbn [bind]. rewrite Er.
  split; [auto|]. split; [auto|]. split; [auto|]. split; [|split].
  - eapply Forall2_imp; [|exact HF]. intros t root [Hb H1]. split; [now rewrite zlen_map|].
    intros go v Hreach. destruct (H1 go v Hreach) as (l & l' & H2 & <- & H3).
    destruct (dedup_flat_reaches nodes leaves un rmp Ef go root l ltac:(lia) H3) as (u & Hu & Hfu).
    exists l, u. auto.
  - exact (di_nodup _ _ (dedup_DInv leaves un rmp Ef)).
  - rewrite zlen_map. auto.
Qed.

Theorem convert_forest_cost trees nodes roots leaves :
  Forall (wf_sktree nf) trees -> Forall (leaves_convertible mk_leaf) trees ->
  convert_forest t_zero mk_leaf leaf_eqb trees = Ret (nodes, roots, leaves) -> Forall2 (same_cost nodes) trees roots.
Proof.
  intros HW HC EC. unfold convert_forest in EC. invbind EC. destruct a as [[nodes0 roots0] leaves0].
  pose proof (flatten_forest_cost trees _ _ _ HW HC E) as F.
  destruct (flatten_forest_ok trees HW HC) as (n1 & r1 & l1 & E1 & _ & _ & HF & _). rewrite E in E1. inv E1.
  apply remove_duplicate_leaves_inv in EC as (un & rmp & Ef & Eq & _). inv Eq.
  assert (Hroots : Forall (fun root => 0 <= root) r1).
  { clear - HF. induction HF as [|t r ts rs [Hb _] HF IH]; constructor; auto. lia. }
  clear HF. revert Hroots F. generalize r1 as rs0. generalize trees as tr0. clear - Ef eqb_refl.
  induction tr0 as [|t ts IH]; intros rs Hroots F; inv F; constructor.
  - intros go n He. inv Hroots. rewrite <- (rm_nonneg l1 un rmp Ef y) by auto.
    apply (dedup_flat_evaluates n1 l1 un rmp Ef). auto.
  - apply IH; auto. now inv Hroots.
Qed.
End Forest.
