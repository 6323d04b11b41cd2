(** flatten_tree: correctness of the conversion of one tree. *)
From Coq Require Import ZArith List Lia Bool Permutation.
From Verif.Base Require Import Res ListX.
From Verif.Model Require Import TreesConvert.
From Verif.Spec Require Import TreesSpec CostSpec.
Import ListNotations.
Open Scope Z_scope.
Open Scope res_scope.

(** ** assert_node_references_valid *)

Lemma set_mem_In x s : set_mem x s = true <-> In x s.
Proof.
  unfold set_mem. rewrite existsb_exists. split.
  - intros (y & Hy & E). apply Z.eqb_eq in E. now subst.
  - intros H. exists x. split; auto. apply Z.eqb_refl.
Qed.

Lemma set_diff_empty a b : set_is_empty (set_diff a b) = true <-> incl a b.
Proof.
  unfold set_diff, incl. induction a as [|x a IH]; simpl.
  - intuition.
  - destruct (set_mem x b) eqn:E; simpl.
    + apply set_mem_In in E. rewrite IH. split; [intros H y [->|Hy]; auto|auto].
    + split; [discriminate|]. intros H. exfalso.
      assert (set_mem x b = true) by (apply set_mem_In; auto). congruence.
Qed.

Lemma py_assert_ok b : b = true -> py_assert b = Ret tt.
Proof. now intros ->. Qed.

Lemma py_assert_Ret b u : py_assert b = Ret u -> b = true.
Proof. destruct b; simpl; congruence. Qed.

Lemma assert_refs_ok {T L} (nf : Z) (nodes : list (dnode T)) (leaves : list L) roots :
  valid_nodes nf (zlen leaves) nodes ->
  all_referenced nodes roots (zlen leaves) ->
  assert_node_references_valid nodes leaves roots = Ret tt.
Proof.
  intros Hv [Hn Hl]. unfold assert_node_references_valid.
  assert (HL : forall x, In x (map d_left (filter (fun n : dnode T => 0 <=? d_left n) nodes)) <->
             0 <= x /\ exists n, In n nodes /\ d_left n = x).
  { intros x. rewrite in_map_iff. split.
    - intros (n & <- & Hin). apply filter_In in Hin as [Hin Hx]. apply Z.leb_le in Hx. eauto.
    - intros (H0 & n & Hin & <-). exists n; split; auto. apply filter_In; split; auto.
      now apply Z.leb_le. }
  assert (HR : forall x, In x (map d_right (filter (fun n : dnode T => 0 <=? d_right n) nodes)) <->
             0 <= x /\ exists n, In n nodes /\ d_right n = x).
  { intros x. rewrite in_map_iff. split.
    - intros (n & <- & Hin). apply filter_In in Hin as [Hin Hx]. apply Z.leb_le in Hx. eauto.
    - intros (H0 & n & Hin & <-). exists n; split; auto. apply filter_In; split; auto.
      now apply Z.leb_le. }
  assert (HLL : forall x, In x (map (fun n => - d_left n - 1) (filter (fun n : dnode T => d_left n <? 0) nodes)) <->
             0 <= x /\ exists n, In n nodes /\ d_left n = - x - 1).
  { intros x. rewrite in_map_iff. split.
    - intros (n & <- & Hin). apply filter_In in Hin as [Hin Hx]. apply Z.ltb_lt in Hx.
      split; [lia|]. exists n; split; auto. lia.
    - intros (H0 & n & Hin & E). exists n; split; [lia|]. apply filter_In; split; auto.
      apply Z.ltb_lt. lia. }
  assert (HLR : forall x, In x (map (fun n => - d_right n - 1) (filter (fun n : dnode T => d_right n <? 0) nodes)) <->
             0 <= x /\ exists n, In n nodes /\ d_right n = - x - 1).
  { intros x. rewrite in_map_iff. split.
    - intros (n & <- & Hin). apply filter_In in Hin as [Hin Hx]. apply Z.ltb_lt in Hx.
      split; [lia|]. exists n; split; auto. lia.
    - intros (H0 & n & Hin & E). exists n; split; [lia|]. apply filter_In; split; auto.
      apply Z.ltb_lt. lia. }
  rewrite py_assert_ok; simpl.
  2:{ apply set_diff_empty. intros x Hx. apply HL in Hx as (H0 & n & Hin & E).
      apply zrange_In. apply In_zget in Hin as [i Hi]. destruct (Hv _ _ Hi) as (_ & [H1 _] & _).
      subst x. apply zget_bound in Hi. specialize (H1 H0). lia. }
  rewrite py_assert_ok; simpl.
  2:{ apply set_diff_empty. intros x Hx. apply HR in Hx as (H0 & n & Hin & E).
      apply zrange_In. apply In_zget in Hin as [i Hi]. destruct (Hv _ _ Hi) as (_ & _ & [H1 _]).
      subst x. apply zget_bound in Hi. specialize (H1 H0). lia. }
  rewrite py_assert_ok; simpl.
  2:{ apply set_diff_empty. intros x Hx. apply zrange_In in Hx. rewrite !in_app_iff, HL, HR.
      destruct (Hn x Hx) as [Hr|(i & n & Hi & [E|E])]; auto; apply zget_In in Hi;
      [left|right; left]; split; try lia; eauto. }
  rewrite py_assert_ok; simpl.
  2:{ apply set_diff_empty. intros x Hx. apply HLL in Hx as (H0 & n & Hin & E).
      apply zrange_In. apply In_zget in Hin as [i Hi]. destruct (Hv _ _ Hi) as (_ & [_ H1] & _).
      specialize (H1 ltac:(lia)). lia. }
  rewrite py_assert_ok; simpl; auto.
  apply set_diff_empty. intros x Hx. apply zrange_In in Hx. rewrite !in_app_iff, HLL, HLR.
  destruct (Hl x Hx) as (i & n & Hi & [E|E]); apply zget_In in Hi;
  [left|right]; split; try lia; eauto.
Qed.

(** ** flatten_tree *)
Lemma evaluates_leaf_inv {T V} (t : sktree T V) go i n :
  zget (sk_left t) i = Ret (-1) -> zget (sk_right t) i = Ret (-1) -> evaluates t go i n -> n = 0.
Proof.
  intros Hl Hr He. destruct He as [i E1 E2|i l0 r0 f0 th0 n E1 E2 E3 _ _ _]; [reflexivity|].
  assert (l0 = -1 /\ r0 = -1) as E by (split; congruence). elim (E3 E).
Qed.

Section Flatten.
Context {T V L : Type} (t_zero : T) (mk_leaf : V -> res L).
Variable (nf : Z) (t : sktree T V).
Hypothesis Hnf : 1 <= nf.
Hypothesis WF : wf_sktree nf t.
Hypothesis Conv : leaves_convertible mk_leaf t.

Let N := sk_node_count t.

Lemma left_ok i : 0 <= i < N -> exists l, zget (sk_left t) i = Ret l.
Proof. intros. apply zget_ok. rewrite (wf_len_left _ _ WF). auto. Qed.
Lemma right_ok i : 0 <= i < N -> exists l, zget (sk_right t) i = Ret l.
Proof. intros. apply zget_ok. rewrite (wf_len_right _ _ WF). auto. Qed.
Lemma feature_ok i : 0 <= i < N -> exists l, zget (sk_feature t) i = Ret l.
Proof. intros. apply zget_ok. rewrite (wf_len_feature _ _ WF). auto. Qed.
Lemma threshold_ok i : 0 <= i < N -> exists l, zget (sk_threshold t) i = Ret l.
Proof. intros. apply zget_ok. rewrite (wf_len_threshold _ _ WF). auto. Qed.
Lemma value_ok i : 0 <= i < N ->
  exists v l, zget (sk_value t) i = Ret [v] /\ mk_leaf v = Ret l.
Proof.
  intros. destruct (zget_ok (sk_value t) i) as [row Hrow]. rewrite (wf_len_value _ _ WF); auto.
  assert (Hin := zget_In _ _ _ Hrow).
  pose proof (wf_value_rows _ _ WF) as H1. rewrite Forall_forall in H1. specialize (H1 _ Hin).
  destruct row as [|v [|]]; simpl in H1; try lia.
  unfold leaves_convertible in Conv. rewrite Forall_forall in Conv. specialize (Conv _ Hin).
  inversion Conv as [|? ? [l Hl]]. eauto.
Qed.

(** sklearn leaf / decision node *)
Definition leaf (i : Z) : Prop := zget (sk_left t) i = Ret (-1) /\ zget (sk_right t) i = Ret (-1).
Definition leafb (i : Z) : bool :=
  match zget (sk_left t) i, zget (sk_right t) i with
  | Ret l, Ret r => (l =? -1) && (r =? -1)
  | _, _ => false
  end.
Lemma leafb_leaf i : leafb i = true <-> leaf i.
Proof.
  unfold leafb, leaf. destruct (zget (sk_left t) i), (zget (sk_right t) i);
    try (split; [discriminate|intros [? ?]; discriminate]).
  rewrite andb_true_iff, !Z.eqb_eq. split; [intros [-> ->]|intros [E1 E2]; inv E1; inv E2]; auto.
Qed.

Lemma leaf_dec i : leaf i \/ ~ leaf i.
Proof. rewrite <- leafb_leaf. destruct (leafb i); auto. Qed.

Lemma internal_children i l r :
  0 <= i < N -> zget (sk_left t) i = Ret l -> zget (sk_right t) i = Ret r -> ~ leaf i ->
  i < l < N /\ i < r < N /\ exists f, zget (sk_feature t) i = Ret f /\ 0 <= f < nf.
Proof.
  intros Hi Hl Hr Hnl. destruct (feature_ok i Hi) as [f Hf].
  destruct (wf_nodes _ _ WF i l r f) as [[-> ->]|(H1 & H2 & H3)]; auto.
  - exfalso; apply Hnl; split; auto.
  - repeat split; try lia. exists f; auto.
Qed.

Lemma add_leaf_ok ln i : 0 <= i < N ->
  exists v l, zget (sk_value t) i = Ret [v] /\ mk_leaf v = Ret l /\
    add_leaf mk_leaf t ln i = Ret (- zlen ln - 1, ln ++ [l]).
Proof.
  intros Hi. destruct (value_ok i Hi) as (v & l & Hv & Hl). exists v, l. repeat split; auto.
  unfold add_leaf. rewrite (pyget_zget _ _ _ Hv). simpl. rewrite Hl. simpl.
  rewrite py_assert_ok; auto. apply Z.leb_le. pose proof (zlen_nonneg ln). lia.
Qed.

Lemma process_child_leaf ln i : 0 <= i < N -> leaf i ->
  process_child mk_leaf t ln i = add_leaf mk_leaf t ln i.
Proof.
  intros Hi [H1 H2]. unfold process_child.
  rewrite (pyget_zget _ _ _ H1); simpl. rewrite (pyget_zget _ _ _ H2); simpl. auto.
Qed.

Lemma process_child_node ln i : 0 <= i < N -> ~ leaf i ->
  process_child mk_leaf t ln i = Ret (i, ln).
Proof.
  intros Hi Hn. unfold process_child.
  destruct (left_ok i Hi) as [l Hl]. destruct (right_ok i Hi) as [r Hr].
  rewrite (pyget_zget _ _ _ Hl); simpl. destruct (Z.eqb_spec l (-1)); simpl; auto.
  rewrite (pyget_zget _ _ _ Hr); simpl. destruct (Z.eqb_spec r (-1)); simpl; auto.
  subst. exfalso; apply Hn; split; auto.
Qed.

(** Reference [c] stored for sklearn node [i] before the second loop. *)
Definition raw_ref (ln : list L) (c i : Z) : Prop :=
  (leaf i /\ exists j v l, c = - j - 1 /\ zget ln j = Ret l /\
     zget (sk_value t) i = Ret [v] /\ mk_leaf v = Ret l)
  \/ (~ leaf i /\ c = i).

Lemma raw_ref_app ln x c i : raw_ref ln c i -> raw_ref (ln ++ x) c i.
Proof.
  intros [(Hl & j & v & l & H1 & H2 & H3 & H4)|H]; [left|right; auto].
  split; auto. exists j, v, l. repeat split; auto. now apply zget_app1.
Qed.

Lemma process_child_ok ln i : 0 <= i < N ->
  exists c x, process_child mk_leaf t ln i = Ret (c, ln ++ x) /\ raw_ref (ln ++ x) c i /\
    (if leafb i then length x = 1%nat /\ c = - zlen ln - 1 else x = [] /\ c = i).
Proof.
  intros Hi. destruct (leafb i) eqn:Eb.
  - apply leafb_leaf in Eb. destruct (add_leaf_ok ln i Hi) as (v & l & Hv & Hl & Ha).
    exists (- zlen ln - 1), [l]. rewrite process_child_leaf, Ha by auto. repeat split; auto.
    left. split; auto. exists (zlen ln), v, l. repeat split; auto. apply zget_last.
  - assert (~ leaf i) by (rewrite <- leafb_leaf; congruence).
    exists i, []. rewrite process_child_node, app_nil_r by auto. repeat split; auto. right; auto.
Qed.

(** The items the loop runs over. *)
Notation item := (Z * (Z * Z * Z * T))%type.

Definition item_ok (it : item) : Prop :=
  let '(i, (l, r, f, th)) := it in
  zget (sk_left t) i = Ret l /\ zget (sk_right t) i = Ret r /\
  zget (sk_feature t) i = Ret f /\ zget (sk_threshold t) i = Ret th.

Lemma zlen_zip : zlen (zip_tree t) = N.
Proof.
  pose proof (wf_len_left _ _ WF). pose proof (wf_len_right _ _ WF).
  pose proof (wf_len_feature _ _ WF). pose proof (wf_len_threshold _ _ WF).
  pose proof (wf_len_value _ _ WF). unfold N.
  unfold zip_tree. rewrite zlen_map. unfold zlen in *. rewrite !combine_length. lia.
Qed.

Lemma zip_nth k x : nth_error (zip_tree t) k = Some x ->
  item_ok (Z.of_nat k, x).
Proof.
  unfold zip_tree. rewrite nth_error_map.
  destruct (nth_error _ k) as [[x' v]|] eqn:E; simpl; [|discriminate]. intros E1; inv E1.
  apply nth_error_combine in E as [E Ev]. destruct x as [[[l r] f] th].
  apply nth_error_combine in E as [E E4]. apply nth_error_combine in E as [E E3].
  apply nth_error_combine in E as [E1 E2].
  simpl. rewrite !zget_Ret, !Nat2Z.id. repeat split; auto; lia.
Qed.

Lemma enumerate_nth k (it : item) : nth_error (enumerate (zip_tree t)) k = Some it ->
  fst it = Z.of_nat k /\ item_ok it /\ 0 <= fst it < N.
Proof.
  destruct it as [i x]. unfold enumerate. intros E. apply nth_error_combine in E as [E1 E2].
  unfold zrange in E1. rewrite nth_error_map in E1.
  destruct (nth_error (seq 0 _) k) eqn:E; [|discriminate]. simpl in E1. inv E1.
  assert (Hk : (k < Z.to_nat (zlen (zip_tree t)))%nat).
  { rewrite <- (seq_length (Z.to_nat (zlen (zip_tree t))) 0). apply nth_error_Some. congruence. }
  apply nth_error_nth with (d := O) in E. rewrite seq_nth in E by auto. simpl in E. subst.
  rewrite zlen_zip in Hk. repeat split; simpl; try lia. apply zip_nth in E2. exact E2.
Qed.

Lemma enumerate_length : zlen (enumerate (zip_tree t)) = N.
Proof.
  unfold enumerate, zlen. rewrite combine_length, zrange_length.
  pose proof zlen_zip. unfold zlen in *. lia.
Qed.

Definition item_leafb (it : item) : bool :=
  let '(_, (l, r, _, _)) := it in (l =? -1) && (r =? -1).
Definition item_refs (it : item) : list Z :=
  let '(_, (l, r, _, _)) := it in if (l =? -1) && (r =? -1) then [] else [l; r].

Lemma item_leafb_leafb it : item_ok it -> item_leafb it = leafb (fst it).
Proof.
  destruct it as [i [[[l r] f] th]]; simpl. intros (H1 & H2 & _). unfold leafb.
  now rewrite H1, H2.
Qed.

(** Loop invariant. *)
Record Inv (done_ : list item) (st : fstate (T:=T) (L:=L)) : Prop := {
  inv_map : forall i d, dict_find (snd st) i = Some d ->
    0 <= i < zlen done_ /\ ~ leaf i /\
    exists nd, zget (fst (fst st)) d = Ret nd /\
      zget (sk_feature t) i = Ret (d_feature nd) /\
      zget (sk_threshold t) i = Ret (d_value nd) /\
      exists l r, zget (sk_left t) i = Ret l /\ zget (sk_right t) i = Ret r /\
        raw_ref (snd (fst st)) (d_left nd) l /\ raw_ref (snd (fst st)) (d_right nd) r;
  inv_dom : forall i, 0 <= i < zlen done_ -> ~ leaf i -> exists d, dict_find (snd st) i = Some d;
  inv_mono : forall i j di dj, dict_find (snd st) i = Some di -> dict_find (snd st) j = Some dj ->
     i < j -> di < dj;
  inv_surj : forall d, 0 <= d < zlen (fst (fst st)) -> exists i, dict_find (snd st) i = Some d;
  inv_leafref : forall j, 0 <= j < zlen (snd (fst st)) -> is_child (fst (fst st)) (- j - 1);
  inv_len_nodes : length (fst (fst st)) = length (filter (fun it => negb (item_leafb it)) done_);
  inv_len_leaves : length (snd (fst st)) = length (filter leafb (flat_map item_refs done_))
}.

Lemma is_child_app (nodes x : list (dnode T)) c : is_child nodes c -> is_child (nodes ++ x) c.
Proof. intros (i & n & H1 & H2). exists i, n. split; auto. now apply zget_app1. Qed.

Lemma flatten_step_ok done_ it st :
  N <> 1 -> fst it = zlen done_ -> 0 <= fst it < N -> item_ok it -> Inv done_ st ->
  exists st', flatten_step t_zero mk_leaf t N st it = Ret st' /\ Inv (done_ ++ [it]) st'.
Proof.
  intros HN Hi Hb Hit HI. pose proof (item_leafb_leafb it Hit) as Hlb.
  destruct it as [i [[[l r] f] th]], st as [[dn ln] m]. simpl in Hi, Hb, Hlb.
  destruct Hit as (Hl & Hr & Hf & Hth).
  unfold flatten_step. destruct (Z.eqb_spec N 1); [lia|].
  rewrite Hlb. destruct (leafb i) eqn:Eb.
  - (* leaf: skipped *)
    eexists; split; [reflexivity|]. apply leafb_leaf in Eb.
    destruct HI. constructor; simpl in *.
    + intros j d H. destruct (inv_map0 j d H) as (H1 & H2). split; auto.
      rewrite zlen_app. change (zlen [_]) with 1. lia.
    + intros j Hj Hnl. rewrite zlen_app in Hj. change (zlen [_]) with 1 in Hj.
      apply inv_dom0; auto. assert (j <> i) by congruence. lia.
    + auto.
    + auto.
    + auto.
    + rewrite filter_app; simpl. rewrite Hlb. simpl. now rewrite app_nil_r.
    + rewrite flat_map_app; simpl. rewrite Hlb. simpl. now rewrite app_nil_r.
  - (* decision node *)
    assert (Hnl : ~ leaf i) by (rewrite <- leafb_leaf; congruence).
    destruct (internal_children i l r Hb Hl Hr Hnl) as (Bl & Br & _).
    destruct (process_child_ok ln l ltac:(lia)) as (cl & x1 & E1 & R1 & S1).
    rewrite E1; simpl.
    destruct (process_child_ok (ln ++ x1) r ltac:(lia)) as (cr & x2 & E2 & R2 & S2).
    rewrite E2; simpl. eexists; split; [reflexivity|].
    destruct HI. constructor; simpl in *.
    + intros j d H. rewrite zlen_app. change (zlen [_]) with 1.
      destruct (Z.eqb_spec j i).
      * inv H. split; [lia|]. split; auto.
        exists (mk_dnode f th cl cr). split; [apply zget_last|]. simpl.
        repeat split; auto. exists l, r. repeat split; auto. now apply raw_ref_app.
      * destruct (inv_map0 j d H) as (H1 & H2 & nd & H3 & H4 & H5 & l' & r' & H6 & H7 & H8 & H9).
        split; [lia|]. split; auto. exists nd. split; [now apply zget_app1|].
        repeat split; auto. exists l', r'. repeat split; auto; now repeat apply raw_ref_app.
    + intros j Hj Hnj. rewrite zlen_app in Hj. change (zlen [_]) with 1 in Hj.
      destruct (Z.eqb_spec j i); eauto. apply inv_dom0; auto. lia.
    + intros j1 j2 d1 d2 F1 F2 Hlt.
      destruct (Z.eqb_spec j1 i), (Z.eqb_spec j2 i); try lia.
      * inv F1. destruct (inv_map0 _ _ F2) as (? & _). lia.
      * inv F2. destruct (inv_map0 _ _ F1) as (_ & _ & nd & Hz & _). apply zget_bound in Hz. lia.
      * eauto.
    + intros d Hd. rewrite zlen_app in Hd. change (zlen [_]) with 1 in Hd.
      destruct (Z.eq_dec d (zlen dn)).
      * exists i. rewrite Z.eqb_refl. congruence.
      * destruct (inv_surj0 d) as [j Hj]; [lia|]. exists j.
        destruct (inv_map0 _ _ Hj) as (? & _). destruct (Z.eqb_spec j i); [lia|auto].
    + intros j Hj. rewrite !zlen_app in Hj.
      destruct (Z_lt_ge_dec j (zlen ln)).
      { apply is_child_app. apply inv_leafref0. lia. }
      exists (zlen dn), (mk_dnode f th cl cr). split; [apply zget_last|]. simpl.
      destruct (leafb l), (leafb r); destruct S1 as [S1 S1'], S2 as [S2 S2']; subst;
        rewrite ?zlen_app in *; unfold zlen in *; rewrite ?S1, ?S2 in *; simpl in *; lia.
    + rewrite app_length, filter_app, app_length; simpl. rewrite Hlb. simpl. lia.
    + rewrite flat_map_app, filter_app, !app_length; simpl. rewrite Hlb. simpl.
      rewrite inv_len_leaves0.
      destruct (leafb l), (leafb r); simpl; destruct S1 as [S1 _], S2 as [S2 _]; subst; simpl; lia.
Qed.

Lemma Inv_init : Inv [] ([], [], []).
Proof.
  constructor; simpl; try discriminate; auto; unfold zlen; simpl; intros; lia.
Qed.

Lemma flatten_loop_ok : N <> 1 ->
  exists st, foldM (flatten_step t_zero mk_leaf t (zlen (zip_tree t))) ([], [], [])
                   (enumerate (zip_tree t)) = Ret st /\ Inv (enumerate (zip_tree t)) st.
Proof.
  intros HN. rewrite zlen_zip. apply foldM_inv.
  - apply Inv_init.
  - intros d it todo st E HI.
    assert (Hn : nth_error (enumerate (zip_tree t)) (length d) = Some it).
    { rewrite E, nth_error_app2, Nat.sub_diag by lia. reflexivity. }
    apply enumerate_nth in Hn as (H1 & H2 & H3).
    apply flatten_step_ok; auto.
Qed.

(** Counting *)
Lemma refs_perm (l r : list Z) (f : list Z) (th : list T) :
  length l = length r -> length l = length f -> length l = length th ->
  (forall k a b, nth_error l k = Some a -> nth_error r k = Some b ->
      (a = -1 /\ b = -1) \/ (0 <= a /\ 0 <= b)) ->
  forall (idx : list Z), length idx = length l ->
  Permutation
    (flat_map item_refs (combine idx (combine (combine (combine l r) f) th)))
    (filter (fun c => 0 <=? c) (l ++ r)).
Proof.
  revert r f th. induction l as [|a l IH]; intros [|b r] [|f0 f] [|th0 th]; simpl; try discriminate.
  - intros _ _ _ _ [|]; simpl; try discriminate. auto.
  - intros L1 L2 L3 H [|i0 idx]; simpl; try discriminate. intros L4.
    assert (IH' : Permutation (flat_map item_refs (combine idx (combine (combine (combine l r) f) th)))
                              (filter (fun c => 0 <=? c) (l ++ r))).
    { apply IH; try lia. intros k a' b' H1 H2. exact (H (S k) a' b' H1 H2). }
    destruct (H O a b) as [[-> ->]|[Ha Hb]]; auto; simpl.
    + rewrite filter_app. simpl. rewrite <- filter_app. exact IH'.
    + destruct (Z.eqb_spec a (-1)); [lia|]. simpl.
      destruct (Z.leb_spec 0 a); [|lia]. rewrite filter_app. simpl.
      destruct (Z.leb_spec 0 b); [|lia]. constructor.
      apply Permutation_cons_app. rewrite <- filter_app. exact IH'.
Qed.

Lemma zip_simpl : zip_tree t =
  combine (combine (combine (sk_left t) (sk_right t)) (sk_feature t)) (sk_threshold t).
Proof.
  unfold zip_tree.
  pose proof (wf_len_left _ _ WF) as H1. pose proof (wf_len_right _ _ WF) as H2.
  pose proof (wf_len_feature _ _ WF) as H3. pose proof (wf_len_threshold _ _ WF) as H4.
  pose proof (wf_len_value _ _ WF) as H5. unfold zlen in *.
  remember (combine (combine (combine (sk_left t) (sk_right t)) (sk_feature t)) (sk_threshold t)) as z.
  assert (Hz : length z = length (sk_value t)).
  { subst z. rewrite !combine_length. lia. }
  clear - Hz. revert Hz. generalize (sk_value t). induction z as [|x z IH]; intros [|v vs]; simpl; try discriminate; auto.
  intros E. f_equal. apply IH. lia.
Qed.

Lemma leaves_count :
  length (filter leafb (flat_map item_refs (enumerate (zip_tree t)))) =
  length (filter leafb (map (fun i => i + 1) (zrange (N - 1)))).
Proof.
  apply Permutation_length, Permutation_filter.
  etransitivity; [|exact (wf_children _ _ WF)].
  pose proof (wf_len_left _ _ WF) as H1. pose proof (wf_len_right _ _ WF) as H2.
  pose proof (wf_len_feature _ _ WF) as H3. pose proof (wf_len_threshold _ _ WF) as H4.
  pose proof zlen_zip as HZ. unfold enumerate. rewrite HZ. rewrite zip_simpl. unfold zlen in *.
  apply refs_perm; try lia.
  - intros k a b Ha Hb.
    assert (Hk : (k < length (sk_left t))%nat) by (apply nth_error_Some; congruence).
    destruct (feature_ok (Z.of_nat k)) as [f Hf]; [unfold N; lia|].
    destruct (wf_nodes _ _ WF (Z.of_nat k) a b f) as [?|?]; auto; try lia;
      apply zget_Ret; rewrite Nat2Z.id; split; auto; lia.
  - rewrite zrange_length. unfold N. lia.
Qed.

Lemma nodes_count :
  length (filter (fun it => negb (item_leafb it)) (enumerate (zip_tree t))) =
  length (filter (fun i => negb (leafb i)) (zrange N)).
Proof.
  assert (E : zrange N = map fst (enumerate (zip_tree t))).
  { unfold enumerate. rewrite zlen_zip.
    assert (H : length (zrange N) = length (zip_tree t)).
    { rewrite zrange_length. pose proof zlen_zip. unfold zlen in *. lia. }
    revert H. generalize (zip_tree t). generalize (zrange N).
    induction l as [|a l IH]; intros [|b l0]; simpl; try discriminate; auto.
    intros H. f_equal. apply IH. lia. }
  rewrite E. clear E.
  assert (H : Forall item_ok (enumerate (zip_tree t))).
  { apply Forall_forall. intros it Hin. apply In_nth_error in Hin as [k Hk].
    now apply enumerate_nth in Hk. }
  induction H as [|it l Hit Hl IH]; simpl; auto.
  rewrite item_leafb_leafb by auto. destruct (leafb (fst it)); simpl; auto.
Qed.

Lemma root_internal : N <> 1 -> ~ leaf 0.
Proof.
  intros HN HL. assert (1 <= N) by exact (wf_count _ _ WF).
  assert (Hin : In 1 (filter (fun c => 0 <=? c) (sk_left t ++ sk_right t))).
  { eapply Permutation_in; [symmetry; exact (wf_children _ _ WF)|].
    apply in_map_iff. exists 0. split; auto. apply zrange_In. fold N. lia. }
  apply filter_In in Hin as [Hin _]. apply in_app_iff in Hin.
  assert (exists i l r, zget (sk_left t) i = Ret l /\ zget (sk_right t) i = Ret r /\ (l = 1 \/ r = 1)).
  { destruct Hin as [Hin|Hin]; apply In_zget in Hin as [i Hi]; pose proof (zget_bound _ _ _ Hi) as Hb.
    - rewrite (wf_len_left _ _ WF) in Hb. destruct (right_ok i Hb) as [r Hr]. exists i, 1, r; auto.
    - rewrite (wf_len_right _ _ WF) in Hb. destruct (left_ok i Hb) as [r Hr]. exists i, r, 1; auto. }
  destruct H0 as (i & l & r & Hl & Hr & Hor).
  assert (Hb := zget_bound _ _ _ Hl). rewrite (wf_len_left _ _ WF) in Hb.
  destruct (feature_ok i Hb) as [f Hf].
  destruct (wf_nodes _ _ WF i l r f Hl Hr Hf) as [[? ?]|(? & ? & ?)]; [lia|].
  assert (i = 0) by lia. subst i. destruct HL as [H3 H4]. rewrite H3 in Hl. rewrite H4 in Hr.
  inv Hl. inv Hr. lia.
Qed.

Lemma total_count (dn : list (dnode T)) (ln : list L) m :
  N <> 1 -> Inv (enumerate (zip_tree t)) (dn, ln, m) -> zlen dn + zlen ln = N.
Proof.
  intros HN HI. destruct HI. simpl in *. unfold zlen.
  rewrite inv_len_nodes0, inv_len_leaves0, leaves_count, nodes_count.
  assert (1 <= N) by exact (wf_count _ _ WF).
  assert (E : zrange N = 0 :: map (fun i => i + 1) (zrange (N - 1))).
  { unfold zrange. replace (Z.to_nat N) with (S (Z.to_nat (N - 1))) by lia.
    simpl. f_equal. rewrite <- seq_shift, !map_map. apply map_ext. intros; lia. }
  rewrite E. simpl.
  assert (El : leafb 0 = false).
  { destruct (leafb 0) eqn:Eb; auto. apply leafb_leaf in Eb. now apply root_internal in Eb. }
  rewrite El. simpl.
  pose proof (filter_negb_length leafb (map (fun i => i + 1) (zrange (N - 1)))) as H1.
  rewrite map_length, zrange_length in H1. lia.
Qed.

(** Parent of a non-root node. *)
Lemma parent_exists i : 0 < i < N ->
  exists p l r, 0 <= p < N /\ ~ leaf p /\
    zget (sk_left t) p = Ret l /\ zget (sk_right t) p = Ret r /\ (l = i \/ r = i).
Proof.
  intros Hi.
  assert (Hin : In i (filter (fun c => 0 <=? c) (sk_left t ++ sk_right t))).
  { eapply Permutation_in; [symmetry; exact (wf_children _ _ WF)|].
    apply in_map_iff. exists (i - 1). split; [lia|]. apply zrange_In. fold N. lia. }
  apply filter_In in Hin as [Hin _]. apply in_app_iff in Hin.
  assert (exists p l r, zget (sk_left t) p = Ret l /\ zget (sk_right t) p = Ret r /\ (l = i \/ r = i)).
  { destruct Hin as [Hin|Hin]; apply In_zget in Hin as [p Hp]; pose proof (zget_bound _ _ _ Hp) as Hb.
    - rewrite (wf_len_left _ _ WF) in Hb. destruct (right_ok p Hb) as [r Hr]. exists p, i, r; auto.
    - rewrite (wf_len_right _ _ WF) in Hb. destruct (left_ok p Hb) as [r Hr]. exists p, r, i; auto. }
  destruct H as (p & l & r & Hl & Hr & Hor). exists p, l, r.
  assert (Hb := zget_bound _ _ _ Hl). rewrite (wf_len_left _ _ WF) in Hb.
  repeat split; auto; try lia. intros [H1 H2]. rewrite H1 in Hl. rewrite H2 in Hr. inv Hl. inv Hr. lia.
Qed.

(** What a final reference [c] means: it stands for sklearn node [i]. *)
Definition fin_ref (m : pydict) (ln : list L) (c i : Z) : Prop :=
  (leaf i /\ exists j v l, c = - j - 1 /\ zget ln j = Ret l /\
     zget (sk_value t) i = Ret [v] /\ mk_leaf v = Ret l)
  \/ (~ leaf i /\ dict_find m i = Some c).

(** Result of the conversion of one tree. *)
Record flat_ok (nodes : list (dnode T)) (leaves : list L) : Prop := {
  fo_valid : valid_nodes nf (zlen leaves) nodes;
  fo_refd : all_referenced nodes [0] (zlen leaves);
  fo_nonempty : 1 <= zlen nodes;
  fo_size : if sk_node_count t =? 1 then zlen nodes = 1 /\ zlen leaves = 1
            else zlen nodes + zlen leaves = sk_node_count t;
  fo_reach : forall go v, sk_reaches t go 0 v ->
    exists l, mk_leaf v = Ret l /\ flat_reaches nodes leaves go 0 l;
  fo_cost : forall go n, evaluates t go 0 n -> flat_evaluates nodes go 0 (Z.max 1 n)
}.

Lemma flatten_tree_single : N = 1 ->
  exists dn ln, flatten_tree t_zero mk_leaf t = Ret (dn, ln) /\ flat_ok dn ln.
Proof.
  intros HN.
  assert (H0 : 0 <= 0 < N) by lia.
  destruct (left_ok 0 H0) as [l Hl]. destruct (right_ok 0 H0) as [r Hr].
  destruct (feature_ok 0 H0) as [f Hf]. destruct (threshold_ok 0 H0) as [th Hth].
  destruct (value_ok 0 H0) as (v & lf & Hv & Hlf).
  destruct (wf_nodes _ _ WF 0 l r f Hl Hr Hf) as [[-> ->]|(? & ? & ?)]; [|unfold N in *; lia].
  assert (Ez : enumerate (zip_tree t) = [(0, (-1, -1, f, th))]).
  { pose proof enumerate_length as He. rewrite HN in He.
    destruct (enumerate (zip_tree t)) as [|it [|]] eqn:E; unfold zlen in He; simpl in He; try lia.
    assert (Hk : nth_error (enumerate (zip_tree t)) 0 = Some it) by now rewrite E.
    apply enumerate_nth in Hk as (K1 & K2 & K3). destruct it as [i [[[l' r'] f'] th']].
    simpl in *. change (Z.of_nat 0) with 0 in K1. subst i. destruct K2 as (G1 & G2 & G3 & G4).
    rewrite Hl in G1; rewrite Hr in G2; rewrite Hf in G3; rewrite Hth in G4. congruence. }
  exists [mk_dnode 0 t_zero (-1) (-1)], [lf]. split.
  - unfold flatten_tree. rewrite (wf_len_value _ _ WF), Z.eqb_refl. simpl.
    rewrite (wf_outputs _ _ WF). simpl. rewrite zlen_zip, HN, Ez. simpl.
    unfold add_leaf. rewrite (pyget_zget _ _ _ Hv). simpl. rewrite Hlf. simpl.
    reflexivity.
  - constructor.
    + intros i n Hn. pose proof (zget_bound _ _ _ Hn) as Hb. change (zlen [_]) with 1 in *.
      assert (i = 0) by lia. subst. simpl in Hn. inv Hn. simpl. unfold valid_ref. lia.
    + split.
      * intros i Hi. left. simpl. change (zlen [_]) with 1 in Hi. left. lia.
      * intros k Hk. change (zlen [_]) with 1 in Hk. exists 0. eexists; split; [reflexivity|]. simpl. lia.
    + unfold zlen; simpl; lia.
    + fold N. rewrite HN. simpl. auto.
    + intros go v' Hreach. inv Hreach.
      * rewrite Hv in H2. inv H2. exists lf; split; auto. exists 0; split; auto.
        eapply flat_leaf_node; [reflexivity|]. simpl.
        replace (if go 0 t_zero then -1 else -1) with (-1) by (destruct (go 0 t_zero); auto).
        exact (flat_leaf_leaf _ _ (-1) ltac:(lia)).
      * rewrite Hl in H. rewrite Hr in H1. inv H. inv H1. exfalso; auto.
    + intros go n He.
      assert (n = 0) as ->.
      { exact (evaluates_leaf_inv t go 0 n Hl Hr He). }
      change (Z.max 1 0) with (0 + 1). eapply flat_evaluates_node; [reflexivity|]. simpl.
      replace (if go 0 t_zero then -1 else -1) with (-1) by (destruct (go 0 t_zero); auto).
      apply flat_evaluates_leaf. lia.
Qed.

Lemma flatten_tree_many : N <> 1 ->
  exists dn ln, flatten_tree t_zero mk_leaf t = Ret (dn, ln) /\ flat_ok dn ln.
Proof.
  intros HN. assert (HN1 : 1 <= N) by exact (wf_count _ _ WF).
  destruct (flatten_loop_ok HN) as ([[dn ln] m] & Eloop & HI).
  pose proof (total_count dn ln m HN HI) as Htot.
  destruct HI as [Imap Idom Imono Isurj Ileaf _ _]. simpl in *.
  rewrite enumerate_length in *.
  (* second loop *)
  assert (Hfix_ref : forall c i, 0 <= i < N -> raw_ref ln c i -> exists c', fix_ref m c = Ret c' /\ fin_ref m ln c' i).
  { intros c i Hi [(Hl & j & v & l & -> & Hz & Hr)|(Hl & ->)].
    - exists (- j - 1). unfold fix_ref. pose proof (zget_bound _ _ _ Hz).
      destruct (Z.leb_spec 0 (- j - 1)); [lia|]. split; auto. left. split; auto. exists j, v, l. auto.
    - unfold fix_ref. destruct (Z.leb_spec 0 i); [|lia].
      destruct (Idom i Hi Hl) as [d Hd]. exists d. unfold dict_get. rewrite Hd. split; auto. right; auto. }
  assert (Hnode : forall d nd, zget dn d = Ret nd -> exists i l r, dict_find m i = Some d /\
     0 <= i < N /\ ~ leaf i /\ zget (sk_feature t) i = Ret (d_feature nd) /\
      zget (sk_threshold t) i = Ret (d_value nd) /\
      zget (sk_left t) i = Ret l /\ zget (sk_right t) i = Ret r /\
      raw_ref ln (d_left nd) l /\ raw_ref ln (d_right nd) r).
  { intros d nd Hd. pose proof (zget_bound _ _ _ Hd) as Hb.
    destruct (Isurj d Hb) as [i Hi]. destruct (Imap i d Hi) as (H1 & H2 & nd' & H3 & H4 & H5 & l & r & H6 & H7 & H8 & H9).
    rewrite Hd in H3. inv H3. exists i, l, r. auto 10. }
  destruct (mapM_ok (fix_node m) dn) as [dn' Edn'].
  { intros nd Hin. apply In_zget in Hin as [d Hd].
    destruct (Hnode d nd Hd) as (i & l & r & Hm & Hi & Hnl & Hf & Hth & Hl & Hr & R1 & R2).
    destruct (internal_children i l r Hi Hl Hr Hnl) as (B1 & B2 & _).
    destruct (Hfix_ref _ l ltac:(lia) R1) as (c1 & E1 & _).
    destruct (Hfix_ref _ r ltac:(lia) R2) as (c2 & E2 & _).
    unfold fix_node. rewrite E1; simpl. rewrite E2; simpl. eauto. }
  pose proof (proj1 (mapM_Ret _ _ _) Edn') as HF2.
  pose proof (Forall2_zlen _ _ _ HF2) as Hlen.
  assert (Hfin : forall i d, dict_find m i = Some d ->
    0 <= i < N /\ ~ leaf i /\ exists nd l r, zget dn' d = Ret nd /\
      zget (sk_feature t) i = Ret (d_feature nd) /\ zget (sk_threshold t) i = Ret (d_value nd) /\
      zget (sk_left t) i = Ret l /\ zget (sk_right t) i = Ret r /\
      fin_ref m ln (d_left nd) l /\ fin_ref m ln (d_right nd) r).
  { intros i d Hm. destruct (Imap i d Hm) as (Hi & Hnl & nd & Hz & Hf & Hth & l & r & Hl & Hr & R1 & R2).
    split; auto. split; auto.
    destruct (internal_children i l r Hi Hl Hr Hnl) as (B1 & B2 & _).
    destruct (Hfix_ref _ l ltac:(lia) R1) as (c1 & E1 & F1).
    destruct (Hfix_ref _ r ltac:(lia) R2) as (c2 & E2 & F2).
    destruct (Forall2_zget _ _ _ _ _ HF2 Hz) as (nd' & Hz' & Efix).
    unfold fix_node in Efix. rewrite E1 in Efix; simpl in Efix. rewrite E2 in Efix; simpl in Efix. inv Efix.
    exists (mk_dnode (d_feature nd) (d_value nd) c1 c2), l, r. simpl. auto 10. }
  assert (Hsurj : forall d nd, zget dn' d = Ret nd -> exists i, dict_find m i = Some d).
  { intros d nd Hd. apply zget_bound in Hd. apply Isurj. lia. }
  assert (Hvr : forall i d l c, dict_find m i = Some d -> i < l < N -> fin_ref m ln c l ->
            valid_ref (zlen dn') (zlen ln) d c).
  { intros i d l c Hm Hlt [(Hl & j & v & x & -> & Hz & _)|(Hl & Hc)].
    - apply zget_bound in Hz. unfold valid_ref. lia.
    - unfold valid_ref. pose proof (Imono i l d c Hm Hc ltac:(lia)).
      destruct (Hfin _ _ Hc) as (_ & _ & nd & l1 & r1 & Hz & _). apply zget_bound in Hz. lia. }
  assert (Hval : valid_nodes nf (zlen ln) dn').
  { intros d nd Hd. destruct (Hsurj d nd Hd) as [i Hm].
    destruct (Hfin i d Hm) as (Hi & Hnl & nd' & l & r & Hz & Hf & Hth & Hl & Hr & R1 & R2).
    rewrite Hd in Hz. inv Hz.
    destruct (internal_children i l r Hi Hl Hr Hnl) as (B1 & B2 & f & Hf' & Bf).
    rewrite Hf in Hf'. inv Hf'. split; auto.
    split; [exact (Hvr i d l _ Hm B1 R1)|exact (Hvr i d r _ Hm B2 R2)]. }
  assert (Hroot : dict_find m 0 = Some 0).
  { destruct (Idom 0 ltac:(lia) (root_internal HN)) as [d Hd].
    destruct (Imap _ _ Hd) as (_ & _ & nd & Hz & _). apply zget_bound in Hz.
    destruct (Z.eq_dec d 0); [now subst|].
    destruct (Isurj 0 ltac:(lia)) as [i Hi].
    destruct (Imap _ _ Hi) as (Hib & _).
    destruct (Z.eq_dec i 0); [subst; congruence|].
    pose proof (Imono 0 i d 0 Hd Hi ltac:(lia)). lia. }
  assert (Href : all_referenced dn' [0] (zlen ln)).
  { split.
    - intros d Hd. destruct (Isurj d ltac:(lia)) as [i Hi].
      destruct (Z.eq_dec i 0). { subst. left. left. congruence. }
      right. destruct (Hfin _ _ Hi) as (Hib & Hnl & _).
      destruct (parent_exists i ltac:(lia)) as (p & l & r & Hp & Hpl & Hl & Hr & Hor).
      destruct (Idom p Hp Hpl) as [dp Hdp].
      destruct (Hfin p dp Hdp) as (_ & _ & nd & l' & r' & Hz & _ & _ & Hl' & Hr' & R1 & R2).
      rewrite Hl in Hl'; inv Hl'. rewrite Hr in Hr'; inv Hr'.
      exists dp, nd. split; auto.
      destruct Hor as [Hor|Hor]; subst;
        [left; destruct R1 as [[? _]|[_ R1]]|right; destruct R2 as [[? _]|[_ R2]]];
        try contradiction; congruence.
    - intros k Hk. destruct (Ileaf k Hk) as (d & nd & Hz & Hor).
      destruct (Forall2_zget _ _ _ _ _ HF2 Hz) as (nd' & Hz' & Efix).
      exists d, nd'. split; auto. unfold fix_node in Efix. invbind Efix. inv Efix. simpl.
      unfold fix_ref in *. destruct Hor as [E'|E']; rewrite E' in *.
      + destruct (Z.leb_spec 0 (- k - 1)); [lia|]. inv E. auto.
      + destruct (Z.leb_spec 0 (- k - 1)); [lia|]. inv E0. auto. }
  exists dn', ln. split.
  - unfold flatten_tree. rewrite (wf_len_value _ _ WF), Z.eqb_refl. simpl.
    rewrite (wf_outputs _ _ WF). simpl. rewrite Eloop. simpl. rewrite Edn'. simpl.
    rewrite zlen_zip. destruct (Z.eqb_spec N 1); [lia|]. fold N.
    rewrite <- Hlen, Htot, Z.eqb_refl. simpl.
    rewrite (assert_refs_ok nf); auto.
  - constructor; auto.
    + destruct (Hfin _ _ Hroot) as (_ & _ & nd & l1 & r1 & Hz & _). apply zget_bound in Hz. lia.
    + fold N. destruct (Z.eqb_spec N 1); lia.
    + intros go v Hreach.
      assert (Hgen : forall i v, sk_reaches t go i v -> forall c, fin_ref m ln c i ->
                exists l, mk_leaf v = Ret l /\ flat_reaches dn' ln go c l).
      { clear v Hreach. induction 1 as [i v H1 H2 H3|i l r f th v H1 H2 H3 H4 H5 H6 IH]; intros c Hc.
        - destruct Hc as [(Hl & j & v' & x & -> & Hz & Hv & Hx)|(Hnl & _)].
          + rewrite H3 in Hv. inv Hv. exists x; split; auto. exists j; split; auto.
            pose proof (zget_bound _ _ _ Hz).
            replace j with (- (- j - 1) - 1) at 2 by lia. apply flat_leaf_leaf. lia.
          + exfalso; apply Hnl; split; auto.
        - destruct Hc as [([E1 E2] & _)|(Hnl & Hm)].
          + exfalso. apply H3. rewrite E1 in H1; rewrite E2 in H2. inv H1. inv H2. auto.
          + destruct (Hfin _ _ Hm) as (Hi & _ & nd & l' & r' & Hz & Hf & Hth & Hl & Hr & R1 & R2).
            rewrite H1 in Hl; inv Hl. rewrite H2 in Hr; inv Hr.
            rewrite H4 in Hf; inv Hf. rewrite H5 in Hth; inv Hth.
            destruct (go (d_feature nd) (d_value nd)) eqn:Eg.
            * destruct (IH _ R1) as (x & Hx & k & Hk & Hkz). exists x; split; auto. exists k; split; auto.
              eapply flat_leaf_node; eauto. now rewrite Eg.
            * destruct (IH _ R2) as (x & Hx & k & Hk & Hkz). exists x; split; auto. exists k; split; auto.
              eapply flat_leaf_node; eauto. now rewrite Eg. }
      apply (Hgen 0 v Hreach). right. split; auto. now apply root_internal.
    + intros go n He.
      assert (Hgen : forall i n, evaluates t go i n -> forall c, fin_ref m ln c i -> flat_evaluates dn' go c n).
      { clear n He. induction 1 as [i H1 H2|i l r f th n H1 H2 H3 H4 H5 H6 IH]; intros c Hc.
        - destruct Hc as [(Hl & j & v' & x & -> & Hz & Hv & Hx)|(Hnl & _)].
          + pose proof (zget_bound _ _ _ Hz). apply flat_evaluates_leaf. lia.
          + exfalso; apply Hnl; split; auto.
        - destruct Hc as [([E1 E2] & _)|(Hnl & Hm)].
          + exfalso. apply H3. rewrite E1 in H1; rewrite E2 in H2. inv H1. inv H2. auto.
          + destruct (Hfin _ _ Hm) as (Hi & _ & nd & l' & r' & Hz & Hf & Hth & Hl & Hr & R1 & R2).
            rewrite H1 in Hl; inv Hl. rewrite H2 in Hr; inv Hr.
            rewrite H4 in Hf; inv Hf. rewrite H5 in Hth; inv Hth.
            eapply flat_evaluates_node; [exact Hz|].
            destruct (go (d_feature nd) (d_value nd)); [exact (IH _ R1)|exact (IH _ R2)]. }
      assert (Hpos : forall i n, evaluates t go i n -> 0 <= n) by (clear; induction 1; lia).
      assert (n <> 0).
      { intros ->. inv He.
        - apply (root_internal HN). split; auto.
        - match goal with H : evaluates _ _ _ ?k, Q : ?k + 1 = 0 |- _ => apply Hpos in H; lia end. }
      pose proof (Hpos _ _ He). rewrite Z.max_r by lia.
      apply (Hgen 0 n He). right. split; auto. now apply root_internal.
Qed.

Theorem flatten_tree_ok :
  exists dn ln, flatten_tree t_zero mk_leaf t = Ret (dn, ln) /\ flat_ok dn ln.
Proof.
  destruct (Z.eq_dec N 1); [now apply flatten_tree_single|now apply flatten_tree_many].
Qed.

(** sklearn's walk always ends, in exactly one leaf. *)
Lemma sk_reaches_total go : exists v, sk_reaches t go 0 v.
Proof.
  assert (HN1 : 1 <= N) by exact (wf_count _ _ WF).
  assert (H : forall k i, N - i <= k -> 0 <= i < N -> exists v, sk_reaches t go i v).
  { intros k. destruct (Z_lt_ge_dec k 0). { intros; lia. }
    assert (Hk : 0 <= k) by lia. revert k Hk g.
    refine (natlike_ind _ _ _).
    - intros; lia.
    - intros k Hk IH _ i Hki Hi. specialize (IH ltac:(lia)).
      destruct (left_ok i Hi) as [l Hl]. destruct (right_ok i Hi) as [r Hr].
      destruct (feature_ok i Hi) as [f Hf]. destruct (threshold_ok i Hi) as [th Hth].
      destruct (value_ok i Hi) as (v & x & Hv & _).
      destruct (leaf_dec i) as [[H1 H2]|Hnl].
      + exists v. apply sk_reaches_leaf; auto.
      + destruct (internal_children i l r Hi Hl Hr Hnl) as (B1 & B2 & _).
        destruct (IH (if go f th then l else r)) as [v' Hv']; try (destruct (go f th); lia).
        exists v'. eapply sk_reaches_node; eauto. intros [-> ->]. apply Hnl; split; auto. }
  apply (H N); lia.
Qed.

Lemma sk_reaches_det go i v1 v2 : sk_reaches t go i v1 -> sk_reaches t go i v2 -> v1 = v2.
Proof.
  intros H; revert v2.
  induction H as [i v A1 A2 A3|i l r f th v A1 A2 A3 A4 A5 A6 IH]; intros v2 H'; inv H';
    repeat match goal with
    | E1 : zget ?x ?j = Ret _, E2 : zget ?x ?j = Ret _ |- _ =>
        rewrite E1 in E2; injection E2 as E2; subst
    end; try (exfalso; auto; fail); auto.
Qed.

End Flatten.

Lemma flat_leaf_det {T} (nodes : list (dnode T)) go c k1 k2 :
  flat_leaf nodes go c k1 -> flat_leaf nodes go c k2 -> k1 = k2.
Proof.
  intros H; revert k2. induction H; intros k2 H'; inv H'.
  - auto.
  - apply zget_bound in H0. lia.
  - apply zget_bound in H. lia.
  - rewrite H in H1. inv H1. auto.
Qed.

Lemma flat_reaches_det {T L} (nodes : list (dnode T)) (leaves : list L) go c l1 l2 :
  flat_reaches nodes leaves go c l1 -> flat_reaches nodes leaves go c l2 -> l1 = l2.
Proof.
  intros (k1 & H1 & E1) (k2 & H2 & E2). rewrite (flat_leaf_det _ _ _ _ _ H1 H2) in E1. congruence.
Qed.
