(** Proofs about the API of neural networks: predictions, argmax, activations, Keras. *)
From Coq Require Import ZArith List Bool Lia String Reals Lra.
From Flocq Require Import Core BinarySingleNaN.
From Verif.Base Require Import Res CInt ListX Loops Float Arith Kernels.
From Verif.Model Require Import Common Net.
From Verif.Spec Require Import NetSpec.
From Verif.Proof Require Import Net.
Import ListNotations.
Open Scope Z_scope.
Open Scope res_scope.

Section Api.
Context (A : arith).
Notation num := (num A).
Notation nth0 := (znth (nzero A)).

Lemma outputs_ok m n : net_ok A m n -> 1 <= n_layers A m ->
  eml_net_outputs A m = Ret (n_outputs_of A (n_layers_arr A m) n) /\ 1 <= n_outputs_of A (n_layers_arr A m) n <= activations_length A m.
Proof.
  intros (N & OK & CH & FIT & L1 & L2) H. unfold eml_net_outputs. set (ls := n_layers_arr A m) in *.
  destruct (zget_ok ls (n_layers A m - 1) ltac:(lia)) as [l El]. rewrite El. cbn [bind].
  assert (LS : ls = firstn (Z.to_nat (n_layers A m - 1)) ls ++ [l]).
  { rewrite <- (firstn_snoc_z ls _ l El). symmetry. apply firstn_all2. unfold zlen in N. lia. }
  assert (Q : n_outputs_of A ls n = l_n_outputs A l).
  { rewrite LS. unfold n_outputs_of. rewrite fold_left_app. reflexivity. }
  rewrite Q. split; [reflexivity|]. rewrite Forall_forall in OK, FIT.
  specialize (OK l (zget_In _ _ _ El)). specialize (FIT l (zget_In _ _ _ El)). destruct OK as (? & ? & _). lia.
Qed.
Lemma same_net_ok m m' n : same_net A m m' -> net_ok A m n -> net_ok A m' n.
Proof.
  intros (S1 & S2 & S3 & S4 & S5) (N & OK & CH & FIT & L1 & L2). unfold net_ok. rewrite S1, S2, S3, S4, S5. tauto.
Qed.
Lemma same_net_trans m m' m'' : same_net A m m' -> same_net A m' m'' -> same_net A m m''.
Proof. unfold same_net. intuition congruence. Qed.

(** What inference leaves behind. *)
Lemma infer_full m x : net_ok A m (zlen x) -> 2 <= n_layers A m ->
  exists m' rest, eml_net_infer A m x (zlen x) = Ret (EmlOk, m') /\ same_net A m m' /\
    let y := net_fun A (n_layers_arr A m) x in
    activations2 A m' = y ++ rest /\ eml_net_outputs A m = Ret (zlen y) /\ eml_net_outputs A m' = Ret (zlen y) /\ 1 <= zlen y.
Proof.
  intros OK H. destruct (infer_ok A m x OK H) as (m' & rest & E & S & R). exists m', rest. split; [exact E|]. split; [exact S|].
  cbv zeta. rewrite zlen_net_fun by apply OK.
  destruct (outputs_ok m (zlen x) OK ltac:(lia)) as [O1 O2].
  destruct (outputs_ok m' (zlen x) (same_net_ok _ _ _ S OK)) as [O3 O4]. { destruct S as (-> & _). lia. }
  destruct S as (_ & S2 & _). rewrite S2 in O3. split; [exact R|]. split; [exact O1|]. split; [exact O3|]. lia.
Qed.

Lemma argmax_prefix (y rest : list num) n : n = zlen y -> eml_net_argmax A (y ++ rest) n = eml_net_argmax A y n.
Proof.
  intros ->. unfold eml_net_argmax. f_equal. apply foldM_ext. intros [v a] i Hi. apply zrange_In in Hi.
  rewrite zget_app_l by lia. reflexivity.
Qed.
Lemma predict_class_prefix (y rest : list num) n : 1 <= n -> n = zlen y -> predict_class A (y ++ rest) n = predict_class A y n.
Proof.
  intros H1 H. unfold predict_class. rewrite zget_app_l by lia. destruct (n =? 1); [reflexivity|].
  destruct (1 <? n); [|reflexivity]. now apply argmax_prefix.
Qed.

Theorem predict_ok m x : net_ok A m (zlen x) -> 2 <= n_layers A m ->
  let y := net_fun A (n_layers_arr A m) x in
  exists m', same_net A m m' /\
    eml_net_predict A m x (zlen x) = (let* c := predict_class A y (zlen y) in Ret (c, m')).
Proof.
  intros OK H y. destruct (infer_full m x OK H) as (m' & rest & E & S & R & O1 & O2 & Y). fold y in R, O1, O2, Y.
  exists m'. split; [exact S|]. unfold eml_net_predict. rewrite E. cbn [bind]. rewrite O2. cbn [bind].
  rewrite R, predict_class_prefix by auto. reflexivity.
Qed.
Theorem regress_ok m x out : net_ok A m (zlen x) -> 2 <= n_layers A m ->
  let y := net_fun A (n_layers_arr A m) x in
  zlen out = zlen y ->
  exists m', same_net A m m' /\ eml_net_regress A m x (zlen x) out (zlen out) = Ret (EmlOk, m', y).
Proof.
  intros OK H y HO. destruct (infer_full m x OK H) as (m' & rest & E & S & R & O1 & O2 & Y). fold y in R, O1, O2, Y.
  exists m'. split; [exact S|]. unfold eml_net_regress. rewrite O1. cbn [bind].
  destruct (Z.eqb_spec (zlen out) (zlen y)); [|lia]. cbn [negb]. rewrite E. cbn [bind].
  unfold copy_buf. rewrite R, copy_app by (rewrite ?zlen_app; pose proof (zlen_nonneg rest); lia). cbn [bind].
  do 3 f_equal. unfold zlen in *. rewrite firstn_app. rewrite firstn_all2 by lia.
  replace (Z.to_nat (Z.of_nat (List.length y)) - List.length y)%nat with 0%nat by lia. simpl. rewrite skipn_all2 by lia.
  now rewrite !app_nil_r.
Qed.
Theorem regress1_ok junk m x : net_ok A m (zlen x) -> 2 <= n_layers A m ->
  let y := net_fun A (n_layers_arr A m) x in
  exists m', same_net A m m' /\
    eml_net_regress1 A junk m x (zlen x) = Ret (if zlen y =? 1 then nth0 y 0 else nnan A, m').
Proof.
  intros OK H y. unfold eml_net_regress1.
  destruct (Z.eqb_spec (zlen y) 1) as [E|N].
  - destruct (regress_ok m x [junk] OK H) as (m' & S & R). { fold y. rewrite E. reflexivity. }
    exists m'. split; [exact S|]. change (zlen [junk]) with 1 in R. rewrite R. cbn [bind]. fold y.
    rewrite (zget_znth (nzero A)) by lia. reflexivity.
  - destruct (infer_full m x OK H) as (m' & rest & E & S & R & O1 & O2 & Y). fold y in R, O1, O2, Y.
    exists m. split; [unfold same_net; auto 10|]. unfold eml_net_regress. rewrite O1. cbn [bind].
    destruct (Z.eqb_spec 1 (zlen y)); [lia|]. reflexivity.
Qed.

(** predict_proba; [status] is the outcome of the final check. *)
Definition proba_status (s : num) : eml_error :=
  if nltb A (nabs A (nsub A s (none_ A))) (nmilli A) then EmlOk else EmlPostconditionFailed.
Theorem proba_ok m x out : net_ok A m (zlen x) -> 2 <= n_layers A m ->
  let y := net_fun A (n_layers_arr A m) x in
  zlen out = (if zlen y =? 1 then 2 else zlen y) ->
  exists m', same_net A m m' /\
    eml_net_predict_proba A m x (zlen x) out (zlen out) =
      if zlen y <=? 2
      then Ret (proba_status (nadd A (nsub A (none_ A) (nth0 y 0)) (nth0 y 0)), m', [nsub A (none_ A) (nth0 y 0); nth0 y 0])
      else Ret (proba_status (fold_left (nadd A) y (nzero A)), m', y).
Proof.
  intros OK H y HO. destruct (infer_full m x OK H) as (m' & rest & E & S & R & O1 & O2 & Y). fold y in R, O1, O2, Y.
  exists m'. split; [exact S|]. unfold eml_net_predict_proba, eml_net_outputs_proba. rewrite O1. cbn [bind].
  rewrite <- HO, Z.eqb_refl. cbn [negb]. rewrite E. cbn [bind].
  destruct (Z.leb_spec (zlen y) 2) as [L|L].
  - assert (Z2 : zlen out = 2) by (destruct (Z.eqb_spec (zlen y) 1); lia). rewrite Z2. cbn [Z.eqb Pos.eqb].
    rewrite R, zget_app_l, (zget_znth (nzero A)) by lia. cbn [bind].
    destruct out as [|o0 [|o1 [|]]]; try (unfold zlen in Z2; simpl in Z2; lia).
    unfold zset, zget; simpl; unfold proba_status; match goal with |- context [if ?c then _ else _] => destruct c end; reflexivity.
  - assert (Z2 : zlen out = zlen y) by (destruct (Z.eqb_spec (zlen y) 1); lia).
    destruct (Z.eqb_spec (zlen out) 2); [lia|]. rewrite Z2.
    destruct (foldM_range_inv (fun '(out, s) i =>
             let* p := zget (activations2 A m') i in
             let* out := zset out i p in
             Ret (out, nadd A s p))
        (fun k '(o, s) => o = firstn (Z.to_nat k) y ++ skipn (Z.to_nat k) out /\ s = fold_left (nadd A) (firstn (Z.to_nat k) y) (nzero A))
        (zlen y) (out, nzero A)) as ([o s] & E2 & -> & ->).
    + lia.
    + split; reflexivity.
    + intros k [o s] Hk (-> & ->). rewrite R, zget_app_l by lia.
      destruct (zget_ok y k Hk) as [v Ev]. rewrite Ev. cbn [bind].
      destruct (zget_ok out k ltac:(lia)) as [w Ew].
      rewrite zset_ok.
      2:{ rewrite zlen_app, zlen_firstn, zlen_skipn by lia. lia. }
      cbn [bind]. eexists. split; [reflexivity|]. rewrite (firstn_snoc_z y k v Ev), fold_left_app. split; [|reflexivity].
      apply zget_eq.
      * rewrite zlen_list_set, !zlen_app, !zlen_firstn, !zlen_skipn by lia. change (zlen [v]) with 1. lia.
      * intros i Hi. rewrite zlen_list_set, zlen_app, zlen_firstn, zlen_skipn in Hi by lia.
        assert (ZF : zlen (firstn (Z.to_nat k) y) = k) by (rewrite zlen_firstn by lia; lia).
        rewrite zget_list_set by (rewrite zlen_app, ZF, zlen_skipn by lia; lia).
        destruct (Z.eqb_spec k i) as [Q|Q].
        -- subst i. rewrite <- app_assoc, zget_app_r, ZF, Z.sub_diag by lia. reflexivity.
        -- destruct (Z.lt_ge_cases i k).
           ++ rewrite zget_app_l by lia. rewrite <- app_assoc, zget_app_l by lia. reflexivity.
           ++ rewrite zget_app_r by lia. rewrite <- app_assoc, zget_app_r by lia. rewrite !ZF.
              rewrite zget_skipn by lia. rewrite (zget_app_r [v]) by (unfold zlen; simpl; lia).
              rewrite zget_skipn by (unfold zlen; simpl; lia). f_equal. unfold zlen; simpl; lia.
    + rewrite E2. cbn [bind]. unfold zlen in *. rewrite Nat2Z.id, firstn_all. rewrite skipn_all2 by lia. rewrite app_nil_r.
      unfold proba_status. match goal with |- context [if ?c then _ else _] => destruct c end; reflexivity.
Qed.

(** ** argmax *)
(** [good] elements are those above -infinity; the rest is skipped. *)
Lemma argmax_ok (values : list num) (good : num -> Prop) :
  (forall v, In v values -> good v \/ ~ good v) ->
  (forall v, In v values -> good v -> nltb A (nneginf A) v = true) ->
  (forall v, In v values -> ~ good v -> nltb A (nneginf A) v = false) ->
  (forall m v, In m values -> In v values -> good m -> ~ good v -> nltb A m v = false) ->
  (forall a b c, In a values -> In b values -> In c values -> good a -> good b -> good c ->
      nltb A a b = false -> nltb A b c = false -> nltb A a c = false) ->
  (forall a b, In a values -> In b values -> good a -> good b -> nltb A a b = true -> nltb A b a = false) ->
  exists r, eml_net_argmax A values (zlen values) = Ret r /\
    ((r = -1 /\ forall v, In v values -> ~ good v) \/
     (exists v, zget values r = Ret v /\ good v /\
        (forall i w, zget values i = Ret w -> good w -> nltb A v w = false) /\
        (forall i w, 0 <= i < r -> zget values i = Ret w -> good w -> nltb A w v = true))).
Proof.
  intros Dec G1 G2 G3 TR AS. unfold eml_net_argmax.
  destruct (foldM_range_inv (fun '(vmax, argmax) i =>
      let* v := zget values i in
      if nltb A vmax v then Ret (v, i) else Ret (vmax, argmax))
    (fun k '(vmax, r) =>
      (r = -1 /\ vmax = nneginf A /\ forall i v, 0 <= i < k -> zget values i = Ret v -> ~ good v) \/
      (0 <= r < k /\ zget values r = Ret vmax /\ good vmax /\
        (forall i w, 0 <= i < k -> zget values i = Ret w -> good w -> nltb A vmax w = false) /\
        (forall i w, 0 <= i < r -> zget values i = Ret w -> good w -> nltb A w vmax = true)))
    (zlen values) (nneginf A, -1)) as ([vm r] & E & H).
  - apply zlen_nonneg.
  - left. split; [auto|]. split; [auto|]. intros; lia.
  - intros k [vm r] Hk H. destruct (zget_ok values k Hk) as [v Ev]. rewrite Ev. cbn [bind].
    pose proof (zget_In _ _ _ Ev) as Iv.
    destruct H as [(-> & -> & H)|(Hr & Er & Gm & H1 & H2)].
    + destruct (Dec v Iv) as [Gv|Gv].
      * rewrite G1 by auto. eexists. split; [reflexivity|]. right. split; [lia|]. split; [auto|]. split; [auto|].
        split.
        -- intros i w Hi Ew Gw. destruct (Z.eq_dec i k) as [->|Nk].
           ++ assert (w = v) by congruence. subst w. destruct (nltb A v v) eqn:Q; [|reflexivity]. pose proof (AS v v Iv Iv Gv Gv Q). congruence.
           ++ exfalso. apply (H i w); auto. lia.
        -- intros i w Hi Ew Gw. exfalso. apply (H i w); auto.
      * rewrite G2 by auto. eexists. split; [reflexivity|]. left. split; [auto|]. split; [auto|].
        intros i w Hi Ew. destruct (Z.eq_dec i k) as [->|Nk]; [congruence|]. apply (H i w); auto. lia.
    + pose proof (zget_In _ _ _ Er) as Im. destruct (nltb A vm v) eqn:Q.
      * destruct (Dec v Iv) as [Gv|Gv]; [|rewrite G3 in Q by auto; discriminate].
        eexists. split; [reflexivity|]. right. split; [lia|]. split; [auto|]. split; [auto|]. split.
        -- intros i w Hi Ew Gw. pose proof (zget_In _ _ _ Ew) as Iw. destruct (Z.eq_dec i k) as [->|Nk].
           ++ assert (w = v) by congruence. subst w. destruct (nltb A v v) eqn:Q'; [|reflexivity]. pose proof (AS v v Iv Iv Gv Gv Q'). congruence.
           ++ apply (TR v vm w); auto. apply (H1 i w); auto. lia.
        -- intros i w Hi Ew Gw. pose proof (zget_In _ _ _ Ew) as Iw.
           destruct (nltb A w v) eqn:Q'; [reflexivity|]. exfalso.
           assert (nltb A vm v = false) by (apply (TR vm w v); auto; apply (H1 i w); auto). congruence.
      * eexists. split; [reflexivity|]. right. split; [lia|]. split; [auto|]. split; [auto|]. split; [|exact H2].
        intros i w Hi Ew Gw. destruct (Z.eq_dec i k) as [->|Nk]; [congruence|]. apply (H1 i w); auto. lia.
  - rewrite E. cbn [bind]. exists r. split; [reflexivity|].
    destruct H as [(-> & _ & H)|(Hr & Er & Gm & H1 & H2)].
    + left. split; [auto|]. intros v Iv. apply In_zget in Iv as [i Ei]. apply (H i v); auto. apply (zget_bound _ _ _ Ei).
    + right. exists vm. split; [auto|]. split; [auto|]. split; [|exact H2]. intros i w Ew. apply (H1 i w); auto. apply (zget_bound _ _ _ Ew).
Qed.

Lemma py_argmax_ok (s : list num) : s <> [] ->
  (forall a b c, In a s -> In b s -> In c s -> nltb A a b = false -> nltb A b c = false -> nltb A a c = false) ->
  (forall a b, In a s -> In b s -> nltb A a b = true -> nltb A b a = false) ->
  exists r, py_argmax A s = Ret r /\ first_max (nltb A) s r.
Proof.
  intros NE TR AS. unfold py_argmax. destruct s as [|v0 s'] eqn:Es; [congruence|]. rewrite <- Es in *.
  assert (P0 : pyget s 0 = Ret v0) by (rewrite Es; reflexivity). rewrite P0. cbn [bind]. eexists. split; [reflexivity|].
  set (step := fun '(mi, mv) '(i, value) => if nltb A mv value then (i, value) else (mi, mv)).
  assert (IRR : forall a, In a s -> nltb A a a = false).
  { intros a Ia. destruct (nltb A a a) eqn:Q; [|reflexivity]. pose proof (AS a a Ia Ia Q). congruence. }
  assert (G : forall todo done_ mi mv, s = done_ ++ todo -> zget s mi = Ret mv -> mi <= zlen done_ ->
     (forall i w, 0 <= i < zlen done_ -> zget s i = Ret w -> nltb A mv w = false) ->
     (forall i w, 0 <= i < mi -> zget s i = Ret w -> nltb A w mv = true) ->
     first_max (nltb A) s (fst (fold_left step (combine (map Z.of_nat (seq (List.length done_) (List.length todo))) todo) (mi, mv)))).
  { induction todo as [|v todo IH]; intros dn mi mv Es' Em Lm H1 H2.
    - simpl. exists mv. rewrite app_nil_r in Es'. split; [exact Em|]. split; [|exact H2].
      intros i w Ew. apply (H1 i w); auto. pose proof (zget_bound _ _ _ Ew). rewrite <- Es'. lia.
    - assert (Ev : zget s (zlen dn) = Ret v).
      { rewrite Es'. rewrite zget_app_r, Z.sub_diag by lia. reflexivity. }
      pose proof (zget_In _ _ _ Ev) as Iv. pose proof (zget_In _ _ _ Em) as Im.
      simpl. specialize (IH (dn ++ [v])). rewrite app_length in IH. simpl in IH. rewrite Nat.add_1_r in IH.
      assert (ZS : zlen (dn ++ [v]) = zlen dn + 1) by (rewrite zlen_app; reflexivity).
      destruct (nltb A mv v) eqn:Q.
      + apply IH; auto.
        * rewrite <- app_assoc. exact Es'.
        * rewrite ZS. unfold zlen. lia.
        * intros i w Hi Ew. pose proof (zget_In _ _ _ Ew) as Iw. rewrite ZS in Hi.
          destruct (Z.eq_dec i (zlen dn)) as [->|Nk]; [assert (w = v) by congruence; subst; auto|].
          apply (TR v mv w); auto. apply (H1 i w); auto. lia.
        * intros i w Hi Ew. pose proof (zget_In _ _ _ Ew) as Iw.
          destruct (nltb A w v) eqn:Q'; [reflexivity|]. exfalso.
          assert (nltb A mv v = false) by (apply (TR mv w v); auto; apply (H1 i w); auto). congruence.
      + apply IH; auto.
        * rewrite <- app_assoc. exact Es'.
        * lia.
        * intros i w Hi Ew. rewrite ZS in Hi.
          destruct (Z.eq_dec i (zlen dn)) as [->|Nk]; [assert (w = v) by congruence; subst; auto|].
          apply (H1 i w); auto. lia. }
  assert (Zs : zrange (zlen s) = map Z.of_nat (seq 0 (List.length s))) by (unfold zrange, zlen; now rewrite Nat2Z.id).
  rewrite Zs. apply (G s [] 0 v0); auto.
  - rewrite Es. reflexivity.
  - unfold zlen; simpl; lia.
  - intros; unfold zlen in *; simpl in *; lia.
  - intros; lia.
Qed.
End Api.

(** ** The fixed-point argmax *)
Theorem argmax_fixed32_ok (values : list Z) : values <> [] ->
  exists r, eml_argmax_fixed32 values (zlen values) = Ret r /\
    ((r = -1 /\ forall v0, zget values 0 = Ret v0 -> forall i w, zget values i = Ret w -> w <= v0) \/
     (0 < r /\ first_max Z.ltb values r)).
Proof.
  intros NE. unfold eml_argmax_fixed32.
  assert (LP : 0 < zlen values) by (destruct values; [congruence|]; unfold zlen; simpl; lia).
  destruct (Z.leb_spec (zlen values) 0); [lia|].
  destruct (zget_ok values 0 ltac:(lia)) as [v0 E0]. rewrite E0. cbn [bind].
  destruct (foldM_range_inv (fun '(vmax, argmax) i =>
        let* v := zget values i in
        if vmax <? v then Ret (v, i) else Ret (vmax, argmax))
    (fun k '(vm, r) => (forall i w, 0 <= i < k -> zget values i = Ret w -> w <= vm) /\
       ((r = -1 /\ vm = v0) \/ (0 < r < k /\ zget values r = Ret vm /\ v0 < vm /\ forall i w, 0 <= i < r -> zget values i = Ret w -> w < vm)))
    (zlen values) (v0, -1)) as ([vm r] & E & H1 & H2).
  - lia.
  - split; [intros; lia|auto].
  - intros k [vm r] Hk (H1 & H2). destruct (zget_ok values k Hk) as [v Ev]. rewrite Ev. cbn [bind].
    destruct (Z.ltb_spec vm v).
    + eexists. split; [reflexivity|]. split.
      * intros i w Hi Ew. destruct (Z.eq_dec i k) as [->|Nk]; [assert (w = v) by congruence; lia|]. specialize (H1 i w ltac:(lia) Ew). lia.
      * right. assert (V0 : v0 <= vm) by (destruct H2 as [[_ ->]|(_ & _ & ? & _)]; lia).
        assert (k <> 0) by (intros ->; assert (v = v0) by congruence; lia).
        split; [lia|]. split; [auto|]. split; [lia|]. intros i w Hi Ew. specialize (H1 i w ltac:(lia) Ew). lia.
    + eexists. split; [reflexivity|]. split.
      * intros i w Hi Ew. destruct (Z.eq_dec i k) as [->|Nk]; [assert (w = v) by congruence; lia|]. apply (H1 i w); auto. lia.
      * destruct H2 as [H2|(R1 & R2)]; [auto|]. right. split; [lia|auto].
  - rewrite E. cbn [bind]. exists r. split; [reflexivity|]. destruct H2 as [[-> ->]|(R1 & R2 & R3 & R4)].
    + left. split; [auto|]. intros v1 E1 i w Ew. assert (v1 = v0) by congruence. subst. apply (H1 i w); auto. apply (zget_bound _ _ _ Ew).
    + right. split; [lia|]. exists vm. split; [auto|]. split.
      * intros i w Ew. apply Z.ltb_ge. apply (H1 i w); auto. apply (zget_bound _ _ _ Ew).
      * intros i w Hi Ew. apply Z.ltb_lt. apply (R4 i w); auto.
Qed.
