(** Proofs about neural networks. *)
From Coq Require Import ZArith List Bool Lia String.
From Verif.Base Require Import Res CInt ListX Loops Arith Kernels.
From Verif.Model Require Import Common Net.
From Verif.Spec Require Import NetSpec.
Import ListNotations.
Open Scope Z_scope.
Open Scope res_scope.

Section Net.
Context (A : arith).
Notation num := (num A).
Notation nth0 := (znth (nzero A)).

Lemma softmax_ok (l rest : list num) n : n = zlen l ->
  eml_net_softmax A (l ++ rest) n = Ret (softmax A l ++ rest).
Proof.
  intros ->. unfold eml_net_softmax, softmax, vmax.
  rewrite (fold_prefix (fun m x => if nltb A m x then x else m) l rest) by reflexivity. cbn [bind].
  set (m := fold_left _ l (nneginf A)).
  rewrite (fold_prefix (fun s x => nadd A s (nexp A (nsub A x m))) l rest) by reflexivity. cbn [bind].
  apply update_app. reflexivity.
Qed.
Lemma zlen_softmax l : zlen (softmax A l) = zlen l.
Proof. unfold softmax. apply zlen_map. Qed.
Lemma zlen_activate a l : zlen (activate A a l) = zlen l.
Proof. destruct a; simpl; rewrite ?zlen_map, ?zlen_softmax; reflexivity. Qed.
Lemma zlen_linear l x : 0 <= l_n_outputs A l -> zlen (linear A l x) = l_n_outputs A l.
Proof. intros. unfold linear. rewrite zlen_map, zlen_zrange'. lia. Qed.
Lemma zlen_layer_fun l x : 0 <= l_n_outputs A l -> zlen (layer_fun A l x) = l_n_outputs A l.
Proof. intros. unfold layer_fun. rewrite zlen_activate. now apply zlen_linear. Qed.

Lemma linear_app l x rest : zlen x = l_n_inputs A l -> linear A l (x ++ rest) = linear A l x.
Proof.
  intros H. unfold linear. apply map_ext. intros o. f_equal. apply fold_left_ext. intros s i Hi.
  apply zrange_In in Hi. rewrite znth_app_l by lia. reflexivity.
Qed.
Lemma layer_fun_app l x rest : zlen x = l_n_inputs A l -> layer_fun A l (x ++ rest) = layer_fun A l x.
Proof. intros H. unfold layer_fun. now rewrite linear_app. Qed.

(** One layer writes its outputs at the start of the output buffer. *)
Lemma forward_ok l inp out : layer_ok A l -> l_n_inputs A l <= zlen inp -> l_n_outputs A l <= zlen out ->
  eml_net_forward A inp (l_n_inputs A l) (l_weights A l) (l_biases A l) (l_activation A l) out (l_n_outputs A l) =
  Ret (EmlOk, layer_fun A l inp ++ skipn (Z.to_nat (l_n_outputs A l)) out).
Proof.
  intros (N1 & N2 & W1 & W2 & B & Act) Hi Ho. unfold eml_net_forward.
  set (ni := l_n_inputs A l) in *. set (no := l_n_outputs A l) in *.
  rewrite (fill_app_ext _ (fun o => nadd A
        (fold_left (fun s i => nadd A s (nmul A (nth0 (l_weights A l) (o + i * no)) (nth0 inp i))) (zrange ni) (nzero A))
        (nth0 (l_biases A l) o)) out no ltac:(lia)).
  2:{ intros o k Hk.
      rewrite (foldM_pure_ext _ (fun s i => nadd A s (nmul A (nth0 (l_weights A l) (k + i * no)) (nth0 inp i)))).
      - cbn [bind]. rewrite (zget_znth (nzero A)) by lia. reflexivity.
      - intros s i Hin. apply zrange_In in Hin. change (2 ^ 31) with 2147483648 in W2.
        assert (i * no <= (ni - 1) * no) by (apply Z.mul_le_mono_nonneg_r; lia).
        assert (0 <= i * no) by (apply Z.mul_nonneg_nonneg; lia).
        rewrite chk_int32_ok by (unfold int32_ok; lia). cbn [bind].
        rewrite chk_int32_ok by (unfold int32_ok; lia). cbn [bind].
        rewrite !(zget_znth (nzero A)) by lia. reflexivity. }
  cbn [bind]. unfold layer_fun. fold (linear A l inp).
  change (map _ (zrange no)) with (linear A l inp).
  assert (L : no = zlen (linear A l inp)) by (rewrite zlen_linear; unfold no; lia).
  destruct (l_activation A l) eqn:EA; cbn [activate].
  - reflexivity.
  - unfold map_first, eml_net_relu. rewrite (update_app _ _ _ no L). reflexivity.
  - unfold map_first, eml_net_expit. rewrite (update_app _ _ _ no L). reflexivity.
  - rewrite (softmax_ok _ _ no L). reflexivity.
  - unfold map_first, eml_net_tanh. rewrite (update_app _ _ _ no L). reflexivity.
  - exfalso. eapply Act. reflexivity.
Qed.

Lemma layer_forward_ok l x rest il out : layer_ok A l -> zlen x = l_n_inputs A l -> l_n_inputs A l <= il ->
  l_n_outputs A l <= zlen out ->
  eml_net_layer_forward A l (x ++ rest) il out (zlen out) =
  Ret (EmlOk, layer_fun A l x ++ skipn (Z.to_nat (l_n_outputs A l)) out).
Proof.
  intros OK Hx Hil Ho. unfold eml_net_layer_forward.
  destruct (Z.leb_spec (l_n_inputs A l) il); [|lia]. destruct (Z.leb_spec (l_n_outputs A l) (zlen out)); [|lia].
  cbn [negb]. rewrite forward_ok; auto.
  - rewrite layer_fun_app by auto. reflexivity.
  - rewrite zlen_app. pose proof (zlen_nonneg rest). lia.
Qed.

(** ** Chains *)
Lemma net_fun_snoc ls l x : net_fun A (ls ++ [l]) x = layer_fun A l (net_fun A ls x).
Proof. unfold net_fun. rewrite fold_left_app. reflexivity. Qed.
Lemma chain_app n l1 l2 : chain A n (l1 ++ l2) -> chain A n l1 /\ chain A (n_outputs_of A l1 n) l2.
Proof.
  revert n; induction l1 as [|l l1 IH]; intros n H; simpl in *; auto.
  destruct H as [H1 H2]. apply IH in H2. unfold n_outputs_of in *. simpl. tauto.
Qed.
Lemma zlen_net_fun ls x : Forall (layer_ok A) ls -> zlen (net_fun A ls x) = n_outputs_of A ls (zlen x).
Proof.
  revert x; induction ls as [|l ls IH]; intros x H; simpl; auto. inversion H; subst.
  unfold net_fun, n_outputs_of in *. simpl. rewrite IH by auto. rewrite zlen_layer_fun; [reflexivity|].
  match goal with K : layer_ok A l |- _ => destruct K as (K1 & K2 & _) end. lia.
Qed.

Lemma largest_ok m bl : n_layers A m = zlen (n_layers_arr A m) -> -1 <= bl ->
  Forall (fun l => l_n_inputs A l <= bl /\ l_n_outputs A l <= bl) (n_layers_arr A m) ->
  exists v, eml_net_find_largest_layer A m = Ret v /\ v <= bl.
Proof.
  intros N B F. unfold eml_net_find_largest_layer. rewrite N.
  destruct (foldM_range_inv (fun largest i =>
      let* l := zget (n_layers_arr A m) i in
      let largest := if largest <? l_n_inputs A l then l_n_inputs A l else largest in
      Ret (if largest <? l_n_outputs A l then l_n_outputs A l else largest)) (fun _ v => v <= bl) (zlen (n_layers_arr A m)) (-1)) as (v & E & H).
  - apply zlen_nonneg.
  - auto.
  - intros i v Hi Hv. destruct (zget_ok (n_layers_arr A m) i Hi) as [l El]. rewrite El. cbn [bind]. cbv zeta. eexists. split; [reflexivity|].
    rewrite Forall_forall in F. specialize (F l (zget_In _ _ _ El)).
    destruct (v <? l_n_inputs A l); match goal with |- context [if ?c then _ else _] => destruct c end; lia.
  - exists v. auto.
Qed.

Lemma firstn_snoc_z {B} (l : list B) k a : zget l k = Ret a ->
  firstn (Z.to_nat (k + 1)) l = firstn (Z.to_nat k) l ++ [a].
Proof.
  intros H. apply zget_Ret in H as [Hk H]. replace (Z.to_nat (k + 1)) with (S (Z.to_nat k)) by lia.
  revert H. generalize (Z.to_nat k). clear. intros k. revert l. induction k as [|k IH]; intros [|b l] H; simpl in *; try discriminate.
  - inversion H; reflexivity.
  - f_equal. apply IH. exact H.
Qed.
Lemma firstn_skipn_z {B} (l : list B) k a : zget l k = Ret a ->
  l = firstn (Z.to_nat k) l ++ a :: skipn (Z.to_nat (k + 1)) l.
Proof.
  intros H. apply zget_Ret in H as [Hk H]. replace (Z.to_nat (k + 1)) with (S (Z.to_nat k)) by lia.
  revert H. generalize (Z.to_nat k). clear. intros k. revert l. induction k as [|k IH]; intros [|b l] H; simpl in *; try discriminate.
  - inversion H; reflexivity.
  - f_equal. apply IH. exact H.
Qed.

(** ** Inference *)
Theorem infer_ok m x : net_ok A m (zlen x) -> 2 <= n_layers A m ->
  exists m' rest, eml_net_infer A m x (zlen x) = Ret (EmlOk, m') /\ same_net A m m' /\
    activations2 A m' = net_fun A (n_layers_arr A m) x ++ rest.
Proof.
  intros (N & OK & CH & FIT & L1 & L2) H2. unfold eml_net_infer.
  destruct (Z.leb_spec 2 (n_layers A m)); [|lia]. cbn [negb].
  set (ls := n_layers_arr A m) in *. set (bl := activations_length A m) in *.
  pose proof (zlen_nonneg (activations1 A m)) as BP.
  rewrite Forall_forall in OK, FIT.
  destruct (zget_ok ls 0 ltac:(lia)) as [l0 E0]. rewrite E0. cbn [bind].
  pose proof (OK _ (zget_In _ _ _ E0)) as OK0. pose proof (FIT _ (zget_In _ _ _ E0)) as FIT0.
  assert (C0 : l_n_inputs A l0 = zlen x).
  { destruct ls as [|l ls']; [discriminate|]. inversion E0; subst. simpl in CH. tauto. }
  destruct (Z.eqb_spec (zlen x) (l_n_inputs A l0)); [|lia]. cbn [negb].
  destruct (largest_ok m bl N ltac:(lia)) as (v & EV & HV); [apply Forall_forall; exact FIT|].
  rewrite EV. cbn [bind]. destruct (Z.leb_spec v bl); [|lia]. cbn [negb]. cbv zeta.
  replace (eml_net_layer_forward A l0 x (zlen x) (activations1 A m) bl) with
    (eml_net_layer_forward A l0 (x ++ []) (zlen x) (activations1 A m) (zlen (activations1 A m))) by (rewrite app_nil_r, L1; reflexivity).
  rewrite layer_forward_ok by (auto; lia). cbn [bind].
  destruct (foldM_range_inv (fun '(e, b1, b2) k =>
              match e with
              | EmlOk =>
                let* layer := zget ls (k + 1) in
                let* (e, b2) := eml_net_layer_forward A layer b1 bl b2 bl in
                match e with
                | EmlOk => let* b1 := copy_buf A b1 b2 bl in Ret (EmlOk, b1, b2)
                | _ => Ret (e, b1, b2)
                end
              | _ => Ret (e, b1, b2)
              end)
     (fun k '(e, b1, b2) => e = EmlOk /\ zlen b1 = bl /\ zlen b2 = bl /\
        exists r, b1 = net_fun A (firstn (Z.to_nat (k + 1)) ls) x ++ r)
     (n_layers A m - 2)
     (EmlOk, layer_fun A l0 x ++ skipn (Z.to_nat (l_n_outputs A l0)) (activations1 A m), activations2 A m))
    as ([[er b1] b2] & E & -> & B1 & B2 & r & Hr).
  - lia.
  - split; [auto|]. split; [|split; [auto|]].
    + destruct OK0 as (? & ? & _). rewrite zlen_app, zlen_layer_fun, zlen_skipn by lia. lia.
    + eexists. rewrite (firstn_snoc_z ls 0 l0 E0). simpl. unfold net_fun. simpl. reflexivity.
  - intros k [[er b1] b2] Hk (-> & B1 & B2 & r & Hr).
    destruct (zget_ok ls (k + 1) ltac:(lia)) as [l El]. rewrite El. cbn [bind].
    pose proof (OK _ (zget_In _ _ _ El)) as OKl. pose proof (FIT _ (zget_In _ _ _ El)) as FITl.
    set (pre := firstn (Z.to_nat (k + 1)) ls) in *.
    assert (FP : Forall (layer_ok A) pre).
    { apply Forall_forall. intros a Ha. apply OK. rewrite (firstn_skipn_z ls (k + 1) l El). apply in_or_app. left. exact Ha. }
    assert (CL : zlen (net_fun A pre x) = l_n_inputs A l).
    { rewrite zlen_net_fun by exact FP. rewrite (firstn_skipn_z ls (k + 1) l El) in CH. apply chain_app in CH as [_ CH].
      simpl in CH. symmetry. apply CH. }
    subst b1. replace (eml_net_layer_forward A l (net_fun A pre x ++ r) bl b2 bl) with
      (eml_net_layer_forward A l (net_fun A pre x ++ r) bl b2 (zlen b2)) by (rewrite B2; reflexivity).
    rewrite layer_forward_ok by (auto; lia). cbn [bind].
    assert (ZN : zlen (layer_fun A l (net_fun A pre x) ++ skipn (Z.to_nat (l_n_outputs A l)) b2) = bl).
    { destruct OKl as (? & ? & _). rewrite zlen_app, zlen_layer_fun, zlen_skipn by lia. lia. }
    unfold copy_buf. rewrite copy_app by lia. cbn [bind]. eexists. split; [reflexivity|].
    assert (FA : forall (u w : list num), zlen u = bl -> zlen w = bl -> firstn (Z.to_nat bl) u ++ skipn (Z.to_nat bl) w = u).
    { intros u w Hu Hw. unfold zlen in *. rewrite firstn_all2 by lia. rewrite skipn_all2 by lia. apply app_nil_r. }
    rewrite FA by auto. split; [auto|]. split; [auto|]. split; [auto|]. eexists.
    rewrite (firstn_snoc_z ls (k + 1) l El). rewrite net_fun_snoc. reflexivity.
  - fold ls. rewrite E. cbn [bind].
    destruct (zget_ok ls (n_layers A m - 1) ltac:(lia)) as [l El]. rewrite El. cbn [bind].
    pose proof (OK _ (zget_In _ _ _ El)) as OKl. pose proof (FIT _ (zget_In _ _ _ El)) as FITl.
    replace (n_layers A m - 2 + 1) with (n_layers A m - 1) in Hr by lia.
    set (pre := firstn (Z.to_nat (n_layers A m - 1)) ls) in *.
    assert (LS : ls = pre ++ [l]).
    { unfold pre. rewrite <- (firstn_snoc_z ls _ l El). symmetry. apply firstn_all2. unfold zlen in N. lia. }
    assert (FP : Forall (layer_ok A) pre).
    { apply Forall_forall. intros a Ha. apply OK. rewrite LS. apply in_or_app. left. exact Ha. }
    assert (CL : zlen (net_fun A pre x) = l_n_inputs A l).
    { rewrite zlen_net_fun by exact FP. rewrite LS in CH. apply chain_app in CH as [_ CH].
      simpl in CH. symmetry. apply CH. }
    rewrite Hr. replace (eml_net_layer_forward A l (net_fun A pre x ++ r) bl b2 bl) with
      (eml_net_layer_forward A l (net_fun A pre x ++ r) bl b2 (zlen b2)) by (rewrite B2; reflexivity).
    rewrite layer_forward_ok by (auto; lia). cbn [bind].
    eexists. eexists. split; [reflexivity|]. split.
    + unfold same_net, set_buffers; simpl. fold ls bl. repeat (split; [reflexivity|]). split; [rewrite <- Hr; lia|].
      destruct OKl as (? & ? & _). rewrite zlen_app, zlen_layer_fun, zlen_skipn by lia. lia.
    + unfold set_buffers; simpl. rewrite LS at 1. rewrite net_fun_snoc. reflexivity.
Qed.

(** ** Inline inference *)
Theorem inline_infer_ok ls x a1 a2 bl : Forall (layer_ok A) ls -> chain A (zlen x) ls ->
  Forall (fun l => l_n_inputs A l <= bl /\ l_n_outputs A l <= bl) ls -> zlen x <= bl -> ls <> [] ->
  zlen a1 = bl -> zlen a2 = bl ->
  exists b1 b2 rest, inline_infer A ls x (zlen x) a1 a2 bl = Ret (EmlOk, b1, b2) /\ zlen b1 = bl /\ zlen b2 = bl /\
    b2 = net_fun A ls x ++ rest.
Proof.
  intros OK CH FIT HX NE Z1 Z2. unfold inline_infer, copy_buf.
  pose proof (zlen_nonneg x) as XP.
  rewrite copy_app by lia. cbn [bind].
  assert (FX : firstn (Z.to_nat (zlen x)) x = x) by (unfold zlen; rewrite Nat2Z.id; apply firstn_all). rewrite FX. clear FX.
  set (step := fun '(e, b1, b2) l => _).
  assert (G : forall ls x r b2, Forall (layer_ok A) ls -> chain A (zlen x) ls ->
     Forall (fun l => l_n_inputs A l <= bl /\ l_n_outputs A l <= bl) ls -> zlen (x ++ r) = bl -> zlen b2 = bl ->
     exists b1' b2', foldM step (EmlOk, x ++ r, b2) ls = Ret (EmlOk, b1', b2') /\ zlen b1' = bl /\ zlen b2' = bl /\
       (exists rest, b1' = net_fun A ls x ++ rest) /\ (ls <> [] -> b2' = b1')).
  { clear. induction ls as [|l ls IH]; intros x r b2 OK CH FIT ZX ZB.
    - exists (x ++ r), b2. split; [reflexivity|]. split; [auto|]. split; [auto|]. split; [exists r; reflexivity|]. congruence.
    - inversion OK as [|? ? OKl OKs]; subst. inversion FIT as [|? ? FITl FITs]; subst. simpl in CH. destruct CH as [CI CH].
      destruct OKl as (N1 & N2 & OKl').
      simpl foldM. rewrite forward_ok; [|repeat split; tauto|lia|lia]. cbn [bind].
      rewrite layer_fun_app by auto.
      set (out := layer_fun A l x ++ skipn (Z.to_nat (l_n_outputs A l)) b2).
      assert (ZO : zlen out = zlen (x ++ r)).
      { unfold out. rewrite zlen_app, zlen_layer_fun, zlen_skipn by lia. lia. }
      unfold copy_buf. pose proof (zlen_nonneg (x ++ r)).
      rewrite copy_app by lia. cbn [bind].
      assert (FA : firstn (Z.to_nat (zlen (x ++ r))) out ++ skipn (Z.to_nat (zlen (x ++ r))) (x ++ r) = out).
      { unfold zlen in *. rewrite firstn_all2 by lia. rewrite skipn_all2 by lia. apply app_nil_r. }
      rewrite FA.
      destruct (IH (layer_fun A l x) (skipn (Z.to_nat (l_n_outputs A l)) b2) out OKs) as (b1' & b2' & E & Y1 & Y2 & R & Q).
      + rewrite zlen_layer_fun by lia. exact CH.
      + exact FITs.
      + exact ZO.
      + exact ZO.
      + fold out in E. exists b1', b2'. split; [exact E|]. split; [exact Y1|]. split; [exact Y2|]. split; [exact R|].
        intros _. destruct ls as [|l2 ls]; [|apply Q; congruence]. simpl in E. inversion E. congruence. }
  destruct (G ls x (skipn (Z.to_nat (zlen x)) a1) a2 OK CH FIT) as (b1 & b2 & E & Y1 & Y2 & (rest & R) & Q).
  - rewrite zlen_app, zlen_skipn by lia. lia.
  - exact Z2.
  - exists b1, b2, rest. split; [exact E|]. split; [exact Y1|]. split; [exact Y2|]. rewrite (Q NE). exact R.
Qed.
End Net.
