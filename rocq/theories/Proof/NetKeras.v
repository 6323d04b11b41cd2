(** Proofs about networks: Keras conversion, inline code, sessions. *)
From Coq Require Import ZArith List Bool Lia String.
From Verif.Base Require Import Res CInt ListX Loops Arith Kernels.
From Verif.Model Require Import Common Net.
From Verif.Spec Require Import NetSpec.
From Verif.Proof Require Import Net NetApi.
Import ListNotations.
Open Scope Z_scope.
Open Scope res_scope.

Section K.
Context (A : arith).
Notation num := (num A).
Notation nth0 := (znth (nzero A)).

(** ** Sessions *)
Lemma infer_wrong_length m n x : net_ok A m n -> 2 <= n_layers A m -> zlen x <> n ->
  eml_net_infer A m x (zlen x) = Ret (EmlSizeMismatch, m).
Proof.
  intros (N & OK & CH & _) H Hx. unfold eml_net_infer. destruct (Z.leb_spec 2 (n_layers A m)); [|lia]. cbn [negb].
  destruct (n_layers_arr A m) as [|l0 ls]; [unfold zlen in N; simpl in N; lia|].
  change (zget (l0 :: ls) 0) with (@Ret (net_layer A) l0). cbn [bind]. destruct CH as [CH _]. rewrite CH.
  destruct (Z.eqb_spec (zlen x) n); [lia|]. reflexivity.
Qed.
Lemma too_few_layers m x : n_layers A m < 2 -> eml_net_infer A m x (zlen x) = Ret (EmlUnsupported, m).
Proof. intros H. unfold eml_net_infer. destruct (Z.leb_spec 2 (n_layers A m)); [lia|]. reflexivity. Qed.
Lemma same_net_refl m : same_net A m m.
Proof. unfold same_net. auto 10. Qed.

Lemma infer_any m n x : net_ok A m n -> 2 <= n_layers A m ->
  exists e m', eml_net_infer A m x (zlen x) = Ret (e, m') /\ same_net A m m' /\
   (e = EmlOk -> zlen x = n) /\ (e <> EmlOk -> m' = m).
Proof.
  intros OK H. destruct (Z.eq_dec (zlen x) n) as [E|NE].
  - subst n. destruct (infer_ok A m x OK H) as (m' & rest & E & S & _). exists EmlOk, m'. split; [exact E|].
    split; [exact S|]. split; congruence.
  - exists EmlSizeMismatch, m. split; [now apply infer_wrong_length with n|]. split; [apply same_net_refl|]. split; congruence.
Qed.
Lemma argmax_total (y : list num) n : 0 <= n <= zlen y -> exists r, eml_net_argmax A y n = Ret r /\ -1 <= r < n.
Proof.
  intros Hn. unfold eml_net_argmax.
  destruct (foldM_range_inv (fun '(vmax, argmax) i =>
      let* v := zget y i in
      if nltb A vmax v then Ret (v, i) else Ret (vmax, argmax)) (fun k '(_, r) => -1 <= r < k \/ r = -1) n (nneginf A, -1))
    as ([vm r] & E & H); [lia|right; reflexivity| |].
  - intros k [vm r] Hk H. destruct (zget_ok y k ltac:(lia)) as [v Ev]. rewrite Ev. cbn [bind].
    destruct (nltb A vm v); (eexists; split; [reflexivity|]); cbv beta iota; lia.
  - rewrite E. cbn [bind]. exists r. split; [reflexivity|]. lia.
Qed.
Lemma predict_class_total (y : list num) : 1 <= zlen y -> exists c, predict_class A y (zlen y) = Ret c.
Proof.
  intros H. unfold predict_class. destruct (zget_ok y 0 ltac:(lia)) as [v Ev]. rewrite Ev. cbn [bind].
  destruct (zlen y =? 1); [eauto|]. destruct (1 <? zlen y); [|eauto].
  destruct (argmax_total y (zlen y)) as (r & E & _); [lia|eauto].
Qed.
Lemma call_ok m n c : net_ok A m n -> 2 <= n_layers A m -> exists m', do_call A m c = Ret m' /\ same_net A m m'.
Proof.
  intros OK H. destruct (outputs_ok A m n OK ltac:(lia)) as [O1 O2].
  destruct c as [x|x|x out|x out]; unfold do_call;
    destruct (infer_any m n x OK H) as (e & m' & E & S & K & K').
  - rewrite E. cbn [bind]. eauto.
  - destruct (Z.eq_dec (zlen x) n) as [EX|NX].
    + subst n. destruct (predict_ok A m x OK H) as (m2 & S2 & P). rewrite P.
      destruct (predict_class_total (net_fun A (n_layers_arr A m) x)) as [c Ec].
      * rewrite zlen_net_fun by apply OK. lia.
      * rewrite Ec. cbn [bind]. eauto.
    + unfold eml_net_predict. rewrite (infer_wrong_length m n x OK H NX). cbn [bind]. exists m. split; [reflexivity|apply same_net_refl].
  - destruct (Z.eq_dec (zlen out) (if n_outputs_of A (n_layers_arr A m) n =? 1 then 2 else n_outputs_of A (n_layers_arr A m) n)) as [EO|NO].
    + destruct (Z.eq_dec (zlen x) n) as [EX|NX].
      * subst n. destruct (proba_ok A m x out OK H) as (m2 & S2 & P). { rewrite zlen_net_fun by apply OK. exact EO. }
        rewrite P. destruct (_ <=? 2); cbn [bind]; eauto.
      * unfold eml_net_predict_proba, eml_net_outputs_proba. rewrite O1. cbn [bind]. rewrite <- EO, Z.eqb_refl. cbn [negb].
        rewrite (infer_wrong_length m n x OK H NX). cbn [bind]. exists m. split; [reflexivity|apply same_net_refl].
    + unfold eml_net_predict_proba, eml_net_outputs_proba. rewrite O1. cbn [bind].
      rewrite (proj2 (Z.eqb_neq _ _) NO). cbn [negb bind]. exists m. split; [reflexivity|apply same_net_refl].
  - destruct (Z.eq_dec (zlen out) (n_outputs_of A (n_layers_arr A m) n)) as [EO|NO].
    + destruct (Z.eq_dec (zlen x) n) as [EX|NX].
      * subst n. destruct (regress_ok A m x out OK H) as (m2 & S2 & P). { rewrite zlen_net_fun by apply OK. exact EO. }
        rewrite P. cbn [bind]; eauto.
      * unfold eml_net_regress. rewrite O1. cbn [bind]. rewrite <- EO, Z.eqb_refl. cbn [negb].
        rewrite (infer_wrong_length m n x OK H NX). cbn [bind]. exists m. split; [reflexivity|apply same_net_refl].
    + unfold eml_net_regress. rewrite O1. cbn [bind].
      rewrite (proj2 (Z.eqb_neq _ _) NO). cbn [negb bind]. exists m. split; [reflexivity|apply same_net_refl].
Qed.
Theorem calls_ok m n cs : net_ok A m n -> 2 <= n_layers A m ->
  exists m', do_calls A m cs = Ret m' /\ same_net A m m' /\ net_ok A m' n /\ 2 <= n_layers A m'.
Proof.
  revert m; induction cs as [|c cs IH]; intros m OK H; unfold do_calls in *; simpl.
  - exists m. split; [reflexivity|]. split; [apply same_net_refl|auto].
  - destruct (call_ok m n c OK H) as (m1 & E1 & S1). rewrite E1. cbn [bind].
    destruct (IH m1) as (m2 & E2 & S2 & OK2 & H2).
    + apply (same_net_ok A m m1 n); auto.
    + destruct S1 as (-> & _). exact H.
    + exists m2. split; [exact E2|]. split; [now apply (same_net_trans A m m1 m2)|auto].
Qed.

(** ** Generated networks *)
Definition plinear (l : py_layer A) (x : list num) : list num :=
  map (fun o =>
        nadd A (fold_left (fun s i => nadd A s (nmul A (nth0 (nth (Z.to_nat i) (py_weights A l) []) o) (nth0 x i)))
                 (zrange (zlen (py_weights A l))) (nzero A)) (nth0 (py_biases A l) o)) (zrange (py_n_out A l)).
Notation prect := (py_matrix A).

Lemma zlen_concat (w : list (list num)) n : Forall (fun row => zlen row = n) w -> zlen (List.concat w) = zlen w * n.
Proof.
  induction w as [|r w IH]; intros H; [reflexivity|]. inversion H; subst. simpl. rewrite zlen_app, IH by auto.
  unfold zlen. simpl List.length. rewrite Nat2Z.inj_succ. ring.
Qed.
Lemma concat_index (w : list (list num)) n i o : Forall (fun row => zlen row = n) w -> 0 <= o < n -> 0 <= i < zlen w ->
  nth0 (List.concat w) (o + i * n) = nth0 (nth (Z.to_nat i) w []) o.
Proof.
  revert i; induction w as [|r w IH]; intros i H Ho Hi; [unfold zlen in Hi; simpl in Hi; lia|]. inversion H as [|? ? H1 H2]; subst.
  simpl List.concat. destruct (Z.eq_dec i 0) as [->|Ni].
  - rewrite Z.mul_0_l, Z.add_0_r. simpl. apply znth_app_l. lia.
  - replace (Z.to_nat i) with (S (Z.to_nat (i - 1))) by lia. simpl nth. rewrite <- (IH (i - 1)); auto.
    2:{ unfold zlen in *. simpl in Hi. lia. }
    unfold znth. rewrite app_nth2 by (unfold zlen in *; nia). f_equal. unfold zlen in *. nia.
Qed.

Lemma fold_left_ext_in {B S} (f g : S -> B -> S) l s : (forall s a, In a l -> f s a = g s a) -> fold_left f l s = fold_left g l s.
Proof. revert s; induction l as [|a l IH]; intros s H; simpl; auto. rewrite H by (now left). apply IH. intros; apply H; now right. Qed.
Lemma act_sem sem name cname act x : sem_ok A sem -> c_activation_function name = Ret (cname, act) ->
  activate A act x = sem name x.
Proof.
  intros (S1 & S2 & S3 & S4 & S5 & S6 & S7). unfold c_activation_function.
  repeat match goal with |- context [String.eqb name ?s] => destruct (String.eqb_spec name s); [subst name; intros H; injection H as _ <-|] end.
  - rewrite S2. reflexivity.
  - now rewrite S3.
  - now rewrite S5.
  - now rewrite S6.
  - now rewrite S7.
  - discriminate.
Qed.
Lemma layer_data_fun sem l nl x b : sem_ok A sem -> prect l -> layer_data A b l = Ret nl ->
  layer_fun A nl x = sem (py_activation A l) (plinear l x).
Proof.
  intros SE (N1 & R). unfold layer_data. destruct (c_activation_function (py_activation A l)) as [[cname act]|] eqn:EC; [|discriminate].
  cbn [bind]. destruct (if b then _ else _); [|discriminate]. cbn [bind].
  destruct (negb _); [discriminate|]. intros H. injection H as <-. unfold layer_fun. simpl l_activation.
  rewrite (act_sem sem _ _ _ _ SE EC). f_equal. unfold linear, plinear. simpl. apply map_ext_in. intros o Ho. apply zrange_In in Ho.
  f_equal. unfold py_n_in. apply fold_left_ext_in. intros z0 i Hi. apply zrange_In in Hi. rewrite concat_index by auto. reflexivity.
Qed.
Lemma mapM_fun sem ls nls x : sem_ok A sem -> Forall prect ls -> mapM (layer_data A false) ls = Ret nls ->
  net_fun A nls x = fold_left (fun v l => sem (py_activation A l) (plinear l v)) ls x.
Proof.
  intros SE. revert nls x; induction ls as [|l ls IH]; intros nls x P; simpl; intros H.
  - injection H as <-. reflexivity.
  - inversion P as [|? ? P1 P2]; subst. destruct (layer_data A false l) as [nl|] eqn:E1; [|discriminate]. cbn [bind] in H.
    destruct (mapM (layer_data A false) ls) as [nr|] eqn:E2; [|discriminate]. cbn [bind] in H. injection H as <-.
    unfold net_fun. simpl. fold (net_fun A nr (layer_fun A nl x)). rewrite (IH nr _ P2 eq_refl).
    rewrite (layer_data_fun sem l nl x false SE P1 E1). reflexivity.
Qed.
Lemma sem_from sem a x : sem_ok A sem -> sem (from_keras_activation a) x = sem a x.
Proof.
  intros (S1 & S2 & S3 & S4 & S5 & S6 & S7). unfold from_keras_activation.
  destruct (String.eqb_spec a "sigmoid"); [subst; now rewrite S4, S5|].
  destruct (String.eqb_spec a "linear"); [subst; now rewrite S1, S2|]. reflexivity.
Qed.
Definition pfun sem (acc : list (py_layer A)) (x : list num) : list num :=
  fold_left (fun v l => sem (py_activation A l) (plinear l v)) (rev acc) x.
Lemma pfun_cons sem l r x : pfun sem (l :: r) x = sem (py_activation A l) (plinear l (pfun sem r x)).
Proof. unfold pfun. simpl. rewrite fold_left_app. reflexivity. Qed.

Lemma keras_fold sem ls : sem_ok A sem -> forall acc acc' pending,
  foldM (keras_step A) acc ls = Ret acc' -> mergeable A pending ls -> Forall (rectangular A) ls ->
  (pending = true -> exists l r, acc = l :: r /\ py_activation A l = "identity"%string) -> Forall prect acc ->
  Forall prect acc' /\ forall x, pfun sem acc' x = keras_net A sem ls (pfun sem acc x).
Proof.
  intros SE. induction ls as [|l ls IH]; intros acc acc' pending; simpl.
  - intros H _ _ _ P. injection H as <-. split; auto.
  - intros H M Rt Pn P. inversion Rt as [|? ? R1 R2]; subst.
    destruct (keras_step A acc l) as [acc1|] eqn:E1; [|discriminate]. cbn [bind] in H.
    assert (SETA : forall a acc2, set_activation A acc a = Ret acc2 -> pending = true ->
       Forall prect acc2 /\ (forall x, pfun sem acc2 x = sem a (pfun sem acc x)) /\
       exists l2 r2, acc2 = l2 :: r2 /\ py_activation A l2 = a).
    { intros a acc2 Ea EP. destruct (Pn EP) as (l1 & r & -> & Ei). simpl in Ea. injection Ea as <-.
      inversion P as [|? ? P1 P2]; subst. split; [constructor; auto|]. split; [|eauto].
      intros x. rewrite !pfun_cons, Ei. simpl py_activation. destruct SE as (_ & S2 & _). rewrite S2. reflexivity. }
    destruct l as [a ub w no b|a|d|ax| |].
    + simpl in E1. destruct ub; [|discriminate]. injection E1 as <-.
      destruct (IH _ _ _ H M R2) as [Q1 Q2].
      * intros EP. eexists _, _. split; [reflexivity|]. apply String.eqb_eq in EP. subst a. reflexivity.
      * constructor; auto.
      * split; [exact Q1|]. intros x. rewrite Q2. unfold keras_net. simpl. f_equal. rewrite pfun_cons. simpl py_activation.
        rewrite sem_from by auto. reflexivity.
    + destruct M as [EP M]. simpl in E1. destruct (SETA _ _ E1 EP) as (Q0 & Q1 & l2 & r2 & EQ & EA).
      destruct (IH _ _ _ H M R2) as [Q2 Q3]; [|exact Q0|].
      * intros E2. exists l2, r2. split; [exact EQ|]. apply String.eqb_eq in E2. subst a. rewrite EA. reflexivity.
      * split; [exact Q2|]. intros x. rewrite Q3, Q1, sem_from by auto. reflexivity.
    + destruct M as [EP M]. simpl in E1. destruct d; [|discriminate]. destruct (SETA _ _ E1 EP) as (Q0 & Q1 & _).
      destruct (IH _ _ _ H M R2) as [Q2 Q3]; [discriminate|exact Q0|].
      split; [exact Q2|]. intros x. rewrite Q3, Q1. reflexivity.
    + destruct M as [EP M]. simpl in E1. destruct (ax =? -1); [|discriminate]. destruct (SETA _ _ E1 EP) as (Q0 & Q1 & _).
      destruct (IH _ _ _ H M R2) as [Q2 Q3]; [discriminate|exact Q0|].
      split; [exact Q2|]. intros x. rewrite Q3, Q1. reflexivity.
    + simpl in E1. injection E1 as <-. destruct (IH _ _ _ H M R2 Pn P) as [Q2 Q3]. split; [exact Q2|]. intros x. now rewrite Q3.
    + discriminate.
Qed.
Theorem keras_ok sem ls pls m x : sem_ok A sem -> Forall (rectangular A) ls -> mergeable A false ls ->
  convert_keras A ls = Ret pls -> c_generate_net_loadable A pls = Ret m ->
  net_fun A (n_layers_arr A m) x = keras_net A sem ls x.
Proof.
  intros SE Rt M. unfold convert_keras. destruct (foldM (keras_step A) [] ls) as [acc|] eqn:E; [|discriminate]. cbn [bind].
  intros H. injection H as <-. unfold c_generate_net_loadable. destruct (buffer_size A (rev acc)); [|discriminate]. cbn [bind].
  destruct (mapM (layer_data A false) (rev acc)) as [nls|] eqn:E2; [|discriminate]. cbn [bind]. intros H. injection H as <-.
  destruct (keras_fold sem ls SE [] acc false E M Rt) as [Q1 Q2]; [discriminate|constructor|].
  simpl n_layers_arr. rewrite (mapM_fun sem (rev acc) nls x SE); auto.
  - specialize (Q2 x). unfold pfun in Q2 at 1. rewrite Q2. reflexivity.
  - apply Forall_rev. exact Q1.
Qed.

(** ** Sizes survive the conversion *)
Fixpoint rev_chain (n0 : Z) (acc : list (py_layer A)) (n : Z) : Prop :=
  match acc with
  | [] => n = n0
  | l :: r => py_n_out A l = n /\ rev_chain n0 r (py_n_in A l)
  end.
Lemma rev_chain_spec n0 acc n tail : rev_chain n0 acc n -> py_chain A n tail -> py_chain A n0 (rev acc ++ tail).
Proof.
  revert n tail; induction acc as [|l acc IH]; intros n tail; simpl.
  - intros ->. auto.
  - intros [H1 H2] H3. rewrite <- app_assoc. simpl. apply (IH _ (l :: tail) H2). simpl. split; [reflexivity|]. now rewrite H1.
Qed.
Lemma keras_sizes ls : forall n0 acc acc' n, foldM (keras_step A) acc ls = Ret acc' -> keras_chain A n ls ->
  rev_chain n0 acc n -> Forall (py_sizes A) acc ->
  (exists n', rev_chain n0 acc' n') /\ Forall (py_sizes A) acc' /\ zlen acc' = zlen acc + n_dense A ls.
Proof.
  induction ls as [|l ls IH]; intros n0 acc acc' n; simpl.
  - intros H _ R F. injection H as <-. split; [eauto|]. split; [auto|]. unfold n_dense, zlen; simpl; lia.
  - intros H K R F. destruct (keras_step A acc l) as [acc1|] eqn:E1; [|discriminate]. cbn [bind] in H.
    assert (SETA : forall a acc2, set_activation A acc a = Ret acc2 -> rev_chain n0 acc2 n /\ Forall (py_sizes A) acc2 /\ zlen acc2 = zlen acc).
    { intros a acc2. destruct acc as [|l1 r]; simpl; [discriminate|]. intros Q. injection Q as <-.
      inversion F as [|? ? F1 F2]; subst. split; [exact R|]. split; [constructor; auto|reflexivity]. }
    destruct l as [a ub w no b|a|d|ax| |].
    + simpl in E1. destruct ub; [|discriminate]. injection E1 as <-. destruct K as (K1 & K2 & K3 & K4 & K5).
      destruct (IH n0 _ _ no H K5) as (I1 & I2 & I3).
      * simpl. split; [reflexivity|]. unfold py_n_in. simpl. rewrite K1. exact R.
      * constructor; auto. unfold py_sizes, py_n_in. simpl. rewrite K1. auto.
      * split; [exact I1|]. split; [exact I2|]. rewrite I3. unfold n_dense, zlen. simpl. lia.
    + destruct (SETA _ _ E1) as (S1 & S2 & S3). destruct (IH n0 _ _ n H K S1 S2) as (I1 & I2 & I3).
      split; [exact I1|]. split; [exact I2|]. rewrite I3, S3. reflexivity.
    + simpl in E1. destruct d; [|discriminate]. destruct (SETA _ _ E1) as (S1 & S2 & S3). destruct (IH n0 _ _ n H K S1 S2) as (I1 & I2 & I3).
      split; [exact I1|]. split; [exact I2|]. rewrite I3, S3. reflexivity.
    + simpl in E1. destruct (ax =? -1); [|discriminate]. destruct (SETA _ _ E1) as (S1 & S2 & S3). destruct (IH n0 _ _ n H K S1 S2) as (I1 & I2 & I3).
      split; [exact I1|]. split; [exact I2|]. rewrite I3, S3. reflexivity.
    + simpl in E1. injection E1 as <-. destruct (IH n0 _ _ n H K R F) as (I1 & I2 & I3).
      split; [exact I1|]. split; [exact I2|]. rewrite I3. reflexivity.
    + discriminate.
Qed.

(** ** The generated struct is well formed, so C32 applies to it *)
Lemma fold_max_ge r z : z <= fold_left Z.max r z /\ forall v, In v r -> v <= fold_left Z.max r z.
Proof.
  revert z; induction r as [|a r IH]; intros z; simpl; [split; [lia|tauto]|].
  destruct (IH (Z.max z a)) as [H1 H2]. split; [lia|]. intros v [->|Iv]; [lia|auto].
Qed.
Notation pchain := (py_chain A).
Theorem generated_ok ls m n : Forall prect ls -> Forall (py_sizes A) ls ->
  pchain n ls -> c_generate_net_loadable A ls = Ret m -> net_ok A m n /\ n_layers A m = zlen ls.
Proof.
  intros P Q CH. unfold c_generate_net_loadable. destruct (buffer_size A ls) as [bs|] eqn:EB; [|discriminate]. cbn [bind].
  destruct (mapM (layer_data A false) ls) as [nls|] eqn:EM; [|discriminate]. cbn [bind]. intros H. injection H as <-.
  assert (BS : forall l, In l ls -> py_n_in A l <= bs /\ py_n_out A l <= bs).
  { unfold buffer_size in EB. destruct (map (py_n_in A) ls ++ map (py_n_out A) ls) as [|z r] eqn:EL; [discriminate|]. injection EB as <-.
    intros l Il. destruct (fold_max_ge r z) as [G1 G2].
    assert (G : forall v, In v (z :: r) -> v <= fold_left Z.max r z) by (intros v [->|Iv]; auto). rewrite <- EL in G.
    split; apply G; apply in_or_app; [left|right]; now apply in_map. }
  assert (LEN : bs >= 0).
  { destruct ls as [|l ls]; [discriminate|]. destruct (BS l (or_introl eq_refl)). inversion P as [|? ? (? & _) _]; lia. }
  assert (G : forall ls nls n, mapM (layer_data A false) ls = Ret nls -> Forall prect ls ->
     Forall (py_sizes A) ls -> pchain n ls ->
     (forall l, In l ls -> py_n_in A l <= bs /\ py_n_out A l <= bs) ->
     zlen ls = zlen nls /\ Forall (layer_ok A) nls /\ chain A n nls /\ Forall (fun l => l_n_inputs A l <= bs /\ l_n_outputs A l <= bs) nls).
  { clear. induction ls as [|l ls IH]; intros nls n; simpl; intros E P Q CH B.
    - injection E as <-. repeat split; auto.
    - destruct (layer_data A false l) as [nl|] eqn:E1; [|discriminate]. cbn [bind] in E.
      destruct (mapM (layer_data A false) ls) as [nr|] eqn:E2; [|discriminate]. cbn [bind] in E. injection E as <-.
      inversion P as [|? ? P1 P2]; inversion Q as [|? ? Q1 Q2]; subst. destruct CH as [C1 C2].
      destruct (IH nr _ eq_refl P2 Q2 C2) as (I1 & I2 & I3 & I4); [intros; apply B; auto|].
      unfold layer_data in E1. destruct (c_activation_function (py_activation A l)) as [[cn act]|] eqn:EC; [|discriminate]. cbn [bind] in E1.
      destruct (Z.eqb_spec (zlen (List.concat (py_weights A l))) (py_n_in A l * py_n_out A l)) as [EW|]; [|discriminate].
      cbn [negb] in E1. injection E1 as <-. destruct (B l (or_introl eq_refl)) as [B1 B2]. destruct P1 as [P1 _]. destruct Q1 as (Q1 & Q1' & Q1'').
      split; [unfold zlen in *; simpl; lia|]. split; [constructor; auto|split; [simpl; auto|constructor; auto]].
      unfold layer_ok. simpl. rewrite EW. split; [lia|]. split; [lia|]. split; [reflexivity|]. split; [lia|]. split; [auto|].
      intros c ->. unfold c_activation_function in EC.
      repeat match type of EC with context [String.eqb ?u ?s] => destruct (String.eqb u s); [discriminate|] end. discriminate. }
  destruct (G ls nls n EM P Q CH BS) as (G1 & G2 & G3 & G4). split; [|reflexivity].
  unfold net_ok. simpl. unfold zlen at 3 4. rewrite repeat_length. rewrite Z2Nat.id by lia. auto 10.
Qed.

Lemma keras_matrix ls : forall acc acc', foldM (keras_step A) acc ls = Ret acc' -> Forall (rectangular A) ls ->
  Forall prect acc -> Forall prect acc'.
Proof.
  induction ls as [|l ls IH]; intros acc acc'; simpl; [intros H _ P; now injection H as <-|].
  intros H R P. inversion R as [|? ? R1 R2]; subst. destruct (keras_step A acc l) as [acc1|] eqn:E1; [|discriminate]. cbn [bind] in H.
  apply (IH acc1 acc' H R2).
  assert (SETA : forall a acc2, set_activation A acc a = Ret acc2 -> Forall prect acc2).
  { intros a acc2. destruct acc as [|l1 r]; simpl; [discriminate|]. intros Q. injection Q as <-. inversion P; subst. constructor; auto. }
  destruct l as [a ub w no b|a|d|ax| |]; simpl in E1.
  - destruct ub; [|discriminate]. injection E1 as <-. constructor; auto.
  - eauto.
  - destruct d; [eauto|discriminate].
  - destruct (ax =? -1); [eauto|discriminate].
  - now injection E1 as <-.
  - discriminate.
Qed.
Theorem keras_infer sem ls pls m x : sem_ok A sem -> Forall (rectangular A) ls -> mergeable A false ls ->
  keras_chain A (zlen x) ls -> 2 <= n_dense A ls ->
  convert_keras A ls = Ret pls -> c_generate_net_loadable A pls = Ret m ->
  exists m' rest, eml_net_infer A m x (zlen x) = Ret (EmlOk, m') /\ activations2 A m' = keras_net A sem ls x ++ rest.
Proof.
  intros SE Rt M K N2 EC EG. rewrite <- (keras_ok sem ls pls m x SE Rt M EC EG).
  unfold convert_keras in EC. destruct (foldM (keras_step A) [] ls) as [acc|] eqn:E; [|discriminate]. cbn [bind] in EC. injection EC as <-.
  destruct (keras_sizes ls (zlen x) [] acc (zlen x) E K eq_refl ltac:(constructor)) as ((n' & C) & S & L).
  pose proof (keras_matrix ls [] acc E Rt ltac:(constructor)) as P.
  destruct (generated_ok (rev acc) m (zlen x)) as [OK NL]; auto.
  - now apply Forall_rev.
  - now apply Forall_rev.
  - pose proof (rev_chain_spec (zlen x) acc n' [] C I) as H. rewrite app_nil_r in H. exact H.
  - destruct (infer_ok A m x OK) as (m' & rest & E1 & _ & R); [|eauto].
    rewrite NL. unfold zlen in *. rewrite rev_length. simpl in L. lia.
Qed.

(** ** Inline *)
Theorem inline_never ls : c_generate_net_inline A ls = Err ValueError_.
Proof.
  unfold c_generate_net_inline. destruct ls as [|l ls]; [reflexivity|].
  unfold buffer_size. simpl map. cbn [app bind].
  assert (PG : exists last, pyget (l :: ls) (-1) = Ret last).
  { unfold pyget. change (-1 <? 0) with true. cbv iota.
    assert (0 <= -1 + zlen (l :: ls)) by (unfold zlen; simpl; lia).
    destruct (Z.ltb_spec (-1 + zlen (l :: ls)) 0); [lia|].
    destruct (nth_error (l :: ls) (Z.to_nat (-1 + zlen (l :: ls)))) eqn:EN; [eauto|].
    apply nth_error_None in EN. unfold zlen in *. lia. }
  destruct PG as [last ->]. cbn [bind mapM]. unfold layer_data at 1.
  assert (K : forall s, (let* (name, act) := c_activation_function s in let* _ := py_int_of_str name in @Ret Z 0) = Err ValueError_).
  { intros s. unfold c_activation_function.
    repeat match goal with |- context [String.eqb s ?t] => destruct (String.eqb s t); [reflexivity|] end. reflexivity. }
  specialize (K (py_activation A l)). destruct (c_activation_function (py_activation A l)) as [[nm act]|f]; cbn [bind] in *; [|congruence].
  destruct (py_int_of_str nm); cbn [bind] in *; congruence.
Qed.
Theorem inline_predict_agrees m x a1 a2 : net_ok A m (zlen x) -> 2 <= n_layers A m ->
  zlen a1 = activations_length A m -> zlen a2 = activations_length A m ->
  exists c m' b1 b2,
    eml_net_predict A m x (zlen x) = Ret (c, m') /\
    inline_predict A (n_layers_arr A m) (n_outputs_of A (n_layers_arr A m) (zlen x)) a1 a2 (activations_length A m) x (zlen x) = Ret (c, b1, b2) /\
    exists r1 r2, activations2 A m' = net_fun A (n_layers_arr A m) x ++ r1 /\ b2 = net_fun A (n_layers_arr A m) x ++ r2.
Proof.
  intros OK H Z1 Z2. destruct (infer_full A m x OK H) as (m' & rest & E & S & R & O1 & O2 & Y).
  set (y := net_fun A (n_layers_arr A m) x) in *. destruct (predict_class_total y Y) as [c Ec].
  destruct OK as (N & OK & CH & FIT & L1 & L2).
  destruct (inline_infer_ok A (n_layers_arr A m) x a1 a2 (activations_length A m) OK CH FIT) as (b1 & b2 & r2 & EI & ZB1 & ZB2 & RB); auto.
  { destruct (n_layers_arr A m) as [|l0 ls]; [unfold zlen in N; simpl in N; lia|]. simpl in CH. destruct CH as [<- _].
    inversion FIT as [|? ? F1 _]. lia. }
  { intros EN. rewrite EN in N. unfold zlen in N; simpl in N; lia. }
  exists c, m', b1, b2. split; [|split; [|exists rest, r2; auto]].
  - unfold eml_net_predict. rewrite E. cbn [bind]. rewrite O2. cbn [bind]. rewrite R, predict_class_prefix, Ec by auto. reflexivity.
  - unfold inline_predict. rewrite EI. cbn [bind]. rewrite RB, <- zlen_net_fun by auto. fold y.
    rewrite predict_class_prefix, Ec by auto. reflexivity.
Qed.
End K.
