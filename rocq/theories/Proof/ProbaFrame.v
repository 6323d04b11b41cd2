(** predict_proba of inline code writes only the places it reads: the rest of the caller's array stays. *)
From Coq Require Import ZArith List Bool Lia.
From Verif.Base Require Import Res CInt ListX Loops Float.
From Verif.Model Require Import Common TreesConvert TreesC TreesInline.
Import ListNotations.
Open Scope Z_scope.
Open Scope res_scope.

Lemma zget_ext_app {A} (l r : list A) i x : zget l i = Ret x -> zget (l ++ r) i = Ret x.
Proof. intros H. apply zget_Ret in H. destruct H as [B E]. apply zget_Ret. split; [exact B|]. rewrite nth_error_app1; [exact E|]. apply nth_error_Some. congruence. Qed.
Lemma zset_ext_app {A} (l r l' : list A) i x : zset l i x = Ret l' -> zset (l ++ r) i x = Ret (l' ++ r).
Proof.
  intros H. apply zset_Ret in H. destruct H as [B ->]. apply zset_Ret. split; [unfold zlen in *; rewrite app_length; lia|].
  assert (N : (Z.to_nat i < length l)%nat) by (unfold zlen in B; lia). clear B. revert l N. generalize (Z.to_nat i).
  induction n as [|n IH]; intros [|a l] N; cbn in *; try lia; [reflexivity|]. f_equal. apply IH. lia.
Qed.
Lemma fold_ext_app {A B} (g : list A -> B -> res (list A)) r :
  (forall b l l', g l b = Ret l' -> g (l ++ r) b = Ret (l' ++ r)) ->
  forall bs l l', foldM g l bs = Ret l' -> foldM g (l ++ r) bs = Ret (l' ++ r).
Proof.
  intros H bs. induction bs as [|b bs IH]; intros l l' E; cbn [foldM] in *; [congruence|].
  apply bind_Ret in E. destruct E as (l1 & E1 & E). rewrite (H b l l1 E1). cbn [bind]. now apply IH.
Qed.
Lemma at_ext_app (h : f32 -> f32) r (l l' : list f32) c :
  (let* x := zget l c in zset l c (h x)) = Ret l' -> (let* x := zget (l ++ r) c in zset (l ++ r) c (h x)) = Ret (l' ++ r).
Proof. intros E. apply bind_Ret in E. destruct E as (x & E1 & E2). rewrite (zget_ext_app _ r _ _ E1). cbn [bind]. now apply zset_ext_app. Qed.
Lemma proba_ext_app {K X} (lt : X -> K -> bool) p features out n o r :
  inline_predict_proba lt p features out n = Ret (0, o) -> inline_predict_proba lt p features (out ++ r) n = Ret (0, o ++ r).
Proof.
  assert (CL : forall l l' : list f32, clear_out l n = Ret l' -> clear_out (l ++ r) n = Ret (l' ++ r)).
  { unfold clear_out. intros l l'. apply fold_ext_app. intros b a a'. apply zset_ext_app. }
  assert (MN : forall nt (l l' : list f32), mean_out l n nt = Ret l' -> mean_out (l ++ r) n nt = Ret (l' ++ r)).
  { intros nt l l'. unfold mean_out. apply fold_ext_app. intros b a a'. apply (at_ext_app (fun x => fdiv x (f_of_Z nt))). }
  unfold inline_predict_proba. destruct (ip_leaf_bits p =? 0); intros E.
  - unfold inline_proba_hard in *. apply bind_Ret in E. destruct E as (o0 & E0 & E). apply bind_Ret in E. destruct E as (o1 & E1 & E).
    apply bind_Ret in E. destruct E as (o2 & E2 & E). injection E as <-. rewrite (CL _ _ E0). cbn [bind].
    erewrite fold_ext_app; [cbn [bind]; rewrite (MN _ _ _ E2); reflexivity| |exact E1].
    intros t a a' H. apply bind_Ret in H. destruct H as (k & Hk & H). rewrite Hk. cbn [bind]. now apply (at_ext_app (fun x => fadd x (f_of_Z 1))).
  - unfold inline_proba_soft in *. apply bind_Ret in E. destruct E as (o0 & E0 & E). apply bind_Ret in E. destruct E as (o1 & E1 & E).
    apply bind_Ret in E. destruct E as (o2 & E2 & E). injection E as <-. rewrite (CL _ _ E0). cbn [bind].
    erewrite fold_ext_app; [cbn [bind]; rewrite (MN _ _ _ E2); reflexivity| |exact E1].
    intros t a a' H. unfold inline_soft_step in *. apply bind_Ret in H. destruct H as (k & Hk & H). rewrite Hk. cbn [bind].
    apply bind_Ret in H. destruct H as (q & Hq & H). rewrite Hq. cbn [bind]. unfold add_proportions in *. revert H. apply fold_ext_app.
    intros c b b' H. apply bind_Ret in H. destruct H as (y & Hy & H). rewrite Hy. cbn [bind].
    now apply (at_ext_app (fun x => fadd x (fdiv (f_of_Z y) (f_of_Z 255)))).
Qed.
(** The run on an array that is long enough, from the run on its first [n] places. *)
Lemma proba_frame {K X} (lt : X -> K -> bool) p features (Q : Z -> f32 -> Prop) n (out : list f32) : 0 <= n <= zlen out ->
  (forall o0, n <= zlen o0 -> exists o, inline_predict_proba lt p features o0 n = Ret (0, o) /\ zlen o = zlen o0 /\ forall c, 0 <= c < n -> exists y, zget o c = Ret y /\ Q c y) ->
  exists out', inline_predict_proba lt p features out n = Ret (0, out') /\ zlen out' = zlen out /\
    (forall c, 0 <= c < n -> exists y, zget out' c = Ret y /\ Q c y) /\ forall i, n <= i -> zget out' i = zget out i.
Proof.
  intros Hn H. pose (a := firstn (Z.to_nat n) out). pose (r := skipn (Z.to_nat n) out).
  assert (La : length a = Z.to_nat n) by (unfold a; rewrite firstn_length; unfold zlen in Hn; lia).
  destruct (H a ltac:(unfold zlen; lia)) as (o & E & L & G). apply (proba_ext_app lt p features a n o r) in E.
  assert (EQ : a ++ r = out) by apply firstn_skipn. rewrite EQ in E. exists (o ++ r). split; [exact E|].
  assert (Lo : length o = Z.to_nat n) by (unfold zlen in L; lia). split.
  { rewrite <- EQ. unfold zlen. rewrite !app_length. lia. }
  split.
  - intros c Hc. destruct (G c Hc) as (y & Hy & Qy). exists y. split; [now apply zget_ext_app|exact Qy].
  - intros i Hi. rewrite <- EQ. unfold zget. destruct (Z.ltb_spec i 0); [lia|]. rewrite !nth_error_app2 by lia. rewrite La, Lo. reflexivity.
Qed.
