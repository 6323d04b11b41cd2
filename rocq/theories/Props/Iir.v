(** IIR filter: properties C38, C57. *)
From Coq Require Import ZArith List Bool Lia Reals Lra.
From Flocq Require Import Core BinarySingleNaN.
From Verif.Base Require Import Res CInt ListX Loops Float Arith Kernels.
From Verif.Model Require Import Common Iir.
From Verif.Spec Require Import IirSpec.
From Verif.Proof Require Import Iir.
Import ListNotations.
Open Scope Z_scope.
Open Scope res_scope.

(** ** C38 *)
(** Exact arithmetic, zero initial state: the cascade of the difference equations (which has
    exactly one solution). *)
Theorem C38_difference_equation (ss : list (sos R)) off mem xs : 6 * zlen ss < 2 ^ 31 -> region_ok real_arith mem off (zlen ss) ->
  (forall i, off <= i < off + 4 * zlen ss -> zget mem i = Ret (Fin 0)) ->
  exists ys mem', feed real_arith (filter_of real_arith (map (sos_map Fin) ss) off) mem (map Fin xs) = Ret (map Fin ys, mem') /\
    cascade ss xs ys.
Proof. apply filter_real. Qed.
Theorem C38_unique ss x y y' : cascade ss x y -> cascade ss x y' -> y = y'.
Proof. apply cascade_unique. Qed.
(** Any arithmetic: the state carries over blocks. *)
Theorem C38_blocks A (f : iir A) mem xs1 xs2 : feed A f mem (xs1 ++ xs2) =
  let* (ys1, mem1) := feed A f mem xs1 in
  let* (ys2, mem2) := feed A f mem1 xs2 in Ret (ys1 ++ ys2, mem2).
Proof. apply feed_blocks. Qed.
(** Any arithmetic, any initial states, any interleaving of the calls of two filters whose states do
    not overlap: each gives what it gives alone. *)
Theorem C38_two_filters A ss1 ss2 o1 o2 mem xs :
  6 * zlen ss1 < 2 ^ 31 -> 6 * zlen ss2 < 2 ^ 31 -> region_ok A mem o1 (zlen ss1) -> region_ok A mem o2 (zlen ss2) ->
  o1 + 4 * zlen ss1 <= o2 \/ o2 + 4 * zlen ss2 <= o1 ->
  exists ys zs m m1 m2,
    feed2 A (filter_of A ss1 o1) (filter_of A ss2 o2) mem xs = Ret (ys, zs, m) /\
    feed A (filter_of A ss1 o1) mem (inputs_of A true xs) = Ret (ys, m1) /\
    feed A (filter_of A ss2 o2) mem (inputs_of A false xs) = Ret (zs, m2).
Proof. apply two_filters. Qed.
(** One call stays inside the states of its filter. *)
Theorem C38_frame A ss off mem x : 6 * zlen ss < 2 ^ 31 -> region_ok A mem off (zlen ss) ->
  exists y mem', eml_iir_filter A (filter_of A ss off) mem x = Ret (y, mem') /\ zlen mem' = zlen mem /\
    (forall i, i < off \/ off + 4 * zlen ss <= i -> zget mem' i = zget mem i).
Proof.
  intros B R. destruct (states_exist A mem off (zlen ss) (zlen_nonneg _) R) as (sts & L & S). destruct R as [R1 R2].
  pose proof (filter_ok A ss off sts mem x B R1 L S R2) as F. destruct (casc A ss sts x) as [y sts'].
  destruct F as (mem' & E & LM & _ & _ & FR). exists y, mem'. auto.
Qed.
(** The check accepts exactly the filters with room for states and coefficients. *)
Theorem C38_check A (f : iir A) : 6 * Z.abs (i_n_stages A f) < 2 ^ 31 ->
  (eml_iir_check A f = Ret EmlOk <->
   1 <= i_n_stages A f /\ i_states_length A f = 4 * i_n_stages A f /\ i_coefficients_length A f = 6 * i_n_stages A f).
Proof.
  intros B. unfold eml_iir_check. destruct (Z.leb_spec 1 (i_n_stages A f)); cbn [negb].
  - rewrite !chk_int32_ok by (unfold int32_ok; lia). cbn [bind].
    destruct (Z.eqb_spec (i_states_length A f) (i_n_stages A f * 4)); cbn [negb].
    + destruct (Z.eqb_spec (i_coefficients_length A f) (i_n_stages A f * 6)); cbn [negb]; split; intros; try congruence; try lia; intuition lia.
    + split; intros; [congruence|lia].
  - split; intros; [congruence|lia].
Qed.
Definition fz (z : Z) : f32 := f_of_Z z.
Definition fval (x : f32) (z : Z) : bool := fleb x (fz z) && fleb (fz z) x.
(** Two sections, integer coefficients, in float32: impulse response of (1 + 2z^-1 + 3z^-2)/(1 - z^-1)
    is 1, 3, 6, 6; followed by a gain 2 with a one-sample echo. *)
Example C38_instance ef lf tf :
  let A := f32_arith ef lf tf in
  let s1 : sos (num A) := mk_sos (fz 1) (fz 2) (fz 3) (fz 1) (fz (-1)) (fz 0) in
  let s2 : sos (num A) := mk_sos (fz 2) (fz 2) (fz 0) (fz 1) (fz 0) (fz 0) in
  (let* (ys, m) := feed A (filter_of A [s1; s2] 1) (repeat (fz 0) 10) [fz 1; fz 0; fz 0; fz 0] in
   Ret (map (fun '(y, z) => fval y z) (combine ys [2; 8; 18; 24]), zlen ys)) = Ret ([true; true; true; true], 4).
Proof. vm_compute. reflexivity. Qed.

(** ** C57: the Python binding *)
(** With six columns the binding runs the filter from zero states. *)
Theorem C57_iirfilter_partial A (ss : list (sos (num A))) data : 1 <= zlen ss -> 6 * zlen ss < 2 ^ 31 ->
  exists ys mem', iirfilter_py A (flat_map sos_list ss) (zlen ss) data = Ret ys /\
    feed A (filter_of A ss 0) (repeat (nzero A) (Z.to_nat (4 * zlen ss))) data = Ret (ys, mem').
Proof.
  intros H1 H2. destruct (iirfilter_py_ok A ss data H1 H2) as [mem' E].
  assert (R : region_ok A (repeat (nzero A) (Z.to_nat (4 * zlen ss))) 0 (zlen ss)).
  { split; [lia|]. unfold zlen at 2. rewrite repeat_length. lia. }
  destruct (states_exist A _ 0 (zlen ss) (zlen_nonneg _) R) as (sts & L & S).
  pose proof (feed_ok A ss 0 H2 ltac:(lia) data [] sts _ L S (proj2 R)) as F. destruct (run A ss sts data) as [ys sts'].
  destruct F as (m2 & F & _). unfold feed in E. unfold feed_body in F. rewrite F in E.
  destruct (iirfilter_py A (flat_map sos_list ss) (zlen ss) data) as [ys2|]; cbn [bind] in E; [|discriminate].
  exists ys2, m2. split; [reflexivity|]. unfold feed. rewrite F. injection E as <- _. reflexivity.
Qed.
(** ... in exact arithmetic the cascade of difference equations. *)
Theorem C57_iirfilter_exact_partial (ss : list (sos R)) xs : 1 <= zlen ss -> 6 * zlen ss < 2 ^ 31 ->
  exists ys, iirfilter_py real_arith (flat_map sos_list (map (sos_map Fin) ss)) (zlen ss) (map Fin xs) = Ret (map Fin ys) /\ cascade ss xs ys.
Proof.
  intros H1 H2.
  assert (ZM : @zlen (sos (num real_arith)) (map (sos_map Fin) ss) = zlen ss) by apply (zlen_map (sos_map Fin) ss).
  destruct (C57_iirfilter_partial real_arith (map (sos_map Fin) ss) (map Fin xs)) as (ys & m & E1 & E2); try (rewrite ZM; lia).
  rewrite ZM in E1, E2. set (mem := repeat (nzero real_arith) (Z.to_nat (4 * zlen ss))) in *.
  assert (LM : zlen mem = 4 * zlen ss) by (unfold mem, zlen at 1; rewrite repeat_length; lia).
  destruct (filter_real ss 0 mem xs H2) as (ys' & m' & E3 & C).
  - split; lia.
  - intros i Hi. destruct (zget_ok mem i ltac:(lia)) as [v Ev]. rewrite Ev. f_equal. apply zget_In in Ev.
    apply repeat_spec in Ev. exact Ev.
  - assert (EQ : Ret (ys, m) = Ret (map Fin ys', m')) by (rewrite <- E2; exact E3). injection EQ as -> _.
    exists ys'. split; [exact E1|exact C].
Qed.
(** The number of columns is not checked: with five, memory behind the matrix is read. *)
Theorem C57_columns_refuted A (rows : list (list (num A))) data : rows <> [] -> Forall (fun r => zlen r = 5) rows ->
  iirfilter_py A (List.concat rows) (zlen rows) data = Err OutOfBounds.
Proof.
  intros NE F. assert (L : zlen (List.concat rows) = 5 * zlen rows).
  { clear NE. induction F as [|r rows E F IH]; [reflexivity|]. simpl. rewrite zlen_app, IH, E. unfold zlen; simpl; lia. }
  assert (P : 1 <= zlen rows) by (destruct rows; [congruence|unfold zlen; simpl; lia]).
  unfold iirfilter_py.
  assert (G : forall l, (exists i, In i l /\ zlen (List.concat rows) <= i) -> (forall i, In i l -> 0 <= i) ->
     mapM (fun i => zget (List.concat rows) i) l = Err OutOfBounds).
  { induction l as [|i l IH]; intros (k & Ik & Hk) Hp; [destruct Ik|]. simpl.
    destruct (Z.lt_ge_cases i (zlen (List.concat rows))) as [Li|Li].
    - destruct (zget_ok (List.concat rows) i) as [v Ev]; [split; [apply Hp; now left|lia]|]. rewrite Ev. cbn [bind].
      rewrite IH; [reflexivity| |intros; apply Hp; now right]. exists k. split; [|lia]. destruct Ik as [->|Ik]; [lia|auto].
    - replace (zget (List.concat rows) i) with (@Err (num A) OutOfBounds); [reflexivity|].
      unfold zget. destruct (Z.ltb_spec i 0); [reflexivity|]. destruct (nth_error _ _) eqn:EN; [|reflexivity].
      assert (K : nth_error (List.concat rows) (Z.to_nat i) <> None) by congruence. apply nth_error_Some in K. unfold zlen in Li. lia. }
  rewrite G; [reflexivity| |].
  - exists (6 * zlen rows - 1). split; [|lia]. unfold zrange. apply in_map_iff. exists (Z.to_nat (6 * zlen rows - 1)). split; [lia|]. apply in_seq. lia.
  - intros i Hi. apply zrange_In in Hi. lia.
Qed.
Example C57_instance ef lf tf :
  let A := f32_arith ef lf tf in
  (let* ys := iirfilter_py A [fz 1; fz 2; fz 3; fz 1; fz (-1); fz 0] 1 [fz 1; fz 0; fz 0] in
   Ret (map (fun '(y, z) => fval y z) (combine ys [1; 3; 6]))) = Ret [true; true; true].
Proof. vm_compute. reflexivity. Qed.
