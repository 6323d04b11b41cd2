(** Sparse filterbanks with any indices; rounding errors of the filterbank, the window and the mean in float32. *)
From Coq Require Import ZArith List Bool Lia Reals Lra.
From Flocq Require Import Core BinarySingleNaN.
From Verif.Base Require Import Res CInt ListX Loops Float FloatOrder Arith Kernels RealSum.
From Verif.Model Require Import Common Vector Fft Audio.
From Verif.Spec Require Import RealSpec RoundingSpec FftSpec AudioSpec.
From Verif.Proof Require Import FloatMean FloatErr NetErr Libm Fft FftReal FftErr FftTable MelSpectrogram.
Import ListNotations.
Open Scope Z_scope.
Open Scope res_scope.

Lemma offset_0 s e : offset s e 0 = 0.
Proof. reflexivity. Qed.
Lemma offset_S s e i : 0 <= i -> offset s e (i + 1) = offset s e i + width s e i.
Proof. intros Hi. unfold offset. rewrite Res.zrange_S by lia. rewrite fold_left_app. reflexivity. Qed.
Lemma width_nonneg s e i : 0 <= width s e i.
Proof. unfold width. lia. Qed.
Lemma offset_mono s e i n : 0 <= i -> i <= n -> offset s e i <= offset s e n.
Proof.
  intros Hi Hn. assert (G : forall d, 0 <= d -> offset s e i <= offset s e (i + d)).
  { apply natlike_ind; [rewrite Z.add_0_r; lia|]. intros d Hd IH. replace (i + Z.succ d) with (i + d + 1) by lia. rewrite offset_S by lia.
    pose proof (width_nonneg s e (i + d)). lia. }
  replace n with (i + (n - i)) by lia. apply G. lia.
Qed.
Lemma zrange_neg n : n <= 0 -> zrange n = [].
Proof. intros H. unfold zrange. replace (Z.to_nat n) with 0%nat by lia. reflexivity. Qed.
Lemma zrange_width s e i : zrange (nthz e i - nthz s i + 1) = zrange (width s e i).
Proof. unfold width. destruct (Z.leb_spec (nthz e i - nthz s i + 1) 0). - rewrite Z.max_l by lia. rewrite !zrange_neg by lia. reflexivity. - rewrite Z.max_r by lia. reflexivity. Qed.
Lemma zget_nthz l i : 0 <= i < zlen l -> zget l i = Ret (nthz l i).
Proof. intros H. rewrite (zget_znth 0) by auto. reflexivity. Qed.

Lemma chk_inv x y : chk_int32 x = Ret y -> y = x /\ -2147483648 <= x < 2147483648.
Proof.
  unfold chk_int32, chk_signed. change (2 ^ (32 - 1)) with 2147483648.
  destruct (_ && _) eqn:G; [|discriminate]. intros E. injection E as <-. apply andb_true_iff in G as [G1 G2]. apply Z.leb_le in G1. apply Z.ltb_lt in G2. lia.
Qed.

Section Any.
Context (A : arith).
Notation num := (num A).

(** What filter i adds up. *)
Definition bank_fold (starts stops : list Z) (lut input : list num) (i n : Z) : num :=
  fold_left (fun o d => nadd A o (nmul A (znth (nzero A) input (nthz starts i + d)) (znth (nzero A) lut (offset starts stops i + d)))) (zrange n) (nzero A).

Lemma bank_ok input starts stops lut : bank_inside starts stops (zlen input) (zlen lut) ->
  sparse_filterbank_py A input starts stops lut =
  Ret (map (fun i => bank_fold starts stops lut input i (width starts stops i)) (zrange (zlen starts))).
Proof.
  intros (L & IN & OC & OI). change (2 ^ 31) with 2147483648 in OI. unfold sparse_filterbank_py.
  replace (zlen starts =? zlen stops) with true by (symmetry; apply Z.eqb_eq; lia). cbn [negb].
  set (n := zlen starts) in *. assert (Hn : 0 <= n) by apply zlen_nonneg.
  unfold eml_sparse_filterbank.
  assert (Z0 : foldM (fun o i => zset o i (nzero A)) (repeat (nzero A) (length starts)) (zrange n) = Ret (buf n (fun _ => nzero A))).
  { destruct (foldM_range_inv (fun o i => zset o i (nzero A)) (fun _ o => o = buf n (fun _ => nzero A)) n (repeat (nzero A) (length starts))) as (o & E & ->); auto.
    - unfold buf, zrange. rewrite !map_map. unfold n, zlen. rewrite Nat2Z.id. generalize (length starts). intros k. generalize 0%nat. induction k as [|k IH]; intros j; cbn [repeat seq map]; [reflexivity|]. f_equal. apply IH.
    - intros i o Hi ->. rewrite buf_set by lia. eexists. split; [reflexivity|]. apply buf_ext. intros p Hp. destruct (p =? i); reflexivity. }
  change (Arith.num A) with num in *. rewrite Z0. cbn [bind].
  set (v := fun i => bank_fold starts stops lut input i (width starts stops i)).
  match goal with |- context [foldM ?f _ (zrange n)] => set (body := f) end.
  destruct (foldM_range_inv body (fun k st => st = (buf n (fun p => if p <? k then v p else nzero A), offset starts stops k)) n (buf n (fun _ => nzero A), 0)) as (st & E & ->); auto.
  - rewrite offset_0. f_equal. apply buf_ext. intros p Hp. destruct (Z.ltb_spec p 0); [lia|reflexivity].
  - intros i st Hi ->. unfold body. rewrite !zget_nthz by (unfold n in *; lia). cbn [bind]. rewrite zrange_width.
    pose proof (offset_mono starts stops (i + 1) n ltac:(lia) ltac:(lia)) as OM. rewrite offset_S in OM by lia.
    pose proof (width_nonneg starts stops i) as W0.
    assert (O0 : 0 <= offset starts stops i) by (pose proof (offset_mono starts stops 0 i ltac:(lia) ltac:(lia)); rewrite offset_0 in *; lia).
    match goal with |- context [foldM ?f _ (zrange (width starts stops i))] => set (inner := f) end.
    destruct (foldM_range_inv inner (fun d st => st = (buf n (fun p => if p <? i then v p else if p =? i then bank_fold starts stops lut input i d else nzero A), offset starts stops i + d))
      (width starts stops i) (buf n (fun p => if p <? i then v p else nzero A), offset starts stops i)) as (st & E & ->); auto.
    + rewrite Z.add_0_r. f_equal. apply buf_ext. intros p Hp. destruct (Z.ltb_spec p i); [reflexivity|]. destruct (p =? i); reflexivity.
    + intros d st Hd ->. unfold inner. destruct (IN i Hi ltac:(lia)) as [I1 I2].
      rewrite (zget_znth (nzero A) lut) by lia. cbn [bind]. rewrite buf_get by lia. cbn [bind].
      assert (WI : width starts stops i = nthz stops i - nthz starts i + 1) by (unfold width in *; lia).
      rewrite (zget_znth (nzero A) input) by lia. cbn [bind]. rewrite buf_set by lia. cbn [bind].
      rewrite chk_int32_ok by (unfold int32_ok; lia). cbn [bind]. eexists. split; [reflexivity|]. f_equal; [|lia].
      apply buf_ext. intros p Hp. destruct (Z.eqb_spec p i) as [->|]; [|reflexivity]. rewrite Z.ltb_irrefl, Z.eqb_refl.
      destruct (Z.ltb_spec i i); [lia|]. unfold bank_fold. rewrite Res.zrange_S by lia. rewrite fold_left_app. reflexivity.
    + eexists. split; [exact E|]. rewrite offset_S by lia. f_equal. apply buf_ext. intros p Hp.
      destruct (Z.eqb_spec p i) as [->|].
      * destruct (Z.ltb_spec i i); [lia|]. destruct (Z.ltb_spec i (i + 1)); [reflexivity|lia].
      * destruct (Z.ltb_spec p i); destruct (Z.ltb_spec p (i + 1)); try lia; reflexivity.
  - rewrite E. cbn [bind]. f_equal. unfold buf. apply map_ext_in. intros p Hp. apply Kernels.zrange_In in Hp. destruct (Z.ltb_spec p n); [reflexivity|lia].
Qed.

(** A loop that returns went through all its states. *)
Lemma foldM_states {S} (f : S -> Z -> res S) n : 0 <= n -> forall s s', foldM f s (zrange n) = Ret s' ->
  exists st : Z -> S, st 0 = s /\ st n = s' /\ forall i, 0 <= i < n -> f (st i) i = Ret (st (i + 1)).
Proof.
  revert n. apply (natlike_ind (fun n => forall s s', foldM f s (zrange n) = Ret s' -> exists st : Z -> S, st 0 = s /\ st n = s' /\ forall i, 0 <= i < n -> f (st i) i = Ret (st (i + 1)))).
  - intros s s' E. cbn in E. injection E as <-. exists (fun _ => s). split; [reflexivity|]. split; [reflexivity|]. intros; lia.
  - intros n Hn IH s s' E. unfold Z.succ in *. rewrite Res.zrange_S, foldM_app in E by lia. apply bind_Ret in E as (s1 & E1 & E2).
    destruct (IH _ _ E1) as (st & S0 & S1 & Q). exists (fun i => if i <=? n then st i else s').
    split; [destruct (Z.leb_spec 0 n); [exact S0|lia]|]. split; [destruct (Z.leb_spec (n + 1) n); [lia|reflexivity]|].
    intros i Hi. destruct (Z.leb_spec i n); [|lia]. destruct (Z.leb_spec (i + 1) n).
    + apply Q. lia.
    + assert (i = n) as -> by lia. rewrite S1. cbn [foldM] in E2. apply bind_Ret in E2 as (s2 & E2 & E3). cbn [foldM] in E3. injection E3 as <-. exact E2.
Qed.

Lemma bank_only input starts stops lut out : sparse_filterbank_py A input starts stops lut = Ret out -> bank_inside starts stops (zlen input) (zlen lut).
Proof.
  unfold sparse_filterbank_py. destruct (Z.eqb_spec (zlen starts) (zlen stops)) as [L|L]; cbn [negb]; [|discriminate].
  set (n := zlen starts) in *. assert (Hn : 0 <= n) by apply zlen_nonneg. unfold eml_sparse_filterbank. intros E.
  apply bind_Ret in E as ([e r] & E & _). apply bind_Ret in E as (o & _ & E). apply bind_Ret in E as ([o' off] & E & _).
  match type of E with foldM ?f _ _ = _ => set (body := f) in E end.
  apply (foldM_states body n Hn) in E as (st & S0 & _ & Q).
  (* the offsets *)
  assert (OFF : forall i, 0 <= i -> i <= n -> snd (st i) = offset starts stops i).
  { intros i Hi. pattern i. apply natlike_ind; auto.
    - intros _. rewrite S0. reflexivity.
    - intros k Hk IH Kn. unfold Z.succ in *. specialize (IH ltac:(lia)). specialize (Q k ltac:(lia)). destruct (st k) as [ok fk] eqn:Ek. cbn [snd] in IH.
      unfold body in Q. rewrite !zget_nthz in Q by (unfold n in *; lia). cbn [bind] in Q. rewrite zrange_width in Q.
      apply foldM_states in Q; [|apply width_nonneg]. destruct Q as (st' & T0 & T1 & Q).
      assert (OI : forall d, 0 <= d -> d <= width starts stops k -> snd (st' d) = offset starts stops k + d).
      { intros d Hd. pattern d. apply natlike_ind; auto.
        - intros _. rewrite T0. cbn [snd]. lia.
        - intros d' Hd' IH' D'. unfold Z.succ in *. specialize (IH' ltac:(lia)). specialize (Q d' ltac:(lia)). destruct (st' d') as [od fd] eqn:Ed. cbn [snd] in IH'.
          apply bind_Ret in Q as (? & _ & Q). apply bind_Ret in Q as (? & _ & Q). apply bind_Ret in Q as (? & _ & Q). apply bind_Ret in Q as (? & _ & Q). apply bind_Ret in Q as (f' & C & Q).
          injection Q as Q. rewrite <- Q. cbn [snd]. apply chk_inv in C as [-> _]. lia. }
      rewrite offset_S by lia. rewrite <- T1. apply OI; [apply width_nonneg|lia]. }
  assert (STEP : forall i d, 0 <= i < n -> 0 <= d < width starts stops i ->
    0 <= nthz starts i + d < zlen input /\ offset starts stops i + d < zlen lut /\ offset starts stops i + d + 1 < 2147483648).
  { intros i d Hi Hd. specialize (Q i Hi). pose proof (OFF i ltac:(lia) ltac:(lia)) as Oi. destruct (st i) as [oi fi] eqn:Ei. cbn [snd] in Oi.
    unfold body in Q. rewrite !zget_nthz in Q by (unfold n in *; lia). cbn [bind] in Q. rewrite zrange_width in Q.
    apply foldM_states in Q; [|apply width_nonneg]. destruct Q as (st' & T0 & T1 & Q).
    assert (OI : forall d, 0 <= d -> d <= width starts stops i -> snd (st' d) = offset starts stops i + d).
    { intros d0 Hd0. pattern d0. apply natlike_ind; auto.
      - intros _. rewrite T0. cbn [snd]. lia.
      - intros d' Hd' IH' D'. unfold Z.succ in *. specialize (IH' ltac:(lia)). specialize (Q d' ltac:(lia)). destruct (st' d') as [od fd] eqn:Ed. cbn [snd] in IH'.
        apply bind_Ret in Q as (? & _ & Q). apply bind_Ret in Q as (? & _ & Q). apply bind_Ret in Q as (? & _ & Q). apply bind_Ret in Q as (? & _ & Q). apply bind_Ret in Q as (f' & C & Q).
        injection Q as Q. rewrite <- Q. cbn [snd]. apply chk_inv in C as [-> _]. lia. }
    specialize (Q d Hd). specialize (OI d ltac:(lia) ltac:(lia)). destruct (st' d) as [od fd] eqn:Ed. cbn [snd] in OI.
    apply bind_Ret in Q as (? & G1 & Q). apply bind_Ret in Q as (? & _ & Q). apply bind_Ret in Q as (? & G2 & Q). apply bind_Ret in Q as (? & _ & Q). apply bind_Ret in Q as (f' & C & Q).
    apply zget_bound in G1. apply zget_bound in G2. apply chk_inv in C as [_ C]. lia. }
  split; [lia|]. split; [|].
  - intros i Hi Hw. pose proof (STEP i 0 Hi ltac:(lia)) as S1. pose proof (STEP i (width starts stops i - 1) Hi ltac:(lia)) as S2.
    assert (WI : width starts stops i = nthz stops i - nthz starts i + 1) by (unfold width in *; lia). lia.
  - assert (B : forall k, 0 <= k -> k <= n -> offset starts stops k <= zlen lut /\ offset starts stops k < 2147483648).
    { intros k Hk. pattern k. apply natlike_ind; auto.
      - intros _. rewrite offset_0. pose proof (zlen_nonneg lut). lia.
      - intros j Hj IH Jn. unfold Z.succ in *. specialize (IH ltac:(lia)). rewrite offset_S by lia. pose proof (width_nonneg starts stops j).
        destruct (Z.eq_dec (width starts stops j) 0) as [W|W]; [rewrite W; lia|]. pose proof (STEP j (width starts stops j - 1) ltac:(lia) ltac:(lia)). lia. }
    change (2 ^ 31) with 2147483648. apply B; lia.
Qed.
End Any.

Lemma fold_left_real (n : Z) (f : Z -> R) : 0 <= n -> fold_left (fun o d => nadd real_arith o (Fin (f d))) (zrange n) (Fin 0) = Fin (sumr n f).
Proof.
  revert n. apply natlike_ind.
  - rewrite sumr_0 by lia. reflexivity.
  - intros n Hn IH. unfold Z.succ. rewrite Res.zrange_S, fold_left_app, IH, sumr_S by lia. reflexivity.
Qed.
Lemma fold_left_ext_any {X Y} (f g : X -> Y -> X) l : (forall o d, f o d = g o d) -> forall o, fold_left f l o = fold_left g l o.
Proof. intros E. induction l as [|d l IH]; intros o; cbn [fold_left]; [reflexivity|]. rewrite E. apply IH. Qed.
Lemma bank_real starts stops (c x : list R) : bank_inside starts stops (zlen x) (zlen c) ->
  sparse_filterbank_py real_arith (map Fin x) starts stops (map Fin c) = Ret (map (fun i => Fin (bank_value starts stops c x i)) (zrange (zlen starts))).
Proof.
  intros H. rewrite bank_ok. 2:{ change (num real_arith) with xreal. rewrite !Res.zlen_map. exact H. }
  f_equal. apply map_ext_in. intros i Hi. unfold bank_fold, bank_value.
  rewrite <- fold_left_real by apply width_nonneg. change (nzero real_arith) with (Fin 0).
  apply fold_left_ext_any. intros o d. unfold znth. rewrite !(map_nth Fin). reflexivity.
Qed.

Open Scope R_scope.
Section Float.
Context (ef lf tf : f32 -> f32).
Notation A32 := (f32_arith ef lf tf).

Lemma fin_at (x : list f32) j : Forall (fun v => is_finite v = true) x -> is_finite (znth (fzero : f32) x j) = true.
Proof.
  intros H. unfold znth. destruct (Nat.lt_ge_cases (Z.to_nat j) (length x)).
  - rewrite Forall_forall in H. apply H. apply nth_In. auto.
  - rewrite nth_overflow by auto. reflexivity.
Qed.
Lemma bank_err starts stops (c x : list f32) : bank_inside starts stops (zlen x) (zlen c) ->
  Forall (fun v => is_finite v = true) c -> Forall (fun v => is_finite v = true) x ->
  (forall i, (0 <= i < zlen starts)%Z -> (width starts stops i <= 8000000)%Z /\ bank_mag starts stops (vals c) (vals x) i <= max32) ->
  exists y, sparse_filterbank_py A32 x starts stops c = Ret y /\ zlen y = zlen starts /\ Forall (fun v => is_finite v = true) y /\
    forall i, (0 <= i < zlen starts)%Z ->
      Rabs (entry (vals y) i - bank_value starts stops (vals c) (vals x) i) <= 2 * IZR (width starts stops i + 1) * u24 * bank_mag starts stops (vals c) (vals x) i.
Proof.
  intros H Fc Fx HM. set (n := zlen starts) in *. assert (Hn : (0 <= n)%Z) by apply zlen_nonneg.
  assert (K : forall i, (0 <= i < n)%Z -> tracks (1 + Z.to_nat (width starts stops i)) (bank_mag starts stops (vals c) (vals x) i) (bank_value starts stops (vals c) (vals x) i)
     (bank_fold A32 starts stops c x i (width starts stops i))).
  { intros i Hi. destruct (HM i Hi) as [W M]. pose proof (width_nonneg starts stops i) as W0. unfold bank_fold.
    apply (tracks_sum (width starts stops i) _ (fun d => fmul (znth (fzero : f32) x (nthz starts i + d)) (znth (fzero : f32) c (offset starts stops i + d))) 1).
    - intros; reflexivity.
    - intros d Hd. rewrite !entry_vals. apply (tracks_mul 0 0); [apply tracks_exact, fin_at, Fx|apply tracks_exact, fin_at, Fc|simpl; lra|].
      rewrite <- !entry_vals. apply Rle_trans with (bank_mag starts stops (vals c) (vals x) i); [|pose proof max32_pos; lra].
      assert (TP : 0 < tiny32) by apply tiny32_pos.
      apply Rle_trans with (Rabs (entry (vals x) (nthz starts i + d)) * Rabs (entry (vals c) (offset starts stops i + d)) + tiny32); [lra|].
      apply (sumr_le1 (width starts stops i) (fun d => Rabs (entry (vals x) (nthz starts i + d)) * Rabs (entry (vals c) (offset starts stops i + d)) + tiny32)); auto.
      intros j Hj. assert (0 <= Rabs (entry (vals x) (nthz starts i + j)) * Rabs (entry (vals c) (offset starts stops i + j))) by (apply Rmult_le_pos; apply Rabs_pos). lra.
    - rewrite plus_INR, INR_to_nat by lia. simpl (INR 1). assert (IZR (width starts stops i) <= 8000000) by (apply IZR_le; lia). lra.
    - unfold bank_mag in M. pose proof max32_pos. lra.
    - exact W0. }
  eexists. split; [apply bank_ok; exact H|]. fold n.
  assert (N1 : forall k, (0 <= k < n)%Z -> znth (fzero : f32) (map (fun i => bank_fold A32 starts stops c x i (width starts stops i)) (zrange n)) k = bank_fold A32 starts stops c x k (width starts stops k)).
  { intros k Hk. pose proof (buf_get n (fun i => bank_fold A32 starts stops c x i (width starts stops i) : f32) k Hk) as G. unfold buf in G. rewrite (zget_znth (fzero : f32)) in G by (rewrite Res.zlen_map, zlen_zrange'; lia). now injection G. }
  split; [change (num A32) with f32; rewrite Res.zlen_map, zlen_zrange'; lia|]. split.
  - apply Forall_forall. intros y Hy. apply in_map_iff in Hy. destruct Hy as (i & <- & Hi). apply Kernels.zrange_In in Hi. apply (K i Hi).
  - intros i Hi. rewrite entry_vals. specialize (N1 i Hi). match type of N1 with ?a = _ => match goal with |- Rabs (B2R ?b - _) <= _ => change b with a end end. rewrite N1. destruct (K i Hi) as (_ & D & _). eapply Rle_trans; [exact D|].
    pose proof (width_nonneg starts stops i) as W0. destruct (HM i Hi) as [W M].
    assert (IZR (width starts stops i) <= 8000000) by (apply IZR_le; lia).
    pose proof (rel_lin (1 + Z.to_nat (width starts stops i))) as RL. rewrite plus_INR, INR_to_nat in RL by lia. simpl (INR 1) in RL. specialize (RL ltac:(lra)).
    rewrite plus_IZR. apply Rmult_le_compat_r; [|lra]. apply (tracks_T _ _ _ _ (K i Hi)).
Qed.

(** ** The Hann window *)
Context (cosf sinf : f32 -> f32) (ed ld td cosd : f64 -> f64).
Notation T := (c_trig ef lf tf cosf sinf ed ld td cosd).

(** (float)(0.5 * (1 - cos(2*M_PI*i/(length-1)))) *)
Lemma window_close e n i : cos_within e cosd -> 0 <= e <= 1 -> (2 <= n <= 2147483647)%Z -> (0 <= i < n)%Z ->
  let m := t_D_down T (nmul (t_D T) (nhalf (t_D T)) (nsub (t_D T) (none_ (t_D T)) (t_D_cos T (turn A32 T i (n - 1))))) : f32 in
  is_finite m = true /\ Rabs (B2R m - hann n i) <= e / 2 + 3 * u24.
Proof.
  intros HC He Hn Hi. cbv zeta.
  change (t_D_down T (nmul (t_D T) (nhalf (t_D T)) (nsub (t_D T) (none_ (t_D T)) (t_D_cos T (turn A32 T i (n - 1))))))
    with (f32_of_f64 (fmul (f_of_ZE 1 (-1)) (fsub (f_of_Z 1) (cosd (dturn i (n - 1)))))).
  destruct (dturn_close i (n - 1) ltac:(lia) ltac:(lia)) as [Ft Dt]. pose proof PI_le4 as P4.
  set (t := 2 * PI * IZR i / IZR (n - 1)) in *.
  assert (N1 : 1 <= IZR (n - 1)) by (apply IZR_le; lia). assert (I0 : 0 <= IZR i) by (apply IZR_le; lia). assert (I1 : IZR i <= IZR (n - 1)) by (apply IZR_le; lia).
  assert (B4 : 0 <= t <= 64 / 10).
  { unfold t. assert (P2 : 0 <= 2 * PI * IZR i) by (apply Rmult_le_pos; lra). split; [apply Rmult_le_pos; [exact P2|left; apply Rinv_0_lt_compat; lra]|].
    apply Rmult_le_reg_r with (IZR (n - 1)); [lra|]. unfold Rdiv at 1. rewrite Rmult_assoc, Rinv_l by lra. nra. }
  apply Rabs_le_inv in Dt. destruct (HC (dturn i (n - 1)) Ft) as [Fc Dc]. { apply Rabs_le. lra. }
  pose proof (cos_lip (B2R (dturn i (n - 1))) t) as L. assert (L' : Rabs (B2R (dturn i (n - 1)) - t) <= / 1000000000000) by (apply Rabs_le; lra).
  apply Rabs_le_inv in Dc. assert (L2 : Rabs (cos (B2R (dturn i (n - 1))) - cos t) <= / 1000000000000) by lra. apply Rabs_le_inv in L2. clear L L'.
  pose proof (COS_bound t) as CB. set (c := cosd (dturn i (n - 1))) in *. set (ct := cos t) in *. set (c0 := cos (B2R (dturn i (n - 1)))) in *.
  assert (Dc' : - (e + / 1000000000000) <= B2R c - ct <= e + / 1000000000000) by lra. clear Dc L2. clearbody c c0.
  (* 1 - c *)
  destruct (f_of_Z_exact (prec := 53) (emax := 1024) 1 ltac:(vm_compute; discriminate)) as [V1 F1]. change (B2R (f_of_Z 1 : f64) = IZR 1) in V1.
  assert (P1024 : 64 < bpow radix2 1024) by (change 64 with (bpow radix2 6); apply bpow_lt; lia).
  assert (S : is_finite (fsub (f_of_Z 1) c) = true /\ Rabs (B2R (fsub (f_of_Z 1) c) - (1 - B2R c)) <= 5 * / 1125899906842624).
  { pose proof (Bminus_correct 53 1024 _ _ mode_NE (f_of_Z 1) c F1 Fc) as C. simpl round_mode in C. rewrite V1 in C.
    pose proof (rnd64_close (IZR 1 - B2R c)) as R1. assert (AB : Rabs (IZR 1 - B2R c) <= 3 + / 1000000000000) by (apply Rabs_le; lra).
    rewrite Rlt_bool_true in C.
    - destruct C as (C1 & C2 & _). split; [exact C2|]. change (B2R (fsub (f_of_Z 1) c)) with (B2R (Bminus mode_NE (f_of_Z 1) c)). rewrite C1. eapply Rle_trans; [exact R1|]. lra.
    - replace (round radix2 (SpecFloat.fexp 53 1024) ZnearestE (IZR 1 - B2R c)) with ((rnd64 (IZR 1 - B2R c) - (IZR 1 - B2R c)) + (IZR 1 - B2R c)) by ring.
      eapply Rle_lt_trans; [apply Rabs_triang|]. lra. }
  destruct S as [Fs Ds]. set (s := fsub (f_of_Z 1) c : f64) in *. change (fsub (f_of_Z 1) c) with s. clearbody s. apply Rabs_le_inv in Ds.
  (* half of it *)
  assert (Fh : is_finite (f_of_ZE 1 (-1) : f64) = true) by (vm_compute; reflexivity).
  assert (Vh : B2R (f_of_ZE 1 (-1) : f64) = / 2).
  { rewrite <- SF2R_B2SF. replace (B2SF (f_of_ZE 1 (-1) : f64)) with (SpecFloat.S754_finite false 4503599627370496 (-53)) by (vm_compute; reflexivity).
    unfold SF2R, F2R. cbn [cond_Zopp Fnum Fexp]. change (bpow radix2 (-53)) with (/ 9007199254740992). lra. }
  destruct (fmul_correct (prec := 53) (emax := 1024) (f_of_ZE 1 (-1)) s Fh Fs) as [Vm Fm].
  { change (IZR (2 ^ 53)) with 9007199254740992. rewrite Vh. apply Rabs_le. lra. }
  change (B2R (fmul (f_of_ZE 1 (-1)) s : f64) = rnd64 (B2R (f_of_ZE 1 (-1) : f64) * B2R s)) in Vm. rewrite Vh in Vm.
  pose proof (rnd64_close (/ 2 * B2R s)) as R2. rewrite <- Vm in R2. assert (AB : Rabs (/ 2 * B2R s) <= 2) by (apply Rabs_le; lra).
  set (h := fmul (f_of_ZE 1 (-1)) s : f64) in *. change (fmul (f_of_ZE 1 (-1)) s) with h. change (is_finite h = true) in Fm. clearbody h.
  assert (R2' : Rabs (B2R h - / 2 * B2R s) <= 3 * / 1125899906842624) by lra. apply Rabs_le_inv in R2'.
  (* to float *)
  assert (P126 : 4 <= bpow radix2 126) by (change 4 with (bpow radix2 2); apply bpow_le; lia).
  assert (BH : Rabs (B2R h) <= 2) by (apply Rabs_le; lra).
  destruct (f32_close h Fm ltac:(lra)) as [F' D']. split; [exact F'|].
  assert (P150 : bpow radix2 (-150) <= / 1073741824) by (change (/ 1073741824) with (bpow radix2 (-30)); apply bpow_le; lia).
  assert (Rabs (B2R h) * u24 <= 2 * u24) by (apply Rmult_le_compat_r; lra).
  apply Rabs_le_inv in D'. unfold hann. fold t. fold ct. apply Rabs_le. lra.
Qed.

Lemma hann_err e (x : list f32) : cos_within e cosd -> 0 <= e <= / 8 -> (2 <= zlen x <= 2147483647)%Z ->
  Forall (fun v => is_finite v = true /\ Rabs (B2R v) <= max32) x ->
  exists y, eml_signal_hann_apply A32 T x (zlen x) = Ret (EmlOk, y) /\ zlen y = zlen x /\ Forall (fun v => is_finite v = true) y /\
  forall i, (0 <= i < zlen x)%Z -> Rabs (entry (vals y) i - hann (zlen x) i * entry (vals x) i) <= (e + 5 * u24) * Rabs (entry (vals x) i) + u24 * tiny32.
Proof.
  intros HC He Hn HX. set (n := zlen x) in *.
  pose proof (hann_ok A32 T x n eq_refl) as E. change (num A32) with f32 in E.
  set (w := fun i => t_D_down T (nmul (t_D T) (nhalf (t_D T)) (nsub (t_D T) (none_ (t_D T)) (t_D_cos T (turn A32 T i (n - 1))))) : f32).
  assert (K : forall i, (0 <= i < n)%Z -> is_finite (fmul (w i) (znth (fzero : f32) x i)) = true /\
    Rabs (B2R (fmul (w i) (znth (fzero : f32) x i)) - hann n i * B2R (znth (fzero : f32) x i)) <= (e + 5 * u24) * Rabs (B2R (znth (fzero : f32) x i)) + u24 * tiny32).
  { intros i Hi. destruct (window_close e n i HC ltac:(lra) ltac:(lia) Hi) as [Fw Dw]. fold (w i) in Fw, Dw.
    assert (J : is_finite (znth (fzero : f32) x i) = true /\ Rabs (B2R (znth (fzero : f32) x i)) <= max32).
    { rewrite Forall_forall in HX. apply HX. unfold znth. apply nth_In. unfold n, zlen in Hi. lia. }
    destruct J as [Fv Bv]. set (v := znth (fzero : f32) x i) in *. clearbody v.
    assert (HB : 0 <= hann n i <= 1) by (unfold hann; pose proof (COS_bound (2 * PI * IZR i / IZR (n - 1))); lra).
    pose proof max32_pos as MP. pose proof max32_126 as M126. apply Rabs_le_inv in Dw. pose proof (Rabs_pos (B2R v)) as V0.
    assert (WB : Rabs (B2R (w i)) <= 11 / 10) by (apply Rabs_le; lra).
    destruct (fmul32 (w i) v Fw Fv) as (F & e1 & n1 & E1 & N1 & V).
    { rewrite M126, Rabs_mult. apply Rle_trans with (11 / 10 * max32); [apply Rmult_le_compat; auto using Rabs_pos|lra]. }
    split; [exact F|]. rewrite V. replace (B2R (w i) * B2R v * (1 + e1) + n1 - hann n i * B2R v) with ((B2R (w i) - hann n i) * B2R v + (B2R (w i) * B2R v * e1 + n1)) by ring.
    eapply Rle_trans; [apply Rabs_triang|]. eapply Rle_trans; [apply Rplus_le_compat_l; apply Rabs_triang|]. rewrite !Rabs_mult, tiny_u.
    assert (Rabs (B2R (w i) - hann n i) * Rabs (B2R v) <= (e / 2 + 3 * u24) * Rabs (B2R v)) by (apply Rmult_le_compat_r; [auto|apply Rabs_le; lra]).
    assert (Rabs (B2R (w i)) * Rabs (B2R v) * Rabs e1 <= (11 / 10 * Rabs (B2R v)) * u24).
    { apply Rmult_le_compat; auto using Rabs_pos; [apply Rmult_le_pos; apply Rabs_pos|]. apply Rmult_le_compat_r; auto. }
    nra. }
  eexists. split; [exact E|].
  assert (N1 : forall k, (0 <= k < n)%Z -> znth (fzero : f32) (map (fun i => fmul (w i) (znth (fzero : f32) x i)) (zrange n)) k = fmul (w k) (znth (fzero : f32) x k)).
  { intros k Hk. pose proof (buf_get n (fun i => fmul (w i) (znth (fzero : f32) x i)) k Hk) as G. unfold buf in G. rewrite (zget_znth (fzero : f32)) in G by (rewrite Res.zlen_map, zlen_zrange'; lia). now injection G. }
  split; [change (num A32) with f32; rewrite Res.zlen_map, zlen_zrange'; lia|]. split.
  - apply Forall_forall. intros y Hy. apply in_map_iff in Hy. destruct Hy as (i & <- & Hi). apply Kernels.zrange_In in Hi. apply (K i Hi).
  - intros i Hi. rewrite !entry_vals. specialize (N1 i Hi). specialize (K i Hi). destruct K as [_ K].
    match goal with |- Rabs (B2R (znth _ ?l i) - _) <= _ => change (znth fzero l i) with (znth (fzero : f32) (map (fun i => fmul (w i) (znth (fzero : f32) x i)) (zrange n)) i) end.
    rewrite N1. exact K.
Qed.
Lemma mean_err B (x : list f32) : 0 <= B <= max32 -> (1 <= zlen x <= 8388608)%Z -> Forall (fun v => is_finite v = true /\ Rabs (B2R v) <= B) x ->
  exists y : f32, eml_signal_mean A32 T x (zlen x) = Ret y /\ is_finite y = true /\
    Rabs (B2R y - rsum (vals x) / IZR (zlen x)) <= (IZR (zlen x) + 3) * B * u24 + bpow radix2 (-150).
Proof.
  intros HB Hn HX. destruct (mean32_gen x B HB Hn HX) as [F D]. cbv zeta in F, D.
  exists (fdiv (fold_left fadd x fzero) (f_of_Z (zlen x))). split; [|split; [exact F|exact D]].
  assert (E : foldM (fun (sum : f32) i => let* v := zget x i in Ret (fadd sum v)) fzero (zrange (zlen x)) = Ret (fold_left fadd x fzero)).
  { rewrite (foldM_index (fun (sum v : f32) => Ret (fadd sum v)) x), (foldM_pure (fun (sum v : f32) => fadd sum v)). reflexivity. }
  exact (f_equal (fun r => let* sum := r in Ret (fdiv sum (f_of_Z (zlen x)))) E).
Qed.
End Float.
