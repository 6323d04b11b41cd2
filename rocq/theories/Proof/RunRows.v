(** Rows of integers through the test program: they arrive exactly, and their text fits the line buffer. *)
From Coq Require Import String ZArith List Bool Lia Reals Lra.
From Flocq Require Import Core BinarySingleNaN.
From Verif.Base Require Import Res CInt ListX Loops Float FloatOrder Kernels.
From Verif.Model Require Import Common Text TreesConvert TreesC TreesWrapper TreesRun Cgen Harness.
From Verif.Spec Require Import ClassifierSpec CgenSpec HarnessSpec RunSpec.
From Verif.Proof Require Import FixedPoint Text Cgen Quantize TreesMisc Harness.
Import ListNotations.
Open Scope Z_scope.
Open Scope res_scope.

(** ** Length of the text *)
Lemma dec_fuel_len f : forall n j, (1 <= j)%nat -> 0 <= n < 10 ^ Z.of_nat j -> (length (dec_fuel f n) <= j)%nat.
Proof.
  induction f as [|f IH]; intros n j J H; cbn [dec_fuel]; [cbn; lia|].
  destruct (Z.ltb_spec n 10); [cbn; lia|]. rewrite app_length. cbn [length].
  destruct j as [|[|j]]; [lia| cbn in H; lia|]. specialize (IH (n / 10) (S j) ltac:(lia)).
  assert (0 <= n / 10 < 10 ^ Z.of_nat (S j)); [|lia].
  replace (10 ^ Z.of_nat (S (S j))) with (10 * 10 ^ Z.of_nat (S j)) in H by (rewrite <- Z.pow_succ_r by lia; f_equal; lia).
  split; [apply Z.div_pos; lia|apply Z.div_lt_upper_bound; lia].
Qed.
Lemma pad_digits_len k : forall r, length (pad_digits k r) = k.
Proof. induction k; intros r; cbn [pad_digits]; [reflexivity|]. rewrite app_length, IHk. cbn. lia. Qed.

Lemma fmt_int16_len (v : f64) z : is_finite v = true -> B2R v = IZR z -> -32768 <= z <= 32767 -> (length (fmt_fixed 8 v) <= 15)%nat.
Proof.
  intros F V B. unfold fmt_fixed.
  assert (E : scaled_int 8 v = Z.abs z * 10 ^ 8).
  { rewrite scaled_int_ok by exact F. rewrite V, <- abs_IZR, <- mult_IZR. apply ZnE_IZR. }
  assert (L : (length ((if Bsign v then [45%Z] else []) ++ dec_digits (scaled_int 8 v / 10 ^ Z.of_nat 8) ++ [46%Z] ++
    pad_digits 8 (scaled_int 8 v mod 10 ^ Z.of_nat 8)) <= 15)%nat).
  { rewrite !app_length, pad_digits_len, E. change (Z.of_nat 8) with 8. rewrite Z.div_mul by lia.
    pose proof (dec_fuel_len (S (Z.to_nat (Z.log2 (Z.abs z)))) (Z.abs z) 5 ltac:(lia)) as D.
    change (10 ^ Z.of_nat 5) with 100000 in D. unfold dec_digits. destruct (Bsign v); cbn [length]; lia. }
  destruct v as [s|s| |s m e H]; try discriminate; exact L.
Qed.

Lemma int16_text nf row features : int16_row row features -> zlen row = nf -> 1 <= nf <= 127 ->
  row <> [] /\ Forall (fun v => is_finite v = true) row /\ zlen (serialize_row row) <= 2046.
Proof.
  intros H L B. split; [intros ->; unfold zlen in L; cbn in L; lia|]. split.
  - clear - H. induction H as [|v z row fs (F & _) H IH]; constructor; auto.
  - unfold serialize_row. assert (G : Forall (fun p => (length p <= 15)%nat) (map (fmt_fixed 8) row)).
    { apply Forall_map. clear - H. induction H as [|v z row fs (F & V & Z) H IH]; constructor; auto. eapply fmt_int16_len; eauto. }
    unfold zlen in *.
    assert (length row <= 127)%nat by lia. destruct row as [|v row]; [cbn in *; lia|].
    clear - H0 G. (* one separator fewer than values *)
    assert (K : (length (join_with (txt ",") (map (fmt_fixed 8%nat) (v :: row))) <= 16 * length row + 15)%nat).
    { clear H0. revert v G. induction row as [|u row IH]; intros v G; inversion G as [|? ? G1 G2]; subst.
      - cbn [map join_with length]. lia.
      - specialize (IH u G2). cbn [map] in IH |- *. change (join_with (txt ",") (fmt_fixed 8 v :: fmt_fixed 8 u :: map (fmt_fixed 8) row))
          with (fmt_fixed 8 v ++ txt "," ++ join_with (txt ",") (fmt_fixed 8 u :: map (fmt_fixed 8) row)).
        rewrite !app_length. cbn [length] in *. change (length (txt ",")) with 1%nat. lia. }
    cbn [length] in *. lia.
Qed.

Lemma int16_rows_fit nf X : int16_rows nf X -> 1 <= nf <= 127 ->
  X <> [] /\ Forall good_row X /\ all_fit (map serialize_row X) /\ zlen X <= 2147483647.
Proof.
  intros (NX & LX & FX) B. split; [exact NX|].
  assert (G : Forall (fun row => row <> [] /\ Forall (fun v => is_finite v = true) row /\ zlen (serialize_row row) <= 2046) X).
  { eapply Forall_impl; [|exact FX]. intros row (L & fs & H). eapply int16_text; eauto. }
  split; [eapply Forall_impl; [|exact G]; intros r (A & C & _); split; assumption|]. split; [|exact LX].
  clear - G. induction G as [|row X (_ & _ & H) F IH]; cbn [map all_fit]; [exact I|]. split; [|exact IH]. unfold zlen in H.
  destruct (map serialize_row X); unfold fits; lia.
Qed.

(** ** Values *)
Lemma holds_get row values i v : holds row values -> zget row i = Ret v ->
  exists w : f32, zget values i = Ret (Some w) /\ through_decimals 8 (B2R v) w.
Proof.
  intros (ws & F & E) H. destruct (Forall2_zget _ _ _ _ _ F H) as (w & W & T). exists w. split; [|exact T].
  pose proof (zget_bound _ _ _ H) as Bi. assert (X : zget (firstn (length row) values) i = Ret (Some w)) by (rewrite E, zget_map, W; reflexivity).
  rewrite <- X. symmetry. unfold zget. destruct (i <? 0); [reflexivity|].
  assert (Z.to_nat i < length row)%nat by (unfold zlen in Bi; lia). clear - H0. revert values H0. generalize (length row), (Z.to_nat i).
  induction n; intros k values L; [lia|]. destruct values; [destruct k; reflexivity|]. destruct k; cbn [firstn nth_error]; [reflexivity|apply IHn; lia].
Qed.

Lemma f32_to_int16_int (w : f32) z : is_finite w = true -> B2R w = IZR z -> -32768 <= z <= 32767 -> f32_to_int16 w = Ret z.
Proof.
  intros F V B. assert (T : ftrunc w = z).
  { apply eq_IZR. unfold ftrunc. rewrite Btrunc_correct by reflexivity. rewrite round_FIX0 by auto with typeclass_instances.
    now rewrite V, Ztrunc_IZR. }
  unfold f32_to_int16. destruct w; try discriminate; rewrite T;
  (destruct (Z.leb_spec (-32768) z); [|lia]); (destruct (Z.leb_spec z 32767); [|lia]); reflexivity.
Qed.

Lemma cast_row_ok {X} (cast : f32 -> res X) (x0 : X) nf values (xs : list X) : zlen xs = nf ->
  (forall i x, zget xs i = Ret x -> exists w, zget values i = Ret (Some w) /\ cast w = Ret x) ->
  cast_row cast x0 nf values nf = Ret xs /\ full_row cast x0 nf values nf = Ret xs.
Proof.
  intros L H. pose proof (zlen_nonneg xs).
  assert (E : cast_row cast x0 nf values nf = Ret xs).
  { unfold cast_row. destruct (foldM_range_inv (fun fs i => let* v := value_at values i in let* x := cast v in zset fs i x)
      (fun n fs => zlen fs = nf /\ forall i, 0 <= i < n -> zget fs i = zget xs i) nf (repeat x0 (Z.to_nat nf))) as (fs & E & L' & G).
    - lia.
    - split; [rewrite zlen_repeat; lia|intros; lia].
    - intros i fs Hi [L1 G]. destruct (zget_ok xs i ltac:(lia)) as [x Hx]. destruct (H i x Hx) as (w & W & C).
      unfold value_at. rewrite W. cbn [bind]. rewrite C. cbn [bind].
      exists (list_set fs (Z.to_nat i) x). split; [apply zset_ok; lia|]. split; [now rewrite zlen_list_set|].
      intros j Hj. rewrite zget_list_set by lia. destruct (Z.eqb_spec i j); [subst; auto|apply G; lia].
    - rewrite E. f_equal. apply zget_eq; [lia|]. intros i Hi. apply G. lia. }
  split; [exact E|]. unfold full_row. rewrite E. cbn [bind]. now rewrite Z.ltb_irrefl.
Qed.

Lemma cast_int16 nf row features values : zlen row = nf -> int16_row row features -> holds row values ->
  zlen features = nf /\
  cast_row f32_to_int16 0 nf values nf = Ret features /\ full_row f32_to_int16 0 nf values nf = Ret features.
Proof.
  intros L R H. assert (LF : zlen features = nf) by (unfold zlen in *; erewrite <- Forall2_len; eauto). split; [exact LF|].
  apply cast_row_ok; [exact LF|]. intros i z Hz.
  pose proof (zget_bound _ _ _ Hz) as Bi. destruct (zget_ok row i ltac:(lia)) as [v Hv].
  destruct (Forall2_zget _ _ _ _ _ R Hv) as (z' & Hz' & Fv & V & B). rewrite Hz in Hz'. injection Hz' as <-.
  destruct (holds_get _ _ _ _ H Hv) as (w & W & T). exists w. split; [exact W|]. rewrite V in T.
  destruct (@through_int 24 128 _ _ 8 z w ltac:(lia) ltac:(lia) T) as [A C]. now apply f32_to_int16_int.
Qed.

(** ** Results *)
Lemma predict_ints func X (Rl : list f64 -> Z -> Prop) : X <> [] -> Forall good_row X -> all_fit (map serialize_row X) -> zlen X <= 2147483647 ->
  (forall row values, In row X -> holds row values -> exists c, func values (zlen row) = Ret (f_of_Z c) /\ Z.abs c <= 2 ^ 53 /\ Rl row c) ->
  exists out, predict func OutInt X = Ret out /\ zlen out = zlen X /\
    forall i row, zget X i = Ret row -> exists c, zget out i = Ret (PyInt c) /\ Rl row c.
Proof.
  intros NX G AF L H.
  destruct (predict_complete func OutInt X NX G AF L) as [out E].
  { intros row values I Hv. destruct (H row values I Hv) as (c & Ec & Bc & _). exists (f_of_Z c). split; [exact Ec|].
    destruct (@f_of_Z_exact 53 1024 _ _ c ltac:(lia)) as [V F]. split; [exact F|]. rewrite V, <- abs_IZR. apply IZR_le. lia. }
  exists out. split; [exact E|]. destruct (predict_sound _ _ _ _ E) as (_ & _ & _ & L' & S). split; [exact L'|].
  intros i row Z. destruct (S i row Z) as (values & y & o & _ & V & FY & O & C).
  assert (Hh : holds row values).
  { exists (map deliver row). split; [|exact V]. apply deliver_row. rewrite Forall_forall in G. apply (G row). eapply zget_In. exact Z. }
  destruct (H row values (zget_In _ _ _ Z) Hh) as (c & Ec & Bc & Rc). rewrite FY in Ec. injection Ec as ->.
  apply convert_reported in C as (z & -> & Q). destruct (@f_of_Z_exact 53 1024 _ _ c ltac:(lia)) as [Vc Fc].
  specialize (Q c Fc Vc ltac:(lia)). subst z. eauto.
Qed.

Lemma predict_classes func X (Rl : list f64 -> Z -> Prop) : X <> [] -> Forall good_row X -> all_fit (map serialize_row X) -> zlen X <= 2147483647 ->
  (forall row values, In row X -> holds row values -> exists c, func values (zlen row) = Ret (f_of_Z c) /\ 0 <= c <= 2 ^ 53 /\ Rl row c) ->
  exists out, predict func OutInt X = Ret out /\ zlen out = zlen X /\
    forall i row, zget X i = Ret row -> exists c, zget out i = Ret (PyInt c) /\ Rl row c.
Proof.
  intros NX G AF L H. apply predict_ints; auto. intros row values I Hv. destruct (H row values I Hv) as (c & E & B & Q). exists c. split; [exact E|]. split; [lia|exact Q].
Qed.

Lemma proba_rows func n X (Rl : list f64 -> list f32 -> Prop) : 1 <= n -> X <> [] -> Forall good_row X -> all_fit (map serialize_row X) -> zlen X <= 2147483647 ->
  (forall row values before, In row X -> holds row values -> zlen before = n ->
    exists o, func before values (zlen row) = Ret o /\ zlen o = n /\ Rl row o) ->
  exists m, predict_proba func n X = Ret m /\ zlen m = zlen X /\
    forall i row, zget X i = Ret row -> exists r o, zget m i = Ret r /\ Rl row o /\
      forall k p, 0 <= k < n -> zget o k = Ret p -> exists q, zget r k = Ret (Some q) /\ (is_finite p = true -> through_decimals 6 (B2R p) q).
Proof.
  intros N NX GX AX LX H.
  destruct (predict_proba_complete func n X ltac:(lia) NX GX AX LX) as [m Em].
  { intros row values before I Hv Hb. destruct (H row values before I Hv Hb) as (o & Eo & Lo & _). eauto. }
  exists m. split; [exact Em|].
  destruct (predict_proba_sound _ n X m ltac:(lia) Em) as (_ & _ & _ & L' & outs & CH & Rm). split; [exact L'|].
  assert (LO : zlen outs = zlen X) by (unfold zlen; now rewrite (chain_len _ _ _ _ CH), calls_of_length).
  assert (ST : forall i row, zget X i = Ret row -> exists values before o, holds row values /\
     (if i =? 0 then before = repeat fzero (Z.to_nat n) else zget outs (i - 1) = Ret before) /\ func before values (zlen row) = Ret o /\ zget outs i = Ret o).
  { intros i row Hrow. destruct (calls_of_get X (repeat None (Z.to_nat EML_CSV_VALUES_LENGTH)) 0 i row Hrow) as (values & Ev & Q). rewrite Z.add_0_l in Ev.
    destruct (chain_get _ _ _ _ CH _ _ _ _ Ev) as (before & o & Bf & FO & O). exists values, before, o. split; [|auto].
    exists (map deliver row). split; [|exact Q]. apply deliver_row. rewrite Forall_forall in GX. apply (GX row). eapply zget_In. exact Hrow. }
  assert (LN : forall i, 0 <= i -> forall o, zget outs i = Ret o -> zlen o = n).
  { apply (natlike_ind (fun i => forall o, zget outs i = Ret o -> zlen o = n)).
    - intros o Ho. pose proof (zget_bound _ _ _ Ho) as Bo. destruct (zget_ok X 0 ltac:(lia)) as [row Hrow].
      destruct (ST 0 row Hrow) as (values & before & o' & Hv & Bf & FO & O'). rewrite Ho in O'. injection O' as <-. cbn in Bf.
      destruct (H row values before (zget_In _ _ _ Hrow) Hv) as (o2 & Eo & Lo & _); [rewrite Bf, zlen_repeat; lia|].
      rewrite Eo in FO. injection FO as <-. exact Lo.
    - intros i Hi IH o Ho. pose proof (zget_bound _ _ _ Ho) as Bo. destruct (zget_ok X (Z.succ i) ltac:(lia)) as [row Hrow].
      destruct (ST _ row Hrow) as (values & before & o' & Hv & Bf & FO & O'). rewrite Ho in O'. injection O' as <-.
      destruct (Z.eqb_spec (Z.succ i) 0); [lia|]. replace (Z.succ i - 1) with i in Bf by lia.
      destruct (H row values before (zget_In _ _ _ Hrow) Hv (IH _ Bf)) as (o2 & Eo & Lo & _).
      rewrite Eo in FO. injection FO as <-. exact Lo. }
  intros i row Hrow. pose proof (zget_bound _ _ _ Hrow) as Bi.
  destruct (ST i row Hrow) as (values & before & o & Hv & Bf & FO & O).
  assert (Lb : zlen before = n).
  { destruct (Z.eqb_spec i 0); [rewrite Bf, zlen_repeat; lia|]. eapply (LN (i - 1)); [lia|exact Bf]. }
  destruct (H row values before (zget_In _ _ _ Hrow) Hv Lb) as (o2 & Eo & Lo & Ro). rewrite Eo in FO. injection FO as <-.
  destruct (zget_ok m i ltac:(lia)) as [r ER]. exists r, o2. split; [exact ER|]. split; [exact Ro|]. intros k p Bk P.
  destruct (Rm i k Bi Bk) as (o' & p' & O' & P' & CE). rewrite O in O'. injection O' as <-. rewrite P in P'. injection P' as <-.
  exists (backp p). split; [unfold cell in CE; now rewrite ER in CE|]. apply backp_through.
Qed.

(** Real results. *)
Lemma predict_reals func X (Rl : list f64 -> f64 -> Prop) : X <> [] -> Forall good_row X -> all_fit (map serialize_row X) -> zlen X <= 2147483647 ->
  (forall row values, In row X -> holds row values -> exists y, func values (zlen row) = Ret y /\ is_finite y = true /\ (Rabs (B2R y) <= IZR (2 ^ 53))%R /\ Rl row y) ->
  exists out, predict func OutFloat X = Ret out /\ zlen out = zlen X /\
    forall i row, zget X i = Ret row -> exists y o, Rl row y /\ zget out i = Ret (PyFloat o) /\ through_decimals 6 (B2R y) o.
Proof.
  intros NX G AF L H.
  destruct (predict_complete func OutFloat X NX G AF L) as [out E].
  { intros row values I Hv. destruct (H row values I Hv) as (y & A & B & C & _). eauto. }
  exists out. split; [exact E|]. destruct (predict_sound _ _ _ _ E) as (_ & _ & _ & L' & S). split; [exact L'|].
  intros i row Z. destruct (S i row Z) as (values & y & o & _ & V & FY & O & C).
  assert (Hh : holds row values).
  { exists (map deliver row). split; [|exact V]. apply deliver_row. rewrite Forall_forall in G. apply (G row). eapply zget_In. exact Z. }
  destruct (H row values (zget_In _ _ _ Z) Hh) as (y' & Ey & Fy & _ & Ry). rewrite FY in Ey. injection Ey as <-.
  apply convert_reported in C as (w & -> & Q). exists y, w. auto.
Qed.
