(** Feature quantisers: properties C45 (C), C46 and C66 (Python). *)
From Coq Require Import ZArith List Bool Lia Reals Lra.
From Flocq Require Import Core BinarySingleNaN.
From Verif.Base Require Import Res CInt ListX Loops Float FloatOrder Kernels.
From Verif.Model Require Import Common Quantizer.
From Verif.Spec Require Import QuantizerSpec.
From Verif.Proof Require Import FixedPoint Quantizer.
Import ListNotations.
Open Scope Z_scope.
Open Scope res_scope.

(** ** C45 *)
(** Every value becomes its scaled value without fraction, limited to [-32767, 32767] (see [quantised]);
    the counters are the numbers of values below and above; the rest of the buffer is kept. Any float32
    values and scale, as long as no scaled value is NaN. *)
Theorem C45_forward (scale : f32) (values : list f32) (out : list Z) u0 o0 :
  zlen values <= zlen out -> zlen values < 2147483648 ->
  Forall (fun v => is_nan (fmul v scale) = false) values ->
  eml_quantizer_check_forward_int16 scale values (zlen values) out (zlen values) u0 o0 =
  Ret (EmlOk, map (fun v => quantised 32767 (fmul v scale)) values ++ skipn (length values) out,
       count (fun v => below 32767 (fmul v scale)) values,
       count (fun v => above 32767 (fmul v scale)) values).
Proof. apply check_forward_ok. Qed.
Theorem C45_forward_plain (scale : f32) (values : list f32) (out : list Z) :
  zlen values <= zlen out -> zlen values < 2147483648 ->
  Forall (fun v => is_nan (fmul v scale) = false) values ->
  eml_quantizer_forward_int16 scale values (zlen values) out (zlen values) =
  Ret (EmlOk, map (fun v => quantised 32767 (fmul v scale)) values ++ skipn (length values) out).
Proof. intros H1 H2 H3. unfold eml_quantizer_forward_int16. now rewrite check_forward_ok. Qed.
(** The conversion is out of range exactly when some scaled value is NaN. *)
Theorem C45_bad_cast_iff (scale : f32) (values : list f32) (out : list Z) u0 o0 :
  zlen values <= zlen out -> zlen values < 2147483648 ->
  (eml_quantizer_check_forward_int16 scale values (zlen values) out (zlen values) u0 o0 = Err BadCast <->
   Exists (fun v => is_nan (fmul v scale) = true) values).
Proof.
  intros H1 H2. split; [|now apply check_forward_nan]. intros E.
  destruct (Exists_dec (fun v => is_nan (fmul v scale) = true) values (fun v => bool_dec _ _)) as [D|D]; auto.
  rewrite check_forward_ok in E; auto; [discriminate|].
  apply Forall_Exists_neg in D. eapply Forall_impl; [|exact D]. intros v N. now apply not_true_is_false in N.
Qed.
(** Different lengths: an error and nothing is written. *)
Theorem C45_mismatch (scale : f32) values out n m u0 o0 (fout : list f32) (ivalues : list Z) : n <> m ->
  eml_quantizer_check_forward_int16 scale values n out m u0 o0 = Ret (EmlSizeMismatch, out, u0, o0) /\
  eml_quantizer_forward_int16 scale values n out m = Ret (EmlSizeMismatch, out) /\
  eml_quantizer_inverse_int16 scale ivalues n fout m = Ret (EmlSizeMismatch, fout).
Proof.
  intros H. unfold eml_quantizer_forward_int16, eml_quantizer_check_forward_int16, eml_quantizer_inverse_int16.
  destruct (Z.eqb_spec m n) as [E|_]; [congruence|]. auto.
Qed.
(** In range: less than one away from the exact product; at or beyond the limits: the limit. *)
Theorem C45_accuracy (scale v : f32) k :
  is_finite v = true -> is_finite scale = true ->
  eml_quantizer_forward_int16 scale [v] 1 [0] 1 = Ret (EmlOk, [k]) ->
  (Rabs (B2R v * B2R scale) <= 32767 -> Rabs (IZR k - B2R v * B2R scale) < 1)%R /\
  ((32767 <= B2R v * B2R scale)%R -> k = 32767) /\
  ((B2R v * B2R scale <= -32767)%R -> k = -32767).
Proof.
  intros Fv Fs H.
  assert (N : is_nan (fmul v scale) = false) by now apply key_mul.
  pose proof (C45_forward_plain scale [v] [0] ltac:(vm_compute; discriminate) ltac:(vm_compute; reflexivity) ltac:(constructor; auto)) as E.
  change (zlen [v]) with 1 in E. rewrite E in H. cbn [map app length skipn] in H. injection H as <-. split; [|split].
  - intros I. apply (@quantised_err 24 128 _ _ 32767); auto; lia.
  - intros I. apply (@quantised_hi 24 128 _ _ 32767); auto; lia.
  - intros I. apply (@quantised_lo 24 128 _ _ 32767 ltac:(lia) v scale Fv Fs). rewrite <- opp_IZR. exact I.
Qed.
(** Monotone for a positive scale, infinities included. *)
Theorem C45_monotone (scale v w : f32) j k : is_nan v = false -> is_nan w = false ->
  is_finite scale = true -> (0 < B2R scale)%R -> fleb v w = true ->
  eml_quantizer_forward_int16 scale [v; w] 2 [0; 0] 2 = Ret (EmlOk, [j; k]) -> j <= k.
Proof.
  intros Nv Nw Fs Ps L H.
  assert (KN : forall z : f32, is_nan z = false -> is_nan (fmul z scale) = false).
  { intros z Nz. destruct (is_finite z) eqn:Fz; [now apply key_mul|]. destruct z; try discriminate. rewrite key_mul_inf by assumption. reflexivity. }
  pose proof (C45_forward_plain scale [v; w] [0; 0] ltac:(vm_compute; discriminate) ltac:(vm_compute; reflexivity) ltac:(repeat constructor; auto)) as E.
  change (zlen [v; w]) with 2 in E. rewrite E in H. cbn [map app length skipn] in H. injection H as <- <-.
  apply (@quantised_mono 24 128 _ _ 32767); auto; lia.
Qed.
(** Forward, then inverse, on in-range values: within 1 + 1/512 steps of the value. *)
Theorem C45_round_trip (scale v : f32) : is_finite v = true -> is_finite scale = true ->
  (bpow radix2 (-100) <= B2R scale)%R -> (Rabs (B2R v * B2R scale) <= 32767)%R ->
  exists k w, eml_quantizer_forward_int16 scale [v] 1 [0] 1 = Ret (EmlOk, [k]) /\
    eml_quantizer_inverse_int16 scale [k] 1 [fzero] 1 = Ret (EmlOk, [w]) /\ is_finite w = true /\
    (Rabs (B2R w - B2R v) < (1 + / 512) / B2R scale)%R.
Proof.
  intros Fv Fs Ls I. assert (Ps : (0 < B2R scale)%R) by (pose proof (bpow_gt_0 radix2 (-100)); lra).
  assert (N : is_nan (fmul v scale) = false) by now apply key_mul.
  pose proof (C45_forward_plain scale [v] [0] ltac:(vm_compute; discriminate) ltac:(vm_compute; reflexivity) ltac:(constructor; auto)) as E.
  change (zlen [v]) with 1 in E. cbn [map app length skipn] in E.
  pose proof (inverse_ok scale [quantised 32767 (fmul v scale)] [fzero] ltac:(vm_compute; discriminate)) as E2.
  change (zlen [quantised 32767 (fmul v scale)]) with 1 in E2. cbn [map app length skipn] in E2.
  exists (quantised 32767 (fmul v scale)). eexists. split; [exact E|]. split; [exact E2|].
  destruct (@inverse_err 24 128 _ _ 32767 ltac:(lia) v scale 15) as [B F]; auto; try lia.
  - change (128 - 1) with 127. apply Rle_lt_trans with (32767 * bpow radix2 100)%R.
    + unfold Rdiv. apply Rmult_le_compat_l; [lra|]. rewrite <- (Rinv_inv (bpow radix2 100)), <- bpow_opp.
      apply Rinv_le; [apply bpow_gt_0|exact Ls].
    + change 127 with (27 + 100). rewrite (bpow_plus radix2 27 100). apply Rmult_lt_compat_r; [apply bpow_gt_0|]. change (bpow radix2 27) with 134217728%R. lra.
  - vm_compute. discriminate.
  - change (bpow radix2 15) with 32768%R. lra.
Qed.
(** Hypotheses met: scale 100; 1.5 -> 150, -400 -> -32767 (underflow), 1e9 -> 32767, +inf -> 32767. *)
Example C45_example :
  eml_quantizer_check_forward_int16 (f_of_Z 100) [f_of_ZE 3 (-1); f_of_Z (-400); f_of_Z 1000000000; B754_infinity false] 4
    [7; 7; 7; 7; 7] 4 9 9 = Ret (EmlOk, [150; -32767; 32767; 32767; 7], 1, 2).
Proof. vm_compute. reflexivity. Qed.
Example C45_example_nan :
  eml_quantizer_check_forward_int16 (f_of_Z 100) [f_of_Z 1; B754_nan] 2 [7; 7] 2 9 9 = Err BadCast.
Proof. vm_compute. reflexivity. Qed.

(** ** C46 *)
(** For every dtype whose range contains [-out_max, out_max] with out_max at most 2^53. *)
Theorem C46_transform_partial (out_max : Z) (d : dtype) (scale : f64) (X : list f64) :
  0 <= out_max <= 2 ^ 53 -> iinfo_min d <= - out_max -> out_max <= iinfo_max d ->
  Forall (fun x => is_nan (fmul x scale) = false) X ->
  exists out, transform out_max d scale X = Ret out /\
    Forall2 (fun x k => k = quantised out_max (fmul x scale) /\ - out_max <= k <= out_max /\ iinfo_min d <= k <= iinfo_max d) X out.
Proof.
  intros H Hlo Hhi HN. eexists. split; [now apply transform_ok|].
  induction HN as [|x X Nx HN IH]; cbn; constructor; auto.
  pose proof (@quantised_bound 53 1024 _ _ out_max H (fmul x scale) Nx). repeat split; lia.
Qed.
(** The signed types up to 54 bits, with the default out_max. *)
Theorem C46_default_partial (bits : Z) (scale : f64) (X : list f64) : 2 <= bits <= 54 ->
  Forall (fun x => is_nan (fmul x scale) = false) X ->
  exists out, transform (get_out_max None (mk_dtype bits true)) (mk_dtype bits true) scale X = Ret out /\
    Forall2 (fun x k => k = quantised (2 ^ (bits - 1) - 1) (fmul x scale) /\ - 2 ^ (bits - 1) < k < 2 ^ (bits - 1)) X out.
Proof.
  intros Hb HN. assert (P : 0 < 2 ^ (bits - 1)) by (apply Z.pow_pos_nonneg; lia).
  assert (U : 2 ^ (bits - 1) <= 2 ^ 53) by (apply Z.pow_le_mono_r; lia).
  destruct (C46_transform_partial (get_out_max None (mk_dtype bits true)) (mk_dtype bits true) scale X) as (out & E & F); auto;
    cbn [get_out_max iinfo_min iinfo_max dt_signed dt_bits] in *; try lia.
  exists out. split; [exact E|]. clear E HN. induction F as [|x k X' out' (-> & H & _) F IH]; constructor; auto. split; [reflexivity|]. lia.
Qed.
Theorem C46_monotone (out_max : Z) (d : dtype) (scale x y : f64) j k :
  0 <= out_max <= 2 ^ 53 -> iinfo_min d <= - out_max -> out_max <= iinfo_max d ->
  is_nan x = false -> is_nan y = false -> is_finite scale = true -> (0 < B2R scale)%R -> fleb x y = true ->
  transform out_max d scale [x; y] = Ret [j; k] -> j <= k.
Proof.
  intros H Hlo Hhi Nx Ny Fs Ps L E.
  assert (KN : forall z : f64, is_nan z = false -> is_nan (fmul z scale) = false).
  { intros z Nz. destruct (is_finite z) eqn:Fz; [now apply key_mul|]. destruct z; try discriminate. rewrite key_mul_inf by assumption. reflexivity. }
  rewrite transform_ok in E by (auto; repeat constructor; auto). cbn [map] in E. injection E as <- <-.
  now apply (@quantised_mono 53 1024 _ _ out_max H).
Qed.
(** transform then inverse_transform: within 1 + 2^-22 steps of the clipped value. *)
Theorem C46_round_trip_partial (out_max : Z) (d : dtype) (scale x : f64) :
  0 <= out_max <= 2 ^ 31 -> iinfo_min d <= - out_max -> out_max <= iinfo_max d ->
  is_finite x = true -> is_finite scale = true -> (bpow radix2 (-900) <= B2R scale)%R ->
  exists k w, transform out_max d scale [x] = Ret [k] /\ inverse_transform out_max scale [k] = [w] /\
    ((Rabs (B2R x * B2R scale) <= IZR out_max)%R ->
       is_finite w = true /\ (Rabs (B2R w - B2R x) < (1 + bpow radix2 (-22)) / B2R scale)%R) /\
    ((IZR out_max <= B2R x * B2R scale)%R -> k = out_max) /\
    ((B2R x * B2R scale <= - IZR out_max)%R -> k = - out_max).
Proof.
  intros H Hlo Hhi Fx Fs Ls. assert (Ps : (0 < B2R scale)%R) by (pose proof (bpow_gt_0 radix2 (-900)); lra).
  assert (N : is_nan (fmul x scale) = false) by now apply key_mul.
  assert (H' : 0 <= out_max <= 2 ^ 53) by lia.
  exists (quantised out_max (fmul x scale)), (fdiv (f_of_Z (quantised out_max (fmul x scale))) scale).
  split; [rewrite transform_ok; auto|]. split; [apply inverse_transform_ok; auto; now apply (@quantised_bound 53 1024 _ _ out_max H')|].
  split; [|split].
  - intros I. destruct (@inverse_err 53 1024 _ _ out_max H' x scale 31) as [B F]; auto; try lia.
    + apply Rle_lt_trans with (bpow radix2 31 * bpow radix2 900)%R.
      * unfold Rdiv. apply Rmult_le_compat; [apply IZR_le; lia|left; now apply Rinv_0_lt_compat| |].
        -- rewrite <- IZR_Zpower by lia. apply IZR_le. exact (proj2 H).
        -- rewrite <- (Rinv_inv (bpow radix2 900)), <- bpow_opp. apply Rinv_le; [apply bpow_gt_0|exact Ls].
      * rewrite <- bpow_plus. apply bpow_lt. reflexivity.
    + vm_compute. discriminate.
    + rewrite <- IZR_Zpower by lia. apply IZR_le. exact (proj2 H).
  - intros I. now apply (@quantised_hi 53 1024 _ _ out_max H').
  - intros I. now apply (@quantised_lo 53 1024 _ _ out_max H').
Qed.
(** int64: the clip limit 2^63 - 1 is not a float64; it becomes 2^63, which int64 cannot hold. *)
Theorem C46_int64_refuted : exists x : f64, is_finite x = true /\
  transform (get_out_max None (mk_dtype 64 true)) (mk_dtype 64 true) (f_of_Z 1) [x] = Err BadCast.
Proof. exists (f_of_ZE 1 70). split; vm_compute; reflexivity. Qed.
(** Unsigned types: the lower limit is -out_max, which the type cannot hold. *)
Theorem C46_unsigned_refuted : exists x : f64, is_finite x = true /\
  transform (get_out_max None (mk_dtype 8 false)) (mk_dtype 8 false) (f_of_Z 1) [x] = Err BadCast.
Proof. exists (f_of_Z (-1)). split; vm_compute; reflexivity. Qed.
Example C46_example :
  transform (get_out_max None (mk_dtype 16 true)) (mk_dtype 16 true) (f_of_Z 100) [f_of_ZE 3 (-1); f_of_Z (-400); f_of_Z 1000]
  = Ret [150; -32767; 32767].
Proof. vm_compute. reflexivity. Qed.

(** ** C66 *)
(** fit with max_quantile=None and max_value=None on finite data that are not all (nearly) zero: there is a
    largest absolute value among the data, and every training value x is mapped to less than 1 + 2^-21 from
    x * out_max / largest. *)
Theorem C66_fit_partial (out_max : Z) (d : dtype) (x0 : f64) (l : list f64) :
  1 <= out_max <= 2 ^ 31 -> iinfo_min d <= - out_max -> out_max <= iinfo_max d ->
  Forall (fun x => is_finite x = true) (x0 :: l) ->
  Exists (fun x => (bpow radix2 (-900) <= Rabs (B2R x))%R) (x0 :: l) ->
  Forall (fun x => (Rabs (B2R x) <= bpow radix2 900)%R) (x0 :: l) ->
  exists xmax out, In xmax (x0 :: l) /\ (forall x, In x (x0 :: l) -> (Rabs (B2R x) <= Rabs (B2R xmax))%R) /\
    transform out_max d (fit_scale out_max None (np_min x0 l) (np_max x0 l)) (x0 :: l) = Ret out /\
    Forall2 (fun x k => (Rabs (IZR k - B2R x * IZR out_max / Rabs (B2R xmax)) < 1 + bpow radix2 (-21))%R) (x0 :: l) out.
Proof.
  intros H Hlo Hhi F E U. inversion F as [|? ? F0 Fl]; subst.
  unfold fit_scale. cbv zeta. set (L := if fltb (np_max x0 l) (Bopp (np_min x0 l)) then Bopp (np_min x0 l) else np_max x0 l).
  destruct (largest_ok x0 l L F0 Fl eq_refl) as (FL & HL & xm & Ixm & Exm).
  assert (BL : (bpow radix2 (-900) <= B2R L <= bpow radix2 900)%R).
  { split.
    - apply Exists_exists in E as (x & Ix & Hx). specialize (HL x Ix). lra.
    - rewrite Forall_forall in U. specialize (U xm Ixm). rewrite Exm in U. exact U. }
  destruct (scale_ok out_max L H FL BL) as [Fs _].
  exists xm. eexists. split; [exact Ixm|]. split; [intros x Ix; rewrite Exm; auto|].
  split.
  - apply transform_ok; auto; [lia|]. eapply Forall_impl; [|exact F]. intros x Fx. now apply key_mul.
  - assert (G : forall l', (forall x, In x l' -> In x (x0 :: l)) ->
      Forall2 (fun x k => (Rabs (IZR k - B2R x * IZR out_max / Rabs (B2R xm)) < 1 + bpow radix2 (-21))%R) l'
        (map (fun x => quantised out_max (fmul x (fdiv (f_of_Z out_max) L))) l')); [|apply G; auto].
    induction l' as [|x l' IH]; intros HI; cbn [map]; constructor.
    + rewrite Forall_forall in F. rewrite Exm. unfold Rdiv. rewrite Rmult_assoc. apply fit_close; auto.
      * apply F. apply HI. now left.
      * apply HL. apply HI. now left.
    + apply IH. intros y Iy. apply HI. now right.
Qed.
(** The largest training value is not always mapped to out_max: rounding of the scale and of the product can
    lose one step. *)
Theorem C66_largest_refuted : transform 32767 (mk_dtype 16 true)
  (fit_scale 32767 None (np_min (f_of_Z 49) [f_of_Z (-1)]) (np_max (f_of_Z 49) [f_of_Z (-1)])) [f_of_Z 49; f_of_Z (-1)] = Ret [32766; -668].
Proof. vm_compute. reflexivity. Qed.
(** All zeros: the scale is infinite and 0 * infinity is NaN. *)
Theorem C66_zeros_refuted : transform 32767 (mk_dtype 16 true)
  (fit_scale 32767 None (np_min fzero [fzero]) (np_max fzero [fzero])) [fzero; fzero] = Err BadCast.
Proof. vm_compute. reflexivity. Qed.
