(** Proofs about the array container. *)
From Coq Require Import ZArith List Bool Lia.
From Verif.Base Require Import Res CInt ListX Loops.
From Verif.Model Require Import Common Mem Array.
From Verif.Spec Require Import ArraySpec.
From Verif.Proof Require Import Mem.
Import ListNotations.
Open Scope Z_scope.
Open Scope res_scope.

(** ** Addressing *)
Lemma chk64 x y : chk_int64 x = Ret y -> y = x /\ int64_ok x.
Proof. apply chk_int64_Ret. Qed.

(** What a successful 2-D initialisation establishes. *)
Lemma init_2d self c r extra vs buffer bl a :
  0 <= bl < 2 ^ 63 -> int8_ok vs ->
  eml_array_init_full self 2 (c :: r :: extra) vs buffer bl = Ret (EmlOk, a) ->
  ar_n_dims a = 2 /\ ar_value_size a = vs /\ ar_data a = buffer /\ ar_dims a = [c; r; 0] /\
  1 <= c /\ 0 <= r /\ c * r * vs <= bl /\ (0 < r -> 0 <= vs).
Proof.
  intros Hbl Hvs. unfold eml_array_init_full. cbn [negb].
  change (2 <=? EML_ARRAY_MAX_DIMS) with true. change (1 <=? 2) with true. cbn [negb].
  change (zget (c :: r :: extra) 0) with (Ret c). cbn [bind].
  destruct (Z.leb_spec 1 c); cbn [negb]; [|discriminate].
  unfold eml_storage_size_array. change (zrange 2) with [0; 1]. cbn [foldM].
  change (zget (c :: r :: extra) 0) with (Ret c). change (zget (c :: r :: extra) 1) with (Ret r). cbn [bind].
  destruct (chk_int64 (1 * c)) as [x|] eqn:E1; cbn [bind]; [|discriminate].
  apply chk64 in E1 as [-> _].
  destruct (chk_int64 (1 * c * r)) as [x|] eqn:E2; cbn [bind]; [|discriminate].
  apply chk64 in E2 as [-> _].
  destruct (chk_int64 (1 * c * r * vs)) as [x|] eqn:E3; cbn [bind]; [|discriminate].
  apply chk64 in E3 as [-> I3].
  destruct (Z.leb_spec (to_uint64 (1 * c * r * vs)) bl) as [B|B]; cbn [negb]; [|discriminate].
  change (zset [0; 0; 0] 0 c) with (Ret [c; 0; 0]). cbn [bind].
  destruct (Z.leb_spec 0 c) as [C0|C0]; [|lia]. cbv beta iota.
  change (zget (c :: r :: extra) 1) with (Ret r). cbn [bind].
  change (zset [c; 0; 0] 1 r) with (Ret [c; r; 0]). cbn [bind].
  destruct (Z.leb_spec 0 r) as [R|R]; cbv beta iota; intros E; inversion E; subst a; clear E.
  cbn [ar_n_dims ar_value_size ar_data ar_dims].
  assert (Q : c * r * vs <= bl /\ 0 <= c * r * vs).
  { rewrite Z.mul_1_l in *. unfold to_uint64, to_unsigned, int64_ok in *.
    destruct (Z.lt_ge_cases (c * r * vs) 0) as [N|N].
    - exfalso. assert (E : (c * r * vs) mod 2 ^ 64 = c * r * vs + 2 ^ 64).
      { symmetry. apply Z.mod_unique with (q := -1); lia. }
      rewrite E in B. change (2 ^ 64) with 18446744073709551616 in *. change (2 ^ 63) with 9223372036854775808 in *. lia.
    - rewrite Z.mod_small in B; [auto|]. change (2 ^ 64) with 18446744073709551616. lia. }
  repeat (split; [first [reflexivity|auto; lia]|]).
  intros R0. destruct Q as [_ Q]. assert (0 < c * r) by nia. nia.
Qed.

Lemma data_2d_ok a c r d2 vs col row :
  ar_n_dims a = 2 -> ar_value_size a = vs -> ar_dims a = [c; r; d2] ->
  0 <= vs -> (vs = 0 -> c * r < 2 ^ 31) -> c * r * vs < 2 ^ 31 ->
  eml_array_data_2d a col row =
    if (0 <=? col) && (col <? c) && (0 <=? row) && (row <? r)
    then Ret (Some (vs * (row * c + col))) else Ret None.
Proof.
  intros Hn Hv Hd Hvs Hz Hsm. unfold eml_array_data_2d. rewrite Hn, Hd, Hv. cbn [negb Z.eqb Pos.eqb].
  change (zget [c; r; d2] 0) with (Ret c). change (zget [c; r; d2] 1) with (Ret r). cbn [bind].
  destruct (Z.ltb_spec col c), (Z.ltb_spec row r), (Z.leb_spec 0 col), (Z.leb_spec 0 row); cbn [negb andb]; auto.
  change (2 ^ 31) with 2147483648 in *.
  assert (Hlt : row * c + col < c * r).
  { assert (row * c <= (r - 1) * c) by (apply Z.mul_le_mono_nonneg_r; lia).
    replace ((r - 1) * c) with (c * r - c) in * by ring. lia. }
  assert (0 <= row * c) by (apply Z.mul_nonneg_nonneg; lia).
  assert (Q : row * c + col < 2147483648).
  { destruct (Z.eq_dec vs 0); [specialize (Hz e); lia|].
    assert (c * r * 1 <= c * r * vs) by (apply Z.mul_le_mono_nonneg_l; lia). lia. }
  assert (Q2 : vs * (row * c + col) < 2147483648).
  { assert (vs * (row * c + col) <= vs * (c * r)) by (apply Z.mul_le_mono_nonneg_l; lia). lia. }
  assert (0 <= vs * (row * c + col)) by (apply Z.mul_nonneg_nonneg; lia).
  rewrite (chk_int32_ok (row * c)) by (unfold int32_ok; lia). cbn [bind].
  rewrite chk_int32_ok by (unfold int32_ok; lia). cbn [bind].
  rewrite chk_int32_ok by (unfold int32_ok; lia). reflexivity.
Qed.

(** ** Rows *)
Section Rows.
Variables (cols vs : Z).

Lemma rows_of_with a R R' rest : rows_of a cols vs R rest -> length R' = length R ->
  Forall (fun r => zlen r = vs * cols) R' ->
  rows_of (with_data a (concat R' ++ rest)) cols vs R' rest.
Proof.
  intros [D1 D2 D3 D4 D5 D6 D7 D8] L F. constructor; cbn; auto.
  - replace (zlen R') with (zlen R) by (unfold zlen; lia). auto.
  - replace (zlen R') with (zlen R) by (unfold zlen; lia). auto.
Qed.

Lemma rows_data_2d a R rest i : rows_of a cols vs R rest -> 0 <= i < zlen R ->
  eml_array_data_2d a 0 i = Ret (Some (vs * cols * i)).
Proof.
  intros [[d2 D1] D2 D3 D4 D5 D6 D7 D8] Hi.
  rewrite (data_2d_ok a cols (zlen R) d2 vs 0 i D2 D3 D1); [|lia|lia|].
  2:{ replace (Z.max 1 (zlen R)) with (zlen R) in D8 by lia.
      replace (cols * zlen R * vs) with (vs * cols * zlen R) by ring. exact D8. }
  destruct (Z.ltb_spec 0 cols), (Z.ltb_spec i (zlen R)), (Z.leb_spec 0 i); cbn; try lia.
  f_equal. f_equal. ring.
Qed.

Lemma zset_list_set_Forall {A} (P : A -> Prop) l n v : Forall P l -> P v -> Forall P (list_set l n v).
Proof. intros H Hv. revert n. induction H; intros [|n]; simpl; constructor; auto. Qed.

Lemma list_set_nth {A} (l : list A) n v : (n < length l)%nat ->
  list_set l n v = firstn n l ++ v :: skipn (S n) l.
Proof. revert n; induction l as [|a l IH]; intros [|n] H; simpl in *; try lia; auto. f_equal. apply IH. lia. Qed.

Lemma skipn_nth {A} (l : list A) n a : nth_error l n = Some a -> skipn n l = a :: skipn (S n) l.
Proof. revert l; induction n as [|n IH]; intros [|x l] E; simpl in *; try discriminate; [congruence|]. apply IH; auto. Qed.

Lemma firstn_snoc {A} (l : list A) n a : nth_error l n = Some a -> firstn (S n) l = firstn n l ++ [a].
Proof. revert l; induction n as [|n IH]; intros [|x l] E; simpl in *; try discriminate; [congruence|]. f_equal. auto. Qed.

Lemma skipn_add' {A} (l : list A) n m : skipn (n + m) l = skipn m (skipn n l).
Proof. revert n. induction l as [|a l IH]; intros [|n]; simpl; auto. now rewrite skipn_nil. Qed.

(** The partially shifted rows after [k] iterations. *)
Definition shifted (R : list (list Z)) (s k : nat) : list (list Z) :=
  firstn k (skipn s R) ++ skipn k R.
Lemma shifted_length R s k : (s + k <= length R)%nat -> length (shifted R s k) = length R.
Proof. intros. unfold shifted. rewrite app_length, firstn_length, !skipn_length. lia. Qed.
Lemma shifted_src R s k : (s + k < length R)%nat ->
  nth_error (shifted R s k) (k + s) = nth_error R (k + s).
Proof.
  intros H. unfold shifted. rewrite nth_error_app2 by (rewrite firstn_length; lia).
  rewrite firstn_length, skipn_length.
  replace (k + s - Nat.min k (length R - s))%nat with s by lia.
  revert R H. induction k as [|k IH]; intros [|x R] H; simpl in *; auto; try lia. apply IH. lia.
Qed.
Lemma nth_error_skipn' {A} (l : list A) s k : nth_error (skipn s l) k = nth_error l (s + k).
Proof. revert l; induction s as [|s IH]; intros [|x l]; simpl; auto. destruct k; auto. Qed.
Lemma shifted_step R s k r : (s + k < length R)%nat -> nth_error R (k + s) = Some r ->
  list_set (shifted R s k) k r = shifted R s (S k).
Proof.
  intros H E. unfold shifted.
  assert (Lf : length (firstn k (skipn s R)) = k) by (rewrite firstn_length, skipn_length; lia).
  destruct (nth_error R k) as [x|] eqn:Ek; [|apply nth_error_None in Ek; lia].
  rewrite (skipn_nth R k x Ek). rewrite <- Lf at 3. rewrite list_set_split.
  rewrite (firstn_snoc (skipn s R) k r), <- app_assoc; [reflexivity|].
  rewrite nth_error_skipn', Nat.add_comm. exact E.
Qed.

Lemma shifted_Forall (P : list Z -> Prop) R s k : Forall P R -> Forall P (shifted R s k).
Proof.
  intros H. unfold shifted. rewrite Forall_forall in *. intros x Hx. apply H.
  apply in_app_or in Hx as [Hx|Hx].
  - rewrite <- (firstn_skipn s R). apply in_or_app. right. rewrite <- (firstn_skipn k (skipn s R)). apply in_or_app; auto.
  - rewrite <- (firstn_skipn k R). apply in_or_app; auto.
Qed.

Theorem shift_rows_ok a R rest s : rows_of a cols vs R rest -> 1 <= s <= zlen R ->
  exists a', eml_array_shift_rows a (- s) = Ret (EmlOk, a') /\
    rows_of a' cols vs (skipn (Z.to_nat s) R ++ skipn (Z.to_nat (zlen R - s)) R) rest.
Proof.
  intros H Hs. pose proof H as [[d2 D1] D2 D3 D4 D5 D6 D7 D8].
  unfold eml_array_shift_rows. rewrite D1, D2, D3. cbn [negb Z.eqb Pos.eqb].
  change (zget [cols; zlen R; d2] 1) with (Ret (zlen R)). change (zget [cols; zlen R; d2] 0) with (Ret cols).
  cbn [bind]. change (2 ^ 31) with 2147483648 in *.
  assert (zlen R < 2147483648) by nia.
  rewrite (chk_int32_ok (Z.abs (- s))) by (unfold int32_ok; lia). cbn [bind].
  destruct (Z.leb_spec (Z.abs (- s)) (zlen R)); [|lia]. destruct (Z.leb_spec (- s) 0); [|lia]. cbn [negb].
  rewrite (chk_int32_ok (vs * cols)) by (unfold int32_ok; nia). cbn [bind]. cbv zeta.
  assert (Eu : to_uint64 (vs * cols) = vs * cols).
  { unfold to_uint64, to_unsigned. apply Z.mod_small. change (2 ^ 64) with 18446744073709551616. nia. }
  rewrite Eu.
  match goal with |- context [foldM ?f _ _] => set (step := f) end.
  destruct (foldM_range_inv step (fun k st => fst st = EmlOk /\
       rows_of (snd st) cols vs (shifted R (Z.to_nat s) (Z.to_nat k)) rest) (zlen R + - s) (EmlOk, a))
    as ([err a'] & E & Ee & Er).
  - lia.
  - split; [reflexivity|]. cbn [snd]. unfold shifted. simpl. exact H.
  - intros k [err a1] Hk [Ee Er]. cbn [fst snd] in *. subst err.
    set (C := shifted R (Z.to_nat s) (Z.to_nat k)) in *.
    assert (LC : length C = length R) by (apply shifted_length; unfold zlen in *; lia).
    assert (ZC : zlen C = zlen R) by (unfold zlen; lia).
    assert (Bk : 0 <= k < zlen C) by lia.
    assert (Bs : 0 <= k + s < zlen C) by lia.
    destruct (zget_ok C k Bk) as [old Eo]. destruct (zget_ok C (k + s) Bs) as [new En].
    unfold step. replace (k - - s) with (k + s) by lia.
    rewrite (rows_data_2d a1 C rest k Er Bk), (rows_data_2d a1 C rest (k + s) Er Bs). cbn [bind].
    rewrite (ro_data _ _ _ _ _ Er).
    rewrite (memcpy1_row C rest (vs * cols) k (k + s) old new); [|apply (ro_rows _ _ _ _ _ Er)|lia|auto|auto].
    cbn [bind]. eexists. split; [reflexivity|]. cbn [fst snd]. split; [reflexivity|].
    replace (shifted R (Z.to_nat s) (Z.to_nat (k + 1))) with (list_set C (Z.to_nat k) new).
    + apply rows_of_with with (R := C); auto.
      * apply list_set_length.
      * apply zset_list_set_Forall; [apply (ro_rows _ _ _ _ _ Er)|].
        pose proof (ro_rows _ _ _ _ _ Er) as F. rewrite Forall_forall in F. apply F. eapply zget_In; eauto.
    + replace (Z.to_nat (k + 1)) with (Datatypes.S (Z.to_nat k)) by lia.
      apply shifted_step; [unfold zlen in *; lia|].
      apply zget_Ret in En as [_ En]. replace (Z.to_nat (k + s)) with (Z.to_nat k + Z.to_nat s)%nat in En by lia.
      rewrite <- En. symmetry. apply shifted_src. unfold zlen in *; lia.
  - rewrite E. cbn [bind]. cbn [fst snd] in *. subst err. exists a'. split; [reflexivity|].
    unfold shifted in Er. rewrite firstn_all2 in Er; [|rewrite skipn_length; unfold zlen; lia].
    replace (zlen R + - s) with (zlen R - s) in Er by lia. exact Er.
Qed.

(** Shift by 0 on a non-empty array calls memcpy with equal pointers. *)
Theorem shift_rows_zero a R rest : rows_of a cols vs R rest -> 1 <= zlen R ->
  eml_array_shift_rows a 0 = Err OverlappingCopy.
Proof.
  intros H HR. pose proof H as [[d2 D1] D2 D3 D4 D5 D6 D7 D8].
  unfold eml_array_shift_rows. rewrite D1, D2, D3. cbn [negb Z.eqb Pos.eqb].
  change (zget [cols; zlen R; d2] 1) with (Ret (zlen R)). change (zget [cols; zlen R; d2] 0) with (Ret cols).
  cbn [bind]. change (2 ^ 31) with 2147483648 in *.
  change (chk_int32 (Z.abs 0)) with (Ret 0). cbn [bind].
  destruct (Z.leb_spec 0 (zlen R)); [|lia]. cbn [negb]. change (0 <=? 0) with true. cbn [negb].
  rewrite (chk_int32_ok (vs * cols)) by (unfold int32_ok; nia). cbn [bind]. cbv zeta.
  assert (Eu : to_uint64 (vs * cols) = vs * cols).
  { unfold to_uint64, to_unsigned. apply Z.mod_small. change (2 ^ 64) with 18446744073709551616. nia. }
  rewrite Eu. rewrite Z.add_0_r.
  assert (Ez : exists l, zrange (zlen R) = 0 :: l).
  { unfold zrange. destruct (Z.to_nat (zlen R)) eqn:En; [lia|]. simpl. eauto. }
  destruct Ez as [l ->]. cbn [foldM]. rewrite Z.sub_0_r.
  rewrite (rows_data_2d a R rest 0 H) by lia. cbn [bind].
  unfold memcpy1. destruct (Z.ltb_spec 0 (vs * cols)); [|nia]. rewrite Z.sub_diag.
  destruct (Z.ltb_spec (Z.abs 0) (vs * cols)); [|lia]. reflexivity.
Qed.

Theorem shift_rows_bad a R rest shift : rows_of a cols vs R rest -> - 2 ^ 31 < shift < 2 ^ 31 ->
  (zlen R < Z.abs shift -> eml_array_shift_rows a shift = Ret (EmlSizeMismatch, a)) /\
  (0 < shift -> exists e, e <> EmlOk /\ eml_array_shift_rows a shift = Ret (e, a)).
Proof.
  intros H B. pose proof H as [[d2 D1] D2 D3 D4 D5 D6 D7 D8].
  unfold eml_array_shift_rows. rewrite D1, D2. cbn [negb Z.eqb Pos.eqb].
  change (zget [cols; zlen R; d2] 1) with (Ret (zlen R)). cbn [bind].
  change (2 ^ 31) with 2147483648 in *.
  rewrite (chk_int32_ok (Z.abs shift)) by (unfold int32_ok; lia). cbn [bind].
  destruct (Z.leb_spec (Z.abs shift) (zlen R)); cbn [negb]; split; intros C; try lia; auto.
  - destruct (Z.leb_spec shift 0); [lia|]. cbn [negb]. exists EmlUnsupported. split; [discriminate|reflexivity].
  - exists EmlSizeMismatch. split; [discriminate|reflexivity].
Qed.

(** ** Copying rows *)
Definition copied (R O : list (list Z)) (start k : nat) : list (list Z) :=
  firstn start R ++ firstn k O ++ skipn (start + k) R.

Lemma copied_step R O start k o : (start + k < length R)%nat -> nth_error O k = Some o ->
  list_set (copied R O start k) (start + k) o = copied R O start (S k).
Proof.
  intros H E. unfold copied.
  assert (LO : (k < length O)%nat) by (apply nth_error_Some; congruence).
  destruct (nth_error R (start + k)) as [x|] eqn:Ek; [|apply nth_error_None in Ek; lia].
  rewrite (skipn_nth R _ x Ek). rewrite (firstn_snoc O k o E).
  rewrite app_assoc.
  assert (Lf : length (firstn start R ++ firstn k O) = (start + k)%nat).
  { rewrite app_length, !firstn_length. lia. }
  rewrite <- Lf at 2. rewrite list_set_split. rewrite <- !app_assoc. cbn [app].
  replace (start + S k)%nat with (S (start + k)) by lia. reflexivity.
Qed.

Theorem copy_rows_ok a R rest other O orest start :
  rows_of a cols vs R rest -> rows_of other cols vs O orest ->
  0 <= start -> start + zlen O <= zlen R ->
  exists a', eml_array_copy_rows a start other = Ret (EmlOk, a') /\
    rows_of a' cols vs (firstn (Z.to_nat start) R ++ O ++ skipn (Z.to_nat (start + zlen O)) R) rest.
Proof.
  intros H HO Hs Hfit. pose proof H as [[d2 D1] D2 D3 D4 D5 D6 D7 D8].
  pose proof HO as [[e2 E1] E2 E3 E4 E5 E6 E7 E8].
  unfold eml_array_copy_rows. rewrite D1, D2, D3, E1, E2. cbn [negb Z.eqb Pos.eqb].
  change (zget [cols; zlen R; d2] 1) with (Ret (zlen R)). change (zget [cols; zlen R; d2] 0) with (Ret cols).
  change (zget [cols; zlen O; e2] 1) with (Ret (zlen O)). change (zget [cols; zlen O; e2] 0) with (Ret cols).
  destruct (Z.leb_spec 0 start); [|lia]. cbn [negb bind]. rewrite Z.eqb_refl. cbn [negb].
  change (2 ^ 31) with 2147483648 in *.
  assert (zlen R < 2147483648) by nia. pose proof (zlen_nonneg O) as NO.
  rewrite (chk_int32_ok (start + zlen O)) by (unfold int32_ok; lia). cbn [bind].
  destruct (Z.leb_spec (start + zlen O) (zlen R)); [|lia]. cbn [negb].
  rewrite (chk_int32_ok (vs * cols)) by (unfold int32_ok; nia). cbn [bind]. cbv zeta.
  assert (Eu : to_uint64 (vs * cols) = vs * cols).
  { unfold to_uint64, to_unsigned. apply Z.mod_small. change (2 ^ 64) with 18446744073709551616. nia. }
  rewrite Eu.
  match goal with |- context [foldM ?f _ _] => set (step := f) end.
  destruct (foldM_range_inv step (fun k st => fst st = EmlOk /\
       rows_of (snd st) cols vs (copied R O (Z.to_nat start) (Z.to_nat k)) rest) (zlen O) (EmlOk, a))
    as ([err a'] & E & Ee & Er).
  - lia.
  - split; [reflexivity|]. cbn [snd]. unfold copied. simpl. rewrite Nat.add_0_r, firstn_skipn. exact H.
  - intros k [err a1] Hk [Ee Er]. cbn [fst snd] in *. subst err.
    set (C := copied R O (Z.to_nat start) (Z.to_nat k)) in *.
    assert (LC : length C = length R).
    { unfold C, copied. rewrite !app_length, !firstn_length, skipn_length. unfold zlen in *. lia. }
    assert (ZC : zlen C = zlen R) by (unfold zlen; lia).
    assert (Bk : 0 <= k + start < zlen C) by lia.
    destruct (zget_ok C (k + start) Bk) as [old Eo]. destruct (zget_ok O k Hk) as [new En].
    unfold step.
    rewrite (rows_data_2d a1 C rest (k + start) Er Bk), (rows_data_2d other O orest k HO Hk). cbn [bind].
    rewrite (ro_data _ _ _ _ _ Er), E4.
    rewrite (memcpy2_row C O rest orest (vs * cols) (k + start) k old new); [|apply (ro_rows _ _ _ _ _ Er)|auto|auto|auto].
    cbn [bind]. eexists. split; [reflexivity|]. cbn [fst snd]. split; [reflexivity|].
    replace (copied R O (Z.to_nat start) (Z.to_nat (k + 1))) with (list_set C (Z.to_nat (k + start)) new).
    + apply rows_of_with with (R := C); auto.
      * apply list_set_length.
      * apply zset_list_set_Forall; [apply (ro_rows _ _ _ _ _ Er)|].
        rewrite Forall_forall in E5. apply E5. eapply zget_In; eauto.
    + replace (Z.to_nat (k + 1)) with (Datatypes.S (Z.to_nat k)) by lia.
      replace (Z.to_nat (k + start)) with (Z.to_nat start + Z.to_nat k)%nat by lia.
      apply copied_step; [unfold zlen in *; lia|]. apply zget_Ret in En as [_ En]. exact En.
  - rewrite E. cbn [bind]. cbn [fst snd] in *. subst err. exists a'. split; [reflexivity|].
    unfold copied in Er. rewrite (firstn_all2 (n := Z.to_nat (zlen O)) O) in Er by (unfold zlen; lia).
    replace (Z.to_nat (start + zlen O)) with (Z.to_nat start + Z.to_nat (zlen O))%nat by lia. exact Er.
Qed.
End Rows.

(** Errors leave the array as it was. *)
Theorem copy_rows_bad a cols vs R rest other cols' vs' O orest start :
  rows_of a cols vs R rest -> rows_of other cols' vs' O orest -> - 2 ^ 31 <= start -> start + zlen O < 2 ^ 31 ->
  start < 0 \/ cols' <> cols \/ zlen R < start + zlen O ->
  exists e, e <> EmlOk /\ eml_array_copy_rows a start other = Ret (e, a).
Proof.
  intros H HO B1 B2 C. pose proof H as [[d2 D1] D2 D3 D4 D5 D6 D7 D8].
  pose proof HO as [[e2 E1] E2 E3 E4 E5 E6 E7 E8].
  unfold eml_array_copy_rows. rewrite D1, D2, E1, E2. cbn [negb Z.eqb Pos.eqb].
  change (zget [cols; zlen R; d2] 1) with (Ret (zlen R)). change (zget [cols; zlen R; d2] 0) with (Ret cols).
  change (zget [cols'; zlen O; e2] 1) with (Ret (zlen O)). change (zget [cols'; zlen O; e2] 0) with (Ret cols').
  destruct (Z.leb_spec 0 start); cbn [negb]; [|exists EmlUnsupported; split; [discriminate|reflexivity]]. cbn [bind].
  destruct (Z.eqb_spec cols' cols); cbn [negb]; [|exists EmlSizeMismatch; split; [discriminate|reflexivity]].
  change (2 ^ 31) with 2147483648 in *. pose proof (zlen_nonneg O).
  rewrite chk_int32_ok by (unfold int32_ok; lia). cbn [bind].
  destruct (Z.leb_spec (start + zlen O) (zlen R)); [lia|]. cbn [negb]. exists EmlSizeMismatch; split; [discriminate|reflexivity].
Qed.
