(** Arrays and vectors: properties C22-C25, C52. *)
From Coq Require Import ZArith List Bool Lia.
From Verif.Base Require Import Res CInt ListX Loops.
From Verif.Model Require Import Common Mem Array Vector.
From Verif.Spec Require Import ArraySpec ArraySession.
From Verif.Proof Require Import Mem Array Vector.
Import ListNotations.
Open Scope Z_scope.
Open Scope res_scope.

(** ** C22: addressing *)
(** [self] is what the struct held before. The claim, for arrays below 2^31 bytes. *)
Theorem C22_addressing_partial self c r extra vs buffer bl a :
  0 <= bl < 2 ^ 63 -> int8_ok vs ->
  eml_array_init_full self 2 (c :: r :: extra) vs buffer bl = Ret (EmlOk, a) ->
  1 <= vs -> c * r * vs < 2 ^ 31 ->
  (forall col row, eml_array_data_2d a col row = Ret None <-> ~ (0 <= col < c /\ 0 <= row < r)) /\
  (forall col row, 0 <= col < c /\ 0 <= row < r ->
     exists o, eml_array_data_2d a col row = Ret (Some o) /\ 0 <= o /\ o + vs <= bl) /\
  (forall col row col' row' o o',
     eml_array_data_2d a col row = Ret (Some o) -> eml_array_data_2d a col' row' = Ret (Some o') ->
     (col, row) <> (col', row') -> o + vs <= o' \/ o' + vs <= o).
Proof.
  intros Hbl Hvs Hi Hv Hsm. destruct (init_2d self c r extra vs buffer bl a Hbl Hvs Hi) as (I1 & I2 & I3 & I4 & I5 & I6 & I7 & I8).
  pose proof (fun col row => data_2d_ok a c r 0 vs col row I1 I2 I4 ltac:(lia) ltac:(lia) Hsm) as D.
  assert (IN : forall col row, (0 <=? col) && (col <? c) && (0 <=? row) && (row <? r) = true <-> (0 <= col < c /\ 0 <= row < r)).
  { intros. rewrite !andb_true_iff, !Z.leb_le, !Z.ltb_lt. tauto. }
  assert (IF : forall col row o, eml_array_data_2d a col row = Ret (Some o) ->
    (0 <= col < c /\ 0 <= row < r) /\ o = vs * (row * c + col)).
  { intros col row o E. rewrite D in E. specialize (IN col row).
    destruct ((0 <=? col) && (col <? c) && (0 <=? row) && (row <? r)); [|discriminate].
    inversion E. split; [apply IN; auto|auto]. }
  split; [|split].
  - intros col row. rewrite D. specialize (IN col row).
    destruct ((0 <=? col) && (col <? c) && (0 <=? row) && (row <? r)).
    + split; [discriminate|]. intros N. exfalso. apply N. apply IN; auto.
    + split; [|auto]. intros _ Q. apply IN in Q. discriminate.
  - intros col row H. rewrite D. rewrite (proj2 (IN col row) H). eexists. split; [reflexivity|].
    destruct H as [H1 H2].
    assert (row * c <= (r - 1) * c) by (apply Z.mul_le_mono_nonneg_r; lia).
    assert (0 <= row * c) by (apply Z.mul_nonneg_nonneg; lia).
    split; [apply Z.mul_nonneg_nonneg; lia|].
    assert (vs * (row * c + col + 1) <= vs * (c * r)) by (apply Z.mul_le_mono_nonneg_l; lia).
    lia.
  - intros col row col' row' o o' E E' N. apply IF in E as [[H1 H2] ->]. apply IF in E' as [[H1' H2'] ->].
    set (u := row * c + col). set (u' := row' * c + col').
    assert (u <> u').
    { unfold u, u'. intros Q. assert (row = row').
      { destruct (Z.lt_trichotomy row row') as [L|[L|L]]; [|exact L|].
        - assert ((row + 1) * c <= row' * c) by (apply Z.mul_le_mono_nonneg_r; lia). lia.
        - assert ((row' + 1) * c <= row * c) by (apply Z.mul_le_mono_nonneg_r; lia). lia. }
       subst row'. assert (col = col') by lia. subst. congruence. }
    destruct (Z.lt_ge_cases u u').
    + assert (vs * (u + 1) <= vs * u') by (apply Z.mul_le_mono_nonneg_l; lia). lia.
    + assert (vs * (u' + 1) <= vs * u) by (apply Z.mul_le_mono_nonneg_l; lia). lia.
Qed.
(** Missing: larger arrays. Initialisation accepts them (given the buffer), and the int offset
    overflows. *)
Theorem C22_addressing_refuted self buffer :
  exists a, eml_array_init_full self 2 [65536; 65536] 1 buffer (2 ^ 32) = Ret (EmlOk, a) /\
    eml_array_data_2d a 0 40000 = Err SignedOverflow.
Proof. exists (mk_array [65536; 65536; 0] 2 1 buffer). split; [|vm_compute; reflexivity]. reflexivity. Qed.
(** ... and with three dimensions the size computation itself can overflow. *)
Theorem C22_storage_size_refuted : exists dims, Forall int32_ok dims /\ length dims = 3%nat /\
  eml_storage_size_array 3 dims 2 = Err SignedOverflow.
Proof.
  exists [2 ^ 30; 2 ^ 30; 2 ^ 4]. split; [|split; [reflexivity|vm_compute; reflexivity]].
  repeat constructor; vm_compute; congruence.
Qed.
Example C22_instance : exists a,
  eml_array_init_full (mk_array [] 0 0 []) 2 [3; 4] 2 (repeat 0 30) 30 = Ret (EmlOk, a) /\
  3 * 4 * 2 < 2 ^ 31 /\ eml_array_data_2d a 2 3 = Ret (Some 22) /\ eml_array_data_2d a 3 2 = Ret None.
Proof. eexists. split; [vm_compute; reflexivity|]. split; [lia|]. split; vm_compute; reflexivity. Qed.

(** ** C23: shifting rows up *)
Theorem C23_shift_partial a cols vs R rest s : rows_of a cols vs R rest -> 1 <= s <= zlen R ->
  exists a' R', eml_array_shift_rows a (- s) = Ret (EmlOk, a') /\ rows_of a' cols vs R' rest /\
    zlen R' = zlen R /\
    (forall i, 0 <= i < zlen R - s -> zget R' i = zget R (i + s)) /\
    (forall i, zlen R - s <= i -> zget R' i = zget R i).
Proof.
  intros H Hs. destruct (shift_rows_ok cols vs a R rest s H Hs) as (a' & E & Ha).
  eexists. eexists. split; [exact E|]. split; [exact Ha|].
  assert (G1 : forall (l : list (list Z)) n i, 0 <= i -> zget (skipn n l) i = zget l (Z.of_nat n + i)).
  { intros l n i Hi. unfold zget. destruct (Z.ltb_spec i 0), (Z.ltb_spec (Z.of_nat n + i) 0); try lia.
    rewrite nth_error_skipn'. replace (Z.to_nat (Z.of_nat n + i)) with (n + Z.to_nat i)%nat by lia. reflexivity. }
  assert (L1 : length (skipn (Z.to_nat s) R) = Z.to_nat (zlen R - s)) by (rewrite skipn_length; unfold zlen in *; lia).
  split; [|split].
  - rewrite zlen_app. unfold zlen in *. rewrite !skipn_length. lia.
  - intros i Hi. replace (i + s) with (Z.of_nat (Z.to_nat s) + i) by lia. rewrite <- G1 by lia.
    destruct (zget_ok (skipn (Z.to_nat s) R) i) as [x Ex]; [unfold zlen at 1; rewrite L1; lia|].
    rewrite Ex. apply zget_app1; auto.
  - intros i Hi.
    replace (zget (skipn (Z.to_nat s) R ++ skipn (Z.to_nat (zlen R - s)) R) i)
      with (zget (skipn (Z.to_nat (zlen R - s)) R) (i - (zlen R - s))).
    + rewrite G1 by lia. f_equal. lia.
    + unfold zget. destruct (Z.ltb_spec i 0), (Z.ltb_spec (i - (zlen R - s)) 0); try lia.
      rewrite (nth_error_app2 (skipn (Z.to_nat s) R)) by (rewrite L1; lia). rewrite L1.
      replace (Z.to_nat i - Z.to_nat (zlen R - s))%nat with (Z.to_nat (i - (zlen R - s))) by lia. reflexivity.
Qed.
Theorem C23_shift_rejected a cols vs R rest shift : rows_of a cols vs R rest -> - 2 ^ 31 < shift < 2 ^ 31 ->
  0 < shift \/ zlen R < - shift ->
  exists e, e <> EmlOk /\ eml_array_shift_rows a shift = Ret (e, a).
Proof.
  intros H B C. destruct (shift_rows_bad cols vs a R rest shift H B) as [S1 S2]. destruct C as [C|C].
  - auto.
  - exists EmlSizeMismatch. split; [discriminate|]. apply S1. lia.
Qed.
(** Missing: s = 0. The code then copies every row onto itself with memcpy, which is undefined. *)
Theorem C23_shift_zero_refuted a cols vs R rest : rows_of a cols vs R rest -> 1 <= zlen R ->
  eml_array_shift_rows a 0 = Err OverlappingCopy.
Proof. exact (shift_rows_zero cols vs a R rest). Qed.
Definition arr3 : eml_array := mk_array [2; 3; 0] 2 1 [1; 2; 3; 4; 5; 6; 77].
Example C23_instance : rows_of arr3 2 1 [[1; 2]; [3; 4]; [5; 6]] [77] /\
  eml_array_shift_rows arr3 (- 2) = Ret (EmlOk, mk_array [2; 3; 0] 2 1 [5; 6; 3; 4; 5; 6; 77]).
Proof.
  split; [|vm_compute; reflexivity]. constructor; try reflexivity; try (vm_compute; congruence).
  - exists 0. reflexivity.
  - repeat constructor.
Qed.

(** ** C24: copying rows *)
Theorem C24_copy_partial a cols vs R rest other cols' O orest start :
  rows_of a cols vs R rest -> rows_of other cols' vs O orest ->
  - 2 ^ 31 <= start -> start + zlen O < 2 ^ 31 ->
  (exists e, e <> EmlOk /\ eml_array_copy_rows a start other = Ret (e, a)) \/
  (0 <= start /\ cols' = cols /\ start + zlen O <= zlen R /\
   exists a', eml_array_copy_rows a start other = Ret (EmlOk, a') /\
     rows_of a' cols vs (firstn (Z.to_nat start) R ++ O ++ skipn (Z.to_nat (start + zlen O)) R) rest).
Proof.
  intros H HO B1 B2.
  destruct (Z.lt_ge_cases start 0) as [S|S]; [left; apply (copy_rows_bad a cols vs R rest other cols' vs O orest); auto|].
  destruct (Z.eq_dec cols' cols) as [C|C]; [|left; apply (copy_rows_bad a cols vs R rest other cols' vs O orest); auto].
  destruct (Z.lt_ge_cases (zlen R) (start + zlen O)) as [L|L];
    [left; apply (copy_rows_bad a cols vs R rest other cols' vs O orest); auto|].
  right. subst cols'. split; [auto|]. split; [auto|]. split; [auto|]. apply (copy_rows_ok cols vs a R rest other O orest start); auto.
Qed.
(** Missing: arrays with different value sizes. They are not rejected: here the 2-byte rows of
    [self] are filled from 1-byte rows, reading past the end of the other buffer. *)
Theorem C24_copy_value_size_refuted :
  exists a R rest other O orest, rows_of a 2 2 R rest /\ rows_of other 2 1 O orest /\
    eml_array_copy_rows a 0 other = Err OutOfBounds.
Proof.
  exists (mk_array [2; 2; 0] 2 2 [0;0;0;0;0;0;0;0]), [[0;0;0;0];[0;0;0;0]], [],
         (mk_array [2; 2; 0] 2 1 [1; 2; 3; 4]), [[1; 2]; [3; 4]], [].
  split; [|split; [|vm_compute; reflexivity]];
    (constructor; try reflexivity; try (vm_compute; congruence); [exists 0; reflexivity|repeat constructor]).
Qed.
Example C24_instance :
  eml_array_copy_rows arr3 1 (mk_array [2; 1; 0] 2 1 [8; 9]) = Ret (EmlOk, mk_array [2; 3; 0] 2 1 [1; 2; 8; 9; 5; 6; 77]) /\
  eml_array_copy_rows arr3 3 (mk_array [2; 1; 0] 2 1 [8; 9]) = Ret (EmlSizeMismatch, arr3).
Proof. split; vm_compute; reflexivity. Qed.

(** ** C25: a sliding window holds the last rows of everything pushed *)
Lemma last_n_app {A} (R X : list A) Y : length X = length R ->
  last_n (length R) (last_n (length R) (X ++ Y)) = last_n (length R) (X ++ Y).
Proof.
  intros L. unfold last_n. rewrite skipn_length.
  replace (length (X ++ Y) - (length (X ++ Y) - length R) - length R)%nat with 0%nat; [reflexivity|].
  rewrite app_length. lia.
Qed.
Lemma last_n_app2 {A} n (X Y Z : list A) : (n <= length X)%nat ->
  last_n n (last_n n X ++ Y) = last_n n (X ++ Y).
Proof.
  intros L. unfold last_n. rewrite !app_length, !skipn_length.
  replace (X ++ Y) with (firstn (length X - n) X ++ (skipn (length X - n) X ++ Y))
    by (rewrite app_assoc, firstn_skipn; auto).
  rewrite (skipn_app (length X + length Y - n) (firstn (length X - n) X)).
  rewrite (skipn_all2 (firstn (length X - n) X)) by (rewrite firstn_length; lia). simpl.
  rewrite firstn_length. f_equal. lia.
Qed.
Lemma push_ok a cols vs R rest other O orest :
  rows_of a cols vs R rest -> rows_of other cols vs O orest -> 1 <= zlen O <= zlen R ->
  exists a', push_rows a other = Ret (Some a') /\ rows_of a' cols vs (last_n (length R) (R ++ O)) rest.
Proof.
  intros H HO Hk. unfold push_rows.
  destruct (ro_dims _ _ _ _ _ H) as [d E1]. destruct (ro_dims _ _ _ _ _ HO) as [d' E2]. rewrite E1, E2.
  change (zget [cols; zlen R; d] 1) with (Ret (zlen R)). change (zget [cols; zlen O; d'] 1) with (Ret (zlen O)).
  cbn [bind]. destruct (shift_rows_ok cols vs a R rest (zlen O) H Hk) as (a1 & Es & H1). rewrite Es. cbn [bind].
  set (R1 := skipn (Z.to_nat (zlen O)) R ++ skipn (Z.to_nat (zlen R - zlen O)) R) in *.
  assert (L1 : zlen R1 = zlen R) by (unfold R1; rewrite zlen_app; unfold zlen in *; rewrite !skipn_length; lia).
  destruct (copy_rows_ok cols vs a1 R1 rest other O orest (zlen R - zlen O) H1 HO) as (a2 & Ec & H2); [lia|lia|].
  rewrite Ec. cbn [bind]. exists a2. split; [reflexivity|].
  replace (last_n (length R) (R ++ O)) with (firstn (Z.to_nat (zlen R - zlen O)) R1 ++ O ++ skipn (Z.to_nat (zlen R - zlen O + zlen O)) R1); [exact H2|].
  unfold R1, last_n. rewrite app_length.
  replace (Z.to_nat (zlen R - zlen O + zlen O)) with (length R) by (unfold zlen; lia).
  rewrite (skipn_all2 (n := length R)) by (rewrite app_length, !skipn_length; unfold zlen in *; lia). rewrite app_nil_r.
  replace (length R + length O - length R)%nat with (length O) by lia.
  rewrite skipn_app. replace (length O - length R)%nat with 0%nat by (unfold zlen in *; lia). simpl. f_equal.
  replace (Z.to_nat (zlen O)) with (length O) by (unfold zlen; lia).
  replace (Z.to_nat (zlen R - zlen O)) with (length (skipn (length O) R)) by (rewrite skipn_length; unfold zlen; lia).
  rewrite firstn_app, firstn_all, Nat.sub_diag. simpl. now rewrite app_nil_r.
Qed.
(** [chunks] are arrays with at least one and at most [rows] rows each. *)
Theorem C25_sliding_window_partial a cols vs R rest chunks Os :
  rows_of a cols vs R rest ->
  Forall2 (fun c O => (exists orest, rows_of c cols vs O orest) /\ 1 <= zlen O <= zlen R) chunks Os ->
  exists a', push_all a chunks = Ret (Some a') /\
    rows_of a' cols vs (last_n (length R) (R ++ concat Os)) rest.
Proof.
  intros H F. revert a R H F. revert Os. induction chunks as [|c chunks IH]; intros Os a R H F; inversion F; subst.
  - exists a. split; [reflexivity|]. simpl. rewrite app_nil_r. unfold last_n. now rewrite Nat.sub_diag.
  - destruct H2 as [[orest Hc] Hk]. destruct (push_ok a cols vs R rest c y orest H Hc Hk) as (a1 & E1 & H1).
    simpl push_all. rewrite E1. cbn [bind].
    assert (L : length (last_n (length R) (R ++ y)) = length R) by (unfold last_n; rewrite skipn_length, app_length; lia).
    destruct (IH l' a1 (last_n (length R) (R ++ y)) H1) as (a' & E & Ha).
    + assert (LZ : zlen (last_n (length R) (R ++ y)) = zlen R) by (unfold zlen; lia). rewrite LZ. auto.
    + exists a'. split; [exact E|]. rewrite L in Ha. simpl concat. rewrite app_assoc.
      rewrite last_n_app2 in Ha; auto. rewrite app_length; lia.
Qed.
(** Missing: an empty chunk. It is shifted by 0, which is undefined (C23_shift_zero_refuted). *)
Theorem C25_empty_chunk_refuted a cols vs R rest c orest : rows_of a cols vs R rest -> 1 <= zlen R ->
  rows_of c cols vs [] orest -> push_rows a c = Err OverlappingCopy.
Proof.
  intros H HR Hc. unfold push_rows.
  destruct (ro_dims _ _ _ _ _ H) as [d E1]. destruct (ro_dims _ _ _ _ _ Hc) as [d' E2]. rewrite E1, E2.
  change (zget [cols; zlen R; d] 1) with (Ret (zlen R)). change (zget [cols; zlen (@nil (list Z)); d'] 1) with (Ret 0).
  cbn [bind]. change (- 0) with 0. rewrite (shift_rows_zero cols vs a R rest H HR). reflexivity.
Qed.
Example C25_instance :
  push_all arr3 [mk_array [2; 1; 0] 2 1 [10; 11]; mk_array [2; 2; 0] 2 1 [12; 13; 14; 15]; mk_array [2; 1; 0] 2 1 [16; 17]]
  = Ret (Some (mk_array [2; 3; 0] 2 1 [12; 13; 14; 15; 16; 17; 77])).
Proof. vm_compute. reflexivity. Qed.

(** ** C52: vectors *)
(** [d] and [s] are the buffers the vectors point into. *)
Theorem C52_vector_set_partial {F} (d s : list F) dest source location :
  inside d dest -> inside s source -> - 2 ^ 31 <= location -> v_length source + location < 2 ^ 31 ->
  (exists code, code < 0 /\ eml_vector_set d dest s source location = Ret (code, d)) \/
  (0 <= location /\ location + v_length source <= v_length dest /\
   exists d', eml_vector_set d dest s source location = Ret (0, d') /\ zlen d' = zlen d /\
    forall j, zget d' j =
      if (v_start dest + location <=? j) && (j <? v_start dest + location + v_length source)
      then zget s (v_start source + (j - (v_start dest + location))) else zget d j).
Proof.
  intros Hd Hs B1 B2.
  assert (I : int32_ok (v_length source + location)).
  { unfold int32_ok. destruct Hs as (_ & ? & _). change (2 ^ 31) with 2147483648 in *. lia. }
  destruct (Z.lt_ge_cases location 0); [left; apply vector_set_rejected; auto|].
  destruct (Z.lt_ge_cases (v_length dest) (location + v_length source)); [left; apply vector_set_rejected; auto|].
  right. split; [auto|]. split; [lia|]. apply vector_set_ok; auto.
Qed.
(** Missing: the sum of length and location may overflow before it is checked. *)
Theorem C52_vector_set_refuted {F} (d s : list F) dest source location :
  int32_ok location -> 2 ^ 31 <= v_length source + location ->
  eml_vector_set d dest s source location = Err SignedOverflow.
Proof.
  intros _ H. unfold eml_vector_set, chk_int32, chk_signed. change (32 - 1) with 31. destruct (Z.ltb_spec (v_length source + location) (2 ^ 31)); [lia|].
  rewrite andb_false_r. reflexivity.
Qed.
(** Views select a part of a vector; setting a view changes only that part. *)
Theorem C52_view {F} (b : list F) orig start end_ val : inside b orig -> 0 <= start <= end_ -> end_ <= v_length orig ->
  v_length orig < 2 ^ 31 ->
  exists v b', eml_vector_view orig start end_ = Ret v /\ eml_vector_set_value b v val = Ret (EmlOk, b') /\
    forall j, zget b' j = if (v_start orig + start <=? j) && (j <? v_start orig + end_) then Ret val else zget b j.
Proof.
  intros H1 H2 H3 H4. destruct (vector_view_ok b orig start end_ H1 H2 H3 H4) as (v & E & Iv & L & St).
  destruct (vector_set_value_ok b v val Iv) as (b' & E2 & _ & G).
  exists v, b'. split; [auto|]. split; [auto|]. intros j. rewrite G. specialize (St 0).
  replace (v_start v) with (v_start orig + start) by lia.
  replace (v_start orig + start + v_length v) with (v_start orig + end_) by lia. reflexivity.
Qed.
Example C52_instance : inside [0; 1; 2; 3; 4; 5] (mk_vec 1 4) /\ inside [7; 8] (mk_vec 0 2) /\
  eml_vector_set [0; 1; 2; 3; 4; 5] (mk_vec 1 4) [7; 8] (mk_vec 0 2) 2 = Ret (0, [0; 1; 2; 7; 8; 5]) /\
  eml_vector_set [0; 1; 2; 3; 4; 5] (mk_vec 1 4) [7; 8] (mk_vec 0 2) 3 = Ret (-1, [0; 1; 2; 3; 4; 5]).
Proof. unfold inside. cbn. repeat split; try lia; vm_compute; congruence. Qed.
