(** Nearest neighbours: properties C17-C21, C53. *)
From Coq Require Import ZArith List Bool Lia Permutation.
From Verif.Base Require Import Res CInt ListX Loops.
From Verif.Model Require Import Common Qsort Neighbors.
From Verif.Spec Require Import VoteSpec NeighborsSpec NeighborsCSpec.
From Verif.Proof Require Import Qsort Vote Neighbors.
Import ListNotations.
Open Scope Z_scope.
Open Scope res_scope.

(** ** C17: the distance *)
(** The claim holds exactly when the squared distance is below 2^30. *)
Theorem C17_distance_iff a b : length a = length b -> Forall int16_ok a -> Forall int16_ok b ->
  eml_distance_euclidean_int16 a b (zlen a) = Ret (Z.sqrt (sq_dist a b)) <-> sq_dist a b < 2 ^ 30.
Proof. exact (distance_iff a b). Qed.
(** The claim for all int16 vectors is false: undefined behaviour, and distance 0 for far points. *)
Theorem C17_distance_refuted :
  ~ (forall a b, length a = length b -> Forall int16_ok a -> Forall int16_ok b ->
       eml_distance_euclidean_int16 a b (zlen a) = Ret (Z.sqrt (sq_dist a b))) /\
  eml_distance_euclidean_int16 [32767] [-32768] 1 = Err SignedOverflow /\
  eml_distance_euclidean_int16 [23170; 23170] [-23170; -23170] 2 = Ret 0.
Proof.
  split; [|split; vm_compute; reflexivity].
  intros H. specialize (H [32767] [-32768] eq_refl).
  assert (C : eml_distance_euclidean_int16 [32767] [-32768] 1 = Ret (Z.sqrt (sq_dist [32767] [-32768]))).
  { apply H; constructor; try constructor; unfold int16_ok; lia. }
  vm_compute in C. discriminate.
Qed.
Example C17_instance : eml_distance_euclidean_int16 [100; -200; 7] [40; 20; 7] 3 = Ret 228 /\
  sq_dist [100; -200; 7] [40; 20; 7] = 52000.
Proof. split; vm_compute; reflexivity. Qed.

(** ** C18: integer square root *)
Theorem C18_isqrt_partial x : 0 <= x < 2 ^ 30 -> exists r, eml_isqrt x = Ret r /\ 0 <= r /\ r * r <= x < (r + 1) * (r + 1).
Proof.
  intros H. exists (Z.sqrt x). split; [apply isqrt_ok; auto|].
  split; [apply Z.sqrt_nonneg|]. pose proof (Z.sqrt_spec x ltac:(lia)). unfold Z.succ in *. lia.
Qed.
(** Missing: for x in 2^30 .. 2^31-1 the shift overflows. *)
Theorem C18_isqrt_refuted x : 2 ^ 30 <= x < 2 ^ 31 -> eml_isqrt x = Err SignedOverflow.
Proof. exact (isqrt_big x). Qed.
Theorem C18_isqrt_negative x : - 2 ^ 31 <= x < 0 -> eml_isqrt x = Ret 0.
Proof. intros [_ H]; exact (isqrt_neg x H). Qed.
Example C18_instance : eml_isqrt 1073741823 = Ret 32767 /\ eml_isqrt 15 = Ret 3 /\ eml_isqrt 16 = Ret 4.
Proof. repeat split; vm_compute; reflexivity. Qed.

(** ** C19: the in-place sort. [Ret] means: no access outside the array or the 48-frame stack. *)
Theorem C19_sort_correct (ds : list dist_item) n : 0 <= n <= zlen ds -> n < 2 ^ 48 ->
  exists ds', eml_neighbors_sort_distances ds n = Ret ds' /\
    Permutation ds ds' /\ zlen ds' = zlen ds /\
    (forall i j x y, 0 <= i <= j -> j < n -> zget ds' i = Ret x -> zget ds' j = Ret y ->
       di_distance x <= di_distance y) /\
    (forall i, n <= i -> zget ds' i = zget ds i).
Proof.
  intros H1 H2. destruct (q_sort_ok di_distance ds n H1 H2) as (b & E & P & L & O & _ & S).
  exists b. split; [exact E|]. split; [exact P|]. split; [exact L|]. split; [exact S|exact O].
Qed.
(** 40 elements: more than the insertion-sort threshold. *)
Example C19_instance :
  res_map (map di_distance) (eml_neighbors_sort_distances
     (map (fun i => mk_dist i ((i * 7) mod 40)) (zrange 40)) 40) = Ret (zrange 40).
Proof. vm_compute. reflexivity. Qed.

(** ** C20: prediction. Nearness is the integer part of the Euclidean distance. *)
Theorem C20_predict_votes_of_nearest_partial data0 labels0 self items x ds out :
  stores data0 labels0 self items -> zlen x = nm_n_features self -> Forall int16_ok x ->
  (forall r l, In (r, l) items -> sq_dist x r < 2 ^ 30) ->
  zlen items <= zlen ds -> 1 <= nm_k self <= zlen items ->
  exists ds' sel, k_nearest int_dist items x (nm_k self) sel /\
    (Forall (fun l => 0 <= l < 10) (labels_of items sel) -> exists c,
       eml_neighbors_predict self x (zlen x) ds (zlen ds) out = Ret (EmlOk, ds', c) /\
       majority 10 (labels_of items sel) c) /\
    (~ Forall (fun l => 0 <= l < 10) (labels_of items sel) ->
       eml_neighbors_predict self x (zlen x) ds (zlen ds) out = Ret (EmlUnknownError, ds', out)).
Proof.
  intros H1 H2 H3 H4 H5 H6.
  destruct (predict_ok data0 labels0 self items x ds out (nm_k self) H1 H2 H3 H4 H5 eq_refl ltac:(lia))
    as (ds' & sel & K & A & B).
  exists ds', sel. split; [exact K|]. split; [|exact B].
  intros F. destruct (A F) as (c & E & [[C _]|[_ M]]); [lia|]. eauto.
Qed.
(** k = 0 is accepted and stores -1. *)
Theorem C20_predict_k_zero data0 labels0 self items x ds out :
  stores data0 labels0 self items -> zlen x = nm_n_features self -> Forall int16_ok x ->
  (forall r l, In (r, l) items -> sq_dist x r < 2 ^ 30) ->
  zlen items <= zlen ds -> nm_k self = 0 ->
  exists ds', eml_neighbors_predict self x (zlen x) ds (zlen ds) out = Ret (EmlOk, ds', -1).
Proof.
  intros H1 H2 H3 H4 H5 H6.
  destruct (predict_ok data0 labels0 self items x ds out 0 H1 H2 H3 H4 H5 H6 ltac:(pose proof (zlen_nonneg items); lia))
    as (ds' & sel & K & A & B).
  destruct K as (L & _). assert (sel = []) as -> by (destruct sel; auto; rewrite zlen_cons in L; pose proof (zlen_nonneg sel); lia).
  destruct A as (c & E & [[_ ->]|[C _]]); [constructor| |lia]. eauto.
Qed.
Theorem C20_predict_wrong_lengths self x lx ds lds out :
  lds < nm_n_items self \/ lx <> nm_n_features self ->
  eml_neighbors_predict self x lx ds lds out = Ret (EmlSizeMismatch, ds, out).
Proof. exact (predict_errors self x lx ds lds out). Qed.
Theorem C20_predict_k_too_big data0 labels0 self items x ds out :
  stores data0 labels0 self items -> zlen x = nm_n_features self -> Forall int16_ok x ->
  (forall r l, In (r, l) items -> sq_dist x r < 2 ^ 30) ->
  zlen items <= zlen ds -> zlen items < nm_k self ->
  exists ds', eml_neighbors_predict self x (zlen x) ds (zlen ds) out = Ret (EmlSizeMismatch, ds', out).
Proof. exact (predict_k_too_big data0 labels0 self items x ds out). Qed.

Definition knn_items : dataset := [([1; 1], 1); ([1; 0], 0); ([500; 500], 0)].
Definition knn_model : neighbors_model := mk_neighbors 2 3 4 [1;1;1;0;500;500;0;0] [1;0;0;0] 1.
Example knn_stores : stores (repeat 0 8) (repeat 0 4) knn_model knn_items.
Proof.
  constructor; try reflexivity; try (vm_compute; intuition congruence).
  repeat constructor; vm_compute; intuition congruence.
Qed.
(** With exact distances the claim is false: item 1 (squared distance 1) is strictly nearer than
    item 0 (squared distance 2), but item 0 is used because both have integer distance 1. *)
Theorem C20_predict_exact_nearest_refuted :
  ~ (forall data0 labels0 self items x ds out,
      stores data0 labels0 self items -> zlen x = nm_n_features self -> Forall int16_ok x ->
      (forall r l, In (r, l) items -> sq_dist x r < 2 ^ 30) ->
      zlen items <= zlen ds -> 1 <= nm_k self <= zlen items ->
      Forall (fun it => 0 <= snd it < 10) items ->
      exists ds' sel c, k_nearest sq_dist items x (nm_k self) sel /\
        eml_neighbors_predict self x (zlen x) ds (zlen ds) out = Ret (EmlOk, ds', c) /\
        majority 10 (labels_of items sel) c).
Proof.
  intros H.
  destruct (H (repeat 0 8) (repeat 0 4) knn_model knn_items [0; 0] (repeat (mk_dist 0 0) 3) 77)
    as (ds' & sel & c & K & E & M).
  - apply knn_stores.
  - reflexivity.
  - repeat constructor; unfold int16_ok; lia.
  - intros r l [X|[X|[X|[]]]]; injection X as <- <-; reflexivity.
  - vm_compute; congruence.
  - vm_compute; intuition congruence.
  - repeat constructor; cbn; lia.
  - assert (Ec : c = 1).
    { assert (Q : res_map (fun p => snd p) (eml_neighbors_predict knn_model [0;0] 2 (repeat (mk_dist 0 0) 3) 3 77) = Ret 1)
        by (vm_compute; reflexivity).
      change (zlen [0; 0]) with 2 in E. change (zlen (repeat (mk_dist 0 0) 3)) with 3 in E.
      rewrite E in Q. injection Q as ->. reflexivity. }
    subst c. destruct K as (L & ND & B & N). change (nm_k knn_model) with 1 in L.
    destruct sel as [|i [|j sel]]; [discriminate| |rewrite !zlen_cons in L; pose proof (zlen_nonneg sel); lia].
    assert (Bi : 0 <= i < 3) by (apply B; left; auto).
    assert (i = 1).
    { destruct (Z.eq_dec i 1); auto. exfalso.
      assert (NI : ~ In 1 [i]) by (intros [C|[]]; lia).
      assert (Ci : i = 0 \/ i = 2) by lia. destruct Ci as [-> | ->].
      - specialize (N 0 1 [1;1] 1 [1;0] 0 ltac:(left; auto) NI eq_refl eq_refl). vm_compute in N. congruence.
      - specialize (N 2 1 [500;500] 0 [1;0] 0 ltac:(left; auto) NI eq_refl eq_refl). vm_compute in N. congruence. }
    subst i. destruct M as (_ & M & _). specialize (M 0 ltac:(lia)). vm_compute in M. congruence.
Qed.
(** The hypotheses of the partial theorem are met by this model and query. *)
Example C20_instance :
  stores (repeat 0 8) (repeat 0 4) knn_model knn_items /\
  (forall r l, In (r, l) knn_items -> sq_dist [400; 480] r < 2 ^ 30) /\
  res_map snd (eml_neighbors_predict knn_model [400; 480] 2 (repeat (mk_dist 0 0) 3) 3 77) = Ret 0.
Proof.
  split; [apply knn_stores|]. split; [|vm_compute; reflexivity].
  intros r l [X|[X|[X|[]]]]; injection X as <- <-; reflexivity.
Qed.

(** ** C21: on-device learning *)
Theorem C21_add_item_history data0 labels0 self items requests :
  stores data0 labels0 self items -> Forall (fun r => Forall int16_ok (fst r)) requests ->
  exists self',
    foldM (fun s r => let* (_, s') := eml_neighbors_add_item s (fst r) (zlen (fst r)) (snd r) in Ret s')
      self requests = Ret self' /\
    stores data0 labels0 self'
      (items ++ accepted (nm_n_features self) (nm_max_items self - zlen items) requests) /\
    nm_n_features self' = nm_n_features self /\ nm_max_items self' = nm_max_items self /\
    nm_k self' = nm_k self.
Proof. intros H F. exact (add_all_ok data0 labels0 requests self items H F). Qed.
Theorem C21_add_item_result data0 labels0 self items v l :
  stores data0 labels0 self items -> Forall int16_ok v ->
  exists e self', eml_neighbors_add_item self v (zlen v) l = Ret (e, self') /\
    (e = EmlOk <-> zlen v = nm_n_features self /\ zlen items < nm_max_items self) /\
    (e <> EmlOk -> e = EmlSizeMismatch /\ self' = self).
Proof.
  intros H Hv. destruct (Z.eq_dec (zlen v) (nm_n_features self)) as [E|E];
    [destruct (Z.lt_ge_cases (zlen items) (nm_max_items self)) as [R|R]|].
  - destruct (add_item_ok data0 labels0 self items v l H Hv E R) as (s & Es & _).
    exists EmlOk, s. split; [exact Es|]. split; [tauto|congruence].
  - exists EmlSizeMismatch, self. split; [apply add_item_rejected; right; rewrite (stores_count _ _ _ _ H); lia|].
    split; [|tauto]. split; [congruence|lia].
  - exists EmlSizeMismatch, self. split; [apply add_item_rejected; left; auto|].
    split; [|tauto]. split; [congruence|lia].
Qed.
(** An empty model over buffers of sufficient size stores the empty data set. *)
Theorem C21_empty_model nf max k data0 labels0 :
  0 <= nf <= 65535 -> 0 <= max <= 32767 -> max * nf <= zlen data0 -> max <= zlen labels0 ->
  stores data0 labels0 (mk_neighbors nf 0 max data0 labels0 k) [].
Proof. intros. constructor; cbn; auto; try lia. Qed.
Example C21_instance :
  res_map (fun s => (nm_n_items s, nm_data s, nm_labels s))
    (foldM (fun s r => let* (_, s') := eml_neighbors_add_item s (fst r) (zlen (fst r)) (snd r) in Ret s')
      (mk_neighbors 2 0 2 [9;9;9;9;9] [8;8;8] 1) [([1;2], 5); ([3], 6); ([3;4], 7); ([5;6], 1)])
  = Ret (2, [1;2;3;4;9], [5;7;8]).
Proof. vm_compute. reflexivity. Qed.

(** ** C53: buffer check *)
Theorem C53_check_sound self dl ll sl : 0 <= dl < 2 ^ 31 -> 0 <= ll < 2 ^ 31 -> 0 <= sl < 2 ^ 31 ->
  0 <= nm_max_items self <= 32767 -> 0 <= nm_n_features self <= 65535 ->
  exists e, eml_neighbors_check self dl ll sl = Ret e /\
    (e = EmlOk -> nm_max_items self * nm_n_features self <= dl /\ nm_max_items self <= ll /\ nm_max_items self <= sl).
Proof.
  intros H1 H2 H3 H4 H5. unfold eml_neighbors_check.
  assert (W : forall z, 0 <= z -> to_int16 z <= z).
  { intros z Hz. unfold to_int16, to_signed. change (2 ^ (16 - 1)) with 32768. change (2 ^ 16) with 65536.
    pose proof (Z.mod_le z 65536 Hz ltac:(lia)). pose proof (Z.mod_pos_bound z 65536 ltac:(lia)).
    destruct (Z.ltb_spec (z mod 65536) 32768); lia. }
  rewrite chk_int32_ok by (unfold int32_ok; nia). cbn [bind].
  pose proof (W dl ltac:(lia)). pose proof (W ll ltac:(lia)). pose proof (W sl ltac:(lia)).
  destruct (Z.ltb_spec (to_int16 dl) (nm_max_items self * nm_n_features self)); [eexists; split; [reflexivity|discriminate]|].
  destruct (Z.ltb_spec (to_int16 ll) (nm_max_items self)); [eexists; split; [reflexivity|discriminate]|].
  destruct (Z.ltb_spec (to_int16 sl) (nm_max_items self)); [eexists; split; [reflexivity|discriminate]|].
  eexists; split; [reflexivity|]. intros _. lia.
Qed.
Theorem C53_check_complete_partial self dl ll sl : 0 <= dl <= 32767 -> 0 <= ll <= 32767 -> 0 <= sl <= 32767 ->
  0 <= nm_max_items self <= 32767 -> 0 <= nm_n_features self <= 65535 ->
  nm_max_items self * nm_n_features self <= dl -> nm_max_items self <= ll -> nm_max_items self <= sl ->
  eml_neighbors_check self dl ll sl = Ret EmlOk.
Proof.
  intros. unfold eml_neighbors_check. rewrite !to_int16_id by (unfold int16_ok; lia).
  rewrite chk_int32_ok by (unfold int32_ok; nia). cbn [bind].
  destruct (Z.ltb_spec dl (nm_max_items self * nm_n_features self)); [lia|].
  destruct (Z.ltb_spec ll (nm_max_items self)); [lia|].
  destruct (Z.ltb_spec sl (nm_max_items self)); [lia|]. reflexivity.
Qed.
(** Missing: a buffer of 40000 values is more than enough for one item, but is refused. *)
Theorem C53_check_complete_refuted :
  eml_neighbors_check (mk_neighbors 1 0 1 [] [] 1) 40000 1 1 = Ret EmlSizeMismatch.
Proof. vm_compute. reflexivity. Qed.
Example C53_instance : eml_neighbors_check knn_model 8 4 4 = Ret EmlOk.
Proof. vm_compute. reflexivity. Qed.
