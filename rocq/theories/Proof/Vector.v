(** Proofs about eml_vector. *)
From Coq Require Import ZArith List Bool Lia.
From Verif.Base Require Import Res CInt ListX Loops.
From Verif.Model Require Import Common Vector.
Import ListNotations.
Open Scope Z_scope.
Open Scope res_scope.

Section V.
Context {F : Type}.

(** The vector lies in the buffer. *)
Definition inside (b : list F) (v : vec) : Prop :=
  0 <= v_start v /\ 0 <= v_length v /\ v_start v + v_length v <= zlen b.

Theorem vector_set_ok (d s : list F) dest source location :
  inside d dest -> inside s source -> int32_ok (v_length source + location) ->
  0 <= location -> location + v_length source <= v_length dest ->
  exists d', eml_vector_set d dest s source location = Ret (0, d') /\ zlen d' = zlen d /\
    forall j, zget d' j =
      if (v_start dest + location <=? j) && (j <? v_start dest + location + v_length source)
      then zget s (v_start source + (j - (v_start dest + location))) else zget d j.
Proof.
  intros (D1 & D2 & D3) (S1 & S2 & S3) Ho Hl Hfit. unfold eml_vector_set.
  rewrite chk_int32_ok by auto. cbn [bind].
  destruct (Z.ltb_spec (v_length dest) (v_length source + location)); [lia|].
  destruct (Z.ltb_spec location 0); [lia|].
  replace (v_length source + location - location) with (v_length source) by lia.
  match goal with |- context [foldM ?f _ _] => set (step := f) end.
  destruct (foldM_range_inv step (fun k d' => zlen d' = zlen d /\
    forall j, zget d' j =
      if (v_start dest + location <=? j) && (j <? v_start dest + location + k)
      then zget s (v_start source + (j - (v_start dest + location))) else zget d j) (v_length source) d)
    as (d' & E & L & G).
  - lia.
  - split; [auto|]. intros j. destruct (Z.leb_spec (v_start dest + location) j), (Z.ltb_spec j (v_start dest + location + 0)); cbn; auto; lia.
  - intros k d' Hk (L & G). unfold step. cbv zeta.
    destruct (zget_ok s (v_start source + (location + k - location))) as [x Ex]; [lia|]. rewrite Ex. cbn [bind].
    assert (B : 0 <= v_start dest + (location + k) < zlen d') by lia.
    rewrite zset_ok by exact B. eexists. split; [reflexivity|]. rewrite zlen_list_set. split; [auto|].
    intros j. rewrite zget_list_set by exact B. rewrite G.
    destruct (Z.eqb_spec (v_start dest + (location + k)) j), (Z.leb_spec (v_start dest + location) j),
      (Z.ltb_spec j (v_start dest + location + k)), (Z.ltb_spec j (v_start dest + location + (k + 1)));
      cbn [andb]; try lia; auto.
    subst j. rewrite <- Ex. f_equal. lia.
  - rewrite E. cbn [bind]. exists d'. auto.
Qed.

Theorem vector_set_rejected (d s : list F) dest source location :
  int32_ok (v_length source + location) ->
  location < 0 \/ v_length dest < location + v_length source ->
  exists code, code < 0 /\ eml_vector_set d dest s source location = Ret (code, d).
Proof.
  intros Ho C. unfold eml_vector_set. rewrite chk_int32_ok by auto. cbn [bind].
  destruct (Z.ltb_spec (v_length dest) (v_length source + location)); [exists (-1); split; [lia|auto]|].
  destruct (Z.ltb_spec location 0); [exists (-2); split; [lia|auto]|lia].
Qed.

Theorem vector_set_value_ok (d : list F) a val : inside d a ->
  exists d', eml_vector_set_value d a val = Ret (EmlOk, d') /\ zlen d' = zlen d /\
    forall j, zget d' j = if (v_start a <=? j) && (j <? v_start a + v_length a) then Ret val else zget d j.
Proof.
  intros (D1 & D2 & D3). unfold eml_vector_set_value.
  destruct (foldM_range_inv (fun d i => zset d (v_start a + i) val) (fun k d' => zlen d' = zlen d /\
    forall j, zget d' j = if (v_start a <=? j) && (j <? v_start a + k) then Ret val else zget d j) (v_length a) d)
    as (d' & E & L & G).
  - lia.
  - split; [auto|]. intros j. destruct (Z.leb_spec (v_start a) j), (Z.ltb_spec j (v_start a + 0)); cbn; auto; lia.
  - intros k d' Hk (L & G). assert (B : 0 <= v_start a + k < zlen d') by lia.
    rewrite zset_ok by exact B. eexists. split; [reflexivity|]. rewrite zlen_list_set. split; [auto|].
    intros j. rewrite zget_list_set by exact B. rewrite G.
    destruct (Z.eqb_spec (v_start a + k) j), (Z.leb_spec (v_start a) j),
      (Z.ltb_spec j (v_start a + k)), (Z.ltb_spec j (v_start a + (k + 1))); cbn [andb]; try lia; auto.
  - rewrite E. cbn [bind]. exists d'. auto.
Qed.

(** A view of a range of a vector is inside it, and index i of the view is index start+i. *)
Theorem vector_view_ok (b : list F) orig start end_ : inside b orig -> 0 <= start <= end_ -> end_ <= v_length orig ->
  v_length orig < 2 ^ 31 ->
  exists v, eml_vector_view orig start end_ = Ret v /\ inside b v /\ v_length v = end_ - start /\
    forall i, v_start v + i = v_start orig + (start + i).
Proof.
  intros (D1 & D2 & D3) H1 H2 H3. unfold eml_vector_view. change (2 ^ 31) with 2147483648 in *.
  rewrite chk_int32_ok by (unfold int32_ok; lia). cbn [bind]. eexists. split; [reflexivity|]. cbn.
  unfold inside; cbn. split; [lia|]. split; [lia|]. intros; lia.
Qed.
End V.
