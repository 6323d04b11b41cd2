(** C integer types as ranges of Z. *)
From Coq Require Import ZArith Lia Bool.
From Verif.Base Require Import Res.
Open Scope Z_scope.

Definition in_signed (bits : Z) (x : Z) : Prop := - 2 ^ (bits - 1) <= x < 2 ^ (bits - 1).
Definition in_unsigned (bits : Z) (x : Z) : Prop := 0 <= x < 2 ^ bits.

Definition int8_ok (x : Z) : Prop := -128 <= x <= 127.
Definition int16_ok (x : Z) : Prop := -32768 <= x <= 32767.
Definition int32_ok (x : Z) : Prop := -2147483648 <= x <= 2147483647.
Definition uint8_ok (x : Z) : Prop := 0 <= x <= 255.
Definition int64_ok (x : Z) : Prop := -9223372036854775808 <= x <= 9223372036854775807.

(** Conversion to an unsigned type: modulo 2^bits. *)
Definition to_unsigned (bits : Z) (x : Z) : Z := x mod 2 ^ bits.

(** Conversion to a signed type: two's complement wrap (implementation-defined in C,
    this is what gcc/clang/msvc do). *)
Definition to_signed (bits : Z) (x : Z) : Z :=
  let m := x mod 2 ^ bits in
  if m <? 2 ^ (bits - 1) then m else m - 2 ^ bits.

Definition to_int8 := to_signed 8.
Definition to_int16 := to_signed 16.
Definition to_int32 := to_signed 32.
Definition to_int64 := to_signed 64.
Definition to_uint8 := to_unsigned 8.
Definition to_uint16 := to_unsigned 16.
Definition to_uint32 := to_unsigned 32.
Definition to_uint64 := to_unsigned 64.

(** Signed arithmetic: the exact result must fit, otherwise undefined behaviour. *)
Definition chk_signed (bits : Z) (x : Z) : res Z :=
  if (- 2 ^ (bits - 1) <=? x) && (x <? 2 ^ (bits - 1)) then Ret x else Err SignedOverflow.
Definition chk_int32 := chk_signed 32.
Definition chk_int64 := chk_signed 64.

Lemma to_signed_id bits x : 0 < bits -> in_signed bits x -> to_signed bits x = x.
Proof.
  intros Hb [H1 H2]. unfold to_signed.
  assert (E : 2 ^ bits = 2 * 2 ^ (bits - 1)).
  { rewrite <- Z.pow_succ_r by lia. f_equal. lia. }
  assert (0 < 2 ^ (bits - 1)) by (apply Z.pow_pos_nonneg; lia).
  destruct (Z_le_gt_dec 0 x).
  - rewrite Z.mod_small by lia. destruct (Z.ltb_spec x (2 ^ (bits-1))); lia.
  - replace (x mod 2 ^ bits) with (x + 2 ^ bits).
    + destruct (Z.ltb_spec (x + 2 ^ bits) (2 ^ (bits-1))); lia.
    + apply Z.mod_unique with (q := -1); lia.
Qed.

Lemma to_signed_range bits x : 0 < bits -> in_signed bits (to_signed bits x).
Proof.
  intros Hb. unfold to_signed, in_signed.
  assert (E : 2 ^ bits = 2 * 2 ^ (bits - 1)).
  { rewrite <- Z.pow_succ_r by lia. f_equal. lia. }
  assert (0 < 2 ^ (bits - 1)) by (apply Z.pow_pos_nonneg; lia).
  assert (0 <= x mod 2 ^ bits < 2 ^ bits) by (apply Z.mod_pos_bound; lia).
  destruct (Z.ltb_spec (x mod 2 ^ bits) (2 ^ (bits-1))); lia.
Qed.

Lemma to_int8_id x : int8_ok x -> to_int8 x = x.
Proof. intros. apply to_signed_id; [lia|]. unfold in_signed, int8_ok in *. simpl. lia. Qed.
Lemma to_int16_id x : int16_ok x -> to_int16 x = x.
Proof. intros. apply to_signed_id; [lia|]. unfold in_signed, int16_ok in *. simpl. lia. Qed.
Lemma to_int32_id x : int32_ok x -> to_int32 x = x.
Proof. intros. apply to_signed_id; [lia|]. unfold in_signed, int32_ok in *. simpl. lia. Qed.
Lemma to_int64_id x : int64_ok x -> to_int64 x = x.
Proof. intros. apply to_signed_id; [lia|]. unfold in_signed, int64_ok in *. simpl. lia. Qed.
Lemma to_uint8_id x : uint8_ok x -> to_uint8 x = x.
Proof. intros. unfold to_uint8, to_unsigned, uint8_ok in *. apply Z.mod_small. change (2^8) with 256. lia. Qed.
Lemma to_int16_range x : int16_ok (to_int16 x).
Proof.
  pose proof (to_signed_range 16 x ltac:(lia)) as H.
  unfold to_int16, int16_ok, in_signed in *. simpl in H. lia.
Qed.
Lemma to_int8_range x : int8_ok (to_int8 x).
Proof.
  pose proof (to_signed_range 8 x ltac:(lia)) as H.
  unfold to_int8, int8_ok, in_signed in *. simpl in H. lia.
Qed.

Lemma chk_signed_Ret bits x y :
  chk_signed bits x = Ret y <-> y = x /\ in_signed bits x.
Proof.
  unfold chk_signed, in_signed.
  destruct (Z.leb_spec (- 2 ^ (bits - 1)) x); destruct (Z.ltb_spec x (2 ^ (bits - 1))); simpl;
    split; try discriminate; intros H1; try lia.
  - inversion H1. lia.
  - destruct H1; subst; auto.
Qed.
Lemma chk_int32_Ret x y : chk_int32 x = Ret y <-> y = x /\ int32_ok x.
Proof.
  unfold chk_int32. rewrite chk_signed_Ret. unfold in_signed, int32_ok.
  change (2 ^ (32 - 1)) with 2147483648. lia.
Qed.
Lemma chk_int32_ok x : int32_ok x -> chk_int32 x = Ret x.
Proof. intros. apply chk_int32_Ret; auto. Qed.
Lemma chk_int64_Ret x y : chk_int64 x = Ret y <-> y = x /\ int64_ok x.
Proof.
  unfold chk_int64. rewrite chk_signed_Ret. unfold in_signed, int64_ok.
  change (2 ^ (64 - 1)) with 9223372036854775808. lia.
Qed.
Lemma chk_int64_ok x : int64_ok x -> chk_int64 x = Ret x.
Proof. intros. apply chk_int64_Ret; auto. Qed.
