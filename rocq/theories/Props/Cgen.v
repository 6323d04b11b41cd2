(** Generated C text: properties C48, C49, C67 (non-finite numbers), C68 (declarations), C69 (fixed-point arrays). *)
From Coq Require Import String ZArith List Bool Lia Reals Lra.
From Flocq Require Import Core BinarySingleNaN.
From Verif.Base Require Import Res CInt ListX Loops Float.
From Verif.Model Require Import Text TreesC FixedPoint Cgen.
From Verif.Spec Require Import CgenSpec.
From Verif.Proof Require Import FixedPoint Text Cgen.
Import ListNotations.
Open Scope Z_scope.
Open Scope res_scope.

(** ** C48 *)
(** For every string that does not end in a newline (and is not _Packed). *)
Theorem C48_identifiers_partial s : (forall t, s <> t ++ [10]) -> s <> txt "_Packed" ->
  (assert_valid_identifier s = Ret tt <-> identifier s /\ ~ keyword s).
Proof.
  intros N P. rewrite accepts_iff. split.
  - intros [(A & B & _)|(t & _ & E)]; [auto|]. now apply N in E.
  - intros [A B]. left. auto.
Qed.
(** Everything else is refused with ValueError. *)
Theorem C48_refuses s : assert_valid_identifier s = Ret tt \/ assert_valid_identifier s = Err ValueError_.
Proof.
  destruct (assert_valid_identifier s) as [[]|f] eqn:E; [now left|right].
  rewrite <- E. apply rejects. congruence.
Qed.
(** Exactly the strings accepted. *)
Theorem C48_accepted s : assert_valid_identifier s = Ret tt <->
  (identifier s /\ ~ keyword s /\ s <> txt "_Packed") \/ (exists t, identifier t /\ s = t ++ [10]).
Proof. apply accepts_iff. Qed.
(** The property is false: "for" followed by a newline is accepted, and no such text is an identifier;
    the identifier _Packed is refused. *)
Theorem C48_newline_refuted :
  assert_valid_identifier (txt "for" ++ [10]) = Ret tt /\ (forall t, ~ identifier (t ++ [10])) /\
  keyword (txt "for") /\ assert_valid_identifier (txt "for") = Err ValueError_.
Proof.
  split; [vm_compute; reflexivity|]. split; [|split; [exists "for"%string; split; [cbn; tauto|reflexivity]|vm_compute; reflexivity]].
  intros t H. apply identifier_no_newline in H. apply H. apply in_or_app. right. now left.
Qed.
Theorem C48_packed_refuted : identifier (txt "_Packed") /\ ~ keyword (txt "_Packed") /\
  assert_valid_identifier (txt "_Packed") = Err ValueError_.
Proof.
  split; [|split; [|vm_compute; reflexivity]].
  - exists 95, (txt "Packed"). split; [reflexivity|]. split; [left; reflexivity|].
    apply Forall_forall. intros d D. apply class_rest_iff. revert d D. apply Forall_forall. vm_compute. repeat constructor.
  - intros (w & I & E). assert (X : existsb (fun w => text_eqb (txt "_Packed") (txt w)) c_keywords = false) by (vm_compute; reflexivity).
    assert (Y : existsb (fun w => text_eqb (txt "_Packed") (txt w)) c_keywords = true).
    { apply existsb_exists. exists w. split; [exact I|now apply text_eqb_iff]. }
    congruence.
Qed.
Example C48_example : assert_valid_identifier (txt "my_model2") = Ret tt /\ assert_valid_identifier (txt "2model") = Err ValueError_ /\
  assert_valid_identifier (txt "a-b") = Err ValueError_ /\ assert_valid_identifier (txt "typeof") = Err ValueError_.
Proof. vm_compute. auto. Qed.

Section G.
Variable str_float : f64 -> text.

(** ** C49 *)
(** Integer types: n initialisers that read as the values without fraction, in order. The text is
    "<indent><modifiers> <dtype> <name>[n] = { a, b, ... };<end>". *)
Theorem C49_integers name size dtype modifiers vs zs end_ indent :
  contains (txt "int") dtype = true ->
  Forall2 (fun v z => match v with PyInt k => z = k | PyFloat x => is_finite x = true /\ z = Ztrunc (B2R x) end) vs zs ->
  size = None \/ size = Some (zlen vs) ->
  exists n lits body,
    array_declare str_float name size dtype modifiers (Some vs) end_ indent =
      Ret (indent ++ modifiers ++ txt " " ++ dtype ++ txt " " ++ name ++ txt "[" ++ n ++ txt "]" ++ txt " = { " ++ body ++ txt " };" ++ end_) /\
    int_literal n (zlen vs) /\ comma_list lits body /\ Forall2 int_literal lits zs.
Proof.
  intros H F S. apply (array_declare_ok str_float (fun v z => match v with PyInt k => z = k | PyFloat x => is_finite x = true /\ z = Ztrunc (B2R x) end)); auto.
  intros v z V. apply constant_int; auto. destruct v as [k|x]; [now subst|]. destruct V as [Fx ->].
  cbn [py_int]. pose proof (ftrunc_R x) as T. destruct x; try discriminate; now rewrite <- T.
Qed.
(** float: n initialisers, each within half a millionth of its value. *)
Theorem C49_floats name size modifiers vs end_ indent :
  Forall (fun v => match v with PyInt z => Z.abs z <= 2 ^ 53 | PyFloat x => is_finite x = true end) vs ->
  size = None \/ size = Some (zlen vs) ->
  exists n lits body,
    array_declare str_float name size (txt "float") modifiers (Some vs) end_ indent =
      Ret (indent ++ modifiers ++ txt " float " ++ name ++ txt "[" ++ n ++ txt "]" ++ txt " = { " ++ body ++ txt " };" ++ end_) /\
    int_literal n (zlen vs) /\ comma_list lits body /\
    Forall2 (fun t v => exists r, float_literal t r /\
      (Rabs (r - match v with PyInt z => IZR z | PyFloat x => B2R x end) <= / 2000000)%R) lits vs.
Proof.
  intros F S.
  destruct (array_declare_ok str_float (fun v z => v = z /\ match v with PyInt z => Z.abs z <= 2 ^ 53 | PyFloat x => is_finite x = true end)
    name size (txt "float") modifiers vs vs end_ indent
    (fun t v => exists r, float_literal t r /\ (Rabs (r - match v with PyInt z => IZR z | PyFloat x => B2R x end) <= / 2000000)%R)) as (n & lits & body & E & A & B & C).
  - intros v z [<- V]. destruct (constant_float str_float v V) as (t & r & Et & L & R). exists t. split; [exact Et|]. exists r. split; [exact L|exact R].
  - clear S. induction F; constructor; auto.
  - exact S.
  - exists n, lits, body. split; [|auto]. rewrite E. reflexivity.
Qed.
(** A single constant of type float, and one of an integer type. *)
Theorem C49_constant v dtype :
  (forall x, v = PyFloat x -> is_finite x = true ->
     (exists t r, constant str_float v (txt "float") = Ret t /\ float_literal t r /\ (Rabs (r - B2R x) <= / 2000000)%R) /\
     (contains (txt "int") dtype = true -> exists t, constant str_float v dtype = Ret t /\ int_literal t (Ztrunc (B2R x)))) /\
  (forall z, v = PyInt z -> contains (txt "int") dtype = true -> exists t, constant str_float v dtype = Ret t /\ int_literal t z).
Proof.
  split.
  - intros x -> F. split; [exact (constant_float str_float (PyFloat x) F)|]. intros H. apply constant_int; auto.
    cbn [py_int]. pose proof (ftrunc_R x) as T. destruct x; try discriminate; now rewrite <- T.
  - intros z -> H. now apply constant_int.
Qed.
(** A size that differs from the number of values: AssertionError. *)
Theorem C49_size name n dtype modifiers vs end_ indent : n <> zlen vs ->
  array_declare str_float name (Some n) dtype modifiers (Some vs) end_ indent = Err AssertionError_.
Proof. intros N. unfold array_declare. destruct (Z.eqb_spec n (zlen vs)); [congruence|]. reflexivity. Qed.
(** An integer literal reads as one number only, and so does a list of them. *)
Theorem C49_literal_unique t z z' : int_literal t z -> int_literal t z' -> z = z'.
Proof.
  intros (n & ds & E & D & H & ->) (n' & ds' & E' & D' & H' & ->). subst t.
  assert (G : forall ds, (ds = [48] \/ (exists d l, ds = d :: l /\ d <> 48)) -> Forall digit ds -> exists c l, ds = c :: l /\ c <> 45).
  { intros l [->|(d & l' & -> & _)] F; [exists 48, []; split; [reflexivity|discriminate]|]. inversion F; subst. exists d, l'. split; auto. unfold digit in *. lia. }
  destruct (G _ H D) as (c & l & -> & N). destruct (G _ H' D') as (c' & l' & -> & N').
  destruct n, n'; cbn [signed] in E'; injection E' as ?; subst; try congruence; reflexivity.
Qed.
End G.
(** Hypotheses met: an int16_t array from floats and ints, and a float array. *)
Example C49_example :
  array_declare (fun _ => []) (txt "a") (Some 3) (txt "int16_t") (txt "static const") (Some [PyFloat (f_of_ZE (-7) (-1)); PyInt 1020; PyInt 0]) [] [] =
    Ret (txt "static const int16_t a[3] = { -3, 1020, 0 };") /\
  array_declare (fun _ => []) (txt "b") None (txt "float") (txt "const") (Some [PyFloat (fdiv (f_of_Z (-1)) (f_of_Z 3)); PyInt 12]) (txt "x") (txt " ") =
    Ret (txt " const float b[2] = { -0.333333f, 12.000000f };x") /\
  array_declare (fun _ => []) (txt "c") (Some 10) (txt "float") (txt "static") None [] [] = Ret (txt "static float c[10];").
Proof. vm_compute. auto. Qed.

(** ** C67 *)
(** Integer types: a NaN or infinite value raises. *)
Theorem C67_integers_partial (str_float : f64 -> text) name size dtype modifiers vs end_ indent :
  contains (txt "int") dtype = true -> Exists (fun v => exists x, v = PyFloat x /\ is_finite x = false) vs ->
  exists f, array_declare str_float name size dtype modifiers (Some vs) end_ indent = Err f.
Proof.
  intros H X. unfold array_declare. destruct (match size with None => zlen vs | Some n => n end =? zlen vs); [|eexists; reflexivity].
  cbn [py_assert bind].
  assert (E : exists f, mapM (fun v => constant str_float v dtype) vs = Err f).
  { induction X as [v vs (x & -> & F)|v vs X (f & IH)]; cbn [mapM].
    - unfold constant. rewrite (float_not_int _ H), H. destruct x as [s|s| |s m e B]; try discriminate F; cbn; eauto.
    - destruct (constant str_float v dtype); cbn [bind]; [rewrite IH|]; eexists; reflexivity. }
  destruct E as (f & ->). eexists. reflexivity.
Qed.
(** float: a NaN becomes the text nanf, an infinity inff or -inff; these are no literals. *)
Theorem C67_nan_refuted :
  array_declare (fun _ => []) (txt "a") None (txt "float") (txt "const") (Some [PyFloat B754_nan; PyFloat (B754_infinity true)]) [] [] =
    Ret (txt "const float a[2] = { nanf, -inff };") /\
  (forall r, ~ float_literal (txt "nanf") r) /\ (forall r, ~ float_literal (txt "-inff") r).
Proof.
  split; [vm_compute; reflexivity|]. split; intros r (n & ds & fs & E & D & _ & NE & _);
    (destruct ds as [|d ds]; [congruence|]); inversion D; subst; destruct n; cbn in E; injection E as ?; subst; unfold digit in *; lia.
Qed.

(** ** C68 *)
Theorem C68_constants_partial (str_float : f64 -> text) name v dtype c : constant str_float v dtype = Ret c ->
  constant_declare str_float name v dtype = Ret (txt "static const " ++ dtype ++ txt " " ++ name ++ txt " = " ++ c ++ txt "; ").
Proof. intros E. unfold constant_declare. now rewrite E. Qed.
Theorem C68_arrays_partial (str_float : f64 -> text) name n dtype modifiers end_ indent : exists t, int_literal t n /\
  array_declare str_float name (Some n) dtype modifiers None end_ indent =
  Ret (indent ++ modifiers ++ txt " " ++ dtype ++ txt " " ++ name ++ txt "[" ++ t ++ txt "];" ++ end_).
Proof. exists (fmt_int n). split; [apply fmt_int_literal|]. reflexivity. Qed.
(** Structs: type, name and values, in order. *)
Theorem C68_structs_partial name type_name values modifiers : exists body, comma_list values body /\
  struct_declare name type_name (Some values) modifiers = type_name ++ txt " " ++ name ++ txt "= { " ++ body ++ txt " };".
Proof.
  exists (join_with (txt ", ") values). split; [apply join_comma|]. unfold struct_declare, struct_init. rewrite <- !app_assoc. reflexivity.
Qed.
(** False for structs: the modifiers are dropped. *)
Theorem C68_struct_modifiers_refuted :
  struct_declare (txt "m") (txt "S") (Some [txt "2"; txt "foo"]) (txt "static const") = txt "S m= { 2, foo };" /\
  forall name type_name values m m', struct_declare name type_name values m = struct_declare name type_name values m'.
Proof. split; [vm_compute; reflexivity|]. reflexivity. Qed.

(** ** C69 *)
(** Every value fits the format: the literals are the values times 2^fraction_bits, without fraction. *)
Theorem C69_values_partial (str_float : f64 -> text) name f size dtype modifiers vs end_ indent :
  total_bits f = 32 -> 0 <= fraction_bits f <= 31 ->
  Forall (fun x => is_finite x = true /\ (Rabs (B2R x) * IZR (2 ^ fraction_bits f) < IZR (2 ^ 31))%R) vs ->
  size = None \/ size = Some (zlen vs) ->
  exists t n lits body,
    array_declare_fixedpoint str_float name (Some f) size dtype modifiers vs end_ indent =
      Ret (indent ++ modifiers ++ txt " " ++ t ++ txt " " ++ name ++ txt "[" ++ n ++ txt "]" ++ txt " = { " ++ body ++ txt " };" ++ end_) /\
    t = (if (integer_bits f =? 15) && (fraction_bits f =? 16) && (sign_bits f =? 1) then txt "eml_q16_t" else txt "eml_fixed32_t") /\
    int_literal n (zlen vs) /\ comma_list lits body /\
    Forall2 (fun l x => int_literal l (Ztrunc (B2R x * IZR (2 ^ fraction_bits f))) /\
                        int32_ok (Ztrunc (B2R x * IZR (2 ^ fraction_bits f)))) lits vs.
Proof.
  intros TB FB F S. unfold array_declare_fixedpoint. rewrite TB. change (32 =? 32) with true. cbn [py_assert bind].
  set (k := fraction_bits f) in *.
  assert (M : mapM (fun v => from_float v k) vs = Ret (map (fun x => Ztrunc (B2R x * IZR (2 ^ k))) vs)).
  { clear S. induction F as [|x vs [Fx Bx] F IH]; [reflexivity|]. cbn [mapM map]. rewrite from_float_ok; auto.
    - cbn [bind]. rewrite IH. reflexivity.
    - eapply Rlt_trans; [exact Bx|]. apply IZR_lt. reflexivity. }
  rewrite M. cbn [bind]. unfold ctype. rewrite TB. change (32 =? 32) with true. cbn [py_assert bind].
  fold k. set (t := if (integer_bits f =? 15) && (k =? 16) && (sign_bits f =? 1) then txt "eml_q16_t" else txt "eml_fixed32_t").
  assert (CT : (if (integer_bits f =? 15) && (k =? 16) && (sign_bits f =? 1) then Ret (txt "eml_q16_t") else Ret (txt "eml_fixed32_t")) = Ret t)
    by (unfold t; destruct ((integer_bits f =? 15) && (k =? 16) && (sign_bits f =? 1)); reflexivity).
  rewrite CT. cbn [bind].
  assert (CN : forall z, constant str_float (PyInt z) t = Ret (fmt_int z)).
  { intros z. unfold constant. assert (text_eqb t (txt "float") = false) as -> by (unfold t; destruct ((integer_bits f =? 15) && (k =? 16) && (sign_bits f =? 1)); vm_compute; reflexivity).
    destruct (contains (txt "int") t); reflexivity. }
  set (zs := map (fun x => Ztrunc (B2R x * IZR (2 ^ k))) vs) in *.
  assert (LZ : zlen (map PyInt zs) = zlen vs) by (unfold zs, zlen; now rewrite !map_length).
  destruct (array_declare_ok str_float (fun v z => v = PyInt z) name size t modifiers (map PyInt zs) zs end_ indent int_literal) as (n & lits & body & E & A & B & C).
  - intros v z ->. exists (fmt_int z). split; [apply CN|apply fmt_int_literal].
  - clear. induction zs; constructor; auto.
  - rewrite LZ. exact S.
  - exists t, n, lits, body. split; [exact E|]. split; [reflexivity|]. split; [now rewrite <- LZ|]. split; [exact B|].
    clear E A B CN CT M. unfold zs in C. clear zs LZ S. revert lits C. induction F as [|x vs [Fx Bx] F IH]; intros lits C; inversion C; subst; constructor; auto.
    split; [assumption|]. unfold int32_ok.
    assert (T : (Rabs (B2R x * IZR (2 ^ k)) < IZR (2 ^ 31))%R).
    { rewrite Rabs_mult, (Rabs_pos_eq (IZR (2 ^ k))); [exact Bx|]. apply IZR_le. apply Z.pow_nonneg. lia. }
    apply Rabs_def2 in T. destruct T as [T1 T2]. rewrite <- opp_IZR in T2.
    pose proof (Ztrunc_le _ _ (Rlt_le _ _ T1)) as U1. pose proof (Ztrunc_le _ _ (Rlt_le _ _ T2)) as U2. rewrite Ztrunc_IZR in U1, U2.
    assert (U3 : Ztrunc (B2R x * IZR (2 ^ k)) <> 2 ^ 31).
    { intros Q. destruct (Rle_or_lt 0 (B2R x * IZR (2 ^ k))) as [G|G].
      - rewrite Ztrunc_floor in Q by exact G. pose proof (Zfloor_lb (B2R x * IZR (2 ^ k))) as LB. rewrite Q in LB. lra.
      - rewrite Ztrunc_ceil in Q by lra. pose proof (Zceil_glb 0 (B2R x * IZR (2 ^ k)) ltac:(lra)). lia. }
    change (- 2 ^ 31) with (-2147483648) in *. change (2 ^ 31) with 2147483648 in *. lia.
Qed.
(** Other widths: AssertionError. *)
Theorem C69_width (str_float : f64 -> text) name f size dtype modifiers vs end_ indent : total_bits f <> 32 ->
  array_declare_fixedpoint str_float name (Some f) size dtype modifiers vs end_ indent = Err AssertionError_.
Proof. intros H. unfold array_declare_fixedpoint. destruct (Z.eqb_spec (total_bits f) 32); [congruence|]. reflexivity. Qed.
(** Values outside the format are not refused: 40000 in Q15.16 becomes 2621440000, which is no int32. *)
Theorem C69_range_refuted :
  array_declare_fixedpoint (fun _ => []) (txt "a") (Some (mk_fixedpoint 15 16 1)) None [] (txt "const") [f_of_Z 40000] [] [] =
    Ret (txt "const eml_q16_t a[1] = { 2621440000 };") /\ ~ int32_ok 2621440000.
Proof. split; [vm_compute; reflexivity|unfold int32_ok; lia]. Qed.
Example C69_example :
  array_declare_fixedpoint (fun _ => []) (txt "a") (Some (mk_fixedpoint 15 16 1)) None [] (txt "const") [f_of_Z (-2); f_of_ZE 1 (-1)] [] [] =
    Ret (txt "const eml_q16_t a[2] = { -131072, 32768 };").
Proof. vm_compute. reflexivity. Qed.
