(** Generated C text. *)
From Coq Require Import String ZArith List Bool Lia Reals Lra.
From Flocq Require Import Core BinarySingleNaN.
From Verif.Base Require Import Res CInt ListX Loops Float FloatOrder.
From Verif.Model Require Import Text TreesC FixedPoint Cgen.
From Verif.Spec Require Import CgenSpec.
From Verif.Proof Require Import FixedPoint Text.
Import ListNotations.
Open Scope Z_scope.

Lemma text_eqb_iff a b : text_eqb a b = true <-> a = b.
Proof. unfold text_eqb. destruct (list_eq_dec Z.eq_dec a b); split; congruence. Qed.
Lemma class_first_iff c : class_first c = true <-> letter c.
Proof. unfold class_first, letter. rewrite !orb_true_iff, !andb_true_iff, !Z.leb_le, Z.eqb_eq. tauto. Qed.
Lemma class_rest_iff c : class_rest c = true <-> letter c \/ digit c.
Proof. unfold class_rest, digit. rewrite orb_true_iff, andb_true_iff, !Z.leb_le, class_first_iff. tauto. Qed.
Lemma match_rest_iff s : match_rest s = true <->
  exists t, Forall (fun d => letter d \/ digit d) t /\ (s = t \/ s = t ++ [10]).
Proof.
  induction s as [|c s IH].
  - cbn. split; auto. intros _. exists []. auto.
  - cbn [match_rest]. destruct (class_rest c) eqn:C.
    + rewrite IH. pose proof (proj1 (class_rest_iff c) C) as L. split.
      * intros (t & F & [-> | ->]); exists (c :: t); split; auto.
      * intros (t & F & [E|E]).
        -- exists s. split; auto. subst. now inversion F.
        -- destruct t as [|d t]; cbn in E; injection E as -> ->; [discriminate C|]. exists t. inversion F; auto.
    + assert (NL : ~ (letter c \/ digit c)) by (rewrite <- class_rest_iff; congruence). split.
      * destruct s; [|discriminate]. intros E%Z.eqb_eq. subst. exists []. auto.
      * intros (t & F & [E|E]).
        -- subst t. inversion F; tauto.
        -- destruct t as [|d t]; cbn in E; injection E as -> ->; [reflexivity|]. inversion F; tauto.
Qed.
Lemma valid_iff s : identifier_is_valid s = true <-> exists t, identifier t /\ (s = t \/ s = t ++ [10]).
Proof.
  destruct s as [|c s]; cbn [identifier_is_valid].
  - split; [discriminate|]. intros (t & (c & t' & -> & _) & [E|E]); discriminate.
  - rewrite andb_true_iff, class_first_iff, match_rest_iff. split.
    + intros (L & t & F & E). exists (c :: t). split; [exists c, t; auto|]. destruct E as [-> | ->]; auto.
    + intros (t & (d & t' & -> & L & F) & E). cbn in E. destruct E as [E|E]; injection E as -> ->; eauto.
Qed.
Lemma reserved_iff s : identifier_is_reserved s = true <-> s = [] \/ s = txt "_Packed" \/ keyword s.
Proof.
  assert (S1 : forallb (fun w => existsb (text_eqb w) ([] :: txt "_Packed" :: map txt c_keywords)) RESERVED_WORDS = true) by (vm_compute; reflexivity).
  assert (S2 : forallb (fun w => existsb (text_eqb w) RESERVED_WORDS) ([] :: txt "_Packed" :: map txt c_keywords) = true) by (vm_compute; reflexivity).
  rewrite forallb_forall in S1, S2. unfold identifier_is_reserved.
  assert (EX : forall l, existsb (text_eqb s) l = true <-> In s l).
  { intros l. rewrite existsb_exists. split.
    - intros (x & I & E). apply text_eqb_iff in E. now subst.
    - intros I. exists s. split; auto. now apply text_eqb_iff. }
  assert (KW : In s (map txt c_keywords) <-> keyword s).
  { rewrite in_map_iff. unfold keyword. split; intros (w & A & B); exists w; auto. }
  rewrite EX. split.
  - intros I. specialize (S1 _ I). rewrite EX in S1. destruct S1 as [<-|[<-|K]]; auto. right. right. now apply KW.
  - intros H. assert (I : In s ([] :: txt "_Packed" :: map txt c_keywords)).
    { destruct H as [->|[->|K]]; cbn [In]; auto. right. right. now apply KW. }
    specialize (S2 _ I). now rewrite EX in S2.
Qed.
Lemma keyword_identifier s : keyword s -> identifier s.
Proof.
  assert (A : forallb (fun w => match txt w with c :: t => class_first c && forallb class_rest t | [] => false end) c_keywords = true) by (vm_compute; reflexivity).
  rewrite forallb_forall in A. intros (w & I & ->). specialize (A _ I). destruct (txt w) as [|c t]; [discriminate|].
  apply andb_true_iff in A. destruct A as [A B]. exists c, t. split; auto. split; [now apply class_first_iff|].
  rewrite forallb_forall in B. apply Forall_forall. intros d D. apply class_rest_iff. auto.
Qed.
Lemma identifier_no_newline s : identifier s -> ~ In 10 s.
Proof.
  intros (c & t & -> & L & F) [E|I].
  - subst. unfold letter in L. lia.
  - rewrite Forall_forall in F. specialize (F _ I). unfold letter, digit in F. lia.
Qed.
Lemma accepts_iff s : assert_valid_identifier s = Ret tt <->
  (identifier s /\ ~ keyword s /\ s <> txt "_Packed") \/ (exists t, identifier t /\ s = t ++ [10]).
Proof.
  unfold assert_valid_identifier. destruct (identifier_is_valid s) eqn:V; cbn [negb].
  - apply valid_iff in V. destruct V as (t & I & E).
    destruct (identifier_is_reserved s) eqn:R.
    + split; [discriminate|]. apply reserved_iff in R. intros [(A & B & C)|(u & J & ->)].
      * destruct R as [->|[->|K]]; [destruct A as (? & ? & A & _); discriminate| |]; tauto.
      * exfalso. destruct R as [R|[R|K]].
        -- destruct u; discriminate.
        -- assert (In 10 (txt "_Packed")) by (rewrite <- R; apply in_or_app; cbn; auto). vm_compute in H. intuition discriminate.
        -- apply keyword_identifier, identifier_no_newline in K. apply K. apply in_or_app. cbn. auto.
    + split; auto. intros _. destruct E as [->| ->]; [|eauto]. left. split; auto.
      split; intros X; [assert (identifier_is_reserved t = true) by (apply reserved_iff; auto)|
                        assert (identifier_is_reserved t = true) by (apply reserved_iff; auto)]; congruence.
  - split; [discriminate|]. intros [(A & _)|(u & J & ->)]; exfalso.
    + assert (identifier_is_valid s = true) by (apply valid_iff; eauto). congruence.
    + assert (identifier_is_valid (u ++ [10]) = true) by (apply valid_iff; eauto). congruence.
Qed.
Lemma rejects s : assert_valid_identifier s <> Ret tt -> assert_valid_identifier s = Err ValueError_.
Proof. unfold assert_valid_identifier. destruct (identifier_is_valid s), (identifier_is_reserved s); cbn; congruence. Qed.

(** Literals *)
Lemma number_dval ds : number ds = dval 0 ds.
Proof. reflexivity. Qed.
Lemma dec_fuel_head f n : 0 < n < 10 ^ Z.of_nat f -> exists d ds, dec_fuel f n = d :: ds /\ d <> 48.
Proof.
  revert n. induction f as [|f IH]; intros n H; [cbn in H; lia|].
  cbn [dec_fuel]. destruct (Z.ltb_spec n 10); [exists (48 + n), []; split; [reflexivity|lia]|].
  destruct (IH (n / 10)) as (d & ds & E & N).
  - split; [apply Z.div_str_pos; lia|]. apply Z.div_lt_upper_bound; [lia|].
    rewrite <- Z.pow_succ_r by lia. replace (Z.succ (Z.of_nat f)) with (Z.of_nat (S f)) by lia. lia.
  - rewrite E. cbn. eauto.
Qed.
Lemma dec_digits_head n : 0 <= n -> dec_digits n = [48] \/ exists d ds, dec_digits n = d :: ds /\ d <> 48.
Proof.
  intros H. destruct (Z.eq_dec n 0) as [->|NE]; [left; reflexivity|]. right. apply dec_fuel_head. split; [lia|now apply log2_fuel].
Qed.
Lemma fmt_int_literal z : int_literal (fmt_int z) z.
Proof.
  unfold fmt_int, int_literal. destruct (Z.ltb_spec z 0).
  - exists true, (dec_digits (- z)). destruct (dec_digits_ok (- z) ltac:(lia)) as (A & B & C).
    split; [reflexivity|]. split; [exact B|]. split; [apply dec_digits_head; lia|]. rewrite number_dval, A. unfold sign_of. lia.
  - exists false, (dec_digits z). destruct (dec_digits_ok z ltac:(lia)) as (A & B & C).
    split; [reflexivity|]. split; [exact B|]. split; [apply dec_digits_head; lia|]. rewrite number_dval, A. unfold sign_of. lia.
Qed.
Lemma fmt_fixed_split {prec emax} {Hp : Prec_gt_0 prec} {Hm : Prec_lt_emax prec emax} k (x : binary_float prec emax) : is_finite x = true ->
  exists ds fs, fmt_fixed k x = signed (Bsign x) (ds ++ [46] ++ fs) /\ Forall digit ds /\ Forall digit fs /\ ds <> [] /\ length fs = k /\
    number (ds ++ fs) = scaled_int k x.
Proof.
  intros F. assert (P10 : 0 < 10 ^ Z.of_nat k) by (apply Z.pow_pos_nonneg; lia).
  assert (N0 : 0 <= scaled_int k x).
  { rewrite scaled_int_ok by exact F. apply Z.le_trans with (ZnearestE 0).
    - rewrite (ZnE_IZR 0). lia.
    - apply ZnE_le. apply Rmult_le_pos; [apply Rabs_pos|apply IZR_le; lia]. }
  set (n := scaled_int k x) in *.
  destruct (dec_digits_ok (n / 10 ^ Z.of_nat k)) as (D1 & D2 & D3); [apply Z.div_pos; lia|].
  destruct (pad_digits_ok k (n mod 10 ^ Z.of_nat k)) as (E1 & E2 & E3); [apply Z.mod_pos_bound; lia|].
  exists (dec_digits (n / 10 ^ Z.of_nat k)), (pad_digits k (n mod 10 ^ Z.of_nat k)).
  split. { destruct x as [s|s| |s m e H]; try discriminate; destruct s; reflexivity. }
  split; [exact D2|]. split; [exact E2|]. split; [exact D3|]. split; [unfold zlen in E3; lia|].
  rewrite number_dval, dval_app, D1, dval_shift, E1, E3. pose proof (Z.div_mod n (10 ^ Z.of_nat k) ltac:(lia)). lia.
Qed.
(** The decimal number printed is within half a unit of the last place. *)
Lemma fmt_fixed_err {prec emax} {Hp : Prec_gt_0 prec} {Hm : Prec_lt_emax prec emax} k (x : binary_float prec emax) : is_finite x = true ->
  (Rabs (IZR (sign_of (Bsign x)) * IZR (scaled_int k x) / IZR (10 ^ Z.of_nat k) - B2R x) <= / (2 * IZR (10 ^ Z.of_nat k)))%R.
Proof.
  intros F. assert (P10 : (0 < IZR (10 ^ Z.of_nat k))%R) by (apply IZR_lt; apply Z.pow_pos_nonneg; lia).
  rewrite scaled_int_ok by exact F. set (p := IZR (10 ^ Z.of_nat k)) in *.
  pose proof (Znearest_half (fun x => negb (Z.even x)) (Rabs (B2R x) * p)) as H.
  assert (SX : B2R x = (IZR (sign_of (Bsign x)) * Rabs (B2R x))%R).
  { destruct x as [s|s| |s m e E]; try discriminate; cbn [B2R Bsign].
    - rewrite Rabs_R0. ring.
    - assert (P : (0 < @F2R radix2 {| Fnum := Zpos m; Fexp := e |})%R) by now apply F2R_gt_0.
      destruct s; cbn [sign_of SpecFloat.cond_Zopp].
      + change (Z.neg m) with (- Z.pos m). rewrite F2R_Zopp, Rabs_Ropp, Rabs_pos_eq; lra.
      + rewrite Rabs_pos_eq; lra. }
  set (n := ZnearestE (Rabs (B2R x) * p)) in *. set (a := Rabs (B2R x)) in *. rewrite SX.
  replace (IZR (sign_of (Bsign x)) * IZR n / p - IZR (sign_of (Bsign x)) * a)%R
    with (IZR (sign_of (Bsign x)) * ((IZR n - a * p) * / p))%R by (field; lra).
  rewrite Rabs_mult. replace (Rabs (IZR (sign_of (Bsign x)))) with 1%R.
  2:{ destruct (Bsign x); cbn [sign_of]; [rewrite Rabs_left1 by lra; lra|rewrite Rabs_R1; reflexivity]. }
  rewrite Rmult_1_l, Rabs_mult. rewrite (Rabs_pos_eq (/ p)) by (left; now apply Rinv_0_lt_compat).
  rewrite Rinv_mult. apply Rmult_le_compat_r; [left; now apply Rinv_0_lt_compat|].
  rewrite <- Rabs_Ropp. replace (- (IZR n - a * p))%R with (a * p - IZR n)%R by ring. exact H.
Qed.

Definition real_of (v : pynum) : R := match v with PyInt z => IZR z | PyFloat x => B2R x end.

Section G.
Variable str_float : f64 -> text.
Notation constant := (constant str_float).
Notation array_declare := (array_declare str_float).

Lemma float_not_int dtype : contains (txt "int") dtype = true -> text_eqb dtype (txt "float") = false.
Proof.
  intros H. destruct (text_eqb dtype (txt "float")) eqn:E; auto. apply text_eqb_iff in E. subst. vm_compute in H. discriminate.
Qed.
Lemma constant_int v z dtype : contains (txt "int") dtype = true -> py_int v = Ret z ->
  exists t, constant v dtype = Ret t /\ int_literal t z.
Proof.
  intros H E. unfold Cgen.constant. rewrite (float_not_int _ H), H, E. cbn [bind]. eexists. split; [reflexivity|]. apply fmt_int_literal.
Qed.
Lemma constant_float v : match v with PyInt z => Z.abs z <= 2 ^ 53 | PyFloat x => is_finite x = true end ->
  exists t r, constant v (txt "float") = Ret t /\ float_literal t r /\ (Rabs (r - real_of v) <= / 2000000)%R.
Proof.
  intros H. assert (X : exists x, py_float v = Ret x /\ is_finite x = true /\ B2R x = real_of v).
  { destruct v as [z|x]; cbn [py_float real_of].
    - destruct (@f_of_Z_exact 53 1024 _ _ z H) as [A B]. rewrite B. eauto.
    - eauto. }
  destruct X as (x & E & F & V).
  destruct (fmt_fixed_split 6 x F) as (ds & fs & T & D1 & D2 & D3 & L & N).
  pose proof (fmt_fixed_err 6 x F) as ER. rewrite <- N, V in ER.
  exists (fmt_fixed 6 x ++ txt "f"). eexists. split; [|split].
  - unfold Cgen.constant. replace (text_eqb (txt "float") (txt "float")) with true by (symmetry; now apply text_eqb_iff). rewrite E. reflexivity.
  - exists (Bsign x), ds, fs. split.
    + rewrite T. change (txt "f") with [102]. destruct (Bsign x); cbn [signed app]; rewrite <- ?app_assoc; reflexivity.
    + split; [exact D1|]. split; [exact D2|]. split; [exact D3|]. split; [destruct fs; [discriminate L|discriminate]|]. rewrite L. reflexivity.
  - change (Z.of_nat 6) with 6 in *. change (10 ^ 6) with 1000000 in *. eapply Rle_trans; [exact ER|].
    lra.
Qed.
Lemma join_comma ts : comma_list ts (join_with (txt ", ") ts).
Proof.
  induction ts as [|t ts IH]; [constructor|]. cbn [join_with]. destruct ts as [|t' ts]; [constructor|].
  change (txt ", ") with [44; 32] in *. now constructor.
Qed.
Lemma mapM_lits {B} (P : pynum -> B -> Prop) dtype vs zs (L : text -> B -> Prop) :
  (forall v z, P v z -> exists t, constant v dtype = Ret t /\ L t z) -> Forall2 P vs zs ->
  exists ts, mapM (fun v => constant v dtype) vs = Ret ts /\ Forall2 L ts zs.
Proof.
  intros H F. induction F as [|v z vs zs Hv F (ts & E & G)]; [exists []; split; [reflexivity|constructor]|].
  destruct (H v z Hv) as (t & Et & Lt). exists (t :: ts). cbn [mapM]. rewrite Et. cbn [bind]. rewrite E. split; [reflexivity|now constructor].
Qed.
Lemma array_declare_ok {B} (P : pynum -> B -> Prop) name size dtype modifiers vs zs end_ indent (L : text -> B -> Prop) :
  (forall v z, P v z -> exists t, constant v dtype = Ret t /\ L t z) -> Forall2 P vs zs ->
  size = None \/ size = Some (zlen vs) ->
  exists n lits body,
    array_declare name size dtype modifiers (Some vs) end_ indent =
      Ret (indent ++ modifiers ++ txt " " ++ dtype ++ txt " " ++ name ++ txt "[" ++ n ++ txt "]" ++ txt " = { " ++ body ++ txt " };" ++ end_) /\
    int_literal n (zlen vs) /\ comma_list lits body /\ Forall2 L lits zs.
Proof.
  intros H F S. destruct (mapM_lits P dtype vs zs L H F) as (ts & E & G).
  exists (fmt_int (zlen vs)), ts, (join_with (txt ", ") ts). split; [|split; [apply fmt_int_literal|split; [apply join_comma|exact G]]].
  unfold Cgen.array_declare. assert (SZ : match size with None => zlen vs | Some n => n end = zlen vs) by (destruct S as [-> | ->]; reflexivity).
  rewrite SZ, Z.eqb_refl. cbn [py_assert bind]. rewrite E. cbn [bind]. f_equal. rewrite <- !app_assoc. reflexivity.
Qed.
End G.
