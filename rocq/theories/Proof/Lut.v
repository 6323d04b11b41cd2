(** The generated lookup tables, as a C compiler reads them. *)
From Coq Require Import String ZArith List Bool Lia Reals Lra.
From Flocq Require Import Core BinarySingleNaN.
From Verif.Base Require Import Res CInt ListX Loops Float.
From Verif.Model Require Import Text TreesC FixedPoint Cgen Lut.
From Verif.Spec Require Import CgenSpec LutSpec.
From Verif.Proof Require Import FixedPoint Text Cgen LutWrap.
Import ListNotations.
Open Scope Z_scope.
Open Scope res_scope.
Open Scope list_scope.

(** ** Tokens *)
Definition cut (t : list Z) : Prop := match t with [] => True | c :: _ => glyph c = false end.
Lemma tokens_flush c cur t : glyph c = false -> tokens_from cur (c :: t) = flush cur ++ tokens (c :: t).
Proof.
  intros H. unfold tokens. cbn [tokens_from]. rewrite H. destruct (space_char c); reflexivity.
Qed.
Lemma tokens_cut b : cut b -> forall a cur, tokens_from cur (a ++ b) = tokens_from cur a ++ tokens b.
Proof.
  intros Hb. induction a as [|c a IH]; intros cur.
  - destruct b as [|c b]; [cbn; now rewrite app_nil_r|]. apply (tokens_flush c). exact Hb.
  - cbn [app tokens_from]. destruct (space_char c); [rewrite IH; now rewrite app_assoc|].
    destruct (glyph c); [apply IH|]. rewrite IH, <- !app_assoc. reflexivity.
Qed.
Lemma tokens_app_cut a b : cut b -> tokens (a ++ b) = tokens a ++ tokens b.
Proof. intros H. apply tokens_cut, H. Qed.
Lemma tokens_sep c t : glyph c = false -> tokens (c :: t) = tokens [c] ++ tokens t.
Proof.
  intros H. unfold tokens. cbn [tokens_from]. rewrite H. destruct (space_char c); cbn [flush app]; reflexivity.
Qed.
Lemma tokens_glyphs w : forallb glyph w = true -> forall cur, tokens_from cur w = flush (cur ++ w).
Proof.
  induction w as [|c w IH]; intros H cur; [now rewrite app_nil_r|].
  cbn [forallb] in H. apply andb_prop in H as [H1 H2]. cbn [tokens_from].
  assert (S0 : space_char c = false).
  { destruct (space_char c) eqn:E; [exfalso|reflexivity]. unfold space_char, glyph in *.
    repeat (apply orb_prop in E as [E|E] || apply orb_prop in H1 as [H1|H1]);
    repeat match goal with X : (_ && _)%bool = true |- _ => apply andb_prop in X as [? ?] end;
    repeat match goal with X : (_ <=? _) = true |- _ => apply Z.leb_le in X | X : (_ =? _) = true |- _ => apply Z.eqb_eq in X end; lia. }
  rewrite S0, H1, (IH H2), <- app_assoc. reflexivity.
Qed.
Lemma tokens_word w : w <> [] -> forallb glyph w = true -> tokens w = [w].
Proof. intros N H. unfold tokens. rewrite tokens_glyphs by exact H. destruct w; [congruence|reflexivity]. Qed.
Lemma identifier_glyphs s : identifier s -> s <> [] /\ forallb glyph s = true.
Proof.
  intros (c & t & -> & Hc & Ht). split; [discriminate|]. apply forallb_forall.
  assert (G : forall d, letter d \/ digit d -> glyph d = true).
  { intros d Hd. unfold glyph. rewrite !orb_true_iff, !andb_true_iff, !Z.leb_le, !Z.eqb_eq. unfold letter, digit in Hd. lia. }
  intros d [<-|Hd]; [apply G; now left|]. rewrite Forall_forall in Ht. now apply G, Ht.
Qed.

Lemma tokens_end m : forall cur b, m <> [] -> glyph (last m 0) = false -> tokens_from cur (m ++ b) = tokens_from cur m ++ tokens b.
Proof.
  induction m as [|c m IH]; intros cur b N H; [congruence|]. destruct m as [|d m].
  - cbn [last] in H. cbn [app tokens_from]. rewrite H. destruct (space_char c); cbn [flush]; rewrite ?app_nil_r, <- ?app_assoc; reflexivity.
  - assert (N' : d :: m <> []) by discriminate. assert (H' : glyph (last (d :: m) 0) = false) by exact H.
    change ((c :: d :: m) ++ b) with (c :: ((d :: m) ++ b)). remember (d :: m) as dm eqn:Q. clear Q H N.
    cbn [tokens_from]. destruct (space_char c); [rewrite IH by auto; now rewrite app_assoc|].
    destruct (glyph c); [now apply IH|]. rewrite IH by auto. rewrite <- !app_assoc. reflexivity.
Qed.
(** A separator text between two texts. *)
Lemma tokens_mid a m b : m <> [] -> cut m -> glyph (last m 0) = false -> tokens (a ++ m ++ b) = tokens a ++ tokens m ++ tokens b.
Proof.
  intros N C L. rewrite tokens_app_cut; [f_equal; now apply tokens_end|]. destruct m; [congruence|exact C].
Qed.

(** Joined values. *)
Lemma comma_tokens lits body : comma_list lits body -> tokens body = comma_join (map tokens lits).
Proof.
  induction 1 as [|t|t t' ts s H IH]; [reflexivity|reflexivity|].
  cbn [map comma_join]. rewrite tokens_app_cut by reflexivity. f_equal.
  change ([44; 32] ++ s) with (44 :: 32 :: s). rewrite (tokens_sep 44), (tokens_sep 32), IH by reflexivity. reflexivity.
Qed.

Section G.
Variable str_float : f64 -> text.

(** The tokens of an array. *)
Lemma declare_array_ok {B} (P : pynum -> B -> Prop) (rd : list (list Z) -> B -> Prop) name type vs zs :
  identifier name -> In type ["int"; "float"]%string ->
  (forall v z, P v z -> exists t, constant str_float v (txt type) = Ret t /\ rd (tokens t) z) -> Forall2 P vs zs ->
  exists t, declare_array str_float name (zlen vs) (txt type) vs = Ret t /\ array_of rd type name zs (tokens t).
Proof.
  intros Hn Ht HP HF. unfold declare_array.
  destruct (array_declare_ok str_float P name (Some (zlen vs)) (txt type) (txt "static const") vs zs [] []
              (fun t z => rd (tokens t) z) HP HF) as (n & lits & body & E & A & C & D); [now right|].
  eexists. split; [exact E|].
  exists (tokens n), (map tokens lits). split; [|split].
  - exists n. split; [|reflexivity]. replace (zlen zs) with (zlen vs); [exact A|].
    clear -HF. induction HF; [reflexivity|]. rewrite !zlen_cons. lia.
  - clear -D. induction D; constructor; auto.
  - destruct (identifier_glyphs _ Hn) as [N1 N2].
    assert (T : tokens (txt type) = word type).
    { destruct Ht as [<-|[<-|[]]]; reflexivity. }
    change ([] ++ txt "static const" ++ ?x) with (txt "static const" ++ x). rewrite app_nil_r.
    rewrite (tokens_mid (txt "static const") (txt " ")) by (discriminate || reflexivity).
    rewrite (tokens_mid (txt type) (txt " ")) by (discriminate || reflexivity).
    rewrite (tokens_mid name (txt "[")) by (discriminate || reflexivity).
    rewrite (app_assoc (txt "]")).
    rewrite (tokens_mid n (txt "]" ++ txt " = { ")) by (discriminate || reflexivity).
    rewrite (tokens_app_cut body) by reflexivity. rewrite (comma_tokens _ _ C), (tokens_word name N1 N2), T.
    reflexivity.
Qed.

Lemma declare_int_ok name v z : identifier name -> py_int v = Ret z ->
  exists t, declare_int str_float name v = Ret t /\ int_of name z (tokens t).
Proof.
  intros Hn Hv. unfold declare_int, constant_declare.
  destruct (constant_int str_float v z (txt "int") eq_refl Hv) as (t & E & L). rewrite E. cbn [bind].
  eexists. split; [reflexivity|]. exists (tokens t). split; [exists t; auto|].
  destruct (identifier_glyphs _ Hn) as [N1 N2].
  change (txt "static const " ++ txt "int" ++ ?x) with (txt "static const int" ++ x).
  rewrite (tokens_mid (txt "static const int") (txt " ")) by (discriminate || reflexivity).
  rewrite (tokens_mid name (txt " = ")) by (discriminate || reflexivity).
  rewrite (tokens_app_cut t) by reflexivity. rewrite (tokens_word name N1 N2). reflexivity.
Qed.

Lemma ints_ok name vs : identifier name ->
  exists t, declare_array str_float name (zlen vs) (txt "int") (map PyInt vs) = Ret t /\ array_of reads_int "int" name vs (tokens t).
Proof.
  intros Hn. rewrite <- (zlen_map PyInt).
  apply (declare_array_ok (fun v z => v = PyInt z)); auto; [cbn; tauto| |].
  - intros v z ->. destruct (constant_int str_float (PyInt z) z (txt "int") eq_refl eq_refl) as (t & E & L). exists t. split; auto. exists t. auto.
  - induction vs; constructor; auto.
Qed.
Lemma floats_ok name (vs : list f64) : identifier name -> Forall (fun v => is_finite v = true) vs ->
  exists t, declare_array str_float name (zlen vs) (txt "float") (map PyFloat vs) = Ret t /\ array_of near6 "float" name (map B2R vs) (tokens t).
Proof.
  intros Hn HF. rewrite <- (zlen_map PyFloat).
  apply (declare_array_ok (fun v r => exists x, v = PyFloat x /\ is_finite x = true /\ r = B2R x)); auto; [cbn; tauto| |].
  - intros v r (x & -> & Fx & ->). destruct (constant_float str_float (PyFloat x) Fx) as (t & r & E & L & D).
    exists t. split; auto. exists r. split; [exists t; auto|]. cbn [real_of] in D. lra.
  - induction HF; constructor; eauto.
Qed.

(** Declarations one after the other. *)
Lemma declarations_app a : forall b ts us, declarations a ts -> declarations b us -> declarations (a ++ b) (ts ++ us).
Proof.
  induction a as [|d a IH]; intros b ts us H1 H2.
  - inversion H1; subst. exact H2.
  - inversion H1; subst. cbn [app]. rewrite <- app_assoc. constructor; auto.
Qed.
Lemma declarations_one d ts : (d ts : Prop) -> declarations [d] ts.
Proof. intros H. rewrite <- (app_nil_r ts). constructor; auto. constructor. Qed.
Lemma tokens_join2 ts : tokens (join_with [10; 10] ts) = flat_map tokens ts.
Proof.
  induction ts as [|t ts IH]; [reflexivity|]. cbn [join_with flat_map]. destruct ts as [|t2 ts]; [cbn; now rewrite app_nil_r|].
  rewrite tokens_app_cut by reflexivity. f_equal. exact IH.
Qed.
Lemma tokens_join1 ts : tokens (join_with [10] ts) = flat_map tokens ts.
Proof.
  induction ts as [|t ts IH]; [reflexivity|]. cbn [join_with flat_map]. destruct ts as [|t2 ts]; [cbn; now rewrite app_nil_r|].
  rewrite tokens_app_cut by reflexivity. f_equal. exact IH.
Qed.

Lemma identifier_app s t : identifier s -> Forall (fun d => letter d \/ digit d) t -> identifier (s ++ t).
Proof.
  intros (c & r & -> & H1 & H2) H. exists c, (r ++ t). split; [reflexivity|]. split; [exact H1|]. apply Forall_app. auto.
Qed.
Lemma suffix_ok t : forallb class_rest (txt t) = true -> Forall (fun d => letter d \/ digit d) (txt t).
Proof. intros H. apply Forall_forall. intros d D. apply class_rest_iff. now apply (proj1 (forallb_forall _ _) H). Qed.
Lemma id_suffix s t : identifier s -> forallb class_rest (txt t) = true -> identifier (s ++ txt t).
Proof. intros H1 H2. apply identifier_app; [exact H1|now apply suffix_ok]. Qed.

(** What is declared for an optional constant: its integer part. *)
Definition opt_of (name : list Z) (v : option pynum) : list (list (list Z) -> Prop) :=
  match v with None => [] | Some (PyInt z) => [int_of name z] | Some (PyFloat x) => [int_of name (Ztrunc (B2R x))] end.
Definition opt_fin (v : option pynum) : Prop := match v with Some (PyFloat x) => is_finite x = true | _ => True end.
Lemma declare_opt_ok name v : identifier name -> opt_fin v ->
  exists ts, declare_opt str_float name v = Ret ts /\ declarations (opt_of name v) (flat_map tokens ts).
Proof.
  intros Hn Hv. destruct v as [v|]; cbn [declare_opt opt_of]; [|exists []; split; [reflexivity|constructor]].
  assert (X : exists z, py_int v = Ret z /\ opt_of name (Some v) = [int_of name z]).
  { destruct v as [k|x]; [exists k; auto|]. exists (Ztrunc (B2R x)). split; [|reflexivity].
    cbn [py_int]. pose proof (ftrunc_R x) as T. cbn in Hv. destruct x; try discriminate; now rewrite <- T. }
  destruct X as (z & Ez & O). destruct (declare_int_ok name v z Hn Ez) as (t & E & D). rewrite E. cbn [bind].
  exists [t]. split; [reflexivity|]. cbn [flat_map]. rewrite app_nil_r.
  destruct v; cbn [opt_of] in *; injection O as O; rewrite ?O; now apply declarations_one.
Qed.

Definition bank_decls (name : list Z) (starts ends : list Z) (coeffs : list f64) (fs : option (list f64)) nfft sr fmin fmax :=
  [int_of (name ++ txt "_bands") (zlen starts); array_of reads_int "int" (name ++ txt "_starts") starts;
   array_of reads_int "int" (name ++ txt "_ends") ends; int_of (name ++ txt "_length") (zlen coeffs);
   array_of near6 "float" (name ++ txt "_lut") (map B2R coeffs)] ++
  (match fs with None => [] | Some l => [array_of near6 "float" (name ++ txt "_frequencies") (map B2R l)] end) ++
  opt_of (name ++ txt "_nfft") nfft ++ opt_of (name ++ txt "_samplerate") sr ++
  opt_of (name ++ txt "_fmax") fmax ++ opt_of (name ++ txt "_fmin") fmin.

Theorem serialize_ok name starts ends coeffs fs nfft sr fmin fmax :
  identifier name -> zlen starts = zlen ends -> Forall (fun v => is_finite v = true) coeffs ->
  (forall l, fs = Some l -> Forall (fun v => is_finite v = true) l) ->
  opt_fin nfft -> opt_fin sr -> opt_fin fmin -> opt_fin fmax ->
  exists gen, sparse_filterbank_serialize str_float (starts, ends, coeffs) name fs nfft sr fmin fmax = Ret gen /\
    declarations (bank_decls name starts ends coeffs fs nfft sr fmin fmax) (tokens gen).
Proof.
  intros Hn HL HC HF O1 O2 O3 O4. unfold sparse_filterbank_serialize. replace (zlen starts =? zlen ends) with true by (symmetry; apply Z.eqb_eq; exact HL). cbn [py_assert bind].
  assert (I : forall t, forallb class_rest (txt t) = true -> identifier (name ++ txt t)) by (intros t Ht; now apply id_suffix).
  destruct (declare_int_ok (name ++ txt "_bands") (PyInt (zlen starts)) (zlen starts) (I "_bands"%string eq_refl) eq_refl) as (a1 & E1 & D1).
  rewrite E1. cbn [bind]. clear E1.
  destruct (ints_ok (name ++ txt "_starts") starts (I "_starts"%string eq_refl)) as (a2 & E2 & D2). rewrite E2. cbn [bind]. clear E2.
  destruct (ints_ok (name ++ txt "_ends") ends (I "_ends"%string eq_refl)) as (a3 & E3 & D3). rewrite E3. cbn [bind]. clear E3.
  destruct (declare_int_ok (name ++ txt "_length") (PyInt (zlen coeffs)) (zlen coeffs) (I "_length"%string eq_refl) eq_refl) as (a4 & E4 & D4).
  rewrite E4. cbn [bind]. clear E4.
  destruct (floats_ok (name ++ txt "_lut") coeffs (I "_lut"%string eq_refl) HC) as (a5 & E5 & D5). rewrite E5. cbn [bind]. clear E5.
  assert (X : exists ts, (match fs with
              | None => Ret []
              | Some fs => let* t := declare_array str_float (name ++ txt "_frequencies") (zlen fs) (txt "float") (map PyFloat fs) in Ret [t]
              end) = Ret ts /\ declarations (match fs with None => [] | Some l => [array_of near6 "float" (name ++ txt "_frequencies") (map B2R l)] end) (flat_map tokens ts)).
  { destruct fs as [l|]; [|exists []; split; [reflexivity|constructor]].
    destruct (floats_ok (name ++ txt "_frequencies") l (I "_frequencies"%string eq_refl) (HF l eq_refl)) as (t & E & D). rewrite E. cbn [bind].
    exists [t]. split; [reflexivity|]. cbn [flat_map]. rewrite app_nil_r. now apply declarations_one. }
  destruct X as (a6 & E6 & D6). rewrite E6. cbn [bind]. clear E6.
  destruct (declare_opt_ok (name ++ txt "_nfft") nfft (I "_nfft"%string eq_refl) O1) as (a7 & E7 & D7). rewrite E7. cbn [bind]. clear E7.
  destruct (declare_opt_ok (name ++ txt "_samplerate") sr (I "_samplerate"%string eq_refl) O2) as (a8 & E8 & D8). rewrite E8. cbn [bind]. clear E8.
  destruct (declare_opt_ok (name ++ txt "_fmax") fmax (I "_fmax"%string eq_refl) O4) as (a9 & E9 & D9). rewrite E9. cbn [bind]. clear E9.
  destruct (declare_opt_ok (name ++ txt "_fmin") fmin (I "_fmin"%string eq_refl) O3) as (a10 & E10 & D10). rewrite E10. cbn [bind]. clear E10.
  eexists. split; [reflexivity|]. rewrite tokens_join2. unfold bank_decls. rewrite !flat_map_app.
  cbn [flat_map]. rewrite app_nil_r.
  apply declarations_app; [constructor; auto; constructor; auto; constructor; auto; constructor; auto; now apply declarations_one|].
  repeat apply declarations_app; assumption.
Qed.
Theorem serialize_lengths name starts ends coeffs fs nfft sr fmin fmax : zlen starts <> zlen ends ->
  sparse_filterbank_serialize str_float (starts, ends, coeffs) name fs nfft sr fmin fmax = Err AssertionError_.
Proof. intros H. unfold sparse_filterbank_serialize. apply Z.eqb_neq in H. rewrite H. reflexivity. Qed.
End G.
