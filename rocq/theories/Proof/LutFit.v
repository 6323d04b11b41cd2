(** The words of the generated declarations are short, so wrapping keeps what a C compiler reads. *)
From Coq Require Import String ZArith List Bool Lia Reals Lra.
From Flocq Require Import Core BinarySingleNaN.
From Verif.Base Require Import Res CInt ListX Loops Float.
From Verif.Model Require Import Text TreesC FixedPoint Cgen Lut.
From Verif.Spec Require Import CgenSpec LutSpec.
From Verif.Proof Require Import FixedPoint Text Cgen LutWrap Lut.
Import ListNotations.
Open Scope Z_scope.
Open Scope res_scope.
Open Scope list_scope.

Lemma dec_fuel_len f : forall n k, (1 <= k)%nat -> 0 <= n < 10 ^ Z.of_nat k -> (length (dec_fuel f n) <= k)%nat.
Proof.
  induction f as [|f IH]; intros n k Hk Hn; [cbn; lia|]. cbn [dec_fuel]. destruct (Z.ltb_spec n 10); [cbn; lia|].
  destruct k as [|[|k]]; [lia|cbn in Hn; lia|]. rewrite app_length. cbn [length].
  assert (length (dec_fuel f (n / 10)) <= S k)%nat; [|lia]. apply IH; [lia|]. split; [apply Z.div_pos; lia|].
  apply Z.div_lt_upper_bound; [lia|]. rewrite <- Z.pow_succ_r by lia.
  replace (Z.succ (Z.of_nat (S k))) with (Z.of_nat (S (S k))) by lia. lia.
Qed.
Lemma fmt_int_len z k : (1 <= k)%nat -> Z.abs z < 10 ^ Z.of_nat k -> zlen (fmt_int z) <= Z.of_nat k + 1.
Proof.
  intros Hk Hz. unfold fmt_int, dec_digits. destruct (Z.ltb_spec z 0); [rewrite zlen_cons|]; unfold zlen;
  match goal with |- context [dec_fuel ?f ?n] => pose proof (dec_fuel_len f n k Hk ltac:(lia)) end; lia.
Qed.
Lemma fmt_int_len_nn z k : (1 <= k)%nat -> 0 <= z < 10 ^ Z.of_nat k -> zlen (fmt_int z) <= Z.of_nat k.
Proof.
  intros Hk Hz. unfold fmt_int, dec_digits. destruct (Z.ltb_spec z 0); [lia|]. unfold zlen.
  match goal with |- context [dec_fuel ?f ?n] => pose proof (dec_fuel_len f n k Hk ltac:(lia)) end; lia.
Qed.
Lemma pad_digits_len k : forall r, length (pad_digits k r) = k.
Proof. induction k as [|k IH]; intros r; [reflexivity|]. cbn [pad_digits]. rewrite app_length, IH. cbn [length]. lia. Qed.
Lemma scaled_int_bound (x : f64) : is_finite x = true -> (Rabs (B2R x) < 1000000000000)%R -> 0 <= scaled_int 6 x <= 10 ^ 18.
Proof.
  intros F H. rewrite scaled_int_ok by exact F. change (Z.of_nat 6) with 6. split.
  - apply Z.le_trans with (ZnearestE 0); [rewrite (ZnE_IZR 0); lia|]. apply ZnE_le.
    apply Rmult_le_pos; [apply Rabs_pos|apply IZR_le; lia].
  - apply Z.le_trans with (ZnearestE (IZR (10 ^ 18))); [|rewrite ZnE_IZR; lia]. apply ZnE_le.
    replace (10 ^ 18) with (1000000000000 * 10 ^ 6) by reflexivity. rewrite mult_IZR.
    apply Rmult_le_compat_r; [apply IZR_le; lia|lra].
Qed.
Lemma fmt_fixed_len (x : f64) : is_finite x = true -> (Rabs (B2R x) < 1000000000000)%R -> zlen (fmt_fixed 6 x) <= 21.
Proof.
  intros F H. pose proof (scaled_int_bound x F H) as B.
  assert (L : zlen (dec_digits (scaled_int 6 x / 10 ^ Z.of_nat 6) ++ [46] ++ pad_digits 6 (scaled_int 6 x mod 10 ^ Z.of_nat 6)) <= 20).
  { rewrite !zlen_app. unfold zlen at 3. rewrite pad_digits_len. change (zlen [46]) with 1.
    unfold dec_digits, zlen. set (n := scaled_int 6 x) in *. change (10 ^ Z.of_nat 6) with 1000000.
    match goal with |- context [dec_fuel ?f ?n] => pose proof (dec_fuel_len f n 13 ltac:(lia)) as D end.
    assert (Q : 0 <= n / 1000000 < 10 ^ Z.of_nat 13); [|specialize (D Q); lia].
    split; [apply Z.div_pos; lia|]. apply Z.div_lt_upper_bound; [lia|]. change (10 ^ Z.of_nat 13) with 10000000000000.
    change (10 ^ 18) with 1000000000000000000 in B. lia. }
  assert (E : fmt_fixed 6 x = (if Bsign x then [45] else []) ++
    (dec_digits (scaled_int 6 x / 10 ^ Z.of_nat 6) ++ [46] ++ pad_digits 6 (scaled_int 6 x mod 10 ^ Z.of_nat 6)))
    by (destruct x as [s|s| |s m e E]; try discriminate; reflexivity).
  rewrite E, zlen_app. destruct (Bsign x); [change (zlen [45]) with 1|change (zlen (@nil Z)) with 0]; lia.
Qed.

(** ** Words *)
Definition fitsw (L : Z) (s : list Z) : Prop := Forall (fun w => zlen w <= L) (wds s).
Lemma fit_short L s : zlen s <= L -> fitsw L s.
Proof.
  intros H. apply Forall_forall. intros w Hw. apply wds_In_len in Hw. change (zlen (@nil Z)) with 0 in Hw. lia.
Qed.
Lemma fit_sp L a c b : white c -> fitsw L a -> fitsw L b -> fitsw L (a ++ c :: b).
Proof.
  intros Hc Ha Hb. unfold fitsw, wds. rewrite wds_app by (right; eauto). apply Forall_app. split; [exact Ha|].
  change (c :: b) with ([c] ++ b). rewrite wds_white by (constructor; [exact Hc|constructor]). exact Hb.
Qed.
Lemma fit_join1 L ts : Forall (fitsw L) ts -> fitsw L (join_with [10] ts).
Proof.
  induction 1 as [|t ts Ht HF IH]; [constructor|]. cbn [join_with]. destruct ts; [exact Ht|].
  cbn [app]. apply fit_sp; [right; lia|exact Ht|exact IH].
Qed.
Lemma fit_join2 L ts : Forall (fitsw L) ts -> fitsw L (join_with [10; 10] ts).
Proof.
  induction 1 as [|t ts Ht HF IH]; [constructor|]. cbn [join_with]. destruct ts; [exact Ht|].
  cbn [app]. apply fit_sp; [right; lia|exact Ht|].
  match goal with |- fitsw L (10 :: ?x) => change (10 :: x) with ([] ++ 10 :: x) end. apply fit_sp; [right; lia|constructor|exact IH].
Qed.

Section G.
Variable str_float : f64 -> text.

Lemma declare_array_fit L name type vs t :
  declare_array str_float name (zlen vs) (txt type) vs = Ret t -> In type ["int"; "float"]%string ->
  24 <= L -> zlen name + 12 <= L -> zlen vs < 10 ^ 10 ->
  (forall v, In v vs -> exists u, constant str_float v (txt type) = Ret u /\ zlen u <= 22) -> fitsw L t.
Proof.
  intros E Ht HL Hn Hv HC.
  destruct (array_declare_ok str_float (fun v z => v = z /\ In v vs) name (Some (zlen vs)) (txt type) (txt "static const") vs vs [] []
              (fun u v => zlen u <= 22)) as (n & lits & body & E' & A & C & D).
  { intros v z [<- Hin]. exact (HC v Hin). }
  { clear. assert (G : forall l, incl l vs -> Forall2 (fun v z => v = z /\ In v vs) l l).
    { induction l as [|v l IH]; intros Hi; constructor; [split; [reflexivity|apply Hi; now left]|]. apply IH. intros y Hy. apply Hi. now right. }
    apply G, incl_refl. }
  { now right. }
  unfold declare_array, array_declare in E. cbn [bind] in E. rewrite Z.eqb_refl in E. cbn [py_assert bind] in E.
  destruct (mapM (fun v => constant str_float v (txt type)) vs) as [us|] eqn:EM; [|discriminate]. cbn [bind] in E. inv E. clear E' A C D n lits body.
  assert (HU : Forall (fun u => zlen u <= 22) us).
  { clear -EM HC. revert us EM HC. induction vs as [|v vs IH]; intros us EM HC; cbn [mapM] in EM; [inv EM; constructor|].
    apply bind_Ret in EM as (u & Eu & EM). apply bind_Ret in EM as (us' & Eus & EM). inv EM.
    constructor; [|apply IH; [exact Eus|intros v' Hv'; apply HC; now right]].
    destruct (HC v (or_introl eq_refl)) as (u' & Eu' & B). rewrite Eu in Eu'. inv Eu'. exact B. }
  assert (HB : fitsw L (join_with (txt ", ") us)).
  { clear -HU HL. induction HU as [|u us Hu HU IH]; [constructor|]. cbn [join_with]. destruct us as [|u2 us]; [apply fit_short; lia|].
    change (txt ", ") with [44; 32] in *. change ([44; 32] ++ ?x) with ([44] ++ 32 :: x). rewrite app_assoc.
    apply fit_sp; [now left| |exact IH]. apply fit_short. rewrite zlen_app. change (zlen [44]) with 1. lia. }
  assert (HN : zlen (fmt_int (zlen vs)) <= 10) by (apply (fmt_int_len_nn _ 10); [lia|pose proof (zlen_nonneg vs); exact (conj H Hv)]).
  assert (HT : zlen (txt type) <= 5) by (destruct Ht as [<-|[<-|[]]]; vm_compute; discriminate).
  match goal with |- fitsw L ?g =>
    replace g with (txt "static" ++ 32 :: txt "const" ++ 32 :: txt type ++ 32 ::
      (name ++ txt "[" ++ fmt_int (zlen vs) ++ txt "]") ++ 32 :: txt "=" ++ 32 :: txt "{" ++ 32 :: join_with (txt ", ") us ++ 32 :: txt "};")
      by (cbn [app]; rewrite <- !app_assoc; reflexivity) end.
  apply fit_sp; [now left|apply fit_short; (eapply Z.le_trans; [|exact HL]); vm_compute; discriminate|]. apply fit_sp; [now left|apply fit_short; (eapply Z.le_trans; [|exact HL]); vm_compute; discriminate|].
  apply fit_sp; [now left|apply fit_short; lia|].
  apply fit_sp; [now left|apply fit_short; rewrite !zlen_app; change (zlen (txt "[")) with 1; change (zlen (txt "]")) with 1; lia|].
  apply fit_sp; [now left|apply fit_short; (eapply Z.le_trans; [|exact HL]); vm_compute; discriminate|]. apply fit_sp; [now left|apply fit_short; (eapply Z.le_trans; [|exact HL]); vm_compute; discriminate|].
  apply fit_sp; [now left|exact HB|apply fit_short; (eapply Z.le_trans; [|exact HL]); vm_compute; discriminate].
Qed.
Lemma constant_float_len v u : is_finite v = true -> (Rabs (B2R v) < 1000000000000)%R ->
  constant str_float (PyFloat v) (txt "float") = Ret u -> zlen u <= 22.
Proof.
  intros F H E. unfold constant in E. cbn [py_float bind] in E. change (text_eqb (txt "float") (txt "float")) with true in E. cbn iota in E.
  inv E. rewrite zlen_app. pose proof (fmt_fixed_len v F H) as Q. change (zlen (fmt_fixed 6 v) + 1 <= 22). lia.
Qed.
Lemma constant_int_len v z u : py_int v = Ret z -> Z.abs z < 10 ^ 12 -> constant str_float v (txt "int") = Ret u -> zlen u <= 13.
Proof.
  intros Ez H E. unfold constant in E. rewrite Ez in E. change (text_eqb (txt "int") (txt "float")) with false in E.
  change (contains (txt "int") (txt "int")) with true in E. cbn [bind] in E. cbn iota in E. inv E.
  apply (fmt_int_len z 12); [lia|exact H].
Qed.
Lemma floats_fit L name (vs : list f64) t : declare_array str_float name (zlen vs) (txt "float") (map PyFloat vs) = Ret t ->
  Forall (fun v => is_finite v = true /\ (Rabs (B2R v) < 1000000000000)%R) vs -> 24 <= L -> zlen name + 12 <= L -> zlen vs < 10 ^ 10 -> fitsw L t.
Proof.
  intros E HF HL Hn Hv. apply (declare_array_fit L name "float"%string (map PyFloat vs)); auto.
  - now rewrite zlen_map.
  - cbn. tauto.
  - now rewrite zlen_map.
  - intros v Hin. apply in_map_iff in Hin as (x & <- & Hin). rewrite Forall_forall in HF. destruct (HF x Hin) as [F B].
    destruct (constant_float str_float (PyFloat x) F) as (u & r & Eu & _). exists u. split; [exact Eu|]. now apply (constant_float_len x).
Qed.
Lemma ints_fit L name (vs : list Z) t : declare_array str_float name (zlen vs) (txt "int") (map PyInt vs) = Ret t ->
  Forall (fun v => Z.abs v < 10 ^ 12) vs -> 24 <= L -> zlen name + 12 <= L -> zlen vs < 10 ^ 10 -> fitsw L t.
Proof.
  intros E HF HL Hn Hv. apply (declare_array_fit L name "int"%string (map PyInt vs)); auto.
  - now rewrite zlen_map.
  - cbn. tauto.
  - now rewrite zlen_map.
  - intros v Hin. apply in_map_iff in Hin as (x & <- & Hin). rewrite Forall_forall in HF. specialize (HF x Hin).
    destruct (constant_int str_float (PyInt x) x (txt "int") eq_refl eq_refl) as (u & Eu & _). exists u. split; [exact Eu|].
    pose proof (constant_int_len (PyInt x) x u eq_refl HF Eu). lia.
Qed.
Lemma int_fit L name v z t : declare_int str_float name v = Ret t -> py_int v = Ret z -> Z.abs z < 10 ^ 12 -> 24 <= L -> zlen name <= L -> fitsw L t.
Proof.
  intros E Ez Hz HL Hn. unfold declare_int, constant_declare in E. apply bind_Ret in E as (u & Eu & E). inv E.
  pose proof (constant_int_len v z u Ez Hz Eu) as Lu.
  match goal with |- fitsw L ?g =>
    replace g with (txt "static" ++ 32 :: txt "const" ++ 32 :: txt "int" ++ 32 :: name ++ 32 :: txt "=" ++ 32 :: (u ++ [59]) ++ 32 :: [])
      by (cbn [app]; rewrite <- !app_assoc; reflexivity) end.
  do 3 (apply fit_sp; [now left|apply fit_short; (eapply Z.le_trans; [|exact HL]); vm_compute; discriminate|]).
  apply fit_sp; [now left|apply fit_short; lia|]. apply fit_sp; [now left|apply fit_short; (eapply Z.le_trans; [|exact HL]); vm_compute; discriminate|].
  apply fit_sp; [now left| |constructor]. apply fit_short. rewrite zlen_app. change (zlen [59]) with 1. lia.
Qed.
Lemma opt_fit L name v ts : declare_opt str_float name v = Ret ts -> (forall w, v = Some w -> exists z, py_int w = Ret z /\ Z.abs z < 10 ^ 12) ->
  24 <= L -> zlen name <= L -> Forall (fitsw L) ts.
Proof.
  intros E Hv HL Hn. destruct v as [v|]; cbn [declare_opt] in E; [|inv E; constructor].
  apply bind_Ret in E as (t & Et & E). inv E. destruct (Hv v eq_refl) as (z & Ez & Bz). constructor; [|constructor].
  now apply (int_fit L name v z).
Qed.

(** Wrapped text reads the same. *)
Lemma wrapped_tokens s L b : fitsw L s -> 1 <= L ->
  exists out, textwrap_wrap s L b = Ret out /\ tokens (join_with [10] out) = tokens s /\ Forall (fun l => zlen l <= L) out.
Proof.
  intros HF HL. destruct (wrap_lines s L b HL) as (out & E & HO). exists out. split; [exact E|]. split; [|exact HO].
  rewrite (tokens_wds (join_with [10] out)), (tokens_wds s). f_equal. now apply (wrap_words_iff s L b out E).
Qed.

Theorem window_ok name (window : list f64) L :
  identifier name -> zlen window < 10 ^ 10 ->
  Forall (fun v => is_finite v = true /\ (Rabs (B2R v) < 1000000000000)%R) window -> zlen name + 24 <= L ->
  exists gen, window_function str_float name window (zlen window) L = Ret gen /\
    declarations [array_of near6 "float" name (map B2R window); int_of (name ++ txt "_length") (zlen window)] (tokens gen).
Proof.
  intros Hn Hl HF HL. unfold window_function. pose proof (zlen_nonneg name) as N0.
  destruct (floats_ok str_float name window Hn) as (a & Ea & Da).
  { eapply Forall_impl; [|exact HF]. cbv beta. tauto. }
  rewrite Ea. cbn [bind].
  destruct (declare_int_ok str_float (name ++ txt "_length") (PyInt (zlen window)) (zlen window) (id_suffix _ "_length"%string Hn eq_refl) eq_refl)
    as (c & Ec & Dc). rewrite Ec. cbn [bind].
  assert (FJ : fitsw L (join_with [10] [a; c])).
  { apply fit_join1. constructor; [|constructor; [|constructor]].
    - apply (floats_fit L name window a Ea HF); lia.
    - apply (int_fit L _ _ (zlen window) c Ec eq_refl); [pose proof (zlen_nonneg window); lia|lia|].
      rewrite zlen_app. change (zlen (txt "_length")) with 7. lia. }
  destruct (wrapped_tokens _ L true FJ ltac:(lia)) as (out & Eo & To & _). rewrite Eo. cbn [bind].
  eexists. split; [reflexivity|]. rewrite To, tokens_join1. cbn [flat_map]. rewrite app_nil_r.
  constructor; [exact Da|]. now apply declarations_one.
Qed.
Theorem window_length name (window : list f64) n L : zlen window <> n -> window_function str_float name window n L = Err AssertionError_.
Proof.
  intros H. unfold window_function, declare_array, array_declare. rewrite zlen_map. destruct (Z.eqb_spec n (zlen window)); [congruence|]. reflexivity.
Qed.

Definition mel_fmax (samplerate : Z) (fmax : option Z) : pynum :=
  match fmax with Some m => PyInt m | None => PyFloat (fdiv (f_of_Z samplerate) (f_of_Z 2)) end.
Lemma half_ok sr : 0 <= sr < 10 ^ 12 -> exists x : f64, PyFloat x = mel_fmax sr None /\ is_finite x = true /\ B2R x = (IZR sr / 2)%R.
Proof.
  intros H. eexists. split; [reflexivity|].
  destruct (@f_of_Z_exact 53 1024 _ _ sr) as [A B]; [change (2 ^ 53) with 9007199254740992; lia|].
  destruct (@f_of_Z_exact 53 1024 _ _ 2) as [A2 B2]; [change (2 ^ 53) with 9007199254740992; lia|].
  assert (NZ : B2R (f_of_Z 2 : f64) <> 0%R) by (rewrite A2; lra).
  assert (G : generic_format radix2 (SpecFloat.fexp 53 1024) (IZR sr / 2)).
  { replace (IZR sr / 2)%R with (@F2R radix2 {| Fnum := sr; Fexp := -1 |}) by (unfold F2R; cbn [Fnum Fexp]; change (bpow radix2 (-1)) with (/ 2)%R; reflexivity).
    apply generic_format_F2R. cbn [Fnum Fexp]. intros Nz.
    assert (M : (mag radix2 (@F2R radix2 {| Fnum := sr; Fexp := -1 |}) <= 50)%Z).
    { apply mag_le_bpow; [intros Q; apply eq_0_F2R in Q; cbn in Q; lia|]. unfold F2R. cbn [Fnum Fexp].
      rewrite Rabs_mult, (Rabs_pos_eq (IZR sr)) by (apply IZR_le; lia). change (bpow radix2 50) with (IZR 1125899906842624).
      change (bpow radix2 (-1)) with (/ 2)%R. rewrite (Rabs_pos_eq (/ 2)) by lra.
      assert (IZR sr < 1000000000000)%R by (apply IZR_lt; lia). lra. }
    unfold cexp, SpecFloat.fexp, SpecFloat.emin. lia. }
  destruct (fdiv_correct (f_of_Z sr : f64) (f_of_Z 2 : f64) B NZ) as [D1 D2].
  { rewrite A, A2. assert (0 <= IZR sr)%R by (apply IZR_le; lia). rewrite Rabs_pos_eq by lra.
    change (2 ^ 53) with 9007199254740992. assert (IZR sr < 1000000000000)%R by (apply IZR_lt; lia). lra. }
  rewrite A, A2 in D1. rewrite (round_generic radix2 _ _ _ G) in D1.
  auto.
Qed.

(** What eml-mel-filterbank declares. *)
Theorem mel_ok name starts ends (coeffs freqs : list f64) fft samplerate fmin fmax L :
  identifier name -> zlen starts = zlen ends -> zlen starts < 10 ^ 10 -> zlen coeffs < 10 ^ 10 -> zlen freqs < 10 ^ 10 ->
  Forall (fun v => is_finite v = true /\ (Rabs (B2R v) < 1000000000000)%R) coeffs ->
  Forall (fun v => is_finite v = true /\ (Rabs (B2R v) < 1000000000000)%R) freqs ->
  Forall (fun v => Z.abs v < 10 ^ 12) starts -> Forall (fun v => Z.abs v < 10 ^ 12) ends ->
  Z.abs fft < 10 ^ 12 -> 0 <= samplerate < 10 ^ 12 -> Z.abs fmin < 10 ^ 12 -> (forall m, fmax = Some m -> Z.abs m < 10 ^ 12) ->
  zlen name + 24 <= L ->
  exists gen, mel_filterbank str_float name (starts, ends, coeffs) freqs fft samplerate fmin fmax L = Ret gen /\
    declarations [int_of (name ++ txt "_bands") (zlen starts); array_of reads_int "int" (name ++ txt "_starts") starts;
       array_of reads_int "int" (name ++ txt "_ends") ends; int_of (name ++ txt "_length") (zlen coeffs);
       array_of near6 "float" (name ++ txt "_lut") (map B2R coeffs); array_of near6 "float" (name ++ txt "_frequencies") (map B2R freqs);
       int_of (name ++ txt "_nfft") fft; int_of (name ++ txt "_samplerate") samplerate;
       int_of (name ++ txt "_fmax") (match fmax with Some m => m | None => samplerate / 2 end); int_of (name ++ txt "_fmin") fmin] (tokens gen).
Proof.
  intros Hn HE H1 H2 H3 FC FF FS FE B1 B2 B3 B4 HL.
  assert (FM : exists z, py_int (mel_fmax samplerate fmax) = Ret z /\ Z.abs z < 10 ^ 12 /\ z = (match fmax with Some m => m | None => samplerate / 2 end) /\
     opt_fin (Some (mel_fmax samplerate fmax)) /\ forall nm, opt_of nm (Some (mel_fmax samplerate fmax)) = [int_of nm z]).
  { destruct fmax as [m|]; [exists m; cbn [mel_fmax opt_of opt_fin py_int]; specialize (B4 m eq_refl); auto|].
    destruct (half_ok samplerate B2) as (x & <- & Fx & Vx). exists (samplerate / 2).
    assert (T : Ztrunc (B2R x) = samplerate / 2).
    { rewrite Vx. assert (0 <= IZR samplerate)%R by (apply IZR_le; lia). rewrite Ztrunc_floor by lra.
      exact (Zfloor_div samplerate 2 ltac:(lia)). }
    assert (E : py_int (PyFloat x) = Ret (samplerate / 2)).
    { cbn [py_int]. pose proof (ftrunc_R x) as T'. rewrite T in T'. destruct x; try discriminate; now rewrite <- T'. }
    split; [exact E|]. split; [|split; [reflexivity|split; [exact Fx|intros nm; cbn [opt_of]; now rewrite T]]].
    assert (0 <= samplerate / 2 <= samplerate); [|lia]. split; [apply Z.div_pos; lia|]. apply Z.div_le_upper_bound; lia. }
  destruct FM as (zm & Em & Bm & <- & Fm & Om).
  unfold mel_filterbank. fold (mel_fmax samplerate fmax).
  assert (W : Forall (fun v : f64 => is_finite v = true) coeffs) by (eapply Forall_impl; [|exact FC]; cbv beta; tauto).
  assert (W2 : Forall (fun v : f64 => is_finite v = true) freqs) by (eapply Forall_impl; [|exact FF]; cbv beta; tauto).
  destruct (serialize_ok str_float name starts ends coeffs (Some freqs) (Some (PyInt fft)) (Some (PyInt samplerate)) (Some (PyInt fmin)) (Some (mel_fmax samplerate fmax))
              Hn HE W) as (gen & Eg & Dg); auto.
  { intros l [= <-]. exact W2. }
  { exact I. } { exact I. } { exact I. }
  rewrite Eg. cbn [bind].
  assert (FG : fitsw L gen).
  { clear Dg. pose proof (zlen_nonneg name) as N0. unfold sparse_filterbank_serialize in Eg. apply bind_Ret in Eg as ([] & _ & Eg).
    apply bind_Ret in Eg as (a1 & E1 & Eg). apply bind_Ret in Eg as (a2 & E2 & Eg). apply bind_Ret in Eg as (a3 & E3 & Eg).
    apply bind_Ret in Eg as (a4 & E4 & Eg). apply bind_Ret in Eg as (a5 & E5 & Eg). apply bind_Ret in Eg as (a6 & E6 & Eg).
    apply bind_Ret in Eg as (a7 & E7 & Eg). apply bind_Ret in Eg as (a8 & E8 & Eg). apply bind_Ret in Eg as (a9 & E9 & Eg).
    apply bind_Ret in Eg as (a10 & E10 & Eg).
    apply bind_Ret in E6 as (t6 & E6 & Q6). injection Q6 as <-.
    assert (Q : gen = join_with [10; 10] ([a1; a2; a3; a4; a5] ++ [t6] ++ a7 ++ a8 ++ a9 ++ a10)).
    { apply (f_equal (fun r => match r with Ret v => v | _ => [] end)) in Eg. symmetry. exact Eg. }
    rewrite Q. clear Eg Q.
    pose proof (zlen_nonneg starts). pose proof (zlen_nonneg coeffs).
    assert (LN : forall s, zlen (txt s) <= 12 -> zlen (name ++ txt s) + 12 <= L) by (intros s Hs; rewrite zlen_app; lia).
    assert (LN' : forall s, zlen (txt s) <= 12 -> zlen (name ++ txt s) <= L) by (intros s Hs; specialize (LN s Hs); lia).
    assert (HL' : 24 <= L) by lia.
    apply fit_join2. repeat (apply Forall_app; split); [constructor; [|constructor; [|constructor; [|constructor; [|constructor; [|constructor]]]]]|constructor; [|constructor]| | | |].
    - apply (int_fit L _ _ (zlen starts) a1 E1 eq_refl); auto; [lia|]. apply LN'. vm_compute. discriminate.
    - apply (ints_fit L _ starts a2 E2); auto. apply LN. vm_compute. discriminate.
    - apply (ints_fit L _ ends a3 E3); auto; [apply LN; vm_compute; discriminate|lia].
    - apply (int_fit L _ _ (zlen coeffs) a4 E4 eq_refl); auto; [lia|]. apply LN'. vm_compute. discriminate.
    - apply (floats_fit L _ coeffs a5 E5); auto. apply LN. vm_compute. discriminate.
    - apply (floats_fit L _ freqs t6 E6); auto. apply LN. vm_compute. discriminate.
    - apply (opt_fit L _ _ a7 E7); auto; [|apply LN'; vm_compute; discriminate]. intros w [= <-]. exists fft. auto.
    - apply (opt_fit L _ _ a8 E8); auto; [|apply LN'; vm_compute; discriminate]. intros w [= <-]. exists samplerate. split; [reflexivity|lia].
    - apply (opt_fit L _ _ a9 E9); auto; [|apply LN'; vm_compute; discriminate]. intros w [= <-]. exists zm. auto.
    - apply (opt_fit L _ _ a10 E10); auto; [|apply LN'; vm_compute; discriminate]. intros w [= <-]. exists fmin. auto. }
  destruct (wrapped_tokens gen L false FG) as (out & Eo & To & _); [pose proof (zlen_nonneg name); lia|].
  rewrite Eo. cbn [bind]. eexists. split; [reflexivity|]. rewrite To. unfold bank_decls in Dg. rewrite Om in Dg. exact Dg.
Qed.
End G.

(** A part of the text without newline lies in one line. *)
Lemma part_of_join : forall (a : list Z) pre part (b : list Z) post, pre ++ part ++ post = a ++ 10 :: b -> ~ In 10 part ->
  (exists post', a = pre ++ part ++ post') \/ (exists pre', b = pre' ++ part ++ post).
Proof.
  induction a as [|c a IH]; intros pre part b post E N.
  - destruct pre as [|p pre].
    + destruct part as [|q part]; [left; exists []; reflexivity|]. cbn in E. injection E as E1 E2. subst q. exfalso. apply N. now left.
    + cbn in E. injection E as E1 E2. right. exists pre. now rewrite E2.
  - destruct pre as [|p pre].
    + destruct part as [|q part]; [left; exists (c :: a); reflexivity|]. cbn in E. injection E as E1 E2. subst q.
      destruct (IH [] part b post E2) as [[post' H]|[pre' H]]; [intros Q; apply N; now right| |].
      * left. exists post'. rewrite H. reflexivity.
      * (* the part goes on after the newline: impossible unless it is empty *)
        exfalso. assert (L : zlen part <= zlen a \/ zlen part > zlen a) by lia. destruct L as [L|L].
        -- apply (f_equal (@length Z)) in E2, H. rewrite !app_length in E2, H. cbn [length] in E2. unfold zlen in L. lia.
        -- apply N. right. cbn [app] in E2.
           assert (G : nth (length a) (part ++ post) 0 = 10) by (rewrite E2, app_nth2, Nat.sub_diag by lia; reflexivity).
           rewrite app_nth1 in G by (unfold zlen in L; lia). rewrite <- G. apply nth_In. unfold zlen in L; lia.
    + cbn in E. injection E as E1 E2. subst p. destruct (IH pre part b post E2 N) as [[post' ->]|H]; [left; now exists post'|now right].
Qed.
Lemma short_parts L lines : Forall (fun l => zlen l <= L) lines -> 0 <= L ->
  forall pre part post, join_with [10] lines = pre ++ part ++ post -> ~ In 10 part -> zlen part <= L.
Proof.
  intros HF HL. induction HF as [|l lines Hl HF IH]; intros pre part post E N.
  - cbn in E. symmetry in E. apply app_eq_nil in E as [_ E]. apply app_eq_nil in E as [-> _]. exact HL.
  - cbn [join_with] in E. destruct lines as [|l2 lines].
    + rewrite E in Hl. rewrite !zlen_app in Hl. pose proof (zlen_nonneg pre). pose proof (zlen_nonneg post). lia.
    + symmetry in E. cbn [app] in E. apply part_of_join in E as [[post' E]|[pre' E]]; [| |exact N].
      * rewrite E in Hl. rewrite !zlen_app in Hl. pose proof (zlen_nonneg pre). pose proof (zlen_nonneg post'). lia.
      * exact (IH pre' part post E N).
Qed.
Section T.
Variable str_float : f64 -> text.
Lemma wrap_width s L b out : textwrap_wrap s L b = Ret out -> 1 <= L /\ Forall (fun l => zlen l <= L) out.
Proof.
  intros E. assert (HL : 1 <= L) by (unfold textwrap_wrap in E; destruct (Z.leb_spec L 0); [discriminate|lia]).
  split; [exact HL|]. destruct (wrap_lines s L b HL) as (out' & E' & H). rewrite E in E'. inv E'. exact H.
Qed.
Theorem window_lines name window n L gen : window_function str_float name window n L = Ret gen ->
  forall pre part post, gen = pre ++ part ++ post -> ~ In 10 part -> zlen part <= L.
Proof.
  intros E. unfold window_function in E. apply bind_Ret in E as (a & _ & E). apply bind_Ret in E as (c & _ & E).
  apply bind_Ret in E as (w & Ew & E). injection E as <-. apply wrap_width in Ew as [HL HF]. apply short_parts; [exact HF|lia].
Qed.
Theorem mel_lines name sparse freqs fft sr fmin fmax L gen : mel_filterbank str_float name sparse freqs fft sr fmin fmax L = Ret gen ->
  forall pre part post, gen = pre ++ part ++ post -> ~ In 10 part -> zlen part <= L.
Proof.
  intros E. unfold mel_filterbank in E. apply bind_Ret in E as (a & _ & E).
  apply bind_Ret in E as (w & Ew & E). injection E as <-. apply wrap_width in Ew as [HL HF]. apply short_parts; [exact HF|lia].
Qed.
Lemma wrap_zero s L b : L <= 0 -> textwrap_wrap s L b = Err ValueError_.
Proof. intros H. unfold textwrap_wrap. destruct (Z.leb_spec L 0); [reflexivity|lia]. Qed.

Theorem window_zero name (window : list f64) L : Forall (fun v => is_finite v = true) window -> identifier name -> L <= 0 ->
  window_function str_float name window (zlen window) L = Err ValueError_.
Proof.
  intros HF Hn HL. unfold window_function. destruct (floats_ok str_float name window Hn HF) as (a & Ea & _). rewrite Ea. cbn [bind].
  destruct (declare_int_ok str_float (name ++ txt "_length") (PyInt (zlen window)) (zlen window) (id_suffix _ "_length"%string Hn eq_refl) eq_refl)
    as (c & Ec & _). rewrite Ec. cbn [bind]. rewrite wrap_zero by exact HL. reflexivity.
Qed.
End T.

(** Files. *)
Lemma window_file_tokens gen : tokens (skip_comment (window_file gen)) = tokens gen.
Proof. reflexivity. Qed.
Lemma mel_file_tokens gen : tokens (skip_comment (mel_file gen)) = tokens gen.
Proof.
  change (tokens ([10] ++ gen ++ [10; 10]) = tokens gen). rewrite (tokens_white [10]) by (constructor; [right; lia|constructor]).
  rewrite tokens_app_cut by reflexivity. apply app_nil_r.
Qed.
(** Default names. *)
Lemma int_word z : 0 <= z -> Forall (fun d => letter d \/ digit d) (fmt_int z).
Proof.
  intros H. unfold fmt_int. destruct (Z.ltb_spec z 0); [lia|]. destruct (dec_digits_ok z H) as (_ & D & _).
  eapply Forall_impl; [|exact D]. intros d Hd. right. exact Hd.
Qed.
Theorem window_name_ok type n : identifier type -> 0 <= n -> identifier (window_name [] type n).
Proof.
  intros H Hn. unfold window_name. cbn [join_with]. apply identifier_app; [exact H|].
  apply Forall_app. split; [apply (suffix_ok "_"%string); reflexivity|]. apply Forall_app. split; [now apply int_word|].
  apply (suffix_ok "_lut"%string). reflexivity.
Qed.
Theorem mel_name_ok fft bands : 0 <= fft -> 0 <= bands -> identifier (mel_name [] fft bands).
Proof.
  intros H Hn. unfold mel_name. cbn [join_with]. apply identifier_app.
  - exists 109, [101; 108]. split; [reflexivity|]. split; [right; lia|]. apply (suffix_ok "el"%string). reflexivity.
  - apply Forall_app. split; [apply (suffix_ok "_"%string); reflexivity|]. apply Forall_app. split; [now apply int_word|].
    apply Forall_app. split; [apply (suffix_ok "_"%string); reflexivity|now apply int_word].
Qed.
Lemma array_name {A} (rd : list (list Z) -> A -> Prop) type name vs ts us : array_of rd type name vs ts -> nth 3 (ts ++ us) [] = name.
Proof. intros (size & items & _ & _ & ->). reflexivity. Qed.
Lemma declares_first d ds ts : declarations (d :: ds) ts -> exists a b, ts = a ++ b /\ d a.
Proof. intros H. inversion H; subst. eauto. Qed.
