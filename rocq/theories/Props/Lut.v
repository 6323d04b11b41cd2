(** Generated lookup tables: C100 (filterbank declarations), C101 (window files), C102 (mel filterbank files), C103 (line
    width), C104 (filterbank with the generated tables), C105 (options of eml-mel-filterbank). *)
From Coq Require Import String ZArith List Bool Lia Reals Lra.
From Flocq Require Import Core BinarySingleNaN.
From Verif.Base Require Import Res CInt ListX Loops Float Arith Kernels RealSum.
From Verif.Model Require Import Text TreesC FixedPoint Cgen Audio Lut.
From Verif.Spec Require Import RealSpec FftSpec AudioSpec CgenSpec LutSpec.
From Verif.Proof Require Import FixedPoint Text Cgen LutWrap Lut LutFit LutBank.
Import ListNotations.
Open Scope Z_scope.
Open Scope res_scope.
Open Scope list_scope.

Section G.
Variable str_float : f64 -> text.

(** ** C100 *)
(** The generated text, read by C: <name>_bands, <name>_starts, <name>_ends, <name>_length exactly and <name>_lut within half a
    millionth of each coefficient; then the constants that were given. *)
Theorem C100_filterbank name starts ends (coeffs : list f64) :
  identifier name -> zlen starts = zlen ends -> Forall (fun v => is_finite v = true) coeffs ->
  exists gen, sparse_filterbank_serialize str_float (starts, ends, coeffs) name None None None None None = Ret gen /\
    declarations [int_of (name ++ txt "_bands") (zlen starts); array_of reads_int "int" (name ++ txt "_starts") starts;
      array_of reads_int "int" (name ++ txt "_ends") ends; int_of (name ++ txt "_length") (zlen coeffs);
      array_of near6 "float" (name ++ txt "_lut") (map B2R coeffs)] (tokens gen).
Proof.
  intros Hn HE HF. apply (serialize_ok str_float name starts ends coeffs None None None None None Hn HE HF); try exact I. discriminate.
Qed.
Theorem C100_all_options name starts ends (coeffs fs : list f64) nfft sr fmin fmax :
  identifier name -> zlen starts = zlen ends -> Forall (fun v => is_finite v = true) coeffs -> Forall (fun v => is_finite v = true) fs ->
  exists gen, sparse_filterbank_serialize str_float (starts, ends, coeffs) name (Some fs) (Some (PyInt nfft)) (Some (PyInt sr)) (Some (PyInt fmin)) (Some (PyInt fmax)) = Ret gen /\
    declarations [int_of (name ++ txt "_bands") (zlen starts); array_of reads_int "int" (name ++ txt "_starts") starts;
      array_of reads_int "int" (name ++ txt "_ends") ends; int_of (name ++ txt "_length") (zlen coeffs);
      array_of near6 "float" (name ++ txt "_lut") (map B2R coeffs); array_of near6 "float" (name ++ txt "_frequencies") (map B2R fs);
      int_of (name ++ txt "_nfft") nfft; int_of (name ++ txt "_samplerate") sr; int_of (name ++ txt "_fmax") fmax; int_of (name ++ txt "_fmin") fmin] (tokens gen).
Proof.
  intros Hn HE HF HG.
  apply (serialize_ok str_float name starts ends coeffs (Some fs) (Some (PyInt nfft)) (Some (PyInt sr)) (Some (PyInt fmin)) (Some (PyInt fmax)) Hn HE HF); try exact I.
  intros l [= <-]. exact HG.
Qed.
(** As many ends as starts, or AssertionError. *)
Theorem C100_lengths name starts ends coeffs fs nfft sr fmin fmax : zlen starts <> zlen ends ->
  sparse_filterbank_serialize str_float (starts, ends, coeffs) name fs nfft sr fmin fmax = Err AssertionError_.
Proof. apply serialize_lengths. Qed.

(** ** C101 *)
(** With room for the name and 24 more characters in a line, for a window of less than 10^10 values under 10^12: the file
    declares the array of the window's values and its length, whatever scipy's window function returned. *)
Theorem C101_window_partial name (window : list f64) linewrap :
  identifier name -> zlen window < 10 ^ 10 -> Forall (fun v => is_finite v = true /\ (Rabs (B2R v) < 1000000000000)%R) window ->
  zlen name + 24 <= linewrap ->
  exists gen, window_function str_float name window (zlen window) linewrap = Ret gen /\
    declarations [array_of near6 "float" name (map B2R window); int_of (name ++ txt "_length") (zlen window)]
      (tokens (skip_comment (window_file gen))).
Proof. exact (window_ok str_float name window linewrap). Qed.
(** With the default width 70: names of up to 46 characters; the name made when none is given. *)
Theorem C101_default_name type (window : list f64) :
  identifier type -> zlen type <= 20 -> zlen window < 10 ^ 10 -> Forall (fun v => is_finite v = true /\ (Rabs (B2R v) < 1000000000000)%R) window ->
  exists gen, window_function str_float (window_name [] type (zlen window)) window (zlen window) 70 = Ret gen /\
    declarations [array_of near6 "float" (type ++ txt "_" ++ fmt_int (zlen window) ++ txt "_lut") (map B2R window);
                  int_of (type ++ txt "_" ++ fmt_int (zlen window) ++ txt "_lut_length") (zlen window)]
      (tokens (skip_comment (window_file gen))).
Proof.
  intros Ht HL HW HF.
  assert (E : window_name [] type (zlen window) = type ++ txt "_" ++ fmt_int (zlen window) ++ txt "_lut") by reflexivity.
  destruct (window_ok str_float (window_name [] type (zlen window)) window 70) as (gen & Eg & D); auto.
  - apply window_name_ok; [exact Ht|apply zlen_nonneg].
  - rewrite E, !zlen_app. pose proof (fmt_int_len_nn (zlen window) 10 ltac:(lia) (conj (zlen_nonneg window) HW)).
    change (zlen (txt "_")) with 1. change (zlen (txt "_lut")) with 4. lia.
  - exists gen. split; [exact Eg|]. rewrite E in D. rewrite <- !app_assoc in D. exact D.
Qed.
(** A number of values different from the length is an AssertionError. *)
Theorem C101_length name (window : list f64) n linewrap : zlen window <> n -> window_function str_float name window n linewrap = Err AssertionError_.
Proof. exact (window_length str_float name window n linewrap). Qed.
End G.
(** The property is false: with the default width a valid name of 71 letters is broken over two lines, so the array has
    another name. *)
Theorem C101_long_name_refuted str_float : exists name gen, identifier name /\ zlen name = 71 /\
  window_function str_float name [f_of_Z 1] 1 70 = Ret gen /\
  ~ exists rest, declarations (array_of near6 "float" name [1%R] :: rest) (tokens (skip_comment (window_file gen))).
Proof.
  set (name := repeat 97 71).
  assert (I : identifier name).
  { exists 97, (repeat 97 70). split; [reflexivity|]. split; [right; lia|]. apply Forall_forall. intros d Hd. apply repeat_spec in Hd. subst d. left. right. lia. }
  assert (X : (let* g := window_function str_float name [f_of_Z 1] 1 70 in Ret (nth 3 (tokens g) [])) = Ret (repeat 97 51)) by (vm_compute; reflexivity).
  apply bind_Ret in X as (gen & Eg & X). exists name, gen.
  split; [exact I|]. split; [reflexivity|]. split; [exact Eg|].
  intros (rest & D). rewrite window_file_tokens in D. apply declares_first in D as (a & b & E & A).
  pose proof (array_name _ _ _ _ a b A) as Q. rewrite <- E in Q. injection X as X. rewrite X in Q. discriminate Q.
Qed.

Section M.
Variable str_float : f64 -> text.
(** ** C102 *)
(** With room for the name and 24 more characters: the file declares the filterbank, the frequencies and the parameters.
    _fmax is the given frequency, or half the samplerate if that is whole. *)
Theorem C102_mel_partial name starts ends (coeffs freqs : list f64) fft samplerate fmin fmax linewrap :
  identifier name -> zlen starts = zlen ends -> zlen starts < 10 ^ 10 -> zlen coeffs < 10 ^ 10 -> zlen freqs < 10 ^ 10 ->
  Forall (fun v => is_finite v = true /\ (Rabs (B2R v) < 1000000000000)%R) coeffs ->
  Forall (fun v => is_finite v = true /\ (Rabs (B2R v) < 1000000000000)%R) freqs ->
  Forall (fun v => Z.abs v < 10 ^ 12) starts -> Forall (fun v => Z.abs v < 10 ^ 12) ends ->
  Z.abs fft < 10 ^ 12 -> 0 <= samplerate < 10 ^ 12 -> Z.abs fmin < 10 ^ 12 ->
  (forall m, fmax = Some m -> Z.abs m < 10 ^ 12) -> (fmax = None -> Z.even samplerate = true) ->
  zlen name + 24 <= linewrap ->
  exists gen upper, mel_filterbank str_float name (starts, ends, coeffs) freqs fft samplerate fmin fmax linewrap = Ret gen /\
    IZR upper = match fmax with Some m => IZR m | None => (IZR samplerate / 2)%R end /\
    declarations [int_of (name ++ txt "_bands") (zlen starts); array_of reads_int "int" (name ++ txt "_starts") starts;
       array_of reads_int "int" (name ++ txt "_ends") ends; int_of (name ++ txt "_length") (zlen coeffs);
       array_of near6 "float" (name ++ txt "_lut") (map B2R coeffs); array_of near6 "float" (name ++ txt "_frequencies") (map B2R freqs);
       int_of (name ++ txt "_nfft") fft; int_of (name ++ txt "_samplerate") samplerate;
       int_of (name ++ txt "_fmax") upper; int_of (name ++ txt "_fmin") fmin] (tokens (skip_comment (mel_file gen))).
Proof.
  intros Hn HE H1 H2 H3 FC FF FS FE B1 B2 B3 B4 HV HL.
  destruct (mel_ok str_float name starts ends coeffs freqs fft samplerate fmin fmax linewrap) as (gen & Eg & D); auto.
  exists gen, (match fmax with Some m => m | None => samplerate / 2 end). split; [exact Eg|]. split; [|rewrite mel_file_tokens; exact D].
  destruct fmax as [m|]; [reflexivity|]. specialize (HV eq_refl). apply Zeven_bool_iff in HV. apply Zeven_div2 in HV.
  rewrite Z.div2_div in HV. rewrite HV at 2. rewrite mult_IZR. lra.
Qed.
(** The property is false for odd samplerates: the declared upper frequency is rounded down. *)
Theorem C102_odd_samplerate_refuted name starts ends (coeffs freqs : list f64) fft samplerate fmin linewrap :
  identifier name -> zlen starts = zlen ends -> zlen starts < 10 ^ 10 -> zlen coeffs < 10 ^ 10 -> zlen freqs < 10 ^ 10 ->
  Forall (fun v => is_finite v = true /\ (Rabs (B2R v) < 1000000000000)%R) coeffs ->
  Forall (fun v => is_finite v = true /\ (Rabs (B2R v) < 1000000000000)%R) freqs ->
  Forall (fun v => Z.abs v < 10 ^ 12) starts -> Forall (fun v => Z.abs v < 10 ^ 12) ends ->
  Z.abs fft < 10 ^ 12 -> 0 <= samplerate < 10 ^ 12 -> Z.abs fmin < 10 ^ 12 -> Z.odd samplerate = true -> zlen name + 24 <= linewrap ->
  exists gen before after upper, mel_filterbank str_float name (starts, ends, coeffs) freqs fft samplerate fmin None linewrap = Ret gen /\
    declarations (before ++ int_of (name ++ txt "_fmax") upper :: after) (tokens (skip_comment (mel_file gen))) /\
    IZR upper = (IZR samplerate / 2 - 1 / 2)%R.
Proof.
  intros Hn HE H1 H2 H3 FC FF FS FE B1 B2 B3 HV HL.
  destruct (mel_ok str_float name starts ends coeffs freqs fft samplerate fmin None linewrap) as (gen & Eg & D); auto; [discriminate|].
  match type of D with declarations [?a; ?b; ?c; ?d; ?e; ?f; ?g; ?h; _; ?i] _ => exists gen, [a; b; c; d; e; f; g; h], [i], (samplerate / 2) end.
  split; [exact Eg|]. split; [rewrite mel_file_tokens; exact D|]. apply Zodd_bool_iff in HV. apply Zodd_div2 in HV.
  rewrite Z.div2_div in HV. rewrite HV at 2. rewrite plus_IZR, mult_IZR. lra.
Qed.
(** The name made when none is given. *)
Theorem C102_default_name fft bands : 0 <= fft -> 0 <= bands ->
  mel_name [] fft bands = txt "mel_" ++ fmt_int fft ++ txt "_" ++ fmt_int bands /\ identifier (mel_name [] fft bands).
Proof. intros H1 H2. split; [reflexivity|now apply mel_name_ok]. Qed.

(** ** C103 *)
(** No line is longer than --linewrap, whatever the name and the values. *)
Theorem C103_window_lines name window n linewrap gen : window_function str_float name window n linewrap = Ret gen ->
  forall before line after, gen = before ++ line ++ after -> ~ In 10 line -> zlen line <= linewrap.
Proof. exact (window_lines str_float name window n linewrap gen). Qed.
Theorem C103_mel_lines name sparse freqs fft sr fmin fmax linewrap gen :
  mel_filterbank str_float name sparse freqs fft sr fmin fmax linewrap = Ret gen ->
  forall before line after, gen = before ++ line ++ after -> ~ In 10 line -> zlen line <= linewrap.
Proof. exact (mel_lines str_float name sparse freqs fft sr fmin fmax linewrap gen). Qed.
(** A width below 1 is a ValueError, any other is accepted. *)
Theorem C103_width name (window : list f64) linewrap : identifier name -> Forall (fun v => is_finite v = true) window ->
  (linewrap <= 0 -> window_function str_float name window (zlen window) linewrap = Err ValueError_) /\
  (1 <= linewrap -> exists gen, window_function str_float name window (zlen window) linewrap = Ret gen).
Proof.
  intros Hn HF. split; [now apply window_zero|]. intros HL. unfold window_function.
  destruct (floats_ok str_float name window Hn HF) as (a & Ea & _). rewrite Ea. cbn [bind].
  destruct (declare_int_ok str_float (name ++ txt "_length") (PyInt (zlen window)) (zlen window) (id_suffix _ "_length"%string Hn eq_refl) eq_refl)
    as (c & Ec & _). rewrite Ec. cbn [bind]. destruct (wrap_lines (join_with [10] [a; c]) linewrap true HL) as (out & Eo & _). rewrite Eo. cbn [bind]. eauto.
Qed.
(** Wrapping keeps the words of a text, in order, exactly when every word fits in a line. *)
Theorem C103_words s linewrap replace_whitespace lines ws : textwrap_wrap s linewrap replace_whitespace = Ret lines -> words s ws ->
  (words (join_with [10] lines) ws <-> Forall (fun w => zlen w <= linewrap) ws).
Proof.
  intros E W. apply words_iff in W. subst ws. rewrite words_iff. pose proof (wrap_words_iff s linewrap replace_whitespace lines E) as Q.
  split; intros H; [apply Q; now symmetry|symmetry; now apply Q].
Qed.
End M.

(** ** C104 *)
(** Exact arithmetic: with coefficients within half a millionth of the filterbank's (C100), eml_sparse_filterbank gives the
    dense product within half a millionth of the sum of the absolute inputs. *)
Theorem C104_printed_filterbank mels x starts ends coeffs printed :
  Forall band mels -> Forall (fun row => zlen row <= zlen x) mels -> zlen (List.concat mels) < 2 ^ 31 ->
  sparse_filterbank real_arith (map (map Fin) mels) = Ret (starts, ends, map Fin coeffs) ->
  Forall2 (fun p c => (Rabs (p - c) <= 1 / 2000000)%R) printed coeffs ->
  exists out, sparse_filterbank_py real_arith (map Fin x) starts ends (map Fin printed) = Ret (map Fin out) /\
    Forall2 (fun o d => (Rabs (o - d) <= 1 / 2000000 * sumr (zlen x) (fun j => Rabs (entry x j)))%R) out (dense mels x).
Proof. apply printed_bank. lra. Qed.
Example C104_example : exists coeffs, sparse_filterbank real_arith (map (map Fin) [[0; 1; 2; 0]; [0; 0; 3; 1]]%R) = Ret ([1; 2], [2; 3], map Fin coeffs) /\
  Forall2 (fun p c => (Rabs (p - c) <= 1 / 2000000)%R) [1000001 / 1000000 - 1 / 2000000; 2; 3; 1]%R coeffs.
Proof.
  exists [1; 2; 3; 1]%R. split.
  - etransitivity; [apply (Filterbank.build_ok [(1%nat, [1; 2]%R, 1%nat); (2%nat, [3; 1]%R, 0%nat)])|].
    + constructor; [|constructor; [|constructor]]; unfold Filterbank.mid, Filterbank.core; cbn [fst snd].
      * exists 1%R, [], 2%R. split; [now right|lra].
      * exists 3%R, [], 1%R. split; [now right|lra].
    + cbn [map Filterbank.mid fst snd]. rewrite !Filterbank.nz_all by (repeat constructor; lra). reflexivity.
  - repeat constructor; unfold Rabs; destruct (Rcase_abs _); lra.
Qed.

(** ** C105 *)
(** Without the options the filters are normalised and not HTK style. *)
Theorem C105_defaults : normalize_option None = true /\ htk_option None = false.
Proof. split; reflexivity. Qed.
(** Turning off with an empty argument works; the word False (or 0, or no) turns the option on. *)
Theorem C105_options_partial s : (normalize_option (Some s) = true <-> s <> []) /\ (htk_option (Some s) = true <-> s <> []).
Proof.
  split; unfold normalize_option, htk_option, bool_option; destruct s; split; congruence.
Qed.
Theorem C105_false_refuted : normalize_option (Some (txt "False")) = true /\ htk_option (Some (txt "False")) = true /\
  normalize_option (Some (txt "0")) = true.
Proof. repeat split; reflexivity. Qed.

(** ** Examples *)
Example C100_example : exists gen, sparse_filterbank_serialize (fun _ => []) ([1; 2], [2; 3], [f_of_Z 1; f_of_Z (-2); f_of_Z 3; f_of_Z 1]) (txt "fb") None None None None None = Ret gen /\
  gen = txt "static const int fb_bands = 2; " ++ [10; 10] ++ txt "static const int fb_starts[2] = { 1, 2 };" ++ [10; 10] ++
        txt "static const int fb_ends[2] = { 2, 3 };" ++ [10; 10] ++ txt "static const int fb_length = 4; " ++ [10; 10] ++
        txt "static const float fb_lut[4] = { 1.000000f, -2.000000f, 3.000000f, 1.000000f };".
Proof. eexists. split; [vm_compute; reflexivity|reflexivity]. Qed.
(** A table of 12 values wrapped at 40 characters. *)
Example C101_example : window_function (fun _ => []) (txt "win") [f_of_Z 1; f_of_Z 0; f_of_Z (-3)] 3 40 =
  Ret (txt "static const float win[3] = { 1.000000f," ++ [10] ++ txt "0.000000f, -3.000000f }; static const" ++ [10] ++ txt "int win_length = 3;").
Proof. vm_compute. reflexivity. Qed.
Example C101_hyps : identifier (txt "win") /\ zlen (txt "win") + 24 <= 70 /\ Forall (fun v : f64 => is_finite v = true /\ (Rabs (B2R v) < 1000000000000)%R) [f_of_Z 1; f_of_Z (-3)].
Proof.
  split; [|split; [vm_compute; discriminate|]].
  - exists 119, [105; 110]. split; [reflexivity|]. split; [right; lia|]. apply (suffix_ok "in"%string). reflexivity.
  - destruct (@f_of_Z_exact 53 1024 _ _ 1) as [A B]; [vm_compute; discriminate|].
    destruct (@f_of_Z_exact 53 1024 _ _ (-3)) as [A2 B2]; [vm_compute; discriminate|].
    constructor; [split; [exact B|rewrite A; rewrite Rabs_pos_eq; lra]|]. constructor; [|constructor]. split; [exact B2|].
    rewrite A2. unfold Rabs. destruct (Rcase_abs (-3)); lra.
Qed.
