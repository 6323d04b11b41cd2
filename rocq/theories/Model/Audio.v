(** Model of eml_audio.h, of the signal functions of eml_vector.h, of signal.py and of
    bindings/eml_audio.cpp (rfft is in Fft.v).

    Over an arbitrary number system [A]. Simplified: the intermediate results of the mel
    functions that C computes in double are computed in [A]. Vectors point into buffers as in Vector.v; buffers do not overlap. *)
From Coq Require Import ZArith List Bool.
From Verif.Base Require Import Res CInt Arith.
From Verif.Model Require Import Common Vector Fft.
Import ListNotations.
Open Scope Z_scope.
Open Scope res_scope.

(** What is needed besides the arithmetic: log10, x -> powf(10, x), x -> powf(x, 2), and the
    conversion (int)floor(x). *)
Record mathf (A : arith) : Type := mk_mathf {
  mf_log10 : num A -> num A; mf_pow10 : num A -> num A; mf_square : num A -> num A; mf_floor : num A -> res Z }.
Arguments mf_log10 {A}. Arguments mf_pow10 {A}. Arguments mf_square {A}. Arguments mf_floor {A}.

Section Audio.
Context (A : arith) (T : trig A) (M : mathf A).
Notation num := (num A).
Notation of_Z := (t_of_Z T).

(** eml_common.h:135-142 *)
Definition eml_max (a b : num) : num := if nltb A b a then a else b.
Definition eml_min (a b : num) : num := if nltb A a b then a else b.

(** eml_vector.h:52-61  eml_signal_mean *)
Definition eml_signal_mean (data : list num) (length : Z) : res num :=
  let* sum := foldM (fun sum i => let* x := zget data i in Ret (nadd A sum x)) (nzero A) (zrange length) in
  Ret (ndiv A sum (of_Z length)).

(** eml_vector.h:64-72  eml_signal_hann_apply *)
Definition eml_signal_hann_apply (data : list num) (length : Z) : res (eml_error * list num) :=
  let* data := foldM (fun data i =>
      let m := t_D_down T (nmul (t_D T) (nhalf (t_D T)) (nsub (t_D T) (none_ (t_D T)) (t_D_cos T (turn A T i (length - 1))))) in
      let* x := zget data i in
      zset data i (nmul A m x)) data (zrange length) in
  Ret (EmlOk, data).

(** eml_audio.h:21-34  eml_audio_power_spectrogram; [rb] and [ob] are the buffers rfft and out point
    into. C's 1+n_fft/2 truncates; n_fft is not negative here. *)
Definition eml_audio_power_spectrogram (rb : list num) (rfft : vec) (ob : list num) (out : vec) (n_fft : Z)
  : res (eml_error * list num) :=
  let spec_length := 1 + Z.quot n_fft 2 in
  if negb (spec_length <? v_length rfft) then Ret (EmlSizeMismatch, ob)
  else if negb (v_length out =? spec_length) then Ret (EmlSizeMismatch, ob)
  else
    let scale := ndiv A (none_ A) (of_Z n_fft) in
    let* ob := foldM (fun ob i =>
        let* x := zget rb (v_start rfft + i) in
        let a := nabs A x in
        zset ob (v_start out + i) (nmul A scale (mf_square M a))) ob (zrange spec_length) in
    Ret (EmlOk, ob).

(** eml_audio.h:38-45 *)
Definition eml_audio_mels_from_hz (hz : num) : num :=
  nmul A (of_Z 2595) (mf_log10 M (nadd A (none_ A) (ndiv A hz (of_Z 700)))).
Definition eml_audio_mels_to_hz (mels : num) : num :=
  nmul A (of_Z 700) (nsub A (mf_pow10 M (ndiv A mels (of_Z 2595))) (none_ A)).

(** eml_audio.h:48-54  EmlAudioMel *)
Record mel : Type := mk_mel { n_mels : Z; fmin : num; fmax : num; n_fft : Z; samplerate : Z }.

(** eml_audio.h:57-67  eml_audio_mel_center *)
Definition eml_audio_mel_center (params : mel) (n : Z) : res num :=
  let melmin := eml_audio_mels_from_hz (fmin params) in
  let melmax := eml_audio_mels_from_hz (fmax params) in
  let* n1 := chk_int32 (n_mels params + 1) in
  let melstep := ndiv A (nsub A melmax melmin) (of_Z n1) in
  let m := nadd A melmin (nmul A (of_Z n) melstep) in
  Ret (eml_audio_mels_to_hz m).

(** eml_audio.h:68-77  eml_audio_mel_bin, mel_bin *)
Definition eml_audio_mel_bin (params : mel) (hz : num) : res Z :=
  let* n1 := chk_int32 (n_fft params + 1) in
  mf_floor M (nmul A (of_Z n1) (ndiv A hz (of_Z (samplerate params)))).
Definition mel_bin (params : mel) (n : Z) : res Z :=
  let* hz := eml_audio_mel_center params n in
  eml_audio_mel_bin params hz.

(** eml_audio.h:79-84  eml_fft_freq *)
Definition eml_fft_freq (params : mel) (n : Z) : num :=
  let end_ := ndiv A (of_Z (samplerate params)) (of_Z 2) in
  let steps := (1 + Z.quot (n_fft params) 2) - 1 in
  ndiv A (nmul A (of_Z n) end_) (of_Z steps).

(** eml_audio.h:97-132  the body of the loop over the filters: the value of filter m, or an error code. *)
Definition mel_value (params : mel) (sb : list num) (spec : vec) (max_bin m : Z) : res (eml_error * num) :=
  let* lft := mel_bin params (m - 1) in
  let* center := mel_bin params m in
  let* rgt := mel_bin params (m + 1) in
  if lft <? 0 then Ret (EmlUnknownError, nzero A)
  else if max_bin <? rgt then Ret (EmlUnknownError, nzero A)
  else
    let* c0 := eml_audio_mel_center params (m - 1) in
    let* c1 := eml_audio_mel_center params m in
    let* c2 := eml_audio_mel_center params (m + 1) in
    let fdifflow := nsub A c1 c0 in
    let fdiffupper := nsub A c2 c1 in
    (* for (k=left; k<=center; k++) *)
    let* val := foldM (fun val d =>
        let k := lft + d in
        let r := nsub A c0 (eml_fft_freq params k) in
        let weight := eml_max (eml_min (ndiv A (nneg A r) fdifflow) (none_ A)) (nzero A) in
        let* x := zget sb (v_start spec + k) in
        Ret (nadd A val (nmul A x weight))) (nzero A) (zrange (center - lft + 1)) in
    (* for (k=center; k<right; k++) *)
    let* val := foldM (fun val d =>
        let k := center + d in
        let r := nsub A c2 (eml_fft_freq params (k + 1)) in
        let weight := eml_max (eml_min (ndiv A r fdiffupper) (none_ A)) (nzero A) in
        let* x := zget sb (v_start spec + (k + 1)) in
        Ret (nadd A val (nmul A x weight))) val (zrange (rgt - center)) in
    Ret (EmlOk, val).

(** eml_audio.h:89-136  eml_audio_melspec. The loop stops at the first filter with an error; [m - 1] is
    the position in the list. *)
Definition eml_audio_melspec (params : mel) (sb : list num) (spec : vec) (mb : list num) (mels : vec)
  : res (eml_error * list num) :=
  let* max_bin := chk_int32 (1 + Z.quot (n_fft params) 2) in
  if negb (max_bin <=? v_length spec) then Ret (EmlSizeMismatch, mb)
  else if negb (n_mels params =? v_length mels) then Ret (EmlSizeMismatch, mb)
  else
    foldM (fun '(e, mb) i =>
        match e with
        | EmlOk =>
          let m := i + 1 in
          let* (e, val) := mel_value params sb spec max_bin m in
          match e with
          | EmlOk => let* mb := zset mb (v_start mels + (m - 1)) val in Ret (EmlOk, mb)
          | _ => Ret (e, mb)
          end
        | _ => Ret (e, mb)
        end) (EmlOk, mb) (zrange (n_mels params)).

(** eml_audio.h:151-170  eml_audio_melspectrogram; inout and temp point to the beginning of their
    buffers. The result: error, buffers of inout and temp. *)
Definition eml_audio_melspectrogram (params : mel) (t : fft A) (inout : list num) (inout_length : Z) (temp : list num) (temp_length : Z)
  : res (eml_error * list num * list num) :=
  let* s_length := chk_int32 (1 + Z.quot (n_fft params) 2) in
  let* (e, inout) := eml_signal_hann_apply inout inout_length in
  match e with
  | EmlOk =>
    let* (e, temp) := eml_vector_set_value temp (mk_vec 0 temp_length) (nzero A) in
    match e with
    | EmlOk =>
      let* (e, inout, temp) := eml_fft_forward A t inout temp (to_uint64 inout_length) in
      match e with
      | EmlOk =>
        let* view := eml_vector_view (mk_vec 0 temp_length) 0 s_length in
        let* (e, temp) := eml_audio_power_spectrogram inout (mk_vec 0 inout_length) temp view (n_fft params) in
        match e with
        | EmlOk =>
          let* view := eml_vector_view (mk_vec 0 inout_length) 0 (n_mels params) in
          let* (e, inout) := eml_audio_melspec params temp (mk_vec 0 temp_length) inout view in
          Ret (e, inout, temp)
        | _ => Ret (e, inout, temp)
        end
      | _ => Ret (e, inout, temp)
      end
    | _ => Ret (e, inout, temp)
    end
  | _ => Ret (e, inout, temp)
  end.

(** bindings/eml_audio.cpp:57-86  melfilter(in, samplerate, n_fft, n_mels, fmin, fmax). The contents of
    the new array are not initialised; zeros here. *)
Definition melfilter_py (inp : list num) (samplerate n_fft n_mels : Z) (fmin fmax : num) : res (list num) :=
  let* l := chk_int32 (1 + Z.quot n_fft 2) in
  if negb (zlen inp =? l) then Err RuntimeError_
  else
    let params := mk_mel n_mels fmin fmax n_fft samplerate in
    let* (e, out) := eml_audio_melspec params inp (mk_vec 0 (zlen inp)) (repeat (nzero A) (Z.to_nat n_mels)) (mk_vec 0 n_mels) in
    match e with EmlOk => Ret out | _ => Err RuntimeError_ end.

(** bindings/eml_audio.cpp:89-140  melspectrogram(in, samplerate, n_fft, n_mels, fmin, fmax) *)
Definition melspectrogram_py (inp : list num) (samplerate n_fft n_mels : Z) (fmin fmax : num) : res (list num) :=
  if negb (zlen inp =? n_fft) then Err RuntimeError_
  else
    let n_fft_table := Z.quot n_fft 2 in
    let zeros := repeat (nzero A) (Z.to_nat n_fft_table) in
    let* (_, t) := eml_fft_fill A T (mk_fft A n_fft_table zeros zeros) n_fft in
    let params := mk_mel n_mels fmin fmax n_fft samplerate in
    let* length := chk_int32 (zlen inp) in
    let zeros := repeat (nzero A) (Z.to_nat length) in
    let* (_, inout) := eml_vector_set zeros (mk_vec 0 length) inp (mk_vec 0 length) 0 in
    let* (_, temp) := eml_vector_set_value zeros (mk_vec 0 length) (nzero A) in
    let* (e, inout, _) := eml_audio_melspectrogram params t inout length temp length in
    match e with
    | EmlOk =>
      let* view := eml_vector_view (mk_vec 0 length) 0 n_mels in
      let ret := repeat (nzero A) (Z.to_nat n_mels) in
      let* (_, ret) := eml_vector_set ret (mk_vec 0 n_mels) inout view 0 in
      Ret ret
    | _ => Err RuntimeError_
    end.

(** eml_audio.h:184-211  eml_sparse_filterbank *)
Definition eml_sparse_filterbank (input output : list num) (output_length : Z) (starts stops : list Z) (lut : list num)
  : res (eml_error * list num) :=
  let* output := foldM (fun o i => zset o i (nzero A)) output (zrange output_length) in
  let* (output, _) := foldM (fun '(output, offset) i =>
      let* start := zget starts i in
      let* stop := zget stops i in
      foldM (fun '(output, offset) d =>
          let j := start + d in
          let* f := zget lut offset in
          let* o := zget output i in
          let* x := zget input j in
          let* output := zset output i (nadd A o (nmul A x f)) in
          let* offset := chk_int32 (offset + 1) in
          Ret (output, offset)) (output, offset) (zrange (stop - start + 1)))
    (output, 0) (zrange output_length) in
  Ret (EmlOk, output).

(** numpy.nonzero(row)[0]: positions of the numbers different from zero (nan is different). *)
Definition np_nonzero (row : list num) : list Z :=
  map fst (filter (fun p => negb (nleb A (snd p) (nzero A) && nleb A (nzero A) (snd p))) (combine (zrange (zlen row)) row)).

(** signal.py:12-24  sparse_filterbank *)
Definition sparse_filterbank (mels : list (list num)) : res (list Z * list Z * list num) :=
  foldM (fun '(starts, ends, coeffs) mel =>
      let nonzero := np_nonzero mel in
      let* first := pyget nonzero 0 in
      let* last := pyget nonzero (-1) in
      let* vals := mapM (fun i => pyget mel i) nonzero in
      Ret (starts ++ [first], ends ++ [last], coeffs ++ vals)) ([], [], []) mels.

(** signal.py:67-78  sparse_filterbank_reduce *)
Definition sparse_filterbank_reduce (sparse : list Z * list Z * list num) (input : list num) : res (list num) :=
  let '(starts, ends, coeffs) := sparse in
  do* py_assert (zlen starts =? zlen ends);
  let* (out, _) := foldM (fun '(out, offset) i =>
      let* s := pyget starts i in
      let* e := pyget ends i in
      foldM (fun '(out, offset) d =>
          let j := s + d in
          let* o := pyget out i in
          let* x := pyget input j in
          let* c := pyget coeffs offset in
          let* out := zset out i (nadd A o (nmul A x c)) in
          Ret (out, offset + 1)) (out, offset) (zrange (e + 1 - s)))
    (repeat (nzero A) (length starts), 0) (zrange (zlen starts)) in
  Ret out.

(** bindings/eml_audio.cpp:143-166  sparse_filterbank(in, starts, stops, coeffs) *)
Definition sparse_filterbank_py (inp : list num) (starts stops : list Z) (coeffs : list num) : res (list num) :=
  if negb (zlen starts =? zlen stops) then Err RuntimeError_
  else
    let output_length := zlen starts in
    let* (e, ret) := eml_sparse_filterbank inp (repeat (nzero A) (length starts)) output_length starts stops coeffs in
    match e with EmlOk => Ret ret | _ => Err RuntimeError_ end.
End Audio.
