(** Neural networks: properties C32-C37. *)
From Coq Require Import ZArith List Bool Lia String Reals Lra.
From Flocq Require Import Core BinarySingleNaN.
From Verif.Base Require Import Res CInt ListX Loops Float Arith Kernels.
From Verif.Model Require Import Common Net.
From Verif.Spec Require Import NetSpec RealSpec.
From Verif.Proof Require Import Net NetApi NetFun NetKeras.
Import ListNotations.
Open Scope Z_scope.
Open Scope res_scope.

(** ** C32: inference *)
(** For any arithmetic [A] (so also for rounded floats with any libm). *)
Theorem C32_infer A (m : net A) (x : list (num A)) : net_ok A m (zlen x) -> 2 <= n_layers A m ->
  exists m' rest, eml_net_infer A m x (zlen x) = Ret (EmlOk, m') /\ same_net A m m' /\
    activations2 A m' = net_fun A (n_layers_arr A m) x ++ rest.
Proof. apply infer_ok. Qed.
(** After any sequence of calls, right or wrong, every result is the one of a fresh network. *)
Theorem C32_no_history A (m : net A) (cs : list (net_call A)) (x : list (num A)) :
  net_ok A m (zlen x) -> 2 <= n_layers A m ->
  exists m1, do_calls A m cs = Ret m1 /\
    exists m2 rest, eml_net_infer A m1 x (zlen x) = Ret (EmlOk, m2) /\
      activations2 A m2 = net_fun A (n_layers_arr A m) x ++ rest.
Proof.
  intros OK H. destruct (calls_ok A m (zlen x) cs OK H) as (m1 & E1 & S1 & OK1 & H1). exists m1. split; [exact E1|].
  destruct (infer_ok A m1 x OK1 H1) as (m2 & rest & E2 & _ & R2). exists m2, rest. split; [exact E2|].
  destruct S1 as (_ & S1 & _). rewrite S1 in R2. exact R2.
Qed.
(** A row of another length is refused and changes nothing; so is a network of fewer than 2 layers. *)
Theorem C32_wrong_length A (m : net A) n (x : list (num A)) : net_ok A m n -> 2 <= n_layers A m -> zlen x <> n ->
  eml_net_infer A m x (zlen x) = Ret (EmlSizeMismatch, m).
Proof. apply infer_wrong_length. Qed.
Theorem C32_few_layers A (m : net A) (x : list (num A)) : n_layers A m < 2 ->
  eml_net_infer A m x (zlen x) = Ret (EmlUnsupported, m).
Proof. apply too_few_layers. Qed.
(** The structs the generator writes meet the hypotheses. *)
Theorem C32_generated A (ls : list (py_layer A)) m n : Forall (py_matrix A) ls -> Forall (py_sizes A) ls -> py_chain A n ls ->
  c_generate_net_loadable A ls = Ret m -> net_ok A m n /\ n_layers A m = zlen ls.
Proof. apply generated_ok. Qed.

(** A concrete network: 2 inputs, hidden layer of 2 with relu, one output. *)
Definition fz (z : Z) : f32 := f_of_Z z.
Definition sampleA (ef lf tf : f32 -> f32) := f32_arith ef lf tf.
Definition sample_layers ef lf tf : list (py_layer (sampleA ef lf tf)) := [
  mk_pylayer (sampleA ef lf tf) "relu" [[fz 1; fz (-1)]; [fz 2; fz 3]] 2 [fz 0; fz 1];
  mk_pylayer (sampleA ef lf tf) "identity" [[fz 1]; [fz (-1)]] 1 [fz 3] ].
Lemma sample_hyps ef lf tf : Forall (py_matrix _) (sample_layers ef lf tf) /\ Forall (py_sizes _) (sample_layers ef lf tf) /\
  py_chain _ 2 (sample_layers ef lf tf).
Proof.
  split; [|split].
  - repeat constructor; simpl; try lia.
  - apply Forall_cons; [|apply Forall_cons; [|constructor]]; (split; [|split]); vm_compute; congruence.
  - simpl. auto.
Qed.
Definition is_val (x : f32) (z : Z) : bool := fleb x (fz z) && fleb (fz z) x.
(** 1*1+2*2 = 5, -1*1+3*2+1 = 6, 5-6+3 = 2; and (-1,-1): 0 and 0 after relu, so 3. *)
Example C32_instance ef lf tf :
  (let* m := c_generate_net_loadable _ (sample_layers ef lf tf) in
   let* m := do_calls (sampleA ef lf tf) m [CallPredict (sampleA ef lf tf) [fz 9; fz 9]; CallInfer (sampleA ef lf tf) [fz 1]; CallRegress (sampleA ef lf tf) [fz 7; fz 7] [fz 0]] in
   let* (e1, m1) := eml_net_infer (sampleA ef lf tf) m [fz 1; fz 2] 2 in
   let* (e2, m2) := eml_net_infer (sampleA ef lf tf) m [fz (-1); fz (-1)] 2 in
   let* y1 := zget (activations2 _ m1) 0 in
   let* y2 := zget (activations2 _ m2) 0 in
   Ret (e1, is_val y1 2, e2, is_val y2 3)) = Ret (EmlOk, true, EmlOk, true).
Proof. vm_compute. reflexivity. Qed.

(** ** C33: predict_proba, predict, regress *)
(** Full statement: for a network with outputs y, predict_proba gives y (for one output p: [1-p; p]).
    It fails for two outputs, where the code reports [1 - y0; y0]: the probabilities are swapped. *)
Definition swap_layers ef lf tf : list (py_layer (sampleA ef lf tf)) := [
  mk_pylayer (sampleA ef lf tf) "identity" [[fz 1; fz 0]; [fz 0; fz 1]] 2 [fz 0; fz 0];
  mk_pylayer (sampleA ef lf tf) "identity" [[fz 1; fz 0]; [fz 0; fz 1]] 2 [fz 0; fz 0] ].
(** Outputs (0.25, 0.75): predict says class 1, predict_proba says class 0 is the likelier. *)
Theorem C33_two_outputs_refuted ef lf tf :
  (let x := [f_of_ZE 1 (-2) : f32; f_of_ZE 3 (-2)] in
   let* m := c_generate_net_loadable _ (swap_layers ef lf tf) in
   let* (c, m) := eml_net_predict (sampleA ef lf tf) m x 2 in
   let* (e, m, out) := eml_net_predict_proba (sampleA ef lf tf) m x 2 [fz 0; fz 0] 2 in
   let* p0 := zget out 0 in
   let* p1 := zget out 1 in
   Ret (c, e, fltb p1 p0)) = Ret (1, EmlOk, true).
Proof. vm_compute. reflexivity. Qed.
(** In general, with two outputs that sum to one, the two probabilities are exchanged. *)
Theorem C33_two_outputs_swapped (m : net real_arith) x out p : net_ok real_arith m (zlen x) -> 2 <= n_layers _ m ->
  net_fun _ (n_layers_arr _ m) x = [Fin p; Fin (1 - p)] -> zlen out = 2 ->
  exists m', eml_net_predict_proba _ m x (zlen x) out 2 = Ret (EmlOk, m', [Fin (1 - p); Fin p]).
Proof.
  intros OK H Y HO. destruct (proba_ok real_arith m x out OK H) as (m' & _ & E). { rewrite Y. exact HO. }
  rewrite Y in E. rewrite HO in E. exists m'. rewrite E. simpl. unfold proba_status. simpl.
  destruct (Rlt_dec (Rabs (1 - p + p - 1)) (1 / 1000)) as [|N]; [reflexivity|].
  exfalso. apply N. replace (1 - p + p - 1)%R with 0%R by lra. rewrite Rabs_R0. lra.
Qed.
(** For three or more outputs: the outputs themselves; for one: [1-p; p]. The status is EmlOk
    exactly when the sum is within 0.001 of one. *)
Theorem C33_proba_partial A (m : net A) x out : net_ok A m (zlen x) -> 2 <= n_layers A m ->
  let y := net_fun A (n_layers_arr A m) x in
  zlen out = (if zlen y =? 1 then 2 else zlen y) -> zlen y <> 2 ->
  exists m' e p, eml_net_predict_proba A m x (zlen x) out (zlen out) = Ret (e, m', p) /\ same_net A m m' /\
    p = (if zlen y =? 1 then [nsub A (none_ A) (znth (nzero A) y 0); znth (nzero A) y 0] else y) /\
    (e = EmlOk <-> nltb A (nabs A (nsub A (if zlen y =? 1
        then nadd A (nsub A (none_ A) (znth (nzero A) y 0)) (znth (nzero A) y 0)
        else fold_left (nadd A) y (nzero A)) (none_ A))) (nmilli A) = true).
Proof.
  intros OK H y HO N2. destruct (proba_ok A m x out OK H HO) as (m' & S & E). fold y in E.
  assert (Y : 1 <= zlen y).
  { unfold y. rewrite zlen_net_fun by apply OK. destruct (outputs_ok A m (zlen x) OK ltac:(lia)). lia. }
  assert (ST : forall s, proba_status A s = EmlOk <-> nltb A (nabs A (nsub A s (none_ A))) (nmilli A) = true).
  { intros s. unfold proba_status. destruct (nltb A _ _); split; congruence. }
  destruct (Z.leb_spec (zlen y) 2).
  - assert (E1 : zlen y = 1) by lia. rewrite E1. rewrite E. cbn [Z.eqb Pos.eqb].
    eexists _, _, _. split; [reflexivity|]. split; [exact S|]. split; [reflexivity|]. apply ST.
  - rewrite E. destruct (Z.eqb_spec (zlen y) 1); [lia|].
    eexists _, _, _. split; [reflexivity|]. split; [exact S|]. split; [reflexivity|]. apply ST.
Qed.
(** predict: with one output, class 1 iff it is above one half; otherwise the argmax of the outputs. *)
Theorem C33_predict A (m : net A) x : net_ok A m (zlen x) -> 2 <= n_layers A m ->
  let y := net_fun A (n_layers_arr A m) x in
  exists m' c, same_net A m m' /\ eml_net_predict A m x (zlen x) = Ret (c, m') /\
    (zlen y = 1 -> c = if nltb A (nhalf A) (znth (nzero A) y 0) then 1 else 0) /\
    (zlen y <> 1 -> eml_net_argmax A y (zlen y) = Ret c).
Proof.
  intros OK H y. destruct (predict_ok A m x OK H) as (m' & S & E). fold y in E.
  assert (Y : 1 <= zlen y).
  { unfold y. rewrite zlen_net_fun by apply OK. destruct (outputs_ok A m (zlen x) OK ltac:(lia)). lia. }
  destruct (predict_class_total A y Y) as [c Ec]. exists m', c. split; [exact S|]. split; [rewrite E, Ec; reflexivity|].
  unfold predict_class in Ec. rewrite (zget_znth (nzero A)) in Ec by lia. cbn [bind] in Ec.
  destruct (Z.eqb_spec (zlen y) 1); [split; [intros _; congruence|lia]|].
  destruct (Z.ltb_spec 1 (zlen y)); [|lia]. split; [lia|auto].
Qed.
(** In float32, with three or more outputs not all NaN or -infinity, predict is the first class of
    maximal reported probability. *)
Theorem C33_predict_proba_consistent ef lf tf (m : net (f32_arith ef lf tf)) (x out : list (num (f32_arith ef lf tf))) :
  net_ok _ m (zlen x) -> 2 <= n_layers _ m ->
  let y := net_fun _ (n_layers_arr _ m) x in
  3 <= zlen y -> zlen out = zlen y -> (exists v, In v y /\ fltb (B754_infinity true) v = true) ->
  exists c m1 e m2 p, eml_net_predict _ m x (zlen x) = Ret (c, m1) /\
    eml_net_predict_proba _ m x (zlen x) out (zlen out) = Ret (e, m2, p) /\
    exists pc, zget p c = Ret pc /\ (forall i q, zget p i = Ret q -> fltb pc q = false) /\
      (forall i q, 0 <= i < c -> zget p i = Ret q -> fltb q pc = true \/ is_nan q = true).
Proof.
  intros OK H y Y3 HO (v & Iv & Gv).
  destruct (C33_predict _ m x OK H) as (m1 & c & _ & E1 & _ & P). fold y in P. specialize (P ltac:(lia)).
  destruct (C33_proba_partial _ m x out OK H) as (m2 & e & p & E2 & _ & -> & _).
  { fold y. destruct (Z.eqb_spec (zlen y) 1); lia. } { fold y. lia. }
  exists c, m1, e, m2, y. fold y in E2. destruct (Z.eqb_spec (zlen y) 1); [lia|]. split; [exact E1|]. split; [exact E2|].
  destruct (f32_argmax_ok ef lf tf y) as (r & Er & Hr). assert (RC : @Ret Z c = Ret r) by (rewrite <- P; exact Er). injection RC as <-.
  destruct Hr as [(-> & Hr)|(pc & E & G & H1 & H2)]; [rewrite (Hr v Iv) in Gv; discriminate|].
  exists pc. auto.
Qed.
(** regress: the outputs; regress1: the only output, or NaN when there is more than one. *)
Theorem C33_regress A (m : net A) x out : net_ok A m (zlen x) -> 2 <= n_layers A m ->
  let y := net_fun A (n_layers_arr A m) x in
  zlen out = zlen y ->
  exists m', same_net A m m' /\ eml_net_regress A m x (zlen x) out (zlen out) = Ret (EmlOk, m', y).
Proof. apply regress_ok. Qed.
Theorem C33_regress1 A junk (m : net A) x : net_ok A m (zlen x) -> 2 <= n_layers A m ->
  let y := net_fun A (n_layers_arr A m) x in
  exists m', same_net A m m' /\
    eml_net_regress1 A junk m x (zlen x) = Ret (if zlen y =? 1 then znth (nzero A) y 0 else nnan A, m').
Proof. apply regress1_ok. Qed.
Example C33_instance ef lf tf :
  (let* m := c_generate_net_loadable _ (sample_layers ef lf tf) in
   let* (v, m) := eml_net_regress1 (sampleA ef lf tf) (fz 77) m [fz 1; fz 2] 2 in
   let* (c1, m) := eml_net_predict (sampleA ef lf tf) m [fz 1; fz 2] 2 in
   let* (c2, m) := eml_net_predict (sampleA ef lf tf) m [fz 0; fz 20] 2 in
   Ret (is_val v 2, c1, c2)) = Ret (true, 1, 0).
Proof. vm_compute. reflexivity. Qed.

(** ** C34: inline *)
(** The inline generator cannot produce any network: every call raises ValueError (the activation
    name is passed through int()). *)
Theorem C34_inline_generation_refuted A (ls : list (py_layer A)) : c_generate_net_inline A ls = Err ValueError_.
Proof. apply inline_never. Qed.
(** while the loadable generator accepts, for instance, this network: *)
Example C34_loadable_accepts ef lf tf : exists m, c_generate_net_loadable _ (sample_layers ef lf tf) = Ret m.
Proof. eexists. reflexivity. Qed.
(** The code in the template, given the layers of the loadable struct and buffers of its size,
    computes the same outputs and the same class. *)
Theorem C34_template_agrees_partial A (m : net A) x a1 a2 : net_ok A m (zlen x) -> 2 <= n_layers A m ->
  zlen a1 = activations_length A m -> zlen a2 = activations_length A m ->
  exists c m' b1 b2,
    eml_net_predict A m x (zlen x) = Ret (c, m') /\
    inline_predict A (n_layers_arr A m) (n_outputs_of A (n_layers_arr A m) (zlen x)) a1 a2 (activations_length A m) x (zlen x) = Ret (c, b1, b2) /\
    exists r1 r2, activations2 A m' = net_fun A (n_layers_arr A m) x ++ r1 /\ b2 = net_fun A (n_layers_arr A m) x ++ r2.
Proof. apply inline_predict_agrees. Qed.
Example C34_instance ef lf tf :
  (let* m := c_generate_net_loadable _ (sample_layers ef lf tf) in
   let* (c, b1, b2) := inline_predict (sampleA ef lf tf) (n_layers_arr (sampleA ef lf tf) m) 1 (activations1 (sampleA ef lf tf) m) (activations2 (sampleA ef lf tf) m) (activations_length (sampleA ef lf tf) m) [fz 1; fz 2] 2 in
   let* y := zget b2 0 in Ret (c, is_val y 2)) = Ret (1, true).
Proof. vm_compute. reflexivity. Qed.

(** ** C35: argmax *)
(** float32: the first position of the largest value, NaN ignored; -1 when nothing is above -infinity. *)
Theorem C35_net_argmax_partial ef lf tf (values : list f32) :
  exists r, eml_net_argmax (f32_arith ef lf tf) values (zlen values) = Ret r /\
    ((r = -1 /\ forall v, In v values -> fltb (B754_infinity true) v = false) \/
     (exists v, zget values r = Ret v /\ fltb (B754_infinity true) v = true /\
        (forall i w, zget values i = Ret w -> fltb v w = false) /\
        (forall i w, 0 <= i < r -> zget values i = Ret w -> fltb w v = true \/ is_nan w = true))).
Proof. apply f32_argmax_ok. Qed.
(** The same for finite values, in one line. *)
Theorem C35_net_argmax_finite ef lf tf (values : list f32) : values <> [] -> Forall (fun v => is_finite v = true) values ->
  exists r, eml_net_argmax (f32_arith ef lf tf) values (zlen values) = Ret r /\ first_max fltb values r.
Proof.
  intros NE F. rewrite Forall_forall in F. destruct (f32_argmax_ok ef lf tf values) as (r & E & H). exists r. split; [exact E|].
  destruct H as [(-> & H)|(v & E1 & G & H1 & H2)].
  - destruct values as [|v0 vs]; [congruence|]. specialize (H v0 (or_introl eq_refl)).
    destruct (fltb_ninf v0 (F v0 (or_introl eq_refl))). congruence.
  - exists v. split; [exact E1|]. split; [exact H1|]. intros i w Hi Ew. destruct (H2 i w Hi Ew) as [|N]; [auto|].
    pose proof (F w (zget_In _ _ _ Ew)) as Fw. destruct w; simpl in *; discriminate.
Qed.
Theorem C35_python_argmax ef lf tf (s : list f32) : s <> [] -> Forall (fun v => is_nan v = false) s ->
  exists r, py_argmax (f32_arith ef lf tf) s = Ret r /\ first_max fltb s r.
Proof. apply f32_py_argmax_ok. Qed.
(** The fixed-point argmax answers -1 whenever the first element is a maximum. *)
Theorem C35_argmax_fixed32_refuted (values : list Z) v0 : zget values 0 = Ret v0 ->
  (forall w, In w values -> w <= v0) -> eml_argmax_fixed32 values (zlen values) = Ret (-1).
Proof.
  intros E0 H. assert (NE : values <> []) by (intros ->; discriminate).
  destruct (argmax_fixed32_ok values NE) as (r & E & [(-> & _)|(R & v & E1 & H1 & H2)]); [exact E|].
  specialize (H2 0 v0 ltac:(lia) E0). apply Z.ltb_lt in H2. specialize (H v (zget_In _ _ _ E1)). lia.
Qed.
Theorem C35_argmax_fixed32_partial (values : list Z) v0 : zget values 0 = Ret v0 -> (exists w, In w values /\ v0 < w) ->
  exists r, eml_argmax_fixed32 values (zlen values) = Ret r /\ first_max Z.ltb values r.
Proof.
  intros E0 (w & Iw & L). assert (NE : values <> []) by (intros ->; discriminate).
  destruct (argmax_fixed32_ok values NE) as (r & E & [(-> & H)|(R & H)]); [|eauto].
  apply In_zget in Iw as [i Ei]. specialize (H v0 E0 i w Ei). lia.
Qed.
Example C35_instance ef lf tf :
  eml_net_argmax (f32_arith ef lf tf) [fz 3; B754_nan; fz 7; fz 7; fz (-1)] 5 = Ret 2 /\
  eml_net_argmax (f32_arith ef lf tf) [B754_nan; B754_infinity true] 2 = Ret (-1) /\
  py_argmax (f32_arith ef lf tf) [fz 3; fz 7; fz 7] = Ret 1 /\
  eml_argmax_fixed32 [5; 1; 2] 3 = Ret (-1) /\ eml_argmax_fixed32 [5; 1; 9; 9] 4 = Ret 2.
Proof. vm_compute. auto 10. Qed.

(** ** C36: activations in exact arithmetic *)
Theorem C36_softmax (xs : list R) : xs <> [] ->
  eml_net_softmax real_arith (map Fin xs) (zlen xs) = Ret (map Fin (rsoftmax xs)).
Proof.
  intros NE. pose proof (softmax_ok real_arith (map Fin xs) [] (zlen xs)) as H. rewrite !app_nil_r in H.
  rewrite H, softmax_real by (auto; now rewrite zlen_map). reflexivity.
Qed.
Theorem C36_softmax_probabilities (xs : list R) : xs <> [] ->
  Forall (fun p => 0 < p)%R (rsoftmax xs) /\ rsum (rsoftmax xs) = 1%R /\
  (forall i j xi xj pi pj, zget xs i = Ret xi -> zget xs j = Ret xj ->
     zget (rsoftmax xs) i = Ret pi -> zget (rsoftmax xs) j = Ret pj -> ((xi < xj)%R <-> (pi < pj)%R)).
Proof. apply rsoftmax_spec. Qed.
Theorem C36_logistic x : eml_net_expit real_arith (Fin x) = Fin (rlogistic x) /\ (0 < rlogistic x < 1)%R.
Proof. apply expit_real. Qed.
Theorem C36_relu x : eml_net_relu real_arith (Fin x) = Fin (Rmax 0 x).
Proof. apply relu_real. Qed.
Theorem C36_tanh x : eml_net_tanh real_arith (Fin x) = Fin (tanh x) /\ (-1 < tanh x < 1)%R.
Proof. apply tanh_real. Qed.
Example C36_instance : eml_net_softmax real_arith [Fin 0; Fin 0] 2 = Ret [Fin (1 / 2); Fin (1 / 2)].
Proof.
  change [Fin 0; Fin 0] with (map Fin [0; 0]%R). change 2 with (zlen [0; 0]%R). rewrite C36_softmax by discriminate.
  unfold rsoftmax. simpl. rewrite exp_0. replace (1 / (1 + (1 + 0)))%R with (1 / 2)%R by lra. reflexivity.
Qed.

(** ** C37: Keras *)
(** [sem] is the meaning of the activation names. *)
Theorem C37_convert_partial A sem (ls : list (keras_layer A)) pls m x :
  sem_ok A sem -> Forall (rectangular A) ls -> mergeable A false ls ->
  convert_keras A ls = Ret pls -> c_generate_net_loadable A pls = Ret m ->
  net_fun A (n_layers_arr A m) x = keras_net A sem ls x.
Proof. apply keras_ok. Qed.
(** ... and running the generated network gives it. *)
Theorem C37_convert_infer_partial A sem (ls : list (keras_layer A)) pls m x :
  sem_ok A sem -> Forall (rectangular A) ls -> mergeable A false ls ->
  keras_chain A (zlen x) ls -> 2 <= n_dense A ls ->
  convert_keras A ls = Ret pls -> c_generate_net_loadable A pls = Ret m ->
  exists m' rest, eml_net_infer A m x (zlen x) = Ret (EmlOk, m') /\ activations2 A m' = keras_net A sem ls x ++ rest.
Proof. apply keras_infer. Qed.
(** Not in general: an activation layer after a Dense layer that already has an activation replaces it. *)
Definition real_sem (name : string) (x : list xreal) : list xreal :=
  if String.eqb name "relu" then activate real_arith ActRelu x
  else if String.eqb name "sigmoid" || String.eqb name "logistic" then activate real_arith ActLogistic x
  else if String.eqb name "softmax" then activate real_arith ActSoftmax x
  else if String.eqb name "tanh" then activate real_arith ActTanh x
  else x.
Lemma real_sem_ok : sem_ok real_arith real_sem.
Proof. unfold sem_ok. repeat split; reflexivity. Qed.
Definition overwritten : list (keras_layer real_arith) :=
  [KDense real_arith "relu" true [[Fin 1]] 1 [Fin 0]; KActivation real_arith "linear"].
Theorem C37_convert_refuted : exists pls m, Forall (rectangular _) overwritten /\
  convert_keras _ overwritten = Ret pls /\ c_generate_net_loadable _ pls = Ret m /\
  net_fun real_arith (n_layers_arr _ m) [Fin (-1)] = [Fin (-1)] /\
  keras_net real_arith real_sem overwritten [Fin (-1)] = [Fin 0].
Proof.
  eexists _, _. split; [|split; [reflexivity|split; [reflexivity|]]].
  - repeat constructor; simpl; lia.
  - split; unfold keras_net; simpl.
    + unfold layer_fun, linear. simpl. unfold znth. simpl. replace (0 + 1 * -1 + 0)%R with (-1)%R by lra. reflexivity.
    + unfold real_sem, activate. simpl. unfold znth. simpl.
      destruct (Rle_dec (0 + 1 * -1 + 0) 0); [reflexivity|exfalso; lra].
Qed.
(** A layer type or an activation that is not supported raises instead of being converted. *)
Theorem C37_unsupported_layer A ls1 ls2 : exists e, convert_keras A (ls1 ++ KOther A :: ls2) = Err e.
Proof.
  unfold convert_keras. rewrite foldM_app. destruct (foldM (keras_step A) [] ls1); cbn [bind]; [|eauto].
  simpl. eauto.
Qed.
Theorem C37_unsupported_activation A (ls : list (py_layer A)) l : In l ls ->
  ~ In (py_activation A l) ["identity"; "relu"; "logistic"; "softmax"; "tanh"]%string ->
  exists e, c_generate_net_loadable A ls = Err e.
Proof.
  intros Il NI. unfold c_generate_net_loadable. destruct (buffer_size A ls); cbn [bind]; [|eauto].
  assert (K : exists e, mapM (layer_data A false) ls = Err e).
  { assert (EL : layer_data A false l = Err ValueError_).
    { unfold layer_data, c_activation_function.
      repeat match goal with |- context [String.eqb ?a ?s] => destruct (String.eqb_spec a s); [exfalso; apply NI; simpl; intuition congruence|] end. reflexivity. }
    clear NI. induction ls as [|l0 ls IH]; [destruct Il|]. simpl. destruct Il as [->|Il].
    - rewrite EL. cbn [bind]. eauto.
    - destruct (layer_data A false l0); cbn [bind]; [|eauto]. destruct (IH Il) as [e ->]. cbn [bind]. eauto. }
  destruct K as [e ->]. cbn [bind]. eauto.
Qed.
Definition good_keras : list (keras_layer real_arith) :=
  [KDense real_arith "linear" true [[Fin 1; Fin 2]] 2 [Fin 0; Fin 1]; KDropout real_arith; KReLU real_arith true;
   KDense real_arith "sigmoid" true [[Fin 1]; [Fin 3]] 1 [Fin 0]].
Example C37_instance : Forall (rectangular _) good_keras /\ mergeable _ false good_keras /\ keras_chain _ 1 good_keras /\ n_dense _ good_keras = 2 /\
  exists pls m, convert_keras _ good_keras = Ret pls /\ c_generate_net_loadable _ pls = Ret m /\ zlen (n_layers_arr _ m) = 2.
Proof.
  split; [repeat constructor; simpl; lia|]. split; [simpl; auto|]. split; [simpl; repeat split; lia|]. split; [reflexivity|]. eexists _, _. split; [reflexivity|]. split; [reflexivity|]. reflexivity.
Qed.
