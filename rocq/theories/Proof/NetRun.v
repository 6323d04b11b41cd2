(** Converted networks, from the fitted weights to the returned numbers. *)
From Coq Require Import String ZArith List Bool Lia Reals Lra.
From Flocq Require Import Core BinarySingleNaN.
From Verif.Base Require Import Res CInt ListX Loops Float FloatOrder Arith Kernels RealSum.
From Verif.Model Require Import Common Text TreesConvert TreesC TreesWrapper Net Cgen Harness TreesRun NetRun.
From Verif.Spec Require Import RealSpec NetSpec ClassifierSpec HarnessSpec RunSpec RoundingSpec NetRunSpec.
From Verif.Proof Require Import Net NetApi NetFun NetKeras FloatErr NetErr NetClose RoundingTop NetRunErr Through Harness RunRows FloatMean TreesRegRun TreesFloatRun.
Import Verif.Spec.HarnessSpec ListNotations.
Open Scope Z_scope.
Open Scope res_scope.

Lemma const_good (v : f64) : good_number v ->
  exists k : f32, float_const (PyFloat v) = Ret k /\ is_finite k = true /\ (Rabs (B2R k - B2R v) <= print6 (B2R v))%R.
Proof.
  intros [F B]. destruct (float_const_ok (PyFloat v) F B) as (k & E & Fk & T). exists k. split; [exact E|].
  destruct (through6_f32 (B2R v) k B T) as [_ D]. auto.
Qed.
Definition near6 (v : f64) (k : f32) : Prop := is_finite k = true /\ (Rabs (B2R k - B2R v) <= print6 (B2R v))%R.
Lemma consts_good (vs : list f64) : Forall good_number vs -> exists ks, mapM (fun v : f64 => float_const (PyFloat v)) vs = Ret ks /\ Forall2 near6 vs ks.
Proof.
  induction 1 as [|v vs H HF IH]; [exists []; split; [reflexivity|constructor]|]. destruct (const_good v H) as (k & E & Fk & D). destruct IH as (ks & E2 & F2).
  exists (k :: ks). split; [cbn [mapM]; rewrite E; cbn [bind]; rewrite E2; reflexivity|]. constructor; [split; assumption|exact F2].
Qed.
Lemma rows_good (W : list (list f64)) : Forall (Forall good_number) W -> exists K, mapM (mapM (fun v : f64 => float_const (PyFloat v))) W = Ret K /\ Forall2 (Forall2 near6) W K.
Proof.
  induction 1 as [|r W H HF IH]; [exists []; split; [reflexivity|constructor]|]. destruct (consts_good r H) as (k & E & Fk). destruct IH as (ks & E2 & F2).
  exists (k :: ks). split; [cbn [mapM]; rewrite E; cbn [bind]; rewrite E2; reflexivity|]. constructor; assumption.
Qed.
Lemma Forall2_znth {X Y} (P : X -> Y -> Prop) a b dx dy i : Forall2 P a b -> 0 <= i < zlen a -> P (znth dx a i) (znth dy b i).
Proof.
  unfold znth, zlen. intros H Hi. assert (B : (Z.to_nat i < length a)%nat) by lia. revert B. generalize (Z.to_nat i). clear i Hi.
  induction H; intros [|n] B; simpl in *; try lia; auto. apply IHForall2. lia.
Qed.
Lemma Forall2_zlen {X Y} (P : X -> Y -> Prop) a b : Forall2 P a b -> zlen b = zlen a.
Proof. unfold zlen. induction 1; simpl; lia. Qed.

Section N.
Context (ef lf tf : f32 -> f32).
Notation A := (f32_arith ef lf tf).
Notation num_of := (num A).

Lemma named_ok name : In name ["identity"; "relu"; "logistic"; "tanh"; "softmax"]%string ->
  exists c, c_activation_function name = Ret (c, activation_named name) /\ forall k, activation_named name <> ActOther k.
Proof.
  intros [<-|[<-|[<-|[<-|[<-|[]]]]]]; (eexists; split; [reflexivity|intros k; discriminate]).
Qed.
Lemma layer_gen (l : fit_layer) : good_layer l ->
  exists p nl, const_layer ef lf tf l = Ret p /\ layer_data A false p = Ret nl /\ py_matrix A p /\ py_sizes A p /\
    py_n_in A p = py_n_in f64_arith l /\ py_n_out A p = py_n_out f64_arith l /\
    same_shape nl (real_layer l) /\ near_layer nl (real_layer l) /\ finite_layer nl.
Proof.
  intros ((P1 & P2) & (S1 & S2 & S3) & N8 & GW & GB & AC).
  destruct (consts_good _ GB) as (bs & EB & NB). destruct (rows_good _ GW) as (ws & EW & NW).
  set (n := py_n_out f64_arith l) in *. unfold py_n_in in S1, S3.
  assert (LW : zlen ws = zlen (py_weights f64_arith l)) by (eapply Forall2_zlen; exact NW).
  assert (LB : zlen bs = n) by (rewrite (Forall2_zlen _ _ _ NB); exact S2).
  assert (RW : Forall (fun row : list f32 => zlen row = n) ws).
  { clear - NW P2. induction NW as [|r k W K H HF IH]; [constructor|]. apply Forall_cons_iff in P2 as [Q1 Q2]. constructor; [|auto].
    rewrite (Forall2_zlen _ _ _ H). exact Q1. }
  exists (mk_pylayer A (py_activation f64_arith l) ws n bs).
  destruct (named_ok _ AC) as (c & EC & NC).
  exists (mk_layer A n (zlen ws) (concat ws) bs (activation_named (py_activation f64_arith l))).
  assert (LC : zlen (concat ws) = zlen ws * n) by (exact (zlen_concat A ws n RW)).
  split; [unfold const_layer; rewrite EB; cbn [bind]; rewrite EW; reflexivity|].
  split.
  { unfold layer_data. cbn [py_activation py_weights py_n_out py_biases]. rewrite EC. cbn [bind].
    unfold py_n_in. cbn [py_weights]. change (num A) with f32. rewrite LC, Z.eqb_refl. reflexivity. }
  split; [split; [exact P1|exact RW]|].
  split; [assert (Q1 : 1 <= zlen ws) by lia; assert (Q3 : zlen ws * n < 2 ^ 31) by (rewrite LW; exact S3); split; [exact Q1|split; [exact LB|exact Q3]]|].
  split; [unfold py_n_in; cbn [py_weights]; exact LW|]. split; [reflexivity|].
  split; [unfold same_shape; cbn; rewrite LW; auto|]. split.
  - split.
    + cbn [real_layer as_real r_inputs r_outputs r_weight l_weights l_n_outputs l_n_inputs]. intros i o Hi Ho. fold n in Ho.
      assert (CI : znth (fzero : f32) (concat ws) (o + i * n) = znth (fzero : f32) (nth (Z.to_nat i) ws []) o).
      { assert (Hi2 : 0 <= i < zlen ws) by (rewrite LW; exact Hi). exact (concat_index A ws n i o RW Ho Hi2). }
      rewrite CI.
      pose proof (Forall2_znth _ _ _ [] [] i NW Hi) as R1. unfold znth in R1 at 1 2.
      assert (Lr : zlen (nth (Z.to_nat i) (py_weights f64_arith l) []) = n).
      { pose proof (Forall_znth _ [] _ i P2 Hi) as Q. exact Q. }
      assert (Ho' : 0 <= o < zlen (nth (Z.to_nat i) (py_weights f64_arith l) [])) by (rewrite Lr; exact Ho).
      pose proof (Forall2_znth _ _ _ (fzero : f64) (fzero : f32) o R1 Ho') as [_ D]. exact D.
    + cbn [real_layer as_real r_inputs r_outputs r_bias l_biases]. intros o Ho.
      assert (Ho' : 0 <= o < zlen (py_biases f64_arith l)) by (rewrite S2; exact Ho).
      pose proof (Forall2_znth _ _ _ (fzero : f64) (fzero : f32) o NB Ho') as [_ D]. exact D.
  - split; cbn [l_weights l_biases].
    + apply Forall_concat. clear - NW. induction NW as [|r k W K H HF IH]; constructor; [|exact IH].
      clear - H. induction H as [|v w vs ks [F _] _ IH]; constructor; auto.
    + clear - NB. induction NB as [|v w vs ks [F _] _ IH]; constructor; auto.
Qed.

Definition real_of (ls : list fit_layer) : list rlayer := map real_layer ls.
Lemma layers_gen (ls : list fit_layer) : Forall good_layer ls ->
  exists ps nls, mapM (const_layer ef lf tf) ls = Ret ps /\ mapM (layer_data A false) ps = Ret nls /\
    Forall (py_matrix A) ps /\ Forall (py_sizes A) ps /\ zlen ps = zlen ls /\
    (forall n, py_chain f64_arith n ls -> py_chain A n ps) /\
    Forall2 same_shape nls (real_of ls) /\ Forall2 near_layer nls (real_of ls) /\ Forall finite_layer nls.
Proof.
  induction 1 as [|l ls H HF IH].
  - exists [], []. do 2 (split; [reflexivity|]). do 2 (split; [constructor|]). split; [reflexivity|]. split; [intros; exact I|]. repeat split; constructor.
  - destruct (layer_gen l H) as (p & nl & E1 & E2 & A1 & A2 & A3 & A4 & A5 & A6 & A7).
    destruct IH as (ps & nls & F1 & F2 & B1 & B2 & B3 & B4 & B5 & B6 & B7). exists (p :: ps), (nl :: nls).
    split; [cbn [mapM]; rewrite E1; cbn [bind]; rewrite F1; reflexivity|].
    split; [cbn [mapM]; rewrite E2; cbn [bind]; rewrite F2; reflexivity|].
    split; [constructor; auto|]. split; [constructor; auto|]. split; [rewrite !zlen_cons, B3; reflexivity|].
    split. { intros n [C1 C2]. split; [rewrite A3; exact C1|]. rewrite A4. apply B4. exact C2. }
    split; [constructor; auto|]. split; [constructor; auto|]. constructor; auto.
Qed.
Lemma names_ok (ls : list fit_layer) : Forall good_layer ls -> exists r, mapM (fun l => c_activation_function (py_activation f64_arith l)) ls = Ret r.
Proof.
  induction 1 as [|l ls H HF (r & IH)]; [exists []; reflexivity|]. destruct H as (_ & _ & _ & _ & _ & AC). destruct (named_ok _ AC) as (c & EC & _).
  eexists. cbn [mapM]. rewrite EC. cbn [bind]. rewrite IH. reflexivity.
Qed.
Lemma saved (nf : Z) (ls : list fit_layer) : good_net nf ls ->
  exists m, save_compiled ef lf tf ls = Ret m /\ net_ok A m nf /\ n_layers A m = zlen ls /\
    Forall2 same_shape (n_layers_arr A m) (real_of ls) /\ Forall2 near_layer (n_layers_arr A m) (real_of ls) /\ Forall finite_layer (n_layers_arr A m).
Proof.
  intros (L2 & G & CH). destruct (layers_gen ls G) as (ps & nls & E1 & E2 & A1 & A2 & A3 & A4 & A5 & A6 & A7). destruct (names_ok ls G) as (r & ER).
  assert (EM : exists m, c_generate_net_loadable A ps = Ret m /\ n_layers_arr A m = nls).
  { unfold c_generate_net_loadable. assert (EB : exists bs, buffer_size A ps = Ret bs).
    { unfold buffer_size. destruct ps as [|p ps]; [unfold zlen in *; simpl in *; lia|]. cbn [map app]. eauto. }
    destruct EB as (bs & EB). rewrite EB. cbn [bind]. rewrite E2. cbn [bind]. eexists. split; reflexivity. }
  destruct EM as (m & EM & EA). exists m. split; [unfold save_compiled; rewrite ER; cbn [bind]; rewrite E1; exact EM|].
  destruct (generated_ok A ps m nf A1 A2 (A4 nf CH) EM) as [OK NL]. rewrite EA. split; [exact OK|]. split; [lia|]. auto.
Qed.

(** ** One row *)
Section Row.
Context (ge gl gt : R) (nf : Z) (ls : list fit_layer) (m : net A).
Hypothesis G : good_net nf ls.
Hypothesis OK : net_ok A m nf.
Hypothesis NL : n_layers A m = zlen ls.
Hypothesis SH : Forall2 same_shape (n_layers_arr A m) (real_of ls).
Hypothesis NR : Forall2 near_layer (n_layers_arr A m) (real_of ls).
Hypothesis FL : Forall finite_layer (n_layers_arr A m).
Hypothesis LM : libm_good ge gl gt ef lf tf ls.

Lemma libm_layers : Forall (libm_ok ge gl gt) (n_layers_arr A m).
Proof using SH LM G.
  destruct G as (_ & GL & _). destruct LM as (_ & M1 & M2 & M3).
  assert (Q : forall l, In l ls -> forall a, activation_named (py_activation f64_arith l) = a ->
     (a = ActLogistic \/ a = ActSoftmax -> @expf_ok ef ge) /\ (a = ActTanh -> @tanhf_ok tf gt) /\ (a = ActSoftmax -> @logf_ok lf gl)).
  { intros l Il a <-. rewrite Forall_forall in GL. destruct (GL l Il) as (_ & _ & _ & _ & _ & AC).
    assert (EX : forall (P : fit_layer -> Prop), P l -> Exists P ls) by (intros P H; apply Exists_exists; eauto).
    destruct AC as [E|[E|[E|[E|[E|[]]]]]]; rewrite <- E in *; cbn; (split; [|split]); intros Q; try discriminate; try (destruct Q; discriminate).
    - apply M1, EX. left. symmetry; exact E.
    - apply M2, EX. symmetry; exact E.
    - apply M1, EX. right. symmetry; exact E.
    - apply M3, EX. symmetry; exact E. }
  clear - SH Q. unfold real_of in SH. revert SH. generalize (n_layers_arr A m). intros nls SH. induction ls as [|l r IH] in nls, SH, Q |- *; inversion SH as [|? ? ? ? S1 S2]; subst; constructor.
  - destruct S1 as (_ & _ & S3). cbn in S3. exact (Q l (or_introl eq_refl) _ S3).
  - apply IH; [|exact S2]. intros l9 I9 a9. exact (Q l9 (or_intror I9) a9).
Qed.
Lemma inputs_ok : Forall (fun l => l_n_inputs A l <= 8388606) (n_layers_arr A m).
Proof using SH G.
  destruct G as (_ & GL & _). clear - SH GL. unfold real_of in SH. revert SH. generalize (n_layers_arr A m). intros nls SH.
  induction ls as [|l r IH] in nls, SH, GL |- *; inversion SH as [|? ? ? ? S1 S2]; subst; constructor.
  - apply Forall_inv in GL. destruct GL as (_ & _ & N8 & _). destruct S1 as (S1 & _). cbn in S1. change (num f64_arith) with f64 in S1. rewrite <- S1. exact N8.
  - apply IH; [now apply Forall_inv_tail in GL|exact S2].
Qed.
Lemma row_close (row : list f64) (ws : list f32) : zlen row = nf -> Forall good_number row -> arrives row ws -> row_fits ge gl gt ls row ->
  close_all (row_bound ge gl gt ls row) (fitted_net ls row) (net_fun A (n_layers_arr A m) ws).
Proof using SH NR FL LM G OK.
  intros LR GR AR FT. destruct LM as (GE & _). pose proof OK as (_ & OL & CH & _).
  assert (LW : zlen ws = nf) by (rewrite (Forall2_zlen _ _ _ AR); exact LR).
  apply run_close; auto; try exact libm_layers; try exact inputs_ok.
  - change (num A) with f32. rewrite LW. exact CH.
  - split; [now rewrite !zlen_map|]. intros i Hi. rewrite zlen_map in Hi. unfold nthr, znth.
    rewrite (nth_indep (map B2R row) 0%R (B2R (fzero : f64))) by (rewrite map_length; unfold zlen in Hi; lia).
    rewrite (nth_indep (map (fun v => Rabs (B2R v)) row) 0%R (Rabs (B2R (fzero : f64)))) by (rewrite map_length; unfold zlen in Hi; lia).
    rewrite (map_nth B2R), (map_nth (fun v => Rabs (B2R v))). lra.
  - split; [rewrite zlen_map; lia|]. split; [rewrite zlen_map; lia|]. intros i Hi.
    pose proof (Forall2_znth _ _ _ (fzero : f64) (fzero : f32) i AR ltac:(lia)) as [F T]. split; [exact F|].
    pose proof (Forall_znth _ (fzero : f64) row i GR ltac:(lia)) as [_ B].
    destruct (through8_f32 _ _ B T) as [_ D].
    unfold nthr, znth at 2 3. 
    rewrite (nth_indep (map B2R row) 0%R (B2R (fzero : f64))) by (rewrite map_length; unfold zlen in *; lia).
    rewrite (nth_indep (map (fun v => print8 (B2R v)) row) 0%R (print8 (B2R (fzero : f64)))) by (rewrite map_length; unfold zlen in *; lia).
    rewrite (map_nth B2R), (map_nth (fun v => print8 (B2R v))). exact D.
Qed.
Lemma row_values (row : list f64) values : zlen row = nf -> Forall good_number row -> holds row values ->
  exists ws : list f32, arrives row ws /\ zlen ws = nf /\ cast_row (@Ret f32) fzero (zlen row) values (zlen row) = Ret ws.
Proof using.
  intros L GR H. destruct (float_values nf row values L GR H) as (ws & A1 & A2 & A3). exists ws. split; [exact A1|]. split; [exact A2|].
  unfold full_row in A3. rewrite Z.ltb_irrefl in A3. rewrite L. apply bind_Ret in A3 as (fs & E & Q). injection Q as <-. exact E.
Qed.
End Row.
End N.
