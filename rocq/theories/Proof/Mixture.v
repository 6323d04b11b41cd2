(** Proofs about the Gaussian mixture. *)
From Coq Require Import ZArith List Bool Lia Reals Lra.
From Verif.Base Require Import Res CInt ListX Loops Arith Kernels RealSum.
From Verif.Model Require Import Common Mixture.
From Verif.Spec Require Import RealSpec DistanceSpec MixtureSpec.
From Verif.Proof Require Import NetFun Distance Log2Pi.
Import ListNotations.
Open Scope Z_scope.
Open Scope res_scope.

(** ** log-sum-exp *)
Lemma minmax_Fin (xs : list R) mn M : exists mn' M', foldM (fun '(mn, mx) v =>
      let mx := if xltb mx v then v else mx in
      let mn := if xltb v mn then v else mn in Ret (mn, mx)) (Fin mn, Fin M) (map Fin xs) = Ret (Fin mn', Fin M').
Proof.
  revert mn M; induction xs as [|x xs IH]; intros mn M; [simpl; eauto|]. cbn [map foldM]. cbv zeta. cbn [bind].
  assert (E1 : exists a, (if xltb (Fin M) (Fin x) then Fin x else Fin M) = Fin a) by (destruct (xltb (Fin M) (Fin x)); eexists; reflexivity).
  assert (E2 : exists a, (if xltb (Fin x) (Fin mn) then Fin x else Fin mn) = Fin a) by (destruct (xltb (Fin x) (Fin mn)); eexists; reflexivity).
  destruct E1 as [a ->], E2 as [b ->]. apply IH.
Qed.
Lemma minmax_ok (xs : list R) rest : xs <> [] -> exists mn M, eml_minmax real_arith (map Fin xs ++ rest) (zlen xs) = Ret (Fin mn, Fin M).
Proof.
  intros NE. unfold eml_minmax. change (num real_arith) with xreal.
  rewrite (foldM_ext _ (fun s i => let* v := zget (map Fin xs) i in
    (fun '(mn, mx) v => let mx := if xltb mx v then v else mx in let mn := if xltb v mn then v else mn in Ret (mn, mx)) s v)).
  - rewrite <- (zlen_Fin xs). rewrite (foldM_index (fun '(mn, mx) v => let mx := if xltb mx v then v else mx in let mn := if xltb v mn then v else mn in Ret (mn, mx)) (map Fin xs)).
    destruct xs as [|x xs]; [congruence|]. simpl. apply minmax_Fin.
  - intros [mn mx] i Hi. apply Kernels.zrange_In in Hi. rewrite zget_app_l by (rewrite zlen_Fin; exact Hi). reflexivity.
Qed.
Lemma sum_prefix (f : R -> R) (xs : list R) rest (body : xreal -> Z -> res xreal) :
  (forall s i, 0 <= i < zlen xs -> body (Fin s) i = let* v := zget (map Fin xs ++ rest) i in match v with Fin r => Ret (Fin (s + f r)) | _ => Ret NaN end) ->
  foldM body (Fin 0) (zrange (zlen xs)) = Ret (Fin (rsum (map f xs))).
Proof.
  intros H. rewrite (foldM_sumr _ (fun i => f (vec xs i))).
  - do 2 f_equal. rewrite Rplus_0_l. rewrite (rsum_sumr (map f xs)). rewrite zlen_map. apply sumr_ext. intros i Hi.
    unfold vec. rewrite (nth_indep (map f xs) 0%R (f 0%R)) by (rewrite map_length; unfold zlen in Hi; lia). symmetry. apply map_nth.
  - intros s i Hi. rewrite H by auto. rewrite zget_app_l by (rewrite zlen_Fin; exact Hi). rewrite zget_vec by auto. reflexivity.
Qed.
Theorem logsumexp_ok (xs : list R) rest : xs <> [] ->
  eml_logsumexp real_arith (map Fin xs ++ rest) (zlen xs) = Ret (Fin (ln (rsum (map exp xs)))).
Proof.
  intros NE. unfold eml_logsumexp. destruct (minmax_ok xs rest NE) as (mn & M & E). change (num real_arith) with xreal in *. rewrite E. cbn [bind].
  change (nzero real_arith) with (Fin 0). rewrite (sum_prefix (fun v => exp (v - M)) xs rest).
  - cbn [bind]. simpl. do 2 f_equal.
    replace (map (fun v => exp (v - M)) xs) with (map (fun v => exp (- M) * v)%R (map exp xs)).
    2:{ rewrite map_map. apply map_ext. intros v. rewrite <- exp_plus. f_equal. lra. }
    rewrite rsum_scale. rewrite ln_mult; [|apply exp_pos|apply rsum_exp_pos; [intros; apply exp_pos|exact NE]].
    rewrite ln_exp. lra.
  - intros s i Hi. rewrite zget_app_l by (rewrite zlen_Fin; exact Hi). rewrite zget_vec by auto. reflexivity.
Qed.

(** ** The main loop *)
Lemma concat_rect (P : list (list R)) n i j : Forall (fun r => zlen r = n) P -> 0 <= i < zlen P -> 0 <= j < n ->
  zget (List.concat (map (map Fin) P)) (i * n + j) = Ret (Fin (mat P i j)).
Proof.
  intros F Hi Hj. rewrite <- concat_map.
  assert (LC : zlen (List.concat P) = zlen P * n).
  { clear Hi Hj. induction F as [|r P H F IH]; [reflexivity|]. simpl. rewrite zlen_app, H, zlen_cons. rewrite IH. ring. }
  rewrite zget_map. rewrite (zget_nth (List.concat P) (i * n + j) 0%R) by nia. cbn [bind]. do 2 f_equal.
  unfold mat, vec. rewrite <- (concat_nth 0%R P n i j F Hj) by lia. reflexivity.
Qed.
Lemma concat3 (F : list (list (list R))) n c p f : Forall (square n) F -> 0 <= c < zlen F -> 0 <= p < n -> 0 <= f < n ->
  zget (List.concat (List.concat (map (map (map Fin)) F))) (c * n * n + (p * n + f)) = Ret (Fin (mat (nth (Z.to_nat c) F []) p f)).
Proof.
  intros SF Hc Hp Hf. rewrite <- concat_map.
  assert (FL : Forall (fun m : list (list R) => zlen m = n) F) by (eapply Forall_impl; [|exact SF]; intros m [H _]; exact H).
  assert (LC : zlen (List.concat F) = zlen F * n).
  { clear Hc. induction FL as [|r P H FL IH]; [reflexivity|]. simpl. inversion SF; subst. rewrite zlen_app, zlen_cons. rewrite IH by auto. ring. }
  replace (c * n * n + (p * n + f)) with ((c * n + p) * n + f) by ring.
  rewrite (concat_rect (List.concat F) n (c * n + p) f).
  - do 2 f_equal. unfold mat. f_equal. apply (concat_nth [] F n c p FL Hp Hc).
  - apply Forall_forall. intros r Hr. apply in_concat in Hr as (m & Hm & Hr). rewrite Forall_forall in SF. destruct (SF m Hm) as [_ G]. rewrite Forall_forall in G. auto.
  - rewrite LC. nia.
  - exact Hf.
Qed.

(** What is stored for component [c]. *)
Definition logp (F : list (list (list R))) (means : list (list R)) (ld lw x : list R) (n c : Z) : R :=
  (- (1 / 2) * (IZR n * EML_LOG_2PI + sumr n (fun f => (sumr n (fun p => (vec x p - mat means c p) * mat (nth (Z.to_nat c) F []) p f)) ^ 2))
   + vec ld c + vec lw c)%R.
Lemma foldM_pair (body : xreal * xreal -> Z -> res (xreal * xreal)) (f g : Z -> R) n a b :
  (forall s t i, 0 <= i < n -> body (Fin s, Fin t) i = Ret (Fin (s + f i), Fin (t + g i))) ->
  foldM body (Fin a, Fin b) (zrange n) = Ret (Fin (a + sumr n f), Fin (b + sumr n g)).
Proof.
  intros H. unfold sumr. assert (G : forall l a b, (forall i, In i l -> (0 <= i < n)%Z) ->
     foldM body (Fin a, Fin b) l = Ret (Fin (a + rsum (map f l)), Fin (b + rsum (map g l)))).
  { clear a b. induction l as [|i l IH]; intros a b Hl; simpl. { do 3 f_equal; lra. }
    rewrite H by (apply Hl; now left). cbn [bind]. rewrite IH by (intros; apply Hl; now right). do 3 f_equal; lra. }
  apply G. intros i Hi. apply Kernels.zrange_In in Hi. exact Hi.
Qed.
Theorem log_proba_ok (F : list (list (list R))) (means : list (list R)) (ld lw x : list R) n out :
  let k := zlen means in
  1 <= k -> 0 <= n -> k * n * n < 2 ^ 31 -> k * n < 2 ^ 31 -> zlen F = k -> Forall (square n) F -> Forall (fun r => zlen r = n) means ->
  zlen ld = k -> zlen lw = k -> n <= zlen x -> k <= @zlen xreal out ->
  eml_mixture_predict_log_proba real_arith log_density_real
    (mk_mixture real_arith k n CovFull (List.concat (map (map Fin) means)) (List.concat (List.concat (map (map (map Fin)) F))) (map Fin ld) (map Fin lw))
    (map Fin x) out
  = Ret (0, map Fin (map (logp F means ld lw x n) (zrange k)) ++ skipn (Z.to_nat k) out).
Proof.
  intros k Hk Hn B1 B2 LF SF SM LD LW LX LO. unfold eml_mixture_predict_log_proba. cbn [m_n_components m_n_features m_covariance_type m_means m_precisions m_log_dets m_log_weights].
  destruct (Z.ltb_spec 0 k); [|lia]. cbn [negb]. cbv zeta. change (num real_arith) with xreal.
  rewrite (fill_app_ext _ (fun c => Fin (logp F means ld lw x n c)) out k); [rewrite map_map; reflexivity|lia|].
  intros o c Hc. cbv beta.
  rewrite chk_int32_ok by (unfold int32_ok; nia). cbn [bind]. change (nzero real_arith) with (Fin 0).
  rewrite (foldM_sumr _ (fun f => (sumr n (fun p => (vec x p - mat means c p) * mat (nth (Z.to_nat c) F []) p f)) ^ 2)%R).
  - cbn [bind]. change (num real_arith) with xreal. rewrite zget_vec by lia. cbn [bind].
    destruct (Z.lt_ge_cases c (@zlen xreal o)) as [Lc|Lc].
    + rewrite zset_ok by lia. cbn [bind]. rewrite zget_list_set by lia. rewrite Z.eqb_refl. cbn [bind]. rewrite zget_vec by lia. cbn [bind].
      rewrite zset_ok by (rewrite zlen_list_set; lia). rewrite zset_ok by lia. f_equal.
      assert (LS : forall (l : list xreal) i v w, list_set (list_set l i v) i w = list_set l i w).
      { clear. induction l as [|a l IH]; destruct i; simpl; intros; auto. f_equal. apply IH. }
      rewrite LS. f_equal. unfold log_density_real; cbn [nadd nmul nneg nhalf real_arith lift1 lift2]. f_equal. unfold logp. lra.
    + unfold zset. destruct (Z.ltb_spec c (Z.of_nat (length o))); [unfold zlen in *; lia|]. rewrite !andb_false_r. reflexivity.
  - intros s f Hf. rewrite chk_int32_ok by (unfold int32_ok; nia). cbn [bind].
    rewrite (foldM_pair _ (fun p => vec x p * mat (nth (Z.to_nat c) F []) p f)%R (fun p => mat means c p * mat (nth (Z.to_nat c) F []) p f)%R).
    + cbn [bind]. simpl. do 2 f_equal.
      assert (E : sumr n (fun p => ((vec x p - mat means c p) * mat (nth (Z.to_nat c) F []) p f)%R) =
        (sumr n (fun p => vec x p * mat (nth (Z.to_nat c) F []) p f) - sumr n (fun p => mat means c p * mat (nth (Z.to_nat c) F []) p f))%R).
      { rewrite <- sumr_minus. apply sumr_ext. intros p Hp. lra. }
      rewrite E. lra.
    + intros a b p Hp. assert (p * n + f < n * n) by nia. assert (n * n <= k * n * n) by nia.
      rewrite chk_int32_ok by (unfold int32_ok; nia). cbn [bind]. rewrite chk_int32_ok by (unfold int32_ok; nia). cbn [bind].
      change (num real_arith) with xreal. rewrite zget_vec by lia. cbn [bind]. rewrite (concat3 F n c p f SF) by lia. cbn [bind].
      rewrite (concat_rect means n c p SM) by (fold k; lia). cbn [bind]. reflexivity.
Qed.

(** ** Conversion to full matrices *)
(** The factor of component [c]. *)
Definition fact (p : rchol) (c i f : Z) : R :=
  match p with
  | RFull l => mat (nth (Z.to_nat c) l []) i f
  | RTied l => mat l i f
  | RDiag l => if i =? f then mat l c i else 0%R
  | RSpherical l => if i =? f then vec l c else 0%R
  end.
Lemma nth_map_zrange {T} (g : Z -> T) n i d : 0 <= i < n -> nth (Z.to_nat i) (map g (zrange n)) d = g i.
Proof.
  intros H. pose proof (zget_nth (map g (zrange n)) i d) as E. rewrite zget_map, zget_zrange' in E by lia. cbn [bind] in E.
  assert (L : 0 <= i < zlen (map g (zrange n))) by (rewrite zlen_map, zlen_zrange'; lia). specialize (E L). congruence.
Qed.
Definition build (p : rchol) (k n : Z) : list (list (list R)) :=
  map (fun c => map (fun i => map (fun f => fact p c i f) (zrange n)) (zrange n)) (zrange k).
Lemma build_square p k n : 0 <= n -> Forall (square n) (build p k n).
Proof.
  intros Hn. apply Forall_forall. intros m Hm. apply in_map_iff in Hm as (c & <- & _). split.
  - rewrite zlen_map, zlen_zrange'. lia.
  - apply Forall_forall. intros r Hr. apply in_map_iff in Hr as (i & <- & _). rewrite zlen_map, zlen_zrange'. lia.
Qed.
Lemma build_entry p k n c i f : 0 <= c < k -> 0 <= i < n -> 0 <= f < n -> mat (nth (Z.to_nat c) (build p k n) []) i f = fact p c i f.
Proof. intros. unfold build, mat, vec. rewrite !nth_map_zrange by auto. reflexivity. Qed.
Lemma list_rebuild {T U} (g : T -> U) d (l : list T) n : n = zlen l -> map (fun i => g (nth (Z.to_nat i) l d)) (zrange n) = map g l.
Proof. intros ->. rewrite <- (map_znth d l) at 2. rewrite map_map. reflexivity. Qed.
Lemma zlen_map3 {T U} (g : T -> U) l n : zlen l = n -> zlen (map g l) = n.
Proof. intros. now rewrite zlen_map. Qed.
Lemma shape2_ok (l : list (list R)) a b : zlen l = a -> Forall (fun r => zlen r = b) l -> shape2 real_arith (map (map Fin) l) a b = true.
Proof.
  intros H F. unfold shape2. change (num real_arith) with xreal. rewrite zlen_map, H, Z.eqb_refl. cbn [andb]. apply forallb_forall. intros r Hr.
  apply in_map_iff in Hr as (q & <- & Hq). rewrite Forall_forall in F. rewrite zlen_Fin, (F q Hq). apply Z.eqb_refl.
Qed.
Lemma rebuild2 (l : list (list R)) n : square n l -> map (fun i => map (fun f => mat l i f) (zrange n)) (zrange n) = l.
Proof.
  intros [A B]. transitivity (map (fun r => r) l); [|apply map_id]. rewrite <- (list_rebuild (fun r => r) [] l n) by auto.
  apply map_ext_in. intros i Hi. apply Kernels.zrange_In in Hi.
  assert (Hr : In (nth (Z.to_nat i) l []) l) by (apply nth_In; unfold zlen in A; lia).
  rewrite Forall_forall in B. specialize (B _ Hr). unfold mat, vec.
  rewrite (list_rebuild (fun r => r) 0%R (nth (Z.to_nat i) l []) n) by auto. apply map_id.
Qed.
Theorem convert_ok p k n : 0 <= k -> 0 <= n -> shape_ok p k n ->
  convert_to_full real_arith k n (chol_of p) = Ret (map (map (map Fin)) (build p k n)).
Proof.
  intros Hk Hn S. assert (LB : zlen (build p k n) = k) by (unfold build; rewrite zlen_map, zlen_zrange'; lia).
  assert (FIN : forall out, out = map (map (map Fin)) (build p k n) ->
    (do* py_assert ((zlen out =? k) && forallb (fun m => shape2 real_arith m n n) out); Ret out) = Ret (map (map (map Fin)) (build p k n))).
  { intros out ->. change (num real_arith) with xreal. rewrite zlen_map, LB, Z.eqb_refl. cbn [andb].
    replace (forallb _ _) with true; [reflexivity|]. symmetry. apply forallb_forall. intros m Hm. apply in_map_iff in Hm as (q & <- & Hq).
    pose proof (build_square p k n Hn) as SQ. rewrite Forall_forall in SQ. destruct (SQ q Hq) as [A B]. apply shape2_ok; auto. }
  unfold convert_to_full. destruct p as [l|l|l|l]; cbn [chol_of] in *; simpl in S.
  - destruct S as [S1 S2]. cbn [bind]. apply FIN. f_equal. unfold build, fact. symmetry.
    transitivity (map (fun m => m) l); [|apply map_id]. rewrite <- (list_rebuild (fun m => m) [] l k) by auto. apply map_ext_in. intros c Hc. apply Kernels.zrange_In in Hc.
    rewrite Forall_forall in S2. apply rebuild2. apply S2. apply nth_In. unfold zlen in S1. lia.
  - rewrite shape2_ok by apply S. cbn [py_assert bind]. apply FIN. unfold build, fact. rewrite map_map. apply map_ext_in. intros c _.
    now rewrite rebuild2.
  - destruct S as [A B]. rewrite shape2_ok by auto. cbn [py_assert bind]. apply FIN. unfold build, fact. rewrite map_map.
    rewrite <- (list_rebuild (fun r => np_diag real_arith (map Fin r)) [] l k) by auto. rewrite map_map. apply map_ext_in. intros c Hc. apply Kernels.zrange_In in Hc.
    assert (Hr : In (nth (Z.to_nat c) l []) l) by (apply nth_In; unfold zlen in A; lia).
    rewrite Forall_forall in B. specialize (B _ Hr). unfold np_diag. change (num real_arith) with xreal. rewrite zlen_Fin, B. rewrite map_map.
    apply map_ext_in. intros i Hi. apply Kernels.zrange_In in Hi. rewrite map_map. apply map_ext_in. intros f Hf. destruct (i =? f); [|reflexivity].
    change (nzero real_arith) with (Fin 0). rewrite map_nth. reflexivity.
  - rewrite zlen_map, S, Z.eqb_refl. cbn [py_assert bind]. apply FIN. unfold build, fact. rewrite map_map.
    rewrite <- (list_rebuild (fun v => scaled_eye real_arith (Fin v) n) 0%R l k) by auto. rewrite map_map. apply map_ext_in. intros c Hc.
    unfold scaled_eye. rewrite map_map. apply map_ext_in. intros i Hi. rewrite map_map. apply map_ext_in. intros f Hf.
    unfold vec. destruct (i =? f); simpl; f_equal; lra.
Qed.

(** ** The quadratic form *)
Lemma quad_LLt n (L : Z -> Z -> R) (d : Z -> R) :
  sumr n (fun f => (sumr n (fun p => d p * L p f)) ^ 2)%R = quad n (fun i j => sumr n (fun f => L i f * L j f)%R) d.
Proof.
  unfold quad. transitivity (sumr n (fun f => sumr n (fun i => sumr n (fun j => (d i * L i f) * (d j * L j f))))%R).
  - apply sumr_ext. intros f Hf. set (g := fun p => (d p * L p f)%R).
    replace ((sumr n g) ^ 2)%R with (sumr n g * sumr n g)%R by ring. rewrite <- sumr_scal_r.
    apply sumr_ext. intros i Hi. rewrite <- sumr_scal. reflexivity.
  - rewrite sumr_swap. apply sumr_ext. intros i Hi. rewrite sumr_swap. apply sumr_ext. intros j Hj.
    rewrite <- sumr_scal, <- sumr_scal_r. apply sumr_ext. intros f Hf. ring.
Qed.
Lemma fact_precision p n c i j : 0 <= i < n -> 0 <= j < n ->
  sumr n (fun f => fact p c i f * fact p c j f)%R = precision p n c i j.
Proof.
  intros Hi Hj. destruct p as [l|l|l|l]; simpl; try reflexivity.
  - rewrite (sumr_delta n i); [|exact Hi|intros f Hf Nf; destruct (Z.eqb_spec i f); [lia|lra]]. rewrite Z.eqb_refl.
    rewrite (Z.eqb_sym j i). destruct (Z.eqb_spec i j) as [->|]; [ring|ring].
  - rewrite (sumr_delta n i); [|exact Hi|intros f Hf Nf; destruct (Z.eqb_spec i f); [lia|lra]]. rewrite Z.eqb_refl.
    rewrite (Z.eqb_sym j i). destruct (Z.eqb_spec i j) as [->|]; [ring|ring].
Qed.
Lemma fact_diag p c f : fact p c f f = chol_diag p c f.
Proof. destruct p; simpl; auto; rewrite Z.eqb_refl; reflexivity. Qed.

(** ** Log determinants *)
Definition logdets (p : rchol) (k n : Z) : list R := map (fun c => sumr n (fun f => ln (chol_diag p c f))) (zrange k).
Lemma log_det_ok p k n : 0 <= n -> log_det_cholesky real_arith (map (map (map Fin)) (build p k n)) n = Ret (map Fin (logdets p k n)).
Proof.
  intros Hn. unfold log_det_cholesky. apply mapM_Ret. unfold build, logdets. rewrite !map_map.
  assert (G : forall l : list Z, Forall2 (fun a b => foldM (fun s f => let* row := pyget a f in let* x := pyget row f in Ret (nadd real_arith s (nlog real_arith x))) (nzero real_arith) (zrange n) = Ret b)
     (map (fun c => map (map Fin) (map (fun i => map (fun f => fact p c i f) (zrange n)) (zrange n))) l)
     (map (fun c => Fin (sumr n (fun f => ln (chol_diag p c f)))) l)).
  { induction l as [|c l IH]; constructor; [|exact IH]. change (nzero real_arith) with (Fin 0).
    rewrite (foldM_sumr _ (fun f => ln (chol_diag p c f))). { rewrite Rplus_0_l. reflexivity. }
    intros s f Hf. rewrite (pyget_zget _ f (map Fin (map (fun g => fact p c f g) (zrange n)))).
    2:{ rewrite zget_map, zget_map, zget_zrange' by lia. reflexivity. }
    cbn [bind]. rewrite (pyget_zget _ f (Fin (fact p c f f))). 2:{ rewrite zget_map, zget_map, zget_zrange' by lia. reflexivity. }
    cbn [bind]. simpl. rewrite fact_diag. reflexivity. }
  apply G.
Qed.
Lemma ln_prod (g : Z -> R) l : (forall i, In i l -> 0 < g i)%R -> (0 < rprod (map g l))%R /\ ln (rprod (map g l)) = rsum (map (fun i => ln (g i)) l).
Proof.
  induction l as [|i l IH]; intros H; simpl.
  - split; [lra|apply ln_1].
  - destruct IH as [P E]; [intros; apply H; now right|]. assert (0 < g i)%R by (apply H; now left). split.
    + now apply Rmult_lt_0_compat.
    + rewrite ln_mult by auto. rewrite E. reflexivity.
Qed.
Lemma ln_pow_nat x m : (0 < x)%R -> ln (x ^ m) = (INR m * ln x)%R.
Proof.
  intros P. induction m as [|m IH]; [simpl; rewrite ln_1; lra|]. rewrite S_INR. simpl. rewrite ln_mult; [rewrite IH; ring|auto|now apply pow_lt].
Qed.

(** ** The converted model *)
Definition model_of (p : rchol) (n : Z) (means : list (list R)) (lw : list R) : mixture real_arith :=
  mk_mixture real_arith (zlen means) n CovFull (List.concat (map (map Fin) means))
    (List.concat (List.concat (map (map (map Fin)) (build p (zlen means) n)))) (map Fin (logdets p (zlen means) n)) (map Fin lw).
Theorem wrapper_ok p n means lw : 0 <= n -> shape_ok p (zlen means) n ->
  wrapper_model real_arith (map (map Fin) means) n (chol_of p) (map Fin lw) = Ret (model_of p n means lw).
Proof.
  intros Hn S. unfold wrapper_model. change (num real_arith) with xreal. rewrite (zlen_map (map Fin) means). cbv zeta. rewrite convert_ok; auto; [|apply zlen_nonneg]. cbn [bind].
  change (num real_arith) with xreal. rewrite log_det_ok by auto. reflexivity.
Qed.
(** The distance of EML_LOG_2PI from ln(2 pi). *)
Definition log2pi_err : R := (ln (2 * PI) - EML_LOG_2PI)%R.
Lemma PI2_pos : (0 < 2 * PI)%R.
Proof. pose proof PI_RGT_0. lra. Qed.
Lemma weighted_pos p n means lw x c : positive_chol p (zlen means) n -> 0 <= c < zlen means -> (0 < weighted p n means lw x c)%R.
Proof.
  intros P Hc. unfold weighted, density. apply Rmult_lt_0_compat; [apply exp_pos|]. apply Rdiv_lt_0_compat.
  - apply Rmult_lt_0_compat; [|apply exp_pos]. apply ln_prod. intros i Hi. apply P; auto. apply Kernels.zrange_In in Hi. exact Hi.
  - apply pow_lt, sqrt_lt_R0, PI2_pos.
Qed.
Lemma logp_weighted p n means lw x c : 0 <= n -> positive_chol p (zlen means) n -> 0 <= c < zlen means ->
  logp (build p (zlen means) n) means (logdets p (zlen means) n) lw x n c = (ln (weighted p n means lw x c) + IZR n / 2 * log2pi_err)%R.
Proof.
  intros Hn P Hc. unfold logp, weighted, density.
  assert (Q : sumr n (fun f => (sumr n (fun q => (vec x q - mat means c q) * mat (nth (Z.to_nat c) (build p (zlen means) n) []) q f)) ^ 2)%R =
              quad n (precision p n c) (fun i => vec x i - vec (nth (Z.to_nat c) means []) i)%R).
  { transitivity (sumr n (fun f => (sumr n (fun q => (vec x q - vec (nth (Z.to_nat c) means []) q) * fact p c q f)) ^ 2)%R).
    - apply sumr_ext. intros f Hf. f_equal. apply sumr_ext. intros q Hq. rewrite build_entry by auto. reflexivity.
    - rewrite (quad_LLt n (fact p c) (fun q => vec x q - vec (nth (Z.to_nat c) means []) q)%R). unfold quad. apply sumr_ext. intros i Hi. apply sumr_ext. intros j Hj.
      rewrite fact_precision by auto. reflexivity. }
  rewrite Q. set (q := quad _ _ _).
  destruct (ln_prod (chol_diag p c) (zrange n)) as [PP EP]. { intros i Hi. apply P; auto. apply Kernels.zrange_In in Hi. exact Hi. }
  assert (LD : vec (logdets p (zlen means) n) c = ln (rprod (map (chol_diag p c) (zrange n)))).
  { rewrite EP. unfold vec, logdets. rewrite nth_map_zrange by auto. reflexivity. }
  rewrite LD. pose proof PI2_pos as PP2. assert (SP : (0 < sqrt (2 * PI))%R) by (apply sqrt_lt_R0; auto).
  assert (PS : (0 < sqrt (2 * PI) ^ Z.to_nat n)%R) by (apply pow_lt; auto).
  pose proof (exp_pos (- (1 / 2) * q)) as EQ. pose proof (exp_pos (vec lw c)) as EW.
  change (rprod (map (chol_diag p c) (zrange n)) * exp (- (1 / 2) * q) / sqrt (2 * PI) ^ Z.to_nat n)%R with (rprod (map (chol_diag p c) (zrange n)) * exp (- (1 / 2) * q) * / sqrt (2 * PI) ^ Z.to_nat n)%R.
  rewrite (ln_mult (exp (vec lw c))); [|auto|apply Rmult_lt_0_compat; [apply Rmult_lt_0_compat; auto|apply Rinv_0_lt_compat; auto]].
  rewrite (ln_mult (rprod _ * _)); [|apply Rmult_lt_0_compat; auto|apply Rinv_0_lt_compat; auto]. rewrite (ln_mult (rprod _)) by auto. rewrite !ln_exp. rewrite ln_Rinv by auto.
  rewrite ln_pow_nat by auto. rewrite INR_IZR_INZ, Z2Nat.id by auto.
  assert (LS : ln (sqrt (2 * PI)) = (ln (2 * PI) / 2)%R).
  { assert (E : (ln (sqrt (2 * PI) * sqrt (2 * PI)) = ln (2 * PI))%R) by (rewrite sqrt_sqrt; [reflexivity|lra]). rewrite ln_mult in E by auto. lra. }
  rewrite LS. unfold log2pi_err. lra.
Qed.
Definition logps p n means lw x : list R :=
  map (fun c => ln (weighted p n means lw x c) + IZR n / 2 * log2pi_err)%R (zrange (zlen means)).
Theorem mixture_log_proba p n means lw x out : 1 <= zlen means -> 0 <= n -> zlen means * n * n < 2 ^ 31 -> zlen means * n < 2 ^ 31 ->
  Forall (fun r => zlen r = n) means -> positive_chol p (zlen means) n -> zlen lw = zlen means -> n <= zlen x -> @zlen xreal out = zlen means ->
  eml_mixture_predict_log_proba real_arith log_density_real (model_of p n means lw) (map Fin x) out = Ret (0, map Fin (logps p n means lw x)).
Proof.
  intros Hk Hn B1 B2 SM P LW LX LO. unfold model_of.
  assert (ZB : zlen (build p (zlen means) n) = zlen means) by (unfold build; rewrite zlen_map, zlen_zrange'; lia).
  assert (ZD : zlen (logdets p (zlen means) n) = zlen means) by (unfold logdets; rewrite zlen_map, zlen_zrange'; lia).
  rewrite (log_proba_ok (build p (zlen means) n) means (logdets p (zlen means) n) lw x n out); auto; try lia; [|now apply build_square].
  rewrite skipn_all2 by (unfold zlen in *; lia). rewrite app_nil_r. do 3 f_equal.
  apply map_ext_in. intros c Hc. apply Kernels.zrange_In in Hc. now apply logp_weighted.
Qed.
Lemma logps_nonempty p n means lw x : 1 <= zlen means -> logps p n means lw x <> [].
Proof.
  intros H E. assert (L : zlen (logps p n means lw x) = zlen means) by (unfold logps; rewrite zlen_map, zlen_zrange'; lia).
  rewrite E in L. unfold zlen in L at 1. simpl in L. lia.
Qed.
Lemma total_pos p n means lw x : 1 <= zlen means -> positive_chol p (zlen means) n -> (0 < total p n means lw x)%R.
Proof.
  intros H P. unfold total. replace (zlen means) with (zlen means - 1 + 1) by lia. rewrite sumr_S by lia.
  assert (0 < weighted p n means lw x (zlen means - 1))%R by (apply weighted_pos; auto; lia).
  assert (0 <= sumr (zlen means - 1) (weighted p n means lw x))%R; [|lra].
  apply sumr_nonneg. intros i Hi. apply Rlt_le, weighted_pos; auto. lia.
Qed.
Lemma sum_exp_logps p n means lw x : positive_chol p (zlen means) n ->
  rsum (map exp (logps p n means lw x)) = (total p n means lw x * exp (IZR n / 2 * log2pi_err))%R.
Proof.
  intros P. unfold logps, total. rewrite map_map. fold (sumr (zlen means) (fun c => exp (ln (weighted p n means lw x c) + IZR n / 2 * log2pi_err))).
  rewrite <- sumr_scal_r. apply sumr_ext. intros c Hc. rewrite exp_plus, exp_ln; [reflexivity|]. now apply weighted_pos.
Qed.
Theorem mixture_score p n means lw x out s0 : 1 <= zlen means -> 0 <= n -> zlen means * n * n < 2 ^ 31 -> zlen means * n < 2 ^ 31 ->
  Forall (fun r => zlen r = n) means -> positive_chol p (zlen means) n -> zlen lw = zlen means -> n <= zlen x -> @zlen xreal out = zlen means ->
  eml_mixture_score real_arith log_density_real (model_of p n means lw) (map Fin x) out s0 =
  Ret (0, map Fin (logps p n means lw x), Fin (ln (total p n means lw x) + IZR n / 2 * log2pi_err)).
Proof.
  intros Hk Hn B1 B2 SM P LW LX LO. unfold eml_mixture_score. rewrite mixture_log_proba by auto. cbn [bind].
  replace (m_n_components real_arith (model_of p n means lw)) with (zlen means) by reflexivity.
  destruct (Z.ltb_spec 0 (zlen means)); [|lia]. cbn [negb].
  change (0 =? 0) with true. cbn [negb].
  pose proof (logsumexp_ok (logps p n means lw x) [] (logps_nonempty _ _ _ _ _ Hk)) as E. rewrite app_nil_r in E.
  replace (zlen (logps p n means lw x)) with (zlen means) in E by (unfold logps; rewrite zlen_map, zlen_zrange'; lia).
  change (num real_arith) with xreal in *. rewrite E. cbn [bind]. do 3 f_equal. rewrite sum_exp_logps by auto.
  pose proof (total_pos p n means lw x Hk P). rewrite ln_mult; [|auto|apply exp_pos]. now rewrite ln_exp.
Qed.
Theorem mixture_proba p n means lw x out s0 r0 : 1 <= zlen means -> 0 <= n -> zlen means * n * n < 2 ^ 31 -> zlen means * n < 2 ^ 31 ->
  Forall (fun r => zlen r = n) means -> positive_chol p (zlen means) n -> zlen lw = zlen means -> n <= zlen x ->
  @zlen xreal out = zlen means -> @zlen xreal r0 = zlen means ->
  eml_mixture_predict_proba real_arith log_density_real (model_of p n means lw) (map Fin x) out s0 r0 =
  Ret (0, map Fin (logps p n means lw x), Fin (ln (total p n means lw x) + IZR n / 2 * log2pi_err),
       map Fin (map (fun c => weighted p n means lw x c / total p n means lw x)%R (zrange (zlen means)))).
Proof.
  intros Hk Hn B1 B2 SM P LW LX LO LR. unfold eml_mixture_predict_proba. rewrite mixture_score by auto. cbn [bind].
  replace (m_n_components real_arith (model_of p n means lw)) with (zlen means) by reflexivity.
  destruct (Z.ltb_spec 0 (zlen means)); [|lia]. cbn [negb]. change (0 =? 0) with true. cbn [negb]. change (num real_arith) with xreal.
  set (T := total p n means lw x). set (e := (IZR n / 2 * log2pi_err)%R).
  assert (LL : zlen (logps p n means lw x) = zlen means) by (unfold logps; rewrite zlen_map, zlen_zrange'; lia).
  rewrite (fill_app_ext _ (fun c => Fin (ln (weighted p n means lw x c) - ln T)) r0 (zlen means)); [|lia|].
  2:{ intros o i Hi. rewrite zget_vec by lia. cbn [bind]. f_equal. simpl. f_equal. unfold vec, logps. rewrite nth_map_zrange by auto. unfold e. lra. }
  cbn [bind]. rewrite (skipn_all2 r0) by (unfold zlen in *; lia).
  pose proof (update_app (lift1 exp) (map (fun c => Fin (ln (weighted p n means lw x c) - ln T)) (zrange (zlen means))) [] (zlen means)) as U.
  rewrite zlen_map, zlen_zrange' in U. specialize (U ltac:(lia)).
  change (nexp real_arith) with (lift1 exp). rewrite U. cbn [bind]. do 2 f_equal. rewrite app_nil_r, !map_map. apply map_ext_in. intros c Hc. apply Kernels.zrange_In in Hc.
  cbn [lift1]. f_equal. pose proof (total_pos p n means lw x Hk P) as TP. pose proof (weighted_pos p n means lw x c P Hc) as WP.
  unfold Rminus. rewrite exp_plus, exp_Ropp, !exp_ln by auto. reflexivity.
Qed.

Theorem log2pi_err_small : (Rabs log2pi_err <= 1 / 10000000000000)%R.
Proof. apply ln_2pi. Qed.

(** ** numpy.argmax *)
Definition am_step '(best, bi, i) v : Z * Z * Z := if best <? v then (v, i, i + 1) else (best, bi, i + 1).
Lemma argmax_inv (done_ todo : list Z) best bi : zget done_ bi = Ret best ->
  (forall j v, zget done_ j = Ret v -> v <= best /\ (j < bi -> v < best)) ->
  exists b c, fold_left am_step todo (best, bi, zlen done_) = (b, c, zlen (done_ ++ todo)) /\ zget (done_ ++ todo) c = Ret b /\
    (forall j v, zget (done_ ++ todo) j = Ret v -> v <= b /\ (j < c -> v < b)).
Proof.
  revert done_ best bi. induction todo as [|x todo IH]; intros d best bi H1 H2.
  - exists best, bi. rewrite app_nil_r. auto.
  - cbn [fold_left]. replace (d ++ x :: todo) with ((d ++ [x]) ++ todo) by (rewrite <- app_assoc; reflexivity).
    assert (ZL : zlen d + 1 = zlen (d ++ [x])) by (rewrite zlen_app; reflexivity).
    unfold am_step at 2. destruct (Z.ltb_spec best x) as [L|L]; rewrite ZL; apply IH.
    + apply zget_last.
    + intros j v Hj. apply zget_app_inv in Hj as [Hj|[Hj1 Hj2]].
      * destruct (H2 j v Hj). apply zget_bound in Hj. split; [lia|lia].
      * apply zget_Ret in Hj2 as [A B]. destruct (Z.to_nat (j - zlen d)) as [|k] eqn:K; [|destruct k; discriminate]. simpl in B. injection B as ->. lia.
    + now apply zget_app1.
    + intros j v Hj. apply zget_app_inv in Hj as [Hj|[Hj1 Hj2]]; [auto|].
      apply zget_Ret in Hj2 as [A B]. destruct (Z.to_nat (j - zlen d)) as [|k] eqn:K; [|destruct k; discriminate]. simpl in B. injection B as ->.
      apply zget_bound in H1. lia.
Qed.
Theorem argmaxZ_ok (l : list Z) : l <> [] -> exists b, zget l (argmaxZ l) = Ret b /\
  (forall j v, zget l j = Ret v -> v <= b /\ (j < argmaxZ l -> v < b)).
Proof.
  destruct l as [|x l]; [congruence|]. intros _. unfold argmaxZ. cbn [hd tl].
  destruct (argmax_inv [x] l x 0) as (b & c & E & Z & M).
  - reflexivity.
  - intros j v Hj. apply zget_bound in Hj as Bj. unfold zlen in Bj. simpl in Bj. replace j with 0 in Hj by lia. injection Hj as ->. lia.
  - change (zlen [x]) with 1 in E. unfold am_step in E. simpl app in *. rewrite E. cbn [fst snd]. exists b. auto.
Qed.
