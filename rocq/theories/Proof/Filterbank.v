(** Sparse filterbanks. *)
From Coq Require Import ZArith List Bool Lia Reals Lra.
From Verif.Base Require Import Res CInt ListX Loops Arith Kernels RealSum.
From Verif.Model Require Import Common Vector Fft Audio.
From Verif.Spec Require Import RealSpec FftSpec AudioSpec.
Import ListNotations.
Open Scope Z_scope.
Open Scope res_scope.

Lemma pyget_iff {X} (l : list X) i a : 0 <= i -> pyget l i = Ret a <-> zget l i = Ret a.
Proof.
  intros H. split; [|apply pyget_zget]. unfold pyget, zget. destruct (Z.ltb_spec i 0); [lia|].
  destruct (Z.ltb_spec i 0); [lia|]. destruct (nth_error l (Z.to_nat i)); congruence.
Qed.

(** Loops: if one returns, so does the other. *)
Lemma foldM_sim {X S} (Inv : S -> Prop) (f g : S -> X -> res S) l : forall s s',
  Inv s -> (forall s a s', In a l -> Inv s -> f s a = Ret s' -> g s a = Ret s' /\ Inv s') ->
  foldM f s l = Ret s' -> foldM g s l = Ret s' /\ Inv s'.
Proof.
  induction l as [|a l IH]; intros s s' HI H E; cbn in *; [injection E as <-; auto|].
  apply bind_Ret in E as (s1 & E1 & E2). destruct (H s a s1 (or_introl eq_refl) HI E1) as [-> I1]. cbn [bind].
  apply IH; auto.
Qed.

Section Any.
Context (A : arith).

(** ** Python and C agree *)
Lemma c_is_python starts ends coeffs input out :
  Forall (fun s => 0 <= s) starts -> zlen coeffs < 2 ^ 31 ->
  sparse_filterbank_reduce A (starts, ends, coeffs) input = Ret out ->
  sparse_filterbank_py A input starts ends coeffs = Ret out.
Proof.
  intros HS HC. change (2 ^ 31) with 2147483648 in HC. unfold sparse_filterbank_reduce, sparse_filterbank_py.
  destruct (Z.eqb_spec (zlen starts) (zlen ends)) as [E|]; [|discriminate]. cbn [py_assert bind negb]. intros H.
  apply bind_Ret in H as ([out' off] & H & E'). injection E' as ->.
  unfold eml_sparse_filterbank.
  assert (F : foldM (fun o i => zset o i (nzero A)) (repeat (nzero A) (length starts)) (zrange (zlen starts)) = Ret (repeat (nzero A) (length starts))).
  { destruct (foldM_range_inv (fun o i => zset o i (nzero A)) (fun k o => o = repeat (nzero A) (length starts)) (zlen starts) (repeat (nzero A) (length starts))) as (o & Eo & ->); auto.
    - apply zlen_nonneg.
    - intros i s0 Hi ->. eexists. split; [|reflexivity]. rewrite zset_ok by (rewrite zlen_repeat; unfold zlen in Hi; lia). f_equal.
      apply zget_eq; [apply zlen_list_set|]. intros k Hk. rewrite zlen_list_set, zlen_repeat in Hk.
      rewrite zget_list_set by (rewrite zlen_repeat; unfold zlen in Hi; lia).
      rewrite zget_repeat by lia. destruct (i =? k); auto. }
  rewrite F. cbn [bind].
  match type of H with foldM ?f _ _ = _ => match goal with |- context[foldM ?g _ (zrange (zlen starts))] =>
    destruct (foldM_sim (fun st => 0 <= snd st) f g (zrange (zlen starts)) (repeat (nzero A) (length starts), 0) (out, off)) as [G _] end end; auto.
  - cbn; lia.
  - intros [o of_] i [o1 of1] Hi HI Hb. apply Res.zrange_In in Hi. cbn [snd] in HI.
    apply bind_Ret in Hb as (s & Es & Hb). apply bind_Ret in Hb as (e & Ee & Hb).
    apply pyget_iff in Es; [|lia]. apply pyget_iff in Ee; [|lia]. rewrite Es, Ee. cbn [bind].
    assert (0 <= s). { apply zget_In in Es. rewrite Forall_forall in HS. auto. }
    replace (e - s + 1) with (e + 1 - s) by lia.
    eapply (foldM_sim (fun st => 0 <= snd st)); [| |exact Hb]; [cbn; lia|].
    clear - HC H0 Hi. intros [o of_] d [o1 of1] Hd HI Hb. apply Res.zrange_In in Hd. cbn [snd] in *. cbv zeta in *.
    apply bind_Ret in Hb as (v & Ev & Hb). apply bind_Ret in Hb as (x & Ex & Hb). apply bind_Ret in Hb as (c & Ec & Hb).
    apply bind_Ret in Hb as (o2 & Eo & Hb). injection Hb as <- <-.
    apply pyget_iff in Ev; [|lia]. apply pyget_iff in Ex; [|lia]. apply pyget_iff in Ec; [|lia].
    rewrite Ec, Ev, Ex. cbn [bind]. rewrite Eo. cbn [bind].
    apply zget_bound in Ec. rewrite chk_int32_ok by (unfold int32_ok; lia). cbn [bind]. split; [auto|lia].
  - rewrite G. reflexivity.
Qed.

End Any.

(** ** Building *)
Definition isz (v : R) : bool := if Req_EM_T v 0 then true else false.
Fixpoint nzpos (off : Z) (row : list R) : list Z :=
  match row with [] => [] | v :: r => if isz v then nzpos (off + 1) r else off :: nzpos (off + 1) r end.
Definition nzvals (row : list R) : list R := filter (fun v => negb (isz v)) row.

Lemma isz_test v : negb (nleb real_arith (Fin v) (nzero real_arith) && nleb real_arith (nzero real_arith) (Fin v)) = negb (isz v).
Proof.
  cbn. unfold isz. destruct (Rle_dec v 0); destruct (Rle_dec 0 v); destruct (Req_EM_T v 0); cbn; auto; lra.
Qed.
Lemma np_nonzero_pos row : np_nonzero real_arith (map Fin row) = nzpos 0 row.
Proof.
  unfold np_nonzero. change (num real_arith) with xreal. rewrite zlen_map.
  assert (G : forall off, map fst (filter (fun p : Z * xreal => negb (nleb real_arith (snd p) (nzero real_arith) && nleb real_arith (nzero real_arith) (snd p)))
     (combine (map (fun k => off + Z.of_nat k) (seq 0 (length row))) (map Fin row))) = nzpos off row).
  { induction row as [|v r IH]; intros off; [reflexivity|]. cbn [length seq map combine filter snd].
    rewrite isz_test. cbn [nzpos].
    assert (E : map (fun k => off + Z.of_nat k) (seq 1 (length r)) = map (fun k => (off + 1) + Z.of_nat k) (seq 0 (length r))).
    { rewrite <- seq_shift, map_map. apply map_ext. intros. lia. }
    rewrite E. destruct (isz v); cbn [negb map fst]; rewrite IH; auto. f_equal. lia. }
  specialize (G 0). unfold zrange, zlen. rewrite Nat2Z.id.
  assert (map Z.of_nat (seq 0 (length row)) = map (fun k => 0 + Z.of_nat k) (seq 0 (length row))) as -> by (apply map_ext; intros; lia).
  exact G.
Qed.

Lemma nz_values row : mapM (fun i => pyget (map Fin row) i) (nzpos 0 row) = Ret (map Fin (nzvals row)).
Proof.
  assert (G : forall suf pre, row = pre ++ suf -> mapM (fun i => pyget (map Fin row) i) (nzpos (zlen pre) suf) = Ret (map Fin (nzvals suf))).
  { induction suf as [|v r IH]; intros pre E; [reflexivity|]. cbn [nzpos nzvals filter].
    assert (IH' := IH (pre ++ [v]) ltac:(rewrite <- app_assoc; exact E)).
    rewrite zlen_app in IH'. change (zlen [v]) with 1 in IH'. unfold nzvals in IH'.
    destruct (isz v); cbn [negb]; [exact IH'|]. cbn [mapM map].
    assert (P : pyget (map Fin row) (zlen pre) = Ret (Fin v)).
    { apply pyget_zget. apply zget_Ret. split; [apply zlen_nonneg|]. unfold zlen. rewrite Nat2Z.id, nth_error_map, E.
      rewrite nth_error_app2 by lia. rewrite Nat.sub_diag. reflexivity. }
    rewrite P. cbn [bind]. rewrite IH'. reflexivity. }
  apply (G row []). reflexivity.
Qed.

(** Every row with a nonzero number has a core between its first and last one. *)
Definition core (b : list R) : Prop := exists v m w, (b = [v] \/ b = v :: m ++ [w]) /\ v <> 0%R /\ w <> 0%R.
Lemma repeat_snoc {X} (a : X) n : repeat a n ++ [a] = a :: repeat a n.
Proof. induction n; cbn; auto. now rewrite IHn. Qed.
Lemma row_cases row : (Forall (fun v => v = 0%R) row) \/ exists a b c, row = repeat 0%R a ++ b ++ repeat 0%R c /\ core b.
Proof.
  induction row as [|v r IH]; [left; constructor|].
  destruct IH as [Z0|(a & b & c & -> & C)].
  - destruct (Req_EM_T v 0) as [->|N]; [left; now constructor|]. right. exists 0%nat, [v], (length r). split.
    + cbn. f_equal. clear - Z0. induction Z0; [reflexivity|]. cbn. now rewrite <- IHZ0, H.
    + exists v, [], v. auto.
  - right. destruct (Req_EM_T v 0) as [->|N].
    + exists (S a), b, c. auto.
    + exists 0%nat, (v :: repeat 0%R a ++ b), c. split; [cbn; now rewrite <- app_assoc|].
      destruct C as (x & m & w & [-> | ->] & Hx & Hw).
      * exists v, (repeat 0%R a), x. auto.
      * exists v, (repeat 0%R a ++ x :: m), w. split; [right; now rewrite <- app_assoc|]. auto.
Qed.

Lemma nzpos_zeros n off r : nzpos off (repeat 0%R n ++ r) = nzpos (off + Z.of_nat n) r.
Proof.
  revert off; induction n; intros; cbn [repeat app nzpos]; [f_equal; lia|].
  unfold isz at 1. destruct (Req_EM_T 0 0); [|lra]. rewrite IHn. f_equal. lia.
Qed.
Lemma nzpos_app off l1 l2 : nzpos off (l1 ++ l2) = nzpos off l1 ++ nzpos (off + zlen l1) l2.
Proof.
  revert off; induction l1 as [|v r IH]; intros; [cbn; f_equal; unfold zlen; cbn; lia|].
  cbn [app nzpos]. rewrite zlen_cons. rewrite IH. replace (off + 1 + zlen r) with (off + (1 + zlen r)) by lia.
  destruct (isz v); auto.
Qed.
Lemma isz_no v : v <> 0%R -> isz v = false.
Proof. unfold isz. destruct (Req_EM_T v 0); congruence. Qed.
Lemma core_ends a b c : core b ->
  pyget (nzpos 0 (repeat 0%R a ++ b ++ repeat 0%R c)) 0 = Ret (Z.of_nat a) /\
  pyget (nzpos 0 (repeat 0%R a ++ b ++ repeat 0%R c)) (-1) = Ret (Z.of_nat a + zlen b - 1).
Proof.
  intros C. rewrite nzpos_zeros, nzpos_app.
  assert (Zc : forall off, nzpos off (repeat 0%R c) = []).
  { intros. rewrite <- (app_nil_r (repeat 0%R c)). now rewrite nzpos_zeros. }
  rewrite Zc, app_nil_r, Z.add_0_l.
  assert (LASTG : forall (l : list Z) x, pyget (l ++ [x]) (-1) = Ret x).
  { intros. unfold pyget. cbn. rewrite zlen_app. change (zlen [x]) with 1. pose proof (zlen_nonneg l).
    destruct (Z.ltb_spec (-1 + (zlen l + 1)) 0); [lia|]. replace (Z.to_nat (-1 + (zlen l + 1))) with (length l) by (unfold zlen in *; lia).
    rewrite nth_error_app2 by lia. now rewrite Nat.sub_diag. }
  destruct C as (v & m & w & [-> | ->] & Hv & Hw).
  - cbn [nzpos]. rewrite isz_no by auto. split; [reflexivity|]. change (Z.of_nat a + zlen [v] - 1) with (Z.of_nat a + 1 - 1). replace (Z.of_nat a + 1 - 1) with (Z.of_nat a) by lia. reflexivity.
  - cbn [nzpos]. rewrite isz_no by auto. split; [reflexivity|]. rewrite nzpos_app. cbn [nzpos]. rewrite isz_no by auto.
    rewrite app_comm_cons, LASTG. f_equal. rewrite zlen_cons, zlen_app. change (zlen [w]) with 1. lia.
Qed.
Lemma nzvals_core a b c : nzvals (repeat 0%R a ++ b ++ repeat 0%R c) = nzvals b.
Proof.
  assert (Zc : forall k, nzvals (repeat 0%R k) = []).
  { induction k; auto. cbn. unfold isz at 1. destruct (Req_EM_T 0 0); [|lra]. exact IHk. }
  unfold nzvals in *. rewrite !filter_app, !Zc. cbn. apply app_nil_r.
Qed.

(** The filterbank as a list of (leading zeros, core, trailing zeros). *)
Definition row_of (t : nat * list R * nat) : list R := let '(a, b, c) := t in repeat 0%R a ++ b ++ repeat 0%R c.
Definition start_of (t : nat * list R * nat) : Z := Z.of_nat (fst (fst t)).
Definition mid (t : nat * list R * nat) : list R := snd (fst t).
Definition end_of (t : nat * list R * nat) : Z := start_of t + zlen (mid t) - 1.
Lemma build_ok ts : Forall (fun t => core (mid t)) ts ->
  sparse_filterbank real_arith (map (fun t => map Fin (row_of t)) ts) =
  Ret (map start_of ts, map end_of ts, map Fin (List.concat (map (fun t => nzvals (mid t)) ts))).
Proof.
  intros H. unfold sparse_filterbank.
  assert (G : forall ts, Forall (fun t => core (mid t)) ts -> forall s e c,
    foldM (fun '(starts, ends, coeffs) mel =>
      let nonzero := np_nonzero real_arith mel in
      let* first := pyget nonzero 0 in
      let* last := pyget nonzero (-1) in
      let* vals := mapM (fun i => pyget mel i) nonzero in
      Ret (starts ++ [first], ends ++ [last], coeffs ++ vals)) (s, e, c) (map (fun t => map Fin (row_of t)) ts) =
    Ret (s ++ map start_of ts, e ++ map end_of ts, c ++ map Fin (List.concat (map (fun t => nzvals (mid t)) ts)))).
  { clear. induction ts as [|[[a b] c0] ts IH]; intros H s e c; [cbn; now rewrite !app_nil_r|].
    inversion H as [|? ? C Cs]; subst. cbn [map foldM]. cbv zeta. unfold mid in C. cbn in C.
    change (num real_arith) with xreal. rewrite np_nonzero_pos, nz_values. unfold row_of at 1 2 3.
    destruct (core_ends a b c0 C) as [-> ->]. cbn [bind]. rewrite nzvals_core.
    rewrite IH by auto. unfold start_of, end_of, mid. cbn [fst snd map List.concat]. rewrite map_app, <- !app_assoc. reflexivity. }
  exact (G ts H [] [] []).
Qed.
Lemma build_cases mels : (exists ts, mels = map row_of ts /\ Forall (fun t => core (mid t)) ts) \/
  Exists (Forall (fun v => v = 0%R)) mels.
Proof.
  induction mels as [|r mels IH]; [left; exists []; auto|].
  destruct (row_cases r) as [Z0|(a & b & c & -> & C)]; [right; now left|].
  destruct IH as [(ts & -> & F)|E]; [|right; now right]. left. exists ((a, b, c) :: ts). split; auto.
Qed.
Lemma build_empty mels : Exists (Forall (fun v => v = 0%R)) mels ->
  sparse_filterbank real_arith (map (map Fin) mels) = Err IndexError_.
Proof.
  unfold sparse_filterbank. match goal with |- _ -> foldM ?f _ _ = _ => set (body := f) end. change (num real_arith) with xreal in *.
  cut (forall c e s, Exists (Forall (fun v => v = 0%R)) mels -> foldM body (s, e, c) (map (map Fin) mels) = Err IndexError_); [intros X H; exact (X [] [] [] H)|].
  unfold body. clear body. induction mels as [|r mels IH]; intros c e s H; [inversion H|]. cbn [map foldM]. cbv zeta.
  destruct (row_cases r) as [Z0|(a & b & c0 & -> & C)].
  - assert (np_nonzero real_arith (map Fin r) = []) as ->; [|reflexivity].
    rewrite np_nonzero_pos. generalize 0. clear - Z0. induction Z0; intros; [reflexivity|]. cbn [nzpos]. subst x.
    unfold isz. destruct (Req_EM_T 0 0); [|lra]. apply IHZ0.
  - rewrite np_nonzero_pos, nz_values. destruct (core_ends a b c0 C) as [-> ->]. cbn [bind]. apply IH.
    inversion H as [? ? Z0|]; subst; auto. exfalso.
    destruct C as (v & m & w & [-> | ->] & Hv & _); rewrite !Forall_app in Z0; destruct Z0 as (_ & Z1 & _);
      inversion Z1; subst; congruence.
Qed.

(** ** Reducing *)
Definition ibody (c input : list xreal) (i s : Z) : list xreal * Z -> Z -> res (list xreal * Z) :=
  fun '(out, offset) d =>
    let j := s + d in
    let* o := pyget out i in
    let* x := pyget input j in
    let* c := pyget c offset in
    let* out := zset out i (nadd real_arith o (nmul real_arith x c)) in
    Ret (out, offset + 1).
Definition obody (starts ends : list Z) (c input : list xreal) : list xreal * Z -> Z -> res (list xreal * Z) :=
  fun '(out, offset) i =>
    let* s := pyget starts i in
    let* e := pyget ends i in
    foldM (ibody c input i s) (out, offset) (zrange (e + 1 - s)).
Lemma reduce_unfold starts ends c input : sparse_filterbank_reduce real_arith (starts, ends, c) input =
  do* py_assert (zlen starts =? zlen ends);
  let* (out, _) := foldM (obody starts ends c input) (repeat (Fin 0) (length starts), 0) (zrange (zlen starts)) in Ret out.
Proof. reflexivity. Qed.

(** A run that returns has a coefficient for every step. *)
Lemma inner_count c input i s l : forall out off st, 0 <= off ->
  foldM (ibody c input i s) (out, off) l = Ret st -> snd st = off + zlen l /\ (l <> [] -> snd st <= zlen c).
Proof.
  induction l as [|d l IH]; intros out off st Ho H.
  - cbn in H. injection H as <-. cbn. split; [unfold zlen; cbn; lia|congruence].
  - cbn [foldM] in H. apply bind_Ret in H as ([out1 off1] & E & H). unfold ibody in E. cbv zeta in E.
    apply bind_Ret in E as (o & _ & E). apply bind_Ret in E as (x & _ & E). apply bind_Ret in E as (v & Ev & E).
    apply bind_Ret in E as (o2 & _ & E). injection E as _ <-.
    apply pyget_iff in Ev; [|lia]. apply zget_bound in Ev. apply IH in H as [H1 H2]; [|lia].
    rewrite zlen_cons. split; [lia|]. intros _. destruct l; [rewrite H1; unfold zlen in *; cbn; lia|]. apply H2. congruence.
Qed.
Lemma count_total ts c input out off st : Forall (fun t => mid t <> []) ts ->
  foldM (obody (map start_of ts) (map end_of ts) c input) (out, 0) (zrange (zlen ts)) = Ret (st, off) ->
  zlen (List.concat (map mid ts)) <= zlen c.
Proof.
  intros HN H.
  assert (G : forall post pre out off0 st, ts = pre ++ post -> off0 = zlen (List.concat (map mid pre)) -> off0 <= zlen c ->
     foldM (obody (map start_of ts) (map end_of ts) c input) (out, off0) (map (fun k => zlen pre + k) (zrange (zlen post))) = Ret st ->
     zlen (List.concat (map mid ts)) <= zlen c).
  { clear out off st H. induction post as [|t post IH]; intros pre out off0 st E Eo Ho H.
    - rewrite app_nil_r in E. subst pre. lia.
    - rewrite zlen_cons in H. pose proof (zlen_nonneg post).
      assert (EZ : map (fun k => zlen pre + k) (zrange (1 + zlen post)) = zlen pre :: map (fun k => zlen (pre ++ [t]) + k) (zrange (zlen post))).
      { unfold zrange. replace (Z.to_nat (1 + zlen post)) with (S (Z.to_nat (zlen post))) by lia. cbn [seq map]. f_equal; [lia|].
        rewrite <- seq_shift, !map_map. apply map_ext. intros. rewrite zlen_app. change (zlen [t]) with 1. lia. }
      rewrite EZ in H. cbn [foldM] in H. apply bind_Ret in H as ([o1 f1] & E1 & H).
      unfold obody in E1. apply bind_Ret in E1 as (s & Es & E1). apply bind_Ret in E1 as (e & Ee & E1).
      assert (GG : forall g : nat * list R * nat -> Z, zget (map g ts) (zlen pre) = Ret (g t)).
      { intros g. apply zget_Ret. split; [apply zlen_nonneg|]. unfold zlen. rewrite Nat2Z.id, nth_error_map, E, nth_error_app2, Nat.sub_diag by lia. reflexivity. }
      apply pyget_iff in Es; [|apply zlen_nonneg]. apply pyget_iff in Ee; [|apply zlen_nonneg].
      rewrite GG in Es, Ee. injection Es as <-. injection Ee as <-.
      assert (HM : mid t <> []) by (rewrite Forall_forall in HN; apply HN; rewrite E; apply in_or_app; right; now left).
      assert (1 <= zlen (mid t)) by (destruct (mid t); [congruence|rewrite zlen_cons; pose proof (zlen_nonneg l); lia]).
      replace (end_of t + 1 - start_of t) with (zlen (mid t)) in E1 by (unfold end_of; lia).
      apply inner_count in E1 as [C1 C2]; [|subst off0; apply zlen_nonneg]. cbn [snd] in *.
      assert (LZ : zlen (zrange (zlen (mid t))) = zlen (mid t)) by (rewrite zlen_zrange'; lia). rewrite LZ in C1.
      eapply (IH (pre ++ [t])); [rewrite <- app_assoc; exact E| | |exact H].
      + rewrite map_app, concat_app, zlen_app. cbn. rewrite app_nil_r. lia.
      + apply C2. intros X. rewrite X in LZ. unfold zlen in LZ at 1. cbn in LZ. lia. }
  eapply (G ts []); [reflexivity|reflexivity|apply zlen_nonneg|].
  match goal with |- foldM _ _ ?l = _ => assert (l = zrange (zlen ts)) as -> end; [|exact H].
  rewrite <- (map_id (zrange (zlen ts))) at 2. apply map_ext. intros. unfold zlen at 1. cbn. lia.
Qed.

(** With enough coefficients the result is the sum over each core. *)
Lemma inner_sum (c : list R) (x : list R) i s m : forall off out acc, 0 <= i -> zget out i = Ret (Fin acc) -> 0 <= off -> 0 <= m ->
  off + m <= zlen c -> 0 <= s -> s + m <= zlen x ->
  exists out', foldM (ibody (map Fin c) (map Fin x) i s) (out, off) (zrange m) = Ret (out', off + m) /\ zlen out' = zlen out /\
    zget out' i = Ret (Fin (acc + sumr m (fun d => entry x (s + d) * entry c (off + d))%R)) /\
    (forall k, k <> i -> zget out' k = zget out k).
Proof.
  intros off out acc Hi Hg Ho Hm Hc Hs Hx.
  destruct (foldM_range_inv (ibody (map Fin c) (map Fin x) i s)
    (fun k st => snd st = off + k /\ zlen (fst st) = zlen out /\
       zget (fst st) i = Ret (Fin (acc + sumr k (fun d => entry x (s + d) * entry c (off + d))%R)) /\
       (forall q, q <> i -> zget (fst st) q = zget out q)) m (out, off)) as ([o' f'] & E & S1 & S2 & S3 & S4); auto.
  - cbn [fst snd]. split; [lia|]. split; auto. split; auto. rewrite sumr_0, Rplus_0_r by lia. exact Hg.
  - intros k [o f] Hk (S1 & S2 & S3 & S4). cbn [fst snd] in *. unfold ibody. cbv zeta.
    rewrite (pyget_zget _ _ _ S3). cbn [bind].
    assert (EN : forall (l : list R) p, 0 <= p < zlen l -> pyget (map Fin l) p = Ret (Fin (entry l p))).
    { intros l p Hp. apply pyget_zget. rewrite (zget_nth _ _ (Fin 0)) by (rewrite zlen_map; lia). f_equal. apply (map_nth Fin). }
    rewrite EN by lia. cbn [bind]. rewrite S1. rewrite EN by lia. cbn [bind].
    assert (0 <= i < zlen o) by (split; [auto|apply zget_bound in S3; lia]).
    rewrite zset_ok by auto. cbn [bind]. eexists. split; [reflexivity|]. cbn [fst snd].
    split; [lia|]. split; [now rewrite zlen_list_set|]. split.
    + rewrite zget_list_set by auto. rewrite Z.eqb_refl. rewrite sumr_S by lia. apply (f_equal (fun r => Ret (Fin r))). ring.
    + intros q Hq. rewrite zget_list_set by auto. destruct (Z.eqb_spec i q); [congruence|]. auto.
  - exists o'. cbn [fst snd] in *. subst f'. auto.
Qed.

Definition offset_of (ts : list (nat * list R * nat)) (i : Z) : Z := zlen (List.concat (map mid (firstn (Z.to_nat i) ts))).
Lemma reduce_ok ts x : Forall (fun t => zlen (row_of t) <= zlen x) ts ->
  exists out, sparse_filterbank_reduce real_arith (map start_of ts, map end_of ts, map Fin (List.concat (map mid ts))) (map Fin x) = Ret (map Fin out) /\
    out = map (fun t => sumr (zlen (mid t)) (fun d => entry x (start_of t + d) * entry (mid t) d)%R) ts.
Proof.
  intros HX. eexists. split; [|reflexivity]. rewrite reduce_unfold. rewrite !zlen_map, Z.eqb_refl. cbn [py_assert bind].
  set (F := fun t => sumr (zlen (mid t)) (fun d => entry x (start_of t + d) * entry (mid t) d)%R).
  set (c := List.concat (map mid ts)).
  assert (D : exists t0 : nat * list R * nat, True) by (exists (0%nat, [], 0%nat); auto). destruct D as [t0 _].
  destruct (foldM_range_inv (obody (map start_of ts) (map end_of ts) (map Fin c) (map Fin x))
     (fun k st => snd st = offset_of ts k /\ zlen (fst st) = zlen ts /\
        (forall q t, 0 <= q < k -> zget ts q = Ret t -> zget (fst st) q = Ret (Fin (F t))) /\
        (forall q, k <= q < zlen ts -> zget (fst st) q = Ret (Fin 0))) (zlen ts) (repeat (Fin 0) (length (map start_of ts)), 0))
     as ([o f] & E & S1 & S2 & S3 & S4).
  - apply zlen_nonneg.
  - cbn [fst snd]. split; [reflexivity|]. rewrite map_length. split; [unfold zlen; now rewrite repeat_length|]. split; [intros; lia|].
    intros q Hq. apply zget_repeat. unfold zlen in Hq. lia.
  - intros i [o f] Hi (S1 & S2 & S3 & S4). cbn [fst snd] in *. destruct (zget_ok ts i Hi) as [t Et].
    assert (GG : forall g : nat * list R * nat -> Z, pyget (map g ts) i = Ret (g t)).
    { intros g. apply pyget_zget. apply zget_Ret in Et as [? Et]. apply zget_Ret. split; [lia|]. now rewrite nth_error_map, Et. }
    unfold obody. rewrite !GG. cbn [bind].
    replace (end_of t + 1 - start_of t) with (zlen (mid t)) by (unfold end_of; lia).
    assert (SPLIT : exists pre post, ts = pre ++ t :: post /\ zlen pre = i /\ firstn (Z.to_nat i) ts = pre /\ firstn (Z.to_nat (i + 1)) ts = pre ++ [t]).
    { apply zget_Ret in Et as [? Et]. destruct (nth_error_split _ _ Et) as (pre & post & -> & L). exists pre, post.
      split; auto. split; [unfold zlen; lia|]. rewrite <- L, firstn_app, firstn_all, Nat.sub_diag. cbn. rewrite app_nil_r. split; auto.
      replace (Z.to_nat (i + 1)) with (S (length pre)) by lia. rewrite firstn_app.
      replace (S (length pre) - length pre)%nat with 1%nat by lia. rewrite firstn_all2 by lia. reflexivity. }
    destruct SPLIT as (pre & post & ET & LP & FP & FP1).
    assert (CS : c = List.concat (map mid pre) ++ mid t ++ List.concat (map mid post)).
    { unfold c. rewrite ET, map_app, concat_app. reflexivity. }
    assert (OF : offset_of ts i = zlen (List.concat (map mid pre))) by (unfold offset_of; now rewrite FP).
    assert (OF1 : offset_of ts (i + 1) = offset_of ts i + zlen (mid t)).
    { rewrite OF. unfold offset_of. rewrite FP1, map_app, concat_app, zlen_app. cbn. now rewrite app_nil_r. }
    assert (RT : zlen (row_of t) <= zlen x) by (rewrite Forall_forall in HX; apply HX; rewrite ET; apply in_or_app; right; now left).
    assert (LR : start_of t + zlen (mid t) <= zlen (row_of t)).
    { destruct t as [[a b] cc]. unfold start_of, mid, row_of. cbn [fst snd]. rewrite !zlen_app, !zlen_repeat. pose proof (zlen_nonneg b). lia. }
    destruct (inner_sum c x i (start_of t) (zlen (mid t)) f o 0%R) as (o' & E' & L' & V' & K'); try lia.
    + apply S4. lia.
    + subst f. rewrite OF. apply zlen_nonneg.
    + apply zlen_nonneg.
    + subst f. rewrite OF, CS, !zlen_app. pose proof (zlen_nonneg (List.concat (map mid post))). lia.
    + unfold start_of. lia.
    + exists (o', f + zlen (mid t)). split; [exact E'|]. cbn [fst snd]. split; [lia|]. split; [lia|]. split.
      * intros q t' Hq Eq. destruct (Z.eq_dec q i) as [->|N].
        -- rewrite Et in Eq. injection Eq as <-. rewrite V'. apply (f_equal (fun r => Ret (Fin r))). rewrite Rplus_0_l. apply sumr_ext. intros d Hd. f_equal.
           unfold entry. subst f. rewrite OF, CS. rewrite app_nth2 by (unfold zlen in *; lia).
           rewrite app_nth1 by (unfold zlen in *; lia). f_equal. unfold zlen. lia.
        -- rewrite K' by auto. apply S3; auto. lia.
      * intros q Hq. rewrite K' by lia. apply S4. lia.
  - assert (zlen (map start_of ts) = zlen ts) as X by apply zlen_map.
    try rewrite X. rewrite E. cbn [bind fst] in *. f_equal. apply zget_eq; [rewrite S2, !zlen_map; auto|].
    intros k Hk. rewrite S2 in Hk. destruct (zget_ok ts k Hk) as [t Et]. rewrite (S3 k t Hk Et). symmetry.
    apply zget_Ret in Et as [? Et]. apply zget_Ret. split; [lia|]. rewrite !nth_error_map, Et. reflexivity.
Qed.

(** The dense product reads the core only. *)
Lemma dense_core t x : sumr (zlen (row_of t)) (fun j => entry x j * entry (row_of t) j)%R =
  sumr (zlen (mid t)) (fun d => entry x (start_of t + d) * entry (mid t) d)%R.
Proof.
  destruct t as [[a b] c]. unfold row_of, start_of, mid. cbn [fst snd].
  assert (SH : forall n m f, 0 <= n -> 0 <= m -> (sumr (n + m) f = sumr n f + sumr m (fun d => f (n + d)%Z))%R).
  { intros n m f Hn. revert m. apply (sumr_ind (fun m => sumr (n + m) f = (sumr n f + sumr m (fun d => f (n + d)%Z))%R)).
    - rewrite Z.add_0_r. rewrite (sumr_0 0) by lia. ring.
    - intros k Hk IH. rewrite Z.add_assoc, !sumr_S by lia. rewrite IH. ring. }
  rewrite !zlen_app, !zlen_repeat. pose proof (zlen_nonneg b).
  rewrite SH by lia. rewrite (SH (zlen b)) by lia.
  rewrite (sumr_ext (Z.of_nat a) _ (fun _ => 0%R)), sumr_zero.
  - rewrite (sumr_ext (Z.of_nat c) _ (fun _ => 0%R)), sumr_zero.
    + rewrite Rplus_0_l, Rplus_0_r. apply sumr_ext. intros d Hd. f_equal. unfold entry at 1 2.
      rewrite app_nth2 by (rewrite repeat_length; lia). rewrite app_nth1; [|rewrite repeat_length; unfold zlen in Hd; lia].
      f_equal. rewrite repeat_length. lia.
    + intros d Hd. unfold entry at 2. rewrite app_nth2 by (rewrite repeat_length; unfold zlen; lia).
      rewrite app_nth2 by (rewrite repeat_length; unfold zlen in *; lia). rewrite nth_repeat. ring.
  - intros d Hd. unfold entry at 2. rewrite app_nth1 by (rewrite repeat_length; lia). rewrite nth_repeat. ring.
Qed.

Lemma nz_all b : Forall (fun v => v <> 0%R) b -> nzvals b = b.
Proof. induction 1; auto. unfold nzvals in *. cbn. rewrite isz_no by auto. cbn. now rewrite IHForall. Qed.
Lemma nz_le b : zlen (nzvals b) <= zlen b.
Proof. unfold nzvals. induction b; cbn; [lia|]. destruct (negb (isz a)); rewrite ?zlen_cons; lia. Qed.
Lemma nz_full b : zlen b <= zlen (nzvals b) -> Forall (fun v => v <> 0%R) b.
Proof.
  induction b as [|v b IH]; [constructor|]. unfold nzvals in *. cbn [filter]. unfold isz at 1. destruct (Req_EM_T v 0); cbn [negb].
  - intros H. pose proof (nz_le b). unfold nzvals in *. rewrite zlen_cons in H. lia.
  - rewrite !zlen_cons. intros H. constructor; [auto|apply IH; lia].
Qed.
Lemma nz_concat ts : zlen (List.concat (map mid ts)) <= zlen (List.concat (map (fun t => nzvals (mid t)) ts)) ->
  Forall (fun t => Forall (fun v => v <> 0%R) (mid t)) ts.
Proof.
  assert (LE : forall ts, zlen (List.concat (map (fun t => nzvals (mid t)) ts)) <= zlen (List.concat (map mid ts))).
  { clear. induction ts as [|t ts IH]; [cbn; lia|]. cbn [map List.concat]. rewrite !zlen_app. pose proof (nz_le (mid t)). lia. }
  induction ts as [|t ts IH]; [constructor|]. cbn [map List.concat]. rewrite !zlen_app. intros H.
  pose proof (nz_le (mid t)). pose proof (LE ts). constructor; [apply nz_full; lia|apply IH; lia].
Qed.
Lemma core_nonempty b : core b -> b <> [].
Proof. intros (v & m & w & [-> | ->] & _); discriminate. Qed.
Lemma band_core row : band row -> exists t, row = row_of t /\ core (mid t) /\ Forall (fun v => v <> 0%R) (mid t).
Proof.
  intros (a & b & c & -> & N & F). exists (a, b, c). split; [reflexivity|]. split; [|exact F]. unfold mid. cbn.
  destruct b as [|v b]; [congruence|]. inversion F; subst. destruct b as [|u b] using rev_ind.
  - exists v, [], v. auto.
  - exists v, b, u. split; [now right|]. split; auto. rewrite Forall_app in H2. destruct H2 as [_ H2]. now inversion H2.
Qed.
Lemma bands_ts mels : Forall band mels -> exists ts, mels = map row_of ts /\ Forall (fun t => core (mid t)) ts /\ Forall (fun t => Forall (fun v => v <> 0%R) (mid t)) ts.
Proof.
  induction 1 as [|r mels B _ (ts & -> & F1 & F2)]; [exists []; auto|].
  destruct (band_core r B) as (t & -> & C & N). exists (t :: ts). auto.
Qed.

(** ** The two directions *)
Lemma python_dense mels x : Forall band mels -> Forall (fun r => zlen r <= zlen x) mels ->
  (let* s := sparse_filterbank real_arith (map (map Fin) mels) in sparse_filterbank_reduce real_arith s (map Fin x)) = Ret (map Fin (dense mels x)).
Proof.
  intros HB HL. destruct (bands_ts mels HB) as (ts & -> & C & N). rewrite map_map. rewrite build_ok by auto. cbn [bind].
  assert (E : map (fun t => nzvals (mid t)) ts = map mid ts).
  { apply map_ext_in. intros t Ht. apply nz_all. rewrite Forall_forall in N. auto. }
  rewrite E. destruct (reduce_ok ts x) as (out & -> & ->).
  - rewrite Forall_forall in *. intros t Ht. apply HL. now apply in_map.
  - do 2 f_equal. unfold dense. rewrite map_map. apply map_ext. intros. symmetry. apply dense_core.
Qed.
Lemma python_only_bands mels x out :
  (let* s := sparse_filterbank real_arith (map (map Fin) mels) in sparse_filterbank_reduce real_arith s x) = Ret out -> Forall band mels.
Proof.
  intros H. destruct (build_cases mels) as [(ts & -> & C)|E].
  - rewrite map_map, build_ok in H by auto. cbn [bind] in H. rewrite reduce_unfold in H. rewrite !zlen_map, Z.eqb_refl in H. cbn [py_assert bind] in H.
    apply bind_Ret in H as ([o f] & H & _). apply count_total in H.
    + rewrite zlen_map in H. apply nz_concat in H. rewrite Forall_forall in *. intros r Hr. apply in_map_iff in Hr as (t & <- & Ht).
      destruct t as [[a b] c]. exists a, b, c. split; [reflexivity|]. split; [apply core_nonempty, (C _ Ht)|apply (H _ Ht)].
    + rewrite Forall_forall in *. intros t Ht. now apply core_nonempty, C.
  - rewrite build_empty in H by auto. discriminate.
Qed.

(** What C returns, Python returns. *)
Lemma python_is_c A starts ends coeffs input out :
  sparse_filterbank_py A input starts ends coeffs = Ret out ->
  sparse_filterbank_reduce A (starts, ends, coeffs) input = Ret out.
Proof.
  unfold sparse_filterbank_reduce, sparse_filterbank_py.
  destruct (Z.eqb_spec (zlen starts) (zlen ends)) as [E|]; [|discriminate]. cbn [py_assert bind negb]. intros H.
  unfold eml_sparse_filterbank in H.
  assert (F : foldM (fun o i => zset o i (nzero A)) (repeat (nzero A) (length starts)) (zrange (zlen starts)) = Ret (repeat (nzero A) (length starts))).
  { destruct (foldM_range_inv (fun o i => zset o i (nzero A)) (fun k o => o = repeat (nzero A) (length starts)) (zlen starts) (repeat (nzero A) (length starts))) as (o & Eo & ->); auto.
    - apply zlen_nonneg.
    - intros i s0 Hi ->. eexists. split; [|reflexivity]. rewrite zset_ok by (rewrite zlen_repeat; unfold zlen in Hi; lia). f_equal.
      apply zget_eq; [apply zlen_list_set|]. intros k Hk. rewrite zlen_list_set, zlen_repeat in Hk.
      rewrite zget_list_set by (rewrite zlen_repeat; unfold zlen in Hi; lia).
      rewrite zget_repeat by lia. destruct (i =? k); auto. }
  rewrite F in H. cbn [bind] in H. apply bind_Ret in H as ([e o] & H & H'). apply bind_Ret in H as ([o1 off] & H & H2).
  injection H2 as <- <-. injection H' as <-.
  match type of H with foldM ?f _ _ = _ => match goal with |- context[foldM ?g _ (zrange (zlen starts))] =>
    destruct (foldM_sim (fun st => True) f g (zrange (zlen starts)) (repeat (nzero A) (length starts), 0) (o1, off)) as [G _] end end; auto.
  - intros [o of_] i [o2 of1] Hi _ Hb.
    apply bind_Ret in Hb as (s & Es & Hb). apply bind_Ret in Hb as (e & Ee & Hb).
    rewrite (pyget_zget _ _ _ Es), (pyget_zget _ _ _ Ee). cbn [bind].
    replace (e + 1 - s) with (e - s + 1) by lia.
    eapply (foldM_sim (fun st => True)); [| |exact Hb]; [auto|].
    intros [o3 of3] d [o4 of4] Hd _ Hc. cbv zeta in *.
    apply bind_Ret in Hc as (f & Ef & Hc). apply bind_Ret in Hc as (v & Ev & Hc). apply bind_Ret in Hc as (x & Ex & Hc).
    apply bind_Ret in Hc as (o5 & Eo & Hc). apply bind_Ret in Hc as (n1 & En & Hc). injection Hc as <- <-.
    rewrite (pyget_zget _ _ _ Ef), (pyget_zget _ _ _ Ev), (pyget_zget _ _ _ Ex). cbn [bind]. rewrite Eo. cbn [bind].
    apply chk_int32_Ret in En as [_ ->] || (apply chk_int32_Ret in En; destruct En; subst). auto.
  - rewrite G. reflexivity.
Qed.

(** The C function on what Python built. *)
Lemma c_dense mels x : Forall band mels -> Forall (fun r => zlen r <= zlen x) mels -> zlen (List.concat mels) < 2 ^ 31 ->
  (let* (starts, ends, coeffs) := sparse_filterbank real_arith (map (map Fin) mels) in sparse_filterbank_py real_arith (map Fin x) starts ends coeffs) = Ret (map Fin (dense mels x)).
Proof.
  intros HB HL HC. pose proof (python_dense mels x HB HL) as P. destruct (bands_ts mels HB) as (ts & E & C & N).
  assert (B : sparse_filterbank real_arith (map (map Fin) mels) = Ret (map start_of ts, map end_of ts, map Fin (List.concat (map (fun t => nzvals (mid t)) ts)))).
  { rewrite E, map_map. apply build_ok; auto. }
  rewrite B in P |- *. cbn [bind] in P |- *. apply c_is_python; auto.
  - apply Forall_forall. intros s Hs. apply in_map_iff in Hs as (t & <- & _). unfold start_of. lia.
  - change (num real_arith) with xreal. rewrite zlen_map. apply Z.le_lt_trans with (zlen (List.concat mels)); auto. subst mels. clear.
    induction ts as [|t ts IH]; [cbn; lia|]. cbn [map List.concat]. rewrite !zlen_app. pose proof (nz_le (mid t)).
    destruct t as [[a b] c]. unfold row_of, mid in *. cbn [fst snd] in *. rewrite !zlen_app. pose proof (zlen_nonneg (repeat 0%R a)). pose proof (zlen_nonneg (repeat 0%R c)). lia.
Qed.
