(** Running the statements of the generated functions. *)
From Coq Require Import String ZArith List Bool Lia.
From Flocq Require Import Core BinarySingleNaN.
From Verif.Base Require Import Res CInt ListX Loops Float.
From Verif.Model Require Import Common Text Cgen TreesConvert TreesC TreesInline TreesRun.
From Verif.Spec Require Import CTextSpec CgenSpec CRunSpec.
Import ListNotations.
Open Scope Z_scope.
Open Scope list_scope.
Open Scope res_scope.

Lemma at_zget {A} (l : list A) i x : zget l i = Ret x -> at_index l i = Some x.
Proof. unfold zget, at_index. destruct (i <? 0); [discriminate|]. destruct (nth_error l (Z.to_nat i)); [congruence|discriminate]. Qed.
Lemma put_zset {A} (l : list A) i x l' : zset l i x = Ret l' -> put l i x = Some l'.
Proof.
  unfold zset, put. destruct (Z.leb_spec 0 i) as [H0|H0]; cbn [andb]; [|discriminate]. destruct (Z.ltb_spec i (Z.of_nat (length l))) as [H1|H1]; [|discriminate].
  intros E. injection E as <-. destruct (Z.ltb_spec i 0); [lia|]. assert (H2 : (Z.to_nat i < length l)%nat) by lia. clear - H2.
  revert H2. generalize (Z.to_nat i). induction l as [|a l IH]; intros [|n] H; cbn [length] in H; [lia|lia|reflexivity|]. cbn [put_at list_set]. rewrite IH by lia. reflexivity.
Qed.
Lemma int_val_ok z : -2147483648 <= z <= 2147483647 -> int_val z = Some (VI z).
Proof. intros H. unfold int_val. destruct (Z.leb_spec (-2147483648) z); [|lia]. destruct (Z.leb_spec z 2147483647); [reflexivity|lia]. Qed.

Definition seq_all (l : list stmt) : stmt := fold_right SSeq SSkip l.
(** the numbers from i on *)
Fixpoint from (i : Z) (k : nat) : list Z := match k with O => [] | S k' => i :: from (i + 1) k' end.
Lemma from_seq k : forall a, map Z.of_nat (seq a k) = from (Z.of_nat a) k.
Proof. induction k as [|k IH]; intros a; [reflexivity|]. cbn [seq map from]. rewrite IH. do 2 f_equal. lia. Qed.
Lemma zrange_from n : zrange n = from 0 (Z.to_nat n).
Proof. unfold zrange. apply from_seq. Qed.

(** ** A counting loop that keeps [mk st] as its variables, [st] changing as a fold does *)
Section Loop.
Variable callee : list Z -> option cval.
Variables (body : stmt) (lim : expr) (n : Z) (w : list Z).
Context {A : Type} (mk : A -> cenv) (step : A -> Z -> res A).
Hypothesis Hlim : forall a i, eval callee ((w, CInt i) :: mk a) lim = Some (VI n).
Hypothesis Hbody : forall a i b, 0 <= i < n -> step a i = Ret b -> exists loc, run callee body ((w, CInt i) :: mk a) = Some (loc ++ (w, CInt i) :: mk b, None).
Hypothesis Hlen : forall a b, length (mk a) = length (mk b).
Hypothesis Hn : n <= 2147483647.
Lemma find_w a i : find w ((w, CInt i) :: mk a) = Some (CInt i).
Proof. cbn [find]. destruct (list_eq_dec Z.eq_dec w w); [reflexivity|congruence]. Qed.
Lemma loop_fold : forall k i a b, i + Z.of_nat k = Z.max i n -> 0 <= i -> foldM step a (from i k) = Ret b ->
  loop callee (run callee body) w lim k ((w, CInt i) :: mk a) = Some ((w, CInt (Z.max i n)) :: mk b, None).
Proof using Hlim Hbody Hlen Hn.
  induction k as [|k IH]; intros i a b Hk Hi E; cbn [from foldM] in E.
  - injection E as <-. cbn [loop]. cbn [eval]. rewrite find_w, Hlim. cbn [arith]. destruct (Z.ltb_spec i n); [lia|]. cbn [truth]. rewrite Z.max_l by lia. reflexivity.
  - apply bind_Ret in E. destruct E as (a' & Ea & E). cbn [loop]. cbn [eval]. rewrite find_w, Hlim. cbn [arith]. destruct (Z.ltb_spec i n); [|lia]. cbn [truth].
    destruct (Hbody a i a' ltac:(lia) Ea) as (loc & ->). unfold leave. rewrite app_length. cbn [length]. rewrite (Hlen a a').
    replace (length loc + S (length (mk a')) - S (length (mk a')))%nat with (length loc) by lia. rewrite skipn_app, skipn_all, Nat.sub_diag. cbn [app skipn].
    unfold add_to. cbn [content eval]. rewrite find_w. cbn [arith]. rewrite int_val_ok by lia. cbn [assign]. rewrite find_w. cbn [store]. destruct (list_eq_dec Z.eq_dec w w); [|congruence].
    rewrite (IH (i + 1) a' b) by (try lia; exact E). replace (Z.max (i + 1) n) with (Z.max i n) by lia. reflexivity.
Qed.
Lemma for_fold a b : (forall i, eval callee (mk a) (EVal (VI i)) = Some (VI i)) -> foldM step a (zrange n) = Ret b ->
  run callee (SFor w (EVal (VI 0)) lim body) (mk a) = Some (mk b, None).
Proof using Hlim Hbody Hlen Hn.
  intros _ E. cbn [run eval]. rewrite Hlim. rewrite zrange_from in E. rewrite Z.sub_0_r.
  rewrite (loop_fold (Z.to_nat n) 0 a b) by (try exact E; lia). unfold leave. cbn [length]. rewrite (Hlen a b). replace (S (length (mk b)) - length (mk b))%nat with 1%nat by lia. reflexivity.
Qed.
End Loop.

(** ** Hard voting *)
Notation "$ s" := (txt s) (at level 0, s at level 0, only parsing).
Definition class_ast (w : text) : stmt := SSet (LVar $"_class") (ECall w).
Definition vote_ast (w : text) : stmt := seq_all [class_ast w; SAddTo (LIdx $"votes" (EVar $"_class")) (EVal (VI 1))].
Definition most_body : stmt :=
  seq_all [SIf (EBin Gt (EIdx $"votes" (EVar $"i")) (EVar $"most_voted_votes"))
    (seq_all [SSet (LVar $"most_voted_class") (EVar $"i"); SSet (LVar $"most_voted_votes") (EIdx $"votes" (EVar $"i"))])].
Definition majority_ast (n : Z) (votes : stmt) : stmt :=
  seq_all [SInts $"votes" n; SInt $"_class" (EVal (VI (-1))); votes; SInt $"most_voted_class" (EVal (VI (-1))); SInt $"most_voted_votes" (EVal (VI 0));
    SFor $"i" (EVal (VI 0)) (EVal (VI n)) most_body; SReturn (EVar $"most_voted_class")].

Section Calls.
Context {K X V : Type} (lt : X -> K -> bool) (features : list X) (callee : list Z -> option cval) (val : V -> cval).
(** the functions named do what the trees do *)
Definition calls (w : text) (T : itree K V) : Prop := forall v, run_tree lt features T = Ret v -> callee w = Some (val v).
Lemma seq_run {A} (mk : A -> cenv) (step : A -> itree K V -> res A) (line : text -> stmt) :
  (forall w T a b, calls w T -> step a T = Ret b -> run callee (line w) (mk a) = Some (mk b, None)) ->
  forall names Ts, Forall2 calls names Ts -> forall a b, foldM step a Ts = Ret b -> run callee (seq_all (map line names)) (mk a) = Some (mk b, None).
Proof.
  intros H names Ts F. induction F as [|w T names Ts C F IH]; intros a b E; cbn [foldM] in E.
  - injection E as <-. reflexivity.
  - apply bind_Ret in E. destruct E as (a' & E1 & E2). cbn [map seq_all fold_right run]. rewrite (H w T a a' C E1). apply (IH a' b E2).
Qed.
End Calls.

Section Hard.
Context {K X : Type} (lt : X -> K -> bool) (features : list X) (callee : list Z -> option cval).
Definition vote_env (a : Z * list Z) : cenv := [($"_class", CInt (fst a)); ($"votes", CInts (snd a))].
Lemma vote_run w T (a b : Z * list Z) : calls lt features callee VI w T ->
  (let* k := run_tree lt features T in let* v := zget (snd a) k in let* v' := chk_int32 (v + 1) in let* vs := zset (snd a) k v' in Ret (k, vs)) = Ret b ->
  run callee (vote_ast w) (vote_env a) = Some (vote_env b, None).
Proof.
  intros C E. apply bind_Ret in E. destruct E as (k & Ek & E). apply bind_Ret in E. destruct E as (v & Ev & E). apply bind_Ret in E. destruct E as (v' & Ev' & E). apply bind_Ret in E. destruct E as (vs & Es & E). injection E as <-.
  apply chk_int32_Ret in Ev'. destruct Ev' as [-> B]. apply at_zget in Ev. apply put_zset in Es. specialize (C k Ek). destruct a as [c l]. cbn [snd] in *.
  assert (S1 : run callee (class_ast w) (vote_env (c, l)) = Some (vote_env (k, l), None)).
  { unfold class_ast. cbn [run eval]. rewrite C. reflexivity. }
  assert (S2 : run callee (SAddTo (LIdx $"votes" (EVar $"_class")) (EVal (VI 1))) (vote_env (k, l)) = Some (vote_env (k, vs), None)).
  { transitivity (let? env := (let? x := (let? z := at_index l k in Some (VI z)) in let? y := arith Add x (VI 1) in
        match y with VI z => let? l := put l k z in Some (vote_env (k, l)) | VF _ => None end) in Some (env, @None cval)); [reflexivity|].
    rewrite Ev. cbn [arith]. rewrite int_val_ok by (unfold int32_ok in B; lia). rewrite Es. reflexivity. }
  unfold vote_ast, seq_all. cbn [fold_right]. change (run callee (SSeq (class_ast w) (SSeq (SAddTo (LIdx $"votes" (EVar $"_class")) (EVal (VI 1))) SSkip)) (vote_env (c, l)))
    with (let? (env', r) := run callee (class_ast w) (vote_env (c, l)) in match r with Some v => Some (env', Some v) | None =>
      let? (env', r) := run callee (SAddTo (LIdx $"votes" (EVar $"_class")) (EVal (VI 1))) env' in match r with Some v => Some (env', Some v) | None => Some (env', None) end end).
  rewrite S1, S2. reflexivity.
Qed.
Definition most_env (c0 : Z) (votes : list Z) (a : Z * Z) : cenv :=
  [($"most_voted_votes", CInt (snd a)); ($"most_voted_class", CInt (fst a)); ($"_class", CInt c0); ($"votes", CInts votes)].
Lemma most_run c0 votes i (a b : Z * Z) : (let* x := zget votes i in if snd a <? x then Ret (i, x) else Ret a) = Ret b ->
  run callee most_body (($"i", CInt i) :: most_env c0 votes a) = Some (($"i", CInt i) :: most_env c0 votes b, None).
Proof.
  intros E. apply bind_Ret in E. destruct E as (x & Ex & E). apply at_zget in Ex. destruct a as [c m]. cbn [snd] in E.
  transitivity (let? (env', r) := (let? v := (let? y := (let? z := at_index votes i in Some (VI z)) in arith Gt y (VI m)) in
      match v with VI 0 => Some (($"i", CInt i) :: most_env c0 votes (c, m), None)
      | VI _ => let? (env', r) := (let? (env', r) := (let? v := (let? z := at_index votes i in Some (VI z)) in
             let? env := (match v with VI z => Some (($"i", CInt i) :: most_env c0 votes (i, z)) | VF _ => None end) in Some (env, @None cval)) in match r with Some v => Some (env', Some v) | None => Some (env', None) end)
          in Some (leave (($"i", CInt i) :: most_env c0 votes (c, m)) env', r)
      | VF _ => None end) in match r with Some v => Some (env', Some v) | None => Some (env', None) end); [reflexivity|].
  rewrite Ex. cbn [arith]. destruct (m <? x); cbn [truth]; injection E as <-; reflexivity.
Qed.
Lemma fold_pair {T} (step : list Z -> T -> res (Z * list Z)) Ts : forall c l l', foldM (fun v t => let* (k, v') := step v t in Ret v') l Ts = Ret l' ->
  exists c', foldM (fun a t => step (snd a) t) (c, l) Ts = Ret (c', l').
Proof.
  induction Ts as [|t Ts IH]; intros c l l' E; cbn [foldM] in *; [injection E as <-; eauto|].
  apply bind_Ret in E. destruct E as (l1 & E1 & E). apply bind_Ret in E1. destruct E1 as ([k v'] & E1 & Q). injection Q as ->.
  cbn [snd]. rewrite E1. cbn [bind]. eapply IH; eauto.
Qed.
Lemma majority_run (p : inline_prog K) names c : ip_n_classes p <= 2147483647 -> Forall2 (calls lt features callee VI) names (ip_trees p) ->
  inline_predict_hard lt p features = Ret c -> exists env, run callee (majority_ast (ip_n_classes p) (seq_all (map vote_ast names))) [] = Some (env, Some (VI c)).
Proof.
  intros Hn F E. unfold inline_predict_hard in E. apply bind_Ret in E. destruct E as (vs & Ev & E). apply bind_Ret in E. destruct E as ([cls m] & Em & E). injection E as ->.
  set (n := ip_n_classes p) in *.
  assert (Ev' : exists k, foldM (fun a t => let* k := run_tree lt features t in let* v := zget (snd a) k in let* v' := chk_int32 (v + 1) in let* vs := zset (snd a) k v' in Ret (k, vs))
      (-1, repeat 0 (Z.to_nat n)) (ip_trees p) = Ret (k, vs)).
  { apply (fold_pair (fun l t => let* k := run_tree lt features t in let* v := zget l k in let* v' := chk_int32 (v + 1) in let* vs := zset l k v' in Ret (k, vs))).
    rewrite <- Ev. clear. set (l0 := repeat 0 (Z.to_nat n)). clearbody l0. revert l0. induction (ip_trees p) as [|t Ts IH]; intros l; [reflexivity|]. cbn [foldM].
    destruct (run_tree lt features t) as [k|]; cbn [bind]; [|reflexivity]. destruct (zget l k) as [v|]; cbn [bind]; [|reflexivity]. destruct (chk_int32 (v + 1)) as [v'|]; cbn [bind]; [|reflexivity].
    destruct (zset l k v'); cbn [bind]; [apply IH|reflexivity]. }
  destruct Ev' as [k Ev'].
  pose proof (seq_run lt features callee VI vote_env _ vote_ast (fun w T a b C Q => vote_run w T a b C Q) names (ip_trees p) F _ _ Ev') as R1.
  assert (R2 : run callee (SFor $"i" (EVal (VI 0)) (EVal (VI n)) most_body) (most_env k vs (-1, 0)) = Some (most_env k vs (c, m), None)).
  { apply (for_fold callee most_body (EVal (VI n)) n $"i" (most_env k vs) (fun a i => let* x := zget vs i in if snd a <? x then Ret (i, x) else Ret a)).
    - reflexivity.
    - intros a i b _ Q. exists []. exact (most_run k vs i a b Q).
    - reflexivity.
    - exact Hn.
    - reflexivity.
    - rewrite <- Em. clear. generalize (-1, 0). induction (zrange n) as [|i l IH]; intros [c m]; [reflexivity|]. cbn [foldM]. destruct (zget vs i) as [x|]; cbn [bind snd]; [|reflexivity].
      destruct (m <? x); cbn [bind]; apply IH. }
  exists (most_env k vs (c, m)).
  transitivity (let? (env', r) := run callee (seq_all (map vote_ast names)) (vote_env (-1, repeat 0 (Z.to_nat n))) in match r with Some v => Some (env', Some v) | None =>
     let? (env', r) := run callee (SFor $"i" (EVal (VI 0)) (EVal (VI n)) most_body) (($"most_voted_votes", CInt 0) :: ($"most_voted_class", CInt (-1)) :: env') in
     match r with Some v => Some (env', Some v) | None => run callee (SSeq (SReturn (EVar $"most_voted_class")) SSkip) env' end end); [reflexivity|].
  rewrite R1. cbv iota beta. change (($"most_voted_votes", CInt 0) :: ($"most_voted_class", CInt (-1)) :: vote_env (k, vs)) with (most_env k vs (-1, 0)). rewrite R2. reflexivity.
Qed.
End Hard.

(** ** Regressors *)
Definition add_ast (w : text) : stmt := SAddTo (LVar $"avg") (ECall w).
Definition regress_vote_ast (w : text) : stmt := seq_all [add_ast w].
Definition regress_ast (n : Z) (votes : stmt) : stmt :=
  seq_all [SFloat $"avg" (EVal (VI 0)); votes; SReturn (EBin Div (EVar $"avg") (EVal (VI n)))].
Lemma zero_float : (f_of_Z 0 : f32) = fzero.
Proof. reflexivity. Qed.
Section Regress.
Context {K X : Type} (lt : X -> K -> bool) (features : list X) (callee : list Z -> option cval).
Definition avg_env (a : f32) : cenv := [($"avg", CFloat a)].
Lemma regress_run (p : list (itree K f32)) names y : Forall2 (calls lt features callee VF) names p ->
  inline_regress lt p features = Ret y -> exists env, run callee (regress_ast (zlen p) (seq_all (map regress_vote_ast names))) [] = Some (env, Some (VF y)).
Proof.
  intros F E. unfold inline_regress in E. apply bind_Ret in E. destruct E as (avg & Ea & E). injection E as <-.
  assert (R1 : run callee (seq_all (map regress_vote_ast names)) (avg_env fzero) = Some (avg_env avg, None)).
  { apply (seq_run lt features callee VF avg_env (fun avg t => let* y := run_tree lt features t in Ret (fadd avg y))) with (Ts := p); [|exact F|exact Ea].
    intros w T a b C Q. apply bind_Ret in Q. destruct Q as (x & Ex & Q). injection Q as <-. specialize (C x Ex). unfold regress_vote_ast, add_ast, seq_all. cbn [fold_right run eval]. rewrite C. reflexivity. }
  exists (avg_env avg).
  transitivity (let? (env', r) := run callee (seq_all (map regress_vote_ast names)) (avg_env (f_of_Z 0)) in match r with Some v => Some (env', Some v) | None =>
     run callee (SSeq (SReturn (EBin Div (EVar $"avg") (EVal (VI (zlen p))))) SSkip) env' end); [reflexivity|].
  rewrite zero_float, R1. reflexivity.
Qed.
End Regress.

(** ** Class proportions *)
Definition out_zero : stmt := seq_all [SSet (LIdx $"out" (EVar $"i")) (EVal (VF fzero))].
Definition out_mean (n : Z) : stmt := seq_all [SSet (LIdx $"out" (EVar $"i")) (EBin Div (EIdx $"out" (EVar $"i")) (EVal (VI n)))].
Definition one : f32 := f_of_Z 1.
Definition proba_vote_ast (w : text) : stmt := seq_all [class_ast w; SAddTo (LIdx $"out" (EVar $"_class")) (EVal (VF one))].
(** [first]: the declaration of _class or offset *)
Definition proba_ast (n : Z) (first votes : stmt) : stmt :=
  seq_all [first; SFor $"i" (EVal (VI 0)) (EVar $"out_length") out_zero; votes; SFor $"i" (EVal (VI 0)) (EVar $"out_length") (out_mean n); SReturn (EVal (VI 0))].
Section Proba.
Variable callee : list Z -> option cval.
Variables (w0 : list Z) (rest : cenv).
Hypothesis Hw : w0 = $"_class" \/ w0 = $"offset".
Definition out_env (a : Z * list f32) : cenv := (w0, CInt (fst a)) :: ($"out", CFloats (snd a)) :: rest.
Lemma find_out (a : Z * list f32) : find $"out" (out_env a) = Some (CFloats (snd a)) /\ (forall i, find $"out" (($"i", CInt i) :: out_env a) = Some (CFloats (snd a))) /\
  (forall l, store $"out" (CFloats l) (out_env a) = out_env (fst a, l)) /\ (forall i l, store $"out" (CFloats l) (($"i", CInt i) :: out_env a) = ($"i", CInt i) :: out_env (fst a, l)) /\
  (forall i, eval callee (($"i", CInt i) :: out_env a) (EVar $"i") = Some (VI i)).
Proof using Hw. unfold out_env. destruct Hw as [E|E]; rewrite E; repeat split; reflexivity. Qed.
Lemma zero_run i (a b : Z * list f32) : (let* o := zset (snd a) i fzero in Ret (fst a, o)) = Ret b ->
  run callee out_zero (($"i", CInt i) :: out_env a) = Some (($"i", CInt i) :: out_env b, None).
Proof using Hw.
  intros E. apply bind_Ret in E. destruct E as (o & Eo & E). injection E as <-. apply put_zset in Eo. destruct (find_out a) as (F1 & F2 & S1 & S2 & E1).
  unfold out_zero, seq_all. cbn [fold_right run assign eval]. change (find $"i" (($"i", CInt i) :: out_env a)) with (Some (CInt i)). cbv iota beta. rewrite F2. cbn [as_float]. rewrite Eo. rewrite S2. reflexivity.
Qed.
Lemma mean_run n i (a b : Z * list f32) : (let* x := zget (snd a) i in let* o := zset (snd a) i (fdiv x (f_of_Z n)) in Ret (fst a, o)) = Ret b ->
  run callee (out_mean n) (($"i", CInt i) :: out_env a) = Some (($"i", CInt i) :: out_env b, None).
Proof using Hw.
  intros E. apply bind_Ret in E. destruct E as (x & Ex & E). apply bind_Ret in E. destruct E as (o & Eo & E). injection E as <-. apply put_zset in Eo. apply at_zget in Ex. destruct (find_out a) as (F1 & F2 & S1 & S2 & E1).
  unfold out_mean, seq_all. cbn [fold_right run assign eval]. change (find $"i" (($"i", CInt i) :: out_env a)) with (Some (CInt i)). cbv iota beta. rewrite F2. cbv iota beta. rewrite Ex. cbv iota beta. cbn [arith as_float]. rewrite Eo. rewrite S2. reflexivity.
Qed.
Lemma fold_snd (step : list f32 -> Z -> res (list f32)) l (c : Z) : forall o o', foldM step o l = Ret o' -> foldM (fun a i => let* o := step (snd a) i in Ret (fst a, o)) (c, o) l = Ret (c, o').
Proof.
  induction l as [|i l IH]; intros o o' E; cbn [foldM] in *; [injection E as <-; reflexivity|]. apply bind_Ret in E. destruct E as (o1 & E1 & E). cbn [snd fst]. rewrite E1. cbn [bind]. now apply IH.
Qed.
Variable n_out : Z.
Hypothesis Hout : find $"out_length" rest = Some (CInt n_out).
Hypothesis Hmax : n_out <= 2147483647.
Lemma find_len a i : eval callee (($"i", CInt i) :: out_env a) (EVar $"out_length") = Some (VI n_out).
Proof using Hw Hout. cbn [eval]. replace (find $"out_length" (($"i", CInt i) :: out_env a)) with (find $"out_length" rest) by (unfold out_env; destruct Hw as [E|E]; rewrite E; reflexivity). rewrite Hout. reflexivity. Qed.
Lemma zeros c o o' : clear_out o n_out = Ret o' ->
  run callee (SFor $"i" (EVal (VI 0)) (EVar $"out_length") out_zero) (out_env (c, o)) = Some (out_env (c, o'), None).
Proof using Hw Hout Hmax.
  intros E. apply (for_fold callee out_zero (EVar $"out_length") n_out $"i" out_env (fun a i => let* o := zset (snd a) i fzero in Ret (fst a, o))).
  - apply find_len.
  - intros a i b _ Q. exists []. exact (zero_run i a b Q).
  - reflexivity.
  - exact Hmax.
  - reflexivity.
  - exact (fold_snd (fun o i => zset o i fzero) _ c o o' E).
Qed.
Lemma means c o n o' : mean_out o n_out n = Ret o' ->
  run callee (SFor $"i" (EVal (VI 0)) (EVar $"out_length") (out_mean n)) (out_env (c, o)) = Some (out_env (c, o'), None).
Proof using Hw Hout Hmax.
  intros E. apply (for_fold callee (out_mean n) (EVar $"out_length") n_out $"i" out_env (fun a i => let* x := zget (snd a) i in let* o := zset (snd a) i (fdiv x (f_of_Z n)) in Ret (fst a, o))).
  - apply find_len.
  - intros a i b _ Q. exists []. exact (mean_run n i a b Q).
  - reflexivity.
  - exact Hmax.
  - reflexivity.
  - assert (G : forall l (c : Z) (o o' : list f32), foldM (fun (o : list f32) i => let* x := zget o i in zset o i (fdiv x (f_of_Z n))) o l = Ret o' ->
      foldM (fun a i => let* x := zget (snd a) i in let* o := zset (snd a) i (fdiv x (f_of_Z n)) in Ret (fst a, o)) (c, o) l = Ret (c, o')).
    { clear. induction l as [|i l IH]; intros c o o' E; cbn [foldM] in *; [injection E as <-; reflexivity|]. apply bind_Ret in E. destruct E as (o1 & E1 & E). apply bind_Ret in E1. destruct E1 as (x & Ex & E1).
      cbn [snd fst]. rewrite Ex. cbn [bind]. rewrite E1. cbn [bind]. now apply IH. }
    exact (G _ c o o' E).
Qed.
(** the whole function, given what the votes do *)
Lemma proba_run n v0 votes o0 o1 o2 o3 c : clear_out o0 n_out = Ret o1 -> run callee votes (out_env (v0, o1)) = Some (out_env (c, o2), None) -> mean_out o2 n_out n = Ret o3 ->
  run callee (proba_ast n (SInt w0 (EVal (VI v0))) votes) (($"out", CFloats o0) :: rest) = Some (out_env (c, o3), Some (VI 0)).
Proof using Hw Hout Hmax.
  intros E1 R E2.
  transitivity (let? (env', r) := run callee (SFor $"i" (EVal (VI 0)) (EVar $"out_length") out_zero) (out_env (v0, o0)) in match r with Some v => Some (env', Some v) | None =>
     let? (env', r) := run callee votes env' in match r with Some v => Some (env', Some v) | None =>
     let? (env', r) := run callee (SFor $"i" (EVal (VI 0)) (EVar $"out_length") (out_mean n)) env' in match r with Some v => Some (env', Some v) | None => Some (env', Some (VI 0)) end end end); [reflexivity|].
  rewrite (zeros _ _ _ E1), R, (means _ _ _ _ E2). reflexivity.
Qed.
End Proba.

Section HardProba.
Context {K X : Type} (lt : X -> K -> bool) (features : list X) (callee : list Z -> option cval).
Lemma proba_vote_run rest w T (a b : Z * list f32) : calls lt features callee VI w T ->
  (let* k := run_tree lt features T in let* x := zget (snd a) k in let* o := zset (snd a) k (fadd x (f_of_Z 1)) in Ret (k, o)) = Ret b ->
  run callee (proba_vote_ast w) (out_env $"_class" rest a) = Some (out_env $"_class" rest b, None).
Proof.
  intros C E. apply bind_Ret in E. destruct E as (k & Ek & E). apply bind_Ret in E. destruct E as (x & Ex & E). apply bind_Ret in E. destruct E as (o & Eo & E). injection E as <-.
  apply at_zget in Ex. apply put_zset in Eo. specialize (C k Ek). destruct a as [c l]. cbn [snd] in *.
  assert (S1 : run callee (class_ast w) (out_env $"_class" rest (c, l)) = Some (out_env $"_class" rest (k, l), None)).
  { unfold class_ast. cbn [run eval]. rewrite C. reflexivity. }
  assert (S2 : run callee (SAddTo (LIdx $"out" (EVar $"_class")) (EVal (VF one))) (out_env $"_class" rest (k, l)) = Some (out_env $"_class" rest (k, o), None)).
  { transitivity (let? env := (let? x := (let? z := at_index l k in Some (VF z)) in let? y := arith Add x (VF one) in
        (let? l := put l k (as_float y) in Some (out_env $"_class" rest (k, l)))) in Some (env, @None cval)); [reflexivity|].
    rewrite Ex. cbn [arith as_float]. unfold one. rewrite Eo. reflexivity. }
  unfold proba_vote_ast, seq_all. cbn [fold_right]. change (run callee (SSeq (class_ast w) (SSeq (SAddTo (LIdx $"out" (EVar $"_class")) (EVal (VF one))) SSkip)) (out_env $"_class" rest (c, l)))
    with (let? (env', r) := run callee (class_ast w) (out_env $"_class" rest (c, l)) in match r with Some v => Some (env', Some v) | None =>
      let? (env', r) := run callee (SAddTo (LIdx $"out" (EVar $"_class")) (EVal (VF one))) env' in match r with Some v => Some (env', Some v) | None => Some (env', None) end end).
  rewrite S1, S2. reflexivity.
Qed.
Lemma hard_proba_run (p : inline_prog K) names out n_out out' : n_out <= 2147483647 -> Forall2 (calls lt features callee VI) names (ip_trees p) ->
  inline_proba_hard lt p features out n_out = Ret (0, out') ->
  exists c, run callee (proba_ast (zlen (ip_trees p)) (SInt $"_class" (EVal (VI (-1)))) (seq_all (map proba_vote_ast names))) [($"out", CFloats out); ($"out_length", CInt n_out)]
    = Some ([($"_class", CInt c); ($"out", CFloats out'); ($"out_length", CInt n_out)], Some (VI 0)).
Proof.
  intros Hn F E. unfold inline_proba_hard in E. apply bind_Ret in E. destruct E as (o1 & E1 & E). apply bind_Ret in E. destruct E as (o2 & E2 & E). apply bind_Ret in E. destruct E as (o3 & E3 & E). injection E as <-.
  assert (G : exists c, foldM (fun a t => let* k := run_tree lt features t in let* x := zget (snd a) k in let* o := zset (snd a) k (fadd x (f_of_Z 1)) in Ret (k, o)) (-1, o1) (ip_trees p) = Ret (c, o2)).
  { clear - E2. revert E2. generalize (-1). revert o1. induction (ip_trees p) as [|t Ts IH]; intros o1 c E; cbn [foldM] in *; [injection E as <-; eauto|].
    apply bind_Ret in E. destruct E as (o & E1 & E). apply bind_Ret in E1. destruct E1 as (k & Ek & E1). apply bind_Ret in E1. destruct E1 as (x & Ex & E1). cbn [snd]. rewrite Ek. cbn [bind]. rewrite Ex. cbn [bind]. rewrite E1. cbn [bind].
    now apply IH. }
  destruct G as [c G]. exists c.
  apply (proba_run callee $"_class" [($"out_length", CInt n_out)] (or_introl eq_refl) n_out eq_refl Hn _ _ _ _ o1 o2 _ _ E1); [|exact E3].
  exact (seq_run lt features callee VI (out_env $"_class" [($"out_length", CInt n_out)]) _ proba_vote_ast (fun w T a b C Q => proba_vote_run _ w T a b C Q) names (ip_trees p) F _ _ G).
Qed.
End HardProba.

(** ** Soft voting *)
Definition f255 : f32 := f_of_Z 255.
Definition soft_body (leaves : text) : stmt :=
  seq_all [SAddTo (LIdx $"out" (EVar $"i")) (EBin Div (EIdx leaves (EBin Add (EVar $"offset") (EVar $"i"))) (EVal (VF f255)))].
Definition soft_vote_ast (leaves : text) (n : Z) (w : text) : stmt :=
  seq_all [SSet (LVar $"offset") (EBin Mul (EVal (VI n)) (ECall w)); SFor $"i" (EVal (VI 0)) (EVal (VI n)) (soft_body leaves)].
Definition argmax_body : stmt :=
  seq_all [SIf (EBin Gt (EIdx $"out" (EVar $"i")) (EVar $"most_voted_proba"))
    (seq_all [SSet (LVar $"most_voted_class") (EVar $"i"); SSet (LVar $"most_voted_proba") (EIdx $"out" (EVar $"i"))])].
Definition proportions_ast (n : Z) (votes : stmt) : stmt :=
  seq_all [SFloats $"out" n; SInt $"offset" (EVal (VI 0)); votes; SInt $"most_voted_class" (EVal (VI (-1))); SFloat $"most_voted_proba" (EVal (VF fzero));
    SFor $"i" (EVal (VI 0)) (EVal (VI n)) argmax_body; SReturn (EVar $"most_voted_class")].
Section Soft.
Context {K X : Type} (lt : X -> K -> bool) (features : list X) (callee : list Z -> option cval).
Variables (leaves : text) (bytes : list Z) (rest : cenv) (p : inline_prog K).
Hypothesis Hl : leaves <> $"i" /\ leaves <> $"offset" /\ leaves <> $"out".
Hypothesis Hrest : find leaves rest = Some (CInts bytes).
Hypothesis Hb : ip_leaves p = bytes.
Hypothesis Hbl : zlen bytes <= 2147483647.
Hypothesis Hn : ip_n_classes p <= 2147483647.
Let env := out_env $"offset" rest.
Lemma soft_body_run off i (a b : Z * list f32) : fst a = off -> 0 <= i ->
  (let* x := zget bytes (off + i) in let* y := zget (snd a) i in let* o := zset (snd a) i (fadd y (fdiv (f_of_Z x) (f_of_Z 255))) in Ret (off, o)) = Ret b ->
  run callee (soft_body leaves) (($"i", CInt i) :: env a) = Some (($"i", CInt i) :: env b, None).
Proof using Hl Hrest Hbl.
  intros <- Hi E. apply bind_Ret in E. destruct E as (x & Ex & E). apply bind_Ret in E. destruct E as (y & Ey & E). apply bind_Ret in E. destruct E as (o & Eo & E). injection E as <-.
  pose proof (zget_bound _ _ _ Ex) as Bx. apply at_zget in Ex, Ey. apply put_zset in Eo. destruct (find_out callee $"offset" rest (or_intror eq_refl) a) as (F1 & F2 & S1 & S2 & E1). fold env in F1, F2, S1, S2, E1.
  assert (FL : find leaves (($"i", CInt i) :: env a) = Some (CInts bytes)).
  { unfold env, out_env. cbn [find]. destruct Hl as (L1 & L2 & L3). destruct (list_eq_dec Z.eq_dec leaves $"i"); [contradiction|]. destruct (list_eq_dec Z.eq_dec leaves $"offset"); [contradiction|].
    destruct (list_eq_dec Z.eq_dec leaves $"out"); [contradiction|]. exact Hrest. }
  unfold soft_body, seq_all. cbn [fold_right run]. cbn [eval]. rewrite FL. change (find $"offset" (($"i", CInt i) :: env a)) with (Some (CInt (fst a))). change (find $"i" (($"i", CInt i) :: env a)) with (Some (CInt i)). cbv iota beta.
  cbn [arith]. rewrite int_val_ok by lia. cbv iota beta. rewrite Ex. cbv iota beta. cbn [as_float]. unfold add_to. cbn [content assign]. cbn [eval]. change (find $"i" (($"i", CInt i) :: env a)) with (Some (CInt i)). cbv iota beta. rewrite F2. cbv iota beta. rewrite Ey. cbv iota beta. cbn [arith as_float].
  unfold f255. rewrite Eo. rewrite S2. reflexivity.
Qed.
Lemma soft_vote_run w T (a b : Z * list f32) : calls lt features callee VI w T ->
  (let* leaf := run_tree lt features T in let* offset := chk_int32 (ip_n_classes p * leaf) in let* o := add_proportions (ip_leaves p) offset (ip_n_classes p) (snd a) in Ret (offset, o)) = Ret b ->
  run callee (soft_vote_ast leaves (ip_n_classes p) w) (env a) = Some (env b, None).
Proof using Hl Hrest Hb Hbl Hn.
  intros C E. apply bind_Ret in E. destruct E as (leaf & Ek & E). apply bind_Ret in E. destruct E as (off & Eo & E). apply bind_Ret in E. destruct E as (o & Ea & E). injection E as <-.
  apply chk_int32_Ret in Eo. destruct Eo as [-> B]. specialize (C leaf Ek). set (n := ip_n_classes p) in *. set (off := n * leaf) in *. destruct a as [c l]. cbn [snd] in *.
  assert (S1 : run callee (SSet (LVar $"offset") (EBin Mul (EVal (VI n)) (ECall w))) (env (c, l)) = Some (env (off, l), None)).
  { cbn [run eval]. rewrite C. cbn [arith]. rewrite int_val_ok by (unfold int32_ok in B; lia). reflexivity. }
  assert (S2 : run callee (SFor $"i" (EVal (VI 0)) (EVal (VI n)) (soft_body leaves)) (env (off, l)) = Some (env (off, o), None)).
  { apply (for_fold callee (soft_body leaves) (EVal (VI n)) n $"i" (fun o => env (off, o)) (fun o c => let* x := zget bytes (off + c) in let* y := zget o c in zset o c (fadd y (fdiv (f_of_Z x) (f_of_Z 255))))).
    - reflexivity.
    - intros o1 i o2 Hi Q. exists []. apply (soft_body_run off i (off, o1) (off, o2)); [reflexivity|lia|].
      apply bind_Ret in Q. destruct Q as (x & Qx & Q). apply bind_Ret in Q. destruct Q as (y & Qy & Q). rewrite Qx. cbn [bind snd]. rewrite Qy. cbn [bind]. rewrite Q. reflexivity.
    - reflexivity.
    - exact Hn.
    - reflexivity.
    - rewrite <- Ea, Hb. reflexivity. }
  unfold soft_vote_ast, seq_all. cbn [fold_right]. change (run callee (SSeq (SSet (LVar $"offset") (EBin Mul (EVal (VI n)) (ECall w))) (SSeq (SFor $"i" (EVal (VI 0)) (EVal (VI n)) (soft_body leaves)) SSkip)) (env (c, l)))
    with (let? (env', r) := run callee (SSet (LVar $"offset") (EBin Mul (EVal (VI n)) (ECall w))) (env (c, l)) in match r with Some v => Some (env', Some v) | None =>
      let? (env', r) := run callee (SFor $"i" (EVal (VI 0)) (EVal (VI n)) (soft_body leaves)) env' in match r with Some v => Some (env', Some v) | None => Some (env', None) end end).
  rewrite S1, S2. reflexivity.
Qed.
Lemma soft_votes_run names o o' c : Forall2 (calls lt features callee VI) names (ip_trees p) -> foldM (inline_soft_step lt p features) o (ip_trees p) = Ret o' ->
  exists c', run callee (seq_all (map (soft_vote_ast leaves (ip_n_classes p)) names)) (env (c, o)) = Some (env (c', o'), None).
Proof using Hl Hrest Hb Hbl Hn.
  intros F E. assert (G : exists c', foldM (fun a t => let* leaf := run_tree lt features t in let* offset := chk_int32 (ip_n_classes p * leaf) in let* o := add_proportions (ip_leaves p) offset (ip_n_classes p) (snd a) in Ret (offset, o)) (c, o) (ip_trees p) = Ret (c', o')).
  { clear - E. revert o c E. induction (ip_trees p) as [|t Ts IH]; intros o c E; cbn [foldM] in *; [injection E as <-; eauto|].
    apply bind_Ret in E. destruct E as (o1 & E1 & E). unfold inline_soft_step in E1. apply bind_Ret in E1. destruct E1 as (k & Ek & E1). apply bind_Ret in E1. destruct E1 as (x & Ex & E1). cbn [snd]. rewrite Ek. cbn [bind]. rewrite Ex. cbn [bind]. rewrite E1. cbn [bind].
    now apply IH. }
  destruct G as [c' G]. exists c'. exact (seq_run lt features callee VI env _ (soft_vote_ast leaves (ip_n_classes p)) (fun w T a b C Q => soft_vote_run w T a b C Q) names (ip_trees p) F _ _ G).
Qed.
Definition arg_env (c0 : Z) (out : list f32) (a : Z * f32) : cenv :=
  ($"most_voted_proba", CFloat (snd a)) :: ($"most_voted_class", CInt (fst a)) :: env (c0, out).
Lemma arg_run c0 out i (a b : Z * f32) : (let* x := zget out i in if fltb (snd a) x then Ret (i, x) else Ret a) = Ret b ->
  run callee argmax_body (($"i", CInt i) :: arg_env c0 out a) = Some (($"i", CInt i) :: arg_env c0 out b, None).
Proof using.
  intros E. apply bind_Ret in E. destruct E as (x & Ex & E). apply at_zget in Ex. destruct a as [c m]. cbn [snd] in E.
  transitivity (let? (env', r) := (let? v := (let? y := (let? z := at_index out i in Some (VF z)) in arith Gt y (VF m)) in
      match v with VI 0 => Some (($"i", CInt i) :: arg_env c0 out (c, m), None)
      | VI _ => let? (env', r) := (let? (env', r) := (let? v := (let? z := at_index out i in Some (VF z)) in
             let? env := Some (($"i", CInt i) :: arg_env c0 out (i, as_float v)) in Some (env, @None cval)) in match r with Some v => Some (env', Some v) | None => Some (env', None) end)
          in Some (leave (($"i", CInt i) :: arg_env c0 out (c, m)) env', r)
      | VF _ => None end) in match r with Some v => Some (env', Some v) | None => Some (env', None) end).
  { unfold argmax_body, seq_all. cbn [fold_right run]. destruct (at_index out i) as [z|] eqn:Q; [|cbn [eval]; change (find $"i" (($"i", CInt i) :: arg_env c0 out (c, m))) with (Some (CInt i)); change (find $"out" (($"i", CInt i) :: arg_env c0 out (c, m))) with (Some (CFloats out)); cbv iota beta; rewrite Q; reflexivity].
    cbn [eval]. change (find $"i" (($"i", CInt i) :: arg_env c0 out (c, m))) with (Some (CInt i)); change (find $"out" (($"i", CInt i) :: arg_env c0 out (c, m))) with (Some (CFloats out)); change (find $"most_voted_proba" (($"i", CInt i) :: arg_env c0 out (c, m))) with (Some (CFloat m)). cbv iota beta. rewrite Q. cbv iota beta. cbn [arith as_float].
    destruct (fltb m z); [|reflexivity]. cbn [truth]. cbv iota beta.
    change (assign callee (($"i", CInt i) :: arg_env c0 out (c, m)) (LVar $"most_voted_class") (VI i)) with (Some (($"i", CInt i) :: arg_env c0 out (i, m))). cbv iota beta.
    change (find $"i" (($"i", CInt i) :: arg_env c0 out (i, m))) with (Some (CInt i)); change (find $"out" (($"i", CInt i) :: arg_env c0 out (i, m))) with (Some (CFloats out)). cbv iota beta. rewrite Q. reflexivity. }
  rewrite Ex. cbn [arith as_float]. destruct (fltb m x); cbn [truth]; injection E as <-; [|reflexivity].
  unfold leave. cbv iota beta. replace (length (($"i", CInt i) :: arg_env c0 out (i, x)) - length (($"i", CInt i) :: arg_env c0 out (c, m)))%nat with O by (cbn [length arg_env env out_env]; lia). reflexivity.
Qed.
End Soft.
Section SoftTop.
Context {K X : Type} (lt : X -> K -> bool) (features : list X) (callee : list Z -> option cval).
Variables (leaves : text) (p : inline_prog K) (names : list text).
Hypothesis Hl : leaves <> $"i" /\ leaves <> $"offset" /\ leaves <> $"out" /\ leaves <> $"out_length".
Hypothesis Hbl : zlen (ip_leaves p) <= 2147483647.
Hypothesis Hn : ip_n_classes p <= 2147483647.
Hypothesis HF : Forall2 (calls lt features callee VI) names (ip_trees p).
Let glob : cenv := [(leaves, CInts (ip_leaves p))].
Lemma find_glob : find leaves glob = Some (CInts (ip_leaves p)).
Proof using. unfold glob. cbn [find]. destruct (list_eq_dec Z.eq_dec leaves leaves); [reflexivity|congruence]. Qed.
Lemma soft_predict_run c : inline_predict_soft lt p features = Ret c ->
  exists env, run callee (proportions_ast (ip_n_classes p) (seq_all (map (soft_vote_ast leaves (ip_n_classes p)) names))) glob = Some (env, Some (VI c)).
Proof using Hl Hbl Hn HF.
  intros E. unfold inline_predict_soft in E. apply bind_Ret in E. destruct E as (o & Eo & E). unfold argmax_f32 in E. apply bind_Ret in E. destruct E as ([cls m] & Em & E). injection E as ->.
  set (n := ip_n_classes p) in *. assert (L3 : leaves <> $"i" /\ leaves <> $"offset" /\ leaves <> $"out") by tauto.
  destruct (soft_votes_run lt features callee leaves (ip_leaves p) glob p L3 find_glob eq_refl Hbl Hn names _ _ 0 HF Eo) as (off & R1). fold n in R1.
  assert (R2 : run callee (SFor $"i" (EVal (VI 0)) (EVal (VI n)) argmax_body) (arg_env glob off o (-1, fzero)) = Some (arg_env glob off o (c, m), None)).
  { apply (for_fold callee argmax_body (EVal (VI n)) n $"i" (arg_env glob off o) (fun a i => let* x := zget o i in if fltb (snd a) x then Ret (i, x) else Ret a)).
    - reflexivity.
    - intros a i b _ Q. exists []. exact (arg_run callee glob off o i a b Q).
    - reflexivity.
    - exact Hn.
    - reflexivity.
    - rewrite <- Em. clear. generalize (-1, fzero : f32). induction (zrange n) as [|i l IH]; intros [c m]; [reflexivity|]. cbn [foldM]. destruct (zget o i) as [x|]; cbn [bind snd]; [|reflexivity].
      destruct (fltb m x); cbn [bind]; apply IH. }
  exists (arg_env glob off o (c, m)).
  transitivity (let? (env', r) := run callee (seq_all (map (soft_vote_ast leaves n) names)) (out_env $"offset" glob (0, repeat fzero (Z.to_nat n))) in match r with Some v => Some (env', Some v) | None =>
     let? (env', r) := run callee (SFor $"i" (EVal (VI 0)) (EVal (VI n)) argmax_body) (($"most_voted_proba", CFloat fzero) :: ($"most_voted_class", CInt (-1)) :: env') in
     match r with Some v => Some (env', Some v) | None => run callee (SSeq (SReturn (EVar $"most_voted_class")) SSkip) env' end end); [reflexivity|].
  rewrite R1. cbv iota beta. change (($"most_voted_proba", CFloat fzero) :: ($"most_voted_class", CInt (-1)) :: out_env $"offset" glob (off, o)) with (arg_env glob off o (-1, fzero)). rewrite R2. reflexivity.
Qed.
Lemma soft_proba_run out n_out out' : n_out <= 2147483647 -> inline_proba_soft lt p features out n_out = Ret (0, out') ->
  exists c, run callee (proba_ast (zlen (ip_trees p)) (SInt $"offset" (EVal (VI 0))) (seq_all (map (soft_vote_ast leaves (ip_n_classes p)) names))) (($"out", CFloats out) :: ($"out_length", CInt n_out) :: glob)
    = Some (($"offset", CInt c) :: ($"out", CFloats out') :: ($"out_length", CInt n_out) :: glob, Some (VI 0)).
Proof using Hl Hbl Hn HF.
  intros Hm E. unfold inline_proba_soft in E. apply bind_Ret in E. destruct E as (o1 & E1 & E). apply bind_Ret in E. destruct E as (o2 & E2 & E). apply bind_Ret in E. destruct E as (o3 & E3 & E). injection E as <-.
  assert (L3 : leaves <> $"i" /\ leaves <> $"offset" /\ leaves <> $"out") by tauto.
  assert (FG : find leaves (($"out_length", CInt n_out) :: glob) = Some (CInts (ip_leaves p))).
  { cbn [find]. destruct (list_eq_dec Z.eq_dec leaves $"out_length"); [tauto|]. apply find_glob. }
  destruct (soft_votes_run lt features callee leaves (ip_leaves p) _ p L3 FG eq_refl Hbl Hn names _ _ 0 HF E2) as (off & R1). exists off.
  exact (proba_run callee $"offset" (($"out_length", CInt n_out) :: glob) (or_intror eq_refl) n_out eq_refl Hm _ 0 _ _ o1 o2 o3 off E1 R1 E3).
Qed.
End SoftTop.
