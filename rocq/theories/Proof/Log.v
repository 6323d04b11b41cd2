(** Log entries are read back. *)
From Coq Require Import String ZArith List Bool Reals Lia Lra.
From Flocq Require Import Core BinarySingleNaN.
From Verif.Base Require Import Res Float ListX Loops.
From Verif.Model Require Import Text Log.
From Verif.Spec Require Import CgenSpec StrSpec LogSpec.
From Verif.Proof Require Import Text Cgen.
Import Verif.Spec.StrSpec Verif.Spec.LogSpec.
Import ListNotations.
Open Scope Z_scope.
Open Scope res_scope.

(** *** The format is unambiguous *)
Lemma cut (sep : Z) a b x y : ~ In sep a -> ~ In sep b -> a ++ sep :: x = b ++ sep :: y -> a = b /\ x = y.
Proof.
  revert b. induction a as [|c a IH]; intros [|d b] A B E; cbn [app] in E.
  - injection E as <-. auto.
  - injection E as <- _. destruct B. now left.
  - injection E as -> _. destruct A. now left.
  - injection E as <- E. destruct (IH b) as [-> ->]; auto; intros H; [apply A|apply B]; now right.
Qed.
(** Two texts without [s1], [s2], each followed by one of the two. *)
Lemma cut2 (s1 s2 : Z) a b c d x y : (c = s1 \/ c = s2) -> (d = s1 \/ d = s2) ->
  Forall (fun z => z <> s1 /\ z <> s2) a -> Forall (fun z => z <> s1 /\ z <> s2) b ->
  a ++ c :: x = b ++ d :: y -> a = b /\ c = d /\ x = y.
Proof.
  intros C D FA. revert b. induction FA as [|z a Hz FA IH]; intros b FB E; destruct FB as [|z' b Hz' FB]; cbn [app] in E.
  - injection E as <- <-. auto.
  - injection E as <- _. exfalso. destruct Hz', C; congruence.
  - injection E as -> _. exfalso. destruct Hz, D; congruence.
  - injection E as <- E. destruct (IH b FB E) as (-> & -> & ->). auto.
Qed.
Definition tail_of (ps : list (list Z * list Z)) (rest : list Z) : list Z :=
  concat (map (fun '(k, v) => 32 :: k ++ 61 :: v) ps) ++ 10 :: rest.
Lemma tail_first ps rest : exists c x, tail_of ps rest = c :: x /\ (c = 32 \/ c = 10).
Proof. destruct ps as [|[k v] ps]; cbn; eauto. Qed.
Lemma tail_cons k v ps rest : tail_of ((k, v) :: ps) rest = 32 :: k ++ 61 :: v ++ tail_of ps rest.
Proof. unfold tail_of. cbn [map concat]. cbn [app]. rewrite <- !app_assoc. reflexivity. Qed.
Lemma tail_inj ps qs x y : Forall (fun '(k, v) => key_word k /\ word v) ps -> Forall (fun '(k, v) => key_word k /\ word v) qs ->
  tail_of ps x = tail_of qs y -> ps = qs /\ x = y.
Proof.
  intros FP. revert qs. induction FP as [|[k v] ps [Hk Hv] FP IH]; intros qs FQ E; destruct FQ as [|[k' v'] qs [Hk' Hv'] FQ].
  - cbn in E. injection E as <-. auto.
  - exfalso. rewrite tail_cons in E. cbn in E. discriminate.
  - exfalso. rewrite tail_cons in E. cbn in E. discriminate.
  - rewrite !tail_cons in E. injection E as E. apply cut in E as [-> E]; [|apply Hk|apply Hk'].
    destruct (tail_first ps x) as (c & z & T & C), (tail_first qs y) as (c' & z' & T' & C').
    rewrite T, T' in E. apply (cut2 32 10) in E as (-> & -> & ->); auto.
    rewrite <- T' in T. destruct (IH qs FQ T) as [-> ->]. auto.
Qed.
Lemma line_tail e rest : line_of e ++ rest = event e ++ tail_of (pairs e) rest.
Proof. unfold line_of, tail_of. rewrite <- !app_assoc. reflexivity. Qed.
Lemma log_inj l l' : Forall proper l -> Forall proper l' -> log_of l = log_of l' -> l = l'.
Proof.
  intros F. revert l'. induction F as [|e l [He Hp] F IH]; intros l' F' E; destruct F' as [|e' l' [He' Hp'] F']; auto.
  - exfalso. unfold log_of in E. cbn [map concat] in E. rewrite line_tail in E. destruct (tail_first (pairs e') (log_of l')) as (c & x & T & _).
    fold (log_of l') in E. rewrite T in E. destruct (event e'); discriminate.
  - exfalso. unfold log_of in E. cbn [map concat] in E. rewrite line_tail in E. destruct (tail_first (pairs e) (log_of l)) as (c & x & T & _).
    fold (log_of l) in E. rewrite T in E. destruct (event e); discriminate.
  - unfold log_of in E. cbn [map concat] in E. fold (log_of l) in E. fold (log_of l') in E. rewrite !line_tail in E.
    destruct (tail_first (pairs e) (log_of l)) as (c & x & T & C), (tail_first (pairs e') (log_of l')) as (c' & x' & T' & C').
    rewrite T, T' in E. apply (cut2 32 10) in E as (Ee & -> & ->); auto.
    rewrite <- T' in T. destruct (tail_inj _ _ _ _ Hp Hp' T) as [Ep El]. apply IH in El; auto. subst l'.
    destruct e, e'; cbn in *; congruence.
Qed.

(** *** What printf prints *)
Lemma printf_plain t : ~ In 37 t -> printf t [] = Ret t.
Proof.
  induction t as [|c t IH]; intros H; [reflexivity|]. cbn [printf]. destruct (Z.eqb_spec c 37) as [->|]; [destruct H; now left|].
  rewrite IH; [reflexivity|]. intros I. apply H. now right.
Qed.
Lemma printf_pair_s k v : printf (txt " %s=%s") [AStr k; AStr v] = Ret (32 :: k ++ 61 :: v).
Proof. cbn. now rewrite app_nil_r. Qed.
Lemma printf_pair_d k z : printf (txt " %s=%d") [AStr k; AInt z] = Ret (32 :: k ++ 61 :: fmt_int z).
Proof. cbn [txt]. cbn. now rewrite app_nil_r. Qed.
Lemma printf_pair_f k x : printf (txt " %s=%.4f") [AStr k; ADouble x] = Ret (32 :: k ++ 61 :: fmt_fixed 4 x).
Proof. cbn -[fmt_fixed]. now rewrite app_nil_r. Qed.


Lemma int_is_text z : int_text (fmt_int z) z.
Proof.
  unfold fmt_int. destruct (Z.ltb_spec z 0).
  - destruct (dec_digits_ok (- z)) as (D1 & D2 & D3); [lia|]. exists true, (dec_digits (- z)). split; [reflexivity|].
    split; [exact D2|]. split; [exact D3|]. change (z = - dval 0 (dec_digits (- z))). lia.
  - destruct (dec_digits_ok z) as (D1 & D2 & D3); [lia|]. exists false, (dec_digits z). split; [reflexivity|].
    split; [exact D2|]. split; [exact D3|]. change (z = dval 0 (dec_digits z)). lia.
Qed.
Lemma digit_word ds : digit_text ds -> word ds.
Proof. intros D. eapply Forall_impl; [|exact D]. cbv beta. intros c C. lia. Qed.
Lemma int_text_word t z : int_text t z -> word t.
Proof.
  intros (neg & ds & -> & D & _). apply Forall_app. split; [|now apply digit_word]. destruct neg; [|constructor]. constructor; [lia|constructor].
Qed.
Lemma fixed4_text_word t v : fixed4_text t v -> word t.
Proof.
  intros (neg & w & fr & -> & D & _ & D' & _). apply Forall_app. split; [destruct neg; [constructor; [lia|constructor]|constructor]|].
  apply Forall_app. split; [now apply digit_word|]. constructor; [lia|now apply digit_word].
Qed.
Lemma fixed4_is_text (x : f64) : is_finite x = true -> exists r, fixed4_text (fmt_fixed 4 x) r /\ (Rabs (r - B2R x) <= / 20000)%R.
Proof.
  intros F. destruct (fmt_fixed_split 4 x F) as (ds & fs & T & D1 & D2 & D3 & L & N).
  pose proof (fmt_fixed_err 4 x F) as ER. rewrite <- N in ER.
  exists ((if Bsign x then -1 else 1) * IZR (number (ds ++ fs)) / 10000)%R. split.
  - exists (Bsign x), ds, fs. split; [rewrite T; destruct (Bsign x); reflexivity|]. auto.
  - change (Z.of_nat 4) with 4 in *. change (10 ^ 4) with 10000 in *. eapply Rle_trans; [|eapply Rle_trans; [exact ER|lra]].
    apply Req_le. f_equal. change CgenSpec.number with number in *. destruct (Bsign x); cbn [sign_of]; unfold Rdiv; ring.
Qed.

Lemma field_ok a : good_add a -> exists k v, log_field a = Ret (32 :: k ++ 61 :: v) /\ key_word k /\ word v /\ says a (k, v).
Proof.
  destruct a as [k v|k z|k b|k x|k arr len fmt]; cbn [good_add log_field says]; intros G.
  - exists k, v. rewrite printf_pair_s. tauto.
  - exists k, (fmt_int z). rewrite printf_pair_d. pose proof (int_is_text z) as I. pose proof (int_text_word _ _ I). cbn [fst snd]. tauto.
  - exists k, (if b then txt "true" else txt "false"). rewrite printf_pair_s. split; [reflexivity|]. split; [exact G|].
    split; [|destruct b; reflexivity]. destruct b; cbn; unfold word; repeat (constructor; [lia|]); constructor.
  - destruct G as [G F]. destruct (fixed4_is_text x F) as (r & I & E). exists k, (fmt_fixed 4 x). rewrite printf_pair_f.
    pose proof (fixed4_text_word _ _ I). cbn [fst snd]. split; [reflexivity|]. split; [exact G|]. split; [assumption|]. split; [reflexivity|]. exists r. auto.
  - contradiction.
Qed.
Lemma fields_ok adds : Forall good_add adds -> exists ps, mapM log_field adds = Ret (map (fun '(k, v) => 32 :: k ++ 61 :: v) ps) /\
  Forall2 says adds ps /\ Forall (fun '(k, v) => key_word k /\ word v) ps.
Proof.
  induction 1 as [|a adds G F (ps & E & S & W)]; [exists []; repeat split; constructor|].
  destruct (field_ok a G) as (k & v & Ef & Hk & Hv & Sa). exists ((k, v) :: ps). cbn [mapM map]. rewrite Ef. cbn [bind]. rewrite E. cbn [bind].
  split; [reflexivity|]. split; constructor; auto.
Qed.
Lemma entry_ok ev adds : good_event ev -> Forall good_add adds -> exists e, log_entry true ev adds = Ret (line_of e) /\ entry_says (ev, adds) e /\ proper e.
Proof.
  intros [W P] G. destruct (fields_ok adds G) as (ps & E & S & F). exists (mk_entry ev ps). unfold log_entry.
  rewrite (printf_plain ev P). cbn [bind]. rewrite E. cbn [bind]. rewrite printf_plain by (intros [H|[]]; discriminate). cbn [bind].
  split; [reflexivity|]. repeat split; auto.
Qed.
Lemma entries_ok l : Forall (fun '(ev, adds) => good_event ev /\ Forall good_add adds) l ->
  exists es, log_entries true l = Ret (log_of es) /\ Forall2 entry_says l es /\ Forall proper es.
Proof.
  intros F. assert (G : exists es, mapM (fun '(event, adds) => log_entry true event adds) l = Ret (map line_of es) /\ Forall2 entry_says l es /\ Forall proper es).
  { induction F as [|[ev adds] l [Ge Ga] F (es & E & S & P)]; [exists []; repeat split; constructor|].
    destruct (entry_ok ev adds Ge Ga) as (e & E1 & S1 & P1). exists (e :: es). cbn [mapM map]. rewrite E1. cbn [bind]. rewrite E. cbn [bind].
    split; [reflexivity|]. split; constructor; auto. }
  destruct G as (es & E & S & P). exists es. unfold log_entries. rewrite E. cbn [bind]. auto.
Qed.

(** *** Format characters in the name of an event *)
Lemma printf_missing pre rest c : ~ In 37 pre -> c <> 37 -> printf (pre ++ 37 :: c :: rest) [] = Err OutOfBounds.
Proof.
  induction pre as [|d pre IH]; intros H C.
  - cbn [app printf]. change (37 =? 37) with true. cbv iota. 
    destruct c as [|p|p]; try reflexivity.
    repeat (destruct p as [p|p|]; try reflexivity; try congruence).
    all: destruct rest as [|k rest]; try reflexivity; destruct rest as [|x rest]; try reflexivity; destruct x as [|x|x]; try reflexivity; repeat (destruct x as [x|x|]; try reflexivity).
  - cbn [app printf]. destruct (Z.eqb_spec d 37) as [->|]; [destruct H; now left|]. rewrite IH; [reflexivity| |exact C]. intros I. apply H. now right.
Qed.

(** *** Arrays *)
Lemma fmt_int_no_eq z : ~ In 61 (fmt_int z).
Proof.
  destruct (int_is_text z) as (neg & ds & -> & D & _). intros I. apply in_app_iff in I as [I|I].
  - destruct neg; [destruct I as [I|[]]; discriminate|destruct I].
  - apply (proj1 (Forall_forall _ _) D) in I. lia.
Qed.
Lemma array_field key zs n : n = zlen zs -> exists t, log_field (AddArray key (map AInt zs) n (txt "%d")) = Ret (32 :: key ++ [91] ++ t ++ [93]) /\ ~ In 61 t.
Proof.
  intros ->. cbn [log_field]. change (printf (txt " %s") [AStr key]) with (Ret (32 :: key ++ []) : res (list Z)). cbn [bind]. rewrite app_nil_r.
  unfold log_print_array. change (printf (txt "[") []) with (Ret [91] : res (list Z)). cbn [bind].
  change (printf (txt "]") []) with (Ret [93] : res (list Z)). change (printf (txt ",") []) with (Ret [44] : res (list Z)).
  assert (G : exists t, foldM (fun out i => let* a := zget (map AInt zs) i in let* t := printf (txt "%d") [a] in
      if i =? zlen zs - 1 then Ret (out ++ t) else let* s := Ret [44] in Ret (out ++ t ++ s)) [] (zrange (zlen zs)) = Ret t /\ ~ In 61 t).
  { pose proof (zlen_nonneg zs) as N. 
    destruct (foldM_range_inv (fun out i => let* a := zget (map AInt zs) i in let* t := printf (txt "%d") [a] in
      if i =? zlen zs - 1 then Ret (out ++ t) else let* s := Ret [44] in Ret (out ++ t ++ s)) (fun _ (t : list Z) => ~ In 61 t) (zlen zs) []) as (t & E & P); [exact N|intros []| |eauto].
    intros i out Hi P. destruct (zget_ok zs i Hi) as (z & Ez). rewrite zget_map, Ez. cbn [bind].
    change (printf (txt "%d") [AInt z]) with (Ret (fmt_int z ++ []) : res (list Z)). cbn [bind]. rewrite app_nil_r.
    destruct (i =? zlen zs - 1); eexists; (split; [reflexivity|]); rewrite ?in_app_iff; intros [I|I]; auto; [now apply fmt_int_no_eq in I|].
    destruct I as [I|[I|[]]]; [now apply fmt_int_no_eq in I|discriminate]. }
  destruct G as (t & E & P). exists t. rewrite E. cbn [bind]. split; [|exact P]. cbn [app]. rewrite <- ?app_assoc. reflexivity.
Qed.

Lemma space_equals es : Forall proper es -> In 32 (log_of es) -> In 61 (log_of es).
Proof.
  unfold log_of. rewrite Forall_forall, !in_concat. intros P (l & I & H). apply in_map_iff in I as (e & <- & I).
  exists (line_of e). split; [now apply in_map|]. destruct (P e I) as [W _]. unfold line_of in *. rewrite !in_app_iff in *.
  destruct H as [H|[H|[H|[]]]].
  - exfalso. apply (proj1 (Forall_forall _ _) W) in H. lia.
  - right. left. destruct (pairs e) as [|[k v] ps]; [destruct H|]. cbn [map concat]. apply in_app_iff. left. right. apply in_app_iff. right. now left.
  - discriminate.
Qed.
