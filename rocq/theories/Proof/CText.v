(** Reading C text piece by piece. *)
From Coq Require Import String ZArith List Bool Lia.
From Flocq Require Import Core BinarySingleNaN.
From Verif.Base Require Import Res CInt ListX Float.
From Verif.Model Require Import Text Cgen.
From Verif.Spec Require Import CTextSpec.
From Verif.Proof Require Import Text Cgen.
Import ListNotations.
Open Scope Z_scope.
Open Scope list_scope.

(** ** Tokens of a text, from one word being read to another *)
Definition lexw (w a : list Z) (ts : list tok) (w' : list Z) : Prop :=
  forall out, fold_left lex_step a (InCode, w, out) = (InCode, w', rev ts ++ out).
Definition endw (w : list Z) : list tok := match w with [] => [] | _ => [W w] end.
Lemma endw_ne w : w <> [] -> endw w = [W w].
Proof. destruct w; [congruence|reflexivity]. Qed.
Lemma end_word_endw w out : end_word w out = endw w ++ out.
Proof. destruct w; reflexivity. Qed.
Lemma lexw_app w a ta w1 b tb w2 : lexw w a ta w1 -> lexw w1 b tb w2 -> lexw w (a ++ b) (ta ++ tb) w2.
Proof. intros Ha Hb out. rewrite fold_left_app, Ha, Hb, rev_app_distr, app_assoc. reflexivity. Qed.
Lemma lexw_nil w : lexw w [] [] w.
Proof. intros out. reflexivity. Qed.
Lemma lexw_word w a : forallb word_char a = true -> lexw w a [] (w ++ a).
Proof.
  revert w. induction a as [|c a IH]; intros w H out; [rewrite app_nil_r; reflexivity|].
  cbn [forallb] in H. apply andb_prop in H. destruct H as [Hc Ha].
  cbn [fold_left lex_step]. unfold lex_code. rewrite Hc. rewrite (IH (w ++ [c]) Ha out), <- app_assoc. reflexivity.
Qed.

(** what is already out stays *)
Lemma lex_step_out m w o p c : lex_step (m, w, o ++ p) c = (let '(m', w', o') := lex_step (m, w, o) c in (m', w', o' ++ p)).
Proof.
  destruct m; cbn [lex_step]; unfold lex_code.
  - destruct (word_char c); [reflexivity|]. destruct w; cbn [end_word]; destruct (blank c), (c =? 47), (c =? 35); reflexivity.
  - destruct (c =? 47) eqn:E; [reflexivity|]. destruct (word_char c); [reflexivity|]. cbn [end_word]. destruct (blank c); [reflexivity|]. destruct (c =? 35); reflexivity.
  - destruct (c =? 10); reflexivity.
Qed.
Lemma lex_out s : forall m w o p, fold_left lex_step s (m, w, o ++ p) = (let '(m', w', o') := fold_left lex_step s (m, w, o) in (m', w', o' ++ p)).
Proof.
  induction s as [|c s IH]; intros m w o p; [reflexivity|].
  cbn [fold_left]. rewrite lex_step_out. destruct (lex_step (m, w, o) c) as [[m1 w1] o1]. apply IH.
Qed.
Fixpoint split_word (s : list Z) : list Z * list Z :=
  match s with [] => ([], []) | c :: s' => if word_char c then let '(u, v) := split_word s' in (c :: u, v) else ([], s) end.
Lemma split_word_ok s : s = fst (split_word s) ++ snd (split_word s) /\ forallb word_char (fst (split_word s)) = true /\
  (forall c v, snd (split_word s) = c :: v -> word_char c = false).
Proof.
  induction s as [|c s (I1 & I2 & I3)]; [repeat split; discriminate|]. cbn [split_word]. destruct (word_char c) eqn:E.
  - destruct (split_word s) as [u v]. cbn [fst snd app forallb] in *. rewrite E, I2. split; [congruence|]. split; [reflexivity|exact I3].
  - cbn. split; [reflexivity|]. split; [reflexivity|]. intros d v H. injection H as <- _. exact E.
Qed.
Lemma lex_boundary c v w out : word_char c = false -> fold_left lex_step (c :: v) (InCode, w, out) = fold_left lex_step (c :: v) (InCode, [], endw w ++ out).
Proof. intros H. cbn [fold_left lex_step]. unfold lex_code. rewrite H, !end_word_endw. reflexivity. Qed.
(** a constant piece: the pending word is completed by [u], then [ts], then [w'] is begun *)
Lemma lexw_const w s u v ts w' : split_word s = (u, v) -> (match v with [] => false | _ => true end) = true ->
  fold_left lex_step v (InCode, [], []) = (InCode, w', ts) -> lexw w s (endw (w ++ u) ++ rev ts) w'.
Proof.
  intros E Hv R out. destruct (split_word_ok s) as (A & B & C). rewrite E in A, B, C. cbn [fst snd] in A, B, C.
  destruct v as [|c v']; [discriminate|]. rewrite A, fold_left_app, (lexw_word w u B out). cbn [rev app].
  rewrite (lex_boundary c v' _ _ (C c v' eq_refl)). pose proof (lex_out (c :: v') InCode [] [] (endw (w ++ u) ++ out)) as L. cbn [app] in L. rewrite L, R.
  rewrite rev_app_distr, rev_involutive, <- app_assoc.
  destruct (w ++ u); reflexivity.
Qed.
Lemma lexw_const_clean s ts w' : fold_left lex_step s (InCode, [], []) = (InCode, w', ts) -> lexw [] s (rev ts) w'.
Proof. intros R out. pose proof (lex_out s InCode [] [] out) as L. cbn [app] in L. rewrite L, R, rev_involutive. reflexivity. Qed.
Lemma tokens_lexw t ts w : lexw [] t ts w -> tokens t = ts ++ endw w.
Proof. intros H. unfold tokens. rewrite H. cbn [lex_end]. rewrite end_word_endw, rev_app_distr, app_nil_r, rev_involutive. destruct w; reflexivity. Qed.

Lemma lexw_spaces n : lexw [] (repeat 32 n) [] [].
Proof. induction n; intros out; [reflexivity|]. cbn [repeat fold_left]. apply IHn. Qed.

(** identifiers *)
Definition wordy (w : list Z) : Prop := w <> [] /\ forallb word_char w = true.
Lemma wordy_app w s : wordy w -> forallb word_char s = true -> wordy (w ++ s).
Proof. intros [A B] C. split; [destruct w; [congruence|discriminate]|]. rewrite forallb_app, B, C. reflexivity. Qed.
Lemma digits_word ds : forallb (fun c => (48 <=? c) && (c <=? 57)) ds = true -> forallb word_char ds = true.
Proof.
  intros H. rewrite forallb_forall in *. intros c Hc. specialize (H c Hc). unfold word_char. rewrite H. rewrite !orb_true_r. reflexivity.
Qed.

(** numbers *)
Definition lit (neg : bool) (v : list Z) : list Z := if neg then 45 :: v else v.
Definition lit_toks (neg : bool) (v : list Z) : list tok := if neg then [P 45; W v] else [W v].
Lemma lexw_lit neg v : wordy v -> lexw [] (lit neg v) (if neg then [P 45] else []) v.
Proof.
  intros [_ H]. destruct neg; cbn [lit].
  - intros out. cbn [fold_left]. change (lex_step (InCode, [], out) 45) with (InCode, @nil Z, P 45 :: out). rewrite (lexw_word [] v H). reflexivity.
  - apply (lexw_word [] v H).
Qed.
Lemma literal_toks neg v ts : literal (lit_toks neg v ++ ts) = Some (lit neg v, ts).
Proof. destruct neg; reflexivity. Qed.

(** ** Brackets *)
Fixpoint bd (ts : list tok) (n : nat) : option nat :=
  match ts with
  | [] => Some n
  | P c :: ts' =>
      if opens c then bd ts' (S n)
      else if closes c then match n with O => None | S m => bd ts' m end
      else bd ts' n
  | W _ :: ts' => bd ts' n
  end.
Lemma bd_app a : forall b n, bd (a ++ b) n = match bd a n with Some m => bd b m | None => None end.
Proof.
  induction a as [|x a IH]; intros b n; [reflexivity|]. cbn [app bd]. destruct x as [w|c]; [apply IH|].
  destruct (opens c); [apply IH|]. destruct (closes c); [|apply IH]. destruct n; [reflexivity|apply IH].
Qed.
Lemma bd_more ts : forall n m k, bd ts n = Some m -> bd ts (n + k) = Some (m + k)%nat.
Proof.
  induction ts as [|x ts IH]; intros n m k H; [cbn in *; congruence|]. cbn [bd] in *. destruct x as [w|c]; [auto|].
  destruct (opens c); [apply (IH (S n)); auto|]. destruct (closes c); [|auto]. destruct n; [discriminate|]. cbn [Nat.add]. auto.
Qed.
Definition balanced (ts : list tok) : Prop := bd ts 0 = Some 0%nat.
Lemma balanced_at ts n : balanced ts -> bd ts n = Some n.
Proof. intros H. apply (bd_more ts 0 0 n) in H. exact H. Qed.
Lemma balanced_app a b : balanced a -> balanced b -> balanced (a ++ b).
Proof. unfold balanced. intros A B. rewrite bd_app, A. exact B. Qed.
Lemma def_bd ts : forall d m w r i f, bd ts d = Some m ->
  fold_left def_step ts (mk_def (S d) w (Some r) i f) = mk_def (S m) w (Some (rev ts ++ r)) i f.
Proof.
  induction ts as [|x ts IH]; intros d m w r i f H; [injection H as <-; reflexivity|].
  cbn [fold_left]. destruct x as [v|c]; cbn [bd] in H; cbn [def_step ds_depth ds_rest ds_word ds_init ds_found].
  - rewrite (IH _ _ _ _ _ _ H). cbn [rev]. rewrite <- app_assoc. reflexivity.
  - destruct (opens c) eqn:Eo.
    + rewrite (IH _ _ _ _ _ _ H). cbn [rev]. rewrite <- app_assoc. reflexivity.
    + destruct (closes c) eqn:Ec.
      * destruct d; [discriminate|]. rewrite (IH _ _ _ _ _ _ H). cbn [rev]. rewrite <- app_assoc. reflexivity.
      * rewrite (IH _ _ _ _ _ _ H). cbn [rev]. rewrite <- app_assoc. reflexivity.
Qed.

(** ** Definitions *)
Definition defines (ts : list tok) (ds : list (list Z * list tok)) : Prop :=
  forall found, fold_left def_step ts (def_start found) = def_start (rev ds ++ found).
Lemma defines_nil : defines [] [].
Proof. intros f. reflexivity. Qed.
Lemma defines_app a da b db : defines a da -> defines b db -> defines (a ++ b) (da ++ db).
Proof. intros A B f. rewrite fold_left_app, A, B, rev_app_distr, app_assoc. reflexivity. Qed.
Lemma defines_concat ls : Forall (fun x => defines (fst x) (snd x)) ls -> defines (concat (map fst ls)) (concat (map snd ls)).
Proof. induction 1 as [|x ls H HL IH]; [apply defines_nil|]. cbn [map concat]. apply defines_app; assumption. Qed.
Lemma definitions_of t ts ds : lexw [] t ts [] -> defines ts ds -> definitions t = ds.
Proof.
  intros H D. unfold definitions. rewrite (tokens_lexw _ _ _ H), app_nil_r, D. cbn [def_start ds_found]. rewrite app_nil_r, rev_involutive. reflexivity.
Qed.
Lemma spec_words ws : forall f w0, fold_left def_step (map W ws) (mk_def 0 w0 None false f) = mk_def 0 (last ws w0) None false f.
Proof.
  induction ws as [|w ws IH]; intros f w0; [reflexivity|]. cbn [map fold_left]. cbn [def_step ds_depth ds_rest ds_init ds_found].
  rewrite IH. destruct ws; [reflexivity|]. f_equal. cbn [last]. clear. revert l w w0. induction ws as [|a ws IH]; intros l w w0; [reflexivity|]. cbn [last] in *. apply IH.
Qed.
Definition fun_rest (params body : list tok) : list tok := P 40 :: params ++ P 41 :: P 123 :: body ++ [P 125].
Lemma defines_fun ws name params body : balanced params -> balanced body ->
  defines (map W ws ++ W name :: fun_rest params body) [(name, fun_rest params body)].
Proof.
  intros Hp Hb f. rewrite fold_left_app. unfold def_start at 1. rewrite spec_words. cbn [fold_left].
  cbn [def_step ds_depth ds_rest ds_init ds_found]. unfold fun_rest. cbn [fold_left].
  change (def_step (mk_def 0 name None false f) (P 40)) with (mk_def 1 name (Some [P 40]) false f).
  rewrite fold_left_app, (def_bd params 0 0 name [P 40] false f Hp). cbn [fold_left].
  change (def_step (mk_def 1 name (Some (rev params ++ [P 40])) false f) (P 41)) with (mk_def 0 name (Some (P 41 :: rev params ++ [P 40])) false f).
  change (def_step (mk_def 0 name (Some (P 41 :: rev params ++ [P 40])) false f) (P 123)) with (mk_def 1 name (Some (P 123 :: P 41 :: rev params ++ [P 40])) false f).
  rewrite fold_left_app, (def_bd body 0 0 _ _ _ _ Hb). cbn [fold_left].
  cbn [def_step ds_depth ds_rest ds_init ds_found opens closes]. change (opens 125) with false. change (closes 125) with true.
  change ((125 =? 125) && negb false) with true. cbn match. unfold ends_def. cbn [ds_word ds_found rev app]. do 3 f_equal.
  rewrite rev_app_distr, rev_involutive. cbn [rev app]. rewrite rev_app_distr, rev_involutive. cbn [rev app]. rewrite <- !app_assoc. reflexivity.
Qed.
Definition arr_rest (size body : list tok) : list tok := P 91 :: size ++ P 93 :: P 61 :: P 123 :: body ++ [P 125; P 59].
Lemma defines_arr ws name size body : balanced size -> balanced body ->
  defines (map W ws ++ W name :: arr_rest size body) [(name, arr_rest size body)].
Proof.
  intros Hp Hb f. rewrite fold_left_app. unfold def_start at 1. rewrite spec_words. cbn [fold_left].
  cbn [def_step ds_depth ds_rest ds_init ds_found]. unfold arr_rest. cbn [fold_left].
  change (def_step (mk_def 0 name None false f) (P 91)) with (mk_def 1 name (Some [P 91]) false f).
  rewrite fold_left_app, (def_bd size 0 0 name [P 91] false f Hp). cbn [fold_left].
  change (def_step (mk_def 1 name (Some (rev size ++ [P 91])) false f) (P 93)) with (mk_def 0 name (Some (P 93 :: rev size ++ [P 91])) false f).
  change (def_step (mk_def 0 name (Some (P 93 :: rev size ++ [P 91])) false f) (P 61)) with (mk_def 0 name (Some (P 61 :: P 93 :: rev size ++ [P 91])) true f).
  change (def_step (mk_def 0 name (Some (P 61 :: P 93 :: rev size ++ [P 91])) true f) (P 123)) with (mk_def 1 name (Some (P 123 :: P 61 :: P 93 :: rev size ++ [P 91])) true f).
  rewrite fold_left_app, (def_bd body 0 0 _ _ _ _ Hb). cbn [fold_left].
  cbn [def_step ds_depth ds_rest ds_init ds_found opens closes]. change (opens 125) with false. change (closes 125) with true.
  change ((125 =? 125) && negb true) with false. cbn match. cbn [def_step ds_depth ds_rest]. change (59 =? 59) with true. cbn match. unfold ends_def. cbn [ds_word ds_found rev app]. do 3 f_equal.
  rewrite rev_app_distr, rev_involutive. cbn [rev app]. rewrite rev_app_distr, rev_involutive. cbn [rev app]. rewrite <- !app_assoc. reflexivity.
Qed.
Definition struct_rest (body : list tok) : list tok := P 61 :: P 123 :: body ++ [P 125; P 59].
Lemma defines_struct ws name body : balanced body ->
  defines (map W ws ++ W name :: struct_rest body) [(name, struct_rest body)].
Proof.
  intros Hb f. rewrite fold_left_app. unfold def_start at 1. rewrite spec_words. cbn [fold_left].
  cbn [def_step ds_depth ds_rest ds_init ds_found]. unfold struct_rest. cbn [fold_left].
  change (def_step (mk_def 0 name None false f) (P 61)) with (mk_def 0 name (Some [P 61]) true f).
  change (def_step (mk_def 0 name (Some [P 61]) true f) (P 123)) with (mk_def 1 name (Some [P 123; P 61]) true f).
  rewrite fold_left_app, (def_bd body 0 0 _ _ _ _ Hb). cbn [fold_left].
  cbn [def_step ds_depth ds_rest ds_init ds_found opens closes]. change (opens 125) with false. change (closes 125) with true.
  change ((125 =? 125) && negb true) with false. cbn match. cbn [def_step ds_depth ds_rest]. change (59 =? 59) with true. cbn match. unfold ends_def. cbn [ds_word ds_found rev app]. do 3 f_equal.
  rewrite rev_app_distr, rev_involutive. cbn [rev app]. rewrite <- !app_assoc. reflexivity.
Qed.

(** ** Calls *)
Definition no_call (b : list tok) : Prop := match b with P c :: _ => c <> 40 | _ => True end.
Lemma called_app a : forall b, no_call b -> called (a ++ b) = called a ++ called b.
Proof.
  induction a as [|x a IH]; intros b H; [reflexivity|]. cbn [app]. destruct x as [w|c]; [|apply IH; exact H].
  destruct a as [|y a].
  - cbn [app]. destruct b as [|[v|c] b]; [reflexivity|reflexivity|]. cbn [called app]. cbn [no_call] in H.
    destruct (Z.eqb_spec c 40); [contradiction|]. reflexivity.
  - cbn [app] in *. destruct y as [v|c].
    + cbn [called]. apply (IH b H).
    + change (called (W w :: P c :: a ++ b)) with (if (c =? 40) && negb (control w) then w :: called (P c :: a ++ b) else called (P c :: a ++ b)).
      change (called (W w :: P c :: a)) with (if (c =? 40) && negb (control w) then w :: called (P c :: a) else called (P c :: a)).
      rewrite (IH b H). destruct ((c =? 40) && negb (control w)); reflexivity.
Qed.
Lemma no_call_app a b : no_call a -> no_call b -> no_call (a ++ b).
Proof. destruct a as [|x a]; intros A B; [exact B|exact A]. Qed.
Lemma control_short w : (8 <= length w)%nat -> control w = false.
Proof.
  intros H. unfold control. apply not_true_is_false. intros E. apply existsb_exists in E. destruct E as (k & Hk & E).
  destruct (list_eq_dec Z.eq_dec w k) as [->|]; [|discriminate]. apply in_map_iff in Hk. destruct Hk as (s & <- & Hs).
  cbn [In] in Hs. repeat (destruct Hs as [<-|Hs]; [cbn in H; lia|]). contradiction.
Qed.
Lemma called_call n r : called (W n :: P 40 :: r) = if control n then called r else n :: called r.
Proof. cbn [called]. change (40 =? 40) with true. destruct (control n); reflexivity. Qed.
Lemma called_parts a n r : called a = [] -> called r = [] -> called (a ++ W n :: P 40 :: r) = if control n then [] else [n].
Proof. intros A B. rewrite called_app by exact I. rewrite called_call, A, B. reflexivity. Qed.
