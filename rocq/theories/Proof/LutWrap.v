(** Wrapping text: words are kept when they fit, lines are short. *)
From Coq Require Import String ZArith List Bool Lia.
From Verif.Base Require Import Res ListX.
From Verif.Model Require Import Text Cgen Lut.
From Verif.Spec Require Import CgenSpec LutSpec.
Import ListNotations.
Open Scope Z_scope.
Open Scope list_scope.

Lemma ws_iff c : ws c = true <-> white c.
Proof.
  unfold ws, is_space, white. rewrite orb_true_iff, andb_true_iff, Z.eqb_eq, !Z.leb_le. tauto.
Qed.
Lemma ws_not c : ws c = false <-> ~ white c.
Proof. rewrite <- ws_iff. destruct (ws c); split; congruence. Qed.
Lemma space_char_ws c : space_char c = ws c.
Proof. reflexivity. Qed.

(** ** Words as a function *)
Fixpoint wds_from (cur : list Z) (s : list Z) : list (list Z) :=
  match s with
  | [] => flush cur
  | c :: s' => if ws c then flush cur ++ wds_from [] s' else wds_from (cur ++ [c]) s'
  end.
Definition wds (s : list Z) : list (list Z) := wds_from [] s.
Definition starts_white (t : list Z) : Prop := t = [] \/ exists c t', t = c :: t' /\ white c.

Lemma wds_run w : Forall (fun c => ~ white c) w -> forall cur t, wds_from cur (w ++ t) = wds_from (cur ++ w) t.
Proof.
  induction 1 as [|c w Hc Hw IH]; intros cur t; [now rewrite app_nil_r|].
  cbn [app wds_from]. apply ws_not in Hc. rewrite Hc, IH, <- app_assoc. reflexivity.
Qed.
Lemma wds_app t : starts_white t -> forall a cur, wds_from cur (a ++ t) = wds_from cur a ++ wds t.
Proof.
  intros Ht. induction a as [|c a IH]; intros cur; cbn [app wds_from].
  - destruct Ht as [->|(c & t' & -> & Hc)]; [cbn; now rewrite app_nil_r|].
    unfold wds. cbn [wds_from]. apply ws_iff in Hc. rewrite Hc. reflexivity.
  - destruct (ws c); rewrite IH; [now rewrite app_assoc|reflexivity].
Qed.
Lemma wds_app_end c t : white c -> forall a cur, wds_from cur (a ++ [c] ++ t) = wds_from cur (a ++ [c]) ++ wds t.
Proof.
  intros Hc. apply ws_iff in Hc. induction a as [|d a IH]; intros cur; cbn [app wds_from].
  - rewrite Hc. cbn [flush]. rewrite app_nil_r. reflexivity.
  - destruct (ws d); change (c :: t) with ([c] ++ t); rewrite IH; [now rewrite app_assoc|reflexivity].
Qed.
Lemma wds_white s t : Forall white s -> wds (s ++ t) = wds t.
Proof.
  unfold wds. induction 1 as [|c s Hc Hs IH]; [reflexivity|]. cbn [app wds_from]. apply ws_iff in Hc. now rewrite Hc.
Qed.
Lemma wds_all_white s : Forall white s -> wds s = [].
Proof. intros H. rewrite <- (app_nil_r s), wds_white by exact H. reflexivity. Qed.

Lemma words_white c s l : white c -> words s l -> words (c :: s) l.
Proof.
  intros Hc H. destruct H as [s Hs|s w t l Hs Hw Hn Ht H].
  - apply words_none. now constructor.
  - change (c :: s ++ w ++ t) with ((c :: s) ++ w ++ t). apply words_one; auto.
Qed.
Lemma words_wds_from s : forall cur, Forall (fun c => ~ white c) cur -> words (cur ++ s) (wds_from cur s).
Proof.
  induction s as [|c s IH]; intros cur Hcur; cbn [wds_from].
  - rewrite app_nil_r. destruct cur as [|d cur]; [apply words_none; constructor|].
    cbn [flush]. pose proof (words_one [] (d :: cur) [] []) as Q. rewrite app_nil_r in Q. apply Q; auto; [discriminate|].
    apply words_none. constructor.
  - destruct (ws c) eqn:E.
    + apply ws_iff in E. destruct cur as [|d cur].
      * cbn [flush app]. apply words_white; auto. exact (IH [] (Forall_nil _)).
      * cbn [flush]. apply (words_one [] (d :: cur) (c :: s)); auto; [discriminate|right; eauto|].
        apply words_white; auto. exact (IH [] (Forall_nil _)).
    + apply ws_not in E. replace (cur ++ c :: s) with ((cur ++ [c]) ++ s) by now rewrite <- app_assoc.
      apply IH. apply Forall_app. auto.
Qed.
Lemma words_iff s l : words s l <-> l = wds s.
Proof.
  split.
  - induction 1 as [s Hs|s w t l Hs Hw Hn Ht H IH]; [now rewrite wds_all_white|].
    rewrite wds_white by auto. unfold wds. rewrite wds_run by auto. cbn [app].
    rewrite <- (app_nil_l t). rewrite wds_app by auto. cbn [wds_from]. rewrite <- IH.
    destruct w; [congruence|reflexivity].
  - intros ->. exact (words_wds_from s [] (Forall_nil _)).
Qed.

Lemma wds_In_len s : forall cur w, In w (wds_from cur s) -> zlen w <= zlen cur + zlen s.
Proof.
  assert (F : forall cur w, In w (flush cur) -> zlen w = zlen cur).
  { intros [|c cur] w; cbn [flush In]; [tauto|]. now intros [->|[]]. }
  induction s as [|c s IH]; intros cur w; cbn [wds_from]; rewrite ?zlen_cons.
  - intros H. rewrite (F _ _ H). unfold zlen; simpl; lia.
  - pose proof (zlen_nonneg s). pose proof (zlen_nonneg cur). destruct (ws c).
    + intros H1. apply in_app_or in H1 as [H1|H1]; [rewrite (F _ _ H1); lia|].
      apply IH in H1. change (zlen (@nil Z)) with 0 in H1. lia.
    + intros H1. apply IH in H1. rewrite zlen_app in H1. change (zlen [c]) with 1 in H1. lia.
Qed.

(** ** Tokens depend on the words only *)
Lemma tokens_app t : starts_white t -> forall a cur, tokens_from cur (a ++ t) = tokens_from cur a ++ tokens t.
Proof.
  intros Ht. induction a as [|c a IH]; intros cur; cbn [app tokens_from].
  - destruct Ht as [->|(c & t' & -> & Hc)]; [cbn; now rewrite app_nil_r|].
    unfold tokens. cbn [tokens_from]. rewrite space_char_ws. apply ws_iff in Hc. rewrite Hc. reflexivity.
  - destruct (space_char c); [rewrite IH; now rewrite app_assoc|]. destruct (glyph c); rewrite IH; auto.
    now rewrite <- !app_assoc.
Qed.
Lemma tokens_white s t : Forall white s -> tokens (s ++ t) = tokens t.
Proof.
  unfold tokens. induction 1 as [|c s Hc Hs IH]; [reflexivity|]. cbn [app tokens_from]. rewrite space_char_ws. apply ws_iff in Hc. now rewrite Hc.
Qed.
Lemma tokens_words s l : words s l -> tokens s = flat_map tokens l.
Proof.
  induction 1 as [s Hs|s w t l Hs Hw Hn Ht H IH].
  - rewrite <- (app_nil_r s), tokens_white by auto. reflexivity.
  - rewrite tokens_white by auto. unfold tokens at 1. rewrite tokens_app by auto. cbn [flat_map]. now rewrite IH.
Qed.
Lemma tokens_wds s : tokens s = flat_map tokens (wds s).
Proof. apply tokens_words. now apply words_iff. Qed.

(** ** Chunks *)
Definition blankP (c : list Z) : Prop := c <> [] /\ Forall white c.
Definition solid (c : list Z) : Prop := c <> [] /\ Forall (fun x => ~ white x) c.
Fixpoint alt (chunks : list (list Z)) : Prop :=
  match chunks with
  | [] => True
  | c :: rest => (blankP c \/ (solid c /\ match rest with [] => True | d :: _ => blankP d end)) /\ alt rest
  end.
Lemma blank_iff c : blank c = true <-> Forall white c.
Proof.
  unfold blank. rewrite forallb_forall, Forall_forall. split; intros H x Hx; apply ws_iff; auto.
Qed.
Lemma split_chunks_ok s : concat (split_chunks s) = s /\ alt (split_chunks s) /\ Forall (fun c => c <> []) (split_chunks s).
Proof.
  induction s as [|c s (E & A & N)]; [repeat split; constructor|].
  cbn [split_chunks]. destruct (split_chunks s) as [|[|d t] rest] eqn:Es.
  - cbn in E. subst s. split; [reflexivity|]. split; [|repeat constructor; discriminate].
    cbn. split; [|exact I]. destruct (ws c) eqn:W.
    + left. apply ws_iff in W. split; [discriminate|constructor; [exact W|constructor]].
    + right. apply ws_not in W. split; [split; [discriminate|constructor; [exact W|constructor]]|exact I].
  - apply Forall_inv in N. congruence.
  - cbn [concat app] in E. apply Forall_cons_iff in N as [N1 N2]. cbn [alt] in A. destruct A as [A1 A2].
    destruct (Bool.eqb (ws c) (ws d)) eqn:W.
    + apply eqb_prop in W. split; [cbn [concat app]; congruence|]. split; [|constructor; [discriminate|exact N2]].
      cbn [alt]. split; [|exact A2]. destruct A1 as [[B1 B2]|[[B1 B2] B3]].
      * left. split; [discriminate|]. constructor; auto. apply Forall_inv in B2. apply ws_iff. rewrite W. now apply ws_iff.
      * right. split; [|exact B3]. split; [discriminate|]. constructor; auto. apply Forall_inv in B2. apply ws_not. rewrite W. now apply ws_not.
    + split; [cbn [concat app]; congruence|]. split; [|constructor; [discriminate|constructor; [discriminate|exact N2]]].
      cbn [alt]. split; [|split; [exact A1|exact A2]].
      apply eqb_false_iff in W. destruct (ws c) eqn:Wc.
      * left. split; [discriminate|]. constructor; [now apply ws_iff|constructor].
      * right. split; [split; [discriminate|constructor; [now apply ws_not|constructor]]|].
        assert (Wd : ws d = true) by (destruct (ws d); congruence). apply ws_iff in Wd.
        destruct A1 as [A1|[[B1 B2] B3]]; [exact A1|]. apply Forall_inv in B2. contradiction.
Qed.

Lemma alt_app a b : alt (a ++ b) -> alt a /\ alt b.
Proof.
  induction a as [|c a IH]; [intros H; split; [exact I|exact H]|]. cbn [app alt]. intros [H1 H2]. destruct (IH H2) as [H3 H4].
  split; [|exact H4]. split; [|exact H3]. destruct H1 as [H1|[H1 H5]]; [now left|right]. split; auto. destruct a; [exact I|exact H5].
Qed.
Lemma blank_starts d rest : blankP d -> starts_white (d ++ rest).
Proof. intros [H1 H2]. destruct d as [|x d]; [congruence|]. right. exists x, (d ++ rest). split; auto. now apply Forall_inv in H2. Qed.
(** Words of a list of chunks, cut anywhere between chunks. *)
Lemma alt_words chunks : alt chunks -> wds (concat chunks) = flat_map wds chunks.
Proof.
  induction chunks as [|c rest IH]; [reflexivity|]. cbn [alt concat flat_map]. intros [H1 H2]. rewrite <- IH by auto.
  destruct H1 as [[H0 H1]|[H1 H3]].
  - rewrite wds_white by auto. now rewrite (wds_all_white c H1).
  - apply wds_app. destruct rest as [|d rest]; [now left|]. cbn [concat]. now apply blank_starts.
Qed.
Lemma flat_map_app_wds a b : flat_map wds (a ++ b) = flat_map wds a ++ flat_map wds b.
Proof. apply flat_map_app. Qed.

Lemma fill_line_ok width : forall chunks cur_len line len rest,
  fill_line width cur_len chunks = (line, len, rest) -> cur_len <= width ->
  chunks = line ++ rest /\ len = cur_len + zlen (concat line) /\ len <= width /\
  match rest with [] => True | c :: _ => width < len + zlen c end.
Proof.
  induction chunks as [|c chunks IH]; intros cur_len line len rest; cbn [fill_line]; intros E Hw.
  - inv E. unfold zlen; simpl. repeat split; lia.
  - destruct (Z.leb_spec (cur_len + zlen c) width).
    + destruct (fill_line width (cur_len + zlen c) chunks) as [[l n] r] eqn:E1. inv E.
      destruct (IH _ _ _ _ E1) as (-> & -> & H2 & H3); [lia|]. split; [reflexivity|]. cbn [concat]. rewrite zlen_app. split; [lia|]. auto.
    + inv E. unfold zlen at 1; simpl. repeat split; lia.
Qed.

Lemma drop_last_blank_cases line : drop_last_blank line = line \/
  exists c, line = drop_last_blank line ++ [c] /\ Forall white c.
Proof.
  unfold drop_last_blank. destruct (rev line) as [|c r] eqn:E.
  - left. apply (f_equal (@rev _)) in E. rewrite rev_involutive in E. now subst.
  - destruct (blank c) eqn:B; [|now left]. right. exists c. split; [|now apply blank_iff].
    apply (f_equal (@rev _)) in E. rewrite rev_involutive in E. exact E.
Qed.
Lemma rfind_bound s : forall i best, -1 <= best < i -> -1 <= rfind_hyphen i best s < i + zlen s \/ (s = [] /\ rfind_hyphen i best s = best).
Proof.
  induction s as [|c s IH]; intros i best Hb; [right; auto|]. left. cbn [rfind_hyphen]. rewrite zlen_cons.
  pose proof (zlen_nonneg s).
  destruct (IH (i + 1) (if c =? 45 then i else best)) as [H1|[-> H1]]; [destruct (c =? 45); lia|lia|].
  rewrite H1. change (zlen (@nil Z)) with 0. destruct (c =? 45); lia.
Qed.
Lemma break_at_bound c k : 0 <= k -> 0 <= break_at c k <= k.
Proof.
  intros Hk. unfold break_at. destruct (k <? zlen c) eqn:Hc; [|lia]. apply Z.ltb_lt in Hc.
  set (h := rfind_hyphen _ _ _).
  assert (Hh : -1 <= h < 0 + k \/ h = -1).
  { destruct (rfind_bound (firstn (Z.to_nat k) c) 0 (-1) ltac:(lia)) as [B|[_ B]]; [left|right; exact B].
    assert (Q : zlen (firstn (Z.to_nat k) c) = k) by (unfold zlen in *; rewrite firstn_length; lia).
    rewrite Q in B. exact B. }
  destruct (Z.ltb_spec 0 h); cbn [andb]; [|lia].
  destruct (existsb _ _); lia.
Qed.

(** Total number of characters, for termination. *)
Definition size (chunks : list (list Z)) : Z := zlen (concat chunks).

(** One pass of the outer loop. *)
Definition one_pass (width : Z) (first : bool) (chunks : list text) : list text * list text :=
  match chunks with
  | [] => ([], [])
  | c0 :: rest0 =>
      let chunks1 := if blank c0 && negb first then rest0 else chunks in
      let '(line, len, rest) := fill_line width 0 chunks1 in
      let '(line, rest) :=
        match rest with
        | c :: rest' =>
            if width <? zlen c then
              let n := Z.to_nat (break_at c (width - len)) in (line ++ [firstn n c], skipn n c :: rest')
            else (line, rest)
        | [] => (line, rest)
        end in
      (drop_last_blank line, rest)
  end.
Definition is_first (lines : list text) : bool := match lines with [] => true | _ => false end.
Definition push (lines : list text) (line : list text) : list text := match line with [] => lines | _ => lines ++ [concat line] end.
Lemma wrap_step fuel width lines chunks : chunks <> [] ->
  wrap_chunks (S fuel) width lines chunks =
  (let '(line, rest) := one_pass width (is_first lines) chunks in wrap_chunks fuel width (push lines line) rest).
Proof.
  destruct chunks as [|c0 rest0]; [congruence|]. intros _. cbn [wrap_chunks one_pass]. fold (is_first lines).
  destruct (fill_line width 0 (if blank c0 && negb (is_first lines) then rest0 else c0 :: rest0)) as [[line len] rest].
  destruct rest as [|c rest]; [reflexivity|]. destruct (width <? zlen c); reflexivity.
Qed.

Lemma zlen_concat_app (a b : list (list Z)) : zlen (concat (a ++ b)) = zlen (concat a) + zlen (concat b).
Proof. now rewrite concat_app, zlen_app. Qed.
Lemma zlen_firstn_le {A} n (l : list A) : zlen (firstn n l) <= zlen l /\ zlen (firstn n l) <= Z.of_nat n.
Proof. unfold zlen. rewrite firstn_length. lia. Qed.

Lemma one_pass_ok width first chunks line rest : 1 <= width -> chunks <> [] ->
  Forall (fun c => c <> []) chunks -> one_pass width first chunks = (line, rest) ->
  Forall (fun c => c <> []) rest /\ size rest < size chunks /\ zlen (concat line) <= width.
Proof.
  intros Hw Hne Hn. destruct chunks as [|c0 rest0]; [congruence|]. unfold one_pass. cbv zeta.
  match goal with |- context [fill_line width 0 ?x] => set (chunks1 := x) end.
  apply Forall_cons_iff in Hn as [Hc0 Hn].
  assert (P0 : 0 < zlen c0) by (destruct c0; [congruence|rewrite zlen_cons; pose proof (zlen_nonneg c0); lia]).
  assert (H1 : Forall (fun c => c <> []) chunks1) by (unfold chunks1; destruct (blank c0 && negb first); auto).
  assert (S1 : size chunks1 < size (c0 :: rest0) \/ chunks1 = c0 :: rest0).
  { unfold chunks1. destruct (blank c0 && negb first); [left|now right]. unfold size. cbn [concat]. rewrite zlen_app. lia. }
  destruct (fill_line width 0 chunks1) as [[l len] r] eqn:E.
  destruct (fill_line_ok width _ _ _ _ _ E) as (E1 & E2 & E3 & E4); [lia|].
  assert (D : forall ln, zlen (concat (drop_last_blank ln)) <= zlen (concat ln)).
  { intros ln. destruct (drop_last_blank_cases ln) as [->|(c & Hd & _)]; [lia|].
    rewrite Hd at 2. rewrite zlen_concat_app. pose proof (zlen_nonneg (concat [c])). lia. }
  rewrite E1 in H1. apply Forall_app in H1 as [H2 H3].
  assert (SZ : size chunks1 = zlen (concat l) + size r) by (unfold size; rewrite E1; apply zlen_concat_app).
  pose proof (zlen_nonneg (concat l)) as Pl.
  assert (Pc : size chunks1 <= size (c0 :: rest0)) by (destruct S1 as [S1| ->]; lia).
  destruct r as [|c r].
  - intros Q. inv Q. split; [constructor|]. split.
    + unfold size in *. cbn [concat] in *. rewrite zlen_app in *. change (zlen (@nil Z)) with 0. pose proof (zlen_nonneg (concat rest0)). lia.
    + specialize (D l). lia.
  - apply Forall_cons_iff in H3 as [Hc Hr].
    assert (Pc' : 0 < zlen c) by (destruct c; [congruence|rewrite zlen_cons; pose proof (zlen_nonneg c); lia]).
    destruct (Z.ltb_spec width (zlen c)) as [L|L].
    + intros Q. inv Q. pose proof (break_at_bound c (width - (0 + zlen (concat l))) ltac:(lia)) as B.
      set (n := break_at c _) in *.
      assert (Ls : zlen (skipn (Z.to_nat n) c) = zlen c - n) by (unfold zlen in *; rewrite skipn_length; lia).
      assert (Lf : zlen (firstn (Z.to_nat n) c) = n) by (unfold zlen in *; rewrite firstn_length; lia).
      split; [|split].
      * constructor; auto. intros Q. rewrite Q in Ls. change (zlen (@nil Z)) with 0 in Ls. lia.
      * assert (Sr : size (skipn (Z.to_nat n) c :: r) = size (c :: r) - n) by (unfold size; cbn [concat]; rewrite !zlen_app; lia).
        destruct S1 as [S1|S1]; [lia|].
        destruct (Z.eq_dec (zlen (concat l)) 0) as [Q|Q]; [|lia].
        assert (Bn : 0 < n).
        { unfold n, break_at. rewrite Q in *. destruct (Z.ltb_spec (width - (0 + 0)) (zlen c)); [|lia].
          destruct ((0 <? _) && _) eqn:Eb; [|lia]. apply andb_prop in Eb as [Eb _]. apply Z.ltb_lt in Eb. lia. }
        lia.
      * specialize (D (l ++ [firstn (Z.to_nat n) c])). rewrite zlen_concat_app in D. cbn [concat] in D.
        rewrite app_nil_r in D. lia.
    + intros Q. inv Q. split; [constructor; auto|]. split.
      * destruct S1 as [S1|S1]; [lia|]. destruct l as [|c1 l]; [cbn in E4; change (zlen (@nil Z)) with 0 in *; lia|].
        cbn [concat] in SZ. rewrite zlen_app in SZ. rewrite S1 in E1. inv E1. pose proof (zlen_nonneg (concat l)). lia.
      * specialize (D l). lia.
Qed.

(** Lines never exceed the width; enough fuel is given. *)
Lemma wrap_ok width : 1 <= width -> forall fuel lines chunks,
  Forall (fun c => c <> []) chunks -> size chunks < Z.of_nat fuel -> Forall (fun l => zlen l <= width) lines ->
  exists out, wrap_chunks fuel width lines chunks = Ret out /\ Forall (fun l => zlen l <= width) out.
Proof.
  intros Hw. induction fuel as [|fuel IH]; intros lines chunks Hn Hs Hl.
  - destruct chunks as [|c chunks]; [exists lines; auto|]. pose proof (zlen_nonneg (concat (c :: chunks))). unfold size in Hs. lia.
  - destruct (list_eq_dec (list_eq_dec Z.eq_dec) chunks []) as [->|Hne]; [exists lines; auto|].
    rewrite wrap_step by exact Hne. destruct (one_pass width (is_first lines) chunks) as [line rest] eqn:E.
    destruct (one_pass_ok _ _ _ _ _ Hw Hne Hn E) as (H1 & H2 & H3). apply IH; auto; [lia|].
    unfold push. destruct line; [exact Hl|]. apply Forall_app. split; auto.
Qed.

(** Words are kept when they fit. *)
Definition fits (width : Z) (chunks : list text) : Prop := Forall (fun c => Forall white c \/ zlen c <= width) chunks.
Lemma flat_wds_drop line : flat_map wds (drop_last_blank line) = flat_map wds line.
Proof.
  destruct (drop_last_blank_cases line) as [->|(c & E & W)]; [reflexivity|].
  rewrite E at 2. rewrite flat_map_app. cbn [flat_map]. rewrite (wds_all_white c W). now rewrite !app_nil_r.
Qed.
Lemma alt_drop line : alt line -> alt (drop_last_blank line).
Proof.
  intros H. destruct (drop_last_blank_cases line) as [->|(c & E & W)]; [exact H|]. rewrite E in H. apply alt_app in H. tauto.
Qed.
Lemma one_pass_words width first chunks line rest : 1 <= width -> chunks <> [] -> alt chunks -> fits width chunks ->
  one_pass width first chunks = (line, rest) ->
  alt rest /\ fits width rest /\ flat_map wds chunks = wds (concat line) ++ flat_map wds rest.
Proof.
  intros Hw Hne HA HF. destruct chunks as [|c0 rest0]; [congruence|]. unfold one_pass. cbv zeta.
  match goal with |- context [fill_line width 0 ?x] => set (chunks1 := x) end.
  assert (A1 : alt chunks1 /\ fits width chunks1 /\ flat_map wds chunks1 = flat_map wds (c0 :: rest0)).
  { unfold chunks1. destruct (blank c0 && negb first) eqn:B; [|auto]. apply andb_prop in B as [B _]. apply blank_iff in B.
    split; [apply HA|]. split; [now apply Forall_inv_tail in HF|]. cbn [flat_map]. now rewrite (wds_all_white c0 B). }
  destruct A1 as (A1 & F1 & W1). rewrite <- W1.
  destruct (fill_line width 0 chunks1) as [[l len] r] eqn:E.
  destruct (fill_line_ok width _ _ _ _ _ E) as (E1 & E2 & E3 & E4); [lia|].
  rewrite E1 in A1, F1. rewrite E1, flat_map_app. apply alt_app in A1 as [Al Ar]. apply Forall_app in F1 as [Fl Fr].
  assert (N : forall r, (drop_last_blank l, r) = (line, rest) ->
     flat_map wds l = wds (concat line) /\ r = rest).
  { intros r0 Q. inv Q. split; [|reflexivity]. rewrite alt_words by (apply alt_drop; exact Al). now rewrite flat_wds_drop. }
  destruct r as [|c r].
  - intros Q. destruct (N _ Q) as [N1 <-]. split; [exact I|]. split; [constructor|]. f_equal. exact N1.
  - destruct (Z.ltb_spec width (zlen c)) as [L|L].
    + intros Q.
      assert (Wc : Forall white c) by (apply Forall_inv in Fr; destruct Fr as [Fr|Fr]; [exact Fr|lia]).
      pose proof (break_at_bound c (width - len) ltac:(lia)) as B. set (n := break_at c _) in *.
      assert (W2 : Forall white (firstn (Z.to_nat n) c) /\ Forall white (skipn (Z.to_nat n) c)).
      { apply Forall_app. now rewrite firstn_skipn. }
      destruct W2 as [W2 W3]. inversion Q as [[Q1 Q2]]. clear Q.
      assert (Ln : zlen (skipn (Z.to_nat n) c) = zlen c - n) by (unfold zlen in *; rewrite skipn_length; pose proof (zlen_nonneg (concat l)); lia).
      split; [|split].
      * cbn [alt]. split; [left|apply Ar]. split; [|exact W3].
        intros Z0. rewrite Z0 in Ln. change (zlen (@nil Z)) with 0 in Ln. pose proof (zlen_nonneg (concat l)). lia.
      * constructor; [now left|]. now apply Forall_inv_tail in Fr.
      * cbn [flat_map]. rewrite (wds_all_white c Wc), (wds_all_white _ W3). cbn [app]. f_equal.
        assert (D : drop_last_blank (l ++ [firstn (Z.to_nat n) c]) = l).
        { unfold drop_last_blank. rewrite rev_app_distr. cbn [rev app].
          destruct (blank (firstn (Z.to_nat n) c)) eqn:Bk; [now rewrite rev_involutive|].
          apply blank_iff in W2. congruence. }
        rewrite D, alt_words by exact Al. reflexivity.
    + intros Q. destruct (N _ Q) as [N1 <-]. split; [exact Ar|]. split; [exact Fr|]. f_equal. exact N1.
Qed.

Lemma wrap_words width : 1 <= width -> forall fuel lines chunks out,
  alt chunks -> fits width chunks -> wrap_chunks fuel width lines chunks = Ret out ->
  flat_map wds out = flat_map wds lines ++ flat_map wds chunks.
Proof.
  intros Hw. induction fuel as [|fuel IH]; intros lines chunks out HA HF E.
  - destruct chunks; [|discriminate]. inv E. cbn. now rewrite app_nil_r.
  - destruct (list_eq_dec (list_eq_dec Z.eq_dec) chunks []) as [->|Hne]; [cbn in E; inv E; cbn; now rewrite app_nil_r|].
    rewrite wrap_step in E by exact Hne. destruct (one_pass width (is_first lines) chunks) as [line rest] eqn:E1.
    destruct (one_pass_words _ _ _ _ _ Hw Hne HA HF E1) as (A & F & W). apply IH in E; auto.
    rewrite E, W. unfold push. destruct line as [|c line]; [reflexivity|].
    rewrite flat_map_app. cbn [flat_map]. now rewrite app_nil_r, <- app_assoc.
Qed.

(** Joining lines with newlines. *)
Lemma wds_join lines : wds (join_with [10] lines) = flat_map wds lines.
Proof.
  induction lines as [|l lines IH]; [reflexivity|]. cbn [join_with flat_map]. destruct lines as [|l2 lines]; [cbn; now rewrite app_nil_r|].
  rewrite <- IH. unfold wds at 1. rewrite wds_app by (right; exists 10; eexists; split; [reflexivity|right; lia]).
  f_equal.
Qed.
Lemma In_wds_join lines w : In w (wds (join_with [10] lines)) -> exists l, In l lines /\ zlen w <= zlen l.
Proof.
  rewrite wds_join. intros H. apply in_flat_map in H as (l & H1 & H2). exists l. split; auto.
  apply wds_In_len in H2. exact H2.
Qed.

Lemma wds_replace s : wds (map (fun c => if ws c then 32 else c) s) = wds s.
Proof.
  unfold wds. generalize (@nil Z). induction s as [|c s IH]; intros cur; [reflexivity|]. cbn [map wds_from].
  destruct (ws c) eqn:E; [change (ws 32) with true|rewrite E]; cbn iota; rewrite IH; reflexivity.
Qed.

Definition munged (s : text) (replace : bool) : text := if replace then map (fun c => if ws c then 32 else c) s else s.
Lemma wds_munged s b : wds (munged s b) = wds s.
Proof. destruct b; [apply wds_replace|reflexivity]. Qed.

Theorem wrap_lines s width b : 1 <= width ->
  exists out, textwrap_wrap s width b = Ret out /\ Forall (fun l => zlen l <= width) out.
Proof.
  intros Hw. unfold textwrap_wrap. destruct (Z.leb_spec width 0); [lia|]. fold (munged s b).
  destruct (split_chunks_ok (munged s b)) as (E & A & N). apply wrap_ok; auto.
  pose proof (f_equal (@length Z) E) as EL. unfold text in *.
  change (Z.of_nat (length (concat (split_chunks (munged s b)))) < Z.of_nat (S (length (munged s b)))).
  rewrite EL. lia.
Qed.

Theorem wrap_words_iff s width b out : textwrap_wrap s width b = Ret out ->
  (wds (join_with [10] out) = wds s <-> Forall (fun w => zlen w <= width) (wds s)).
Proof.
  intros H. assert (Hw : 1 <= width) by (unfold textwrap_wrap in H; destruct (Z.leb_spec width 0); [discriminate|lia]).
  split.
  - intros E. rewrite <- E. apply Forall_forall. intros w Hin. apply In_wds_join in Hin as (l & Hl & Hle).
    destruct (wrap_lines s width b Hw) as (out' & E' & HF). rewrite H in E'. inv E'. rewrite Forall_forall in HF.
    specialize (HF l Hl). cbv beta in HF. lia.
  - intros HF. rewrite wds_join. unfold textwrap_wrap in H. destruct (Z.leb_spec width 0); [discriminate|]. fold (munged s b) in H.
    destruct (split_chunks_ok (munged s b)) as (E & A & N).
    assert (Q : flat_map wds (split_chunks (munged s b)) = wds s).
    { etransitivity; [symmetry; exact (alt_words _ A)|]. etransitivity; [exact (f_equal wds E)|]. apply wds_munged. }
    apply (wrap_words width Hw) in H; auto.
    + rewrite H. exact Q.
    + change (fits width (split_chunks (munged s b))). rewrite <- Q in HF. clear -A HF.
      unfold fits. revert HF A. generalize (split_chunks (munged s b)). intros l.
      induction l as [|c l IH]; intros HF A; [constructor|]. cbn [alt flat_map] in *. destruct A as [A1 A2].
      apply Forall_app in HF as [H1 H2]. constructor; [|apply IH; auto].
      destruct A1 as [[_ A1]|[[A0 A1] _]]; [now left|right].
      assert (Ec : wds c = [c]).
      { unfold wds. rewrite <- (app_nil_r c) at 1. rewrite wds_run by exact A1. cbn. destruct c; [congruence|reflexivity]. }
      rewrite Ec in H1. apply Forall_inv in H1. exact H1.
Qed.
