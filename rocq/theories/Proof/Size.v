(** Reading the output of `size -A`. *)
From Coq Require Import String Ascii ZArith List Bool Lia.
From Verif.Base Require Import Res ListX.
From Verif.Model Require Import Text Cgen Size.
From Verif.Spec Require Import SizeSpec.
From Verif.Proof Require Import Text.
Import ListNotations.
Open Scope Z_scope.
Open Scope list_scope.

(** ** Character classes *)
Lemma is_space_iff c : is_space c = true <-> blank c.
Proof. unfold is_space, blank. rewrite orb_true_iff, andb_true_iff, Z.eqb_eq, !Z.leb_le. tauto. Qed.
Lemma field_char_iff c : field_char c = true <-> name_char c.
Proof.
  unfold field_char, is_word, name_char. rewrite !orb_true_iff, !andb_true_iff, is_digit_iff, !Z.eqb_eq, !Z.leb_le. tauto.
Qed.
Lemma space_not_field c : blank c -> field_char c = false.
Proof.
  intros H. destruct (field_char c) eqn:E; [|reflexivity]. apply field_char_iff in E. unfold blank, name_char in *. lia.
Qed.
Lemma name_not_space c : name_char c -> is_space c = false.
Proof.
  intros H. destruct (is_space c) eqn:E; [|reflexivity]. apply is_space_iff in E. unfold blank, name_char in *. lia.
Qed.
Lemma digit_name c : 48 <= c <= 57 -> name_char c. Proof. unfold name_char. lia. Qed.

(** ** take_while *)
Lemma tw_all p (w : text) rest : Forall (fun c => p c = true) w ->
  match rest with [] => True | c :: _ => p c = false end -> take_while p (w ++ rest) = w.
Proof.
  intros H R. induction H as [|c w Hc _ IH].
  - destruct rest as [|c r]; [reflexivity|]. cbn. rewrite R. reflexivity.
  - cbn. rewrite Hc, IH. reflexivity.
Qed.
Lemma skip_len {A} (a b : list A) : skipn (List.length a) (a ++ b) = b.
Proof. rewrite skipn_app, skipn_all, Nat.sub_diag. reflexivity. Qed.
Lemma tw_split p (s : text) : exists w t, s = w ++ t /\ Forall (fun c => p c = true) w /\
  match t with [] => True | c :: _ => p c = false end.
Proof.
  induction s as [|c s (w & t & -> & H1 & H2)]; [exists [], []; auto|].
  destruct (p c) eqn:E.
  - exists (c :: w), t. split; [reflexivity|]. split; [constructor; auto|exact H2].
  - exists [], (c :: w ++ t). auto.
Qed.

(** What follows the white space does not start with a digit. *)
Definition no_number (rest : text) : Prop :=
  take_while is_digit (skipn (List.length (take_while is_space rest)) rest) = [].

Lemma finditer_skip k : forall s, finditer k s = finditer 0 (skipn k s).
Proof.
  induction k as [|k IH]; intros s; [reflexivity|]. destruct s as [|c s]; [reflexivity|]. cbn [finditer skipn]. apply IH.
Qed.
Lemma finditer_miss c s : match_field (c :: s) = None -> finditer 0 (c :: s) = finditer 0 s.
Proof. intros H. cbn [finditer]. rewrite H. reflexivity. Qed.
Lemma miss_char c s : field_char c = false -> match_field (c :: s) = None.
Proof. intros H. unfold match_field. cbn [take_while]. rewrite H. reflexivity. Qed.
Lemma scan_char c s : field_char c = false -> finditer 0 (c :: s) = finditer 0 s.
Proof. intros H. apply finditer_miss. apply miss_char. exact H. Qed.
Lemma scan_spaces sp s : Forall blank sp -> finditer 0 (sp ++ s) = finditer 0 s.
Proof. induction 1 as [|c sp Hc _ IH]; [reflexivity|]. cbn [app]. rewrite scan_char; [exact IH|now apply space_not_field]. Qed.

Lemma miss_word (s rest : text) : Forall (fun c => ~ blank c) s -> match rest with [] => True | c :: _ => blank c end ->
  no_number rest -> match_field (s ++ rest) = None.
Proof.
  intros Hs Hr Hn. destruct (tw_split field_char s) as (w & t & -> & Hw & Ht).
  assert (B : match t ++ rest with [] => True | c :: _ => field_char c = false end).
  { destruct t as [|c t]; [|exact Ht]. destruct rest as [|c r]; [exact I|]. now apply space_not_field. }
  unfold match_field. rewrite <- app_assoc. rewrite (tw_all field_char w (t ++ rest) Hw B), skip_len.
  destruct w as [|c0 w]; [reflexivity|].
  destruct t as [|c t].
  - cbn [app]. unfold no_number in Hn. rewrite Hn. destruct (take_while is_space rest); reflexivity.
  - cbn [app take_while]. rewrite Forall_app in Hs. destruct Hs as [_ Hs]. apply Forall_inv in Hs.
    destruct (is_space c) eqn:E; [apply is_space_iff in E; contradiction|reflexivity].
Qed.
Lemma scan_word (s rest : text) : Forall (fun c => ~ blank c) s -> match rest with [] => True | c :: _ => blank c end ->
  no_number rest -> finditer 0 (s ++ rest) = finditer 0 rest.
Proof.
  intros Hs Hr Hn. induction s as [|c s IH]; [reflexivity|].
  cbn [app]. rewrite finditer_miss.
  - apply IH. now apply Forall_inv_tail in Hs.
  - change (c :: s ++ rest) with ((c :: s) ++ rest). now apply miss_word.
Qed.

Lemma scan_hit (w sp ds rest : text) : Forall name_char w -> w <> [] -> Forall blank sp -> sp <> [] ->
  digits ds -> ds <> [] -> match rest with [] => True | c :: _ => is_digit c = false end ->
  finditer 0 (w ++ sp ++ ds ++ rest) = (w, ds) :: finditer 0 rest.
Proof.
  intros Hw Nw Hsp Nsp Hds Nds Hr.
  assert (M : match_field (w ++ sp ++ ds ++ rest) = Some (w, ds, (List.length w + List.length sp + List.length ds)%nat)).
  { unfold match_field.
    rewrite (tw_all field_char w (sp ++ ds ++ rest)).
    - rewrite skip_len. rewrite (tw_all is_space sp (ds ++ rest)).
      + rewrite skip_len. rewrite (tw_all is_digit ds rest).
        * destruct w; [congruence|]. destruct sp; [congruence|]. destruct ds; [congruence|reflexivity].
        * eapply Forall_impl; [|exact Hds]. cbv beta. intros c Hc. now apply is_digit_iff.
        * exact Hr.
      + eapply Forall_impl; [|exact Hsp]. cbv beta. intros c Hc. now apply is_space_iff.
      + destruct ds as [|c ds]; [congruence|]. cbn [app]. apply Forall_inv in Hds. apply name_not_space. now apply digit_name.
    - eapply Forall_impl; [|exact Hw]. cbv beta. intros c Hc. now apply field_char_iff.
    - destruct sp as [|c sp]; [congruence|]. cbn [app]. apply Forall_inv in Hsp. now apply space_not_field. }
  assert (C : exists c s, w ++ sp ++ ds ++ rest = c :: s) by (destruct w as [|c w]; [congruence|eexists; eexists; reflexivity]).
  destruct C as (c & s & C). rewrite C in *. cbn [finditer]. rewrite M. f_equal.
  rewrite finditer_skip. f_equal.
  destruct w as [|c0 w]; [congruence|]. cbn [List.length Nat.add pred]. cbn [app] in C. injection C as _ <-.
  rewrite !app_assoc. rewrite <- !app_length. apply skip_len.
Qed.

(** ** The table *)
Lemma blanks_blank n : Forall blank (blanks n).
Proof. apply Forall_forall. intros c Hc. apply repeat_spec in Hc. subst. left. reflexivity. Qed.
Lemma digits_not_blank ds : digits ds -> Forall (fun c => ~ blank c) ds.
Proof. intros H. eapply Forall_impl; [|exact H]. cbv beta. unfold blank. lia. Qed.
Lemma no_number_word c s : name_char c -> ~ 48 <= c <= 57 -> no_number (c :: s).
Proof.
  intros H N. unfold no_number. cbn [take_while]. rewrite name_not_space by exact H. cbn [List.length skipn take_while].
  destruct (is_digit c) eqn:E; [apply is_digit_iff in E; contradiction|reflexivity].
Qed.
Lemma no_number_space c s : blank c -> no_number s -> no_number (c :: s).
Proof. intros H N. unfold no_number. cbn [take_while]. rewrite (proj2 (is_space_iff c) H). exact N. Qed.
Lemma no_number_spaces sp s : Forall blank sp -> no_number s -> no_number (sp ++ s).
Proof. induction 1; cbn [app]; auto using no_number_space. Qed.

Lemma hd_no_number c1 (s : text) : (forall d, hd d s = c1) -> s <> [] -> ~ blank c1 -> ~ 48 <= c1 <= 57 -> no_number s.
Proof.
  intros H N B D. destruct s as [|c s]; [congruence|]. specialize (H 0). cbn in H. subst c1.
  unfold no_number. cbn [take_while]. destruct (is_space c) eqn:E; [apply is_space_iff in E; contradiction|].
  cbn [List.length skipn take_while]. destruct (is_digit c) eqn:E'; [apply is_digit_iff in E'; contradiction|reflexivity].
Qed.
(** Text without white space up to a special character is passed over. *)
Lemma scan_front front c rest : Forall (fun c => ~ blank c) front -> ~ blank c -> ~ name_char c ->
  finditer 0 (front ++ c :: rest) = finditer 0 rest.
Proof.
  intros Hf Hb Hc.
  assert (Fc : field_char c = false) by (destruct (field_char c) eqn:E; [apply field_char_iff in E; contradiction|reflexivity]).
  assert (Sc : is_space c = false) by (destruct (is_space c) eqn:E; [apply is_space_iff in E; contradiction|reflexivity]).
  induction front as [|d front IH]; [apply scan_char; exact Fc|].
  cbn [app]. rewrite finditer_miss; [apply IH; now apply Forall_inv_tail in Hf|].
  destruct (tw_split field_char (d :: front)) as (w & t & E & Hw & Ht).
  change (d :: front ++ c :: rest) with ((d :: front) ++ c :: rest). rewrite E in Hf |- *. rewrite <- app_assoc.
  unfold match_field. rewrite (tw_all field_char w (t ++ c :: rest) Hw).
  - rewrite skip_len. destruct w as [|c0 w]; [reflexivity|]. destruct t as [|e t]; cbn [app take_while].
    + rewrite Sc. reflexivity.
    + rewrite Forall_app in Hf. destruct Hf as [_ Hf]. apply Forall_inv in Hf.
      destruct (is_space e) eqn:Es; [apply is_space_iff in Es; contradiction|reflexivity].
  - destruct t; cbn [app]; auto.
Qed.

Definition good_section (x : section) : Prop := (plain_name (s_name x) \/ other_name (s_name x)) /\ 0 <= s_size x /\ 0 <= s_addr x.
(** What is read as the name of a section *)
Definition read_as (x : section) (w : text) : Prop := forall k, In k counted -> (small w = k <-> small (s_name x) = k).

Lemma small_special a c b k : ~ name_char c -> In k counted -> small (a ++ c :: b) <> k.
Proof.
  intros Hc Hk E. assert (F : Forall name_char k).
  { apply Forall_forall. intros d Hd. apply field_char_iff.
    assert (Q : forallb (forallb field_char) counted = true) by reflexivity.
    pose proof (proj1 (forallb_forall _ _) Q k Hk) as Q'. cbv beta in Q'.
    exact (proj1 (forallb_forall _ _) Q' d Hd). }
  rewrite <- E in F. unfold small in F. rewrite map_app in F. cbn [map] in F. apply Forall_app in F. destruct F as [_ F].
  apply Forall_inv in F. apply Hc. destruct ((65 <=? c) && (c <=? 90)) eqn:Q; [|exact F].
  apply andb_true_iff in Q. rewrite !Z.leb_le in Q. right. left. lia.
Qed.

Lemma scan_section x t rest : good_section x -> prints_section x t -> no_number rest ->
  exists w, read_as x w /\ finditer 0 (t ++ rest) = (w, dec_digits (s_size x)) :: finditer 0 rest.
Proof.
  intros (Hn & Hs & Ha) Ht Hr. destruct Ht as [n1 n2].
  destruct (dec_digits_ok (s_size x) Hs) as (_ & D1 & D2). destruct (dec_digits_ok (s_addr x) Ha) as (_ & D3 & _).
  assert (W : forall w, Forall name_char w -> w <> [] ->
    finditer 0 (w ++ blanks (S n1) ++ dec_digits (s_size x) ++ blanks (S n2) ++ dec_digits (s_addr x) ++ [10] ++ rest)
    = (w, dec_digits (s_size x)) :: finditer 0 rest).
  { intros w Fw Nw. rewrite scan_hit; auto using blanks_blank.
    - f_equal. rewrite scan_spaces by apply blanks_blank. rewrite scan_word.
      + cbn [app]. apply scan_char. reflexivity.
      + now apply digits_not_blank.
      + right. lia.
      + apply no_number_space; [right; lia|exact Hr].
    - discriminate.
    - reflexivity. }
  destruct Hn as [[Hn (c & n' & En & Hc)]|(c1 & front & c & last & En & E1 & N1 & F1 & B1 & C1 & F2 & N2 & O)].
  - exists (s_name x). split; [intros k _; tauto|]. rewrite <- !app_assoc. apply W; [exact Hn|]. rewrite En. discriminate.
  - exists last. split.
    + intros k Hk. split; intros Q.
      * exfalso. apply O. rewrite Q. exact Hk.
      * exfalso. rewrite En in Q. eapply small_special; eauto.
    + rewrite <- !app_assoc. rewrite En. rewrite <- app_assoc. cbn [app]. rewrite scan_front by auto. apply W; auto.
Qed.
Lemma section_no_number x t rest : good_section x -> prints_section x t -> no_number (t ++ rest).
Proof.
  intros (Hn & _) [n1 n2].
  destruct Hn as [[Hn (c & n' & En & Hc)]|(c1 & front & c & last & En & E1 & N1 & F1 & B1 & C1 & F2 & N2 & O)]; rewrite En.
  - cbn [app]. rewrite En in Hn. apply no_number_word; [now apply Forall_inv in Hn|exact Hc].
  - apply (hd_no_number c1).
    + intros d. destruct front as [|e front]; cbn in *; exact E1.
    + destruct front; discriminate.
    + subst c1. destruct front as [|e front]; cbn; [exact B1|now apply Forall_inv in F1].
    + exact N1.
Qed.
Lemma sections_no_number xs t rest : Forall good_section xs -> prints_sections xs t ->
  no_number rest -> no_number (t ++ rest).
Proof.
  intros H P N. destruct P as [|x xs t ts P1 P2]; [exact N|]. apply Forall_inv in H. rewrite <- app_assoc.
  eapply section_no_number; eauto.
Qed.
Definition match_of (x : section) (w : text) : text * text := (w, dec_digits (s_size x)).
Inductive matches_of : list section -> list (text * text) -> Prop :=
  | matches_nil : matches_of [] []
  | matches_cons x w xs ms : read_as x w -> matches_of xs ms -> matches_of (x :: xs) ((w, dec_digits (s_size x)) :: ms).
Lemma scan_sections xs t rest : Forall good_section xs -> prints_sections xs t -> no_number rest ->
  exists ms, matches_of xs ms /\ finditer 0 (t ++ rest) = ms ++ finditer 0 rest.
Proof.
  intros H P N. induction P as [|x xs t ts P1 P2 IH]; [exists []; split; [constructor|reflexivity]|].
  pose proof (Forall_inv H) as G. apply Forall_inv_tail in H.
  destruct (IH H) as (ms & M & E). rewrite <- app_assoc.
  destruct (scan_section x t (ts ++ rest) G P1) as (w & Rw & Ew); [apply (sections_no_number xs); auto|].
  exists ((w, dec_digits (s_size x)) :: ms). split; [constructor; auto|]. rewrite Ew, E. reflexivity.
Qed.

Lemma total_ok n3 total n4 : 0 <= total ->
  finditer 0 ((txt "Total" ++ blanks (S n3) ++ dec_digits total ++ [10]) ++ repeat 10 n4) = [(txt "Total", dec_digits total)].
Proof.
  intros Ht. destruct (dec_digits_ok total Ht) as (_ & D1 & D2).
  rewrite <- !app_assoc. rewrite scan_hit; auto using blanks_blank.
  - f_equal. change ([10] ++ repeat 10 n4) with (10 :: repeat 10 n4). rewrite <- (app_nil_r (10 :: repeat 10 n4)). rewrite scan_spaces; [reflexivity|].
    constructor; [right; lia|]. apply Forall_forall. intros c Hc. apply repeat_spec in Hc. subst. right. lia.
  - apply Forall_forall. intros c Hc. apply field_char_iff. revert c Hc. apply forallb_forall. reflexivity.
  - discriminate.
  - discriminate.
  - reflexivity.
Qed.

Lemma not_blank_txt s : forallb (fun c => negb (is_space c)) (txt s) = true -> Forall (fun c => ~ blank c) (txt s).
Proof.
  intros H. apply Forall_forall. intros c Hc B. pose proof (proj1 (forallb_forall _ _) H c Hc) as N. cbv beta in N.
  rewrite (proj2 (is_space_iff c) B) in N. discriminate.
Qed.
Lemma scan_output xs out : Forall good_section xs -> prints xs out ->
  exists ms total, matches_of xs ms /\ finditer 0 out = ms ++ [(txt "Total", dec_digits total)].
Proof.
  intros H [path table total n1 n2 n3 n4 Hp Ht H0].
  assert (N1 : no_number ((txt "Total" ++ blanks (S n3) ++ dec_digits total ++ [10]) ++ repeat 10 n4)).
  { apply no_number_word; [apply field_char_iff; reflexivity|intros Q; apply is_digit_iff in Q; discriminate]. }
  assert (N2 : no_number (table ++ (txt "Total" ++ blanks (S n3) ++ dec_digits total ++ [10]) ++ repeat 10 n4)).
  { apply (sections_no_number xs); auto. }
  destruct (scan_sections xs table _ H Ht N1) as (ms & M & E). exists ms, total. split; [exact M|].
  rewrite <- (total_ok n3 total n4 H0). rewrite <- E.
  set (R := table ++ (txt "Total" ++ blanks (S n3) ++ dec_digits total ++ [10]) ++ repeat 10 n4) in *.
  rewrite <- !app_assoc.
  change (txt ".elf  :" ++ [10] ++ txt "section" ++ blanks (S n1) ++ txt "size" ++ blanks (S n2) ++ txt "addr" ++ [10] ++ R)
    with (txt ".elf" ++ txt "  :" ++ [10] ++ txt "section" ++ blanks (S n1) ++ txt "size" ++ blanks (S n2) ++ txt "addr" ++ [10] ++ R).
  assert (A4 : finditer 0 (txt "addr" ++ [10] ++ R) = finditer 0 R).
  { rewrite scan_word.
    - apply scan_char. reflexivity.
    - apply not_blank_txt. reflexivity.
    - right. lia.
    - apply no_number_space; [right; lia|exact N2]. }
  assert (A3 : finditer 0 (txt "size" ++ blanks (S n2) ++ txt "addr" ++ [10] ++ R) = finditer 0 R).
  { rewrite scan_word.
    - rewrite scan_spaces by apply blanks_blank. exact A4.
    - apply not_blank_txt. reflexivity.
    - left. reflexivity.
    - apply no_number_spaces; [apply blanks_blank|]. apply no_number_word; [apply field_char_iff; reflexivity|intros Q; apply is_digit_iff in Q; discriminate]. }
  assert (A2 : finditer 0 (txt "section" ++ blanks (S n1) ++ txt "size" ++ blanks (S n2) ++ txt "addr" ++ [10] ++ R) = finditer 0 R).
  { rewrite scan_word.
    - rewrite scan_spaces by apply blanks_blank. exact A3.
    - apply not_blank_txt. reflexivity.
    - left. reflexivity.
    - apply no_number_spaces; [apply blanks_blank|]. apply no_number_word; [apply field_char_iff; reflexivity|intros Q; apply is_digit_iff in Q; discriminate]. }
  rewrite app_assoc. rewrite scan_word.
  - rewrite <- A2. cbn [txt app]. rewrite !scan_char by reflexivity. reflexivity.
  - apply Forall_app. split; [exact Hp|]. apply not_blank_txt. reflexivity.
  - left. reflexivity.
  - reflexivity.
Qed.

(** ** The dictionary *)
Lemma text_eqb_iff a b : text_eqb a b = true <-> a = b.
Proof. unfold text_eqb. destruct (list_eq_dec Z.eq_dec a b); split; congruence. Qed.
Lemma get_set d k v k' : dict_get (dict_set d k v) k' = if text_eqb k' k then Some v else dict_get d k'.
Proof.
  induction d as [|(k0, v0) d IH]; cbn [dict_set dict_get].
  - destruct (text_eqb k' k); reflexivity.
  - destruct (text_eqb k k0) eqn:E; cbn [dict_get].
    + apply text_eqb_iff in E. subst k0. destruct (text_eqb k' k); reflexivity.
    + rewrite IH. destruct (text_eqb k' k0) eqn:E0; [|reflexivity].
      apply text_eqb_iff in E0. subst k0. destruct (text_eqb k' k) eqn:E1; [|reflexivity].
      apply text_eqb_iff in E1. subst k'. rewrite (proj2 (text_eqb_iff k k) eq_refl) in E. discriminate.
Qed.
Definition add_match (out : dict) (m : text * text) : dict :=
  let '(field, value) := m in let '(v, _, _) := take_digits 0 0 value in dict_set out (lower field) v.
Definition size_of (name : text) (xs : list section) (z : option Z) : option Z :=
  fold_left (fun o x => if text_eqb name (lower (s_name x)) then Some (s_size x) else o) xs z.
Lemma get_sections xs ms d name : Forall good_section xs -> matches_of xs ms -> In name counted ->
  dict_get (fold_left add_match ms d) name = size_of name xs (dict_get d name).
Proof.
  intros H M Hk. revert d. induction M as [|x w xs ms Rw M IH]; intros d; [reflexivity|].
  pose proof (Forall_inv H) as (_ & Hs & _). apply Forall_inv_tail in H.
  cbn [map fold_left]. unfold size_of. cbn [fold_left].
  rewrite IH by exact H. unfold size_of. f_equal.
  unfold add_match. destruct (dec_digits_ok (s_size x) Hs) as (D1 & D2 & _).
  rewrite <- (app_nil_r (dec_digits (s_size x))). rewrite take_digits_ok by auto. rewrite D1. rewrite get_set.
  assert (B : text_eqb name (lower w) = text_eqb name (lower (s_name x))).
  { specialize (Rw name Hk). apply Bool.eq_true_iff_eq. rewrite !text_eqb_iff.
    change (lower w) with (small w). change (lower (s_name x)) with (small (s_name x)).
    split; intros Q; symmetry; apply Rw; symmetry; exact Q. }
  rewrite B. reflexivity.
Qed.
Lemma size_of_none xs name z : (forall x, In x xs -> lower (s_name x) <> name) -> size_of name xs z = z.
Proof.
  revert z. induction xs as [|x xs IH]; intros z H; [reflexivity|]. unfold size_of. cbn [fold_left].
  destruct (text_eqb name (lower (s_name x))) eqn:E.
  - apply text_eqb_iff in E. exfalso. apply (H x); [left; reflexivity|congruence].
  - apply IH. intros y Hy. apply H. right. exact Hy.
Qed.
Lemma bytes_none xs name : (forall x, In x xs -> small (s_name x) <> name) -> bytes_in name xs = 0.
Proof.
  induction xs as [|x xs IH]; intros H; [reflexivity|]. unfold bytes_in. cbn [filter].
  destruct (list_eq_dec Z.eq_dec (small (s_name x)) name) as [E|E].
  - exfalso. apply (H x); [left; reflexivity|exact E].
  - apply IH. intros y Hy. apply H. right. exact Hy.
Qed.
Lemma size_of_ok xs name : NoDup (map (fun x => small (s_name x)) xs) -> forall z,
  (has_section name xs /\ size_of name xs z = Some (bytes_in name xs)) \/
  (~ has_section name xs /\ size_of name xs z = z /\ bytes_in name xs = 0).
Proof.
  intros H. induction xs as [|x xs IH]; intros z.
  - right. split; [intros (x & [] & _)|]. split; reflexivity.
  - cbn [map] in H. apply NoDup_cons_iff in H. destruct H as [Hx Hn].
    unfold size_of, bytes_in. cbn [fold_left filter].
    destruct (list_eq_dec Z.eq_dec (small (s_name x)) name) as [E|E].
    + left. split; [exists x; split; [left; reflexivity|exact E]|].
      rewrite (proj2 (text_eqb_iff name (lower (s_name x)))) by (symmetry; exact E).
      assert (O : forall y, In y xs -> small (s_name y) <> name).
      { intros y Hy Ey. apply Hx. rewrite E, <- Ey. apply (in_map (fun x => small (s_name x))). exact Hy. }
      fold (size_of name xs (Some (s_size x))). rewrite size_of_none by exact O.
      cbn [map fold_right]. fold (bytes_in name xs). rewrite bytes_none by exact O. f_equal. lia.
    + destruct (text_eqb name (lower (s_name x))) eqn:E'.
      { apply text_eqb_iff in E'. exfalso. apply E. symmetry. exact E'. }
      fold (size_of name xs z). fold (bytes_in name xs).
      destruct (IH Hn z) as [[(y & Hy & Ey) A]|(N & A & B)].
      * left. split; [exists y; split; [right; exact Hy|exact Ey]|exact A].
      * right. split; [|auto]. intros (y & [<-|Hy] & Ey); [contradiction|]. apply N. exists y. auto.
Qed.

(** ** The lines *)
Lemma starts_app p b : starts_with p (p ++ b) = true.
Proof. induction p as [|c p IH]; [destruct b; reflexivity|]. cbn. rewrite Z.eqb_refl. exact IH. Qed.
Lemma contains_mid p a b : contains p (a ++ p ++ b) = true.
Proof.
  induction a as [|c a IH]; cbn [app].
  - destruct (p ++ b) as [|c s] eqn:E; cbn [contains]; rewrite <- E, starts_app; reflexivity.
  - cbn [contains]. rewrite IH. apply orb_true_r.
Qed.
Lemma head_lines xs out : prints xs out -> exists f h rest, split_on (Z.eqb 10) out = f :: h :: rest /\
  contains (txt ".elf") f = true /\ contains (txt "section") h = true /\ contains (txt "size") h = true.
Proof.
  intros [path table total n1 n2 n3 n4 Hp Ht H0].
  assert (L : forall s, Forall (fun c => ~ blank c) s -> Forall (fun c => (10 =? c) = false) s).
  { intros s Hs. eapply Forall_impl; [|exact Hs]. cbv beta. intros c Hc. apply Z.eqb_neq. intros <-. apply Hc. right. lia. }
  assert (LB : forall n, Forall (fun c => (10 =? c) = false) (blanks n)).
  { intros n. apply Forall_forall. intros c Hc. apply repeat_spec in Hc. subst. reflexivity. }
  assert (LT : forall t, forallb (fun c => negb (10 =? c)) t = true -> Forall (fun c => (10 =? c) = false) t).
  { intros t H. apply Forall_forall. intros c Hc. pose proof (proj1 (forallb_forall _ _) H c Hc) as N. now apply negb_true_iff in N. }
  pose (h := txt "section" ++ blanks (S n1) ++ txt "size" ++ blanks (S n2) ++ txt "addr").
  match goal with |- context [split_on _ ?T] => replace T with
    ((path ++ txt ".elf  :") ++ 10 :: h ++ 10 :: (table ++ (txt "Total" ++ blanks (S n3) ++ dec_digits total ++ [10]) ++ repeat 10 n4)) end.
  2:{ unfold h. rewrite <- !app_assoc. reflexivity. }
  eexists _, _, _. split.
  - rewrite split_on_app; [|apply Forall_app; split; [now apply L|now apply LT]|reflexivity].
    rewrite split_on_app; [reflexivity| |reflexivity]. unfold h.
    repeat (apply Forall_app; split); auto; now apply LT.
  - split; [|split].
    + change (txt ".elf  :") with (txt ".elf" ++ txt "  :"). apply contains_mid.
    + apply (contains_mid (txt "section") []).
    + unfold h. rewrite (app_assoc (txt "section")). apply contains_mid.
Qed.

(** ** Results *)
Lemma three_defaults d : forall k,
  dict_get (fold_left (fun out section => match dict_get out section with Some _ => out | None => dict_set out section 0 end)
    [txt ".rodata"; txt ".data"; txt ".bss"] d) k =
  match dict_get d k with
  | Some v => Some v
  | None => if text_eqb k (txt ".rodata") || text_eqb k (txt ".data") || text_eqb k (txt ".bss") then Some 0 else None
  end.
Proof.
  intros k. cbn [fold_left].
  assert (St : forall d s, forall k, dict_get (match dict_get d s with Some _ => d | None => dict_set d s 0 end) k =
    match dict_get d k with Some v => Some v | None => if text_eqb k s then Some 0 else None end).
  { clear. intros d s k. destruct (dict_get d s) as [v|] eqn:E.
    - destruct (dict_get d k) as [w|] eqn:Ek; [reflexivity|]. destruct (text_eqb k s) eqn:Es; [|reflexivity].
      apply text_eqb_iff in Es. subst. congruence.
    - rewrite get_set. destruct (text_eqb k s) eqn:Es.
      + apply text_eqb_iff in Es. subst. rewrite E. reflexivity.
      + destruct (dict_get d k); reflexivity. }
  rewrite !St. destruct (dict_get d k); [reflexivity|].
  destruct (text_eqb k (txt ".rodata")), (text_eqb k (txt ".data")), (text_eqb k (txt ".bss")); reflexivity.
Qed.

Lemma parsed_get xs out : Forall good_section xs -> prints xs out -> exists d,
  (has_section (txt ".text") xs -> parse_binutils_size_a_output out = Ret d) /\
  (~ has_section (txt ".text") xs -> NoDup (map (fun x => small (s_name x)) xs) -> parse_binutils_size_a_output out = Err AssertionError_) /\
  (forall k, In k counted -> NoDup (map (fun x => small (s_name x)) xs) ->
     has_section k xs \/ k <> txt ".text" -> dict_get d k = Some (bytes_in k xs)).
Proof.
  intros H P. destruct (head_lines xs out P) as (f & h & rest & E1 & C1 & C2 & C3).
  destruct (scan_output xs out H P) as (ms & total & M & E2).
  pose (d0 := fold_left add_match (finditer 0 out) []).
  pose (d := fold_left (fun out section => match dict_get out section with Some _ => out | None => dict_set out section 0 end)
    [txt ".rodata"; txt ".data"; txt ".bss"] d0).
  assert (G0 : forall k, In k counted -> dict_get d0 k = size_of k xs None).
  { intros k Hk. unfold d0. rewrite E2, fold_left_app. cbn [fold_left]. unfold add_match at 1.
    destruct (take_digits 0 0 (dec_digits total)) as ((v & l) & r). rewrite get_set.
    change (lower (txt "Total")) with (txt "total").
    destruct (text_eqb k (txt "total")) eqn:Q; [apply text_eqb_iff in Q; subst k; cbn in Hk; intuition discriminate|].
    rewrite (get_sections xs ms) by auto. reflexivity. }
  assert (R : parse_binutils_size_a_output out = match dict_get d (txt ".text"), dict_get d (txt ".data") with
    | Some _, Some _ => Ret d | _, _ => Err AssertionError_ end).
  { unfold parse_binutils_size_a_output. rewrite E1. change (pyget (f :: h :: rest) 0) with (Ret f).
    change (pyget (f :: h :: rest) 1) with (Ret h). cbn [bind]. rewrite C1, C2, C3. reflexivity. }
  assert (GD : exists v, dict_get d (txt ".data") = Some v).
  { unfold d. rewrite three_defaults. destruct (dict_get d0 (txt ".data")) as [v|]; [exists v; reflexivity|exists 0; reflexivity]. }
  destruct GD as (vd & GD).
  exists d. split; [|split].
  - intros Hs. rewrite R, GD.
    assert (exists v, dict_get d (txt ".text") = Some v) as (v & ->); [|reflexivity].
    unfold d. rewrite three_defaults, G0 by (cbn; tauto).
    assert (Ex : forall z, exists v, size_of (txt ".text") xs z = Some v \/ ~ has_section (txt ".text") xs).
    { clear. intros z. revert z. induction xs as [|x xs IH]; intros z; [exists 0; right; intros (y & [] & _)|].
      unfold size_of. cbn [fold_left]. destruct (text_eqb (txt ".text") (lower (s_name x))) eqn:E.
      - assert (K : forall v, exists w, size_of (txt ".text") xs (Some v) = Some w).
        { clear. induction xs as [|x xs IH]; intros v; [exists v; reflexivity|]. unfold size_of. cbn [fold_left].
          destruct (text_eqb (txt ".text") (lower (s_name x))); apply IH. }
        destruct (K (s_size x)) as (w & K'). exists w. left. exact K'.
      - destruct (IH z) as (w & [A|A]); [exists w; left; exact A|exists 0; right].
        intros (y & [<-|Hy] & Ey); [|apply A; exists y; auto].
        assert (Q : text_eqb (txt ".text") (lower (s_name x)) = true) by (apply text_eqb_iff; symmetry; exact Ey). congruence. }
    destruct (Ex None) as (v & [A|A]); [|contradiction]. exists v. rewrite A. reflexivity.
  - intros Hs Nd. rewrite R.
    assert (dict_get d (txt ".text") = None) as ->; [|reflexivity].
    unfold d. rewrite three_defaults, G0 by (cbn; tauto).
    destruct (size_of_ok xs (txt ".text") Nd None) as [[A _]|(_ & A & _)]; [contradiction|]. rewrite A. reflexivity.
  - intros k Hin Nd Hh. unfold d. rewrite three_defaults, G0 by exact Hin.
    destruct (size_of_ok xs k Nd None) as [[_ A]|(N & A & B)].
    + rewrite A. reflexivity.
    + rewrite A, B. destruct Hh as [Hh|Hh]; [contradiction|].
      cbn [In] in Hin. destruct Hin as [<-|[<-|[<-|[<-|[]]]]]; try reflexivity. congruence.
Qed.

Lemma run_ok xs out : Forall good_section xs -> NoDup (map (fun x => small (s_name x)) xs) -> prints xs out ->
  has_section (txt ".text") xs ->
  run_binutils_size out = Ret (bytes_in (txt ".text") xs + bytes_in (txt ".data") xs + bytes_in (txt ".rodata") xs,
                               bytes_in (txt ".data") xs + bytes_in (txt ".bss") xs).
Proof.
  intros H Nd P Ht. destruct (parsed_get xs out H P) as (d & A & _ & G).
  unfold run_binutils_size. rewrite (A Ht). cbn [bind]. unfold dict_at.
  rewrite !G; try exact Nd; try (cbn; tauto); try discriminate; try (left; exact Ht); try (right; discriminate).
Qed.
Lemma run_no_text xs out : Forall good_section xs -> NoDup (map (fun x => small (s_name x)) xs) -> prints xs out ->
  ~ has_section (txt ".text") xs -> run_binutils_size out = Err AssertionError_.
Proof.
  intros H Nd P Ht. destruct (parsed_get xs out H P) as (d & _ & A & _).
  unfold run_binutils_size. rewrite (A Ht Nd). reflexivity.
Qed.
