(** The compiled test program and the Python side. *)
From Coq Require Import String ZArith List Bool Lia Reals Lra.
From Flocq Require Import Core BinarySingleNaN.
From Flocq.Prop Require Import Relative.
From Verif.Base Require Import Res CInt ListX Loops Float FloatOrder.
From Verif.Model Require Import Common Text TreesC Cgen Harness.
From Verif.Spec Require Import CgenSpec HarnessSpec.
From Verif.Proof Require Import FixedPoint Text Cgen Quantizer.
Import ListNotations.
Open Scope Z_scope.
Open Scope res_scope.

(** Printing and reading back in another format. *)
Lemma through_ok {p1 e1 p2 e2} {Hp1 : Prec_gt_0 p1} {Hm1 : Prec_lt_emax p1 e1} {Hp2 : Prec_gt_0 p2} {Hm2 : Prec_lt_emax p2 e2}
  (k : nat) (v : binary_float p1 e1) : is_finite v = true ->
  through_decimals (Z.of_nat k) (B2R v) (f_of_dec (Bsign v) (scaled_int k v) (Z.of_nat k) : binary_float p2 e2).
Proof.
  intros F. assert (P10 : (0 < IZR (10 ^ Z.of_nat k))%R) by (apply IZR_lt; apply Z.pow_pos_nonneg; lia).
  exists (sign_of (Bsign v) * scaled_int k v). split.
  - pose proof (fmt_fixed_err k v F) as H. set (p := IZR (10 ^ Z.of_nat k)) in *.
    rewrite mult_IZR. set (d := (IZR (sign_of (Bsign v)) * IZR (scaled_int k v))%R) in *.
    replace (B2R v * p - d)%R with (- ((d / p - B2R v) * p))%R by (field; lra).
    rewrite Rabs_Ropp, Rabs_mult, (Rabs_pos_eq p) by lra.
    replace (/ 2)%R with (/ (2 * p) * p)%R by (field; lra). apply Rmult_le_compat_r; lra.
  - assert (N0 : 0 <= scaled_int k v).
    { rewrite scaled_int_ok by exact F. apply Z.le_trans with (ZnearestE 0).
      - rewrite (ZnE_IZR 0). lia.
      - apply ZnE_le. apply Rmult_le_pos; [apply Rabs_pos|left; exact P10]. }
    destruct (@f_of_dec_ok p2 e2 _ _ (Bsign v) (scaled_int k v) (Z.of_nat k) N0 ltac:(lia)) as [A B].
    split; [exact A|]. rewrite B. f_equal. f_equal. rewrite mult_IZR. destruct (Bsign v); cbn [sign_of]; unfold Rdiv; ring.
Qed.

Definition deliver (v : f64) : f32 := f_of_dec (Bsign v) (scaled_int 8 v) 8.

Definition brk (c : Z) : bool := is_sep c || (c =? 10).
Lemma fmt_plain k (v : f64) : is_finite v = true -> Forall (fun c => brk c = false) (fmt_fixed k v).
Proof.
  intros F. destruct (fmt_fixed_chars k v F) as [H _]. eapply Forall_impl; [|exact H]. intros c C. cbv beta in C. unfold brk, is_sep.
  destruct (Z.eqb_spec c 44); [lia|]. destruct (Z.eqb_spec c 59); [lia|]. destruct (Z.eqb_spec c 10); [lia|reflexivity].
Qed.
Lemma fmt_len k (v : f64) : is_finite v = true -> (k + 2 <= length (fmt_fixed k v))%nat.
Proof.
  intros F. destruct (fmt_fixed_split k v F) as (ds & fs & -> & _ & _ & N & L & _).
  destruct ds as [|d ds]; [congruence|]. destruct (Bsign v); cbn [signed app length]; rewrite app_length; cbn [length]; lia.
Qed.
Lemma sscanf_field v rest : is_finite v = true -> rest = [] \/ rest = [10] -> sscanf_f (fmt_fixed 8 v ++ rest) = Some (deliver v).
Proof.
  intros F R. unfold sscanf_f. rewrite scan_fixed; [reflexivity|exact F|]. destruct R as [-> | ->]; [exact I|reflexivity].
Qed.
Lemma plain_sep l : Forall (fun c => brk c = false) l -> Forall (fun c => is_sep c = false) l.
Proof. apply Forall_impl. intros c. unfold brk. now intros [A _]%orb_false_iff. Qed.
Lemma plain_nl l : Forall (fun c => brk c = false) l -> Forall (fun c => (c =? 10) = false) l.
Proof. apply Forall_impl. intros c. unfold brk. now intros [_ A]%orb_false_iff. Qed.

Lemma tokens_row row tl : Forall (fun v => is_finite v = true) row -> row <> [] -> tl = [] \/ tl = [10] ->
  exists ts, strtok_tokens (serialize_row row ++ tl) = ts /\ Forall2 (fun v t => sscanf_f t = Some (deliver v)) row ts.
Proof.
  intros F N T. eexists. split; [reflexivity|]. induction F as [|v row Fv F IH]; [congruence|].
  unfold strtok_tokens, serialize_row. cbn [map join_with].
  destruct (fmt_fixed_chars 8 v Fv) as [_ NE]. pose proof (plain_sep _ (fmt_plain 8 v Fv)) as PS.
  destruct row as [|v' row].
  - cbn [map]. rewrite split_on_none.
    + assert (E : fmt_fixed 8 v ++ tl <> []) by (destruct (fmt_fixed 8 v); [congruence|discriminate]).
      cbn [filter]. destruct (fmt_fixed 8 v ++ tl) as [|c l] eqn:EQ; [congruence|]. constructor; [|constructor].
      rewrite <- EQ. now apply sscanf_field.
    + apply Forall_app. split; [exact PS|]. destruct T as [-> | ->]; repeat constructor.
  - cbn [map]. change (fmt_fixed 8 v' :: map (fmt_fixed 8) row) with (map (fmt_fixed 8) (v' :: row)).
    change (txt ",") with [44]. rewrite <- !app_assoc. cbn [app]. rewrite split_on_app by (auto; reflexivity).
    cbn [filter]. destruct (fmt_fixed 8 v) as [|c l] eqn:EQ; [congruence|]. constructor.
    + rewrite <- EQ. pose proof (sscanf_field v [] Fv (or_introl eq_refl)) as S. now rewrite app_nil_r in S.
    + unfold strtok_tokens, serialize_row in IH. change (txt ",") with [44] in IH. apply IH. discriminate.
Qed.

Lemma zset_app {A} (pre : list A) a rest v : zset (pre ++ a :: rest) (zlen pre) v = Ret (pre ++ v :: rest).
Proof.
  rewrite zset_ok by (rewrite zlen_app, zlen_cons; pose proof (zlen_nonneg pre); pose proof (zlen_nonneg rest); lia).
  f_equal. unfold zlen. rewrite Nat2Z.id. apply list_set_app.
Qed.
Lemma parse_tokens_ok row ts pre rest : Forall2 (fun v t => sscanf_f t = Some (deliver v)) row ts ->
  zlen row <= zlen rest -> zlen pre + zlen rest = EML_CSV_VALUES_LENGTH ->
  parse_tokens ts (zlen pre) (pre ++ rest) EML_CSV_VALUES_LENGTH =
    Ret (EmlOk, pre ++ map Some (map deliver row) ++ skipn (length row) rest, zlen pre + zlen row).
Proof.
  intros F. revert pre rest. induction F as [|v t row ts H F IH]; intros pre rest L E.
  - cbn. now rewrite Z.add_0_r.
  - rewrite zlen_cons in L. pose proof (zlen_nonneg row). destruct rest as [|o rest]; [unfold zlen at 2 in L; cbn in L; lia|].
    rewrite zlen_cons in L, E. cbn [parse_tokens]. rewrite H.
    pose proof (zlen_nonneg rest). pose proof (zlen_nonneg pre).
    destruct (Z.leb_spec EML_CSV_VALUES_LENGTH (zlen pre)); [lia|]. cbn [bind]. rewrite zset_app. cbn [bind].
    rewrite chk_int32_ok by (unfold int32_ok, EML_CSV_VALUES_LENGTH in *; lia). cbn [bind].
    specialize (IH (pre ++ [Some (deliver v)]) rest). rewrite zlen_app in IH. change (zlen [Some (deliver v)]) with 1 in IH.
    rewrite <- app_assoc in IH. cbn [app] in IH. rewrite IH by lia. rewrite <- app_assoc, zlen_cons. cbn [app map length skipn].
    f_equal. f_equal. lia.
Qed.
Lemma parse_row row tl values : Forall (fun v => is_finite v = true) row -> row <> [] -> tl = [] \/ tl = [10] ->
  zlen row <= EML_CSV_VALUES_LENGTH -> zlen values = EML_CSV_VALUES_LENGTH ->
  eml_test_parse_csv_line (serialize_row row ++ tl) values EML_CSV_VALUES_LENGTH =
    Ret (EmlOk, map Some (map deliver row) ++ skipn (length row) values, zlen row).
Proof.
  intros F N T L E. destruct (tokens_row row tl F N T) as (ts & Et & G).
  unfold eml_test_parse_csv_line. rewrite Et. apply (parse_tokens_ok row ts [] values G); [lia|]. exact E.
Qed.

(** Lines *)
Lemma take_line_app n s : s = fst (take_line n s) ++ snd (take_line n s) /\ (length (fst (take_line n s)) <= n)%nat.
Proof.
  revert s. induction n as [|n IH]; intros s; [cbn; split; [reflexivity|lia]|].
  destruct s as [|c s]; [cbn; split; [reflexivity|lia]|]. cbn [take_line].
  destruct (c =? 10); [cbn; split; [reflexivity|lia]|]. specialize (IH s). destruct (take_line n s) as [l r]. cbn in *.
  destruct IH as [-> ?]. split; [reflexivity|lia].
Qed.
Lemma take_line_nl l r n : Forall (fun c => (c =? 10) = false) l -> (length l < n)%nat -> take_line n (l ++ 10 :: r) = (l ++ [10], r).
Proof.
  intros F. revert n. induction F as [|c l H F IH]; intros n L.
  - destruct n; [cbn in L; lia|]. reflexivity.
  - destruct n; [cbn in L; lia|]. cbn [app take_line]. rewrite H, IH by (cbn in L; lia). reflexivity.
Qed.
Lemma take_line_end l n : Forall (fun c => (c =? 10) = false) l -> (length l <= n)%nat -> take_line n l = (l, []).
Proof.
  intros F. revert n. induction F as [|c l H F IH]; intros n L.
  - destruct n; reflexivity.
  - destruct n; [cbn in L; lia|]. cbn [take_line]. rewrite H, IH by (cbn in L; lia). reflexivity.
Qed.
Lemma take_line_long l r n : Forall (fun c => (c =? 10) = false) l -> (n <= length l)%nat ->
  take_line n (l ++ r) = (firstn n l, skipn n l ++ r).
Proof.
  intros F. revert n. induction F as [|c l H F IH]; intros n L.
  - destruct n; [reflexivity|cbn in L; lia].
  - destruct n; [reflexivity|]. cbn [app take_line firstn skipn]. rewrite H, IH by (cbn in L; lia). reflexivity.
Qed.

Definition fits (l : text) : Prop := (length l <= 2046)%nat.
Fixpoint all_fit (lines : list text) : Prop :=
  match lines with
  | [] => True
  | l :: ls => match ls with [] => (length l <= 2047)%nat | _ => fits l end /\ all_fit ls
  end.
Fixpoint calls_of (data : list (list f64)) (values : list (option f32)) (row_no : Z) : list call :=
  match data with
  | [] => []
  | r :: ds => let values := map Some (map deliver r) ++ skipn (length r) values in (values, zlen r, row_no) :: calls_of ds values (row_no + 1)
  end.
Lemma row_plain row : Forall (fun v => is_finite v = true) row -> Forall (fun c => (c =? 10) = false) (serialize_row row).
Proof.
  intros F. unfold serialize_row. induction F as [|v row Fv F IH]; [constructor|]. cbn [map join_with].
  pose proof (plain_nl _ (fmt_plain 8 v Fv)). destruct row as [|v' row]; [assumption|]. cbn [map].
  apply Forall_app. split; [assumption|]. change (txt ",") with [44]. cbn [app]. constructor; [reflexivity|]. exact IH.
Qed.
Lemma row_nonempty row : Forall (fun v => is_finite v = true) row -> row <> [] -> serialize_row row <> [].
Proof.
  intros F N. destruct F as [|v row Fv F]; [congruence|]. unfold serialize_row. cbn [map join_with].
  destruct (fmt_fixed_chars 8 v Fv) as [_ NE]. destruct (map (fmt_fixed 8) row); [exact NE|]. destruct (fmt_fixed 8 v); [congruence|discriminate].
Qed.
Definition good_row (row : list f64) : Prop := Forall (fun v => is_finite v = true) row /\ row <> [].
Lemma read_loop_ok data : Forall good_row data -> Forall (fun r => zlen r <= EML_CSV_VALUES_LENGTH) data ->
  all_fit (map serialize_row data) ->
  forall fuel values row_no, (length data < fuel)%nat -> zlen values = EML_CSV_VALUES_LENGTH -> 0 <= row_no -> row_no + zlen data <= 2147483647 ->
  read_loop fuel (serialize data) values row_no = Ret (EmlOk, calls_of data values row_no).
Proof.
  intros G W A. induction G as [|row data [F N] G IH]; intros fuel values row_no L V R0 R1.
  - destruct fuel; [lia|]. reflexivity.
  - destruct fuel; [lia|]. inversion W as [|? ? WR WD]; subst. rewrite zlen_cons in R1. pose proof (zlen_nonneg data).
    cbn [map all_fit] in A. destruct A as [AF A]. cbn [read_loop calls_of].
    assert (NE := row_nonempty row F N). assert (PL := row_plain row F).
    assert (V' : zlen (map Some (map deliver row) ++ skipn (length row) values) = EML_CSV_VALUES_LENGTH).
    { rewrite zlen_app, !zlen_map. unfold zlen in *. rewrite skipn_length. lia. }
    assert (X : exists tl, (tl = [] \/ tl = [10]) /\ fgets EML_CSV_BUFFER_LENGTH (serialize (row :: data)) = Some (serialize_row row ++ tl, serialize data)).
    { unfold serialize. cbn [map join_with]. unfold fgets. change (Z.to_nat (EML_CSV_BUFFER_LENGTH - 1)) with (Z.to_nat 2047).
      destruct data as [|row2 data].
      - cbn [map]. exists []. split; [auto|]. destruct (serialize_row row) as [|c l] eqn:EQ; [congruence|]. rewrite <- EQ in *.
        rewrite take_line_end by (auto; cbn [map] in AF; lia). rewrite app_nil_r. reflexivity.
      - cbn [map] in *. exists [10]. split; [auto|].
        destruct (serialize_row row ++ [10] ++ join_with [10] (serialize_row row2 :: map serialize_row data)) as [|c l] eqn:EQ;
          [destruct (serialize_row row); discriminate|]. rewrite <- EQ. cbn [app].
        rewrite take_line_nl by (auto; unfold fits in AF; lia). reflexivity. }
    destruct X as (tl & T & ->). rewrite parse_row by assumption. cbn [bind].
    rewrite chk_int32_ok by (unfold int32_ok; lia). cbn [bind].
    rewrite IH by (auto; cbn [length] in L; lia). reflexivity.
Qed.
Lemma calls_of_get data values row_no i row : zget data i = Ret row ->
  exists vals, zget (calls_of data values row_no) i = Ret (vals, zlen row, row_no + i) /\ firstn (length row) vals = map Some (map deliver row).
Proof.
  revert values row_no i. induction data as [|r data IH]; intros values row_no i H; [unfold zget in H; destruct (i <? 0); [discriminate|]; destruct (Z.to_nat i); discriminate|].
  pose proof (zget_bound _ _ _ H) as B. cbn [calls_of]. destruct (Z.eq_dec i 0) as [->|NZ].
  - cbn in H. injection H as <-. eexists. split; [cbn; rewrite Z.add_0_r; reflexivity|].
    rewrite firstn_app. replace (length r - length (map Some (map deliver r)))%nat with O by (rewrite !map_length; lia).
    cbn [firstn]. rewrite app_nil_r. apply firstn_all2. rewrite !map_length. lia.
  - assert (S : forall T (x : T) (l : list T), zget (x :: l) i = zget l (i - 1)).
    { intros T x l. unfold zget. destruct (Z.ltb_spec i 0); [lia|]. destruct (Z.ltb_spec (i - 1) 0); [lia|].
      replace (Z.to_nat i) with (S (Z.to_nat (i - 1))) by lia. reflexivity. }
    rewrite S in H |- *. destruct (IH (map Some (map deliver r) ++ skipn (length r) values) (row_no + 1) (i - 1) H) as (vals & E & Q).
    exists vals. split; [etransitivity; [exact E|]; f_equal; f_equal; lia|exact Q].
Qed.
Lemma calls_of_length data values row_no : length (calls_of data values row_no) = length data.
Proof. revert values row_no. induction data; intros; cbn; auto. Qed.
Lemma deliver_row row : Forall (fun v => is_finite v = true) row -> Forall2 (fun v w => through_decimals 8 (B2R v) w) row (map deliver row).
Proof. induction 1 as [|v row Fv F IH]; cbn; constructor; auto. exact (@through_ok 53 1024 24 128 _ _ _ _ 8 v Fv). Qed.

(** ** Rows that do not fit *)
(** Breaks (separators and newlines) are followed by at least ten other characters. *)
Fixpoint sparse (g : nat) (s : text) : Prop :=
  match s with [] => True | c :: s' => if brk c then g = O /\ sparse 10 s' else sparse (Nat.pred g) s' end.
Fixpoint breaks (s : text) : nat := match s with [] => O | c :: s' => if brk c then S (breaks s') else breaks s' end.
Lemma sparse_mono s : forall g g', (g' <= g)%nat -> sparse g s -> sparse g' s.
Proof.
  induction s as [|c s IH]; intros g g' L H; cbn in *; auto. destruct (brk c).
  - destruct H as [-> H]. split; [lia|exact H].
  - apply (IH (Nat.pred g)); [lia|exact H].
Qed.
Lemma sparse_app_l a b g : sparse g (a ++ b) -> sparse g a.
Proof. revert g. induction a as [|c a IH]; intros g H; cbn in *; auto. destruct (brk c); [destruct H; split; auto|auto]. Qed.
Lemma sparse_app_r a b g : sparse g (a ++ b) -> sparse 0 b.
Proof.
  revert g. induction a as [|c a IH]; intros g H; cbn in *; [apply (sparse_mono b g); [lia|exact H]|].
  destruct (brk c); [destruct H as [_ H]|]; eapply IH; eassumption.
Qed.
Lemma sparse_count s : forall g, (g <= 10)%nat -> sparse g s -> (11 * breaks s + g <= length s + 11)%nat.
Proof.
  induction s as [|c s IH]; intros g L H; cbn [breaks length sparse] in *; [lia|]. destruct (brk c).
  - destruct H as [-> H]. specialize (IH 10%nat ltac:(lia) H). lia.
  - specialize (IH (Nat.pred g) ltac:(lia) H). lia.
Qed.
Lemma sparse_plain l r g : Forall (fun c => brk c = false) l -> (g <= length l)%nat -> sparse 0 r -> sparse g (l ++ r).
Proof.
  intros F. revert g. induction F as [|c l H F IH]; intros g L S; cbn [app length sparse] in *.
  - replace g with O by lia. exact S.
  - rewrite H. apply IH; [lia|exact S].
Qed.
Lemma sparse_row row r : good_row row -> (match r with [] => True | c :: r' => brk c = true /\ sparse 10 r' end) -> sparse 10 (serialize_row row ++ r).
Proof.
  intros [F N] R. assert (R0 : sparse 0 r). { destruct r as [|c r']; [exact I|]. cbn. destruct R as [-> R]. auto. }
  unfold serialize_row. induction F as [|v row Fv F IH]; [congruence|]. cbn [map join_with].
  pose proof (fmt_plain 8 v Fv) as P. pose proof (fmt_len 8 v Fv) as L. destruct row as [|v' row].
  - cbn [map]. apply sparse_plain; auto.
  - cbn [map] in *. rewrite <- app_assoc. apply sparse_plain; auto. change (txt ",") with [44] in *. cbn [app].
    change (sparse 0 (44 :: (join_with [44] (fmt_fixed 8 v' :: map (fmt_fixed 8) row) ++ r))) with
      (O = O /\ sparse 10 (join_with [44] (fmt_fixed 8 v' :: map (fmt_fixed 8) row) ++ r)). split; [reflexivity|]. apply IH. discriminate.
Qed.
Lemma sparse_data data : Forall good_row data -> sparse 10 (serialize data).
Proof.
  unfold serialize. induction 1 as [|row data G F IH]; [exact I|]. cbn [map join_with]. destruct data as [|row2 data].
  - cbn [map]. rewrite <- (app_nil_r (serialize_row row)). apply sparse_row; [exact G|exact I].
  - cbn [map] in *. apply sparse_row; [exact G|]. cbn [app]. split; [reflexivity|exact IH].
Qed.
Lemma tokens_count b : (length (strtok_tokens b) <= S (breaks b))%nat.
Proof.
  unfold strtok_tokens. apply Nat.le_trans with (length (split_on is_sep b)).
  - induction (split_on is_sep b) as [|t l IH]; cbn; [lia|]. destruct t; cbn; lia.
  - induction b as [|c b IH]; cbn [split_on breaks]; [cbn; lia|]. unfold brk. destruct (is_sep c); cbn [orb length]; [lia|].
    destruct (split_on is_sep b); cbn [length] in *; destruct (c =? 10); lia.
Qed.
Lemma parse_tokens_few ts : forall n values e values' n',
  zlen ts + n <= EML_CSV_VALUES_LENGTH -> parse_tokens ts n values EML_CSV_VALUES_LENGTH = Ret (e, values', n') -> e = EmlOk.
Proof.
  induction ts as [|t ts IH]; intros n values e values' n' L H; cbn [parse_tokens] in H.
  - now injection H.
  - rewrite zlen_cons in L. pose proof (zlen_nonneg ts). destruct (Z.leb_spec EML_CSV_VALUES_LENGTH n); [lia|].
    destruct (sscanf_f t) as [w|]; [|discriminate]. cbn [bind] in H. destruct (zset values n (Some w)); [|discriminate]. cbn [bind] in H.
    destruct (chk_int32 (n + 1)) as [n2|] eqn:EC; [|discriminate]. cbn [bind] in H. apply chk_int32_Ret in EC. destruct EC as [-> _].
    eapply IH; [|exact H]. lia.
Qed.
(** The pieces fgets cuts the stream into. *)
Inductive pieces : text -> list text -> Prop :=
  | pieces_end : pieces [] []
  | pieces_more s b s' bs : fgets EML_CSV_BUFFER_LENGTH s = Some (b, s') -> pieces s' bs -> pieces s (b :: bs).
Lemma fgets_app n s b s' : 0 < n -> fgets n s = Some (b, s') -> s = b ++ s' /\ zlen b <= n - 1 /\ s <> [].
Proof.
  intros Hn H. unfold fgets in H. destruct s as [|c s]; [discriminate|]. injection H as H.
  destruct (take_line_app (Z.to_nat (n - 1)) (c :: s)) as [A B]. rewrite H in A, B. cbn [fst snd] in *. split; [exact A|].
  split; [unfold zlen; lia|discriminate].
Qed.
Lemma read_pieces fuel : forall s values row_no e calls, sparse 0 s -> read_loop fuel s values row_no = Ret (e, calls) ->
  exists bs, pieces s bs /\ length bs = length calls.
Proof.
  induction fuel as [|fuel IH]; intros s values row_no e calls SP H; [discriminate|]. cbn [read_loop] in H.
  destruct (fgets EML_CSV_BUFFER_LENGTH s) as [[b s']|] eqn:G.
  - destruct (fgets_app EML_CSV_BUFFER_LENGTH s b s' ltac:(reflexivity) G) as (E & L & NE). subst s.
    destruct (eml_test_parse_csv_line b values EML_CSV_VALUES_LENGTH) as [[[e1 values1] n1]|] eqn:P; [|discriminate]. cbn [bind] in H.
    assert (e1 = EmlOk) as ->.
    { unfold eml_test_parse_csv_line in P. eapply parse_tokens_few; [|exact P].
      pose proof (tokens_count b) as T. pose proof (sparse_count b 0 ltac:(lia) (sparse_app_l _ _ _ SP)) as C.
      unfold zlen, EML_CSV_VALUES_LENGTH, EML_CSV_BUFFER_LENGTH in *. lia. }
    destruct (chk_int32 (row_no + 1)) as [n2|] eqn:EC; [|discriminate]. cbn [bind] in H. apply chk_int32_Ret in EC. destruct EC as [-> _].
    destruct (read_loop fuel s' values1 (row_no + 1)) as [[e2 calls2]|] eqn:R; [|discriminate]. cbn [bind] in H. injection H as <- <-.
    destruct (IH _ _ _ _ _ (sparse_app_r _ _ _ SP) R) as (bs & PB & LB). exists (b :: bs). split; [econstructor; eassumption|cbn; lia].
  - injection H as <- <-. unfold fgets in G. destruct s; [|discriminate]. exists []. split; [constructor|reflexivity].
Qed.
Lemma fgets_take s b s' : s <> [] -> fgets EML_CSV_BUFFER_LENGTH s = Some (b, s') -> take_line (Z.to_nat 2047) s = (b, s').
Proof. intros N H. unfold fgets in H. change (Z.to_nat (EML_CSV_BUFFER_LENGTH - 1)) with (Z.to_nat 2047) in H. destruct s; congruence. Qed.
Lemma pieces_count s bs : pieces s bs -> forall lines, s = join_with [10] lines -> lines <> [] ->
  Forall (Forall (fun c => (c =? 10) = false)) lines -> last lines [] <> [] ->
  (length lines <= length bs)%nat /\ (length bs = length lines -> all_fit lines).
Proof.
  induction 1 as [|s b s' bs G P IH]; intros lines E NE F LA.
  - exfalso. destruct lines as [|l [|l2 ls]]; [congruence| |].
    + cbn in E, LA. congruence.
    + cbn in E. destruct l; discriminate.
  - destruct lines as [|l ls]; [congruence|]. inversion F as [|? ? Fl Fls]; subst.
    destruct ls as [|l2 ls].
    + cbn [join_with] in *. cbn [last] in LA. apply fgets_take in G; [|exact LA].
      destruct (le_lt_dec (length l) 2047) as [LE|GT].
      * rewrite take_line_end in G by (auto; lia). injection G as <- <-. split; [cbn; lia|]. intros _. cbn. auto.
      * rewrite <- (app_nil_r l) in G. rewrite take_line_long in G by (auto; lia). injection G as <- <-. rewrite app_nil_r in IH.
        destruct (IH [skipn (Z.to_nat 2047) l]) as [A _].
        -- reflexivity.
        -- discriminate.
        -- constructor; [|constructor]. rewrite <- (firstn_skipn (Z.to_nat 2047) l) in Fl. apply Forall_app in Fl. apply Fl.
        -- cbn [last]. intros Q. apply (f_equal (@length Z)) in Q. rewrite skipn_length in Q. cbn in Q. lia.
        -- cbn [length] in *. split; lia.
    + cbn [join_with] in *. change (match ls with [] => l2 | _ :: _ => l2 ++ [10] ++ join_with [10] ls end) with (join_with [10] (l2 :: ls)) in *.
      cbn [app] in G. apply fgets_take in G; [|destruct l; discriminate].
      destruct (le_lt_dec (length l) 2046) as [LE|GT].
      * rewrite take_line_nl in G by (auto; lia). injection G as <- <-.
        destruct (IH (l2 :: ls)) as [A B]; auto; [discriminate|]. split; [cbn [length] in *; lia|].
        intros Q. cbn [length] in *. split; [exact LE|]. apply B. lia.
      * rewrite take_line_long in G by (auto; lia). injection G as <- <-.
        destruct (IH (skipn (Z.to_nat 2047) l :: l2 :: ls)) as [A _].
        -- reflexivity.
        -- discriminate.
        -- constructor; [|exact Fls]. rewrite <- (firstn_skipn (Z.to_nat 2047) l) in Fl. apply Forall_app in Fl. apply Fl.
        -- exact LA.
        -- cbn [length] in *. split; lia.
Qed.
Lemma rows_fit data values row_no fuel e calls : Forall good_row data -> data <> [] ->
  read_loop fuel (serialize data) values row_no = Ret (e, calls) ->
  (length data <= length calls)%nat /\ (length calls = length data -> all_fit (map serialize_row data)).
Proof.
  intros G N H. destruct (read_pieces _ _ _ _ _ _ (sparse_mono _ 10 0 ltac:(lia) (sparse_data data G)) H) as (bs & P & L).
  destruct (pieces_count _ _ P (map serialize_row data)) as [A B].
  - reflexivity.
  - destruct data; [congruence|discriminate].
  - apply Forall_forall. intros l I. apply in_map_iff in I. destruct I as (row & <- & I). rewrite Forall_forall in G. apply row_plain. now apply G.
  - rewrite Forall_forall in G. assert (I : In (last data []) data).
    { destruct (exists_last N) as (d' & x & ->). rewrite last_last. apply in_or_app. right. now left. }
    assert (Q : last (map serialize_row data) [] = serialize_row (last data [])).
    { destruct (exists_last N) as (d' & x & ->). rewrite map_app. cbn [map]. now rewrite !last_last. }
    intros Z2. destruct (G _ I) as [G1 G2]. apply (row_nonempty _ G1 G2). rewrite <- Q. exact Z2.
  - rewrite map_length in A, B. rewrite L in A, B. auto.
Qed.
(** A row that fits has few values. *)
Lemma fit_values row : good_row row -> (length (serialize_row row) <= 2047)%nat -> zlen row <= 186.
Proof.
  intros [F N] L. assert (H : (11 * length row <= length (serialize_row row) + 1)%nat).
  { clear L. unfold serialize_row. induction F as [|v row Fv F IH]; [congruence|]. cbn [map join_with length].
    pose proof (fmt_len 8 v Fv). destruct row as [|v' row]; [cbn; lia|]. cbn [map]. rewrite !app_length.
    change (length (txt ",")) with 1%nat. specialize (IH ltac:(discriminate)). cbn [map] in IH. lia. }
  unfold zlen. lia.
Qed.
Lemma all_fit_len lines : all_fit lines -> Forall (fun l => (length l <= 2047)%nat) lines.
Proof.
  induction lines as [|l ls IH]; intros A; constructor.
  - destruct A as [A _]. destruct ls; unfold fits in A; lia.
  - apply IH. apply A.
Qed.
Lemma join_len (lines : list text) : Forall (fun l => l <> []) lines -> (length lines <= length (join_with [10%Z] lines))%nat.
Proof.
  induction 1 as [|l ls H F IH]; [cbn; lia|]. cbn [join_with length]. destruct l as [|c l]; [congruence|].
  destruct ls as [|l2 ls]; [cbn; lia|]. rewrite !app_length. cbn [length] in *. lia.
Qed.
(** The stream is read exactly when every row fits. *)
Lemma read_csv_ok data : Forall good_row data -> all_fit (map serialize_row data) -> zlen data <= 2147483647 ->
  eml_test_read_csv (serialize data) = Ret (EmlOk, calls_of data (repeat None (Z.to_nat EML_CSV_VALUES_LENGTH)) 0).
Proof.
  intros G A L. unfold eml_test_read_csv. apply read_loop_ok; auto.
  - apply all_fit_len in A. rewrite Forall_forall in *. intros row I. pose proof (fit_values row (G _ I)) as W.
    specialize (A (serialize_row row) (in_map _ _ _ I)). specialize (W A). unfold EML_CSV_VALUES_LENGTH. lia.
  - pose proof (join_len (map serialize_row data)) as J. rewrite map_length in J. unfold serialize. apply Nat.lt_succ_r. apply J.
    apply Forall_forall. intros l I. apply in_map_iff in I. destruct I as (row & <- & I). rewrite Forall_forall in G.
    destruct (G _ I). now apply row_nonempty.
  - lia.
Qed.

(** ** Numbers that survive *)
Lemma through_int {prec emax} {Hp : Prec_gt_0 prec} {Hm : Prec_lt_emax prec emax} k z (w : binary_float prec emax) :
  0 <= k -> Z.abs z <= 2 ^ prec -> through_decimals k (IZR z) w -> is_finite w = true /\ B2R w = IZR z.
Proof.
  intros Hk Hz (d & D & N & K).
  assert (P10 : 0 < 10 ^ k) by (apply Z.pow_pos_nonneg; lia).
  assert (d = z * 10 ^ k).
  { rewrite <- mult_IZR, <- minus_IZR, <- abs_IZR in D. assert (Z.abs (z * 10 ^ k - d) < 1); [|lia]. apply lt_IZR. lra. }
  subst d. assert (Q : (IZR (z * 10 ^ k) / IZR (10 ^ k) = IZR z)%R) by (rewrite mult_IZR; field; apply IZR_neq; lia).
  rewrite Q in K. destruct (@f_of_Z_exact prec emax _ _ z Hz) as [V Fz].
  assert (GF : generic_format radix2 (SpecFloat.fexp prec emax) (IZR z)) by (rewrite <- V; apply generic_format_B2R).
  rewrite round_generic in K by (auto with typeclass_instances).
  assert (LT : (Rabs (IZR z) < bpow radix2 emax)%R).
  { rewrite <- abs_IZR. apply Rle_lt_trans with (IZR (2 ^ prec)); [now apply IZR_le|].
    assert (Q0 : 0 <= prec) by (unfold Prec_gt_0 in Hp; lia).
    pose proof (IZR_Zpower radix2 prec Q0) as IP. change (radix_val radix2) with 2 in IP. rewrite IP. apply bpow_lt. exact Hm. }
  rewrite clampR_in in K by lra. apply Rabs_def2 in LT.
  destruct w as [s|s| |s m e B]; try discriminate.
  - split; [reflexivity|]. exact K.
  - exfalso. cbn [key] in K. destruct s; lra.
  - split; [reflexivity|]. exact K.
Qed.

(** ** What the program prints *)
Definition back (y : f64) : f64 :=
  match y with
  | B754_nan => B754_nan
  | B754_infinity s => B754_infinity s
  | _ => f_of_dec (Bsign y) (scaled_int 6 y) 6
  end.
Lemma fmt_any {prec emax} {Hp : Prec_gt_0 prec} {Hm : Prec_lt_emax prec emax} (y : binary_float prec emax) :
  Forall (fun c => c <> 44 /\ c <> 10) (fmt_fixed 6 y) /\ fmt_fixed 6 y <> [].
Proof.
  destruct (is_finite y) eqn:F.
  - destruct (fmt_fixed_chars 6 y F) as [A B]. split; [|exact B]. eapply Forall_impl; [|exact A]. cbv beta. intros c C. lia.
  - destruct y as [s|s| |s m e B]; try discriminate F; [destruct s|]; (split; [|discriminate]); repeat constructor; discriminate.
Qed.
Lemma read_printed {prec emax} {Hp : Prec_gt_0 prec} {Hm : Prec_lt_emax prec emax} (y : binary_float prec emax) : is_finite y = true ->
  py_float_of_text (fmt_fixed 6 y) = Ret (f_of_dec (Bsign y) (scaled_int 6 y) 6).
Proof.
  intros F. destruct (fmt_fixed_chars 6 y F) as [A _]. unfold py_float_of_text.
  assert (NE : forall t, In 105 t \/ In 97 t -> text_eqb (fmt_fixed 6 y) t = false).
  { intros t I. destruct (text_eqb (fmt_fixed 6 y) t) eqn:E; auto. apply text_eqb_iff in E. rewrite E in A.
    rewrite Forall_forall in A. destruct I as [I|I]; specialize (A _ I); cbv beta in A; lia. }
  rewrite !NE by (vm_compute; tauto).
  pose proof (scan_fixed 6 y [] F I) as S. rewrite app_nil_r in S. rewrite S. reflexivity.
Qed.
Lemma read_back (y : f64) : py_float_of_text (fmt_fixed 6 y) = Ret (back y).
Proof. destruct y as [s|s| |s m e B]; [apply (read_printed (B754_zero s)); reflexivity|destruct s; reflexivity|reflexivity|]. now apply (read_printed (B754_finite s m e B)). Qed.
Lemma back_through (y : f64) : is_finite y = true -> through_decimals 6 (B2R y) (back y).
Proof.
  intros F. assert (E : back y = f_of_dec (Bsign y) (scaled_int 6 y) 6) by (destruct y; try discriminate; reflexivity).
  rewrite E. exact (@through_ok 53 1024 53 1024 _ _ _ _ 6 y F).
Qed.
Lemma convert_reported dt (y : f64) o : convert_out dt (fmt_fixed 6 y) = Ret o -> reported dt y o.
Proof.
  unfold convert_out. rewrite read_back. cbn [bind]. destruct dt.
  - destruct (py_int (PyFloat (back y))) as [z|] eqn:E; [|discriminate]. cbn [bind]. intros H. injection H as <-.
    exists z. split; [reflexivity|]. intros k F V B. pose proof (back_through y F) as T. rewrite V in T.
    destruct (@through_int 53 1024 _ _ 6 k (back y) ltac:(lia) B T) as [Fb Vb].
    cbn [py_int] in E. pose proof (ftrunc_R (back y)) as TR. rewrite Vb, Ztrunc_IZR in TR. destruct (back y); try discriminate; congruence.
  - intros H. injection H as <-. exists (back y). split; [reflexivity|]. apply back_through.
Qed.
Lemma convert_finite dt (y : f64) : is_finite y = true -> (Rabs (B2R y) <= IZR (2 ^ 53))%R -> exists o, convert_out dt (fmt_fixed 6 y) = Ret o.
Proof.
  intros F B. unfold convert_out. rewrite read_back. cbn [bind]. destruct dt; [|eauto].
  destruct (back_through y F) as (d & D & N & K).
  assert (L : (Rabs (key (back y)) < bpow radix2 1024)%R).
  { rewrite K. assert (P : (Rabs (IZR d / IZR (10 ^ 6)) <= bpow radix2 54)%R).
    { change (IZR (10 ^ 6)) with 1000000%R in *. change (IZR (2 ^ 53)) with 9007199254740992%R in B. change (bpow radix2 54) with 18014398509481984%R.
      apply Rabs_le. apply Rabs_le_inv in D. apply Rabs_le_inv in B. lra. }
    assert (RB : (Rabs (round radix2 (SpecFloat.fexp 53 1024) ZnearestE (IZR d / IZR (10 ^ 6))) <= bpow radix2 54)%R).
    { apply abs_round_le_generic; auto with typeclass_instances; [apply FLT_exp_valid; reflexivity|].
      apply generic_format_bpow. vm_compute. discriminate. }
    assert (LT : (bpow radix2 54 < bpow radix2 1024)%R) by (apply bpow_lt; reflexivity).
    rewrite clampR_in by lra. lra. }
  destruct (back y) as [s|s| |s m e E]; try discriminate N; try (eexists; reflexivity).
  exfalso. cbn [key] in L. destruct s; rewrite ?Rabs_Ropp, Rabs_pos_eq in L by apply bpow_ge_0; lra.
Qed.

Lemma nonempty_lines_ok (ls : list text) : Forall (Forall (fun c => (10 =? c) = false)) ls -> Forall (fun l => l <> []) ls ->
  nonempty_lines (concat (map (fun l => l ++ [10]) ls)) = ls.
Proof.
  intros F N. unfold nonempty_lines. induction F as [|l ls H F IH]; [reflexivity|]. inversion N; subst. cbn [map concat].
  rewrite <- app_assoc. cbn [app]. rewrite split_on_app by (auto; reflexivity). cbn [filter]. destruct l; [congruence|]. f_equal. auto.
Qed.
Lemma fmt_int_chars z : Forall (fun c => c <> 44 /\ c <> 10) (fmt_int z) /\ fmt_int z <> [].
Proof.
  destruct (fmt_int_literal z) as (neg & ds & -> & D & H & _). split.
  - assert (G : Forall (fun c => c <> 44 /\ c <> 10) ds) by (eapply Forall_impl; [|exact D]; unfold digit; intros; lia).
    destruct neg; cbn [signed]; [constructor; [lia|exact G]|exact G].
  - destruct neg; cbn [signed]; [discriminate|]. destruct H as [-> |(d & ds' & -> & _)]; discriminate.
Qed.
Definition out_line (row : Z) (y : f64) : text := fmt_int row ++ txt "," ++ fmt_fixed 6 y.
Lemma out_line_split row y : split_on (Z.eqb 44) (out_line row y) = [fmt_int row; fmt_fixed 6 y].
Proof.
  unfold out_line. change (txt ",") with [44]. cbn [app]. rewrite split_on_app; [|eapply Forall_impl; [|exact (proj1 (fmt_int_chars row))]|reflexivity].
  - rewrite split_on_none; [reflexivity|]. eapply Forall_impl; [|exact (proj1 (fmt_any y))]. cbv beta. intros c [C _]. apply Z.eqb_neq. lia.
  - cbv beta. intros c [C _]. apply Z.eqb_neq. lia.
Qed.
Lemma out_line_plain row y : Forall (fun c => (10 =? c) = false) (out_line row y) /\ out_line row y <> [].
Proof.
  unfold out_line. split.
  - apply Forall_app. split; [eapply Forall_impl; [|exact (proj1 (fmt_int_chars row))]; cbv beta; intros c [_ C]; apply Z.eqb_neq; lia|].
    change (txt ",") with [44]. cbn [app]. constructor; [reflexivity|]. eapply Forall_impl; [|exact (proj1 (fmt_any y))]. cbv beta. intros c [_ C]. apply Z.eqb_neq. lia.
  - destruct (fmt_int row) eqn:E; [now apply fmt_int_chars in E|discriminate].
Qed.

(** ** predict *)
Lemma check_array_ok X : check_array X = Ret tt <-> X <> [] /\ Forall good_row X.
Proof.
  unfold check_array.
  destruct (match X with [] => true | _ => false end) eqn:E1; cbn [orb].
  { split; [discriminate|]. destruct X; [|discriminate]. tauto. }
  destruct (existsb (fun r => match r with [] => true | _ => false end) X) eqn:E2; cbn [orb].
  { split; [discriminate|]. intros [_ G]. apply existsb_exists in E2. destruct E2 as (r & I & E). rewrite Forall_forall in G.
    destruct (G _ I). destruct r; congruence. }
  destruct (existsb (fun r => existsb (fun v => negb (is_finite v)) r) X) eqn:E3.
  { split; [discriminate|]. intros [_ G]. apply existsb_exists in E3. destruct E3 as (r & I & E). rewrite Forall_forall in G.
    destruct (G _ I) as [F _]. apply existsb_exists in E. destruct E as (v & J & E). rewrite Forall_forall in F. specialize (F _ J).
    rewrite F in E. discriminate. }
  split; [|reflexivity]. intros _. split; [destruct X; [discriminate|discriminate]|]. apply Forall_forall. intros r I. split.
  - apply Forall_forall. intros v J. destruct (is_finite v) eqn:F; auto. exfalso. rewrite <- not_true_iff_false in E3. apply E3.
    apply existsb_exists. exists r. split; auto. apply existsb_exists. exists v. rewrite F. auto.
  - intros ->. rewrite <- not_true_iff_false in E2. apply E2. apply existsb_exists. exists []. auto.
Qed.
Lemma read_rows fuel : forall s values row_no e calls, read_loop fuel s values row_no = Ret (e, calls) ->
  row_no <= 2147483647 -> row_no + zlen calls <= 2147483647.
Proof.
  induction fuel as [|fuel IH]; intros s values row_no e calls H L; [discriminate|]. cbn [read_loop] in H.
  destruct (fgets EML_CSV_BUFFER_LENGTH s) as [[b s']|]; [|injection H as <- <-; unfold zlen; cbn; lia].
  destruct (eml_test_parse_csv_line b values EML_CSV_VALUES_LENGTH) as [[[e1 values1] n1]|]; [|discriminate]. cbn [bind] in H.
  destruct e1; try (injection H as <- <-; unfold zlen; cbn; lia).
  destruct (chk_int32 (row_no + 1)) as [n2|] eqn:EC; [|discriminate]. cbn [bind] in H. apply chk_int32_Ret in EC. destruct EC as [-> OK].
  destruct (read_loop fuel s' values1 (row_no + 1)) as [[e2 calls2]|] eqn:R; [|discriminate]. cbn [bind] in H. injection H as <- <-.
  apply IH in R; [|unfold int32_ok in OK; lia]. rewrite zlen_cons. lia.
Qed.
Lemma calls_lines func calls outs :
  mapM (fun '(values, length, row) => let* y := func values length in Ret (fmt_int row ++ txt "," ++ fmt_fixed 6 y ++ [10])) calls = Ret outs ->
  exists lines, outs = map (fun l => l ++ [10]) lines /\
    Forall2 (fun (c : call) line => let '(values, n, row) := c in exists y : f64, func values n = Ret y /\ line = out_line row y) calls lines.
Proof.
  intros H. apply mapM_Ret in H. induction H as [|c o calls outs Hc F (lines & -> & G)].
  - exists []. split; [reflexivity|constructor].
  - destruct c as [[values n] row]. destruct (func values n) as [y|] eqn:E; [|discriminate]. cbn [bind] in Hc. injection Hc as <-.
    exists (out_line row y :: lines). split.
    + cbn [map]. f_equal. unfold out_line. now rewrite <- !app_assoc.
    + constructor; [|exact G]. exists y. auto.
Qed.
Lemma Forall2_zget {A B} (R : A -> B -> Prop) la lb i a : Forall2 R la lb -> zget la i = Ret a -> exists b, zget lb i = Ret b /\ R a b.
Proof.
  intros F H. pose proof (zget_bound _ _ _ H) as [B0 _]. unfold zget in *. destruct (i <? 0); [discriminate|].
  revert H. generalize (Z.to_nat i). clear B0. induction F as [|x y la lb Hxy F IH]; intros n H.
  - destruct n; discriminate.
  - destruct n as [|n]; [cbn in *; injection H as <-; eauto|]. cbn in *. now apply IH.
Qed.
Lemma Forall2_len {A B} (R : A -> B -> Prop) la lb : Forall2 R la lb -> length la = length lb.
Proof. induction 1; cbn; auto. Qed.
Lemma run_lines program data dt out lines :
  program (serialize data) = Ret (concat (map (fun l => l ++ [10]) lines)) ->
  Forall (Forall (fun c => (10 =? c) = false)) lines -> Forall (fun l => l <> []) lines ->
  run_classifier program data dt = Ret out ->
  Forall2 (fun line o => match split_on (Z.eqb 44) line with [_; t] => convert_out dt t | _ => Err TypeError_ end = Ret o) lines out.
Proof.
  intros P F N H. unfold run_classifier in H. rewrite P in H. cbn [bind] in H. rewrite nonempty_lines_ok in H by assumption.
  apply mapM_Ret in H. exact H.
Qed.
Lemma predict_sound func dt X out : predict func dt X = Ret out ->
  Forall good_row X /\ all_fit (map serialize_row X) /\ zlen X <= 2147483647 /\ zlen out = zlen X /\
  forall i row, zget X i = Ret row -> exists values y o,
    zget (calls_of X (repeat None (Z.to_nat EML_CSV_VALUES_LENGTH)) 0) i = Ret (values, zlen row, i) /\
    firstn (length row) values = map Some (map deliver row) /\
    func values (zlen row) = Ret y /\ zget out i = Ret o /\ convert_out dt (fmt_fixed 6 y) = Ret o.
Proof.
  intros H. unfold predict in H. destruct (check_array X) as [[]|] eqn:C; [|discriminate]. cbn [bind] in H.
  apply check_array_ok in C. destruct C as [NX G].
  destruct (run_classifier (classify_program func) X dt) as [out'|] eqn:R; [|discriminate]. cbn [bind] in H.
  destruct (Z.eqb_spec (zlen out') (zlen X)) as [LO|]; [|discriminate]. cbn [py_assert bind] in H. injection H as <-.
  assert (R' := R). unfold run_classifier in R'. destruct (classify_program func (serialize X)) as [t|] eqn:CP; [|discriminate]. clear R'.
  assert (CP' := CP). unfold classify_program in CP'. destruct (eml_test_read_csv (serialize X)) as [[e calls]|] eqn:RC; [|discriminate]. cbn [bind] in CP'.
  match type of CP' with bind ?m _ = _ => destruct m as [outs|] eqn:M; [|discriminate] end. cbn [bind] in CP'. injection CP' as <-.
  destruct (calls_lines _ _ _ M) as (lines & -> & CL).
  assert (PL : Forall (Forall (fun c => (10 =? c) = false)) lines /\ Forall (fun l => l <> []) lines).
  { clear - CL. induction CL as [|[[values n] row] line calls lines (y & _ & ->) F [A B]]; [split; constructor|].
    destruct (out_line_plain row y). split; constructor; auto. }
  destruct PL as [PL1 PL2].
  pose proof (run_lines _ _ _ _ _ CP PL1 PL2 R) as RL.
  assert (LC : length calls = length X).
  { transitivity (length lines); [exact (Forall2_len _ _ _ CL)|]. transitivity (length out'); [exact (Forall2_len _ _ _ RL)|]. unfold zlen in LO. lia. }
  unfold eml_test_read_csv in RC. destruct (rows_fit _ _ _ _ _ _ G NX RC) as [_ AF]. specialize (AF LC).
  pose proof (read_rows _ _ _ _ _ _ RC ltac:(lia)) as RR. assert (ZX : zlen X <= 2147483647) by (unfold zlen in *; lia).
  pose proof (read_csv_ok X G AF ZX) as RK. unfold eml_test_read_csv in RK. rewrite RC in RK. injection RK as _ ->.
  split; [exact G|]. split; [exact AF|]. split; [exact ZX|]. split; [exact LO|]. intros i row GX.
  destruct (calls_of_get X (repeat None (Z.to_nat EML_CSV_VALUES_LENGTH)) 0 i row GX) as (values & GC & FV). rewrite Z.add_0_l in GC.
  destruct (Forall2_zget _ _ _ _ _ CL GC) as (line & GL & y & FY & ->).
  destruct (Forall2_zget _ _ _ _ _ RL GL) as (o & GO & EO). rewrite out_line_split in EO.
  exists values, y, o. auto.
Qed.
Lemma mapM_conv dt (calls : list call) lines :
  Forall2 (fun (c : call) line => let '(_, _, row) := c in exists y : f64, is_finite y = true /\ (Rabs (B2R y) <= IZR (2 ^ 53))%R /\ line = out_line row y) calls lines ->
  exists out, mapM (fun line => match split_on (Z.eqb 44) line with [_; t] => convert_out dt t | _ => Err TypeError_ end) lines = Ret out /\ length out = length lines.
Proof.
  intros F. induction F as [|[[values n] row] line calls lines (y & Fy & By & ->) F (out & E & L)]; [exists []; split; reflexivity|].
  cbn [mapM]. rewrite out_line_split. destruct (convert_finite dt y Fy By) as (o & ->). cbn [bind]. rewrite E. exists (o :: out). split; [reflexivity|cbn; lia].
Qed.
Lemma predict_complete func dt X : X <> [] -> Forall good_row X -> all_fit (map serialize_row X) -> zlen X <= 2147483647 ->
  (forall row values, In row X -> holds row values -> exists y, func values (zlen row) = Ret y /\ is_finite y = true /\ (Rabs (B2R y) <= IZR (2 ^ 53))%R) ->
  exists out, predict func dt X = Ret out.
Proof.
  intros NX G AF ZX H. unfold predict. rewrite (proj2 (check_array_ok X)) by auto. cbn [bind].
  set (calls := calls_of X (repeat None (Z.to_nat EML_CSV_VALUES_LENGTH)) 0) in *.
  assert (CL : exists lines, mapM (fun '(values, length, row) => let* y := func values length in Ret (fmt_int row ++ txt "," ++ fmt_fixed 6 y ++ [10])) calls
      = Ret (map (fun l => l ++ [10]) lines) /\
      Forall2 (fun (c : call) line => let '(_, _, row) := c in exists y : f64, is_finite y = true /\ (Rabs (B2R y) <= IZR (2 ^ 53))%R /\ line = out_line row y) calls lines).
  { unfold calls. clear calls AF ZX NX. generalize (repeat None (Z.to_nat EML_CSV_VALUES_LENGTH) : list (option f32)), 0.
    induction G as [|row X Gr G IH]; intros values r; [exists []; split; [reflexivity|constructor]|]. cbn [calls_of mapM].
    set (v' := map Some (map deliver row) ++ skipn (length row) values).
    destruct (H row v') as (y & E & F & B); [now left| |].
    { exists (map deliver row). split; [apply deliver_row, Gr|]. unfold v'. rewrite firstn_app.
      replace (length row - length (map Some (map deliver row)))%nat with O by (rewrite !map_length; lia).
      cbn [firstn]. rewrite app_nil_r. apply firstn_all2. rewrite !map_length. lia. }
    destruct (IH ltac:(intros; apply H; [now right|assumption]) v' (r + 1)) as (lines & EM & FL).
    exists (out_line r y :: lines). split.
    - rewrite E. cbn [bind]. rewrite EM. cbn [bind map]. f_equal. f_equal. unfold out_line. now rewrite <- !app_assoc.
    - constructor; [|exact FL]. exists y. auto. }
  destruct CL as (lines & EM & FL).
  assert (PL : Forall (Forall (fun c => (10 =? c) = false)) lines /\ Forall (fun l => l <> []) lines).
  { clear - FL. induction FL as [|[[values n] row] line calls lines (y & _ & _ & ->) F [A B]]; [split; constructor|].
    destruct (out_line_plain row y). split; constructor; auto. }
  destruct PL as [PL1 PL2]. destruct (mapM_conv dt _ _ FL) as (out & EO & LO).
  exists out. unfold run_classifier, classify_program. rewrite read_csv_ok by assumption. cbn [bind]. fold calls. rewrite EM. cbn [bind].
  rewrite nonempty_lines_ok by assumption. rewrite EO. cbn [bind].
  assert (LL : zlen out = zlen X).
  { unfold zlen. rewrite LO. rewrite <- (Forall2_len _ _ _ FL). unfold calls. now rewrite calls_of_length. }
  rewrite LL, Z.eqb_refl. reflexivity.
Qed.

(** ** predict_proba *)
Definition backp (p : f32) : f64 :=
  match p with
  | B754_nan => B754_nan
  | B754_infinity s => B754_infinity s
  | _ => f_of_dec (Bsign p) (scaled_int 6 p) 6
  end.
Lemma read_backp (p : f32) : py_float_of_text (fmt_fixed 6 p) = Ret (backp p).
Proof. destruct p as [s|s| |s m e B]; [apply (read_printed (B754_zero s : f32)); reflexivity|destruct s; reflexivity|reflexivity|]. now apply (read_printed (B754_finite s m e B : f32)). Qed.
Lemma backp_through (p : f32) : is_finite p = true -> through_decimals 6 (B2R p) (backp p).
Proof.
  intros F. assert (E : backp p = f_of_dec (Bsign p) (scaled_int 6 p) 6) by (destruct p; try discriminate; reflexivity).
  rewrite E. exact (@through_ok 24 128 53 1024 _ _ _ _ 6 p F).
Qed.
Definition proba_line (t : Z * Z * f32) : text := let '(r, c, p) := t in fmt_int r ++ txt "," ++ fmt_int c ++ txt "," ++ fmt_fixed 6 p.
Lemma proba_line_split r c p : split_on (Z.eqb 44) (proba_line (r, c, p)) = [fmt_int r; fmt_int c; fmt_fixed 6 p].
Proof.
  unfold proba_line. change (txt ",") with [44]. cbn [app].
  assert (I : forall z, Forall (fun c => (44 =? c) = false) (fmt_int z)).
  { intros z. eapply Forall_impl; [|exact (proj1 (fmt_int_chars z))]. cbv beta. intros d [C _]. apply Z.eqb_neq. lia. }
  rewrite split_on_app by (auto; reflexivity). rewrite split_on_app by (auto; reflexivity).
  rewrite split_on_none; [reflexivity|]. eapply Forall_impl; [|exact (proj1 (fmt_any p))]. cbv beta. intros d [C _]. apply Z.eqb_neq. lia.
Qed.
Lemma proba_line_plain t : Forall (fun c => (10 =? c) = false) (proba_line t) /\ proba_line t <> [].
Proof.
  destruct t as [[r c] p]. unfold proba_line. change (txt ",") with [44].
  assert (I : forall z, Forall (fun c => (10 =? c) = false) (fmt_int z)).
  { intros z. eapply Forall_impl; [|exact (proj1 (fmt_int_chars z))]. cbv beta. intros d [_ C]. apply Z.eqb_neq. lia. }
  split.
  - apply Forall_app. split; [apply I|]. cbn [app]. constructor; [reflexivity|]. apply Forall_app. split; [apply I|]. constructor; [reflexivity|].
    eapply Forall_impl; [|exact (proj1 (fmt_any p))]. cbv beta. intros d [_ C]. apply Z.eqb_neq. lia.
  - destruct (fmt_int r) eqn:E; [now apply fmt_int_chars in E|discriminate].
Qed.
Lemma int_back z : py_int_of_text (fmt_int z) = Ret z.
Proof.
  unfold py_int_of_text. pose proof (scan_int z [] I) as S. rewrite app_nil_r in S. rewrite S. change (0 =? 0) with true. cbv iota.
  f_equal. destruct (Z.ltb_spec z 0); lia.
Qed.
(** The content of the array outputs after each call. *)
Inductive chain (func : list f32 -> list (option f32) -> Z -> res (list f32)) : list f32 -> list call -> list (list f32) -> Prop :=
  | chain_nil prev : chain func prev [] []
  | chain_cons prev values n row calls o outs : func prev values n = Ret o -> chain func o calls outs ->
      chain func prev ((values, n, row) :: calls) (o :: outs).
Lemma chain_len func prev calls outs : chain func prev calls outs -> length outs = length calls.
Proof. induction 1; cbn; auto. Qed.
Lemma prog_lines func n : forall calls prev acc text_ last_,
  foldM (fun '(out, outputs) '(values, length, row) =>
      let* outputs := func outputs values length in
      let* lines := mapM (fun class_no =>
          let* prob := zget outputs class_no in
          Ret (fmt_int row ++ txt "," ++ fmt_int class_no ++ txt "," ++ fmt_fixed 6 prob ++ [10])) (zrange n) in
      Ret (out ++ concat lines, outputs)) (acc, prev) calls = Ret (text_, last_) ->
  exists outs trip, chain func prev calls outs /\ text_ = acc ++ concat (map (fun l => l ++ [10]) (map proba_line trip)) /\
    (forall r c p, In (r, c, p) trip <-> exists (values : list (option f32)) nn o, In ((values, nn, r), o) (combine calls outs) /\ 0 <= c < n /\ zget o c = Ret p) /\
    Forall (fun o => forall c, 0 <= c < n -> exists p, zget o c = Ret p) outs.
Proof.
  induction calls as [|[[values nn] row] calls IH]; intros prev acc text_ last_ H; cbn [foldM] in H.
  - injection H as <- <-. exists [], []. split; [constructor|]. split; [cbn; now rewrite app_nil_r|].
    split; [|constructor]. intros r c p. split; [intros []|]. intros (values & nn & o & [] & _).
  - destruct (func prev values nn) as [o|] eqn:E; [|discriminate]. cbn [bind] in H.
    match type of H with bind (bind ?m _) _ = _ => destruct m as [lines|] eqn:M; [|discriminate] end. cbn [bind] in H.
    destruct (IH _ _ _ _ H) as (outs & trip & C & -> & T & FO). apply mapM_Ret in M.
    assert (L : exists t0, lines = map (fun l => l ++ [10]) (map proba_line t0) /\
      forall r c p, In (r, c, p) t0 <-> r = row /\ In c (zrange n) /\ zget o c = Ret p).
    { clear - M. induction M as [|c l cs lines Hc M (t0 & -> & T)].
      - exists []. split; [reflexivity|]. intros. cbn. tauto.
      - destruct (zget o c) as [p|] eqn:EP; [|discriminate]. cbn [bind] in Hc. injection Hc as <-.
        exists ((row, c, p) :: t0). split; [cbn [map]; f_equal; unfold proba_line; now rewrite <- !app_assoc|].
        intros r c' p'. cbn [In]. rewrite T. split.
        + intros [Q|(-> & I & Z)]; [injection Q as <- <- <-; auto|auto].
        + intros (-> & [<-|I] & Z); [left; congruence|right; auto]. }
    assert (FO1 : forall c, 0 <= c < n -> exists p, zget o c = Ret p).
    { intros c B. apply zrange_In in B. clear - M B. induction M as [|c' l cs lines Hc M IH]; [destruct B|].
      destruct B as [->|B]; [|auto]. destruct (zget o c) as [p|]; [eauto|discriminate]. }
    destruct L as (t0 & -> & T0). exists (o :: outs), (t0 ++ trip). split; [constructor; assumption|]. split.
    + rewrite map_app, map_app, concat_app, <- app_assoc. reflexivity.
    + split; [|constructor; assumption]. intros r c p. rewrite in_app_iff, T0, T. cbn [combine]. split.
      * intros [(-> & I & Z)|(v & k & o' & I & B & Z)].
        -- exists values, nn, o. split; [now left|]. split; [now apply zrange_In in I|exact Z].
        -- exists v, k, o'. split; [now right|]. auto.
      * intros (v & k & o' & [I|I] & B & Z).
        -- injection I as -> -> <- <-. left. split; [reflexivity|]. split; [now apply zrange_In|exact Z].
        -- right. exists v, k, o'. auto.
Qed.

Lemma read_numbers fuel : forall s values row_no e calls, read_loop fuel s values row_no = Ret (e, calls) ->
  forall k v n r, nth_error calls k = Some (v, n, r) -> r = row_no + Z.of_nat k.
Proof.
  induction fuel as [|fuel IH]; intros s values row_no e calls H k v n r K; [discriminate|]. cbn [read_loop] in H.
  destruct (fgets EML_CSV_BUFFER_LENGTH s) as [[b s']|]; [|injection H as <- <-; destruct k; discriminate].
  destruct (eml_test_parse_csv_line b values EML_CSV_VALUES_LENGTH) as [[[e1 values1] n1]|]; [|discriminate]. cbn [bind] in H.
  destruct e1; try (injection H as <- <-; destruct k; discriminate).
  destruct (chk_int32 (row_no + 1)) as [n2|] eqn:EC; [|discriminate]. cbn [bind] in H. apply chk_int32_Ret in EC. destruct EC as [-> OK].
  destruct (read_loop fuel s' values1 (row_no + 1)) as [[e2 calls2]|] eqn:R; [|discriminate]. cbn [bind] in H. injection H as <- <-.
  destruct k as [|k]; cbn [nth_error] in K; [injection K as <- <- <-; lia|]. rewrite (IH _ _ _ _ _ R _ _ _ _ K). lia.
Qed.

Definition cell {A} (m : list (list A)) (i c : Z) : res A := let* r := zget m i in zget r c.
Definition put (N n : Z) (m : list (list (option f64))) (t : Z * Z * f64) : res (list (list (option f64))) :=
  let '(row, cls, prob) := t in
  if (row <? N) && (cls <? n) then
    let* r := zget m row in
    let* r := zset r cls (Some prob) in
    zset m row r
  else Err IndexError_.
Lemma put_ok N n m row cls prob m' : put N n m (row, cls, prob) = Ret m' ->
  row < N /\ zlen m' = zlen m /\ forall i c, cell m' i c = if (i =? row) && (c =? cls) then Ret (Some prob) else cell m i c.
Proof.
  unfold put. destruct (Z.ltb_spec row N); [|discriminate]. destruct (cls <? n); [|discriminate]. cbn [andb].
  destruct (zget m row) as [r|] eqn:E; [|discriminate]. cbn [bind]. destruct (zset r cls (Some prob)) as [r'|] eqn:E2; [|discriminate]. cbn [bind].
  intros E3. apply zset_Ret in E2, E3. destruct E2 as [B2 ->]. destruct E3 as [B3 ->]. split; [assumption|]. split; [apply zlen_list_set|].
  intros i c. unfold cell. rewrite zget_list_set by lia. rewrite (Z.eqb_sym i row), (Z.eqb_sym c cls).
  destruct (Z.eqb_spec row i) as [<-|NE].
  - cbn [bind andb]. rewrite zget_list_set by lia. destruct (Z.eqb_spec cls c) as [->|NE']; [reflexivity|]. rewrite E. reflexivity.
  - reflexivity.
Qed.
Lemma puts_ok N n : forall trip m m', foldM (put N n) m trip = Ret m' ->
  zlen m' = zlen m /\ (forall i c p, In (i, c, p) trip -> i < N) /\
  forall i c, (exists p, In (i, c, p) trip /\ cell m' i c = Ret (Some p)) \/ ((forall p, ~ In (i, c, p) trip) /\ cell m' i c = cell m i c).
Proof.
  induction trip as [|[[row cls] prob] trip IH]; intros m m' H; cbn [foldM] in H.
  - injection H as <-. split; [reflexivity|]. split; [intros ? ? ? []|]. intros i c. right. split; [intros p []|reflexivity].
  - destruct (put N n m (row, cls, prob)) as [m1|] eqn:E; [|discriminate]. cbn [bind] in H.
    destruct (put_ok _ _ _ _ _ _ _ E) as (B & L & C). destruct (IH _ _ H) as (L' & B' & C'). split; [lia|]. split.
    + intros i c p [Q|I]; [injection Q as <- <- <-; assumption|eapply B'; eassumption].
    + intros i c. destruct (C' i c) as [(p & I & Q)|(NI & Q)]; [left; exists p; split; [now right|exact Q]|].
      rewrite Q, C. destruct (Z.eqb_spec i row) as [->|NE]; cbn [andb].
      * destruct (Z.eqb_spec c cls) as [->|NE']; [left; exists prob; split; [now left|reflexivity]|].
        right. split; [|reflexivity]. intros p [Q'|I]; [injection Q'; congruence|now apply NI in I].
      * right. split; [|reflexivity]. intros p [Q'|I]; [injection Q'; congruence|now apply NI in I].
Qed.
Lemma combine_nth {A B} (la : list A) (lb : list B) k a b : nth_error la k = Some a -> nth_error lb k = Some b -> In (a, b) (combine la lb).
Proof.
  revert lb k. induction la as [|x la IH]; intros lb k HA HB; [destruct k; discriminate|]. destruct lb as [|y lb]; [destruct k; discriminate|].
  destruct k as [|k]; cbn in *; [injection HA as ->; injection HB as ->; now left|right; eapply IH; eassumption].
Qed.
Lemma combine_In_nth {A B} (la : list A) (lb : list B) a b : In (a, b) (combine la lb) -> exists k, nth_error la k = Some a /\ nth_error lb k = Some b.
Proof.
  revert lb. induction la as [|x la IH]; intros lb H; [destruct H|]. destruct lb as [|y lb]; [destruct H|].
  destruct H as [Q|H]; [injection Q as -> ->; exists O; auto|]. destruct (IH _ H) as (k & HA & HB). exists (S k). auto.
Qed.
Lemma nth_of_zget {A} (l : list A) i a : zget l i = Ret a -> nth_error l (Z.to_nat i) = Some a.
Proof. unfold zget. destruct (i <? 0); [discriminate|]. destruct (nth_error l (Z.to_nat i)); [congruence|discriminate]. Qed.
Lemma zget_of_nth {A} (l : list A) k a : nth_error l k = Some a -> zget l (Z.of_nat k) = Ret a.
Proof. unfold zget. intros H. destruct (Z.ltb_spec (Z.of_nat k) 0); [lia|]. rewrite Nat2Z.id, H. reflexivity. Qed.

Lemma predict_proba_sound func n X m : 1 <= n -> predict_proba func n X = Ret m ->
  Forall good_row X /\ all_fit (map serialize_row X) /\ zlen X <= 2147483647 /\ zlen m = zlen X /\
  exists outs, chain func (repeat fzero (Z.to_nat n)) (calls_of X (repeat None (Z.to_nat EML_CSV_VALUES_LENGTH)) 0) outs /\
  forall i c, 0 <= i < zlen X -> 0 <= c < n -> exists o p, zget outs i = Ret o /\ zget o c = Ret p /\ cell m i c = Ret (Some (backp p)).
Proof.
  intros N1 H. unfold predict_proba in H. destruct (check_array X) as [[]|] eqn:C; [|discriminate]. cbn [bind] in H.
  apply check_array_ok in C. destruct C as [NX G].
  destruct (proba_program func n (serialize X)) as [t|] eqn:P; [|discriminate]. cbn [bind] in H.
  unfold proba_program in P. destruct (eml_test_read_csv (serialize X)) as [[e calls]|] eqn:RC; [|discriminate]. cbn [bind] in P.
  match type of P with bind ?m _ = _ => destruct m as [[t' last_]|] eqn:M; [|discriminate] end. cbn [bind] in P. injection P as ->.
  destruct (prog_lines _ _ _ _ _ _ _ M) as (outs & trip & CH & -> & T & FO). cbn [app] in H.
  assert (LO := chain_len _ _ _ _ CH).
  rewrite nonempty_lines_ok in H.
  2:{ apply Forall_forall. intros l I. apply in_map_iff in I. destruct I as (x & <- & _). apply proba_line_plain. }
  2:{ apply Forall_forall. intros l I. apply in_map_iff in I. destruct I as (x & <- & _). apply proba_line_plain. }
  match type of H with bind ?m _ = _ => assert (R : m = Ret (map (fun '(r, c, p) => (r, c, backp p)) trip)) end.
  { clear. induction trip as [|[[r c] p] trip IH]; [reflexivity|]. cbn [map mapM]. rewrite proba_line_split. cbn [bind].
    rewrite !int_back. cbn [bind]. rewrite read_backp. cbn [bind]. rewrite IH. reflexivity. }
  rewrite R in H. cbn [bind] in H.
  change (foldM (put (zlen X) n) (repeat (repeat None (Z.to_nat n)) (length X)) (map (fun '(r, c, p) => (r, c, backp p)) trip) = Ret m) in H.
  apply puts_ok in H. destruct H as (LM & BT & CM).
  unfold eml_test_read_csv in RC. pose proof (read_numbers _ _ _ _ _ _ RC) as NUM.
  assert (TR : forall k o c, nth_error outs k = Some o -> 0 <= c < n -> exists p, zget o c = Ret p /\ In (Z.of_nat k, c, backp p) (map (fun '(r, c, p) => (r, c, backp p)) trip)).
  { intros k o c K B. rewrite Forall_forall in FO. destruct (FO o (nth_error_In _ _ K) c B) as (p & EP). exists p. split; [exact EP|].
    destruct (nth_error calls k) as [[[v nn] r]|] eqn:EC; [|apply nth_error_None in EC; assert (k < length outs)%nat by (apply nth_error_Some; congruence); lia].
    pose proof (NUM _ _ _ _ EC) as ->. apply in_map_iff. exists (Z.of_nat k, c, p). split; [reflexivity|]. apply T.
    exists v, nn, o. split; [|auto]. exact (combine_nth _ _ _ _ _ EC K). }
  destruct (rows_fit _ _ _ _ _ _ G NX RC) as [GE AF].
  assert (LC : length calls = length X).
  { destruct (Nat.eq_dec (length calls) (length X)) as [|NE]; [assumption|exfalso].
    assert (length X < length outs)%nat as LT by lia. apply nth_error_Some in LT. destruct (nth_error outs (length X)) as [o|] eqn:EO; [|congruence].
    destruct (TR _ _ 0 EO ltac:(lia)) as (p & _ & I). apply BT in I. unfold zlen in I. lia. }
  specialize (AF LC). pose proof (read_rows _ _ _ _ _ _ RC ltac:(lia)) as RR. assert (ZX : zlen X <= 2147483647) by (unfold zlen in *; lia).
  pose proof (read_csv_ok X G AF ZX) as RK. unfold eml_test_read_csv in RK. rewrite RC in RK.
  assert (EC : calls = calls_of X (repeat None (Z.to_nat EML_CSV_VALUES_LENGTH)) 0) by congruence. clear RK.
  split; [exact G|]. split; [exact AF|]. split; [exact ZX|]. split; [rewrite LM; unfold zlen; now rewrite repeat_length|].
  exists outs. split; [rewrite <- EC; exact CH|]. intros i c Bi Bc.
  assert (Z.to_nat i < length outs)%nat as LT by (unfold zlen in Bi; lia). apply nth_error_Some in LT.
  destruct (nth_error outs (Z.to_nat i)) as [o|] eqn:EO; [|congruence]. destruct (TR _ _ c EO Bc) as (p & EP & I).
  pose proof (zget_of_nth _ _ _ EO) as ZO. rewrite Z2Nat.id in ZO, I by lia.
  exists o, p. split; [exact ZO|]. split; [exact EP|].
  destruct (CM i c) as [(q & J & Q)|(NI & _)]; [|now apply NI in I]. rewrite Q. f_equal. f_equal.
  apply in_map_iff in J. destruct J as ([[r' c'] p'] & QQ & J). injection QQ as -> -> <-. f_equal. apply T in J.
  destruct J as (v & nn & o' & J & _ & EP'). apply combine_In_nth in J. destruct J as (k & K1 & K2).
  pose proof (NUM _ _ _ _ K1) as Ek. assert (k = Z.to_nat i) by lia. subst k. congruence.
Qed.

Lemma chain_get func prev calls outs : chain func prev calls outs -> forall i values n row, zget calls i = Ret (values, n, row) ->
  exists before o, (if i =? 0 then before = prev else zget outs (i - 1) = Ret before) /\ func before values n = Ret o /\ zget outs i = Ret o.
Proof.
  induction 1 as [prev|prev values n row calls o outs E C IH]; intros i v n' r H.
  - apply zget_bound in H. unfold zlen in H. cbn in H. lia.
  - pose proof (zget_bound _ _ _ H) as B. destruct (Z.eqb_spec i 0) as [->|NZ].
    + cbn in H. injection H as -> -> ->. exists prev, o. auto.
    + assert (S : forall T (x : T) (l : list T) j, 0 < j -> zget (x :: l) j = zget l (j - 1)).
      { intros T x l j J. unfold zget. destruct (Z.ltb_spec j 0); [lia|]. destruct (Z.ltb_spec (j - 1) 0); [lia|].
        replace (Z.to_nat j) with (S (Z.to_nat (j - 1))) by lia. reflexivity. }
      rewrite S in H by lia. destruct (IH _ _ _ _ H) as (before & o' & A1 & A2 & A3). exists before, o'. split; [|split; [exact A2|rewrite S by lia; exact A3]].
      destruct (Z.eqb_spec (i - 1) 0) as [E1|NE]; [rewrite E1; subst before; reflexivity|]. rewrite S by lia. exact A1.
Qed.
Lemma put_runs N n m row cls prob : zlen m = N -> Forall (fun r => zlen r = n) m -> 0 <= row < N -> 0 <= cls < n ->
  exists m', put N n m (row, cls, prob) = Ret m' /\ zlen m' = N /\ Forall (fun r => zlen r = n) m'.
Proof.
  intros L F R C. unfold put. destruct (Z.ltb_spec row N); [|lia]. destruct (Z.ltb_spec cls n); [|lia]. cbn [andb].
  destruct (zget_ok m row) as [r E]; [lia|]. rewrite E. cbn [bind].
  assert (LR : zlen r = n) by (rewrite Forall_forall in F; apply F; eapply zget_In; exact E).
  rewrite zset_ok by lia. cbn [bind]. rewrite zset_ok by lia. eexists. split; [reflexivity|]. rewrite zlen_list_set. split; [exact L|].
  apply Forall_forall. intros x I. apply In_zget in I. destruct I as (j & J). rewrite zget_list_set in J by lia.
  destruct (row =? j).
  - injection J as <-. now rewrite zlen_list_set.
  - rewrite Forall_forall in F. apply F. eapply zget_In. exact J.
Qed.
Lemma puts_run N n : forall trip m, zlen m = N -> Forall (fun r => zlen r = n) m -> (forall r c p, In (r, c, p) trip -> 0 <= r < N /\ 0 <= c < n) ->
  exists m', foldM (put N n) m trip = Ret m'.
Proof.
  induction trip as [|[[row cls] prob] trip IH]; intros m L F B; cbn [foldM]; [eauto|].
  destruct (B row cls prob) as [B1 B2]; [now left|]. destruct (put_runs N n m row cls prob L F B1 B2) as (m' & -> & L' & F'). cbn [bind].
  apply IH; auto. intros r c p I. apply (B r c p). now right.
Qed.
Lemma holds_call row values : good_row row -> holds row (map Some (map deliver row) ++ skipn (length row) values).
Proof.
  intros G. exists (map deliver row). split; [apply deliver_row, G|]. rewrite firstn_app.
  replace (length row - length (map Some (map deliver row)))%nat with O by (rewrite !map_length; lia).
  cbn [firstn]. rewrite app_nil_r. apply firstn_all2. rewrite !map_length. lia.
Qed.
Lemma predict_proba_complete func n X : 0 <= n -> X <> [] -> Forall good_row X -> all_fit (map serialize_row X) -> zlen X <= 2147483647 ->
  (forall row values before, In row X -> holds row values -> zlen before = n -> exists o, func before values (zlen row) = Ret o /\ zlen o = n) ->
  exists m, predict_proba func n X = Ret m.
Proof.
  intros N0 NX G AF ZX H. unfold predict_proba. rewrite (proj2 (check_array_ok X)) by auto. cbn [bind].
  assert (PR : exists t, proba_program func n (serialize X) = Ret t).
  { unfold proba_program. rewrite read_csv_ok by assumption. cbn [bind].
    match goal with |- exists t, bind ?m _ = _ => assert (exists t, m = Ret t) as [[t o] ->]; [|exists t; reflexivity] end.
    assert (LZ : zlen (repeat (fzero : f32) (Z.to_nat n)) = n) by (unfold zlen; rewrite repeat_length; lia).
    match goal with |- exists t, foldM ?F _ _ = _ => enough (Q : forall prev values r acc, zlen prev = n -> exists t, foldM F (acc, prev) (calls_of X values r) = Ret t) by (apply Q; exact LZ) end.
    clear AF ZX NX LZ. induction G as [|row X Gr G IH]; intros prev values r acc LZ; cbn [calls_of foldM]; [eauto|].
    destruct (H row (map Some (map deliver row) ++ skipn (length row) values) prev) as (o & -> & LO); [now left|now apply holds_call|exact LZ|]. cbn [bind].
    match goal with |- context [mapM ?g (zrange n)] => assert (exists ls, mapM g (zrange n) = Ret ls) as [ls ->] end.
    { assert (B : forall c, In c (zrange n) -> 0 <= c < n) by (intros c I; now apply zrange_In in I). revert B. generalize (zrange n). intros cs B.
      induction cs as [|c cs IHc]; cbn [mapM]; [eauto|]. destruct (zget_ok o c) as [p ->]; [specialize (B c (or_introl eq_refl)); lia|]. cbn [bind].
      destruct IHc as [ls ->]; [intros; apply B; now right|]. cbn [bind]. eauto. }
    cbn [bind]. apply IH; [|exact LO]. intros; apply H; [now right|assumption|assumption]. }
  destruct PR as [t PR]. rewrite PR. cbn [bind]. unfold proba_program in PR. rewrite read_csv_ok in PR by assumption. cbn [bind] in PR.
  match type of PR with bind ?m _ = _ => destruct m as [[t' last_]|] eqn:M; [|discriminate] end. cbn [bind] in PR. injection PR as ->.
  destruct (prog_lines _ _ _ _ _ _ _ M) as (outs & trip & CH & -> & T & FO). cbn [app].
  rewrite nonempty_lines_ok.
  2:{ apply Forall_forall. intros l I. apply in_map_iff in I. destruct I as (x & <- & _). apply proba_line_plain. }
  2:{ apply Forall_forall. intros l I. apply in_map_iff in I. destruct I as (x & <- & _). apply proba_line_plain. }
  match goal with |- exists _, bind ?mm _ = _ => assert (R : mm = Ret (map (fun '(r, c, p) => (r, c, backp p)) trip)) end.
  { clear. induction trip as [|[[r c] p] trip IH]; [reflexivity|]. cbn [map mapM]. rewrite proba_line_split. cbn [bind].
    rewrite !int_back. cbn [bind]. rewrite read_backp. cbn [bind]. rewrite IH. reflexivity. }
  rewrite R. cbn [bind].
  change (exists m, foldM (put (zlen X) n) (repeat (repeat None (Z.to_nat n)) (length X)) (map (fun '(r, c, p) => (r, c, backp p)) trip) = Ret m).
  apply puts_run.
  - unfold zlen. now rewrite repeat_length.
  - apply Forall_forall. intros x I. apply repeat_spec in I. subst x. unfold zlen. rewrite repeat_length. lia.
  - intros r c p I. apply in_map_iff in I. destruct I as ([[r' c'] p'] & Q & I). injection Q as -> -> <-. apply T in I.
    destruct I as (v & nn & o & I & B & _). split; [|exact B]. apply in_combine_l in I. apply In_zget in I. destruct I as (i & I).
    pose proof (zget_bound _ _ _ I) as Bi. assert (LL : zlen (calls_of X (repeat None (Z.to_nat EML_CSV_VALUES_LENGTH)) 0) = zlen X) by (unfold zlen; now rewrite calls_of_length).
    assert (Bi' : 0 <= i < zlen X) by (rewrite <- LL; exact Bi). destruct (zget_ok X i Bi') as [row GX]. destruct (calls_of_get _ (repeat None (Z.to_nat EML_CSV_VALUES_LENGTH)) 0 _ _ GX) as (vals & E & _).
    assert (Er : Ret (v, nn, r) = Ret (vals, zlen row, 0 + i)) by (rewrite <- I; exact E). injection Er as _ _ ->. lia.
Qed.

(** ** How close the delivered values are *)
Lemma key_fin_eq {prec emax} (w : binary_float prec emax) r : is_nan w = false -> (Rabs r < bpow radix2 emax)%R -> key w = r -> is_finite w = true /\ B2R w = r.
Proof.
  intros N L K. apply Rabs_def2 in L. destruct w as [s|s| |s m e B]; try discriminate; try (split; [reflexivity|exact K]).
  exfalso. cbn [key] in K. destruct s; lra.
Qed.
Lemma through_exact {prec emax} {Hp : Prec_gt_0 prec} {Hm : Prec_lt_emax prec emax} k z (x w : binary_float prec emax) :
  0 <= k -> is_finite x = true -> (B2R x * IZR (10 ^ k) = IZR z)%R -> through_decimals k (B2R x) w -> is_finite w = true /\ B2R w = B2R x.
Proof.
  intros Hk F E (d & D & N & K). assert (P10 : 0 < 10 ^ k) by (apply Z.pow_pos_nonneg; lia).
  rewrite E in D. rewrite <- minus_IZR, <- abs_IZR in D.
  assert (d = z) as ->. { assert (Z.abs (z - d) < 1); [|lia]. apply lt_IZR. lra. }
  rewrite <- E in K. replace (B2R x * IZR (10 ^ k) / IZR (10 ^ k))%R with (B2R x) in K by (field; apply IZR_neq; lia).
  rewrite round_generic in K by (try apply generic_format_B2R; auto with typeclass_instances).
  pose proof (abs_B2R_lt_emax _ _ x) as L. rewrite clampR_in in K by lra. exact (key_fin_eq w _ N L K).
Qed.
Lemma through_close (v : R) (w : f32) : (Rabs v <= bpow radix2 126)%R -> through_decimals 8 v w ->
  is_finite w = true /\ (Rabs (B2R w - v) <= 6 / 1000000000 + Rabs v / 16777216)%R.
Proof.
  intros L (d & D & N & K). change (IZR (10 ^ 8)) with 100000000%R in *. set (x := (IZR d / 100000000)%R) in *.
  assert (X : (Rabs (x - v) <= 5 / 1000000000)%R).
  { replace (x - v)%R with (- (v * 100000000 - IZR d) / 100000000)%R by (unfold x; field).
    unfold Rdiv. rewrite Rabs_mult, Rabs_Ropp, (Rabs_pos_eq (/ 100000000)) by lra. lra. }
  destruct (@error_N_FLT radix2 (SpecFloat.emin 24 128) 24 eq_refl (fun x => negb (Z.even x)) x) as (eps & eta & E1 & E2 & _ & E).
  change (round radix2 (FLT_exp (SpecFloat.emin 24 128) 24) (Znearest (fun x => negb (Z.even x))) x)
    with (round radix2 (SpecFloat.fexp 24 128) ZnearestE x) in E.
  assert (Hs : (bpow radix2 (SpecFloat.emin 24 128) <= / 1073741824)%R)
    by (change (/ 1073741824)%R with (bpow radix2 (-30)); apply bpow_le; vm_compute; discriminate).
  assert (Hsm : (bpow radix2 (SpecFloat.emin 24 128) <= bpow radix2 (-60))%R) by (apply bpow_le; vm_compute; discriminate).
  change (bpow radix2 (-60)) with (/ 1152921504606846976)%R in Hsm.
  assert (E1q : (bpow radix2 (Z.opp 24 + 1) = / 8388608)%R) by reflexivity. rewrite E1q in E1.
  set (r := round radix2 (SpecFloat.fexp 24 128) ZnearestE x) in *.
  assert (XB : (Rabs x <= Rabs v + 5 / 1000000000)%R).
  { replace x with (x - v + v)%R by ring. eapply Rle_trans; [apply Rabs_triang|]. lra. }
  assert (T : (Rabs (x * eps) <= (Rabs v + 5 / 1000000000) * / 16777216)%R).
  { rewrite Rabs_mult. apply Rmult_le_compat; try apply Rabs_pos; lra. }
  assert (DV : (Rabs (r - v) <= 6 / 1000000000 + Rabs v / 16777216)%R).
  { rewrite E. replace (x * (1 + eps) + eta - v)%R with ((x - v) + (x * eps + eta))%R by ring.
    eapply Rle_trans; [apply Rabs_triang|]. pose proof (Rabs_triang (x * eps) eta). lra. }
  assert (LR : (Rabs r < bpow radix2 128)%R).
  { replace r with (r - v + v)%R by ring. eapply Rle_lt_trans; [apply Rabs_triang|].
    assert (bpow radix2 128 = 4 * bpow radix2 126)%R as -> by (change 4%R with (bpow radix2 2); rewrite <- bpow_plus; reflexivity).
    assert (1 <= bpow radix2 126)%R by (change 1%R with (bpow radix2 0); apply bpow_le; lia). pose proof (Rabs_pos v). lra. }
  rewrite clampR_in in K by lra. destruct (key_fin_eq w r N LR K) as [F V]. split; [exact F|]. rewrite V. exact DV.
Qed.
