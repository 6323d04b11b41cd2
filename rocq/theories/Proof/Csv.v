(** Proofs about the CSV reader and writer. *)
From Coq Require Import ZArith List Bool Lia.
From Verif.Base Require Import Res CInt ListX Loops.
From Verif.Model Require Import Common Csv.
From Verif.Spec Require Import CsvTextSpec.
From Verif.Proof Require Import Mem.
Import ListNotations.
Open Scope Z_scope.
Open Scope res_scope.

Definition terminated (T : list (list Z)) : list Z := concat (map (fun f => f ++ [0]) T).
Fixpoint offsets (o : Z) (T : list (list Z)) : list Z :=
  match T with [] => [] | f :: T' => o :: offsets (o + zlen f + 1) T' end.

Lemma offsets_len o T : zlen (offsets o T) = zlen T.
Proof. revert o; induction T as [|f T IH]; intros o; [reflexivity|]. simpl. rewrite !zlen_cons, IH. auto. Qed.

Lemma zget_mid {A} (pre : list A) c post : zget (pre ++ c :: post) (zlen pre) = Ret c.
Proof. apply zget_Ret. split; [apply zlen_nonneg|]. unfold zlen. rewrite Nat2Z.id, nth_error_app2, Nat.sub_diag; auto. Qed.
Lemma zset_mid {A} (pre : list A) c post v : zset (pre ++ c :: post) (zlen pre) v = Ret (pre ++ v :: post).
Proof.
  rewrite zset_ok.
  - unfold zlen. rewrite Nat2Z.id. f_equal. apply list_set_split.
  - rewrite zlen_app, zlen_cons. pose proof (zlen_nonneg pre). pose proof (zlen_nonneg post). lia.
Qed.

Lemma until_nul_app f rest : until_nul (f ++ 0 :: rest) = until_nul f.
Proof. induction f as [|c f IH]; simpl; auto. destruct (c =? NUL); auto. now rewrite IH. Qed.
Lemma until_nul_plain f : plain f -> until_nul f = f.
Proof. induction 1 as [|c f (_ & _ & N) H IH]; simpl; auto. destruct (Z.eqb_spec c NUL); [contradiction|]. now rewrite IH. Qed.

Lemma skipn_zlen {A} (pre l : list A) : skipn (Z.to_nat (zlen pre)) (pre ++ l) = l.
Proof. unfold zlen. rewrite Nat2Z.id. induction pre; simpl; auto. Qed.

Lemma strings_terminated pre T tail :
  map (c_string (pre ++ terminated T ++ tail)) (offsets (zlen pre) T) = map until_nul T.
Proof.
  revert pre. induction T as [|f T IH]; intros pre; [reflexivity|]. simpl.
  unfold terminated. simpl. fold (terminated T). f_equal.
  - unfold c_string. rewrite skipn_zlen. rewrite <- !app_assoc. apply (until_nul_app f (terminated T ++ tail)).
  - specialize (IH (pre ++ f ++ [0])). rewrite !zlen_app in IH. change (zlen [0]) with 1 in IH.
    rewrite Z.add_assoc in IH. rewrite <- IH. apply map_ext. intros o. unfold terminated.
    now rewrite <- !app_assoc.
Qed.

(** One pass over a text: what the reader stores. *)
Theorem scan_spec chunk : forall pre f post acc cl,
  zlen pre + zlen f + zlen chunk < 2 ^ 31 ->
  let T := closed_fields f chunk in
  (exists s, scan_loop (length chunk) cl
       (mk_scan (pre ++ f ++ chunk ++ post) acc (zlen pre) (zlen pre + zlen f)) = Ret (TooMany s) /\
     cl <= zlen acc + zlen T /\ (In newline chunk -> cl < zlen acc + zlen T)) \/
  (exists s tail, scan_loop (length chunk) cl
       (mk_scan (pre ++ f ++ chunk ++ post) acc (zlen pre) (zlen pre + zlen f)) = Ret (Scanned s) /\
     sc_buffer s = pre ++ terminated T ++ tail /\
     sc_columns s = acc ++ offsets (zlen pre) T /\
     sc_offset s = zlen pre + zlen f + line_length chunk /\
     (T <> [] -> zlen acc + zlen T <= cl)).
Proof.
  induction chunk as [|c chunk IH]; intros pre f post acc cl Hs; cbv zeta.
  - right. eexists. exists (f ++ post). split; [reflexivity|]. cbn [closed_fields sc_buffer sc_columns sc_offset].
    unfold terminated. simpl. split; [auto|]. split; [now rewrite app_nil_r|]. split; [lia|]. congruence.
  - assert (Zc : zlen (c :: chunk) = 1 + zlen chunk) by apply zlen_cons. rewrite Zc in Hs.
    pose proof (zlen_nonneg chunk) as P1. pose proof (zlen_nonneg pre) as P2. pose proof (zlen_nonneg f) as P3.
    pose proof (zlen_nonneg acc) as P4.
    cbn [length scan_loop sc_columns sc_offset sc_buffer sc_start].
    destruct (Z.leb_spec cl (zlen acc)) as [L|L].
    + left. eexists. split; [reflexivity|]. split.
      * pose proof (zlen_nonneg (closed_fields f (c :: chunk))). lia.
      * intros Hin. assert (1 <= zlen (closed_fields f (c :: chunk))); [|lia].
        clear - Hin. revert f Hin. generalize (c :: chunk). intros l. induction l as [|x l IH]; intros f Hin; [contradiction|].
        simpl. destruct (Z.eqb_spec x newline); [unfold zlen; simpl; lia|].
        destruct (Z.eqb_spec x comma); [rewrite zlen_cons; pose proof (zlen_nonneg (closed_fields [] l)); lia|].
        destruct Hin as [->|Hin]; [congruence|]. auto.
    + replace (zlen pre + zlen f) with (zlen (pre ++ f)) by apply zlen_app.
      replace (pre ++ f ++ (c :: chunk) ++ post) with ((pre ++ f) ++ c :: chunk ++ post) by (now rewrite <- app_assoc).
      rewrite zget_mid. cbn [bind]. change (2 ^ 31) with 2147483648 in *.
      rewrite chk_int32_ok by (unfold int32_ok; rewrite zlen_app; lia). cbn [bind].
      rewrite zset_mid. cbn [bind closed_fields line_length].
      change comma with DELIM. change newline with EOL in *.
      destruct (Z.eqb_spec c DELIM) as [D|D].
      * subst c. change (DELIM =? EOL) with false. cbv iota.
        specialize (IH (pre ++ f ++ [NUL]) [] post (acc ++ [zlen pre]) cl).
        assert (E1 : zlen (pre ++ f ++ [NUL]) = zlen (pre ++ f) + 1).
        { rewrite !zlen_app. change (zlen [NUL]) with 1. lia. }
        assert (E2 : zlen (acc ++ [zlen pre]) = zlen acc + 1) by (rewrite zlen_app; reflexivity).
        rewrite E1, E2 in IH. change (zlen (@nil Z)) with 0 in IH. rewrite Z.add_0_r in IH.
        replace ((pre ++ f ++ [NUL]) ++ [] ++ chunk ++ post) with ((pre ++ f) ++ NUL :: chunk ++ post) in IH
          by (now rewrite <- !app_assoc).
        rewrite zlen_cons.
        destruct IH as [(s & E & C1 & C2)|(s & tail & E & B1 & B2 & B3 & B4)].
        -- rewrite zlen_app. lia.
        -- left. exists s. split; [exact E|]. split; [lia|]. intros [Hi|Hi]; [discriminate|]. specialize (C2 Hi). lia.
        -- right. exists s, tail. split; [exact E|]. split; [|split; [|split]].
           ++ rewrite B1. unfold terminated. simpl. now rewrite <- !app_assoc.
           ++ rewrite B2. simpl. rewrite <- app_assoc. rewrite zlen_app. reflexivity.
           ++ rewrite B3. lia.
           ++ intros _. destruct (closed_fields [] chunk) as [|x T] eqn:ET; [unfold zlen at 2; simpl; lia|].
              specialize (B4 ltac:(discriminate)). lia.
      * destruct (Z.eqb_spec c EOL) as [N|N].
        -- right. eexists. exists (chunk ++ post). split; [reflexivity|]. cbn [sc_buffer sc_columns sc_offset].
           unfold terminated. simpl. split; [|split; [|split]].
           ++ rewrite app_nil_r, <- !app_assoc. reflexivity.
           ++ reflexivity.
           ++ lia.
           ++ intros _. unfold zlen at 2. simpl. lia.
        -- specialize (IH pre (f ++ [c]) post acc cl).
           assert (E1 : zlen (f ++ [c]) = zlen f + 1) by (rewrite zlen_app; reflexivity).
           rewrite E1 in IH. rewrite zlen_app.
           replace (pre ++ (f ++ [c]) ++ chunk ++ post) with ((pre ++ f) ++ c :: chunk ++ post) in IH
             by (now rewrite <- !app_assoc).
           replace (zlen pre + (zlen f + 1)) with (zlen pre + zlen f + 1) in IH by lia.
           destruct IH as [(s & E & C1 & C2)|(s & tail & E & B1 & B2 & B3 & B4)].
           ++ lia.
           ++ left. exists s. split; [exact E|]. split; [exact C1|]. intros [Hi|Hi]; [congruence|]. auto.
           ++ right. exists s, tail. split; [exact E|]. split; [exact B1|]. split; [exact B2|]. split; [lia|exact B4].
Qed.

(** ** A chunk that starts with a whole line *)
Lemma closed_text f x rest : Forall (fun c => c <> comma /\ c <> newline) f ->
  closed_fields x (f ++ comma :: rest) = (x ++ f) :: closed_fields [] rest /\
  closed_fields x (f ++ newline :: rest) = [x ++ f] /\
  line_length (f ++ newline :: rest) = zlen f /\
  line_length (f ++ comma :: rest) = zlen f + 1 + line_length rest.
Proof.
  intros H. revert x. induction H as [|c f [N1 N2] H IH]; intros x.
  - simpl. rewrite app_nil_r. unfold zlen. simpl. auto.
  - simpl. destruct (Z.eqb_spec c newline); [contradiction|]. destruct (Z.eqb_spec c comma); [contradiction|].
    destruct (IH (x ++ [c])) as (A & B & C & D). rewrite A, B, C, D, zlen_cons, <- !app_assoc.
    split; [reflexivity|]. split; [reflexivity|]. split; lia.
Qed.
Lemma plain_text f : plain f -> Forall (fun c => c <> comma /\ c <> newline) f.
Proof. apply Forall_impl. intuition. Qed.

Lemma closed_line fs rest : fs <> [] -> Forall plain fs ->
  closed_fields [] (line fs ++ rest) = fs /\ line_length (line fs ++ rest) = zlen (join fs).
Proof.
  unfold line. induction fs as [|f fs IH]; [congruence|]. intros _ H. inversion H as [|? ? Hf Hfs]; subst.
  destruct fs as [|g fs].
  - simpl. rewrite <- app_assoc. simpl.
    destruct (closed_text f [] rest (plain_text f Hf)) as (_ & B & C & _). auto.
  - change (join (f :: g :: fs)) with (f ++ comma :: join (g :: fs)).
    rewrite <- !app_assoc. simpl app.
    destruct (closed_text f [] ((join (g :: fs) ++ [newline]) ++ rest) (plain_text f Hf)) as (A & _ & _ & D).
    rewrite <- app_assoc in A, D. simpl app in A, D.
    destruct IH as [I1 I2]; [discriminate|auto|]. rewrite <- app_assoc in I1, I2. simpl app in I1, I2.
    rewrite A, D, I1, I2. rewrite zlen_app, zlen_cons. change (join (g :: fs)) with (match fs with [] => g | _ :: _ => g ++ comma :: join fs end). split; [reflexivity|lia].
Qed.

Lemma in_line fs rest : In newline (line fs ++ rest).
Proof. unfold line. apply in_or_app; left. apply in_or_app; right. left; auto. Qed.

Lemma map_until_nul fs : Forall plain fs -> map until_nul fs = fs.
Proof. induction 1; simpl; auto. rewrite until_nul_plain by auto. now f_equal. Qed.

(** Reading a chunk whose first line holds [fs]. *)
Lemma firstn_line fs (rest : list Z) bl : zlen (line fs) <= bl ->
  firstn (Z.to_nat bl) (line fs ++ rest) = line fs ++ firstn (Z.to_nat bl - length (line fs)) rest.
Proof. intros H. rewrite firstn_app. f_equal. apply firstn_all2. unfold zlen in H. lia. Qed.

Theorem read_internal_line pre fs rest n loc buffer bl cl :
  fs <> [] -> Forall plain fs -> zlen (line fs) <= bl < 2 ^ 31 -> bl <= zlen buffer -> zlen fs <= cl ->
  exists pos' buf cols,
    read_internal (mk_reader n loc (pre ++ line fs ++ rest) (zlen pre)) buffer bl cl
    = Ret (EmlOk, mk_reader n loc (pre ++ line fs ++ rest) pos', buf, cols, zlen fs, zlen (join fs)) /\
    map (c_string buf) cols = fs.
Proof.
  intros Hne Hp Hb Hbuf Hc. unfold read_internal, stream_read. cbn [cr_pos cr_stream cr_n_columns cr_location].
  rewrite skipn_zlen. rewrite firstn_line by lia.
  set (chunk := line fs ++ firstn (Z.to_nat bl - length (line fs)) rest).
  assert (Lc : zlen chunk <= bl).
  { unfold chunk. rewrite <- firstn_line by lia. unfold zlen in *. rewrite firstn_length. lia. }
  destruct (Z.ltb_spec (zlen buffer) (zlen chunk)); [lia|]. cbn [bind].
  destruct (closed_line fs (firstn (Z.to_nat bl - length (line fs)) rest) Hne Hp) as [CL LL]. fold chunk in CL, LL.
  replace (Z.to_nat (zlen chunk)) with (length chunk) by (unfold zlen; lia).
  pose proof (scan_spec chunk [] [] (skipn (length chunk) buffer) [] cl) as S. cbv zeta in S.
  rewrite CL in S. change (zlen (@nil Z)) with 0 in S. cbn [app] in S.
  assert (Pf : 0 < zlen fs) by (destruct fs; [congruence|rewrite zlen_cons; pose proof (zlen_nonneg fs); lia]).
  destruct S as [(s & E & C1 & C2)|(s & tail & E & B1 & B2 & B3 & B4)]; [clear - Lc Hb; lia| |].
  - exfalso. specialize (C2 (in_line fs _)). lia.
  - rewrite Z.add_0_r in E. rewrite E. cbn [bind].
    cbn [app] in B2. rewrite B2, B3, LL, offsets_len, B1.
    do 3 eexists. split; [reflexivity|].
    pose proof (strings_terminated [] fs tail) as X. cbn [app] in X. change (zlen (@nil Z)) with 0 in X.
    rewrite X. apply map_until_nul; auto.
Qed.

(** ** The reader over a written file *)
Theorem read_header_ok header rows n loc buffer bl cl :
  header <> [] -> Forall plain header -> zlen (line header) <= bl < 2 ^ 31 -> bl <= zlen buffer -> zlen header <= cl ->
  exists buf cols,
    eml_csv_reader_read_header (mk_reader n loc (csv_text header rows) 0) buffer bl cl
    = Ret (EmlOk, mk_reader (zlen header) (zlen (line header)) (csv_text header rows) (zlen (line header)), buf, cols) /\
    map (c_string buf) cols = header.
Proof.
  intros Hne Hp Hb Hbuf Hc. unfold eml_csv_reader_read_header.
  destruct (read_internal_line [] header (concat (map line rows)) n loc buffer bl cl Hne Hp Hb Hbuf Hc) as (pos' & buf & cols & E & M).
  cbn [app] in E. change (zlen (@nil Z)) with 0 in E. fold (csv_text header rows) in E. rewrite E. cbn [bind].
  unfold stream_seek. cbn [cr_stream cr_pos cr_n_columns cr_location].
  assert (EL : zlen (line header) = zlen (join header) + 1) by (unfold line; rewrite zlen_app; reflexivity).
  rewrite EL. exists buf, cols. auto.
Qed.

Theorem read_data_ok pre fs rest buffer bl cl :
  fs <> [] -> join fs <> [] -> Forall plain fs -> zlen (line fs) <= bl < 2 ^ 31 -> bl <= zlen buffer -> zlen fs <= cl ->
  exists buf cols,
    eml_csv_reader_read_data (mk_reader (zlen fs) (zlen pre) (pre ++ line fs ++ rest) (zlen pre)) buffer bl cl
    = Ret (zlen fs, mk_reader (zlen fs) (zlen pre + zlen (line fs)) (pre ++ line fs ++ rest) (zlen pre + zlen (line fs)),
           buf, cols) /\
    map (c_string buf) cols = fs.
Proof.
  intros Hne Hj Hp Hb Hbuf Hc. unfold eml_csv_reader_read_data. cbn [cr_n_columns].
  destruct (Z.leb_spec (zlen fs) cl); [|lia]. cbn [negb].
  destruct (read_internal_line pre fs rest (zlen fs) (zlen pre) buffer bl cl Hne Hp Hb Hbuf Hc) as (pos' & buf & cols & E & M).
  rewrite E. cbn [bind]. cbn [cr_n_columns].
  assert (0 < zlen (join fs)) by (destruct (join fs); [congruence|unfold zlen; simpl; lia]).
  destruct (Z.eqb_spec (zlen (join fs)) 0); [lia|]. rewrite Z.eqb_refl. cbn [negb].
  unfold stream_seek. cbn [cr_stream cr_pos cr_n_columns cr_location].
  assert (EL : zlen (line fs) = zlen (join fs) + 1) by (unfold line; rewrite zlen_app; reflexivity).
  rewrite EL, Z.add_assoc. exists buf, cols. auto.
Qed.

Theorem read_data_eof text n buffer bl cl :
  0 <= n <= cl ->
  exists r', eml_csv_reader_read_data (mk_reader n (zlen text) text (zlen text)) buffer bl cl = Ret (0, r', buffer, []).
Proof.
  intros Hn. unfold eml_csv_reader_read_data. cbn [cr_n_columns].
  destruct (Z.leb_spec n cl); [|lia]. cbn [negb].
  unfold read_internal, stream_read. cbn [cr_pos cr_stream cr_n_columns cr_location].
  replace (skipn (Z.to_nat (zlen text)) text) with (@nil Z) by (symmetry; apply skipn_all2; unfold zlen; lia).
  rewrite firstn_nil. change (zlen (@nil Z)) with 0.
  destruct (Z.ltb_spec (zlen buffer) 0); [pose proof (zlen_nonneg buffer); lia|].
  cbn. eexists. reflexivity.
Qed.

(** ** Writing *)
Lemma join_snoc_step pre f : pre <> [] -> join (pre ++ [f]) = join pre ++ comma :: f.
Proof.
  induction pre as [|g pre IH]; [congruence|]. intros _. destruct pre as [|h pre]; [reflexivity|].
  change (join ((g :: h :: pre) ++ [f])) with (g ++ comma :: join ((h :: pre) ++ [f])).
  rewrite IH by discriminate. change (join (g :: h :: pre)) with (g ++ comma :: join (h :: pre)).
  now rewrite <- !app_assoc.
Qed.
(** The text after writing the first k of n fields. *)
Definition written (fs : list (list Z)) (k : nat) : list Z :=
  join (firstn k fs) ++ (if (0 <? k)%nat && (k <? length fs)%nat then [comma] else []).
Lemma written_step fs k f : nth_error fs k = Some f ->
  written fs (S k) = written fs k ++ (if (S k =? length fs)%nat then f else f ++ [comma]).
Proof.
  intros E. assert (Hk : (k < length fs)%nat) by (apply nth_error_Some; congruence).
  assert (F : firstn (S k) fs = firstn k fs ++ [f]).
  { clear Hk. revert fs E; induction k as [|k IH]; intros [|x l] E; simpl in *; try discriminate; [congruence|]. f_equal; auto. }
  unfold written. rewrite F. destruct k as [|k].
  - simpl. destruct (length fs) as [|[|m]]; simpl; [lia| |]; rewrite ?app_nil_r; auto.
  - rewrite join_snoc_step.
    2:{ destruct fs; simpl in *; [lia|discriminate]. }
    replace ((0 <? S k)%nat && (S k <? length fs)%nat) with true
      by (symmetry; apply andb_true_iff; split; apply Nat.ltb_lt; lia).
    rewrite <- !app_assoc. destruct (Nat.eqb_spec (S (S k)) (length fs)).
    + replace (S (S k) <? length fs)%nat with false by (symmetry; apply Nat.ltb_ge; lia). rewrite andb_false_r, app_nil_r. reflexivity.
    + replace (S (S k) <? length fs)%nat with true by (symmetry; apply Nat.ltb_lt; lia). reflexivity.
Qed.
Lemma written_all fs : written fs (length fs) = join fs.
Proof. unfold written. rewrite firstn_all, Nat.ltb_irrefl, andb_false_r, app_nil_r. auto. Qed.

Theorem write_header_ok stream names : zlen names < 2 ^ 31 ->
  eml_csv_writer_write_header stream names (zlen names) = Ret (EmlOk, zlen names, stream ++ line names).
Proof.
  intros H. unfold eml_csv_writer_write_header. cbv zeta. pose proof (zlen_nonneg names) as P.
  rewrite to_int32_id by (unfold int32_ok; change (2 ^ 31) with 2147483648 in *; lia).
  match goal with |- context [foldM ?f _ _] => set (step := f) end.
  destruct (foldM_range_inv step (fun k s => s = stream ++ written names (Z.to_nat k)) (zlen names) stream) as (s & E & Es).
  - exact P.
  - unfold written. simpl. now rewrite app_nil_r.
  - intros k s Hk ->. destruct (zget_ok names k Hk) as [f Ef]. unfold step. rewrite Ef. cbn [bind].
    eexists. split; [reflexivity|]. apply zget_Ret in Ef as [_ Ef].
    replace (Z.to_nat (k + 1)) with (S (Z.to_nat k)) by lia. rewrite (written_step names _ f Ef).
    destruct (Z.eqb_spec k (zlen names - 1)), (Nat.eqb_spec (S (Z.to_nat k)) (length names)); unfold zlen in *; try lia;
      now rewrite <- !app_assoc.
  - rewrite E. cbn [bind]. subst s. unfold zlen. rewrite Nat2Z.id, written_all. unfold line. now rewrite <- app_assoc.
Qed.

Section WriteData.
Context {F : Type}.
Variable fmt : F -> list Z.
Theorem write_data_ok n stream row : zlen row = n -> Forall (fun x => zlen (fmt x) < 20) row ->
  eml_csv_writer_write_data fmt n stream row (zlen row) = Ret (EmlOk, stream ++ line (map fmt row)).
Proof.
  intros Hn H. unfold eml_csv_writer_write_data. rewrite Hn, Z.eqb_refl. cbn [negb].
  match goal with |- context [foldM ?f _ _] => set (step := f) end.
  destruct (foldM_range_inv step (fun k st => st = (EmlOk, stream ++ written (map fmt row) (Z.to_nat k))) n (EmlOk, stream)) as (st & E & Es).
  - rewrite <- Hn. apply zlen_nonneg.
  - unfold written. simpl. now rewrite app_nil_r.
  - intros k st Hk ->. rewrite <- Hn in Hk. destruct (zget_ok row k Hk) as [x Ex]. unfold step. rewrite Ex. cbn [bind].
    assert (Sx : zlen (fmt x) < 20) by (rewrite Forall_forall in H; apply H; eapply zget_In; eauto).
    change EML_CSV_FLOAT_MAXSIZE with 20. destruct (Z.leb_spec 20 (zlen (fmt x))); [lia|].
    eexists. split; [reflexivity|]. apply zget_Ret in Ex as [_ Ex].
    replace (Z.to_nat (k + 1)) with (S (Z.to_nat k)) by lia.
    rewrite (written_step (map fmt row) _ (fmt x)) by (rewrite nth_error_map, Ex; reflexivity).
    rewrite map_length.
    destruct (Z.eqb_spec k (n - 1)), (Nat.eqb_spec (S (Z.to_nat k)) (length row)); unfold zlen in *; try lia;
      now rewrite <- !app_assoc.
  - rewrite E. cbn [bind]. subst st. cbv iota.
    replace (Z.to_nat n) with (length (map fmt row)) by (rewrite map_length; unfold zlen in Hn; lia).
    rewrite written_all. unfold line. now rewrite <- app_assoc.
Qed.

(** A value whose text does not fit leaves the earlier fields of its row in the stream. *)
Theorem write_data_too_long n stream row k x : zlen row = n -> zget row k = Ret x -> 20 <= zlen (fmt x) ->
  (forall j y, j < k -> zget row j = Ret y -> zlen (fmt y) < 20) ->
  eml_csv_writer_write_data fmt n stream row (zlen row)
  = Ret (EmlUnsupported, stream ++ concat (map (fun y => fmt y ++ [comma]) (firstn (Z.to_nat k) row))).
Proof.
  intros Hn Ex Hx Hprev. unfold eml_csv_writer_write_data. rewrite Hn, Z.eqb_refl. cbn [negb].
  pose proof (zget_bound _ _ _ Ex) as Bk.
  match goal with |- context [foldM ?f _ _] => set (step := f) end.
  destruct (foldM_range_inv step (fun i st => st =
      if i <=? k then (EmlOk, stream ++ concat (map (fun y => fmt y ++ [comma]) (firstn (Z.to_nat i) row)))
      else (EmlUnsupported, stream ++ concat (map (fun y => fmt y ++ [comma]) (firstn (Z.to_nat k) row)))) n (EmlOk, stream)) as (st & E & Es).
  - lia.
  - destruct (Z.leb_spec 0 k); [|lia]. simpl. now rewrite app_nil_r.
  - intros i st Hi ->. destruct (Z.leb_spec i k) as [L|L].
    + rewrite <- Hn in Hi. destruct (zget_ok row i Hi) as [y Ey]. unfold step. rewrite Ey. cbn [bind].
      change EML_CSV_FLOAT_MAXSIZE with 20.
      destruct (Z.leb_spec 20 (zlen (fmt y))) as [B|B].
      * assert (i = k). { destruct (Z.lt_ge_cases i k); [|lia]. specialize (Hprev i y ltac:(lia) Ey). lia. }
        subst i. eexists. split; [reflexivity|]. destruct (Z.leb_spec (k + 1) k); [lia|auto].
      * assert (i <> k). { intros ->. rewrite Ex in Ey. inversion Ey; subst. lia. }
        destruct (Z.leb_spec (i + 1) k); [|lia]. eexists. split; [reflexivity|].
        destruct (Z.eqb_spec i (n - 1)); [lia|].
        replace (Z.to_nat (i + 1)) with (S (Z.to_nat i)) by lia.
        apply zget_Ret in Ey as [_ Ey].
        assert (F1 : firstn (S (Z.to_nat i)) row = firstn (Z.to_nat i) row ++ [y]).
        { clear - Ey. revert Ey. generalize (Z.to_nat i). intros m. revert row.
          induction m as [|m IH]; intros [|z l] E; simpl in *; try discriminate; [congruence|]. f_equal; auto. }
        rewrite F1, map_app, concat_app. simpl. rewrite app_nil_r, <- !app_assoc. reflexivity.
    + eexists. split; [reflexivity|]. destruct (Z.leb_spec (i + 1) k); [lia|auto].
  - rewrite E. cbn [bind]. destruct (Z.leb_spec n k); [lia|]. subst st. reflexivity.
Qed.
End WriteData.

From Verif.Spec Require Import CsvSession.

Theorem write_file_ok {F} (fmt : F -> list Z) names rows : zlen names < 2 ^ 31 ->
  Forall (fun row => zlen row = zlen names /\ Forall (fun x => zlen (fmt x) < 20) row) rows ->
  write_file fmt names rows = Ret (Some (csv_text names (map (map fmt) rows))).
Proof.
  intros Hn H. unfold write_file. rewrite write_header_ok by auto. cbn [bind app]. unfold csv_text.
  match goal with |- context [foldM ?f _ _] => set (step := f) end.
  revert H. generalize (line names). induction rows as [|row rows IH]; intros s H.
  - simpl. now rewrite app_nil_r.
  - inversion H as [|? ? [L1 L2] Hr]; subst. cbn [foldM]. unfold step at 1.
    rewrite write_data_ok by auto. cbn [bind]. rewrite IH by auto. simpl. now rewrite <- app_assoc.
Qed.

Lemma read_session_ok n rows : forall pre calls,
  Forall (fun row => zlen row = n /\ row <> [] /\ join row <> [] /\ Forall plain row) rows ->
  length calls = S (length rows) ->
  Forall (fun c => n <= snd c /\ zlen (fst c) < 2 ^ 31 /\ Forall (fun row => zlen (line row) <= zlen (fst c)) rows) calls ->
  0 <= n ->
  read_session (mk_reader n (zlen pre) (pre ++ concat (map line rows)) (zlen pre)) calls
  = Ret (map (fun row => (n, row)) rows ++ [(0, [])]).
Proof.
  induction rows as [|row rows IH]; intros pre calls H L C Hn0.
  - destruct calls as [|[b cl] [|? ?]]; simpl in L; try lia. inversion C as [|? ? (C1 & C2 & _) _]; subst. cbn [fst snd] in *.
    cbn [concat map]. rewrite app_nil_r. cbn [read_session].
    destruct (read_data_eof pre n b (zlen b) cl) as [r' E]; [lia|]. rewrite E. reflexivity.
  - destruct calls as [|[b cl] calls]; simpl in L; [lia|]. inversion C as [|? ? (C1 & C2 & C3) C4]; subst. cbn [fst snd] in *.
    inversion H as [|? ? (L1 & L2 & L3 & L4) Hr]; subst. inversion C3; subst.
    cbn [map concat read_session].
    destruct (read_data_ok pre row (concat (map line rows)) b (zlen b) cl L2 L3 L4) as (buf & cols & E & M); [lia|lia|lia|].
    rewrite E. cbn [bind].
    specialize (IH (pre ++ line row) calls Hr ltac:(lia)). rewrite zlen_app, <- app_assoc in IH.
    rewrite IH; auto.
    + cbn [bind]. rewrite M. reflexivity.
    + eapply Forall_impl; [|exact C4]. intros c (? & ? & G). split; [auto|]. split; [auto|]. inversion G; auto.
Qed.

(** ** Any text *)
Definition chunk_of (r : csv_reader) (bl : Z) : list Z :=
  firstn (Z.to_nat bl) (skipn (Z.to_nat (cr_pos r)) (cr_stream r)).

Theorem read_data_any r buffer bl cl : 0 <= bl < 2 ^ 31 -> bl <= zlen buffer ->
  1 <= cr_n_columns r <= cl ->
  exists v r' buf cols, eml_csv_reader_read_data r buffer bl cl = Ret (v, r', buf, cols) /\
    let chunk := firstn (Z.to_nat bl) (skipn (Z.to_nat (cr_pos r)) (cr_stream r)) in
    let fields := closed_fields [] chunk in
    (v = 0 \/ v < 0 \/ v = cr_n_columns r) /\
    (v = 0 <-> (chunk = [] \/ exists rest, chunk = newline :: rest)) /\
    (0 < v -> zlen fields = v /\ map (c_string buf) cols = map until_nul fields /\
              cr_location r' = cr_location r + line_length chunk + 1 /\ cr_pos r' = cr_location r' /\
              cr_stream r' = cr_stream r /\ cr_n_columns r' = cr_n_columns r) /\
    (zlen fields = cr_n_columns r -> In newline chunk -> line_length chunk <> 0 -> v = cr_n_columns r).
Proof.
  intros Hb Hbuf Hn. unfold eml_csv_reader_read_data.
  destruct (Z.leb_spec (cr_n_columns r) cl); [|lia]. cbn [negb].
  unfold read_internal, stream_read. cbv zeta.
  set (chunk := firstn (Z.to_nat bl) (skipn (Z.to_nat (cr_pos r)) (cr_stream r))).
  assert (Lc : zlen chunk <= bl) by (unfold chunk, zlen; rewrite firstn_length; lia).
  destruct (Z.ltb_spec (zlen buffer) (zlen chunk)); [lia|]. cbn [bind].
  replace (Z.to_nat (zlen chunk)) with (length chunk) by (unfold zlen; lia).
  pose proof (scan_spec chunk [] [] (skipn (length chunk) buffer) [] cl) as S. cbv zeta in S.
  change (zlen (@nil Z)) with 0 in S. cbn [app] in S. rewrite !Z.add_0_l in S.
  set (T := closed_fields [] chunk) in *.
  assert (NZ : line_length chunk = 0 <-> (chunk = [] \/ exists rest, chunk = newline :: rest)).
  { destruct chunk as [|c l]; simpl.
    - intuition.
    - destruct (Z.eqb_spec c newline) as [->|N].
      + split; eauto.
      + split.
        * intros E. exfalso. assert (forall l, 0 <= line_length l) as P.
          { induction l0 as [|x l0 I]; simpl; [lia|]. destruct (x =? newline); lia. }
          specialize (P l). lia.
        * intros [E|[rest E]]; [discriminate|congruence]. }
  destruct S as [(s & E & C1 & C2)|(s & tail & E & B1 & B2 & B3 & B4)]; [lia| |]; rewrite E; cbn [bind].
  - 
    do 4 eexists. split; [reflexivity|].
    assert (NC : line_length chunk <> 0).
    { intros E0. apply NZ in E0 as [E0|[rest E0]].
      - rewrite E0 in E. cbn in E. congruence.
      - specialize (C2 ltac:(rewrite E0; left; auto)). unfold T in C2. rewrite E0 in C2. cbn in C2.
        unfold zlen in C2. simpl in C2. lia. }
    split; [right; left; vm_compute; reflexivity|]. split; [|split].
    + split; [intros Ev; discriminate Ev|]. intros Q. apply NZ in Q. contradiction.
    + intros Ev. discriminate Ev.
    + intros F1 F2 F3. specialize (C2 F2). lia.
  - rewrite B3, B2, offsets_len. destruct (Z.eqb_spec (line_length chunk) 0) as [Z0|Z0].
    + do 4 eexists. split; [reflexivity|]. split; [auto|]. split; [tauto|]. split; [lia|]. intros _ _ F; congruence.
    + cbn [cr_n_columns]. destruct (Z.eqb_spec (zlen T) (cr_n_columns r)) as [ET|ET]; cbn [negb].
      * do 4 eexists. split; [reflexivity|]. split; [auto|]. split; [split; [lia|tauto]|]. split.
        -- intros _. split; [auto|]. split.
           ++ rewrite B1. pose proof (strings_terminated [] T tail) as X. cbn [app] in X. exact X.
           ++ unfold stream_seek. cbn [cr_location cr_pos cr_stream cr_n_columns]. auto.
        -- auto.
      * do 4 eexists. split; [reflexivity|]. split; [right; left; vm_compute; reflexivity|]. split; [|split].
        -- split; [intros Ev; discriminate Ev|]. tauto.
        -- intros Ev. discriminate Ev.
        -- intros F. congruence.
Qed.
