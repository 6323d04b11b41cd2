(** The text of nearest neighbours models: the struct it initialises is the model. *)
From Coq Require Import String ZArith List Bool Lia.
From Flocq Require Import Core BinarySingleNaN.
From Verif.Base Require Import Res CInt ListX Loops Float.
From Verif.Model Require Import Common Text Cgen TreesConvert TreesC TreesWrapper Neighbors NeighborsRun SaveText.
From Verif.Spec Require Import CTextSpec CgenSpec SaveSpec.
From Verif.Proof Require Import Text Cgen CText SaveInline SaveFile SaveLoad.
Import ListNotations.
Open Scope Z_scope.
Open Scope list_scope.
Open Scope res_scope.

Definition num_field (a : Z) : list tok := tok_lit (fmt_int a).
Definition cast_field (n : text) : list tok := [P 40; W (txt "int16_t"); P 42; P 41; W n].
Definition knn_toks (a b c d : Z) (dn ln : text) : list tok :=
  num_field a ++ P 44 :: num_field b ++ P 44 :: num_field c ++ P 44 :: cast_field dn ++ P 44 :: cast_field ln ++ P 44 :: num_field d.
Lemma fields_cast n r : fields_of (cast_field n ++ P 44 :: r) 0 [] = let? (fs, rest) := fields_of r 0 [] in Some (cast_field n :: fs, rest).
Proof. reflexivity. Qed.
Lemma fields_last t r : litt t -> fields_of (tok_lit t ++ P 125 :: r) 0 [] = Some ([tok_lit t], r).
Proof. intros (neg & v & -> & H). rewrite tok_lit_lit by exact H. destruct neg; reflexivity. Qed.
Lemma bd_cast m r n : bd (cast_field m ++ P 44 :: r) n = bd r n.
Proof. reflexivity. Qed.
Lemma knn_struct_def a b c d dn ln : struct_def (struct_rest (knn_toks a b c d dn ln)) =
  Some [num_field a; num_field b; num_field c; cast_field dn; cast_field ln; num_field d].
Proof.
  unfold struct_def, struct_rest.
  match goal with |- context [expect [ch "="; ch "{"] (P 61 :: P 123 :: ?l)] => change (expect [ch "="; ch "{"] (P 61 :: P 123 :: l)) with (Some l) end. cbv iota beta.
  unfold knn_toks, num_field. repeat rewrite <- app_assoc, <- app_comm_cons.
  do 3 rewrite fields_lit by apply fmt_int_litt. rewrite !fields_cast. rewrite <- ?app_assoc. rewrite fields_last by apply fmt_int_litt. reflexivity.
Qed.
Lemma knn_struct_lex name dn ln a b c d : wordy name -> wordy dn -> wordy ln ->
  is_def (neighbors_model_init name d a b c (txt "(int16_t *)" ++ dn) (txt "(int16_t *)" ++ ln)) [(name, struct_rest (knn_toks a b c d dn ln))].
Proof.
  intros [N1 N2] [A1 A2] [B1 B2]. exists (map W [txt "EmlNeighborsModel"] ++ W name :: struct_rest (knn_toks a b c d dn ln)). split.
  - unfold neighbors_model_init, struct_declare, struct_init. cbn [join_with]. rewrite <- !app_assoc.
    assert (E : forall (x : text) y, txt ", " ++ txt "(int16_t *)" ++ x ++ y = txt ", (int16_t *)" ++ x ++ y) by reflexivity. rewrite !E. clear E.
    assert (E : forall y, txt "= " ++ txt "{ " ++ y = txt "= { " ++ y) by reflexivity. rewrite E. clear E.
    rewrite (app_assoc (txt "EmlNeighborsModel")).
    replace (txt " }" ++ txt ";") with (txt " };") by reflexivity.
    eapply lexw_eq.
    + eapply lexw_app; [lcc|]. eapply lexw_app; [lw|]. eapply lexw_app; [l0|].
      ltn. ltn. ltn. eapply lexw_app; [lw|]. eapply lexw_app; [l0|]. eapply lexw_app; [lw|]. eapply lexw_app; [l0|].
      eapply lexw_lit_then; [apply fmt_int_litt|reflexivity|reflexivity|vm_compute; reflexivity].
    + cbn [app]. rewrite (endw_ne name N1), (endw_ne dn A1), (endw_ne ln B1). cbn [endw app rev map]. unfold struct_rest, knn_toks, cast_field, num_field.
      repeat (progress (cbn [app]) || rewrite <- app_assoc). reflexivity.
    + reflexivity.
  - apply defines_struct. unfold balanced, knn_toks, num_field. rewrite !bd_lit, !bd_cast. apply tok_lit_bd.
Qed.
Lemma ints_consts vs zs : mapM py_int vs = Ret zs -> mapM (fun v => constant no_str v (txt "int16_t")) vs = Ret (map fmt_int zs).
Proof.
  revert zs. induction vs as [|v vs IH]; intros zs E; cbn [mapM] in E; [injection E as <-; reflexivity|].
  apply bind_Ret in E. destruct E as (z & Ez & E). apply bind_Ret in E. destruct E as (zs' & Ezs & E). injection E as <-.
  cbn [mapM map]. rewrite (constant_int_text v z (txt "int16_t") eq_refl Ez). cbn [bind]. rewrite (IH _ Ezs). reflexivity.
Qed.
Lemma int16_array name vs zs : wordy name -> mapM py_int vs = Ret zs ->
  exists t, array_declare no_str name None (txt "int16_t") (txt "static const") (Some vs) [] [] = Ret t /\
    is_def t [(name, arr_rest (tok_lit (fmt_int (zlen zs))) (comma_toks (map fmt_int zs)))].
Proof.
  intros HN E. pose proof (ints_consts _ _ E) as C. assert (L : zlen vs = zlen zs) by (apply mapM_Ret, Forall2_zlen in E; exact E).
  unfold array_declare. rewrite Z.eqb_refl. cbn [py_assert bind]. rewrite C. cbn [bind]. eexists. split; [reflexivity|].
  rewrite L. cbn [app]. rewrite <- !app_assoc.
  rewrite (app_assoc (txt "static const")), (app_assoc (_ ++ txt " ")), (app_assoc (_ ++ txt "int16_t")).
  eapply array_lex with (ws := [txt "static"; txt "const"; txt "int16_t"]); [exact HN|apply zlen_nonneg|apply fmt_ints_litt|lc|reflexivity|now right].
Qed.
Lemma int16_consts vs zs : mapM int16_const vs = Ret zs -> mapM py_int vs = Ret zs /\ map to_int16 zs = zs.
Proof.
  revert zs. induction vs as [|v vs IH]; intros zs E; cbn [mapM] in E; [injection E as <-; split; reflexivity|].
  apply bind_Ret in E. destruct E as (z & Ez & E). apply bind_Ret in E. destruct E as (zs' & Ezs & E). injection E as <-.
  unfold int16_const in Ez. apply bind_Ret in Ez. destruct Ez as (z' & E1 & E2).
  destruct ((-32768 <=? z') && (z' <=? 32767)) eqn:B; [|discriminate]. injection E2 as <-. apply andb_prop in B. rewrite !Z.leb_le in B.
  destruct (IH _ Ezs) as [I1 I2]. cbn [mapM map]. rewrite E1. cbn [bind]. rewrite I1, I2. split; [reflexivity|].
  rewrite to_int16_id; [reflexivity|]. unfold int16_ok, in_signed. cbn. lia.
Qed.
Lemma member_ok lo hi z m : member_const lo hi z = Ret m -> m = z /\ lo <= z <= hi.
Proof.
  unfold member_const. destruct ((lo <=? z) && (z <=? hi)) eqn:B; [|discriminate]. intros E. injection E as <-. apply andb_prop in B. rewrite !Z.leb_le in B. auto.
Qed.
Lemma int16_of z : -32768 <= z <= 32767 -> to_int16 z = z.
Proof. intros B. apply to_int16_id. unfold int16_ok, in_signed. cbn. lia. Qed.

Lemma neighbors_reads data labels n_features k name m : (forall row, hd_error data = Some row -> zlen row = n_features) ->
  assert_valid_identifier name = Ret tt -> identifier name -> c_generate_neighbors data labels k = Ret m ->
  exists t, neighbors_text data n_features labels k name = Ret t /\
    defined_names t = [name ++ txt "_data"; name ++ txt "_labels"; name] /\ NoDup (defined_names t) /\
    load_neighbors t name = Some m.
Proof.
  intros HF HA HI E. unfold c_generate_neighbors in E. destruct data as [|row data]; [discriminate|]. cbn [bind] in E. specialize (HF row eq_refl).
  set (D := row :: data) in *.
  apply bind_Ret in E. destruct E as (ds & Ed & E). apply bind_Ret in E. destruct E as (ls & El & E).
  apply bind_Ret in E. destruct E as (a & Ea & E). apply bind_Ret in E. destruct E as (b & Eb & E). apply bind_Ret in E. destruct E as (c & Ec & E). apply bind_Ret in E. destruct E as (k' & Ek & E). injection E as <-.
  apply member_ok in Ea, Eb, Ec, Ek. destruct Ea as [-> Ba], Eb as [-> Bb], Ec as [-> Bc], Ek as [-> Bk].
  destruct (int16_consts _ _ Ed) as [Pd Td]. destruct (int16_consts _ _ El) as [Pl Tl].
  pose proof (identifier_wordy name HI) as HW. rewrite HF in *.
  destruct (int16_array (name ++ txt "_data") _ _ (wordy_app _ (txt "_data") HW eq_refl) Pd) as (td & Etd & Dd).
  destruct (int16_array (name ++ txt "_labels") _ _ (wordy_app _ (txt "_labels") HW eq_refl) Pl) as (tl & Etl & Dl).
  pose proof (knn_struct_lex name (name ++ txt "_data") (name ++ txt "_labels") n_features (zlen D) (zlen D) k HW (wordy_app _ (txt "_data") HW eq_refl) (wordy_app _ (txt "_labels") HW eq_refl)) as Dm.
  eexists. split.
  { unfold neighbors_text. rewrite HA. cbn [bind]. rewrite Etd. cbn [bind]. rewrite Etl. cbn [bind]. reflexivity. }
  match goal with |- defined_names ?t = _ /\ _ => assert (DT : definitions t =
    [(name ++ txt "_data", arr_rest (tok_lit (fmt_int (zlen ds))) (comma_toks (map fmt_int ds)));
     (name ++ txt "_labels", arr_rest (tok_lit (fmt_int (zlen ls))) (comma_toks (map fmt_int ls)));
     (name, struct_rest (knn_toks n_features (zlen D) (zlen D) k (name ++ txt "_data") (name ++ txt "_labels")))]) end.
  { cbn [join_with]. rewrite (app_assoc (txt "#include <eml_neighbors.h>")).
    apply is_def_definitions, is_def_nil_app; [lc|].
    match goal with |- is_def (td ++ [10] ++ tl ++ [10] ++ ?m) _ => change (is_def (join_with [10] [td; tl; m]) (concat [[
      (name ++ txt "_data", arr_rest (tok_lit (fmt_int (zlen ds))) (comma_toks (map fmt_int ds)))];
     [(name ++ txt "_labels", arr_rest (tok_lit (fmt_int (zlen ls))) (comma_toks (map fmt_int ls)))];
     [(name, struct_rest (knn_toks n_features (zlen D) (zlen D) k (name ++ txt "_data") (name ++ txt "_labels")))]])) end.
    apply join_defs; [lc|]. repeat constructor; assumption. }
  unfold defined_names, load_neighbors, pointed. rewrite DT. cbn [map fst]. split; [reflexivity|]. split.
  { assert (SN : forall x, x <> [] -> name ++ x <> name) by (intros x Hx Q; symmetry in Q; revert Q; now apply self_ne).
    repeat constructor; cbn [In]; intros Q; repeat match type of Q with _ \/ _ => destruct Q as [Q|Q] end; try contradiction;
      first [symmetry in Q; revert Q; apply tail_ne; discriminate | symmetry in Q; revert Q; apply SN; discriminate]. }
  assert (SN : forall x, x <> [] -> name <> name ++ x) by (intros x Hx; now apply self_ne).
  rewrite !(lookup_skip name) by (apply SN; discriminate). rewrite lookup_here. rewrite knn_struct_def. cbv iota beta.
  unfold num_field. rewrite !field_int_lit. cbv iota beta.
  change (field_name (cast_field (name ++ txt "_data"))) with (Some (name ++ txt "_data")). change (field_name (cast_field (name ++ txt "_labels"))) with (Some (name ++ txt "_labels")). cbv iota beta.
  rewrite lookup_here, int_array_rest. cbv iota beta. rewrite (lookup_skip (name ++ txt "_labels")) by (apply tail_ne; discriminate). rewrite lookup_here, int_array_rest. cbv iota beta.
  rewrite Td, Tl, !int16_of by assumption. unfold to_uint16, to_unsigned. rewrite Z.mod_small by (change (2 ^ 16) with 65536; lia). reflexivity.
Qed.
