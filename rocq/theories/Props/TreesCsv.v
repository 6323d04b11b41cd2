(** The text of exported forests: property C16. *)
From Coq Require Import String ZArith List Bool Lia Reals Lra.
From Flocq Require Import Core BinarySingleNaN.
From Verif.Base Require Import Res CInt ListX Float.
From Verif.Model Require Import Common Text Cgen TreesConvert TreesC TreesInline TreesWrapper TreesCsv.
From Verif.Spec Require Import TreesSpec TreesCSpec VoteSpec CsvSpec ClassifierSpec StrSpec TreeTextSpec.
From Verif.Proof Require Import TreesMisc TreeText TreesCsvText Str.
From Verif.Props Require Import Samples Trees.
Import ListNotations.
Open Scope Z_scope.
Open Scope res_scope.

(** The text says exactly the records, and the records are the forest with thresholds of six decimals. *)
Theorem C16_text_partial float_str array_str nf n trees lb dt method w : str_reads_back float_str ->
  fitted nf (class_row n) trees -> 1 <= n <= 127 -> In lb [None; Some 0; Some 1] ->
  wrapper_init true method dt lb trees nf n = Ret w -> fits_c (forest_nodes (w_forest w)) ->
  Forall (fun t : sktree pynum (list f64) => 2 <= sk_node_count t /\ Forall text_threshold (sk_threshold t)) trees ->
  exists rs t es, save_csv_text float_str array_str w = Ret t /\ file_says t es /\ Forall2 entry_is es rs /\
    let '(nodes, roots, leaves) := w_forest w in
    csv_decode rs = (map round_node nodes, roots, leaves) /\
    exists tl, rs = RFeatures nf :: RClasses n :: RLeafBits 0 :: tl.
Proof. apply csv_text_hard. Qed.
Theorem C16_text_regressor_partial float_str array_str nf nc trees lb dt method w : str_reads_back float_str ->
  fitted nf value_row trees -> In lb [None; Some 32] ->
  wrapper_init false method dt lb trees nf nc = Ret w -> fits_c (forest_nodes (w_forest w)) ->
  Forall (fun t : sktree pynum (list f64) => 2 <= sk_node_count t /\ Forall text_threshold (sk_threshold t)) trees ->
  exists rs t es, save_csv_text float_str array_str w = Ret t /\ file_says t es /\ Forall2 entry_is es rs /\
    let '(nodes, roots, leaves) := w_forest w in
    csv_decode rs = (map round_node nodes, roots, leaves) /\
    exists tl, rs = RFeatures nf :: RClasses 0 :: RLeafBits 32 :: tl.
Proof. apply csv_text_reg. Qed.
(** A text says only one thing. *)
Theorem C16_text_unique t es es' : file_says t es -> file_says t es' -> es = es'.
Proof. intros H H'. exact (file_unique t es H es' H'). Qed.
(** How far the six decimals are off. *)
Theorem C16_threshold_close (x : f64) : is_finite x = true -> (Rabs (B2R x) <= bpow radix2 128)%R ->
  is_finite (np_round6 x) = true /\
  (Rabs (B2R (np_round6 x) - B2R x) <= 500001 / 1000000000000 + Rabs (B2R x) / 1125899906842624)%R.
Proof. apply np_round6_close. Qed.

Definition nl : text := [13; 10].
Example C16_text_ex :
  (let* w := wrapper_init true None None None [tree_a; tree_b] 2 3 in save_csv_text (fmt_fixed 2) (fun _ => []) w) =
  Ret (txt "f,2" ++ nl ++ txt "c,3" ++ nl ++ txt "lb,0" ++ nl ++ txt "l,0" ++ nl ++ txt "l,1" ++ nl ++ txt "l,2" ++ nl ++
       txt "r,0" ++ nl ++ txt "r,2" ++ nl ++ txt "n,0,3.50,-1,1" ++ nl ++ txt "n,1,-1.25,-2,-3" ++ nl ++ txt "n,1,10.00,-1,-2")%list.
Proof. vm_compute. reflexivity. Qed.

Example C16_text_hyps : str_reads_back (fmt_fixed 1074) /\
  Forall (fun t : sktree pynum (list f64) => 2 <= sk_node_count t /\ Forall text_threshold (sk_threshold t)) [tree_a; tree_b].
Proof.
  split; [apply fixed_reads_back; lia|].
  assert (P : (1 <= bpow radix2 100)%R) by (change 1%R with (bpow radix2 0); apply bpow_le; lia).
  assert (T : forall x : f64, is_finite x = true -> fleb (Babs x) (f_of_Z 10) = true -> text_threshold (PyFloat x)).
  { intros x F L. exists x. split; [reflexivity|]. split; [exact F|]. destruct (@f_of_Z_exact 53 1024 _ _ 10) as [V10 F10]; [lia|].
    unfold fleb in L. rewrite Bleb_correct in L; [|now rewrite is_finite_Babs|exact F10].
    destruct (Rle_bool_spec (B2R (Babs x)) (B2R (f_of_Z 10 : f64))) as [H|H]; [|discriminate]. rewrite B2R_Babs, V10 in H.
    apply Rle_trans with (bpow radix2 4); [change (bpow radix2 4) with 16%R; lra|apply bpow_le; lia]. }
  each ltac:(split; [simpl; lia | cbn [sk_threshold tree_a tree_b]; each ltac:(apply T; vm_compute; reflexivity)]).
Qed.
