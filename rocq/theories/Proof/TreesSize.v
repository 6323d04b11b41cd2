(** Reported versus actual size of the generated tables. *)
From Coq Require Import ZArith List Bool Lia.
From Flocq Require Import Core BinarySingleNaN.
From Verif.Base Require Import Res CInt ListX Float.
From Verif.Model Require Import Common TreesConvert TreesC TreesInline TreesWrapper.
From Verif.Spec Require Import TreesSpec TreesCSpec VoteSpec ClassifierSpec.
From Verif.Proof Require Import TreesTop TreesApi TreesRegress TreesMisc.
Import ListNotations.
Open Scope Z_scope.

Lemma size_general w m k : save_loadable w = Ret m ->
  zlen (et_leaves m) = k * model_size_leaves w ->
  table_bytes m = model_size_bytes w None None + (k - ceil_div8 (w_leaf_bits w)) * model_size_leaves w.
Proof. intros H E. unfold table_bytes, model_size_bytes. rewrite (save_nodes_count _ _ H), E. ring. Qed.

Theorem size_hard trees nf n dt lb w m : hard_args lb ->
  wrapper_init true (Some MLoadable) dt lb trees nf n = Ret w -> save_loadable w = Ret m ->
  zlen (et_nodes m) = model_size_nodes w /\ zlen (et_leaves m) = model_size_leaves w /\
  table_bytes m = model_size_bytes w None None + model_size_leaves w.
Proof.
  intros Hlb Hw Hm. apply wrapper_init_Ret in Hw as (_ & E & _). rewrite (hard_bits lb Hlb) in E.
  assert (B : zlen (et_leaves m) = 1 * model_size_leaves w).
  { apply (leaf_table_bytes w m 1 Hm); intros; auto; try lia. }
  split; [now apply save_nodes_count|]. split; [lia|].
  rewrite (size_general w m 1 Hm B), E. change (ceil_div8 0) with 0. lia.
Qed.

Theorem size_regress trees nf nc dt lb w m : In lb [None; Some 32] ->
  wrapper_init false (Some MLoadable) dt lb trees nf nc = Ret w -> save_loadable w = Ret m ->
  zlen (et_nodes m) = model_size_nodes w /\ zlen (et_leaves m) = 4 * model_size_leaves w /\
  table_bytes m = model_size_bytes w None None.
Proof.
  intros Hlb Hw Hm. apply wrapper_init_Ret in Hw as (_ & E & _). rewrite (val_bits lb Hlb) in E.
  assert (B : zlen (et_leaves m) = 4 * model_size_leaves w).
  { apply (leaf_table_bytes w m 4 Hm); intros; auto; try lia. }
  split; [now apply save_nodes_count|]. split; [lia|].
  rewrite (size_general w m 4 Hm B), E. change (ceil_div8 32) with 4. lia.
Qed.

Theorem size_soft trees nf n bits dt w m : fitted nf (proba_row n) trees -> 1 <= n <= 127 -> 2 <= bits <= 8 ->
  wrapper_init true (Some MLoadable) dt (Some bits) trees nf n = Ret w -> save_loadable w = Ret m ->
  zlen (et_nodes m) = model_size_nodes w /\ zlen (et_leaves m) = n * model_size_leaves w /\
  table_bytes m = model_size_bytes w None None + (n - 1) * model_size_leaves w.
Proof.
  intros Hfit Hn Hb Hw Hm. apply wrapper_init_Ret in Hw as (E1 & E & _).
  destruct (soft_bits bits Hb) as [S1 S2]. rewrite S1, S2 in E1. rewrite S1 in E.
  destruct (soft_forest nf n bits trees Hfit Hn Hb) as (nodes & roots & leaves & E' & HFF & _).
  rewrite E1 in E'. injection E' as E'. destruct HFF as (_ & _ & _ & P & _).
  assert (B : zlen (et_leaves m) = n * model_size_leaves w).
  { apply (leaf_table_bytes w m n Hm); try lia. intros _ _ l Hl. rewrite E' in Hl. cbn [snd] in Hl.
    rewrite Forall_forall in P. destruct (P l Hl) as (bs & -> & Hz & _). simpl. now rewrite zlen_map. }
  split; [now apply save_nodes_count|]. split; [exact B|].
  rewrite (size_general w m n Hm B), E.
  replace (ceil_div8 bits) with 1; [lia|]. unfold ceil_div8.
  assert (bits = 2 \/ bits = 3 \/ bits = 4 \/ bits = 5 \/ bits = 6 \/ bits = 7 \/ bits = 8) as H by lia.
  destruct H as [->|[->|[->|[->|[->|[->| ->]]]]]]; reflexivity.
Qed.
