(** Reading back the tree CSV, independent of the writer: nodes are numbered in file order, a
    non-negative child is relative to its node, a negative child -k-1 is leaf k. *)
From Coq Require Import ZArith List.
From Verif.Base Require Import Res Float.
From Verif.Model Require Import TreesConvert TreesC TreesWrapper.
Import ListNotations.
Open Scope Z_scope.

Definition csv_leaves (rs : list csv_record) : list pyleaf :=
  flat_map (fun r => match r with RLeaf l => [l] | _ => [] end) rs.
Definition csv_roots (rs : list csv_record) : list Z :=
  flat_map (fun r => match r with RRoot x => [x] | _ => [] end) rs.
Definition abs_child (index c : Z) : Z := if 0 <=? c then index + c else c.
Definition csv_node (index : Z) (r : csv_record) : list (dnode pynum) :=
  match r with
  | RNode f v a b => [mk_dnode f (PyFloat v) (abs_child index a) (abs_child index b)]
  | _ => []
  end.
Fixpoint csv_nodes_from (index : Z) (rs : list csv_record) : list (dnode pynum) :=
  match rs with
  | [] => []
  | r :: rs' => let n := csv_node index r in n ++ csv_nodes_from (index + zlen n) rs'
  end.
Definition csv_decode (rs : list csv_record) : forest (T:=pynum) (L:=pyleaf) :=
  (csv_nodes_from 0 rs, csv_roots rs, csv_leaves rs).
