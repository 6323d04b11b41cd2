(** When a C nearest-neighbours model holds a data set. *)
From Coq Require Import ZArith List Bool.
From Verif.Base Require Import Res CInt.
From Verif.Model Require Import Neighbors.
From Verif.Spec Require Import NeighborsSpec.
Import ListNotations.
Open Scope Z_scope.

(** [data0] and [labels0] are the contents of the two buffers before anything was added: the
    model's buffers hold the rows and labels of [items], in order, and are otherwise as they were. *)
Record stores (data0 labels0 : list Z) (self : neighbors_model) (items : dataset) : Prop := {
  stores_count : nm_n_items self = zlen items;
  stores_max : zlen items <= nm_max_items self <= 32767;
  stores_features : 0 <= nm_n_features self <= 65535;
  stores_rows : Forall (fun it => zlen (fst it) = nm_n_features self /\ Forall int16_ok (fst it)) items;
  stores_room_data : nm_max_items self * nm_n_features self <= zlen data0;
  stores_room_labels : nm_max_items self <= zlen labels0;
  stores_data : nm_data self =
    concat (map fst items) ++ skipn (length (concat (map fst items))) data0;
  stores_labels : nm_labels self = map snd items ++ skipn (length items) labels0 }.

(** The requests that are accepted: right length and room left. *)
Fixpoint accepted (n_features room : Z) (requests : dataset) : dataset :=
  match requests with
  | [] => []
  | (v, l) :: rest =>
      if (zlen v =? n_features) && (0 <? room) then (v, l) :: accepted n_features (room - 1) rest
      else accepted n_features room rest
  end.
