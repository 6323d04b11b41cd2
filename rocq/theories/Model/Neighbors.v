(** Model of eml_neighbors.h: k nearest neighbours over int16_t data. *)
From Coq Require Import ZArith List Bool.
From Verif.Base Require Import Res CInt.
From Verif.Model Require Import Common Qsort.
Import ListNotations.
Open Scope Z_scope.
Open Scope res_scope.

(** eml_neighbors.h:32-34  while (q <= x) q <<= 2. Left shift of a signed number whose result
    does not fit is undefined. *)
Fixpoint isqrt_up (fuel : nat) (x q : Z) : res Z :=
  match fuel with
  | O => Err NoFuel
  | S f => if q <=? x then let* q' := chk_int32 (Z.shiftl q 2) in isqrt_up f x q' else Ret q
  end.
(** eml_neighbors.h:35-44 *)
Fixpoint isqrt_down (fuel : nat) (x q r : Z) : res Z :=
  match fuel with
  | O => Err NoFuel
  | S f =>
      if 1 <? q then
        let q := Z.shiftr q 2 in
        let* t0 := chk_int32 (x - r) in
        let* t := chk_int32 (t0 - q) in
        let r := Z.shiftr r 1 in
        if 0 <=? t then
          let* r' := chk_int32 (r + q) in isqrt_down f t q r'
        else isqrt_down f x q r
      else Ret r
  end.
(** eml_neighbors.h:29-46  eml_isqrt; at most 16 iterations of each loop. *)
Definition eml_isqrt (x : Z) : res Z :=
  let* q := isqrt_up 32 x 1 in isqrt_down 32 x q 0.

(** eml_neighbors.h:48-60  eml_distance_euclidean_int16 (int is 32 bit). [off] is the offset of
    the pointer b inside the array it points into. *)
Definition eml_distance_euclidean_int16_at (a b : list Z) (off : Z) (length : Z) : res Z :=
  let* ret := foldM (fun ret i =>
      let* x := zget a i in
      let* y := zget b (off + i) in
      let* diff := chk_int32 (x - y) in
      let* d := chk_int32 (diff * diff) in
      Ret (to_uint32 (ret + d)))
    0 (zrange length) in
  let* s := eml_isqrt (to_int32 ret) in
  Ret (to_uint32 s).
Definition eml_distance_euclidean_int16 (a b : list Z) (length : Z) : res Z :=
  eml_distance_euclidean_int16_at a b 0 length.

(** eml_neighbors.h:67-70 *)
Record dist_item : Type := mk_dist { di_index : Z; di_distance : Z }.

(** eml_neighbors.h:72-87 *)
Definition eml_neighbors_sort_distances (distances : list dist_item) (length : Z)
  : res (list dist_item) := q_sort di_distance distances length.

(** eml_neighbors.h:95-106 *)
Record neighbors_model : Type := mk_neighbors {
  nm_n_features : Z; nm_n_items : Z; nm_max_items : Z;
  nm_data : list Z; nm_labels : list Z; nm_k : Z }.

(** eml_neighbors.h:108-123; the lengths are converted to int16_t by the call *)
Definition eml_neighbors_check (self : neighbors_model)
    (data_length labels_length distances_length : Z) : res eml_error :=
  let data_length := to_int16 data_length in
  let labels_length := to_int16 labels_length in
  let distances_length := to_int16 distances_length in
  let* expect := chk_int32 (nm_max_items self * nm_n_features self) in
  if data_length <? expect then Ret EmlSizeMismatch
  else if labels_length <? nm_max_items self then Ret EmlSizeMismatch
  else if distances_length <? nm_max_items self then Ret EmlSizeMismatch
  else Ret EmlOk.

(** memcpy of [n] elements: src[0..n) to dst[off..off+n), distinct arrays *)
Definition memcpy_at {A} (dst : list A) (off : Z) (src : list A) (n : Z) : res (list A) :=
  foldM (fun d i => let* v := zget src i in zset d (off + i) v) dst (zrange n).

(** eml_neighbors.h:135-156  eml_neighbors_add_item; returns the error and the new state. *)
Definition eml_neighbors_add_item (self : neighbors_model) (values : list Z) (values_length label : Z)
  : res (eml_error * neighbors_model) :=
  if negb (values_length =? nm_n_features self) then Ret (EmlSizeMismatch, self)
  else if negb (nm_n_items self <? nm_max_items self) then Ret (EmlSizeMismatch, self)
  else
    let index := nm_n_items self in
    let n_items := to_int16 (index + 1) in
    let* off := chk_int32 (nm_n_features self * index) in
    let* data := memcpy_at (nm_data self) off values values_length in
    let* labels := zset (nm_labels self) index label in
    Ret (EmlOk, mk_neighbors (nm_n_features self) n_items (nm_max_items self) data labels (nm_k self)).

(** eml_neighbors.h:158-185  eml_neighbors_infer *)
Definition eml_neighbors_infer (self : neighbors_model) (features : list Z) (features_length : Z)
    (distances : list dist_item) (distances_length : Z) : res (eml_error * list dist_item) :=
  if negb (nm_n_items self <=? distances_length) then Ret (EmlSizeMismatch, distances)
  else if negb (features_length =? nm_n_features self) then Ret (EmlSizeMismatch, distances)
  else
    let* ds := foldM (fun ds i =>
        let* off := chk_int32 (nm_n_features self * i) in
        let* d := eml_distance_euclidean_int16_at features (nm_data self) off features_length in
        zset ds i (mk_dist (to_int16 i) d))
      distances (zrange (nm_n_items self)) in
    Ret (EmlOk, ds).

(** eml_neighbors.h:24-25 *)
Definition EML_NEIGHBORS_MAX_CLASSES : Z := 10.

(** eml_neighbors.h:212-227  votes of the first k items; None: a label is out of range. *)
Definition nb_count_votes (self : neighbors_model) (distances : list dist_item) (k : Z)
  : res (option (list Z)) :=
  foldM (fun acc i =>
      match acc with
      | None => Ret None
      | Some votes =>
          let* d := zget distances i in
          let* label := zget (nm_labels self) (di_index d) in
          if (label <? 0) || (EML_NEIGHBORS_MAX_CLASSES <=? label) then Ret None
          else
            let* v := zget votes label in
            let* votes' := zset votes label (to_int16 (v + 1)) in
            Ret (Some votes')
      end)
    (Some (repeat 0 (Z.to_nat EML_NEIGHBORS_MAX_CLASSES))) (zrange k).

(** eml_neighbors.h:229-244 *)
Definition most_voted (votes : list Z) : res Z :=
  let* (cls, _) := foldM (fun '(c, m) i =>
      let* v := zget votes i in
      if m <? v then Ret (i, v) else Ret (c, m))
    (-1, 0) (zrange EML_NEIGHBORS_MAX_CLASSES) in
  Ret cls.

(** eml_neighbors.h:190-248  eml_neighbors_find_nearest: error code, sorted distances, *out. *)
Definition eml_neighbors_find_nearest (self : neighbors_model) (distances : list dist_item)
    (distances_length k out : Z) : res (eml_error * list dist_item * Z) :=
  if negb (k <=? distances_length) then Ret (EmlSizeMismatch, distances, out)
  else
    let* ds := eml_neighbors_sort_distances distances distances_length in
    let* votes := nb_count_votes self ds k in
    match votes with
    | None => Ret (EmlUnknownError, ds, out)
    | Some votes => let* c := most_voted votes in Ret (EmlOk, ds, to_int16 c)
    end.

(** eml_neighbors.h:262-286  eml_neighbors_predict: error code, distances, *out. *)
Definition eml_neighbors_predict (self : neighbors_model) (features : list Z) (features_length : Z)
    (distances : list dist_item) (distances_length out : Z) : res (eml_error * list dist_item * Z) :=
  let* (err, ds) := eml_neighbors_infer self features features_length distances distances_length in
  match err with
  | EmlOk =>
      let* (err, ds, label) := eml_neighbors_find_nearest self ds (nm_n_items self) (nm_k self) (-1) in
      match err with
      | EmlOk => Ret (EmlOk, ds, label)
      | e => Ret (e, ds, out)
      end
  | e => Ret (e, ds, out)
  end.
