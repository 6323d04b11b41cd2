(** Model of the QSORT macro (eml_qsort.h) as instantiated by eml_neighbors_sort_distances
    (eml_neighbors.h:72-87): Q_UINT is unsigned long (64 bit), the stack has 48 frames.
    [A] is the element type and [key] the field compared by EML_LESS.
    Indices are integers; an index that would wrap below 0 is an out-of-bounds access. *)
From Coq Require Import ZArith List Bool.
From Verif.Base Require Import Res.
Import ListNotations.
Open Scope Z_scope.
Open Scope res_scope.

Section Qsort.
Context {A : Type} (key : A -> Z).

(** eml_neighbors.h:78  EML_LESS *)
Definition q_less (a : list A) (i j : Z) : res bool :=
  let* x := zget a i in
  let* y := zget a j in
  Ret (key x <? key y).

(** eml_neighbors.h:79  EML_SWAP *)
Definition q_swap (a : list A) (i j : Z) : res (list A) :=
  let* tmp := zget a i in
  let* y := zget a j in
  let* a1 := zset a i y in
  zset a1 j tmp.

(** eml_qsort.h:44-60  Q_SORT3 *)
Definition q_sort3 (a : list A) (a1 a2 a3 : Z) : res (list A) :=
  let* c := q_less a a2 a1 in
  if (c : bool) then
    let* c' := q_less a a3 a2 in
    if (c' : bool) then q_swap a a1 a3
    else
      let* b := q_swap a a1 a2 in
      let* c'' := q_less b a3 a2 in
      if (c'' : bool) then q_swap b a2 a3 else Ret b
  else
    let* c' := q_less a a3 a2 in
    if (c' : bool) then
      let* b := q_swap a a2 a3 in
      let* c'' := q_less b a2 a1 in
      if (c'' : bool) then q_swap b a1 a2 else Ret b
    else Ret a.

(** eml_qsort.h:83  do q_i++; while (LESS(q_i, q_l)); *)
Fixpoint q_scan_up (fuel : nat) (a : list A) (l i : Z) : res Z :=
  match fuel with
  | O => Err NoFuel
  | S f =>
      let i := i + 1 in
      let* c := q_less a i l in
      if (c : bool) then q_scan_up f a l i else Ret i
  end.
(** eml_qsort.h:84  do q_j--; while (LESS(q_l, q_j)); *)
Fixpoint q_scan_down (fuel : nat) (a : list A) (l j : Z) : res Z :=
  match fuel with
  | O => Err NoFuel
  | S f =>
      let j := j - 1 in
      let* c := q_less a l j in
      if (c : bool) then q_scan_down f a l j else Ret j
  end.
(** eml_qsort.h:82-87  while (1) of the partitioning; returns the array and q_j. *)
Fixpoint q_part_loop (fuel : nat) (a : list A) (l i j : Z) : res (list A * Z) :=
  match fuel with
  | O => Err NoFuel
  | S f =>
      let* i := q_scan_up (S (length a)) a l i in
      let* j := q_scan_down (S (length a)) a l j in
      if j <=? i then Ret (a, j)
      else
        let* a := q_swap a i j in
        q_part_loop f a l i j
  end.

(** eml_qsort.h:65-94  Q_PARTITION; returns the array, q_i and q_j. *)
Definition q_partition (a : list A) (l r : Z) : res (list A * Z * Z) :=
  let m := l + Z.shiftr (r - l) 1 in
  let* a := q_sort3 a (l + 1) m r in
  let* a := q_swap a l m in
  let* (a, j) := q_part_loop (S (length a)) a l (l + 1) r in
  let i := j + 1 in
  let* a := q_swap a l j in
  Ret (a, i, j - 1).

(** eml_qsort.h:109  for (q_j = q_i; q_j > q_l && LESS(q_j, q_j - 1); q_j--) SWAP *)
Fixpoint q_sift (fuel : nat) (a : list A) (l j : Z) : res (list A) :=
  match fuel with
  | O => Err NoFuel
  | S f =>
      if l <? j then
        let* c := q_less a j (j - 1) in
        if (c : bool) then
          let* a := q_swap a j (j - 1) in
          q_sift f a l (j - 1)
        else Ret a
      else Ret a
  end.
(** eml_qsort.h:103-111  Q_INSERTION_SORT *)
Definition q_insertion_sort (a : list A) (l r : Z) : res (list A) :=
  foldM (fun a k => q_sift (S (length a)) a l (l + 1 + k)) a (zrange (r - l)).

(** eml_qsort.h:118, 131 *)
Definition Q_THRESH : Z := 16.
Definition Q_STACK : Z := 48.

(** eml_qsort.h:156-176  Q_SUBFILES: new stack, q_l, q_r. The stack is a list, top first;
    pushing a 49th frame is an out-of-bounds write. *)
Definition q_subfiles (st : list (Z * Z)) (l1 r1 l2 r2 : Z) : res (list (Z * Z) * Z * Z) :=
  if l2 =? r2 then Ret (st, l1, r1)
  else if Q_STACK <=? zlen st then Err OutOfBounds
  else Ret ((l1, r1) :: st, l2, r2).

(** eml_qsort.h:132-151  the main loop *)
Fixpoint q_loop (fuel : nat) (a : list A) (st : list (Z * Z)) (l r : Z) : res (list A) :=
  match fuel with
  | O => Err NoFuel
  | S f =>
      if Q_THRESH <=? r - l + 1 then
        let* (a, i, j) := q_partition a l r in
        let* (st, l, r) := (if r - i <=? j - l then q_subfiles st l j i r
                            else q_subfiles st i r l j) in
        q_loop f a st l r
      else
        let* a := q_insertion_sort a l r in
        match st with
        | [] => Ret a
        | (l', r') :: st' => q_loop f a st' l' r'
        end
  end.

(** eml_qsort.h:179-185  QSORT(N, ...) on the first [n] elements. Fuel: 2 n + 2 iterations. *)
Definition q_sort (a : list A) (n : Z) : res (list A) :=
  if 1 <? n then q_loop (Z.to_nat (2 * n + 2)) a [] 0 (n - 1) else Ret a.
End Qsort.
