(** Pareto efficiency of cost vectors (smaller is better). *)
From Coq Require Import String ZArith List Bool.
From Flocq Require Import Core BinarySingleNaN.
From Verif.Base Require Import Res Float.
Import ListNotations.
Open Scope Z_scope.

(** Not NaN (infinities allowed). *)
Definition is_num (x : f64) : Prop := is_nan x = false.
(** a is at least as good as b in every cost. *)
Definition at_least_as_good (a b : list f64) : Prop := Forall2 (fun x y => fleb x y = true) a b.
(** a is better than b in some cost. *)
Definition better_somewhere (a b : list f64) : Prop :=
  exists k x y, nth_error a k = Some x /\ nth_error b k = Some y /\ fltb x y = true.
Definition dominates (a b : list f64) : Prop := at_least_as_good a b /\ better_somewhere a b.
(** The same costs (+0 and -0 are the same). *)
Definition same_costs (a b : list f64) : Prop := Forall2 (fun x y => Beqb x y = true) a b.

(** Row i is on the front: no row dominates it, and no earlier row has the same costs. *)
Definition on_front (costs : list (list f64)) (i : Z) : Prop :=
  exists c, zget costs i = Ret c /\
    (forall j d, zget costs j = Ret d -> ~ dominates d c) /\
    (forall j d, 0 <= j < i -> zget costs j = Ret d -> ~ same_costs d c).

(** An (n, m) table of numbers. *)
Definition cost_table (m : nat) (costs : list (list f64)) : Prop :=
  Forall (fun row => length row = m /\ Forall is_num row) costs.

(** The row of index i meets the minimum. *)
Definition meets (higher_is_better : bool) (mp : option f64) (v : f64) : Prop :=
  match mp with
  | None => True
  | Some m => if higher_is_better then fleb m v = true else fleb v m = true
  end.

(** The two costs of every row of a table: performance (negated when higher is better) and cost. *)
Definition front_costs (higher_is_better : bool) (perf cost : list f64) : list (list f64) :=
  map (fun pc => [if higher_is_better then Bopp (fst pc) else fst pc; snd pc]) (combine perf cost).
(** The values of a column in the kept rows. *)
Definition keep_rows {A} (keep : list bool) (column : list A) : list A :=
  map snd (filter fst (combine keep column)).
