(** Model of emlearn/evaluate/pareto.py. A DataFrame is the list of its named numeric columns, in order
    (float64; columns of other types, which find_pareto_front only copies, and the row index are left out). *)
From Coq Require Import String ZArith List Bool.
From Flocq Require Import Core BinarySingleNaN.
From Verif.Base Require Import Res Float.
Import ListNotations.
Open Scope Z_scope.
Open Scope res_scope.

(** numpy  l[mask]: the elements whose mask is True, in order. *)
Fixpoint mask_select {A} (mask : list bool) (l : list A) : list A :=
  match mask, l with
  | b :: mask', a :: l' => if b then a :: mask_select mask' l' else mask_select mask' l'
  | _, _ => []
  end.

(** numpy  mask[mask] = values: the True entries are replaced by the values, in order; the numbers of True
    entries and values must agree (ValueError otherwise). *)
Fixpoint mask_assign (mask : list bool) (values : list bool) : res (list bool) :=
  match mask with
  | [] => match values with [] => Ret [] | _ => Err ValueError_ end
  | false :: mask' => let* m := mask_assign mask' values in Ret (false :: m)
  | true :: mask' => match values with
      | [] => Err ValueError_
      | v :: values' => let* m := mask_assign mask' values' in Ret (v :: m)
      end
  end.

(** numpy.any(row < c) on two rows of equal length (pareto.py:24). *)
Definition any_lower (row c : list f64) : bool :=
  existsb (fun ab => fltb (fst ab) (snd ab)) (combine row c).

(** pareto.py:9-26  is_pareto_efficient_simple *)
Definition is_pareto_efficient_simple (costs : list (list f64)) : res (list bool) :=
  foldM (fun is_efficient i =>
      let* c := zget costs i in
      let* e := zget is_efficient i in
      if (e : bool) then
        let lower := map (fun row => any_lower row c) (mask_select is_efficient costs) in
        let* is_efficient := mask_assign is_efficient lower in
        zset is_efficient i true
      else Ret is_efficient)
    (repeat true (length costs)) (zrange (zlen costs)).

Definition dataframe : Type := list (string * list f64).

(** df[name]; KeyError when there is no such column. *)
Fixpoint df_get (df : dataframe) (name : string) : res (list f64) :=
  match df with
  | [] => Err KeyError_
  | (n, col) :: df' => if String.eqb n name then Ret col else df_get df' name
  end.

(** df[name] = column: replaces the column, or appends a new one. *)
Fixpoint df_set (df : dataframe) (name : string) (c : list f64) : dataframe :=
  match df with
  | [] => [(name, c)]
  | (n, col) :: df' => if String.eqb n name then (n, c) :: df' else (n, col) :: df_set df' name c
  end.

(** df[mask]: the rows whose mask is True. *)
Definition df_select (df : dataframe) (mask : list bool) : dataframe :=
  map (fun nc => (fst nc, mask_select mask (snd nc))) df.

(** df[[a, b]].values: rows of two values. *)
Definition df_values2 (a b : list f64) : list (list f64) :=
  map (fun ab => [fst ab; snd ab]) (combine a b).

(** pareto.py:29-65  find_pareto_front *)
Definition find_pareto_front (df : dataframe) (cost_metric performance_metric : string)
    (higher_is_better : bool) (min_performance : option f64) : res dataframe :=
  let* perf := df_get df performance_metric in
  let df := df_set df "mean_test_score"%string (if higher_is_better then map Bopp perf else perf) in
  let* score := df_get df "mean_test_score"%string in
  let* cost := df_get df cost_metric in
  let* pp := is_pareto_efficient_simple (df_values2 score cost) in
  let* pp := match min_performance with
    | None => Ret pp
    | Some mp =>
        let* perf := df_get df performance_metric in
        let ok := if higher_is_better then map (fun v => fleb mp v) perf else map (fun v => fleb v mp) perf in
        Ret (map (fun ab => fst ab && snd ab) (combine pp ok))
    end in
  Ret (df_select df pp).
