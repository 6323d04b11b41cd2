(** Pareto front (C47) and error strings (C51). *)
From Coq Require Import String ZArith List Bool Lia Reals Lra.
From Flocq Require Import Core BinarySingleNaN.
From Verif.Base Require Import Res ListX Loops Float FloatOrder Kernels.
From Verif.Model Require Import Common Pareto.
From Verif.Spec Require Import ParetoSpec.
From Verif.Proof Require Import Pareto.
Import ListNotations.
Open Scope Z_scope.
Open Scope res_scope.

(** ** C47 *)
(** Any number of points and costs, infinities allowed, no NaN: the mask has one entry per point, and it is
    True exactly for the points on the front (not dominated, and the first of its equals). *)
Theorem C47_efficient (m : nat) (costs : list (list f64)) : cost_table m costs ->
  exists mask, is_pareto_efficient_simple costs = Ret mask /\ zlen mask = zlen costs /\
  forall j, 0 <= j < zlen costs -> exists b, zget mask j = Ret b /\ (b = true <-> on_front costs j).
Proof. apply pareto_ok. Qed.
(** find_pareto_front, when neither metric is the column 'mean_test_score': the rows kept are those on the
    front of (performance, cost) that meet the minimum; every other column keeps its values in these rows. *)
Theorem C47_find_front_partial df cost_metric performance_metric hib mp perf cost :
  performance_metric <> "mean_test_score"%string -> cost_metric <> "mean_test_score"%string ->
  df_get df performance_metric = Ret perf -> df_get df cost_metric = Ret cost ->
  zlen perf = zlen cost -> Forall is_num perf -> Forall is_num cost ->
  exists keep out, find_pareto_front df cost_metric performance_metric hib mp = Ret out /\
    zlen keep = zlen perf /\
    (forall name, name <> "mean_test_score"%string -> df_get out name = res_map (keep_rows keep) (df_get df name)) /\
    (forall i p, zget perf i = Ret p -> exists b, zget keep i = Ret b /\
      (b = true <-> on_front (front_costs hib perf cost) i /\ meets hib mp p)).
Proof. apply find_front_ok. Qed.
(** With performance_metric='mean_test_score' (the column scikit-learn writes) the column is overwritten by its
    negation before it is compared: a row on the front that meets the minimum is not returned. *)
Definition scores : dataframe :=
  [("mean_test_score"%string, [f_of_ZE 7 (-3); f_of_ZE 1 (-1)]); ("cost"%string, [f_of_Z 1; f_of_Z 2])].
Theorem C47_score_column_refuted :
  find_pareto_front scores "cost" "mean_test_score" true (Some (f_of_ZE 3 (-2))) =
    Ret [("mean_test_score"%string, []); ("cost"%string, [])] /\
  fleb (f_of_ZE 3 (-2) : f64) (f_of_ZE 7 (-3)) = true /\
  on_front (front_costs true [f_of_ZE 7 (-3); f_of_ZE 1 (-1)] [f_of_Z 1; f_of_Z 2]) 0.
Proof.
  split; [vm_compute; reflexivity|]. split; [vm_compute; reflexivity|].
  set (perf := [f_of_ZE 7 (-3); f_of_ZE 1 (-1)]). set (cost := [f_of_Z 1; f_of_Z 2]).
  destruct (C47_efficient 2 (front_costs true perf cost)) as (mask & E & L & H).
  { apply front_table; repeat constructor. }
  destruct (H 0) as (b & Eb & Hb); [split; vm_compute; congruence|]. apply Hb.
  assert (E' : is_pareto_efficient_simple (front_costs true perf cost) = Ret [true; false]) by (vm_compute; reflexivity).
  rewrite E' in E. injection E as <-. now injection Eb as <-.
Qed.
(** Hypotheses met: five points, one dominated, two equal. *)
Example C47_example : let p a b : list f64 := [f_of_Z a; f_of_Z b] in
  is_pareto_efficient_simple [p 5 5; p 1 4; p 3 2; p 1 4; p 2 3] = Ret [false; true; true; false; true].
Proof. vm_compute. reflexivity. Qed.
Example C47_example_hyp : let p a b : list f64 := [f_of_Z a; f_of_Z b] in
  cost_table 2 [p 5 5; p 1 4; p 3 2; p 1 4; p 2 3].
Proof. repeat constructor. Qed.
Example C47_example_df :
  let df := [("mean_test_accuracy"%string, [f_of_ZE 7 (-3); f_of_ZE 1 (-1); f_of_ZE 3 (-2)]); ("mean_test_compute"%string, [f_of_Z 3; f_of_Z 1; f_of_Z 2])] in
  match find_pareto_front df "mean_test_compute" "mean_test_accuracy" true (Some (f_of_ZE 3 (-2))) with
  | Ret out => match df_get out "mean_test_compute" with Ret c => map (fun x => Btrunc x) c | _ => [] end
  | _ => [] end = [3; 2].
Proof. vm_compute. reflexivity. Qed.

(** ** C51 *)
(** The names of the codes, in words. *)
Definition error_name (e : eml_error) : string :=
  match e with
  | EmlOk => "OK" | EmlSizeMismatch => "SizeMismatch" | EmlUnsupported => "Unsupported"
  | EmlUninitialized => "Uninitialized" | EmlPostconditionFailed => "Postcondition failed"
  | EmlUnknownError => "Unknown error"
  end.
Theorem C51_names_partial e : e <> EmlUnsupported -> e <> EmlUninitialized ->
  eml_error_str (eml_error_code e) = Ret (error_name e).
Proof. destruct e; intros H1 H2; try reflexivity; congruence. Qed.
(** The two strings are exchanged. *)
Theorem C51_swapped_refuted : eml_error_str (eml_error_code EmlUnsupported) = Ret (error_name EmlUninitialized) /\
  eml_error_str (eml_error_code EmlUninitialized) = Ret (error_name EmlUnsupported).
Proof. split; reflexivity. Qed.
(** Any other integer: the fixed text; the table is never read outside its bounds. *)
Theorem C51_other c : (forall e, eml_error_code e <> c) -> eml_error_str c = Ret "Invalid error code"%string.
Proof.
  intros H. unfold eml_error_str, eml_error_valid, EmlErrors.
  destruct (Z.leb_spec 0 c); [|reflexivity]. destruct (Z.ltb_spec c 6); [|reflexivity]. exfalso.
  assert (c = 0 \/ c = 1 \/ c = 2 \/ c = 3 \/ c = 4 \/ c = 5) as C by lia.
  destruct C as [C|[C|[C|[C|[C|C]]]]]; subst c.
  - now apply (H EmlOk).
  - now apply (H EmlSizeMismatch).
  - now apply (H EmlUnsupported).
  - now apply (H EmlUninitialized).
  - now apply (H EmlPostconditionFailed).
  - now apply (H EmlUnknownError).
Qed.
Theorem C51_in_bounds c : exists s, eml_error_str c = Ret s.
Proof.
  unfold eml_error_str, eml_error_valid, EmlErrors.
  destruct (Z.leb_spec 0 c); [|eexists; reflexivity]. destruct (Z.ltb_spec c 6); [|eexists; reflexivity]. cbn [andb].
  apply zget_ok. change (zlen eml_error_strs) with 6. lia.
Qed.
