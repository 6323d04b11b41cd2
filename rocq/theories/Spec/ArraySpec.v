(** A 2-D array seen as a list of rows. *)
From Coq Require Import ZArith List.
From Verif.Base Require Import Res.
From Verif.Model Require Import Array.
Import ListNotations.
Open Scope Z_scope.

(** The array has [cols] columns of [vs] bytes, its rows hold the bytes [R] (one list per row),
    and [rest] is what follows in the buffer. The sizes fit an int. *)
Record rows_of (a : eml_array) (cols vs : Z) (R : list (list Z)) (rest : list Z) : Prop := {
  ro_dims : exists d2, ar_dims a = [cols; zlen R; d2];
  ro_ndims : ar_n_dims a = 2;
  ro_vs : ar_value_size a = vs;
  ro_data : ar_data a = concat R ++ rest;
  ro_rows : Forall (fun r => zlen r = vs * cols) R;
  ro_cols_pos : 1 <= cols;
  ro_vs_pos : 1 <= vs;
  ro_small : vs * cols * Z.max 1 (zlen R) < 2 ^ 31 }.
