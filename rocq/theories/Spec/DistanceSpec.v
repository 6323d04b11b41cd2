(** Quadratic forms. *)
From Coq Require Import ZArith Reals List.
From Verif.Base Require Import Res RealSum.
Import ListNotations.
Open Scope R_scope.

Definition vec (l : list R) (i : Z) : R := nth (Z.to_nat i) l 0.
Definition mat (l : list (list R)) (i j : Z) : R := vec (nth (Z.to_nat i) l []) j.
(** A matrix with n rows of n numbers. *)
Definition square (n : Z) (P : list (list R)) : Prop := zlen P = n /\ Forall (fun r => zlen r = n) P.
(** d^T P d *)
Definition quad (n : Z) (P : Z -> Z -> R) (d : Z -> R) : R := sumr n (fun i => sumr n (fun j => d i * P i j * d j)).
(** (x - m)^T P (x - m) *)
Definition mahalanobis2 (P : list (list R)) (x m : list R) : R := quad (zlen x) (mat P) (fun i => vec x i - vec m i).
