(** Real-number specifications of activation functions. *)
From Coq Require Import Reals List.
Import ListNotations.
Open Scope R_scope.

Definition rsum (l : list R) : R := fold_right Rplus 0 l.
(** exp(x_i) / sum over j of exp(x_j) *)
Definition rsoftmax (xs : list R) : list R := map (fun x => exp x / rsum (map exp xs)) xs.
Definition rlogistic (x : R) : R := / (1 + exp (- x)).
