(** Votes and majority, independent of the code. *)
From Coq Require Import ZArith List Reals.
From Verif.Base Require Import Res.
Import ListNotations.
Open Scope Z_scope.

(** Number of votes for class [c] among the per-tree classes [cs]. *)
Definition votes (cs : list Z) (c : Z) : Z := zlen (filter (Z.eqb c) cs).

(** [c] is the lowest-numbered class among 0..n-1 with the maximum number of votes. *)
Definition majority (n : Z) (cs : list Z) (c : Z) : Prop :=
  0 <= c < n /\
  (forall c', 0 <= c' < n -> votes cs c' <= votes cs c) /\
  (forall c', 0 <= c' < c -> votes cs c' < votes cs c).

(** [i] is the first position of a maximal element of the real sequence v 0 .. v (n-1). *)
Definition first_max (n : Z) (v : Z -> R) (i : Z) : Prop :=
  0 <= i < n /\
  (forall j, 0 <= j < n -> (v j <= v i)%R) /\
  (forall j, 0 <= j < i -> (v j < v i)%R).
