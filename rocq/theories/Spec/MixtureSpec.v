(** Gaussian mixtures over the reals. *)
From Coq Require Import ZArith Reals List Bool.
From Verif.Base Require Import Res Arith RealSum.
From Verif.Model Require Import Mixture.
From Verif.Spec Require Import RealSpec DistanceSpec.
Import ListNotations.
Open Scope R_scope.

(** Cholesky factors of the precisions, as scikit-learn gives them for each covariance type. *)
Inductive rchol : Type :=
  | RFull (l : list (list (list R))) | RTied (l : list (list R)) | RDiag (l : list (list R)) | RSpherical (l : list R).
Definition shape_ok (p : rchol) (k n : Z) : Prop :=
  match p with
  | RFull l => zlen l = k /\ Forall (square n) l
  | RTied l => square n l
  | RDiag l => zlen l = k /\ Forall (fun r => zlen r = n) l
  | RSpherical l => zlen l = k
  end.
(** As numbers of the program. *)
Definition chol_of (p : rchol) : chol real_arith :=
  match p with
  | RFull l => ChFull real_arith (map (map (map Fin)) l)
  | RTied l => ChTied real_arith (map (map Fin) l)
  | RDiag l => ChDiag real_arith (map (map Fin) l)
  | RSpherical l => ChSpherical real_arith (map Fin l)
  end.
(** The precision matrix (inverse covariance) of component [c]: L L^T; diagonal; multiple of the identity. *)
Definition precision (p : rchol) (n c i j : Z) : R :=
  match p with
  | RFull l => let m := mat (nth (Z.to_nat c) l []) in sumr n (fun f => m i f * m j f)
  | RTied l => sumr n (fun f => mat l i f * mat l j f)
  | RDiag l => if (i =? j)%Z then mat l c i ^ 2 else 0
  | RSpherical l => if (i =? j)%Z then vec l c ^ 2 else 0
  end.
(** Diagonal of the Cholesky factor; its product is the square root of the determinant of the precision. *)
Definition chol_diag (p : rchol) (c f : Z) : R :=
  match p with
  | RFull l => mat (nth (Z.to_nat c) l []) f f
  | RTied l => mat l f f
  | RDiag l => mat l c f
  | RSpherical l => vec l c
  end.
Definition rprod (l : list R) : R := fold_right Rmult 1 l.
Definition positive_chol (p : rchol) (k n : Z) : Prop :=
  forall c f, (0 <= c < k)%Z -> (0 <= f < n)%Z -> 0 < chol_diag p c f.
(** Density at x of the normal distribution with mean mu and the given precision. *)
Definition density (p : rchol) (n c : Z) (mu x : list R) : R :=
  rprod (map (chol_diag p c) (zrange n)) * exp (- (1 / 2) * quad n (precision p n c) (fun i => vec x i - vec mu i))
  / sqrt (2 * PI) ^ Z.to_nat n.
(** weight times density *)
Definition weighted (p : rchol) (n : Z) (means : list (list R)) (logw x : list R) (c : Z) : R :=
  exp (vec logw c) * density p n c (nth (Z.to_nat c) means []) x.

(** Sum of the weighted densities: the density of the mixture. *)
Definition total (p : rchol) (n : Z) (means : list (list R)) (logw x : list R) : R := sumr (zlen means) (weighted p n means logw x).
(** printf("%.6f"): the nearest number of millionths, ties to even. *)
From Flocq Require Import Core.
Definition print6R (x : xreal) : Z := match x with Fin r => ZnearestE (r * 1000000) | _ => 0%Z end.
