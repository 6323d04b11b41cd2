(** What the text of an exported forest says, independent of the program that writes it. *)
From Coq Require Import ZArith List Bool Reals.
From Flocq Require Import Core BinarySingleNaN.
From Verif.Base Require Import Res Float.
From Verif.Model Require Import TreesConvert TreesC TreesWrapper.
From Verif.Spec Require Import StrSpec.
Import ListNotations.
Open Scope Z_scope.

(** One line of the file. *)
Inductive entry : Type :=
| Features (n : Z) | Classes (n : Z) | LeafBits (n : Z)
| LeafClass (c : Z) | LeafValue_ (v : R) | Root (r : Z)
| Node (feature : Z) (threshold : R) (l r : Z).

(** A decimal integer. *)
Definition int_text (t : list Z) (z : Z) : Prop :=
  exists (neg : bool) ds, t = (if neg then [45] else []) ++ ds /\ digit_text ds /\ ds <> [] /\
    z = (if neg then - number ds else number ds).
(** 44 is the comma; f = 102, c = 99, l = 108, b = 98, r = 114, n = 110. *)
Inductive line_says : list Z -> entry -> Prop :=
| ls_features t n : int_text t n -> line_says ([102; 44] ++ t) (Features n)
| ls_classes t n : int_text t n -> line_says ([99; 44] ++ t) (Classes n)
| ls_bits t n : int_text t n -> line_says ([108; 98; 44] ++ t) (LeafBits n)
| ls_class t c : int_text t c -> line_says ([108; 44] ++ t) (LeafClass c)
| ls_value t v : float_text t v -> line_says ([108; 44] ++ t) (LeafValue_ v)
| ls_root t r : int_text t r -> line_says ([114; 44] ++ t) (Root r)
| ls_node t1 t2 t3 t4 f v l r : int_text t1 f -> float_text t2 v -> int_text t3 l -> int_text t4 r ->
    line_says ([110; 44] ++ t1 ++ [44] ++ t2 ++ [44] ++ t3 ++ [44] ++ t4) (Node f v l r).
(** Lines are separated by CR LF (13, 10). *)
Inductive file_says : list Z -> list entry -> Prop :=
| fs_last t e : line_says t e -> file_says t [e]
| fs_more t e rest es : line_says t e -> file_says rest es -> file_says (t ++ [13; 10] ++ rest) (e :: es).

(** An entry and the record it stands for: reals are rounded to the nearest float64. *)
Definition reads_as (v : R) (x : f64) : Prop := round radix2 (FLT_exp (-1074) 53) ZnearestE v = B2R x.
Definition entry_is (e : entry) (r : csv_record) : Prop :=
  match e, r with
  | Features n, RFeatures m => n = m
  | Classes n, RClasses m => n = m
  | LeafBits n, RLeafBits m => n = m
  | LeafClass c, RLeaf (LClass d) => c = d
  | LeafValue_ v, RLeaf (LValue x) => reads_as v x
  | Root n, RRoot m => n = m
  | Node f v a b, RNode g x c d => f = g /\ a = c /\ b = d /\ reads_as v x
  | _, _ => False
  end.

(** A threshold as scikit-learn stores it: a float64 in the range of float32. *)
Definition text_threshold (th : pynum) : Prop := exists x, th = PyFloat x /\ is_finite x = true /\ (Rabs (B2R x) <= bpow radix2 128)%R.
