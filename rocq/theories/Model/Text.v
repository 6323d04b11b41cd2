(** Numbers as text: what printf("%.kf"), Python's "{:.kf}" and "{:d}" print, and how sscanf("%f") and
    Python's float() read it. Text is the list of its character codes. *)
From Coq Require Import String Ascii ZArith List Bool.
From Flocq Require Import Core BinarySingleNaN.
From Verif.Base Require Import Res Float.
Import ListNotations.
Open Scope Z_scope.

(** Literal text. *)
Fixpoint txt (s : string) : list Z :=
  match s with
  | EmptyString => []
  | String c s' => Z.of_N (N_of_ascii c) :: txt s'
  end.

(** Decimal digits of n >= 0, without leading zeros. *)
Fixpoint dec_fuel (fuel : nat) (n : Z) : list Z :=
  match fuel with
  | O => []
  | S f => if n <? 10 then [48 + n] else dec_fuel f (n / 10) ++ [48 + n mod 10]
  end.
Definition dec_digits (n : Z) : list Z := dec_fuel (S (Z.to_nat (Z.log2 n))) n.
(** "%d", "{:d}" *)
Definition fmt_int (z : Z) : list Z := if z <? 0 then 45 :: dec_digits (- z) else dec_digits z.

(** Exactly k digits of r, 0 <= r < 10^k. *)
Fixpoint pad_digits (k : nat) (r : Z) : list Z :=
  match k with
  | O => []
  | S k' => pad_digits k' (r / 10) ++ [48 + r mod 10]
  end.

(** n/d to the nearest integer, ties to even (n >= 0, d > 0). *)
Definition rne_div (n d : Z) : Z :=
  let q := n / d in let r := n mod d in
  if 2 * r <? d then q else if d <? 2 * r then q + 1 else if Z.even q then q else q + 1.

Section F.
Context {prec emax : Z} {Hp : Prec_gt_0 prec} {Hm : Prec_lt_emax prec emax}.
Notation fl := (binary_float prec emax).
(** |x| * 10^k to the nearest integer, ties to even: the exact binary value is used (glibc and CPython). *)
Definition scaled_int (k : nat) (x : fl) : Z :=
  match x with
  | B754_finite _ m e _ =>
      if 0 <=? e then Zpos m * 2 ^ e * 10 ^ Z.of_nat k else rne_div (Zpos m * 10 ^ Z.of_nat k) (2 ^ (- e))
  | _ => 0
  end.
(** "%.kf" with k > 0 *)
Definition fmt_fixed (k : nat) (x : fl) : list Z :=
  match x with
  | B754_nan => txt "nan"
  | _ => (if Bsign x then [45] else []) ++
         match x with
         | B754_infinity _ => txt "inf"
         | _ => let n := scaled_int k x in
             dec_digits (n / 10 ^ Z.of_nat k) ++ [46] ++ pad_digits k (n mod 10 ^ Z.of_nat k)
         end
  end.

(** The float nearest to n / 10^k (strtof, strtod and float() are correctly rounded). *)
Definition f_of_dec (s : bool) (n k : Z) : fl :=
  match n with
  | Zpos p => SF2B _ (proj1 (Bdiv_correct_aux prec emax Hp Hm mode_NE s p 0 false (Z.to_pos (10 ^ k)) 0))
  | _ => B754_zero s
  end.
End F.

Definition is_digit (c : Z) : bool := (48 <=? c) && (c <=? 57).
Definition is_space (c : Z) : bool := (c =? 32) || ((9 <=? c) && (c <=? 13)).
(** The longest prefix of digits: its value (continuing from acc), its length, the rest. *)
Fixpoint take_digits (acc : Z) (len : Z) (l : list Z) : Z * Z * list Z :=
  match l with
  | c :: l' => if is_digit c then take_digits (10 * acc + (c - 48)) (len + 1) l' else (acc, len, l)
  | [] => (acc, len, [])
  end.
Fixpoint skip_spaces (l : list Z) : list Z :=
  match l with c :: l' => if is_space c then skip_spaces l' else l | [] => [] end.
Definition take_sign (l : list Z) : bool * list Z :=
  match l with
  | c :: l' => if c =? 45 then (true, l') else if c =? 43 then (false, l') else (false, l)
  | [] => (false, [])
  end.
(** Reads [sign] digits [. digits]: sign, the digits as one integer, how many of them follow the point, and
    the rest of the text; None when there is no digit. Exponents, hexadecimal numbers, and the words inf and
    nan, which strtof also reads, are left out. *)
Definition scan_decimal (l : list Z) : option (bool * Z * Z * list Z) :=
  let '(s, l) := take_sign (skip_spaces l) in
  let '(n, len, rest) := take_digits 0 0 l in
  match rest with
  | c :: rest' =>
      if c =? 46 then
        let '(n, k, rest'') := take_digits n 0 rest' in
        if len + k =? 0 then None else Some (s, n, k, rest'')
      else if len =? 0 then None else Some (s, n, 0, rest)
  | [] => if len =? 0 then None else Some (s, n, 0, [])
  end.

(** str.split(sep) for a one-character separator; also the pieces strtok sees (it skips empty ones). *)
Fixpoint split_on (sep : Z -> bool) (l : list Z) : list (list Z) :=
  match l with
  | [] => [[]]
  | c :: l' =>
      if sep c then [] :: split_on sep l'
      else match split_on sep l' with
           | t :: ts => (c :: t) :: ts
           | [] => [[c]]
           end
  end.
(** sep.join(parts) *)
Fixpoint join_with (sep : list Z) (parts : list (list Z)) : list Z :=
  match parts with
  | [] => []
  | p :: ps => match ps with [] => p | _ => p ++ sep ++ join_with sep ps end
  end.
