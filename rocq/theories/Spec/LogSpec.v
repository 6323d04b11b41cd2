(** What a log in logfmt is: lines "event key1=value1 key2=value2". *)
From Coq Require Import ZArith List Bool Reals.
From Flocq Require Import Core BinarySingleNaN.
From Verif.Base Require Import Res Float.
From Verif.Model Require Import Log.
From Verif.Spec Require Import StrSpec.
Import ListNotations.
Open Scope Z_scope.

(** One entry: the event and its keys with the text of their values. *)
Record entry : Type := mk_entry { event : list Z; pairs : list (list Z * list Z) }.
(** 32 is the space, 61 the equals sign, 10 the newline. *)
Definition line_of (e : entry) : list Z :=
  event e ++ concat (map (fun '(k, v) => 32 :: k ++ 61 :: v) (pairs e)) ++ [10].
Definition log_of (l : list entry) : list Z := concat (map line_of l).

(** Text without spaces and newlines. *)
Definition word (t : list Z) : Prop := Forall (fun c => c <> 32 /\ c <> 10) t.
Definition key_word (t : list Z) : Prop := word t /\ ~ In 61 t.
Definition proper (e : entry) : Prop := word (event e) /\ Forall (fun '(k, v) => key_word k /\ word v) (pairs e).

(** The text of an integer. *)
Definition int_text (t : list Z) (z : Z) : Prop :=
  exists (neg : bool) ds, t = (if neg then [45] else []) ++ ds /\ digit_text ds /\ ds <> [] /\ z = (if neg then - number ds else number ds).
(** The text of a number with four digits after the point. *)
Definition fixed4_text (t : list Z) (v : R) : Prop :=
  exists (neg : bool) whole frac, t = (if neg then [45] else []) ++ whole ++ 46 :: frac /\
    digit_text whole /\ whole <> [] /\ digit_text frac /\ length frac = 4%nat /\
    v = ((if neg then -1 else 1) * IZR (number (whole ++ frac)) / 10000)%R.

(** Keys and values that can be logged: words (C strings, so without the character 0), finite numbers, no arrays. *)
Definition good_add (a : log_add) : Prop :=
  match a with
  | Add k v => key_word k /\ word v
  | AddInteger k _ | AddBool k _ => key_word k
  | AddFloat k x => key_word k /\ is_finite x = true
  | AddArray _ _ _ _ => False
  end.
(** Names of events: words without the percent sign (37). *)
Definition good_event (t : list Z) : Prop := word t /\ ~ In 37 t.
(** A key with the text of its value says what was logged. *)
Definition says (a : log_add) (p : list Z * list Z) : Prop :=
  match a with
  | Add k v => p = (k, v)
  | AddInteger k z => fst p = k /\ int_text (snd p) z
  | AddBool k b => p = (k, if b then [116; 114; 117; 101] else [102; 97; 108; 115; 101])
  | AddFloat k x => fst p = k /\ exists r, fixed4_text (snd p) r /\ (Rabs (r - B2R x) <= / 20000)%R
  | AddArray _ _ _ _ => False
  end.
Definition entry_says (l : list Z * list log_add) (e : entry) : Prop := event e = fst l /\ Forall2 says (snd l) (pairs e).
