(** memcpy on arrays of bytes (or other cells). *)
From Coq Require Import ZArith List Bool.
From Verif.Base Require Import Res.
Import ListNotations.
Open Scope Z_scope.
Open Scope res_scope.

(** memcpy(dst + toff, src + soff, n) between different objects. *)
Definition memcpy2 {A} (dst : list A) (toff : Z) (src : list A) (soff n : Z) : res (list A) :=
  foldM (fun d i => let* v := zget src (soff + i) in zset d (toff + i) v) dst (zrange n).

(** memcpy inside one object: overlapping regions are undefined behaviour (this includes equal
    addresses). *)
Definition memcpy1 {A} (d : list A) (toff soff n : Z) : res (list A) :=
  if (0 <? n) && (Z.abs (toff - soff) <? n) then Err OverlappingCopy
  else memcpy2 d toff d soff n.
