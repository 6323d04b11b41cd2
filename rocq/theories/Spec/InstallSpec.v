(** Installing the Arduino library: what is meant by the words. *)
From Coq Require Import String ZArith List.
From Verif.Model Require Import Text Install.
Import ListNotations.
Open Scope Z_scope.

(** Whatever exists is in a directory that exists. *)
Definition tree (s : fs) : Prop := forall p n, lookup s (p ++ [n]) <> None -> lookup s p = Some Dir.
(** None of the characters * ? [ occurs in the path. *)
Definition plain (p : path) : Prop := Forall (fun n => ~ In 42 n /\ ~ In 63 n /\ ~ In 91 n) p.
(** The files that are to be installed: eml_<anything>.h and VERSION.txt. *)
Definition wanted (n : list Z) : Prop :=
  (exists mid, n = txt "eml_"%string ++ mid ++ txt ".h"%string) \/ n = txt "VERSION.txt"%string.
(** The directory of the library. *)
Definition library (arduino : path) : path := arduino ++ [txt "emlearn"%string].
(** All states of a run from the first to the last: where an interruption can leave the files. *)
Definition states (w : world) : list fs := now w :: past w.

(** Compared with [s0], [s] has at most the two directories more, and the first bytes of wanted files in the library. *)
Definition only_library (s0 : fs) (include arduino : path) (s : fs) : Prop :=
  forall p, lookup s p = lookup s0 p \/
    ((p = arduino \/ p = library arduino) /\ lookup s0 p = None /\ lookup s p = Some Dir) \/
    exists n c k, wanted n /\ p = library arduino ++ [n] /\ lookup s0 (include ++ [n]) = Some (File c) /\ lookup s p = Some (File (firstn k c)).
(** The library in [s] has every wanted file of [s0]'s include directory, whole. *)
Definition complete (s0 : fs) (include arduino : path) (s : fs) : Prop :=
  forall n c, wanted n -> lookup s0 (include ++ [n]) = Some (File c) -> lookup s (library arduino ++ [n]) = Some (File c).
(** Nothing is in the way. *)
Definition can_install (s : fs) (include arduino : path) (update : bool) : Prop :=
  include <> library arduino /\
  (lookup s (library arduino) = None \/ update = true /\ lookup s (library arduino) = Some Dir) /\
  (lookup s arduino = Some Dir \/ lookup s arduino = None /\ lookup s (removelast arduino) = Some Dir) /\
  forall n, wanted n -> include ++ [n] <> arduino /\ lookup s (include ++ [n]) <> Some Dir /\
    (lookup s (include ++ [n]) <> None -> lookup s (library arduino ++ [n]) <> Some Dir).
