(** Histories of conversions and predictions. *)
From Coq Require Import ZArith List.
From Verif.Base Require Import Res.
From Verif.Model Require Import Workspace.
Import ListNotations.

(** The outcome of the last call of a history, in a session started with an empty directory. *)
Definition answer (ops : list op) : option output := last (map Some (snd (run start ops))) None.
(** How many models a history has made. *)
Definition made (ops : list op) : nat :=
  length (filter (fun o => match o with OModel _ => true | _ => false end) (snd (run start ops))).
(** The history converts no model of kind k. *)
Definition without (k : kind) (ops : list op) : Prop := Forall (fun o => match o with New k' _ => k' <> k | _ => True end) ops.
(** The code of a model: for predict, and possibly for predict_proba. *)
Definition code_ok (s : source) : Prop :=
  match src_call s with Ret (PProba _) => False | _ => True end /\
  match src_proba s with Some (Ret (PClassify _)) => False | _ => True end.
