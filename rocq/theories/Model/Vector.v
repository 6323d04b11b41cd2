(** Model of eml_vector.h. A vector points into a buffer of floats. *)
From Coq Require Import ZArith List Bool.
From Verif.Base Require Import Res CInt.
From Verif.Model Require Import Common.
Import ListNotations.
Open Scope Z_scope.
Open Scope res_scope.

Section Vector.
Context {F : Type}.          (* float *)

(** eml_vector.h:13-16: the pointer is a position in a buffer. *)
Record vec : Type := mk_vec { v_start : Z; v_length : Z }.

(** eml_vector.h:19-33  eml_vector_set; [d] and [s] are the buffers dest and source point into
    (different objects). Returns the code and the new content of [d]. *)
Definition eml_vector_set (d : list F) (dest : vec) (s : list F) (source : vec) (location : Z)
  : res (Z * list F) :=
  let* final_dest := chk_int32 (v_length source + location) in
  if v_length dest <? final_dest then Ret (-1, d)
  else if location <? 0 then Ret (-2, d)
  else
    let* d' := foldM (fun d k =>
        let i := location + k in
        let* x := zget s (v_start source + (i - location)) in
        zset d (v_start dest + i) x)
      d (zrange (final_dest - location)) in
    Ret (0, d').

(** eml_vector.h:36-42 *)
Definition eml_vector_set_value (d : list F) (a : vec) (val : F) : res (eml_error * list F) :=
  let* d' := foldM (fun d i => zset d (v_start a + i) val) d (zrange (v_length a)) in
  Ret (EmlOk, d').

(** eml_vector.h:45-50; forming a pointer is not checked, the accesses are. *)
Definition eml_vector_view (orig : vec) (start end_ : Z) : res vec :=
  let* length := chk_int32 (end_ - start) in
  Ret (mk_vec (v_start orig + start) length).
End Vector.
