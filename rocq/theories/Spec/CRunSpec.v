(** Reading and running the statements of a C function: declarations, assignments, +=, counting loops, if and return, with
    int and float variables and arrays. A grammar over tokens (CTextSpec) and an interpreter; anything else is not read.
    Independent of how the text is generated. *)
From Coq Require Import String ZArith List Bool.
From Flocq Require Import Core BinarySingleNaN.
From Verif.Base Require Import Float.
From Verif.Model Require Import Text.
From Verif.Spec Require Import CgenSpec CTextSpec.
Import ListNotations.
Open Scope Z_scope.

(** ** Syntax *)
Inductive cval : Type := VI (z : Z) | VF (x : f32).
Inductive binop : Type := Add | Mul | Div | Lt | Gt.
Inductive expr : Type :=
  | EVal (v : cval)
  | EVar (w : list Z)
  | EIdx (w : list Z) (i : expr)
  | ECall (w : list Z)                      (* w(features, features_length): the function w on the same row *)
  | EBin (op : binop) (a b : expr).
Inductive lval : Type := LVar (w : list Z) | LIdx (w : list Z) (i : expr).
Inductive stmt : Type :=
  | SSkip
  | SSeq (s t : stmt)
  | SInt (w : list Z) (e : expr)            (* int w = e; *)
  | SFloat (w : list Z) (e : expr)          (* float w = e; *)
  | SInts (w : list Z) (n : Z)              (* int w[n] = {0,}; *)
  | SFloats (w : list Z) (n : Z)            (* float w[n] = {0,}; *)
  | SSet (l : lval) (e : expr)
  | SAddTo (l : lval) (e : expr)
  | SFor (w : list Z) (e lim : expr) (body : stmt)   (* for (int w = e; w < lim; w++) { body } *)
  | SIf (c : expr) (body : stmt)
  | SReturn (e : expr).

(** ** Grammar *)
Definition is_name (w : list Z) : Prop := match w with c :: _ => letter c | [] => False end.
Definition int_type (w : list Z) : Prop := w = txt "int" \/ w = txt "int32_t".
Definition op_char (op : binop) : Z := match op with Add => 43 | Mul => 42 | Div => 47 | Lt => 60 | Gt => 62 end.
(** Operands are numbers, variables, elements, calls and parentheses: no precedence is needed. *)
Inductive is_prim : list tok -> expr -> Prop :=
  | P_int w z : int_lit w = Some z -> is_prim [W w] (EVal (VI z))
  | P_neg w z : int_lit w = Some z -> is_prim [P 45; W w] (EVal (VI (- z)))
  | P_float w x : float_lit w = Some x -> is_prim [W w] (EVal (VF x))
  | P_var w : is_name w -> is_prim [W w] (EVar w)
  | P_idx w a e : is_name w -> is_expr a e -> is_prim (W w :: P 91 :: a ++ [P 93]) (EIdx w e)
  | P_call w : is_name w -> is_prim [W w; P 40; W (txt "features"); P 44; W (txt "features_length"); P 41] (ECall w)
  | P_par a e : is_expr a e -> is_prim (P 40 :: a ++ [P 41]) e
with is_expr : list tok -> expr -> Prop :=
  | E_prim a e : is_prim a e -> is_expr a e
  | E_bin a b op e f : is_prim a e -> is_prim b f -> is_expr (a ++ P (op_char op) :: b) (EBin op e f).
Inductive is_lval : list tok -> lval -> Prop :=
  | L_var w : is_name w -> is_lval [W w] (LVar w)
  | L_idx w a e : is_name w -> is_expr a e -> is_lval (W w :: P 91 :: a ++ [P 93]) (LIdx w e).
Inductive code : list tok -> stmt -> Prop :=
  | C_skip : code [] SSkip
  | C_seq a b s t : code a s -> code b t -> code (a ++ b) (SSeq s t)
  | C_int t w a e : int_type t -> is_name w -> is_expr a e -> code (W t :: W w :: P 61 :: a ++ [P 59]) (SInt w e)
  | C_float w a e : is_name w -> is_expr a e -> code (W (txt "float") :: W w :: P 61 :: a ++ [P 59]) (SFloat w e)
  | C_ints t w n k z : int_type t -> is_name w -> int_lit n = Some k -> int_lit z = Some 0 ->
      code [W t; W w; P 91; W n; P 93; P 61; P 123; W z; P 44; P 125; P 59] (SInts w k)
  | C_floats w n k z : is_name w -> int_lit n = Some k -> float_lit z = Some fzero ->
      code [W (txt "float"); W w; P 91; W n; P 93; P 61; P 123; W z; P 44; P 125; P 59] (SFloats w k)
  | C_set l lv a e : is_lval l lv -> is_expr a e -> code (l ++ P 61 :: a ++ [P 59]) (SSet lv e)
  | C_add l lv a e : is_lval l lv -> is_expr a e -> code (l ++ P 43 :: P 61 :: a ++ [P 59]) (SAddTo lv e)
  | C_for t w a e b lim body s : int_type t -> is_name w -> is_prim a e -> is_prim b lim -> code body s ->
      code (W (txt "for") :: P 40 :: W t :: W w :: P 61 :: a ++ P 59 :: W w :: P 60 :: b ++ P 59 :: W w :: P 43 :: P 43 :: P 41 ::
            P 123 :: body ++ [P 125]) (SFor w e lim s)
  | C_if a e body s : is_expr a e -> code body s ->
      code (W (txt "if") :: P 40 :: a ++ P 41 :: P 123 :: body ++ [P 125]) (SIf e s)
  | C_return a e : is_expr a e -> code (W (txt "return") :: a ++ [P 59]) (SReturn e).

(** ** Running *)
(** What a variable holds. The arguments features and features_length are only passed on and are not among them. *)
Inductive cell : Type := CInt (z : Z) | CFloat (x : f32) | CInts (l : list Z) | CFloats (l : list f32).
Definition cenv : Type := list (list Z * cell).
Fixpoint find (w : list Z) (env : cenv) : option cell :=
  match env with
  | [] => None
  | (v, c) :: env' => if list_eq_dec Z.eq_dec w v then Some c else find w env'
  end.
Fixpoint store (w : list Z) (c : cell) (env : cenv) : cenv :=
  match env with
  | [] => []
  | (v, d) :: env' => if list_eq_dec Z.eq_dec w v then (v, c) :: env' else (v, d) :: store w c env'
  end.
Definition at_index {A} (l : list A) (i : Z) : option A := if i <? 0 then None else nth_error l (Z.to_nat i).
Fixpoint put_at {A} (l : list A) (n : nat) (x : A) : option (list A) :=
  match l, n with
  | [], _ => None
  | _ :: l', O => Some (x :: l')
  | a :: l', S n' => let? r := put_at l' n' x in Some (a :: r)
  end.
Definition put {A} (l : list A) (i : Z) (x : A) : option (list A) := if i <? 0 then None else put_at l (Z.to_nat i) x.
(** int is 32 bit, overflow is undefined; an int meeting a float becomes a float *)
Definition int_val (z : Z) : option cval := if (-2147483648 <=? z) && (z <=? 2147483647) then Some (VI z) else None.
Definition as_float (v : cval) : f32 := match v with VI z => f_of_Z z | VF x => x end.
Definition truth (b : bool) : cval := VI (if b then 1 else 0).
Definition arith (op : binop) (a b : cval) : option cval :=
  match a, b with
  | VI x, VI y =>
      match op with
      | Add => int_val (x + y) | Mul => int_val (x * y)
      | Div => if y =? 0 then None else int_val (Z.quot x y)
      | Lt => Some (truth (x <? y)) | Gt => Some (truth (y <? x))
      end
  | _, _ =>
      let x := as_float a in let y := as_float b in
      match op with
      | Add => Some (VF (fadd x y)) | Mul => Some (VF (fmul x y)) | Div => Some (VF (fdiv x y))
      | Lt => Some (truth (fltb x y)) | Gt => Some (truth (fltb y x))
      end
  end.
Section Run.
Variable callee : list Z -> option cval.     (* what the functions of the file return on the row *)
Fixpoint eval (env : cenv) (e : expr) : option cval :=
  match e with
  | EVal v => Some v
  | EVar w => match find w env with Some (CInt z) => Some (VI z) | Some (CFloat x) => Some (VF x) | _ => None end
  | EIdx w i =>
      match eval env i, find w env with
      | Some (VI i), Some (CInts l) => let? z := at_index l i in Some (VI z)
      | Some (VI i), Some (CFloats l) => let? x := at_index l i in Some (VF x)
      | _, _ => None
      end
  | ECall w => callee w
  | EBin op a b => let? x := eval env a in let? y := eval env b in arith op x y
  end.
Definition assign (env : cenv) (l : lval) (v : cval) : option cenv :=
  match l with
  | LVar w =>
      match find w env, v with
      | Some (CInt _), VI z => Some (store w (CInt z) env)
      | Some (CFloat _), _ => Some (store w (CFloat (as_float v)) env)
      | _, _ => None
      end
  | LIdx w e =>
      match eval env e, find w env, v with
      | Some (VI i), Some (CInts l), VI z => let? l := put l i z in Some (store w (CInts l) env)
      | Some (VI i), Some (CFloats l), _ => let? l := put l i (as_float v) in Some (store w (CFloats l) env)
      | _, _, _ => None
      end
  end.
Definition content (l : lval) : expr := match l with LVar w => EVar w | LIdx w e => EIdx w e end.
Definition add_to (env : cenv) (l : lval) (v : cval) : option cenv :=
  let? x := eval env (content l) in let? y := arith Add x v in assign env l y.
(** leaving a block *)
Definition leave (env env' : cenv) : cenv := skipn (length env' - length env) env'.
(** while (w < lim) { body; w++; }  for at most n rounds *)
Fixpoint loop (body : cenv -> option (cenv * option cval)) (w : list Z) (lim : expr) (n : nat) (env : cenv) : option (cenv * option cval) :=
  let? c := eval env (EBin Lt (EVar w) lim) in
  match c with
  | VI 0 => Some (env, None)
  | _ =>
      match n with
      | O => None
      | S n' =>
          let? (env', r) := body env in
          match r with
          | Some v => Some (env', Some v)
          | None => let? env'' := add_to (leave env env') (LVar w) (VI 1) in loop body w lim n' env''
          end
      end
  end.
(** The variables afterwards, and the value returned if a return was met. *)
Fixpoint run (s : stmt) (env : cenv) : option (cenv * option cval) :=
  match s with
  | SSkip => Some (env, None)
  | SSeq s t => let? (env', r) := run s env in match r with Some v => Some (env', Some v) | None => run t env' end
  | SInt w e => let? v := eval env e in match v with VI z => Some ((w, CInt z) :: env, None) | VF _ => None end
  | SFloat w e => let? v := eval env e in Some ((w, CFloat (as_float v)) :: env, None)
  | SInts w n => Some ((w, CInts (repeat 0 (Z.to_nat n))) :: env, None)
  | SFloats w n => Some ((w, CFloats (repeat fzero (Z.to_nat n))) :: env, None)
  | SSet l e => let? v := eval env e in let? env := assign env l v in Some (env, None)
  | SAddTo l e => let? v := eval env e in let? env := add_to env l v in Some (env, None)
  | SFor w e lim body =>
      let? a := eval env e in
      match a with
      | VI a =>
          let env1 := (w, CInt a) :: env in
          let? b := eval env1 lim in
          match b with
          | VI b => let? (env', r) := loop (run body) w lim (Z.to_nat (b - a)) env1 in Some (leave env env', r)
          | VF _ => None
          end
      | VF _ => None
      end
  | SIf c body =>
      let? v := eval env c in
      match v with
      | VI 0 => Some (env, None)
      | VI _ => let? (env', r) := run body env in Some (leave env env', r)
      | VF _ => None
      end
  | SReturn e => let? v := eval env e in Some (env, Some v)
  end.
End Run.
(** A function  (params) { body } *)
Definition is_function (params rest : list tok) (s : stmt) : Prop := exists body, rest = P 40 :: params ++ P 41 :: P 123 :: body ++ [P 125] /\ code body s.
Definition row_params (ctype : list Z) : list tok :=
  [W (txt "const"); W ctype; P 42; W (txt "features"); P 44; W (txt "int32_t"); W (txt "features_length")].
Definition row_out_params (ctype : list Z) : list tok :=
  row_params ctype ++ [P 44; W (txt "float"); P 42; W (txt "out"); P 44; W (txt "int"); W (txt "out_length")].

(** ** The functions of a file *)
Fixpoint body_of (w : list Z) (ds : list (list Z * list tok)) : option (list tok) :=
  match ds with
  | [] => None
  | (v, rest) :: ds' => if list_eq_dec Z.eq_dec w v then Some rest else body_of w ds'
  end.
(** What the tree function [w] of the file [t] returns on a row. *)
Definition file_call {K X V} (cst : list Z -> option K) (ret : list Z -> option V) (lt : X -> K -> bool) (val : V -> cval)
    (t ctype : list Z) (features : list X) (w : list Z) : option cval :=
  let? rest := body_of w (definitions t) in
  let? c := tree_function ctype rest in
  let? v := exec int_lit cst ret lt features c in
  Some (val v).
(** A table of the file. *)
Definition file_table (t : list Z) (d : list Z * cell) : Prop :=
  exists rest n lits zs, body_of (fst d) (definitions t) = Some rest /\ array_def rest = Some (n, lits) /\ map int_lit lits = map Some zs /\ snd d = CInts zs.
(** Calling the function [f] of the file [t]: its parameters are [params], the arguments other than the row are [args]; it
    returns [v] and leaves the variables [vars]. *)
Definition file_runs (t f : list Z) (params : list tok) (callee : list Z -> option cval) (args : cenv) (v : cval) (vars : cenv) : Prop :=
  exists rest s globals, body_of f (definitions t) = Some rest /\ is_function params rest s /\ Forall (file_table t) globals /\
    run callee s (args ++ globals) = Some (vars, Some v).
(** NAME_predict of the file [t] returns [v] on the row [features] of type [ctype]. *)
Definition predicts {K X V} (cst : list Z -> option K) (ret : list Z -> option V) (lt : X -> K -> bool) (val : V -> cval)
    (t name ctype : list Z) (features : list X) (v : cval) : Prop :=
  exists vars, file_runs t (name ++ txt "_predict") (row_params ctype) (file_call cst ret lt val t ctype features) [] v vars.
(** NAME_predict_proba(features, features_length, out, out_length) returns 0 and leaves [out'] in the array. *)
Definition probas {K X V} (cst : list Z -> option K) (ret : list Z -> option V) (lt : X -> K -> bool) (val : V -> cval)
    (t name ctype : list Z) (features : list X) (out : list f32) (out_length : Z) (out' : list f32) : Prop :=
  exists vars, file_runs t (name ++ txt "_predict_proba") (row_out_params ctype) (file_call cst ret lt val t ctype features)
    [(txt "out", CFloats out); (txt "out_length", CInt out_length)] (VI 0) vars /\ find (txt "out") vars = Some (CFloats out').
