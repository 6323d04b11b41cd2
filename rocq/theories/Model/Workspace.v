(** Model of a Python session that converts models and calls predict: the executables are files in the directory
    'tmp' under fixed names, shared by all models of the session. *)
From Coq Require Import String ZArith List Bool.
From Flocq Require Import Core BinarySingleNaN.
From Verif.Base Require Import Res CInt Float.
From Verif.Model Require Import Common Text TreesConvert TreesC Harness.
Import ListNotations.
Open Scope Z_scope.
Open Scope res_scope.
Open Scope string_scope.

(** An executable made by build_classifier: for predict (common.py:92-104) or for predict_proba (common.py:73-90). *)
Inductive program : Type :=
  | PClassify (func : list (option f32) -> Z -> res f64)
  | PProba (func : list f32 -> list (option f32) -> Z -> res (list f32)).
(** The files of the directory tmp; the newest first. *)
Definition files : Type := list (string * program).
Fixpoint file_at (fs : files) (path : string) : res program :=
  match fs with
  | [] => Err KeyError_
  | (name, p) :: fs' => if String.eqb name path then Ret p else file_at fs' path
  end.

(** common.py:38-119  build_classifier: the executable tmp/<name> is replaced when compiling and linking succeed. *)
Definition build_classifier (fs : files) (name : string) (code : res program) : files * res string :=
  match code with
  | Ret p => ((name, p) :: fs, Ret name)
  | Err e => (fs, Err e)
  end.

(** common.py:160-181  the attributes of a CompiledClassifier *)
Record compiled : Type := mk_compiled {
  cc_bin_path : string; cc_proba_bin_path : option string; cc_out_dtype : out_dtype; cc_n_classes : Z }.
Definition compiled_classifier (fs : files) (name : string) (call : res program) (proba_call : option (res program))
    (dt : out_dtype) (n_classes : Z) : files * res compiled :=
  let '(fs, bin_path) := build_classifier fs name call in
  match bin_path with
  | Err e => (fs, Err e)
  | Ret bin_path =>
      match proba_call with
      | None => (fs, Ret (mk_compiled bin_path None dt n_classes))
      | Some proba_call =>
          let '(fs, proba_path) := build_classifier fs (name ++ "_proba") proba_call in
          match proba_path with
          | Err e => (fs, Err e)
          | Ret p => (fs, Ret (mk_compiled bin_path (Some p) dt n_classes))
          end
      end
  end.
(** common.py:183-210  predict, regress and predict_proba run whatever is at the path now. *)
Definition compiled_predict (fs : files) (c : compiled) (X : list (list f64)) : res (list pynum) :=
  let* p := file_at fs (cc_bin_path c) in
  match p with PClassify func => predict func (cc_out_dtype c) X | PProba _ => Err RuntimeError_ end.
Definition compiled_predict_proba (fs : files) (c : compiled) (X : list (list f64)) : res (list (list (option f64))) :=
  match cc_proba_bin_path c with
  | None => Err ValueError_
  | Some path =>
      let* p := file_at fs path in
      match p with PProba func => predict_proba func (cc_n_classes c) X | PClassify _ => Err RuntimeError_ end
  end.

(** The models whose constructor compiles, with the fixed name each uses: bayes.py:113-116, net.py:57-86,
    neighbors.py:48-85, distance.py:105-108. *)
Inductive kind : Type := KBayes | KNet | KNeighbors | KElliptic.
Definition kind_name (k : kind) : string :=
  match k with KBayes => "mybayes" | KNet => "mynet" | KNeighbors => "mymodel" | KElliptic => "my_inline_elliptic" end.
(** trees.py:748 *)
Definition tree_name : string := "mytree".

(** What a converted model is: generated code (or the exception raised by generating or compiling it) for predict
    and for predict_proba, type of the results, number of classes. *)
Record source : Type := mk_source {
  src_call : res program; src_proba : option (res program); src_dtype : out_dtype; src_n_classes : Z }.
(** A model object: the other wrappers keep a CompiledClassifier; a tree wrapper keeps what it needs to build one
    (trees.py:742; _classifier stays None, so that trees.py:744-828 builds anew in every call). *)
Inductive model : Type :=
  | MCompiled (c : compiled)
  | MTrees (s : source).

(** One call of the session. *)
Inductive op : Type :=
  | New (k : kind) (s : source)
  | NewTrees (s : source)
  | Predict (i : nat) (X : list (list f64))
  | PredictProba (i : nat) (X : list (list f64)).
Inductive output : Type :=
  | OModel (i : nat)
  | ORaised (e : fault)
  | OPredictions (out : res (list pynum))
  | OProbabilities (out : res (list (list (option f64)))).
(** The session: the files and the model objects made so far. *)
Record session : Type := mk_session { s_files : files; s_models : list model }.

(** Carries out one call; models are numbered in the order they were made. *)
Definition step (s : session) (o : op) : session * output :=
  match o with
  | New k src =>
      let '(fs, r) := compiled_classifier (s_files s) (kind_name k) (src_call src) (src_proba src) (src_dtype src) (src_n_classes src) in
      match r with
      | Ret c => (mk_session fs (s_models s ++ [MCompiled c]), OModel (length (s_models s)))
      | Err e => (mk_session fs (s_models s), ORaised e)
      end
  | NewTrees src => (mk_session (s_files s) (s_models s ++ [MTrees src]), OModel (length (s_models s)))
  | Predict i X =>
      match nth_error (s_models s) i with
      | None => (s, ORaised KeyError_)
      | Some (MCompiled c) => (s, OPredictions (compiled_predict (s_files s) c X))
      | Some (MTrees src) =>
          let '(fs, r) := compiled_classifier (s_files s) tree_name (src_call src) (src_proba src) (src_dtype src) (src_n_classes src) in
          (mk_session fs (s_models s), OPredictions (let* c := r in compiled_predict fs c X))
      end
  | PredictProba i X =>
      match nth_error (s_models s) i with
      | None => (s, ORaised KeyError_)
      | Some (MCompiled c) => (s, OProbabilities (compiled_predict_proba (s_files s) c X))
      | Some (MTrees src) =>
          let '(fs, r) := compiled_classifier (s_files s) tree_name (src_call src) (src_proba src) (src_dtype src) (src_n_classes src) in
          (mk_session fs (s_models s), OProbabilities (let* c := r in compiled_predict_proba fs c X))
      end
  end.
(** A history of calls and all its outputs. *)
Fixpoint run (s : session) (ops : list op) : session * list output :=
  match ops with
  | [] => (s, [])
  | o :: ops' => let '(s1, out) := step s o in let '(s2, outs) := run s1 ops' in (s2, out :: outs)
  end.
Definition start : session := mk_session [] [].
