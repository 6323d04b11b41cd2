(** Model of save(name, file) of the model wrappers: the default name, and the file written. Paths are POSIX. *)
From Coq Require Import String ZArith List Bool.
From Verif.Base Require Import Res CInt Float.
From Verif.Model Require Import Common Text Cgen TreesConvert TreesC TreesWrapper SaveText.
Import ListNotations.
Open Scope Z_scope.
Open Scope list_scope.
Open Scope res_scope.

(** os.path.basename: what follows the last '/' *)
Fixpoint basename (p : text) : text :=
  match p with
  | [] => []
  | c :: p' => if existsb (Z.eqb 47) p' then basename p' else if c =? 47 then p' else p
  end.
(** os.path.splitext, the first part: without the last '.' and what follows, unless only dots come before *)
Fixpoint before_last_dot (p : text) : option text :=
  match p with
  | [] => None
  | c :: p' => match before_last_dot p' with Some q => Some (c :: q) | None => if c =? 46 then Some [] else None end
  end.
Definition splitext (p : text) : text :=
  match before_last_dot p with
  | Some q => if forallb (Z.eqb 46) q then p else q
  | None => p
  end.

(** The text files there are. *)
Definition files : Type := text -> option text.
Definition write_file (fs : files) (p code : text) : files := fun q => if text_eqb q p then Some code else fs q.
(** trees.py:848-863, 881-917, neighbors.py:96-110, bayes.py:126-138, distance.py:135-147, mixture.py:365-377, net.py:104-129
    save: the name, the generated code, and the file. [writable] says which files open(file, 'w') can open; a failing
    one (OSError, here RuntimeError_) leaves the files as they were. *)
Definition save_code_to (generate : text -> res text) (writable : text -> bool) (name file : option text) (fs : files) : res text * files :=
  let name := match name, file with
    | Some n, _ => Ret n
    | None, None => Err ValueError_
    | None, Some f => Ret (splitext (basename f))
    end in
  match (let* n := name in generate n) with
  | Err e => (Err e, fs)
  | Ret code =>
      match file with
      | None | Some [] => (Ret code, fs)
      | Some f => if writable f then (Ret code, write_file fs f code) else (Err RuntimeError_, fs)
      end
  end.
(** trees.py:848  save(name=None, file=None, format='c', inference=None, include_proba=True) *)
Definition trees_save (w : wrapper) (include_proba : bool) := save_code_to (fun name => trees_text w name include_proba).
(** neighbors.py:96  save(name=None, file=None) *)
Definition neighbors_save (data : list (list pynum)) (n_features : Z) (labels : list pynum) (n_neighbors : Z) :=
  save_code_to (neighbors_text data n_features labels n_neighbors).
(** The first positional argument: the name for every wrapper but bayes.Wrapper, whose signature is save(file=None, name=None). *)
Inductive wrapper_kind : Type := KTrees | KNeighbors | KNet | KDistance | KMixture | KBayes.
Definition save_positional (k : wrapper_kind) (generate : text -> res text) (writable : text -> bool) (arg : text) (fs : files) : res text * files :=
  match k with
  | KBayes => save_code_to generate writable None (Some arg) fs
  | _ => save_code_to generate writable (Some arg) None fs
  end.
