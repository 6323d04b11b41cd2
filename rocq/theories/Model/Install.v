(** Model of emlearn/arduino/install.py and of the parts of os, glob, fnmatch and shutil it uses.

    Files are contents (lists of bytes) at absolute, normalised Unix paths; there are no links, permissions are
    not modelled and nobody else changes the files. Every state the file system goes through is recorded: these
    are the states in which an interruption (power loss, kill) leaves it. *)
From Coq Require Import String ZArith List Bool.
From Verif.Base Require Import Res.
From Verif.Model Require Import Text Cgen.
Import ListNotations.
Open Scope Z_scope.

(** A name is the list of its characters, a path the list of its components. *)
Definition path : Type := list (list Z).
Inductive node : Type := Dir | File (content : list Z).
Definition fs : Type := list (path * node).

Fixpoint path_eqb (p q : path) : bool :=
  match p, q with
  | [], [] => true
  | a :: p, b :: q => text_eqb a b && path_eqb p q
  | _, _ => false
  end.
Fixpoint find_node (s : fs) (p : path) : option node :=
  match s with
  | [] => None
  | (q, n) :: s => if path_eqb q p then Some n else find_node s p
  end.
(** What is at a path. The root is a directory. *)
Definition lookup (s : fs) (p : path) : option node := match p with [] => Some Dir | _ => find_node s p end.
(** Put a node at a path. *)
Fixpoint put (s : fs) (p : path) (n : node) : fs :=
  match s with
  | [] => [(p, n)]
  | (q, m) :: s => if path_eqb q p then (q, n) :: s else (q, m) :: put s p n
  end.

(** os.path.exists, os.path.isdir *)
Definition exists_ (s : fs) (p : path) : bool := match lookup s p with Some _ => true | None => false end.
Definition isdir (s : fs) (p : path) : bool := match lookup s p with Some Dir => true | _ => false end.
(** os.listdir: the names in a directory; nothing if it is not a directory (glob catches the error). *)
Fixpoint name_in (d p : path) : option (list Z) :=
  match d, p with
  | [], [n] => Some n
  | a :: d, b :: p => if text_eqb a b then name_in d p else None
  | _, _ => None
  end.
Definition listdir (s : fs) (d : path) : list (list Z) :=
  flat_map (fun e => match name_in d (fst e) with Some n => [n] | None => [] end) s.

(** ** glob and fnmatch *)
Definition c_star := 42. Definition c_question := 63. Definition c_open := 91. Definition c_close := 93.
Definition c_bang := 33. Definition c_dash := 45. Definition c_dot := 46.

(** glob.has_magic: contains one of * ? [ *)
Definition has_magic (pat : list Z) : bool := existsb (fun c => (c =? c_star) || (c =? c_question) || (c =? c_open)) pat.

Inductive token : Type := TStar | TAny | TLit (c : Z) | TSet (negated : bool) (ranges : list (Z * Z)).
(** The characters of a set: a-b is a range, any other character stands for itself. (Simplified: fnmatch reads
    a-b-c in another way.) *)
Fixpoint set_ranges (l : list Z) : list (Z * Z) :=
  match l with
  | [] => []
  | a :: l' =>
      match l' with
      | d :: b :: l'' => if d =? c_dash then (a, b) :: set_ranges l'' else (a, a) :: set_ranges l'
      | _ => (a, a) :: set_ranges l'
      end
  end.
(** The text up to the first ] and what follows it. *)
Fixpoint until_close (l : list Z) : option (list Z * list Z) :=
  match l with
  | [] => None
  | c :: l => if c =? c_close then Some ([], l) else match until_close l with Some (a, b) => Some (c :: a, b) | None => None end
  end.
(** After [: a ! may follow, and a ] there is an ordinary character. *)
Definition set_body (l : list Z) : option (bool * list Z * list Z) :=
  let '(neg, l) := match l with c :: l' => if c =? c_bang then (true, l') else (false, l) | [] => (false, l) end in
  match l with
  | [] => None
  | c :: l' =>
      if c =? c_close then match until_close l' with Some (a, b) => Some (neg, c :: a, b) | None => None end
      else match until_close l with Some (a, b) => Some (neg, a, b) | None => None end
  end.
(** fnmatch.translate; a [ without ] stands for itself. *)
Fixpoint tokens (fuel : nat) (pat : list Z) : list token :=
  match fuel with
  | O => []
  | S fuel =>
      match pat with
      | [] => []
      | c :: rest =>
          if c =? c_star then TStar :: tokens fuel rest
          else if c =? c_question then TAny :: tokens fuel rest
          else if c =? c_open then
            match set_body rest with
            | Some (neg, body, rest') => TSet neg (set_ranges body) :: tokens fuel rest'
            | None => TLit c :: tokens fuel rest
            end
          else TLit c :: tokens fuel rest
      end
  end.
Fixpoint star_match (k : list Z -> bool) (t : list Z) : bool :=
  k t || match t with [] => false | _ :: t => star_match k t end.
Fixpoint match_tokens (ts : list token) (t : list Z) : bool :=
  match ts with
  | [] => match t with [] => true | _ => false end
  | TStar :: ts => star_match (match_tokens ts) t
  | TAny :: ts => match t with [] => false | _ :: t => match_tokens ts t end
  | TLit c :: ts => match t with [] => false | d :: t => (c =? d) && match_tokens ts t end
  | TSet neg rs :: ts => match t with [] => false | d :: t => xorb neg (existsb (fun r => (fst r <=? d) && (d <=? snd r)) rs) && match_tokens ts t end
  end.
(** fnmatch.filter on one name; glob leaves out names that begin with a dot unless the pattern does. *)
Definition hidden (t : list Z) : bool := match t with c :: _ => c =? c_dot | [] => false end.
Definition fnmatch (pat t : list Z) : bool :=
  match_tokens (tokens (length pat) pat) t && (hidden pat || negb (hidden t)).

(** glob.glob of a path, component by component. (glob looks up the part without magic characters in one go:
    the same when whatever exists is in an existing directory.) *)
Definition glob_step (s : fs) (only_dirs : bool) (dirs : list path) (pat : list Z) : list path :=
  flat_map (fun d =>
    if has_magic pat then
      filter (fun p => negb only_dirs || isdir s p) (map (fun n => d ++ [n]) (filter (fnmatch pat) (listdir s d)))
    else if exists_ s (d ++ [pat]) then [d ++ [pat]] else []) dirs.
Fixpoint glob_dirs (s : fs) (dirs : list path) (pats : path) : list path :=
  match pats with
  | [] => dirs
  | pat :: pats => glob_dirs s (glob_step s true dirs pat) pats
  end.
Definition glob (s : fs) (dir : path) (pat : list Z) : list path := glob_step s false (glob_dirs s [[]] dir) pat.

(** ** Actions *)
Inductive exn : Type := InstallError | FileNotFound | FileExists | NotADirectory | IsADirectory | SameFile.
Inductive outcome (A : Type) : Type := Done (a : A) | Raised (e : exn).
Arguments Done {A}. Arguments Raised {A}.
(** The current state, and the earlier ones (newest first). *)
Record world : Type := mk_world { now : fs; past : list fs }.
Definition become (w : world) (s : fs) : world := mk_world s (now w :: past w).

Definition parent (p : path) : path := removelast p.
Definition basename (p : path) : list Z := last p [].

(** os.mkdir *)
Definition mkdir (w : world) (p : path) : world * outcome unit :=
  match lookup (now w) p with
  | Some _ => (w, Raised FileExists)
  | None =>
      match lookup (now w) (parent p) with
      | Some Dir => (become w (put (now w) p Dir), Done tt)
      | Some _ => (w, Raised NotADirectory)
      | None => (w, Raised FileNotFound)
      end
  end.
(** utils/fileutils.py:4-11  ensure_dir_single *)
Definition ensure_dir_single (w : world) (p : path) : world * outcome unit :=
  if exists_ (now w) p then (w, Done tt) else mkdir w p.

(** Writing a file: it is emptied, then the bytes arrive one after the other. *)
Fixpoint write_bytes (w : world) (p : path) (done_ rest : list Z) : world :=
  match rest with
  | [] => w
  | b :: rest => write_bytes (become w (put (now w) p (File (done_ ++ [b])))) p (done_ ++ [b]) rest
  end.
Definition write_file (w : world) (p : path) (content : list Z) : world :=
  write_bytes (become w (put (now w) p (File []))) p [] content.

(** shutil.copy(f, library_dir + '/') *)
Definition copy (w : world) (f dir : path) : world * outcome unit :=
  if isdir (now w) dir then
    let dst := dir ++ [basename f] in
    if path_eqb f dst then (w, Raised SameFile)
    else
      match lookup (now w) f with
      | None => (w, Raised FileNotFound)
      | Some Dir => (w, Raised IsADirectory)
      | Some (File content) =>
          match lookup (now w) dst with
          | Some Dir => (w, Raised IsADirectory)
          | _ => (write_file w dst content, Done tt)
          end
      end
  else (w, Raised NotADirectory).
Fixpoint copy_all (w : world) (files : list path) (dir : path) : world * outcome unit :=
  match files with
  | [] => (w, Done tt)
  | f :: files => match copy w f dir with (w, Done _) => copy_all w files dir | (w, Raised e) => (w, Raised e) end
  end.

(** The names in install.py: 'emlearn', 'eml_*.h', 'VERSION.txt' *)
Definition n_emlearn : list Z := txt "emlearn"%string.
Definition pat_headers : list Z := txt "eml_*.h"%string.
Definition n_version : list Z := txt "VERSION.txt"%string.

(** arduino/install.py:39-42  the loop over the patterns *)
Fixpoint copy_patterns (w : world) (include : path) (patterns : list (list Z)) (dir : path) : world * outcome unit :=
  match patterns with
  | [] => (w, Done tt)
  | p :: patterns =>
      match copy_all w (glob (now w) include p) dir with
      | (w, Done _) => copy_patterns w include patterns dir
      | (w, Raised e) => (w, Raised e)
      end
  end.
(** arduino/install.py:20-44  install_arduino_library *)
Definition install_arduino_library (w : world) (include arduino : path) (update : bool) : world * outcome path :=
  let library_dir := arduino ++ [n_emlearn] in
  if exists_ (now w) library_dir && negb update then (w, Raised InstallError)
  else
    match ensure_dir_single w arduino with
    | (w, Raised e) => (w, Raised e)
    | (w, Done _) =>
        match ensure_dir_single w library_dir with
        | (w, Raised e) => (w, Raised e)
        | (w, Done _) =>
            match copy_patterns w include [pat_headers; n_version] library_dir with
            | (w, Raised e) => (w, Raised e)
            | (w, Done _) => (w, Done library_dir)
            end
        end
    end.
