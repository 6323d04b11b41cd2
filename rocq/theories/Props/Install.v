(** Installing emlearn as an Arduino library: properties C131 to C134. *)
From Coq Require Import String ZArith List Bool Lia.
From Verif.Base Require Import Res.
From Verif.Model Require Import Text Cgen Install.
From Verif.Spec Require Import InstallSpec.
From Verif.Proof Require Import Install.
Import ListNotations.
Open Scope Z_scope.

(** ** C131 *)
(** If it returns, the answer is the directory emlearn of the libraries, which has every header eml_*.h and
    VERSION.txt of the include directory, whole. *)
Theorem C131_complete s include arduino update w' p : tree s -> plain include ->
  install_arduino_library (mk_world s []) include arduino update = (w', Done p) ->
  p = library arduino /\ complete s include arduino (now w').
Proof. intros T P E. destruct (install_any include arduino P s update w' (Done p) T E) as [_ (A & B & _)]. auto. Qed.
(** Nothing else is changed, whether it returns, raises or is interrupted. *)
Theorem C131_nothing_else s include arduino update w' o : tree s -> plain include ->
  install_arduino_library (mk_world s []) include arduino update = (w', o) ->
  forall s', In s' (states w') -> only_library s include arduino s' /\ tree s'.
Proof. intros T P E. apply (install_any include arduino P s update w' o T E). Qed.
(** It returns if nothing is in the way. *)
Theorem C131_returns s include arduino update : tree s -> plain include -> can_install s include arduino update ->
  exists w', install_arduino_library (mk_world s []) include arduino update = (w', Done (library arduino)).
Proof. intros T P C. apply install_ok; auto. Qed.

(** /r with eml_a.h, eml_b.h, x.c and VERSION.txt; /l is a directory. *)
Definition ex_fs : fs :=
  [([txt "r"], Dir); ([txt "r"; txt "eml_a.h"], File [1; 2; 3]); ([txt "r"; txt "eml_b.h"], File []);
   ([txt "r"; txt "x.c"], File [9]); ([txt "r"; txt "VERSION.txt"], File [7]); ([txt "l"], Dir)]%string.
Definition ex_in : path := [txt "r"%string].
Definition ex_lib : path := [txt "l"%string].
Lemma ex_tree : tree ex_fs.
Proof.
  intros p n H. rewrite lookup_snoc in H. apply find_In in H as (m & I).
  cbn [In ex_fs] in I.
  assert (G : forall q, In q (map fst ex_fs) -> lookup ex_fs (removelast q) = Some Dir).
  { intros q Hq. cbn [map fst ex_fs In] in Hq. repeat (destruct Hq as [<-|Hq]; [reflexivity|]). destruct Hq. }
  specialize (G (p ++ [n])). rewrite removelast_last in G. apply G. apply in_map_iff. exists (p ++ [n], m). split; [reflexivity|exact I].
Qed.
Example C131_ex_hyps : tree ex_fs /\ plain ex_in /\ can_install ex_fs ex_in ex_lib false.
Proof.
  split; [exact ex_tree|]. split.
  { repeat constructor; vm_compute; intros H; repeat (destruct H as [H|H]; [discriminate|]); exact H. }
  split; [discriminate|]. split; [left; reflexivity|]. split; [left; reflexivity|].
  intros n W. split; [intros E; discriminate|]. cbn [ex_in app]. 
  assert (L : forall m, lookup ex_fs [txt "r"%string; m] <> Some Dir).
  { intros m. cbn [lookup ex_fs find_node]. repeat match goal with |- (if ?b then _ else _) <> _ => let E := fresh in destruct b eqn:E; [try discriminate|] end; try discriminate;
    exfalso; match goal with H : path_eqb _ _ = true |- _ => apply path_eqb_iff in H; discriminate end. }
  split; [apply L|]. intros _. cbn [library ex_lib app lookup ex_fs find_node].
  repeat match goal with |- (if ?b then _ else _) <> _ => let E := fresh in destruct b eqn:E; [try discriminate|] end; try discriminate;
    exfalso; match goal with H : path_eqb _ _ = true |- _ => apply path_eqb_iff in H; discriminate end.
Qed.
Example C131_ex : let '(w', o) := install_arduino_library (mk_world ex_fs []) ex_in ex_lib false in
  o = Done (library ex_lib) /\
  map (fun n => lookup (now w') (library ex_lib ++ [n])) [txt "eml_a.h"; txt "eml_b.h"; txt "x.c"; txt "VERSION.txt"]%string =
  [Some (File [1; 2; 3]); Some (File []); None; Some (File [7])].
Proof. vm_compute. split; reflexivity. Qed.

(** ** C132 *)
(** An existing library is only touched when update is given. *)
Theorem C132_refuses s include arduino : lookup s (library arduino) <> None ->
  install_arduino_library (mk_world s []) include arduino false = (mk_world s [], Raised InstallError).
Proof.
  intros H. unfold install_arduino_library, exists_. cbn [now]. unfold library in H. change (txt "emlearn") with n_emlearn in H.
  destruct (lookup s (arduino ++ [n_emlearn])); [reflexivity|contradiction].
Qed.
(** Updating does not make the library equal to the new version: a header that the new version no longer has stays. *)
Theorem C132_stale_refuted s include arduino w' p n c : tree s -> plain include -> wanted n ->
  lookup s (library arduino ++ [n]) = Some (File c) -> lookup s (include ++ [n]) = None ->
  install_arduino_library (mk_world s []) include arduino true = (w', Done p) ->
  lookup (now w') (library arduino ++ [n]) = Some (File c).
Proof.
  intros T P W L N E. destruct (install_any include arduino P s true w' (Done p) T E) as [S _].
  destruct (S (now w') (or_introl eq_refl)) as [O _]. destruct (O (library arduino ++ [n])) as [->|[(_ & H & _)|(n' & c' & k & _ & E' & L' & _)]]; [exact L|congruence|].
  apply app_inj_tail in E' as [_ <-]. congruence.
Qed.
Example C132_ex_stale : let s := put (put ex_fs (library ex_lib) Dir) (library ex_lib ++ [txt "eml_old.h"%string]) (File [5]) in
  let '(w', o) := install_arduino_library (mk_world s []) ex_in ex_lib true in
  o = Done (library ex_lib) /\ lookup (now w') (library ex_lib ++ [txt "eml_old.h"%string]) = Some (File [5]) /\
  lookup (now w') (library ex_lib ++ [txt "eml_a.h"%string]) = Some (File [1; 2; 3]).
Proof. vm_compute. repeat split; reflexivity. Qed.

(** ** C133 *)
(** Interrupted at any point, an installation or update can be completed by installing with update: the files are
    then the same as without the interruption. *)
Theorem C133_rerun_partial s include arduino update w1 o s1 : tree s -> plain include -> can_install s include arduino update ->
  install_arduino_library (mk_world s []) include arduino update = (w1, o) -> In s1 (states w1) ->
  exists w2, install_arduino_library (mk_world s1 []) include arduino true = (w2, Done (library arduino)) /\ forall p, lookup (now w2) p = lookup (now w1) p.
Proof. intros T P C E I. apply (crash_rerun include arduino P s update w1 o s1); auto. Qed.
(** The command that was interrupted, repeated, does not complete it: every installation can be interrupted so that none
    of the files is there and the same command is refused. *)
Theorem C133_same_command_refuted s include arduino w1 : tree s -> plain include -> lookup s (library arduino) = None ->
  install_arduino_library (mk_world s []) include arduino false = (w1, Done (library arduino)) ->
  exists s1, In s1 (states w1) /\ (forall n, lookup s1 (library arduino ++ [n]) = None) /\
    install_arduino_library (mk_world s1 []) include arduino false = (mk_world s1 [], Raised InstallError).
Proof.
  intros T P L E. destruct (empty_moment s include arduino w1 P T L E) as (s1 & I & D & N). exists s1. split; [exact I|]. split; [exact N|].
  apply C132_refuses. congruence.
Qed.
(** In the example there are nine states; in three of them eml_a.h is cut off. *)
Example C133_ex : let w := fst (install_arduino_library (mk_world ex_fs []) ex_in ex_lib false) in
  length (states w) = 9%nat /\ map (fun s => lookup s (library ex_lib ++ [txt "eml_a.h"%string])) (rev (states w)) =
  [None; None; Some (File []); Some (File [1]); Some (File [1; 2]); Some (File [1; 2; 3]); Some (File [1; 2; 3]); Some (File [1; 2; 3]); Some (File [1; 2; 3])].
Proof. vm_compute. split; reflexivity. Qed.

(** ** C134 *)
(** It returns even though there is nothing to install: the include directory need not exist. *)
Theorem C134_nothing_refuted s include arduino : tree s -> plain include -> can_install s include arduino false ->
  (forall n, wanted n -> lookup s (include ++ [n]) = None) -> lookup s (library arduino) = None ->
  exists w', install_arduino_library (mk_world s []) include arduino false = (w', Done (library arduino)) /\
    forall n, lookup (now w') (library arduino ++ [n]) = None.
Proof.
  intros T P C N L. destruct (install_ok include arduino P s false T C) as (w' & E). exists w'. split; [exact E|]. intros n.
  destruct (install_any include arduino P s false w' _ T E) as [S _]. destruct (S (now w') (or_introl eq_refl)) as [O _].
  assert (L0 : lookup s (library arduino ++ [n]) = None).
  { destruct (lookup s (library arduino ++ [n])) eqn:X; auto. assert (Y : lookup s (library arduino ++ [n]) <> None) by congruence. apply T in Y. congruence. }
  destruct (O (library arduino ++ [n])) as [->|[([E'|E'] & _)|(n' & c & k & W & E' & L' & _)]]; [exact L0| | |].
  - exfalso. apply (f_equal (@length _)) in E'. unfold library in E'. rewrite ?app_length in E'. cbn in E'. lia.
  - exfalso. apply (f_equal (@length _)) in E'. unfold library in E'. rewrite ?app_length in E'. cbn in E'. lia.
  - rewrite (N n' W) in L'. discriminate.
Qed.
Example C134_ex : let '(w', o) := install_arduino_library (mk_world ex_fs []) [txt "nowhere"%string] ex_lib false in
  o = Done (library ex_lib) /\ listdir (now w') (library ex_lib) = [].
Proof. vm_compute. split; reflexivity. Qed.
(** And an include directory whose name has a [ in it is taken for a pattern: nothing is copied although the headers
    are there. *)
Definition ex_fs2 : fs :=
  [([txt "r[1]"], Dir); ([txt "r[1]"; txt "eml_a.h"], File [1; 2; 3]); ([txt "l"], Dir)]%string.
Theorem C134_pattern_refuted : let '(w', o) := install_arduino_library (mk_world ex_fs2 []) [txt "r[1]"%string] ex_lib false in
  o = Done (library ex_lib) /\ listdir (now w') (library ex_lib) = [].
Proof. vm_compute. split; reflexivity. Qed.
(** If the include directory has a header and no such characters are in its path, the header is installed: C131_complete. *)
Theorem C134_header_partial s include arduino update w' p n c : tree s -> plain include ->
  wanted n -> lookup s (include ++ [n]) = Some (File c) ->
  install_arduino_library (mk_world s []) include arduino update = (w', Done p) -> lookup (now w') (p ++ [n]) = Some (File c).
Proof. intros T P W L E. destruct (C131_complete s include arduino update w' p T P E) as [-> C]. now apply C. Qed.
