(** Installing the Arduino library. *)
From Coq Require Import String ZArith List Bool Lia.
From Verif.Base Require Import Res.
From Verif.Model Require Import Text Cgen Install.
From Verif.Spec Require Import InstallSpec.
From Verif.Proof Require Import Cgen.
Import ListNotations.
Open Scope Z_scope.

(** ** Files *)
Lemma path_eqb_iff p q : path_eqb p q = true <-> p = q.
Proof.
  revert q. induction p as [|a p IH]; intros [|b q]; cbn; try (split; (reflexivity || discriminate)).
  rewrite andb_true_iff, text_eqb_iff, IH. split; [intros [-> ->]; reflexivity|intros E; injection E as -> ->; auto].
Qed.
Lemma path_dec (p q : path) : {p = q} + {p <> q}.
Proof. destruct (path_eqb p q) eqn:E; [left; now apply path_eqb_iff|right; intros H; apply path_eqb_iff in H; congruence]. Qed.
Lemma path_eqb_refl p : path_eqb p p = true.
Proof. now apply path_eqb_iff. Qed.
Lemma path_eqb_neq p q : p <> q -> path_eqb p q = false.
Proof. intros H. destruct (path_eqb p q) eqn:E; auto. apply path_eqb_iff in E. contradiction. Qed.
Lemma find_put_same s p n : find_node (put s p n) p = Some n.
Proof.
  induction s as [|[q m] s IH]; cbn; [now rewrite path_eqb_refl|]. destruct (path_eqb q p) eqn:E; cbn; rewrite E; auto.
Qed.
Lemma find_put_other s p q n : p <> q -> find_node (put s p n) q = find_node s q.
Proof.
  intros N. induction s as [|[r m] s IH]; cbn; [now rewrite path_eqb_neq|].
  destruct (path_eqb r p) eqn:E; cbn.
  - apply path_eqb_iff in E. subst r. now rewrite path_eqb_neq.
  - destruct (path_eqb r q); auto.
Qed.
Lemma lookup_put_same s p n : p <> [] -> lookup (put s p n) p = Some n.
Proof. destruct p; [contradiction|]. intros _. apply find_put_same. Qed.
Lemma lookup_put_other s p q n : p <> q -> lookup (put s p n) q = lookup s q.
Proof. destruct q; [reflexivity|]. apply find_put_other. Qed.
Lemma find_In s p : find_node s p <> None <-> exists m, In (p, m) s.
Proof.
  induction s as [|[q m] s IH]; cbn.
  - split; [congruence|intros (? & [])].
  - destruct (path_eqb q p) eqn:E.
    + apply path_eqb_iff in E. subst q. split; [intros _; exists m; auto|discriminate].
    + rewrite IH. split; [intros (m' & H); eauto|]. intros (m' & [H|H]); [|eauto]. injection H as -> ->. rewrite path_eqb_refl in E. discriminate.
Qed.
Lemma snoc_nonempty {A} (d : list A) n : d ++ [n] <> [].
Proof. destruct d; discriminate. Qed.
Lemma lookup_snoc s d n : lookup s (d ++ [n]) = find_node s (d ++ [n]).
Proof. unfold lookup. destruct (d ++ [n]) eqn:E; [destruct d; discriminate|reflexivity]. Qed.
Lemma name_in_iff d p n : name_in d p = Some n <-> p = d ++ [n].
Proof.
  revert p. induction d as [|a d IH]; intros [|b p]; cbn.
  - split; discriminate.
  - destruct p; split; try discriminate; intros E; injection E as <-; reflexivity.
  - split; discriminate.
  - destruct (text_eqb a b) eqn:E.
    + apply text_eqb_iff in E. subst b. rewrite IH. split; [now intros ->|intros H; injection H as ->; reflexivity].
    + split; [discriminate|]. intros H. injection H as -> ->. exfalso. assert (text_eqb a a = true) by now apply text_eqb_iff. congruence.
Qed.
Lemma listdir_In s d n : In n (listdir s d) <-> lookup s (d ++ [n]) <> None.
Proof.
  rewrite lookup_snoc, find_In. unfold listdir. rewrite in_flat_map. split.
  - intros ([p m] & I & H). cbn [fst] in H. destruct (name_in d p) eqn:E; [|destruct H]. destruct H as [<-|[]]. apply name_in_iff in E. subst p. eauto.
  - intros (m & I). exists (d ++ [n], m). split; auto. cbn [fst]. replace (name_in d (d ++ [n])) with (Some n) by (symmetry; now apply name_in_iff). now left.
Qed.

(** ** Patterns *)
Lemma star_match_iff k t : star_match k t = true <-> exists a b, t = a ++ b /\ k b = true.
Proof.
  induction t as [|c t IH]; cbn [star_match]; rewrite orb_true_iff.
  - split; [intros [H|H]; [exists [], []; auto|discriminate]|]. intros (a & b & E & H). destruct a; [|discriminate]. cbn in E. subst b. auto.
  - rewrite IH. split.
    + intros [H|(a & b & -> & H)]; [exists [], (c :: t); auto|exists (c :: a), b; auto].
    + intros (a & b & E & H). destruct a as [|c' a]; cbn in E; [subst b; auto|]. injection E as <- ->. right. eauto.
Qed.
Lemma headers_iff n : fnmatch pat_headers n = true <-> exists mid, n = txt "eml_" ++ mid ++ txt ".h".
Proof.
  unfold fnmatch. replace (tokens (length pat_headers) pat_headers) with [TLit 101; TLit 109; TLit 108; TLit 95; TStar; TLit 46; TLit 104] by (vm_compute; reflexivity).
  change (hidden pat_headers) with false. rewrite orb_false_l. change (txt "eml_") with [101; 109; 108; 95]. change (txt ".h") with [46; 104]. split.
  - intros H. apply andb_true_iff in H as [H _]. cbn [match_tokens] in H.
    destruct n as [|c1 n]; [discriminate|]. apply andb_true_iff in H as [H1 H]. destruct n as [|c2 n]; [discriminate|]. apply andb_true_iff in H as [H2 H].
    destruct n as [|c3 n]; [discriminate|]. apply andb_true_iff in H as [H3 H]. destruct n as [|c4 n]; [discriminate|]. apply andb_true_iff in H as [H4 H].
    apply Z.eqb_eq in H1, H2, H3, H4. subst. apply star_match_iff in H as (a & b & -> & H).
    destruct b as [|d1 b]; [discriminate|]. apply andb_true_iff in H as [H1 H]. destruct b as [|d2 b]; [discriminate|]. apply andb_true_iff in H as [H2 H].
    apply Z.eqb_eq in H1, H2. subst. destruct b; [|discriminate]. exists a. reflexivity.
  - intros (mid & ->). apply andb_true_iff. split; [|reflexivity]. cbn [app match_tokens]. rewrite !Z.eqb_refl. cbn [andb].
    apply star_match_iff. exists mid, [46; 104]. split; [reflexivity|]. reflexivity.
Qed.
Lemma plain_magic n : ~ In 42 n /\ ~ In 63 n /\ ~ In 91 n -> has_magic n = false.
Proof.
  intros (A & B & C). unfold has_magic. apply not_true_iff_false. rewrite existsb_exists. intros (c & I & H).
  unfold c_star, c_question, c_open in H. rewrite !orb_true_iff, !Z.eqb_eq in H. destruct H as [[->| ->]| ->]; contradiction.
Qed.

(** The directories that lead to a plain path. *)
Lemma prefix_exists s r : tree s -> forall p, lookup s (p ++ r) <> None -> lookup s p <> None.
Proof.
  intros T. induction r as [|x r IHr] using rev_ind; intros p Hp; [now rewrite app_nil_r in Hp|]. apply IHr.
  rewrite app_assoc in Hp. rewrite (T _ _ Hp). discriminate.
Qed.
Lemma glob_dirs_plain s include : tree s -> plain include -> forall d, lookup s (d ++ include) <> None ->
  glob_dirs s [d] include = [d ++ include].
Proof.
  intros T P. induction P as [|c include Hc P IH]; intros d H; cbn [glob_dirs]; [now rewrite app_nil_r|].
  assert (E : exists_ s (d ++ [c]) = true).
  { unfold exists_. destruct (lookup s (d ++ [c])) eqn:L; auto. exfalso.
    apply (prefix_exists s include T (d ++ [c])); [rewrite <- app_assoc; exact H|exact L]. }
  unfold glob_step at 1. cbn [flat_map]. rewrite (plain_magic c Hc), E, app_nil_r.
  rewrite IH; [rewrite <- app_assoc; reflexivity|]. rewrite <- app_assoc. exact H.
Qed.
Lemma glob_dirs_only s include : plain include -> forall ds p, In p (glob_dirs s ds include) -> exists d, In d ds /\ p = d ++ include.
Proof.
  intros P. induction P as [|c include Hc P IH]; intros ds p H; cbn [glob_dirs] in H; [exists p; now rewrite app_nil_r|].
  apply IH in H as (d & I & ->). unfold glob_step in I. apply in_flat_map in I as (d' & I' & I). rewrite (plain_magic c Hc) in I.
  destruct (exists_ s (d' ++ [c])); [|destruct I]. destruct I as [<-|[]]. exists d'. split; auto. now rewrite <- app_assoc.
Qed.
(** A pattern of the program. *)
Definition is_pat (pat : list Z) : Prop := pat = pat_headers \/ pat = n_version.
Definition matches (pat n : list Z) : Prop := fnmatch pat n = true /\ has_magic pat = true \/ n = pat /\ has_magic pat = false.
Lemma glob_iff s include pat f : tree s -> plain include -> is_pat pat ->
  (In f (glob s include pat) <-> exists n, f = include ++ [n] /\ matches pat n /\ lookup s f <> None).
Proof.
  intros T P HP. unfold glob, glob_step. rewrite in_flat_map. split.
  - intros (d & I & H). apply glob_dirs_only in I as (d' & [<-|[]] & ->); auto. cbn [app] in H. destruct (has_magic pat) eqn:M.
    + apply filter_In in H as [H _]. apply in_map_iff in H as (n & <- & H). apply filter_In in H as [H F]. apply listdir_In in H. exists n. unfold matches. auto.
    + unfold exists_ in H. destruct (lookup s (include ++ [pat])) eqn:L; [|destruct H]. destruct H as [<-|[]]. exists pat. unfold matches. rewrite L. split; [auto|]. split; [auto|discriminate].
  - intros (n & -> & Hm & L). exists include. split.
    + rewrite (glob_dirs_plain s include T P []); [now left|]. cbn [app]. rewrite (T _ _ L). discriminate.
    + destruct Hm as [[F M]|[-> M]]; rewrite M.
      * apply filter_In. split; [|reflexivity]. apply (in_map (fun n => include ++ [n])). apply filter_In. split; auto. now apply listdir_In.
      * unfold exists_. destruct (lookup s (include ++ [pat])); [now left|contradiction].
Qed.
Lemma matches_headers n : matches pat_headers n <-> exists mid, n = txt "eml_" ++ mid ++ txt ".h".
Proof. rewrite <- headers_iff. unfold matches. change (has_magic pat_headers) with true. intuition discriminate. Qed.
Lemma matches_version n : matches n_version n <-> n = txt "VERSION.txt".
Proof. unfold matches. change (has_magic n_version) with false. unfold n_version. intuition discriminate. Qed.
Lemma matches_wanted n : wanted n <-> matches pat_headers n \/ matches n_version n.
Proof. rewrite matches_headers, matches_version. reflexivity. Qed.

(** ** Copying *)
Lemma write_bytes_spec p c rest : p <> [] -> forall w done_, done_ ++ rest = c -> lookup (now w) p = Some (File done_) ->
  lookup (now (write_bytes w p done_ rest)) p = Some (File c) /\
  (forall q, q <> p -> lookup (now (write_bytes w p done_ rest)) q = lookup (now w) q) /\
  forall s, In s (states (write_bytes w p done_ rest)) -> In s (states w) \/
    (exists k, lookup s p = Some (File (firstn k c))) /\ forall q, q <> p -> lookup s q = lookup (now w) q.
Proof.
  intros Np. induction rest as [|b rest IH]; intros w done_ E L; cbn [write_bytes].
  - rewrite app_nil_r in E. subst done_. split; [exact L|]. split; auto.
  - set (w1 := become w (put (now w) p (File (done_ ++ [b])))).
    destruct (IH w1 (done_ ++ [b])) as (A & B & C). { now rewrite <- app_assoc. } { apply lookup_put_same. exact Np. }
    assert (O : forall q, q <> p -> lookup (now w1) q = lookup (now w) q) by (intros q Nq; apply lookup_put_other; congruence).
    split; [exact A|]. split; [intros q Nq; rewrite B by exact Nq; apply O; exact Nq|].
    intros s H. apply C in H as [H|[K H]].
    + unfold states in H. destruct H as [<-|H]; [|left; exact H]. right. split; [|exact O].
      exists (length (done_ ++ [b])). unfold w1. cbn [now become]. rewrite lookup_put_same by exact Np.
      replace c with ((done_ ++ [b]) ++ rest) by (rewrite <- app_assoc; exact E). rewrite firstn_app, Nat.sub_diag, firstn_all. cbn [firstn]. now rewrite app_nil_r.
    + right. split; [exact K|]. intros q Nq. rewrite H by exact Nq. apply O. exact Nq.
Qed.
Lemma write_file_spec w p c : p <> [] ->
  lookup (now (write_file w p c)) p = Some (File c) /\
  (forall q, q <> p -> lookup (now (write_file w p c)) q = lookup (now w) q) /\
  forall s, In s (states (write_file w p c)) -> In s (states w) \/
    (exists k, lookup s p = Some (File (firstn k c))) /\ forall q, q <> p -> lookup s q = lookup (now w) q.
Proof.
  intros Np. unfold write_file. set (w1 := become w (put (now w) p (File []))).
  destruct (write_bytes_spec p c c Np w1 []) as (A & B & C). { reflexivity. } { apply lookup_put_same. exact Np. }
  assert (O : forall q, q <> p -> lookup (now w1) q = lookup (now w) q) by (intros q Nq; apply lookup_put_other; congruence).
  split; [exact A|]. split; [intros q Nq; rewrite B by exact Nq; apply O; exact Nq|].
  intros s H. apply C in H as [H|[K H]].
  - unfold states in H. destruct H as [<-|H]; [|left; exact H]. right. split; [|exact O]. exists 0%nat. apply lookup_put_same. exact Np.
  - right. split; [exact K|]. intros q Nq. rewrite H by exact Nq. apply O. exact Nq.
Qed.

Section Copy.
Context (include d : path).
Hypothesis (ND : include <> d).
(** What copying some of the names in [ns] can have made of [s0]. *)
Definition rel (s0 : fs) (ns : list Z -> Prop) (s : fs) : Prop := forall q, lookup s q = lookup s0 q \/
  exists n c k, q = d ++ [n] /\ ns n /\ lookup s0 (include ++ [n]) = Some (File c) /\ lookup s0 q <> Some Dir /\ lookup s q = Some (File (firstn k c)).
Lemma rel_refl s0 ns : rel s0 ns s0.
Proof. intros q. now left. Qed.
Lemma other_dir n n' : include ++ [n] <> d ++ [n'].
Proof. intros E. apply app_inj_tail in E. destruct E. auto. Qed.
Lemma rel_include s0 ns s n : rel s0 ns s -> lookup s (include ++ [n]) = lookup s0 (include ++ [n]).
Proof. intros H. destruct (H (include ++ [n])) as [E|(n' & c & k & E & _)]; [exact E|]. apply other_dir in E. destruct E. Qed.
Lemma rel_dir s0 ns s : rel s0 ns s -> lookup s d = lookup s0 d.
Proof.
  intros H. destruct (H d) as [E|(n' & c & k & E & _)]; [exact E|]. exfalso.
  apply (f_equal (@length _)) in E. rewrite app_length in E. cbn in E. lia.
Qed.
Lemma rel_notdir s0 ns s n : rel s0 ns s -> (lookup s (d ++ [n]) = Some Dir <-> lookup s0 (d ++ [n]) = Some Dir).
Proof. intros H. destruct (H (d ++ [n])) as [->|(n' & c & k & _ & _ & _ & N & E)]; [reflexivity|]. rewrite E. split; [discriminate|contradiction]. Qed.
Lemma rel_trans s0 ns1 s1 ns2 s2 : rel s0 ns1 s1 -> rel s1 ns2 s2 -> rel s0 (fun n => ns1 n \/ ns2 n) s2.
Proof.
  intros H1 H2 q. destruct (H2 q) as [E2|(n & c & k & -> & I & C & N & E)].
  - destruct (H1 q) as [E1|(n & c & k & -> & I & C & N & E)]; [left; congruence|]. right. exists n, c, k. rewrite E2. auto.
  - right. exists n, c, k. rewrite <- (rel_include _ _ _ n H1). split; [reflexivity|]. split; [auto|]. split; [exact C|]. split; [|exact E].
    rewrite <- (rel_notdir _ _ _ n H1). exact N.
Qed.
Lemma rel_weaken s0 (ns1 ns2 : list Z -> Prop) s : (forall n, ns1 n -> ns2 n) -> rel s0 ns1 s -> rel s0 ns2 s.
Proof. intros H R q. destruct (R q) as [E|(n & c & k & E & I & C)]; [now left|]. right. exists n, c, k. auto. Qed.
Lemma rel_tree s0 ns s : tree s0 -> lookup s0 d = Some Dir -> rel s0 ns s -> tree s.
Proof.
  intros T Hd R p n L.
  assert (L0 : lookup s0 (p ++ [n]) <> None \/ p = d).
  { destruct (R (p ++ [n])) as [E|(n' & c & k & E & _)]; [left; congruence|]. apply app_inj_tail in E. right. tauto. }
  destruct L0 as [L0| ->]; [|now rewrite (rel_dir _ _ _ R)].
  pose proof (T _ _ L0) as Dp. destruct (R p) as [E|(n' & c & k & -> & _ & _ & N & _)]; [congruence|]. contradiction.
Qed.

Definition names (files : list path) (n : list Z) : Prop := In (include ++ [n]) files.
Lemma copy_one w n : match copy w (include ++ [n]) d with
  | (w', Done _) => (forall s, In s (states w') -> In s (states w) \/ rel (now w) (fun m => m = n) s) /\ rel (now w) (fun m => m = n) (now w') /\
      exists c, lookup (now w) (include ++ [n]) = Some (File c) /\ lookup (now w) (d ++ [n]) <> Some Dir /\ lookup (now w') (d ++ [n]) = Some (File c)
  | (w', Raised _) => w' = w
  end.
Proof.
  unfold copy. destruct (isdir (now w) d); [|reflexivity]. unfold basename. rewrite last_last.
  rewrite path_eqb_neq by apply other_dir. destruct (lookup (now w) (include ++ [n])) as [[|c]|] eqn:L; try reflexivity.
  assert (G : lookup (now w) (d ++ [n]) <> Some Dir ->
    let w' := write_file w (d ++ [n]) c in (forall s, In s (states w') -> In s (states w) \/ rel (now w) (fun m => m = n) s) /\ rel (now w) (fun m => m = n) (now w') /\
      exists c0, Some (File c) = Some (File c0) /\ lookup (now w) (d ++ [n]) <> Some Dir /\ lookup (now w') (d ++ [n]) = Some (File c0)).
  { intros N. destruct (write_file_spec w (d ++ [n]) c (snoc_nonempty d n)) as (A & B & C). cbv zeta.
    assert (W : forall s k, lookup s (d ++ [n]) = Some (File (firstn k c)) -> (forall q, q <> d ++ [n] -> lookup s q = lookup (now w) q) -> rel (now w) (fun m => m = n) s).
    { intros s k E O q. destruct (path_dec q (d ++ [n])) as [->|Nq]; [|left; now apply O]. right. exists n, c, k. auto 6. }
    split; [|split].
    - intros s H. apply C in H as [H|[[k K] H]]; [now left|]. right. exact (W s k K H).
    - apply (W _ (length c)); [rewrite firstn_all; exact A|exact B].
    - exists c. auto. }
  destruct (lookup (now w) (d ++ [n])) as [[|c']|]; [reflexivity| |]; apply G; discriminate.
Qed.
Lemma copy_ok w n c : lookup (now w) d = Some Dir -> lookup (now w) (include ++ [n]) = Some (File c) -> lookup (now w) (d ++ [n]) <> Some Dir ->
  exists w', copy w (include ++ [n]) d = (w', Done tt).
Proof.
  intros Hd L N. unfold copy, isdir. rewrite Hd. unfold basename. rewrite last_last. rewrite path_eqb_neq by apply other_dir. rewrite L.
  destruct (lookup (now w) (d ++ [n])) as [[|c']|]; [contradiction| |]; eauto.
Qed.

Lemma copy_all_any files : Forall (fun f => exists n, f = include ++ [n]) files -> forall w w' o, copy_all w files d = (w', o) ->
  (forall s, In s (states w') -> In s (states w) \/ rel (now w) (names files) s) /\ rel (now w) (names files) (now w') /\
  match o with Done _ => forall n, names files n -> exists c, lookup (now w) (include ++ [n]) = Some (File c) /\ lookup (now w) (d ++ [n]) <> Some Dir /\ lookup (now w') (d ++ [n]) = Some (File c)
  | Raised _ => True end.
Proof.
  induction 1 as [|f files (n & ->) F IH]; intros w w' o E; cbn [copy_all] in E.
  - injection E as <- <-. split; [auto|]. split; [apply rel_refl|]. intros n [].
  - pose proof (copy_one w n) as C1. destruct (copy w (include ++ [n]) d) as [w1 [[]|e]].
    + destruct C1 as (S1 & R1 & c & L & N & A). apply IH in E as (S2 & R2 & D2).
      assert (K : forall s, rel (now w1) (names files) s -> rel (now w) (names ((include ++ [n]) :: files)) s).
      { intros s R. eapply rel_weaken; [|exact (rel_trans _ _ _ _ _ R1 R)]. intros m [->|I]; [left; reflexivity|right; exact I]. }
      split; [|split].
      * intros s H. apply S2 in H as [H|H]; [|right; now apply K]. apply S1 in H as [H|H]; [now left|]. right. eapply rel_weaken; [|exact H]. intros m ->. left. reflexivity.
      * now apply K.
      * destruct o; [|exact I]. intros m I. destruct (In_dec path_dec (include ++ [m]) files) as [J|J].
        -- destruct (D2 m J) as (c' & L' & N' & A'). exists c'. rewrite <- (rel_include _ _ _ m R1). split; [exact L'|]. split; [|exact A'].
           rewrite <- (rel_notdir _ _ _ m R1). exact N'.
        -- destruct I as [I|I]; [|contradiction]. apply app_inj_tail in I as [_ I]. subst m. exists c. split; [exact L|]. split; [exact N|].
           destruct (R2 (d ++ [n])) as [E2|(n' & c' & k & E2 & I2 & _)]; [congruence|]. apply app_inj_tail in E2 as [_ <-]. contradiction.
    + injection E as <- <-. subst w1. split; [auto|]. split; [apply rel_refl|exact I].
Qed.
Lemma copy_all_ok files : Forall (fun f => exists n, f = include ++ [n]) files -> forall w, lookup (now w) d = Some Dir ->
  (forall n, names files n -> (exists c, lookup (now w) (include ++ [n]) = Some (File c)) /\ lookup (now w) (d ++ [n]) <> Some Dir) ->
  exists w', copy_all w files d = (w', Done tt).
Proof.
  induction 1 as [|f files (n & ->) F IH]; intros w Hd OK; cbn [copy_all]; [eauto|].
  destruct (OK n (or_introl eq_refl)) as [[c L] N]. pose proof (copy_one w n) as C1. destruct (copy_ok w n c Hd L N) as (w1 & E1). rewrite E1 in *.
  destruct C1 as (S1 & R1 & _). apply IH.
  - now rewrite (rel_dir _ _ _ R1).
  - intros m I. destruct (OK m (or_intror I)) as [OK1 OK2]. rewrite (rel_include _ _ _ m R1), (rel_notdir _ _ _ m R1). auto.
Qed.

(** The loop over the patterns. *)
Lemma glob_files s pat : tree s -> plain include -> is_pat pat -> Forall (fun f => exists n, f = include ++ [n]) (glob s include pat).
Proof. intros T P HP. apply Forall_forall. intros f I. apply glob_iff in I as (n & -> & _); eauto. Qed.
Lemma glob_names s pat n : tree s -> plain include -> is_pat pat -> (names (glob s include pat) n <-> matches pat n /\ lookup s (include ++ [n]) <> None).
Proof.
  intros T P HP. unfold names. rewrite glob_iff by auto. split; [intros (m & E & H); apply app_inj_tail in E as [_ <-]; exact H|]. intros H. exists n. auto.
Qed.
Definition some_pat (pats : list (list Z)) (n : list Z) : Prop := exists pat, In pat pats /\ matches pat n.
Lemma copy_patterns_any pats : Forall is_pat pats -> plain include -> forall w w' o, tree (now w) -> lookup (now w) d = Some Dir -> copy_patterns w include pats d = (w', o) ->
  (forall s, In s (states w') -> In s (states w) \/ rel (now w) (some_pat pats) s) /\ rel (now w) (some_pat pats) (now w') /\
  match o with Done _ => forall n, some_pat pats n -> lookup (now w) (include ++ [n]) <> None ->
     exists c, lookup (now w) (include ++ [n]) = Some (File c) /\ lookup (now w) (d ++ [n]) <> Some Dir /\ lookup (now w') (d ++ [n]) = Some (File c)
  | Raised _ => True end.
Proof.
  intros HP P. induction HP as [|pat pats Hp HP IH]; intros w w' o T Hd E; cbn [copy_patterns] in E.
  - injection E as <- <-. split; [auto|]. split; [apply rel_refl|]. intros n (p & [] & _).
  - destruct (copy_all w (glob (now w) include pat) d) as [w1 o1] eqn:E1.
    apply copy_all_any in E1 as (S1 & R1 & D1); [|now apply glob_files].
    assert (R1' : forall s, rel (now w) (names (glob (now w) include pat)) s -> rel (now w) (some_pat (pat :: pats)) s).
    { intros s. apply rel_weaken. intros n I. apply glob_names in I as [M _]; auto. exists pat. split; [now left|exact M]. }
    destruct o1 as [[]|e].
    + apply IH in E as (S2 & R2 & D2); [|apply (rel_tree _ _ _ T Hd R1)|now rewrite (rel_dir _ _ _ R1)].
      assert (K : forall s, rel (now w1) (some_pat pats) s -> rel (now w) (some_pat (pat :: pats)) s).
      { intros s R. eapply rel_weaken; [|exact (rel_trans _ _ _ _ _ R1 R)]. intros n [I|(p & I & M)].
        - apply glob_names in I as [M _]; auto. exists pat. split; [now left|exact M].
        - exists p. split; [now right|exact M]. }
      split; [|split].
      * intros s H. apply S2 in H as [H|H]; [|right; now apply K]. apply S1 in H as [H|H]; [now left|]. right. now apply R1'.
      * now apply K.
      * destruct o; [|exact I]. intros n M L.
        assert (Q : (exists p, In p pats /\ matches p n) \/ ~ (exists p, In p pats /\ matches p n)).
        { clear. induction pats as [|p pats IH]; [right; intros (p & [] & _)|]. destruct IH as [(q & I & M)|N]; [left; exists q; split; [now right|auto]|].
          assert (DM : matches p n \/ ~ matches p n).
          { unfold matches. destruct (fnmatch p n), (has_magic p), (list_eq_dec Z.eq_dec n p); intuition congruence. }
          destruct DM as [M|NM]; [left; exists p; split; [now left|auto]|]. right. intros (q & [<-|I] & M); [auto|]. apply N. eauto. }
        destruct Q as [Q|Q].
        -- destruct (D2 n Q) as (c & L' & N' & A'). { now rewrite (rel_include _ _ _ n R1). }
           exists c. rewrite <- (rel_include _ _ _ n R1). split; [exact L'|]. split; [|exact A']. rewrite <- (rel_notdir _ _ _ n R1). exact N'.
        -- destruct M as (p & [<-|I] & M); [|exfalso; apply Q; eauto]. destruct (D1 n) as (c & L' & N' & A').
           { apply glob_names; auto. }
           exists c. split; [exact L'|]. split; [exact N'|]. destruct (R2 (d ++ [n])) as [E2|(n' & c' & k & E2 & I2 & _)]; [congruence|].
           apply app_inj_tail in E2 as [_ <-]. contradiction.
    + injection E as <- <-. split; [|split; [now apply R1'|exact I]]. intros s H. apply S1 in H as [H|H]; [now left|]. right. now apply R1'.
Qed.
Lemma copy_patterns_ok pats : Forall is_pat pats -> plain include -> forall w, tree (now w) -> lookup (now w) d = Some Dir ->
  (forall n, some_pat pats n -> lookup (now w) (include ++ [n]) <> None -> (exists c, lookup (now w) (include ++ [n]) = Some (File c)) /\ lookup (now w) (d ++ [n]) <> Some Dir) ->
  exists w', copy_patterns w include pats d = (w', Done tt).
Proof.
  intros HP P. induction HP as [|pat pats Hp HP IH]; intros w T Hd OK; cbn [copy_patterns]; [eauto|].
  destruct (copy_all_ok (glob (now w) include pat) (glob_files _ _ T P Hp) w Hd) as (w1 & E1).
  { intros n I. apply glob_names in I as [M L]; auto. apply OK; auto. exists pat. split; [now left|auto]. }
  rewrite E1. apply copy_all_any in E1 as (_ & R1 & _); [|now apply glob_files]. apply IH.
  - apply (rel_tree _ _ _ T Hd R1).
  - now rewrite (rel_dir _ _ _ R1).
  - intros n (p & I & M). rewrite (rel_include _ _ _ n R1), (rel_notdir _ _ _ n R1). apply OK. exists p. split; [now right|auto].
Qed.
End Copy.

(** ** When nothing can be copied *)
Lemma copy_stuck w include d n : include = d \/ lookup (now w) d <> Some Dir -> exists e, copy w (include ++ [n]) d = (w, Raised e).
Proof.
  intros H. unfold copy, isdir. destruct (lookup (now w) d) as [[|c]|]; eauto. destruct H as [->|H]; [|contradiction].
  unfold basename. rewrite last_last, path_eqb_refl. eauto.
Qed.
Lemma patterns_stuck w include d pats w' o : include = d \/ lookup (now w) d <> Some Dir -> plain include -> tree (now w) -> Forall is_pat pats ->
  copy_patterns w include pats d = (w', o) ->
  w' = w /\ match o with Done _ => forall n, some_pat pats n -> lookup (now w) (include ++ [n]) = None | Raised _ => True end.
Proof.
  intros H P T. induction 1 as [|pat pats Hp HP IH]; cbn [copy_patterns]; intros E.
  - injection E as <- <-. split; [reflexivity|]. intros n (p & [] & _).
  - pose proof (glob_files include (now w) pat T P Hp) as F. pose proof (fun n => glob_names include (now w) pat n T P Hp) as G.
    destruct (glob (now w) include pat) as [|f files].
    + cbn [copy_all] in E. apply IH in E as [-> E]. split; [reflexivity|]. destruct o; [|exact I]. intros n (p & [<-|I] & M).
      * destruct (lookup (now w) (include ++ [n])) eqn:L; auto. exfalso. apply (G n). split; [exact M|congruence].
      * apply E. exists p. auto.
    + apply Forall_inv in F. destruct F as (n & ->). cbn [copy_all] in E. destruct (copy_stuck w include d n H) as (e & C). rewrite C in E. injection E as <- <-. auto.
Qed.

(** ** The directories *)
Section Top.
Context (include arduino : path).
Notation d := (library arduino).
Hypothesis (PL : plain include).
Definition dirs (s0 s : fs) : Prop := forall q, lookup s q = lookup s0 q \/ (q = arduino \/ q = d) /\ lookup s0 q = None /\ lookup s q = Some Dir.
Lemma dirs_refl s : dirs s s.
Proof. intros q. now left. Qed.
Lemma dirs_trans a b c : dirs a b -> dirs b c -> dirs a c.
Proof.
  intros H1 H2 q. destruct (H1 q) as [E1|(P & N & E1)], (H2 q) as [E2|(P' & N' & E2)].
  - left; congruence.
  - right. split; [exact P'|]. split; congruence.
  - right. split; [exact P|]. split; congruence.
  - right. split; [exact P|]. split; congruence.
Qed.
Lemma snoc_of (p : path) : p <> [] -> exists n, p = removelast p ++ [n].
Proof. intros N. exists (last p []). now apply app_removelast_last. Qed.
Lemma mkdir_tree s p : tree s -> lookup s p = None -> lookup s (removelast p) = Some Dir -> tree (put s p Dir).
Proof.
  intros T L Lp q n H. assert (Np : p <> []) by (intros ->; discriminate).
  destruct (path_dec p (q ++ [n])) as [->|N].
  - rewrite removelast_last in Lp. rewrite lookup_put_other; [exact Lp|]. intros E. rewrite E, Lp in L. discriminate.
  - rewrite lookup_put_other in H by exact N. apply T in H. destruct (path_dec p q) as [->|Nq]; [now apply lookup_put_same|]. now rewrite lookup_put_other.
Qed.
Lemma ensure_any w p w' o : p = arduino \/ p = d -> tree (now w) -> ensure_dir_single w p = (w', o) ->
  tree (now w') /\ dirs (now w) (now w') /\ (forall s, In s (states w') -> In s (states w) \/ s = now w') /\
  match o with Done _ => lookup (now w') p <> None | Raised _ => True end.
Proof.
  intros Hp T. unfold ensure_dir_single, exists_. destruct (lookup (now w) p) as [nd|] eqn:L.
  - intros E. injection E as <- <-. split; [exact T|]. split; [apply dirs_refl|]. split; [auto|]. congruence.
  - unfold mkdir. rewrite L. unfold parent. destruct (lookup (now w) (removelast p)) as [[|c]|] eqn:Lp; intros E; injection E as <- <-;
    try (split; [exact T|]; split; [apply dirs_refl|]; split; auto; fail).
    assert (Np : p <> []) by (intros ->; discriminate).
    split; [now apply mkdir_tree|]. split; [|split].
    + intros q. cbn [now become]. destruct (path_dec p q) as [<-|N]; [right; split; [exact Hp|]; split; [exact L|now apply lookup_put_same]|left; now apply lookup_put_other].
    + intros s [H|H]; [right; symmetry; exact H|left; exact H].
    + cbn [now become]. rewrite lookup_put_same by exact Np. discriminate.
Qed.
Lemma dirs_file s0 s p c : dirs s0 s -> (lookup s p = Some (File c) <-> lookup s0 p = Some (File c)).
Proof. intros H. destruct (H p) as [->|(_ & N & E)]; [reflexivity|]. rewrite N, E. split; discriminate. Qed.
Lemma dirs_only s0 s : dirs s0 s -> only_library s0 include arduino s.
Proof. intros H p. destruct (H p) as [E|E]; auto. Qed.
Lemma dirs_rel_only s0 s2 s : dirs s0 s2 -> rel include d s2 (some_pat [pat_headers; n_version]) s -> only_library s0 include arduino s.
Proof.
  intros HD HR p. destruct (HR p) as [E|(n & c & k & -> & (pat & I & M) & L & _ & E)].
  - destruct (HD p) as [E'|(P & N & E')]; [left; congruence|]. right. left. split; [exact P|]. split; congruence.
  - right. right. exists n, c, k. split.
    { apply matches_wanted. destruct I as [<-|[<-|[]]]; auto. }
    split; [reflexivity|]. split; [|exact E]. exact (proj1 (dirs_file _ _ _ c HD) L).
Qed.
Lemma pats : Forall is_pat [pat_headers; n_version].
Proof. constructor; [left; reflexivity|]. constructor; [right; reflexivity|]. constructor. Qed.
Lemma wanted_pat n : wanted n <-> some_pat [pat_headers; n_version] n.
Proof.
  rewrite matches_wanted. unfold some_pat. split.
  - intros [M|M]; [exists pat_headers|exists n_version]; cbn; auto.
  - intros (p & [<-|[<-|[]]] & M); auto.
Qed.

(** Every run. *)
Lemma install_any s0 update w' o : tree s0 -> install_arduino_library (mk_world s0 []) include arduino update = (w', o) ->
  (forall s, In s (states w') -> only_library s0 include arduino s /\ (tree s)) /\
  match o with
  | Done p => p = d /\ complete s0 include arduino (now w') /\ lookup (now w') arduino <> None /\ lookup (now w') d <> None
  | Raised _ => True
  end.
Proof.
  intros T E. unfold install_arduino_library in E. change (arduino ++ [n_emlearn]) with d in E.
  assert (S0 : forall s, In s (states (mk_world s0 [])) -> s = s0) by (intros s [<-|[]]; reflexivity).
  destruct (exists_ (now (mk_world s0 [])) d && negb update).
  { injection E as <- <-. split; [|exact I]. intros s H. apply S0 in H. subst s. split; [apply dirs_only, dirs_refl|exact T]. }
  destruct (ensure_dir_single (mk_world s0 []) arduino) as [w1 o1] eqn:E1. apply ensure_any in E1 as (T1 & D1 & H1 & O1); auto. cbn [now] in D1.
  assert (A1 : forall s, In s (states w1) -> only_library s0 include arduino s /\ tree s).
  { intros s H. apply H1 in H as [H| ->]; [apply S0 in H; subst s; split; [apply dirs_only, dirs_refl|exact T]|split; [now apply dirs_only|exact T1]]. }
  destruct o1 as [[]|e]; [|injection E as <- <-; auto].
  destruct (ensure_dir_single w1 d) as [w2 o2] eqn:E2. apply ensure_any in E2 as (T2 & D2 & H2 & O2); auto.
  pose proof (dirs_trans _ _ _ D1 D2) as D02.
  assert (A2 : forall s, In s (states w2) -> only_library s0 include arduino s /\ tree s).
  { intros s H. apply H2 in H as [H| ->]; [now apply A1|split; [now apply dirs_only|exact T2]]. }
  destruct o2 as [[]|e]; [|injection E as <- <-; auto].
  assert (X2 : lookup (now w2) arduino <> None) by (destruct (D2 arduino) as [->|(_ & _ & ->)]; [exact O1|discriminate]).
  destruct (copy_patterns w2 include [pat_headers; n_version] d) as [w3 o3] eqn:E3.
  destruct (path_dec include d) as [Ei|Ni].
  { destruct (patterns_stuck _ _ _ _ _ _ (or_introl Ei) PL T2 pats E3) as [-> C].
    destruct o3 as [[]|e]; injection E as <- <-; (split; [exact A2|]); [|exact I]. split; [reflexivity|]. split; [|auto].
    intros n c W L. apply wanted_pat in W. apply C in W. apply (dirs_file _ _ _ c D02) in L. congruence. }
  destruct (lookup (now w2) d) as [[|cd]|] eqn:Ld; [| |contradiction].
  2:{ destruct (patterns_stuck w2 include d [pat_headers; n_version] w3 o3) as [-> C]; auto using pats; [right; congruence|].
    destruct o3 as [[]|e]; injection E as <- <-; (split; [exact A2|]); [|exact I]. split; [reflexivity|]. split; [|split; [auto|congruence]].
    intros n c W L. apply wanted_pat in W. apply C in W. apply (dirs_file _ _ _ c D02) in L. congruence. }
  apply (copy_patterns_any include d Ni [pat_headers; n_version] pats PL) in E3 as (S3 & R3 & C3); auto.
  assert (A3 : forall s, In s (states w3) -> only_library s0 include arduino s /\ tree s).
  { intros s H. apply S3 in H as [H|H]; [now apply A2|]. split; [now apply (dirs_rel_only _ (now w2))|apply (rel_tree include d _ _ _ T2 Ld H)]. }
  destruct o3 as [[]|e]; injection E as <- <-; (split; [exact A3|]); [|exact I]. split; [reflexivity|]. split; [|split].
  - intros n c W L. apply wanted_pat in W. apply (dirs_file _ _ _ c D02) in L. destruct (C3 n W) as (c' & L' & _ & A'); congruence.
  - destruct (R3 arduino) as [->|(n & c & k & _ & _ & _ & _ & ->)]; [exact X2|discriminate].
  - rewrite (rel_dir include d _ _ _ R3), Ld. discriminate.
Qed.

(** It succeeds when nothing is in the way. *)
Lemma d_parent : removelast d = arduino.
Proof. apply removelast_last. Qed.
Lemma ad : arduino <> d.
Proof. intros E. apply (f_equal (@length _)) in E. unfold library in E. rewrite app_length in E. cbn in E. lia. Qed.
Lemma install_ok s0 update : tree s0 -> can_install s0 include arduino update ->
  exists w', install_arduino_library (mk_world s0 []) include arduino update = (w', Done d).
Proof.
  intros T (Ni & Hd & Ha & Hw). unfold install_arduino_library. change (arduino ++ [n_emlearn]) with d. cbn [now].
  replace (exists_ s0 d && negb update) with false.
  2:{ symmetry. unfold exists_. destruct Hd as [->|[-> _]]; [reflexivity|apply andb_false_r]. }
  assert (G1 : exists w1, ensure_dir_single (mk_world s0 []) arduino = (w1, Done tt) /\ lookup (now w1) arduino = Some Dir /\ forall q, q <> arduino -> lookup (now w1) q = lookup s0 q).
  { unfold ensure_dir_single, exists_. cbn [now]. destruct Ha as [Ha|[Ha Hp]]; rewrite Ha; [eauto|].
    unfold mkdir, parent. cbn [now]. rewrite Ha, Hp. eexists. split; [reflexivity|]. cbn [now become]. split; [apply lookup_put_same; intros ->; discriminate|].
    intros q Nq. apply lookup_put_other. congruence. }
  destruct G1 as (w1 & E1 & La & L1). rewrite E1. apply ensure_any in E1 as (T1 & D1 & _); auto. cbn [now] in D1.
  assert (G2 : exists w2, ensure_dir_single w1 d = (w2, Done tt) /\ lookup (now w2) d = Some Dir /\ forall q, q <> d -> lookup (now w2) q = lookup (now w1) q).
  { unfold ensure_dir_single, exists_. rewrite L1 by (pose proof ad; congruence). destruct Hd as [Hd|[_ Hd]]; rewrite Hd; [|exists w1; rewrite L1 by (pose proof ad; congruence); auto].
    unfold mkdir, parent. rewrite L1, Hd by (pose proof ad; congruence). rewrite d_parent, La. eexists. split; [reflexivity|]. cbn [now become].
    split; [apply lookup_put_same; apply snoc_nonempty|]. intros q Nq. apply lookup_put_other. congruence. }
  destruct G2 as (w2 & E2 & Ld & L2). rewrite E2. apply ensure_any in E2 as (T2 & D2 & _); auto. pose proof (dirs_trans _ _ _ D1 D2) as D02.
  destruct (copy_patterns_ok include d Ni _ pats PL w2 T2 Ld) as (w3 & E3); [|rewrite E3; eauto].
  intros n W. apply wanted_pat in W. destruct (Hw n W) as (W0 & W1 & W2). intros L.
  assert (N1 : include ++ [n] <> d).
  { intros E. apply app_inj_tail in E as [_ E]. destruct W as [[mid W]|W]; rewrite W in E; [|discriminate].
    cbn in E. discriminate. }
  rewrite L2, L1 in L |- * by auto. split.
  - destruct (lookup s0 (include ++ [n])) as [[|c]|]; [contradiction|eauto|contradiction].
  - rewrite L2, L1; [auto| |]; intros E; apply (f_equal (@length _)) in E; unfold library in E; rewrite ?app_length in E; cbn in E; lia.
Qed.

(** After an interruption. *)
Lemma crash_can s0 s update : include <> d -> only_library s0 include arduino s -> can_install s0 include arduino update -> can_install s include arduino true.
Proof.
  intros _ O (Ni & Hd & Ha & Hw). split; [exact Ni|].
  assert (Len : forall n, d ++ [n] <> arduino /\ d ++ [n] <> d).
  { intros n; split; intros E; apply (f_equal (@length _)) in E; unfold library in E; rewrite ?app_length in E; cbn in E; lia. }
  split; [|split].
  - destruct (O d) as [E|[(_ & _ & E)|(n & c & k & _ & E & _)]]; [rewrite E|rewrite E; auto|exfalso; apply (proj2 (Len n)); symmetry; exact E]. destruct Hd as [Hd|[_ Hd]]; auto.
  - destruct (O arduino) as [E|[(_ & _ & E)|(n & c & k & _ & E & _)]]; [rewrite E|rewrite E; auto|exfalso; apply (proj1 (Len n)); symmetry; exact E]. destruct Ha as [Ha|[Ha Hp]]; auto. right. split; [exact Ha|].
    destruct (O (removelast arduino)) as [->|[(_ & _ & ->)|(n & c & k & _ & E' & _)]]; auto.
    exfalso. apply (f_equal (@length _)) in E'. unfold library in E'. rewrite !app_length in E'. cbn in E'. rewrite removelast_firstn_len, firstn_length in E'. lia.
  - intros n W. destruct (Hw n W) as (W0 & W1 & W2). split; [exact W0|].
    assert (N1 : include ++ [n] <> d).
    { intros E. apply app_inj_tail in E as [_ E]. destruct W as [[mid W]|W]; rewrite W in E; [|discriminate]. cbn in E. discriminate. }
    assert (X : lookup s (include ++ [n]) = lookup s0 (include ++ [n])).
    { destruct (O (include ++ [n])) as [E|[([E|E] & _)|(n' & c & k & _ & E & _)]]; [exact E|contradiction|contradiction|]. apply app_inj_tail in E as [E _]. contradiction. }
    rewrite X. split; [exact W1|]. intros L. specialize (W2 L).
    destruct (O (d ++ [n])) as [->|[([E|E] & _)|(n' & c & k & _ & _ & _ & ->)]]; [exact W2|exfalso; exact (proj1 (Len n) E)|exfalso; exact (proj2 (Len n) E)|discriminate].
Qed.
Lemma final_same s0 s1 s s2 : include <> d -> (forall n, wanted n -> include ++ [n] <> arduino) ->
  only_library s0 include arduino s1 -> complete s0 include arduino s1 -> lookup s1 arduino <> None -> lookup s1 d <> None ->
  only_library s0 include arduino s ->
  only_library s include arduino s2 -> complete s include arduino s2 -> lookup s2 arduino <> None -> lookup s2 d <> None ->
  forall p, lookup s2 p = lookup s1 p.
Proof.
  intros Ni Na O1 C1 A1 B1 O O2 C2 A2 B2 p.
  assert (X : forall n, wanted n -> lookup s (include ++ [n]) = lookup s0 (include ++ [n])).
  { intros n W. assert (N1 : include ++ [n] <> d).
    { intros E. apply app_inj_tail in E as [_ E]. destruct W as [[mid W]|W]; rewrite W in E; [|discriminate]. cbn in E. discriminate. }
    destruct (O (include ++ [n])) as [E|[([E|E] & _)|(n' & c & k & _ & E & _)]]; [exact E|exfalso; now apply (Na n)|contradiction|]. apply app_inj_tail in E as [E _]. contradiction. }
  assert (K : forall n c, wanted n -> lookup s0 (include ++ [n]) = Some (File c) -> lookup s2 (d ++ [n]) = lookup s1 (d ++ [n])).
  { intros n c W L. rewrite (C1 n c W L). apply C2; [exact W|]. now rewrite X. }
  destruct (O1 p) as [E1|[(P & N & E1)|(n & c & k & W & -> & L & _)]]; [| |exact (K n c W L)].
  - destruct (O2 p) as [E2|[(P2 & N2 & E2)|(n & c & k & W & -> & L & _)]]; [| |rewrite (X n W) in L; exact (K n c W L)].
    + destruct (O p) as [E|[(P & N & E)|(n & c & k & W & -> & L & _)]]; [congruence| |exact (K n c W L)].
      exfalso. rewrite N in E1. destruct P as [->| ->]; congruence.
    + assert (L0 : lookup s0 p = None) by (destruct (O p) as [E|[(_ & _ & E)|(n & c & k & _ & _ & _ & E)]]; congruence).
      exfalso. rewrite L0 in E1. destruct P2 as [->| ->]; congruence.
  - destruct (O2 p) as [E2|[(P2 & N2 & E2)|(n & c & k & W & -> & L & _)]]; [|congruence|rewrite (X n W) in L; exact (K n c W L)].
    destruct (O p) as [E|[(_ & _ & E)|(n & c & k & W & -> & L & _)]]; [|congruence|exact (K n c W L)].
    exfalso. rewrite E, N in E2. destruct P as [->| ->]; congruence.
Qed.
Lemma crash_rerun s0 update w1 o s : tree s0 -> can_install s0 include arduino update ->
  install_arduino_library (mk_world s0 []) include arduino update = (w1, o) -> In s (states w1) ->
  exists w2, install_arduino_library (mk_world s []) include arduino true = (w2, Done d) /\ forall p, lookup (now w2) p = lookup (now w1) p.
Proof.
  intros T CI E1 Hs. destruct (install_ok s0 update T CI) as (w1' & E1'). rewrite E1' in E1. injection E1 as <- <-.
  destruct (install_any s0 update w1' (Done d) T E1') as [S1 (_ & C1 & A1 & B1)].
  destruct (S1 s Hs) as [O Ts]. assert (Ni : include <> d) by apply CI.
  destruct (install_ok s true Ts (crash_can s0 s update Ni O CI)) as (w2 & E2). exists w2. split; [exact E2|].
  destruct (install_any s true w2 (Done d) Ts E2) as [S2 (_ & C2 & A2 & B2)].
  apply (final_same s0 (now w1') s (now w2)); auto.
  - intros n W. destruct CI as (_ & _ & _ & Hw). apply (Hw n W).
  - apply S1. left. reflexivity.
  - apply S2. left. reflexivity.
Qed.
End Top.

(** ** States once passed through stay recorded *)
Lemma states_become w s x : In x (states w) -> In x (states (become w s)).
Proof. intros H. right. exact H. Qed.
Lemma states_write_bytes p rest : forall w done_ x, In x (states w) -> In x (states (write_bytes w p done_ rest)).
Proof. induction rest as [|b rest IH]; intros w done_ x H; cbn [write_bytes]; [exact H|]. apply IH. now apply states_become. Qed.
Lemma states_copy w f d w' o x : copy w f d = (w', o) -> In x (states w) -> In x (states w').
Proof.
  unfold copy. destruct (isdir (now w) d); [|intros E; injection E as <- <-; auto].
  destruct (path_eqb f (d ++ [basename f])); [intros E; injection E as <- <-; auto|].
  destruct (lookup (now w) f) as [[|c]|]; try (intros E; injection E as <- <-; auto; fail).
  destruct (lookup (now w) (d ++ [basename f])) as [[|c']|]; intros E; injection E as <- <-; auto; intros H; unfold write_file; apply states_write_bytes; now apply states_become.
Qed.
Lemma states_copy_all files d : forall w w' o x, copy_all w files d = (w', o) -> In x (states w) -> In x (states w').
Proof.
  induction files as [|f files IH]; intros w w' o x E H; cbn [copy_all] in E; [injection E as <- <-; auto|].
  destruct (copy w f d) as [w1 [u|e]] eqn:E1; [apply (IH _ _ _ _ E)|injection E as <- <-]; apply (states_copy _ _ _ _ _ _ E1 H).
Qed.
Lemma states_copy_patterns include pats d : forall w w' o x, copy_patterns w include pats d = (w', o) -> In x (states w) -> In x (states w').
Proof.
  induction pats as [|p pats IH]; intros w w' o x E H; cbn [copy_patterns] in E; [injection E as <- <-; auto|].
  destruct (copy_all w (glob (now w) include p) d) as [w1 [u|e]] eqn:E1; [apply (IH _ _ _ _ E)|injection E as <- <-]; apply (states_copy_all _ _ _ _ _ _ E1 H).
Qed.
(** There is a moment when the library is there and empty. *)
Lemma empty_moment s0 include arduino w1 : plain include -> tree s0 -> lookup s0 (library arduino) = None ->
  install_arduino_library (mk_world s0 []) include arduino false = (w1, Done (library arduino)) ->
  exists s, In s (states w1) /\ lookup s (library arduino) = Some Dir /\ forall n, lookup s (library arduino ++ [n]) = None.
Proof.
  intros PL T Ld E. unfold install_arduino_library in E. change (arduino ++ [n_emlearn]) with (library arduino) in E.
  destruct (exists_ (now (mk_world s0 [])) (library arduino) && negb false); [discriminate|].
  destruct (ensure_dir_single (mk_world s0 []) arduino) as [w2 o2] eqn:E2. apply (ensure_any arduino) in E2 as (T2 & D2 & H2 & O2); auto. cbn [now] in D2.
  destruct o2 as [[]|e]; [|discriminate].
  destruct (ensure_dir_single w2 (library arduino)) as [w3 o3] eqn:E3. apply (ensure_any arduino) in E3 as (T3 & D3 & H3 & O3); auto.
  pose proof (dirs_trans arduino _ _ _ D2 D3) as D03.
  destruct o3 as [[]|e]; [|discriminate].
  destruct (copy_patterns w3 include [pat_headers; n_version] (library arduino)) as [w4 o4] eqn:E4. exists (now w3). split; [|split].
  - destruct o4 as [u|e]; [|discriminate]. injection E as <-. apply (states_copy_patterns _ _ _ _ _ _ _ E4). left. reflexivity.
  - destruct (D03 (library arduino)) as [E'|(_ & _ & E')]; [congruence|exact E'].
  - intros n. assert (L0 : lookup s0 (library arduino ++ [n]) = None).
    { destruct (lookup s0 (library arduino ++ [n])) eqn:L; auto. assert (X : lookup s0 (library arduino ++ [n]) <> None) by congruence. apply T in X. congruence. }
    destruct (D03 (library arduino ++ [n])) as [->|([E'|E'] & _)]; [exact L0| |]; exfalso; apply (f_equal (@length _)) in E'; unfold library in E'; rewrite ?app_length in E'; cbn in E'; lia.
Qed.
