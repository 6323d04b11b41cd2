(** save(name, file): effects, default name, and the identifiers of saved files. *)
From Coq Require Import String ZArith List Bool Lia.
From Flocq Require Import Core BinarySingleNaN.
From Verif.Base Require Import Res CInt ListX Loops Float.
From Verif.Model Require Import Common Text Cgen TreesConvert TreesC TreesInline TreesWrapper Neighbors NeighborsRun TreesRun SaveText SaveApi SaveNetText.
From Verif.Spec Require Import CTextSpec CgenSpec SaveSpec.
From Verif.Proof Require Import TreesTop Text Cgen CText SaveInline SaveFile SaveInlineTop SaveProps SaveLoad SaveNeighbors SaveNet.
Import ListNotations.
Open Scope Z_scope.
Open Scope list_scope.
Open Scope res_scope.

(** dir/stem.ext *)
Lemma existsb_none c (l : text) : ~ In c l -> existsb (Z.eqb c) l = false.
Proof. intros H. apply not_true_is_false. intros E. apply existsb_exists in E. destruct E as (x & I & Q). apply Z.eqb_eq in Q. subst. contradiction. Qed.
Lemma basename_here p : ~ In 47 p -> basename p = p.
Proof.
  destruct p as [|c p]; [reflexivity|]. intros H. cbn [basename]. rewrite existsb_none by (intros Q; apply H; now right).
  destruct (Z.eqb_spec c 47); [|reflexivity]. exfalso. apply H. left. auto.
Qed.
Lemma basename_dir dir p : ~ In 47 p -> basename (dir ++ 47 :: p) = p.
Proof.
  intros H. induction dir as [|c dir IH]; cbn [app].
  - cbn [basename]. rewrite existsb_none by exact H. reflexivity.
  - change (basename (c :: dir ++ 47 :: p)) with (if existsb (Z.eqb 47) (dir ++ 47 :: p) then basename (dir ++ 47 :: p) else if c =? 47 then dir ++ 47 :: p else c :: dir ++ 47 :: p).
    replace (existsb (Z.eqb 47) (dir ++ 47 :: p)) with true; [exact IH|]. symmetry. apply existsb_exists. exists 47. split; [apply in_or_app; right; now left|reflexivity].
Qed.
Lemma before_none ext : ~ In 46 ext -> before_last_dot ext = None.
Proof.
  induction ext as [|c ext IH]; intros H; [reflexivity|]. cbn [before_last_dot]. rewrite IH by (intros Q; apply H; now right).
  destruct (Z.eqb_spec c 46); [|reflexivity]. exfalso. apply H. left. auto.
Qed.
Lemma before_dot s ext : ~ In 46 ext -> before_last_dot (s ++ 46 :: ext) = Some s.
Proof.
  intros H. induction s as [|c s IH]; cbn [app before_last_dot].
  - rewrite (before_none ext H). reflexivity.
  - rewrite IH. reflexivity.
Qed.
Lemma identifier_chars s c : identifier s -> In c s -> c <> 46 /\ c <> 47.
Proof.
  intros (d & t & -> & Hd & Ht) I. assert (G : letter c \/ digit c) by (destruct I as [<-|I]; [now left|rewrite Forall_forall in Ht; now apply Ht]).
  unfold letter, digit in G. split; intros ->; lia.
Qed.
Lemma stem_ok f s : stem_of f s -> splitext (basename f) = s.
Proof.
  intros (N & H & S47 & dir & ext & Hd & He & ->).
  assert (E47 : ~ In 47 (s ++ ext)).
  { intros Q. apply in_app_or in Q. destruct Q as [Q|Q]; [contradiction|]. destruct He as [[-> _]|(e & -> & _ & E)]; [contradiction|]. destruct Q as [Q|Q]; [discriminate|contradiction]. }
  assert (B : basename (dir ++ s ++ ext) = s ++ ext).
  { destruct Hd as [->|[d ->]]; [exact (basename_here _ E47)|]. rewrite <- app_assoc. cbn [app]. exact (basename_dir d _ E47). }
  rewrite B. unfold splitext. destruct He as [[-> S46]|(e & -> & E & _)].
  - rewrite app_nil_r, (before_none s S46). reflexivity.
  - rewrite (before_dot s e E). destruct s as [|c s]; [contradiction|]. cbn [forallb hd_error] in *. destruct (Z.eqb_spec 46 c); [congruence|reflexivity].
Qed.
Lemma save_effects gen writable name file fs r fs' : save_code_to gen writable name file fs = (r, fs') -> saves gen writable name file fs r fs'.
Proof.
  unfold save_code_to. intros E.
  assert (Hno : name = None -> file = None -> exists e, r = Err e).
  { intros -> ->. cbn [bind] in E. injection E as <- _. eauto. }
  assert (Hyes : forall n code, name = Some n \/ name = None /\ (exists f, file = Some f /\ stem_of f n) -> gen n = Ret code -> (forall f, file = Some f -> writable f = true) -> r = Ret code).
  { intros n code HN G W. assert (Q : match name, file with Some n, _ => Ret n | None, None => Err ValueError_ | None, Some f => Ret (splitext (basename f)) end = Ret n).
    { destruct HN as [->|(-> & f & -> & S)]; [reflexivity|]. rewrite (stem_ok _ _ S). reflexivity. }
    rewrite Q in E. cbn [bind] in E. rewrite G in E. destruct file as [[|c f]|]; [now injection E|rewrite (W _ eq_refl) in E; now injection E|now injection E]. }
  assert (HW : forall f code, fs' = write_file fs f code -> fs' f = Some code /\ (forall p, Some f <> Some p -> fs' p = fs p)).
  { intros f code ->. split; [unfold write_file; replace (text_eqb f f) with true by (symmetry; now apply text_eqb_iff); reflexivity|].
    intros p Hp. unfold write_file. destruct (text_eqb p f) eqn:Q; [|reflexivity]. apply text_eqb_iff in Q. congruence. }
  destruct (match name, file with Some n, _ => Ret n | None, None => Err ValueError_ | None, Some f => Ret (splitext (basename f)) end) as [n|e] eqn:EN; cbn [bind] in E.
  2:{ injection E as <- <-. repeat split; try discriminate; auto. }
  assert (HN : name = Some n \/ name = None /\ exists f, file = Some f /\ forall s, stem_of f s -> n = s).
  { destruct name as [m|]; [left; congruence|right]. destruct file as [f|]; [|discriminate]. split; [reflexivity|]. exists f. split; [reflexivity|]. intros s Hs. rewrite (stem_ok _ _ Hs) in EN. congruence. }
  destruct (gen n) as [code|e] eqn:EG; cbn [bind] in E.
  2:{ injection E as <- <-. repeat split; try discriminate; auto. }
  unfold saves. destruct file as [[|c f]|].
  - injection E as <- <-. split; [reflexivity|]. split; [discriminate|]. split; [|split; [exact Hno|exact Hyes]].
    intros code' Q. injection Q as <-. split; [exists n; auto|]. split; [intros f Q; congruence|discriminate].
  - destruct (writable (c :: f)) eqn:EW; injection E as <- <-.
    + destruct (HW _ _ eq_refl) as [W1 W2]. split; [exact W2|]. split; [discriminate|]. split; [|split; [exact Hno|exact Hyes]].
      intros code' Q. injection Q as <-. split; [exists n; auto|]. split; [|discriminate]. intros f' Q _. injection Q as <-. split; [exact EW|exact W1].
    + repeat split; try discriminate; auto.
  - injection E as <- <-. split; [reflexivity|]. split; [discriminate|]. split; [|split; [exact Hno|exact Hyes]].
    intros code' Q. injection Q as <-. split; [exists n; auto|]. split; [discriminate|reflexivity].
Qed.
Lemma default_name gen writable f s fs : stem_of f s -> save_code_to gen writable None (Some f) fs = save_code_to gen writable (Some s) (Some f) fs.
Proof. intros H. unfold save_code_to. rewrite (stem_ok _ _ H). reflexivity. Qed.
Lemma positional_name k gen writable arg fs : k <> KBayes -> save_positional k gen writable arg fs = (gen arg, fs).
Proof. intros H. destruct k; try contradiction; unfold save_positional, save_code_to; cbn [bind]; destruct (gen arg); reflexivity. Qed.
Lemma bayes_positional gen code : gen (txt "m") = Ret code -> exists fs fs', fs (txt "m") = Some (txt "precious") /\
  save_positional KBayes gen (fun _ => true) (txt "m") fs = (Ret code, fs') /\ fs' (txt "m") = Some code.
Proof.
  intros G. exists (fun _ => Some (txt "precious")). eexists. split; [reflexivity|]. unfold save_positional, save_code_to. cbn [bind].
  change (splitext (basename (txt "m"))) with (txt "m"). rewrite G. split; [reflexivity|]. reflexivity.
Qed.

(** ** Identifiers *)
Lemma entry_prefix name classifier pr x : In x (entry_points name classifier pr) -> starts_with name x.
Proof. unfold entry_points. destruct (classifier && pr); cbn [In]; intros H; decompose [or] H; subst; try contradiction; eexists; reflexivity. Qed.
Lemma inline_prefix w name pr c t : w_method w = MInline -> assert_valid_identifier name = Ret tt -> identifier name -> 0 <= w_n_classes w ->
  save_code w = Ret c -> trees_text w name pr = Ret t -> forall x, In x (defined_names t) -> starts_with name x.
Proof.
  intros HM HA HI HC E Et x Hx. destruct (inline_reads w name pr c HM HA HI HC E) as (t' & trees & lvs & funcs & bytes & (T1 & T2 & T3 & T4 & T5 & _) & _).
  rewrite Et in T1. injection T1 as <-. unfold defined_names in Hx. rewrite T2, !map_app, T3, T5 in Hx.
  apply in_app_or in Hx. destruct Hx as [Hx|Hx]; [|apply in_app_or in Hx; destruct Hx as [Hx|Hx]].
  - apply in_map_iff in Hx. destruct Hx as (i & <- & _). eexists. reflexivity.
  - destruct (w_leaf_bits w =? 0); [subst; contradiction|]. destruct T4 as (rest & -> & _). destruct Hx as [<-|[]]. eexists. reflexivity.
  - eapply entry_prefix; eauto.
Qed.
Lemma load_prefix w name pr m t : w_method w = MLoadable -> w_dtype w = DInt16 -> assert_valid_identifier name = Ret tt -> identifier name ->
  save_loadable w = Ret m -> trees_text w name pr = Ret t -> forall x, In x (defined_names t) -> starts_with name x.
Proof.
  intros HM HD HA HI E Et x Hx. destruct (loadable_reads w name pr m HM HD HA HI E) as (t' & data & funcs & T1 & T2 & T3 & T4 & _).
  rewrite Et in T1. injection T1 as <-. unfold defined_names in Hx. rewrite T2, map_app, T3, T4 in Hx.
  apply in_app_or in Hx. destruct Hx as [Hx|Hx]; [|eapply entry_prefix; eauto].
  cbn [In] in Hx. decompose [or] Hx; subst; try contradiction; try (eexists; reflexivity). exists []. rewrite app_nil_r. reflexivity.
Qed.
Lemma knn_prefix data labels nf k name m t : (forall row, hd_error data = Some row -> zlen row = nf) ->
  assert_valid_identifier name = Ret tt -> identifier name -> c_generate_neighbors data labels k = Ret m ->
  neighbors_text data nf labels k name = Ret t -> forall x, In x (defined_names t) -> starts_with name x.
Proof.
  intros HF HA HI E Et x Hx. destruct (neighbors_reads data labels nf k name m HF HA HI E) as (t' & T1 & T2 & _).
  rewrite Et in T1. injection T1 as <-. rewrite T2 in Hx. cbn [In] in Hx. decompose [or] Hx; subst; try contradiction; try (eexists; reflexivity). exists []. rewrite app_nil_r. reflexivity.
Qed.
Lemma two_prefixes (a b x : list Z) : starts_with a x -> starts_with b x -> starts_with a b \/ starts_with b a.
Proof.
  intros [s Hs] [s' Hs']. subst x. revert b s' Hs'. induction a as [|c a IH]; intros b s' E; [left; exists b; reflexivity|].
  destruct b as [|d b]; [right; eexists; reflexivity|]. cbn [app] in E. injection E as <- E. destruct (IH b s' E) as [[u ->]|[u ->]]; [left|right]; exists u; reflexivity.
Qed.

(** ** Files of converted models *)
Lemma loadable_file classifier dtype lb trees nf n w m name pr :
  wrapper_init classifier (Some MLoadable) dtype lb trees nf n = Ret w -> In dtype [None; Some DInt16] -> save_loadable w = Ret m ->
  identifier name -> ~ keyword name -> name <> txt "_Packed" ->
  exists t data funcs, trees_text w name pr = Ret t /\ definitions t = data ++ funcs /\
    map fst data = [name ++ txt "_nodes"; name ++ txt "_tree_roots"; name ++ txt "_leaves"; name] /\
    map fst funcs = entry_points name classifier pr /\ NoDup (defined_names t) /\
    map (fun d => forwards (snd d)) funcs = map Some (calls_library name classifier pr) /\
    load_trees t name = Some m.
Proof.
  intros E Hd Em I1 I2 I3. destruct (wrapper_init_Ret _ _ _ _ _ _ _ _ E) as (_ & W1 & _ & W3 & W4 & _).
  destruct (init_method _ _ _ _ _ _ _ _ E) as [M D].
  assert (HD : w_dtype w = DInt16) by (destruct Hd as [<-|[<-|[]]]; exact D).
  destruct (loadable_reads w name pr m M HD (accepted _ I1 I2 I3) I1 Em) as (t & data & funcs & T).
  rewrite W4 in T. exists t, data, funcs. exact T.
Qed.
Lemma knn_init_gen metric weights method data labels k m : knn_init metric weights method data labels k = Ret m -> c_generate_neighbors data labels k = Ret m.
Proof. unfold knn_init. intros E. apply bind_Ret in E. destruct E as ([] & _ & E). destruct (String.eqb _ _); [exact E|discriminate]. Qed.
Lemma knn_file metric weights method data labels nf k m name :
  knn_init metric weights method data labels k = Ret m -> Forall (fun row => zlen row = nf) data ->
  identifier name -> ~ keyword name -> name <> txt "_Packed" ->
  exists t, neighbors_text data nf labels k name = Ret t /\
    defined_names t = [name ++ txt "_data"; name ++ txt "_labels"; name] /\ NoDup (defined_names t) /\
    load_neighbors t name = Some m.
Proof.
  intros E F I1 I2 I3. apply (neighbors_reads data labels nf k name m); [|exact (accepted _ I1 I2 I3)|exact I1|exact (knn_init_gen _ _ _ _ _ _ _ E)].
  intros row Hr. destruct data; [discriminate|]. injection Hr as ->. inversion F. assumption.
Qed.

Lemma existsb_text w l : existsb (text_eqb w) l = true -> In w l.
Proof. intros H. apply existsb_exists in H. destruct H as (x & I & Q). apply text_eqb_iff in Q. subst. exact I. Qed.
Lemma trees_accepted w name pr t : trees_text w name pr = Ret t -> assert_valid_identifier name = Ret tt.
Proof.
  unfold trees_text. intros E. apply bind_Ret in E. destruct E as (d & _ & E). destruct (w_method w); [| |discriminate];
    (apply bind_Ret in E; destruct E as (t' & E & _); unfold inline_text, loadable_text in E; destruct (w_forest w) as [[? ?] ?]; apply bind_Ret in E; destruct E as ([] & E & _); exact E).
Qed.
Lemma knn_accepted data nf labels k name t : neighbors_text data nf labels k name = Ret t -> assert_valid_identifier name = Ret tt.
Proof. unfold neighbors_text. intros E. apply bind_Ret in E. destruct E as ([] & E & _). exact E. Qed.
Lemma saved_prefix name t x : identifier name -> saved_as name t -> In x (defined_names t) -> starts_with name x.
Proof.
  intros I S. destruct S as [classifier method dtype lb trees nf n w c pr E Hm Hn Ec Et|classifier dtype lb trees nf n w m pr E Hd Em Et|metric weights method data labels nf k m E F Et|expf logf tanhf ls m E SZ Et].
  - destruct (wrapper_init_Ret _ _ _ _ _ _ _ _ E) as (_ & W1 & _ & W3 & W4 & _). destruct (init_method _ _ _ _ _ _ _ _ E) as [M _].
    assert (HM : w_method w = MInline) by (destruct Hm as [<-|[<-|[]]]; exact M).
    refine (inline_prefix w name pr c t HM (trees_accepted _ _ _ _ Et) I _ Ec Et x). rewrite W3; destruct classifier; lia.
  - destruct (init_method _ _ _ _ _ _ _ _ E) as [M D]. assert (HD : w_dtype w = DInt16) by (destruct Hd as [<-|[<-|[]]]; exact D).
    exact (load_prefix w name pr m t M HD (trees_accepted _ _ _ _ Et) I Em Et x).
  - refine (knn_prefix data labels nf k name m t _ (knn_accepted _ _ _ _ _ _ Et) I (knn_init_gen _ _ _ _ _ _ _ E) Et x).
    intros row Hr. destruct data; [discriminate|]. injection Hr as ->. inversion F. assumption.
  - destruct SZ as [S1 S2]. assert (HA : assert_valid_identifier name = Ret tt) by (unfold net_text in Et; apply bind_Ret in Et; destruct Et as ([] & HA & _); exact HA).
    destruct (net_reads expf logf tanhf ls name m HA I E S1 S2) as (t' & Et' & _ & _ & _ & PRE). rewrite Et in Et'. injection Et' as <-. exact (PRE x).
Qed.
Lemma disjoint_names t1 t2 name1 name2 : identifier name1 -> identifier name2 -> saved_as name1 t1 -> saved_as name2 t2 ->
  ~ starts_with name1 name2 -> ~ starts_with name2 name1 -> forall x, In x (defined_names t1) -> In x (defined_names t2) -> False.
Proof.
  intros I1 I2 S1 S2 N1 N2 x H1 H2. destruct (two_prefixes _ _ _ (saved_prefix _ _ _ I1 S1 H1) (saved_prefix _ _ _ I2 S2 H2)); contradiction.
Qed.
