(** Structured logging and the fixed-point layer: properties C135 and C136. *)
From Coq Require Import String ZArith List Bool Reals Lia.
From Flocq Require Import Core BinarySingleNaN.
From Verif.Base Require Import Res Float CInt.
From Verif.Model Require Import Common Text Net Log.
From Verif.Spec Require Import StrSpec LogSpec.
From Verif.Proof Require Import Log.
Import Verif.Spec.LogSpec ListNotations.
Open Scope Z_scope.

(** ** C135 *)
Lemma nothing {S} (s : S) l : foldM (fun s (_ : Z) => Ret s) s l = Ret s.
Proof. induction l as [|a l IH]; [reflexivity|exact IH]. Qed.
(** The layer is not computed: whatever inputs, weights and biases are, EmlOk is reported and the output is what was there
    before. *)
Theorem C135_not_computed_refuted inp n weights biases act out m : In act [ActIdentity; ActRelu; ActLogistic; ActSoftmax] ->
  eml_net_forward_q16 inp n weights biases act out m = Ret (EmlOk, out).
Proof. intros H. unfold eml_net_forward_q16. rewrite nothing. cbn [bind]. rewrite nothing. cbn [In] in H. repeat (destruct H as [<-|H]; [reflexivity|]). destruct H. Qed.
(** One input 1 with weight 1 and bias 1 (65536 in q16): the output stays 0 instead of 2. *)
Theorem C135_one_refuted : eml_net_forward_q16 [65536] 1 [65536] [65536] ActIdentity [0] 1 = Ret (EmlOk, [0]).
Proof. apply C135_not_computed_refuted. now left. Qed.
(** What does hold: it stays inside its arrays (it touches none), and other activations are refused. *)
Theorem C135_other_partial inp n weights biases act out m : ~ In act [ActIdentity; ActRelu; ActLogistic; ActSoftmax] ->
  eml_net_forward_q16 inp n weights biases act out m = Ret (EmlUnsupported, out).
Proof. intros H. unfold eml_net_forward_q16. rewrite nothing. cbn [bind]. destruct act; try reflexivity; exfalso; apply H; cbn; tauto. Qed.
Example C135_ex : eml_net_forward_q16 [1] 1 [2] [3] ActTanh [4] 1 = Ret (EmlUnsupported, [4]) /\
  eml_net_forward_q16 [1] 1 [2] [3] ActSoftmax [4] 1 = Ret (EmlOk, [4]).
Proof. vm_compute. split; reflexivity. Qed.

(** ** C136 *)
(** Every log of entries with proper names, keys and values is a text in logfmt that says what was logged, and says nothing
    else. *)
Theorem C136_log_partial l : Forall (fun '(ev, adds) => good_event ev /\ Forall good_add adds) l ->
  exists es, log_entries true l = Ret (log_of es) /\ Forall2 entry_says l es /\
    forall es', Forall proper es' -> log_of es' = log_of es -> es' = es.
Proof.
  intros F. destruct (entries_ok l F) as (es & E & S & P). exists es. split; [exact E|]. split; [exact S|].
  intros es' P' E'. now apply log_inj.
Qed.
(** Without EML_LOG_ENABLE nothing is written and no argument matters. *)
Theorem C136_disabled l : log_entries false l = Ret [].
Proof.
  unfold log_entries. assert (G : exists ts, mapM (fun '(event, adds) => log_entry false event adds) l = Ret ts /\ concat ts = []).
  { induction l as [|[ev adds] l (ts & E & C)]; [exists []; split; reflexivity|]. exists ([] :: ts). cbn [mapM]. change (log_entry false ev adds) with (Ret [] : res (list Z)). cbn [bind]. rewrite E. split; [reflexivity|exact C]. }
  destruct G as (ts & -> & C). cbn [bind]. now rewrite C.
Qed.
(** A value with a space in it is read as several keys. *)
Theorem C136_space_refuted : exists l1 l2, l1 <> l2 /\
  log_entry true (txt "e") [Add (txt "a") (txt "1 b=2")] = Ret l1 /\ log_entry true (txt "e") [Add (txt "a") (txt "1"); Add (txt "b") (txt "2")] = Ret l1 /\
  log_entry true (txt "e") [Add (txt "a") (txt "1")] = Ret l2.
Proof.
  exists (txt "e a=1 b=2" ++ [10])%list, (txt "e a=1" ++ [10])%list. split; [discriminate|]. vm_compute. repeat split; reflexivity.
Qed.
(** An array has no equals sign: no text of proper entries looks like that. *)
Theorem C136_array_refuted key zs : ~ In 61 key ->
  exists t, log_entry true (txt "e"%string) [AddArray key (map AInt zs) (zlen zs) (txt "%d"%string)] = Ret t /\
    forall es, Forall proper es -> log_of es <> t.
Proof.
  intros K. destruct (array_field key zs (zlen zs) eq_refl) as (u & F & P). eexists. split.
  - unfold log_entry. rewrite printf_plain by (intros [H|[]]; discriminate).
    cbn [bind mapM]. rewrite F. cbn [bind]. rewrite printf_plain by (intros [H|[]]; discriminate). cbn [bind]. reflexivity.
  - intros es Pr E. assert (S : In 32 (log_of es)) by (rewrite E; right; now left).
    apply (space_equals es Pr) in S. rewrite E in S. cbn [concat] in S. rewrite app_nil_r in S. change (txt "e") with [101] in S.
    rewrite !in_app_iff in S. cbn [In app] in S. rewrite !in_app_iff in S. cbn [In] in S. intuition (try discriminate). apply in_app_iff in H as [H|[H|[]]]; [auto|discriminate].
Qed.
(** A percent sign in the name of an event: memory that is no argument is read. *)
Theorem C136_percent_refuted pre c rest adds : ~ In 37 pre -> c <> 37 -> log_entry true (pre ++ 37 :: c :: rest) adds = Err OutOfBounds.
Proof. intros P C. unfold log_entry. now rewrite printf_missing. Qed.

(** The numbers 3.14159 and -0.00006 (the nearest double), to four digits. *)
Definition pi5 : f64 := f_of_dec false 314159 5.
Definition small : f64 := f_of_dec true 6 5.
Example C136_ex_hyps : Forall (fun '(ev, adds) => good_event ev /\ Forall good_add adds)
  [(txt "my-event", [Add (txt "k1") (txt "a=b"); AddInteger (txt "k2") (-123); AddBool (txt "k3") true; AddFloat (txt "k4") pi5]);
   (txt "", []); (txt "other", [AddFloat (txt "x") small; AddBool (txt "y") false])]%string.
Proof.
  repeat (apply Forall_cons; [split; [split|]|]); try apply Forall_nil; cbn [txt good_add];
    repeat (apply Forall_cons || apply Forall_nil); repeat split; cbn; intuition (try discriminate); repeat (apply Forall_cons || apply Forall_nil); cbn; intuition discriminate.
Qed.
Example C136_ex : log_entries true
  [(txt "my-event", [Add (txt "k1") (txt "a=b"); AddInteger (txt "k2") (-123); AddBool (txt "k3") true; AddFloat (txt "k4") pi5]);
   (txt "", []); (txt "other", [AddFloat (txt "x") small; AddBool (txt "y") false])]%string =
  Ret (txt "my-event k1=a=b k2=-123 k3=true k4=3.1416" ++ [10; 10] ++ txt "other x=-0.0001 y=false" ++ [10])%list.
Proof. vm_compute. reflexivity. Qed.
Example C136_ex_array : log_entry true (txt "e"%string) [AddArray (txt "votes"%string) (map AInt [3; -1]) 2 (txt "%d"%string)] = Ret (txt "e votes[3,-1]" ++ [10])%list.
Proof. vm_compute. reflexivity. Qed.
