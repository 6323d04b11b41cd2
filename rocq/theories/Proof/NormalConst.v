(** The numbers ln 2 and ln (2 pi), enough of them. *)
From Coq Require Import ZArith Lia Reals Lra Machin.
From Verif.Spec Require Import BayesSpec.
From Verif.Proof Require Import Log2.
Open Scope R_scope.

Lemma exp_sq a b t : 0 <= a -> a <= exp t -> b <= a * a -> b <= exp (2 * t).
Proof. intros Ha H Hb. replace (2 * t) with (t + t) by ring. rewrite exp_plus. eapply Rle_trans; [exact Hb|]. apply Rmult_le_compat; lra. Qed.
Lemma exp_a : 20000872681 / 10000000000 <= exp (2773 / 4000).
Proof.
  assert (H0 : 10001692504 / 10000000000 <= exp ((2773 / 4000) / 4096)) by (pose proof (exp_ineq1_le ((2773 / 4000) / 4096)); lra).
  assert (H1 : 10003385294 / 10000000000 <= exp ((2773 / 4000) / 2048)) by (replace ((2773 / 4000) / 2048) with (2 * ((2773 / 4000) / 4096)) by lra; apply (fun P => exp_sq _ _ _ P H0); lra).
  assert (H2 : 10006771734 / 10000000000 <= exp ((2773 / 4000) / 1024)) by (replace ((2773 / 4000) / 1024) with (2 * ((2773 / 4000) / 2048)) by lra; apply (fun P => exp_sq _ _ _ P H1); lra).
  assert (H3 : 10013548053 / 10000000000 <= exp ((2773 / 4000) / 512)) by (replace ((2773 / 4000) / 512) with (2 * ((2773 / 4000) / 1024)) by lra; apply (fun P => exp_sq _ _ _ P H2); lra).
  assert (H4 : 10027114460 / 10000000000 <= exp ((2773 / 4000) / 256)) by (replace ((2773 / 4000) / 256) with (2 * ((2773 / 4000) / 512)) by lra; apply (fun P => exp_sq _ _ _ P H3); lra).
  assert (H5 : 10054302439 / 10000000000 <= exp ((2773 / 4000) / 128)) by (replace ((2773 / 4000) / 128) with (2 * ((2773 / 4000) / 256)) by lra; apply (fun P => exp_sq _ _ _ P H4); lra).
  assert (H6 : 10108899753 / 10000000000 <= exp ((2773 / 4000) / 64)) by (replace ((2773 / 4000) / 64) with (2 * ((2773 / 4000) / 128)) by lra; apply (fun P => exp_sq _ _ _ P H5); lra).
  assert (H7 : 10218985421 / 10000000000 <= exp ((2773 / 4000) / 32)) by (replace ((2773 / 4000) / 32) with (2 * ((2773 / 4000) / 64)) by lra; apply (fun P => exp_sq _ _ _ P H6); lra).
  assert (H8 : 10442766303 / 10000000000 <= exp ((2773 / 4000) / 16)) by (replace ((2773 / 4000) / 16) with (2 * ((2773 / 4000) / 32)) by lra; apply (fun P => exp_sq _ _ _ P H7); lra).
  assert (H9 : 10905136805 / 10000000000 <= exp ((2773 / 4000) / 8)) by (replace ((2773 / 4000) / 8) with (2 * ((2773 / 4000) / 16)) by lra; apply (fun P => exp_sq _ _ _ P H8); lra).
  assert (H10 : 11892200873 / 10000000000 <= exp ((2773 / 4000) / 4)) by (replace ((2773 / 4000) / 4) with (2 * ((2773 / 4000) / 8)) by lra; apply (fun P => exp_sq _ _ _ P H9); lra).
  assert (H11 : 14142444160 / 10000000000 <= exp ((2773 / 4000) / 2)) by (replace ((2773 / 4000) / 2) with (2 * ((2773 / 4000) / 4)) by lra; apply (fun P => exp_sq _ _ _ P H10); lra).
  assert (H12 : 20000872681 / 10000000000 <= exp ((2773 / 4000) / 1)) by (replace ((2773 / 4000) / 1) with (2 * ((2773 / 4000) / 2)) by lra; apply (fun P => exp_sq _ _ _ P H11); lra).
  replace (2773 / 4000) with ((2773 / 4000) / 1) by lra. exact H12.
Qed.
Lemma exp_b : 5000440847 / 10000000000 <= exp (- (693 / 1000)).
Proof.
  assert (H0 : 9998308105 / 10000000000 <= exp ((- (693 / 1000)) / 4096)) by (pose proof (exp_ineq1_le ((- (693 / 1000)) / 4096)); lra).
  assert (H1 : 9996616496 / 10000000000 <= exp ((- (693 / 1000)) / 2048)) by (replace ((- (693 / 1000)) / 2048) with (2 * ((- (693 / 1000)) / 4096)) by lra; apply (fun P => exp_sq _ _ _ P H0); lra).
  assert (H2 : 9993234136 / 10000000000 <= exp ((- (693 / 1000)) / 1024)) by (replace ((- (693 / 1000)) / 1024) with (2 * ((- (693 / 1000)) / 2048)) by lra; apply (fun P => exp_sq _ _ _ P H1); lra).
  assert (H3 : 9986472849 / 10000000000 <= exp ((- (693 / 1000)) / 512)) by (replace ((- (693 / 1000)) / 512) with (2 * ((- (693 / 1000)) / 1024)) by lra; apply (fun P => exp_sq _ _ _ P H2); lra).
  assert (H4 : 9972963996 / 10000000000 <= exp ((- (693 / 1000)) / 256)) by (replace ((- (693 / 1000)) / 256) with (2 * ((- (693 / 1000)) / 512)) by lra; apply (fun P => exp_sq _ _ _ P H3); lra).
  assert (H5 : 9946001086 / 10000000000 <= exp ((- (693 / 1000)) / 128)) by (replace ((- (693 / 1000)) / 128) with (2 * ((- (693 / 1000)) / 256)) by lra; apply (fun P => exp_sq _ _ _ P H4); lra).
  assert (H6 : 9892293760 / 10000000000 <= exp ((- (693 / 1000)) / 64)) by (replace ((- (693 / 1000)) / 64) with (2 * ((- (693 / 1000)) / 128)) by lra; apply (fun P => exp_sq _ _ _ P H5); lra).
  assert (H7 : 9785747583 / 10000000000 <= exp ((- (693 / 1000)) / 32)) by (replace ((- (693 / 1000)) / 32) with (2 * ((- (693 / 1000)) / 64)) by lra; apply (fun P => exp_sq _ _ _ P H6); lra).
  assert (H8 : 9576085575 / 10000000000 <= exp ((- (693 / 1000)) / 16)) by (replace ((- (693 / 1000)) / 16) with (2 * ((- (693 / 1000)) / 32)) by lra; apply (fun P => exp_sq _ _ _ P H7); lra).
  assert (H9 : 9170141493 / 10000000000 <= exp ((- (693 / 1000)) / 8)) by (replace ((- (693 / 1000)) / 8) with (2 * ((- (693 / 1000)) / 16)) by lra; apply (fun P => exp_sq _ _ _ P H8); lra).
  assert (H10 : 8409149500 / 10000000000 <= exp ((- (693 / 1000)) / 4)) by (replace ((- (693 / 1000)) / 4) with (2 * ((- (693 / 1000)) / 8)) by lra; apply (fun P => exp_sq _ _ _ P H9); lra).
  assert (H11 : 7071379531 / 10000000000 <= exp ((- (693 / 1000)) / 2)) by (replace ((- (693 / 1000)) / 2) with (2 * ((- (693 / 1000)) / 4)) by lra; apply (fun P => exp_sq _ _ _ P H10); lra).
  assert (H12 : 5000440847 / 10000000000 <= exp ((- (693 / 1000)) / 1)) by (replace ((- (693 / 1000)) / 1) with (2 * ((- (693 / 1000)) / 2)) by lra; apply (fun P => exp_sq _ _ _ P H11); lra).
  replace (- (693 / 1000)) with ((- (693 / 1000)) / 1) by lra. exact H12.
Qed.
Lemma exp_c : 62876472174 / 10000000000 <= exp (1839 / 1000).
Proof.
  assert (H0 : 10004489746 / 10000000000 <= exp ((1839 / 1000) / 4096)) by (pose proof (exp_ineq1_le ((1839 / 1000) / 4096)); lra).
  assert (H1 : 10008981507 / 10000000000 <= exp ((1839 / 1000) / 2048)) by (replace ((1839 / 1000) / 2048) with (2 * ((1839 / 1000) / 4096)) by lra; apply (fun P => exp_sq _ _ _ P H0); lra).
  assert (H2 : 10017971080 / 10000000000 <= exp ((1839 / 1000) / 1024)) by (replace ((1839 / 1000) / 1024) with (2 * ((1839 / 1000) / 2048)) by lra; apply (fun P => exp_sq _ _ _ P H1); lra).
  assert (H3 : 10035974455 / 10000000000 <= exp ((1839 / 1000) / 512)) by (replace ((1839 / 1000) / 512) with (2 * ((1839 / 1000) / 1024)) by lra; apply (fun P => exp_sq _ _ _ P H2); lra).
  assert (H4 : 10072078326 / 10000000000 <= exp ((1839 / 1000) / 256)) by (replace ((1839 / 1000) / 256) with (2 * ((1839 / 1000) / 512)) by lra; apply (fun P => exp_sq _ _ _ P H3); lra).
  assert (H5 : 10144676180 / 10000000000 <= exp ((1839 / 1000) / 128)) by (replace ((1839 / 1000) / 128) with (2 * ((1839 / 1000) / 256)) by lra; apply (fun P => exp_sq _ _ _ P H4); lra).
  assert (H6 : 10291445479 / 10000000000 <= exp ((1839 / 1000) / 64)) by (replace ((1839 / 1000) / 64) with (2 * ((1839 / 1000) / 128)) by lra; apply (fun P => exp_sq _ _ _ P H5); lra).
  assert (H7 : 10591385004 / 10000000000 <= exp ((1839 / 1000) / 32)) by (replace ((1839 / 1000) / 32) with (2 * ((1839 / 1000) / 64)) by lra; apply (fun P => exp_sq _ _ _ P H6); lra).
  assert (H8 : 11217743630 / 10000000000 <= exp ((1839 / 1000) / 16)) by (replace ((1839 / 1000) / 16) with (2 * ((1839 / 1000) / 32)) by lra; apply (fun P => exp_sq _ _ _ P H7); lra).
  assert (H9 : 12583777214 / 10000000000 <= exp ((1839 / 1000) / 8)) by (replace ((1839 / 1000) / 8) with (2 * ((1839 / 1000) / 16)) by lra; apply (fun P => exp_sq _ _ _ P H8); lra).
  assert (H10 : 15835144897 / 10000000000 <= exp ((1839 / 1000) / 4)) by (replace ((1839 / 1000) / 4) with (2 * ((1839 / 1000) / 8)) by lra; apply (fun P => exp_sq _ _ _ P H9); lra).
  assert (H11 : 25075181390 / 10000000000 <= exp ((1839 / 1000) / 2)) by (replace ((1839 / 1000) / 2) with (2 * ((1839 / 1000) / 4)) by lra; apply (fun P => exp_sq _ _ _ P H10); lra).
  assert (H12 : 62876472174 / 10000000000 <= exp ((1839 / 1000) / 1)) by (replace ((1839 / 1000) / 1) with (2 * ((1839 / 1000) / 2)) by lra; apply (fun P => exp_sq _ _ _ P H11); lra).
  replace (1839 / 1000) with ((1839 / 1000) / 1) by lra. exact H12.
Qed.
Lemma exp_d : 1593883235 / 10000000000 <= exp (- (459 / 250)).
Proof.
  assert (H0 : 9995517578 / 10000000000 <= exp ((- (459 / 250)) / 4096)) by (pose proof (exp_ineq1_le ((- (459 / 250)) / 4096)); lra).
  assert (H1 : 9991037165 / 10000000000 <= exp ((- (459 / 250)) / 2048)) by (replace ((- (459 / 250)) / 2048) with (2 * ((- (459 / 250)) / 4096)) by lra; apply (fun P => exp_sq _ _ _ P H0); lra).
  assert (H2 : 9982082363 / 10000000000 <= exp ((- (459 / 250)) / 1024)) by (replace ((- (459 / 250)) / 1024) with (2 * ((- (459 / 250)) / 2048)) by lra; apply (fun P => exp_sq _ _ _ P H1); lra).
  assert (H3 : 9964196830 / 10000000000 <= exp ((- (459 / 250)) / 512)) by (replace ((- (459 / 250)) / 512) with (2 * ((- (459 / 250)) / 1024)) by lra; apply (fun P => exp_sq _ _ _ P H2); lra).
  assert (H4 : 9928521846 / 10000000000 <= exp ((- (459 / 250)) / 256)) by (replace ((- (459 / 250)) / 256) with (2 * ((- (459 / 250)) / 512)) by lra; apply (fun P => exp_sq _ _ _ P H3); lra).
  assert (H5 : 9857554604 / 10000000000 <= exp ((- (459 / 250)) / 128)) by (replace ((- (459 / 250)) / 128) with (2 * ((- (459 / 250)) / 256)) by lra; apply (fun P => exp_sq _ _ _ P H4); lra).
  assert (H6 : 9717138277 / 10000000000 <= exp ((- (459 / 250)) / 64)) by (replace ((- (459 / 250)) / 64) with (2 * ((- (459 / 250)) / 128)) by lra; apply (fun P => exp_sq _ _ _ P H5); lra).
  assert (H7 : 9442277629 / 10000000000 <= exp ((- (459 / 250)) / 32)) by (replace ((- (459 / 250)) / 32) with (2 * ((- (459 / 250)) / 64)) by lra; apply (fun P => exp_sq _ _ _ P H6); lra).
  assert (H8 : 8915660682 / 10000000000 <= exp ((- (459 / 250)) / 16)) by (replace ((- (459 / 250)) / 16) with (2 * ((- (459 / 250)) / 32)) by lra; apply (fun P => exp_sq _ _ _ P H7); lra).
  assert (H9 : 7948900539 / 10000000000 <= exp ((- (459 / 250)) / 8)) by (replace ((- (459 / 250)) / 8) with (2 * ((- (459 / 250)) / 16)) by lra; apply (fun P => exp_sq _ _ _ P H8); lra).
  assert (H10 : 6318501977 / 10000000000 <= exp ((- (459 / 250)) / 4)) by (replace ((- (459 / 250)) / 4) with (2 * ((- (459 / 250)) / 8)) by lra; apply (fun P => exp_sq _ _ _ P H9); lra).
  assert (H11 : 3992346723 / 10000000000 <= exp ((- (459 / 250)) / 2)) by (replace ((- (459 / 250)) / 2) with (2 * ((- (459 / 250)) / 4)) by lra; apply (fun P => exp_sq _ _ _ P H10); lra).
  assert (H12 : 1593883235 / 10000000000 <= exp ((- (459 / 250)) / 1)) by (replace ((- (459 / 250)) / 1) with (2 * ((- (459 / 250)) / 2)) by lra; apply (fun P => exp_sq _ _ _ P H11); lra).
  replace (- (459 / 250)) with ((- (459 / 250)) / 1) by lra. exact H12.
Qed.

Lemma ln2_bounds : 693 / 1000 <= ln 2 <= 69325 / 100000.
Proof.
  split.
  - apply Rnot_lt_le. intros H. apply exp_increasing in H. rewrite exp_ln in H by lra. pose proof exp_b as E. rewrite exp_Ropp in E.
    assert (P : exp (693 / 1000) * / exp (693 / 1000) = 1) by (apply Rinv_r; pose proof (exp_pos (693 / 1000)); lra).
    pose proof (exp_pos (693 / 1000)). assert (exp (693 / 1000) * (5000430000 / 10000000000) <= 1) by nra. nra.
  - apply Rnot_lt_le. intros H. apply exp_increasing in H. rewrite exp_ln in H by lra. pose proof exp_a as E.
    replace (2773 / 4000) with (69325 / 100000) in E by lra. lra.
Qed.
Lemma PI_bounds : 314 / 100 <= PI <= 3143 / 1000.
Proof.
  pose proof (PI_2_3_7_ineq 1) as [L U]. change (S (2 * 1)) with 3%nat in L. change (2 * 1)%nat with 2%nat in U. unfold tg_alt, PI_2_3_7_tg, Ratan_seq in L, U. cbn [sum_f_R0 pow Nat.add Nat.mul INR] in L, U.
  replace (/ 3) with (1 / 3) in L, U by lra. replace (/ 7) with (1 / 7) in L, U by lra. split; [clear U; field_simplify in L|clear L; field_simplify in U]; lra.
Qed.
Lemma ln2pi_bounds : 1836 / 1000 <= ln (2 * PI) <= 1839 / 1000.
Proof.
  pose proof PI_bounds as PB. split.
  - apply Rnot_lt_le. intros H. apply exp_increasing in H. rewrite exp_ln in H by lra. pose proof exp_d as E. rewrite exp_Ropp in E.
    replace (459 / 250) with (1836 / 1000) in E by lra.
    assert (P : exp (1836 / 1000) * / exp (1836 / 1000) = 1) by (apply Rinv_r; pose proof (exp_pos (1836 / 1000)); lra).
    pose proof (exp_pos (1836 / 1000)). nra.
  - apply Rnot_lt_le. intros H. apply exp_increasing in H. rewrite exp_ln in H by lra. pose proof exp_c as E. lra.
Qed.
