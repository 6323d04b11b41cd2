(** FFT: what the loops do, in any arithmetic. *)
From Coq Require Import ZArith List Bool Lia Reals Lra.
From Verif.Base Require Import Res CInt ListX Loops Arith Kernels RealSum.
From Verif.Model Require Import Common Fft.
From Verif.Spec Require Import RealSpec FftSpec.
From Verif.Proof Require Import BitRev.
Import ListNotations.
Open Scope Z_scope.
Open Scope res_scope.

(** A buffer as a function of the index. *)
Definition buf {X} (n : Z) (f : Z -> X) : list X := map f (zrange n).
Lemma buf_ext {X} n (f g : Z -> X) : (forall p, 0 <= p < n -> f p = g p) -> buf n f = buf n g.
Proof. intros H. apply map_ext_in. intros p Hp. apply H. now apply Res.zrange_In. Qed.
Lemma zlen_buf {X} n (f : Z -> X) : 0 <= n -> zlen (buf n f) = n.
Proof. intros. unfold buf, zlen. rewrite map_length, zrange_length. lia. Qed.
Lemma buf_get {X} n (f : Z -> X) i : 0 <= i < n -> zget (buf n f) i = Ret (f i).
Proof.
  intros H. unfold buf. apply zget_Ret. split; [lia|]. rewrite nth_error_map.
  pose proof (zget_zrange' n i H) as E. apply zget_Ret in E as [_ E]. now rewrite E.
Qed.
Lemma buf_set {X} n (f : Z -> X) i v : 0 <= i < n -> zset (buf n f) i v = Ret (buf n (fun p => if p =? i then v else f p)).
Proof.
  intros H. rewrite zset_ok by (rewrite zlen_buf; lia). f_equal. apply zget_eq.
  - rewrite zlen_list_set, !zlen_buf by lia. auto.
  - intros k Hk. rewrite zlen_list_set, zlen_buf in Hk by lia.
    rewrite zget_list_set by (rewrite zlen_buf; lia). rewrite (buf_get n (fun p => if p =? i then v else f p)) by lia.
    destruct (Z.eqb_spec i k); destruct (Z.eqb_spec k i); try lia; auto. apply buf_get; lia.
Qed.
Lemma buf_of {X} (d : X) l : l = buf (zlen l) (znth d l).
Proof. symmetry. apply map_znth. Qed.

Ltac bufs := repeat (first [progress cbn [bind] | rewrite buf_get by lia | rewrite buf_set by lia]).

Section Any.
Context (A : arith).
Notation num := (num A).

(** ** Levels *)
Lemma levels_pow fuel m levels : (0 <= m < Z.of_nat fuel) -> 0 <= levels -> levels + m < 2 ^ 31 ->
  fft_levels fuel (2 ^ m) levels = Ret (levels + m).
Proof.
  revert m levels; induction fuel; intros m levels Hm Hl B; [lia|]. cbn [fft_levels].
  change (2 ^ 31) with 2147483648 in *.
  destruct (Z.eq_dec m 0) as [->|N]; [now rewrite Z.add_0_r|].
  assert (1 < 2 ^ m) by (apply Z.pow_gt_1; lia).
  destruct (Z.ltb_spec 1 (2 ^ m)); [|lia]. rewrite chk_int32_ok by (unfold int32_ok; lia). cbn [bind].
  replace (Z.shiftr (2 ^ m) 1) with (2 ^ (m - 1)).
  - rewrite IHfuel by lia. f_equal; lia.
  - rewrite Z.shiftr_div_pow2 by lia. rewrite <- Z.pow_sub_r by lia. auto.
Qed.
Lemma levels_log fuel n levels : 1 <= n < 2 ^ Z.of_nat fuel -> 0 <= levels -> levels + Z.log2 n < 2 ^ 31 ->
  fft_levels fuel n levels = Ret (levels + Z.log2 n).
Proof.
  revert n levels; induction fuel; intros n levels Hm Hl B; [cbn in Hm; lia|]. cbn [fft_levels].
  change (2 ^ 31) with 2147483648 in *.
  destruct (Z.ltb_spec 1 n).
  - pose proof (Z.log2_pos n ltac:(lia)).
    rewrite chk_int32_ok by (unfold int32_ok; lia). cbn [bind].
    assert (L : Z.log2 (Z.shiftr n 1) = Z.log2 n - 1).
    { rewrite Z.log2_shiftr by lia. lia. }
    rewrite IHfuel; try rewrite L; try lia.
    + f_equal; lia.
    + rewrite Z.shiftr_div_pow2 by lia. change (2 ^ 1) with 2. rewrite Nat2Z.inj_succ, Z.pow_succ_r in Hm by lia.
      split; [apply Z.div_le_lower_bound; lia| apply Z.div_lt_upper_bound; lia].
  - replace n with 1 by lia. f_equal. change (Z.log2 1) with 0. lia.
Qed.

(** ** The permutation *)
Lemma permute_ok n m (f g : Z -> num) : 0 <= m <= 64 -> n = 2 ^ m ->
  fft_permute A n m (buf n f) (buf n g) =
  Ret (buf n (fun p => f (reverse_bits p m)), buf n (fun p => g (reverse_bits p m))).
Proof.
  intros Hm En. set (rev := fun p => reverse_bits p m).
  assert (Hr : forall p, 0 <= rev p < n) by (intro p; rewrite En; apply (reverse_bits_reversed p m Hm)).
  assert (Hi : forall p, 0 <= p < n -> rev (rev p) = p) by (intros; apply reverse_bits_invol; lia).
  assert (Hn : 0 < n) by (subst n; apply Z.pow_pos_nonneg; lia).
  pose (sw := fun (i p : Z) => if (p <? i) || (rev p <? i) then rev p else p).
  unfold fft_permute.
  match goal with |- foldM ?b _ _ = _ => set (body := b) end.
  destruct (foldM_range_inv body (fun i st => st = (buf n (fun p => f (sw i p)), buf n (fun p => g (sw i p)))) n (buf n f, buf n g))
    as (st & E & ->); [lia| | |].
  - f_equal; apply buf_ext; intros p Hp; unfold sw; pose proof (Hr p);
      destruct (Z.ltb_spec p 0); destruct (Z.ltb_spec (rev p) 0); auto; lia.
  - intros i st Hin ->. unfold body. fold (rev i). cbv zeta.
    pose proof (Hr i) as Ri. pose proof (Hi i Hin) as Ii.
    destruct (Z.ltb_spec i (rev i)).
    + bufs.
      eexists. split; [reflexivity|].
      assert (forall p, 0 <= p < n -> sw (i + 1) p = if p =? rev i then sw i i else if p =? i then sw i (rev i) else sw i p) as S.
      { intros p Hp. unfold sw. rewrite Ii.
        destruct (Z.eqb_spec p (rev i)) as [->|N1].
        - rewrite Ii. destruct (Z.ltb_spec (rev i) (i+1)); [lia|]. destruct (Z.ltb_spec i (i+1)); [|lia].
          destruct (Z.ltb_spec i i); [lia|]. destruct (Z.ltb_spec (rev i) i); [lia|]. auto.
        - destruct (Z.eqb_spec p i) as [->|N2].
          + destruct (Z.ltb_spec i (i + 1)); [|lia]. destruct (Z.ltb_spec (rev i) i); [lia|].
            destruct (Z.ltb_spec i i); [lia|]. auto.
          + assert (rev p <> i) by (intros X; apply N1; rewrite <- X; symmetry; apply Hi; auto).
            destruct (Z.ltb_spec p (i+1)); destruct (Z.ltb_spec p i); try lia; auto.
            destruct (Z.ltb_spec (rev p) (i+1)); destruct (Z.ltb_spec (rev p) i); try lia; auto. }
      f_equal; apply buf_ext; intros p Hp; rewrite S by lia;
        destruct (p =? rev i); auto; destruct (p =? i); auto.
    + eexists. split; [reflexivity|].
      assert (forall p, 0 <= p < n -> sw (i + 1) p = sw i p) as S.
      { intros p Hp. unfold sw.
        destruct (Z.ltb_spec p (i+1)); destruct (Z.ltb_spec p i); try lia; auto.
        - assert (p = i) as -> by lia. destruct (Z.ltb_spec (rev i) i); auto.  simpl. lia.
        - destruct (Z.ltb_spec (rev p) (i+1)); destruct (Z.ltb_spec (rev p) i); try lia; auto.
          simpl. assert (rev p = i) as X by lia. rewrite <- X in H. rewrite (Hi p Hp) in H. lia. }
      f_equal; apply buf_ext; intros p Hp; now rewrite S.
  - rewrite E. do 2 f_equal; apply buf_ext; intros p Hp; unfold sw; destruct (Z.ltb_spec p n); try lia; auto.
Qed.

(** ** One stage *)
Definition tw_re (c s : Z -> num) (f g : Z -> num) (l k : Z) : num := nadd A (nmul A (f l) (c k)) (nmul A (g l) (s k)).
Definition tw_im (c s : Z -> num) (f g : Z -> num) (l k : Z) : num := nadd A (nmul A (nneg A (f l)) (s k)) (nmul A (g l) (c k)).
(** Entry p after the stage combining blocks of length h into blocks of length 2 h. *)
Definition stage_re (n h : Z) (c s f g : Z -> num) (p : Z) : num :=
  let u := p mod h in let k := u * (n / (2 * h)) in
  if p mod (2 * h) <? h then nadd A (f p) (tw_re c s f g (p + h) k) else nsub A (f (p - h)) (tw_re c s f g p k).
Definition stage_im (n h : Z) (c s f g : Z -> num) (p : Z) : num :=
  let u := p mod h in let k := u * (n / (2 * h)) in
  if p mod (2 * h) <? h then nadd A (g p) (tw_im c s f g (p + h) k) else nsub A (g (p - h)) (tw_im c s f g p k).

Lemma butterfly_ok n h tl c s (f g : Z -> num) j k :
  0 < h -> 0 <= j -> j + h < n -> 0 <= k < n / 2 ->
  fft_butterfly A (mk_fft A tl (buf (n / 2) s) (buf (n / 2) c)) h j k (buf n f) (buf n g) =
  Ret (buf n (fun p => if p =? j then nadd A (f j) (tw_re c s f g (j + h) k)
                       else if p =? j + h then nsub A (f j) (tw_re c s f g (j + h) k) else f p),
       buf n (fun p => if p =? j then nadd A (g j) (tw_im c s f g (j + h) k)
                       else if p =? j + h then nsub A (g j) (tw_im c s f g (j + h) k) else g p)).
Proof.
  intros Hh Hj Hl Hk. unfold fft_butterfly. cbn [fft_cos fft_sin]. cbv zeta.
  bufs. destruct (Z.eqb_spec j (j + h)); [lia|]. reflexivity.
Qed.

Lemma divmod_in q w h t : 0 < h -> 0 <= t < h -> (q * h + t) / h = q /\ (q * h + t) mod h = t \/ w = 0.
Proof. intros. left. split; [rewrite Z.div_add_l, Z.div_small by lia; lia | rewrite Z.add_comm, Z.mod_add, Z.mod_small by lia; auto]. Qed.

(** [p] has been processed when [q] blocks and [t] butterflies of the next are done. *)
Definition done_ (h q t p : Z) : bool := (p / (2 * h) <? q) || ((p / (2 * h) =? q) && (p mod h <? t)).

Lemma block_ok n h tl c s (f g : Z -> num) F G q :
  0 < h -> 0 <= q -> (q + 1) * (2 * h) <= n -> (2 * h | n) ->
  F = stage_re n h c s f g -> G = stage_im n h c s f g ->
  foldM (fun '(real, imag) u => fft_butterfly A (mk_fft A tl (buf (n / 2) s) (buf (n / 2) c)) h (q * (2 * h) + u) (u * (n / (2 * h))) real imag)
    (buf n (fun p => if p / (2 * h) <? q then F p else f p), buf n (fun p => if p / (2 * h) <? q then G p else g p)) (zrange h)
  = Ret (buf n (fun p => if p / (2 * h) <? q + 1 then F p else f p), buf n (fun p => if p / (2 * h) <? q + 1 then G p else g p)).
Proof.
  intros Hh Hq Hb [w Hw] EF EG.
  match goal with |- foldM ?b _ _ = _ => set (body := b) end.
  destruct (foldM_range_inv body (fun t st => st = (buf n (fun p => if done_ h q t p then F p else f p), buf n (fun p => if done_ h q t p then G p else g p)))
     h (buf n (fun p => if p / (2 * h) <? q then F p else f p), buf n (fun p => if p / (2 * h) <? q then G p else g p))) as (st & E & ->); [lia| | |].
  - f_equal; apply buf_ext; intros p Hp; unfold done_; pose proof (Z.mod_pos_bound p h Hh);
      destruct (Z.ltb_spec (p mod h) 0); try lia; rewrite andb_false_r, orb_false_r; auto.
  - intros t st Ht ->. unfold body.
    assert (Hw2 : n / (2 * h) = w) by (rewrite Hw; apply Z.div_mul; lia).
    assert (Hw0 : 0 < w) by nia.
    assert (HD : n / 2 = w * h). { rewrite Hw. replace (w * (2 * h)) with ((w * h) * 2) by ring. apply Z.div_mul. lia. }
    rewrite butterfly_ok; try lia; try nia.
    eexists. split; [reflexivity|].
    assert (DJ : (q * (2 * h) + t) / (2 * h) = q /\ (q * (2 * h) + t) mod (2 * h) = t /\ (q * (2 * h) + t) mod h = t).
    { split; [|split].
      - rewrite Z.div_add_l, Z.div_small by lia. lia.
      - rewrite Z.add_comm, Z.mod_add, Z.mod_small by lia. auto.
      - replace (q * (2 * h) + t) with (t + (2 * q) * h) by ring. rewrite Z.mod_add, Z.mod_small by lia. auto. }
    assert (DL : (q * (2 * h) + t + h) / (2 * h) = q /\ (q * (2 * h) + t + h) mod (2 * h) = t + h /\ (q * (2 * h) + t + h) mod h = t).
    { split; [|split].
      - rewrite <- Z.add_assoc. rewrite Z.div_add_l, Z.div_small by lia. lia.
      - replace (q * (2 * h) + t + h) with ((t + h) + q * (2 * h)) by ring. rewrite Z.mod_add, Z.mod_small by lia. auto.
      - replace (q * (2 * h) + t + h) with (t + (2 * q + 1) * h) by ring. rewrite Z.mod_add, Z.mod_small by lia. auto. }
    set (j := q * (2 * h) + t) in *. destruct DJ as (J1 & J2 & J3). destruct DL as (L1 & L2 & L3).
    assert (NJ : done_ h q t j = false).
    { unfold done_. rewrite J1, J3, Z.ltb_irrefl, Z.eqb_refl, Z.ltb_irrefl. auto. }
    assert (NL : done_ h q t (j + h) = false).
    { unfold done_. rewrite L1, L3, Z.ltb_irrefl, Z.eqb_refl, Z.ltb_irrefl. auto. }
    assert (YJ : done_ h q (t + 1) j = true).
    { unfold done_. rewrite J1, J3, Z.eqb_refl. destruct (Z.ltb_spec t (t + 1)); [|lia]. apply orb_true_r. }
    assert (YL : done_ h q (t + 1) (j + h) = true).
    { unfold done_. rewrite L1, L3, Z.eqb_refl. destruct (Z.ltb_spec t (t + 1)); [|lia]. apply orb_true_r. }
    assert (SAME : forall p, 0 <= p < n -> p <> j -> p <> j + h -> done_ h q (t + 1) p = done_ h q t p).
    { intros p Hp N1 N2. unfold done_. destruct (p / (2 * h) <? q) eqn:E1; auto. cbn [orb].
      destruct (Z.eqb_spec (p / (2 * h)) q) as [E2|]; auto. cbn [andb].
      destruct (Z.ltb_spec (p mod h) (t + 1)); destruct (Z.ltb_spec (p mod h) t); auto; try lia.
      exfalso. assert (X : p mod h = t) by lia.
      pose proof (Z.div_mod p (2 * h) ltac:(lia)) as D. rewrite E2 in D. pose proof (Z.mod_pos_bound p (2 * h) ltac:(lia)) as MB.
      assert (Y : (p mod (2 * h)) mod h = t).
      { rewrite <- X. rewrite D at 2. replace (2 * h * q + p mod (2 * h)) with (p mod (2 * h) + (2 * q) * h) by ring.
        now rewrite Z.mod_add by lia. }
      destruct (Z_lt_le_dec (p mod (2 * h)) h).
      - rewrite Z.mod_small in Y by lia. apply N1. unfold j. lia.
      - replace (p mod (2 * h)) with (p mod (2 * h) - h + 1 * h) in Y by ring. rewrite Z.mod_add, Z.mod_small in Y by lia.
        apply N2. unfold j. lia. }
    f_equal; apply buf_ext; intros p Hp.
    + destruct (Z.eqb_spec p j) as [->|N1].
      * rewrite YJ. unfold tw_re. rewrite NJ, NL. rewrite EF. unfold stage_re, tw_re. rewrite J2, J3.
        destruct (Z.ltb_spec t h); [|lia]. reflexivity.
      * destruct (Z.eqb_spec p (j + h)) as [->|N2].
        -- rewrite YL. unfold tw_re. rewrite NJ, NL. rewrite EF. unfold stage_re, tw_re. rewrite L2, L3.
           destruct (Z.ltb_spec (t + h) h); [lia|]. replace (j + h - h) with j by ring. reflexivity.
        -- rewrite SAME by auto. reflexivity.
    + destruct (Z.eqb_spec p j) as [->|N1].
      * rewrite YJ. unfold tw_im. rewrite NJ, NL. rewrite EG. unfold stage_im, tw_im. rewrite J2, J3.
        destruct (Z.ltb_spec t h); [|lia]. reflexivity.
      * destruct (Z.eqb_spec p (j + h)) as [->|N2].
        -- rewrite YL. unfold tw_im. rewrite NJ, NL. rewrite EG. unfold stage_im, tw_im. rewrite L2, L3.
           destruct (Z.ltb_spec (t + h) h); [lia|]. replace (j + h - h) with j by ring. reflexivity.
        -- rewrite SAME by auto. reflexivity.
  - rewrite E.
    assert (X : forall p, done_ h q h p = (p / (2 * h) <? q + 1)).
    { intros p. unfold done_. pose proof (Z.mod_pos_bound p h Hh). destruct (Z.ltb_spec (p mod h) h); [|lia].
      rewrite andb_true_r. destruct (Z.ltb_spec (p / (2 * h)) q); destruct (Z.eqb_spec (p / (2 * h)) q); destruct (Z.ltb_spec (p / (2 * h)) (q + 1)); auto; lia. }
    do 2 f_equal; apply buf_ext; intros p Hp; now rewrite X.
Qed.

Lemma stage_ok n h tl c s (f g : Z -> num) : 0 < h -> (2 * h | n) -> 0 < n ->
  foldM (fun '(real, imag) q =>
          foldM (fun '(real, imag) u => fft_butterfly A (mk_fft A tl (buf (n / 2) s) (buf (n / 2) c)) h (q * (2 * h) + u) (u * (n / (2 * h))) real imag)
            (real, imag) (zrange h)) (buf n f, buf n g) (zrange ((n + 2 * h - 1) / (2 * h)))
  = Ret (buf n (stage_re n h c s f g), buf n (stage_im n h c s f g)).
Proof.
  intros Hh [w Hw] Hn.
  assert (W : (n + 2 * h - 1) / (2 * h) = w).
  { rewrite Hw. replace (w * (2 * h) + 2 * h - 1) with (w * (2 * h) + (2 * h - 1)) by ring.
    rewrite Z.div_add_l, Z.div_small by lia. lia. }
  rewrite W. assert (0 < w) by nia.
  match goal with |- foldM ?b _ _ = _ => set (body := b) end.
  set (F := stage_re n h c s f g). set (G := stage_im n h c s f g).
  destruct (foldM_range_inv body (fun q st => st = (buf n (fun p => if p / (2 * h) <? q then F p else f p), buf n (fun p => if p / (2 * h) <? q then G p else g p)))
     w (buf n f, buf n g)) as (st & E & ->); [lia| | |].
  - f_equal; apply buf_ext; intros p Hp; pose proof (Z.div_pos p (2 * h) ltac:(lia) ltac:(lia));
      destruct (Z.ltb_spec (p / (2 * h)) 0); auto; lia.
  - intros q st Hq ->. unfold body. cbv zeta. eexists. split; [|reflexivity].
    apply block_ok; auto; try lia; try nia. now exists w.
  - rewrite E.
    assert (X : forall p, 0 <= p < n -> p / (2 * h) < w) by (intros p Hp; apply Z.div_lt_upper_bound; nia).
    do 2 f_equal; apply buf_ext; intros p Hp; specialize (X p Hp); destruct (Z.ltb_spec (p / (2 * h)) w); auto; lia.
Qed.

(** All stages from half-size 2^(m-1) on; d stages to go. *)
Fixpoint stages (n : Z) (c s : Z -> num) (d : nat) (h : Z) (fg : (Z -> num) * (Z -> num)) : (Z -> num) * (Z -> num) :=
  match d with
  | O => fg
  | S d => let '(f, g) := fg in stages n c s d (2 * h) (stage_re n h c s f g, stage_im n h c s f g)
  end.
Lemma stages_ok fuel n c s tl d : forall h f g, 0 < h -> n = h * 2 ^ Z.of_nat d -> n < 2 ^ 63 -> (d < fuel)%nat ->
  fft_stages A fuel (mk_fft A tl (buf (n / 2) s) (buf (n / 2) c)) n (2 * h) (buf n f) (buf n g) =
  Ret (buf n (fst (stages n c s d h (f, g))), buf n (snd (stages n c s d h (f, g)))).
Proof.
  revert fuel; induction d; intros fuel h f g Hh En Hn Hf; (destruct fuel as [|fuel]; [lia|]); cbn [fft_stages].
  - cbn in En. destruct (Z.leb_spec (2 * h) n); [lia|]. reflexivity.
  - rewrite Nat2Z.inj_succ, Z.pow_succ_r in En by lia. assert (0 < 2 ^ Z.of_nat d) by (apply Z.pow_pos_nonneg; lia).
    destruct (Z.leb_spec (2 * h) n); [|nia]. cbv zeta.
    replace (2 * h / 2) with h by (rewrite Z.mul_comm, Z.div_mul by lia; auto).
    rewrite (stage_ok n h tl c s f g); auto; [|exists (2 ^ Z.of_nat d); lia | nia]. cbn [bind stages].
    destruct (Z.eqb_spec (2 * h) n).
    + assert (2 ^ Z.of_nat d = 1) by nia. destruct d; [reflexivity|].
      rewrite Nat2Z.inj_succ, Z.pow_succ_r in H1 by lia. lia.
    + assert (1 < 2 ^ Z.of_nat d) by nia.
      replace (to_uint64 (2 * h * 2)) with (2 * (2 * h)).
      * apply IHd; try lia.
      * unfold to_uint64, to_unsigned. change (2 ^ 63) with 9223372036854775808 in Hn. change (2 ^ 64) with 18446744073709551616.
        rewrite Z.mod_small; nia.
Qed.

(** ** The whole transform *)
Lemma forward_ok n m tl c s (f g : Z -> num) : 0 <= m < 32 -> n = 2 ^ m -> tl = n / 2 ->
  eml_fft_forward A (mk_fft A tl (buf (n / 2) s) (buf (n / 2) c)) (buf n f) (buf n g) n =
  let fg := stages n c s (Z.to_nat m) 1 (fun p => f (reverse_bits p m), fun p => g (reverse_bits p m)) in
  Ret (EmlOk, buf n (fst fg), buf n (snd fg)).
Proof.
  intros Hm En Et. unfold eml_fft_forward. rewrite En at 1. rewrite levels_pow by (change (2^31) with 2147483648; lia). cbn [bind].
  rewrite Z.add_0_l. unfold one_shl. destruct (Z.leb_spec 0 m); [|lia]. destruct (Z.ltb_spec m 32); [|lia]. cbn [andb bind].
  assert (B : 0 < n <= 2 ^ 31) by (subst n; split; [apply Z.pow_pos_nonneg; lia|apply Z.pow_le_mono_r; lia]).
  change (2 ^ 31) with 2147483648 in B.
  rewrite Z.shiftl_1_l, <- En. unfold to_uint32, to_uint64, to_unsigned.
  change (2 ^ 32) with 4294967296. change (2 ^ 64) with 18446744073709551616.
  rewrite (Z.mod_small n) by lia. rewrite Z.eqb_refl. cbn [negb fft_length].
  rewrite Et. assert (0 <= n / 2 <= n) by (split; [apply Z.div_pos; lia|apply Z.div_le_upper_bound; lia]).
  rewrite Z.mod_small by lia. rewrite Z.eqb_refl. cbn [negb].
  rewrite permute_ok by lia. cbn [bind].
  pose proof (stages_ok 65 n c s (n / 2) (Z.to_nat m) 1 (fun p => f (reverse_bits p m)) (fun p => g (reverse_bits p m))) as ES.
  rewrite Z.mul_1_r in ES. rewrite ES; try lia.
  - reflexivity.
  - rewrite Z2Nat.id by lia. lia.
Qed.

Lemma fill_ok (T : trig A) n tl s0 c0 : 0 <= n < 2 ^ 64 -> tl = n / 2 -> zlen s0 = n / 2 -> zlen c0 = n / 2 ->
  eml_fft_fill A T (mk_fft A tl s0 c0) n =
  Ret (EmlOk, mk_fft A tl (buf (n / 2) (fun i => t_sin T (fft_angle A T i n))) (buf (n / 2) (fun i => t_cos T (fft_angle A T i n)))).
Proof.
  intros Hn Et Ls Lc. unfold eml_fft_fill. cbn [fft_length fft_sin fft_cos].
  assert (0 <= n / 2 <= n) by (split; [apply Z.div_pos; lia|apply Z.div_le_upper_bound; lia]).
  unfold to_uint64, to_unsigned. rewrite Et, Z.mod_small by lia. rewrite Z.eqb_refl. cbn [negb].
  match goal with |- context[foldM ?b _ _] => set (body := b) end.
  rewrite (buf_of (nzero A) s0), (buf_of (nzero A) c0), Ls, Lc.
  set (f := znth (nzero A) s0). set (g := znth (nzero A) c0).
  destruct (foldM_range_inv body (fun k st => st =
      (buf (n / 2) (fun i => if i <? k then t_sin T (fft_angle A T i n) else f i),
       buf (n / 2) (fun i => if i <? k then t_cos T (fft_angle A T i n) else g i))) (n / 2) (buf (n / 2) f, buf (n / 2) g)) as (st & E & ->); [lia| | |].
  - f_equal; apply buf_ext; intros p Hp; destruct (Z.ltb_spec p 0); auto; lia.
  - intros i st Hi ->. unfold body. bufs.
    eexists. split; [reflexivity|]. f_equal; apply buf_ext; intros p Hp;
    (destruct (Z.eqb_spec p i) as [->|]; [destruct (Z.ltb_spec i (i+1)); auto; lia|]);
    destruct (Z.ltb_spec p i); destruct (Z.ltb_spec p (i + 1)); auto; lia.
  - rewrite E. cbn [bind]. do 3 f_equal; apply buf_ext; intros p Hp; destruct (Z.ltb_spec p (n / 2)); auto; lia.
Qed.

(** Refusals. *)
Lemma forward_refuses t re im n : 0 <= n < 2 ^ 32 -> (~ exists m, 0 <= m /\ n = 2 ^ m) \/ to_uint64 (fft_length A t) <> n / 2 ->
  eml_fft_forward A t re im n = Ret (EmlSizeMismatch, re, im).
Proof.
  intros Hn H. unfold eml_fft_forward.
  assert (Z.log2 n < 32).
  { destruct (Z.eq_dec n 0) as [->|]; [reflexivity|]. apply Z.log2_lt_pow2; lia. }
  assert (X : exists L, fft_levels 65 n 0 = Ret L /\ 0 <= L < 32).
  { destruct (Z.eq_dec n 0) as [->|]; [exists 0; split; [reflexivity|lia]|].
    exists (0 + Z.log2 n). pose proof (Z.log2_nonneg n). change (2^32) with 4294967296 in Hn. split; [apply levels_log|lia];
    change (2 ^ Z.of_nat 65) with 36893488147419103232; change (2 ^ 31) with 2147483648; lia. }
  destruct X as (L & -> & HL). cbn [bind]. unfold one_shl.
  destruct (Z.leb_spec 0 L); [|lia]. destruct (Z.ltb_spec L 32); [|lia]. cbn [andb bind].
  rewrite Z.shiftl_1_l. unfold to_uint32, to_unsigned.
  assert (0 < 2 ^ L < 2 ^ 32) by (split; [apply Z.pow_pos_nonneg; lia|apply Z.pow_lt_mono_r; lia]).
  rewrite Z.mod_small by lia.
  destruct (Z.eqb_spec (2 ^ L) n) as [E|]; [|reflexivity]. cbn [negb].
  destruct H as [H|H]; [exfalso; apply H; exists L; split; [lia|auto]|].
  destruct (Z.eqb_spec (to_uint64 (fft_length A t)) (n / 2)); [contradiction|]. reflexivity.
Qed.
Lemma forward_big t re im n : 2 ^ 32 <= n < 2 ^ 64 -> eml_fft_forward A t re im n = Err BadShift.
Proof.
  intros Hn. unfold eml_fft_forward.
  assert (32 <= Z.log2 n < 64).
  { split; [apply Z.log2_le_pow2; lia|]. apply Z.log2_lt_pow2; lia. }
  rewrite levels_log.
  - cbn [bind]. unfold one_shl. destruct (Z.ltb_spec (0 + Z.log2 n) 32); [lia|]. rewrite andb_false_r. reflexivity.
  - change (2 ^ 32) with 4294967296 in *. change (2 ^ 64) with 18446744073709551616 in *. change (2 ^ Z.of_nat 65) with 36893488147419103232. lia.
  - lia.
  - change (2 ^ 31) with 2147483648. lia.
Qed.
End Any.
