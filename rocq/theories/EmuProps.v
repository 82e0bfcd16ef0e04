(** The emulation library (C49) and the bit slicing of inputs (C56). *)
From Coq Require Import List ZArith Bool Arith Lia ZifyBool ZifyNat Permutation.
From Verif Require Import Base Lib Machine Mapper Emu Spec DigApi.
Import ListNotations.
Local Open Scope Z_scope.
Local Open Scope out_scope.

(** ** Emulation *)
Lemma emu_loop_ok res vec mat m n :
  0 <= m -> 0 <= n -> n * m <= int32_max ->
  m * n <= Z.of_nat (length mat) -> n <= Z.of_nat (length vec) -> m <= Z.of_nat (length res) ->
  (forall i, (i < Z.to_nat m)%nat ->
     Z.abs (nth i res 0) + sum (Z.to_nat n) (fun j => Z.abs (entry mat (Z.to_nat n) i j * nth j vec 0)) <= int32_max) ->
  emu_loop res vec mat m n = Ok (plus_product res mat vec (Z.to_nat m) (Z.to_nat n)).
Proof.
  intros Hm Hn Hmn Lm Lv Lr Hb. unfold emu_loop. rewrite <- plus_product_upto.
  rewrite <- (acc2_eq (Z.to_nat m) (Z.to_nat n)
    (fun i j => a <- mul32 n (Z.of_nat i) ;; k <- add32 a (Z.of_nat j) ;;
                x <- getz mat k ;; y <- get vec j ;; mul32 x y)).
  - unfold acc2. apply forN_ext. intros i s Hi. apply forN_ext. intros j s' Hj.
    destruct (mul32 n (Z.of_nat i)); cbn [bind]; auto. destruct (add32 _ _); cbn [bind]; auto.
    destruct (getz _ _); cbn [bind]; auto. destruct (get _ _); cbn [bind]; auto.
  - lia.
  - intros i j Hi Hj. unfold int32_max in Hmn. specialize (Hb i Hi). rewrite sum_sumZ in Hb.
    assert (Hnm : n * Z.of_nat i + Z.of_nat j < n * m) by nia.
    assert (Hni : 0 <= n * Z.of_nat i) by nia.
    rewrite mul32_ok by (unfold int_min, int_max; lia). cbn [bind].
    rewrite add32_ok by (unfold int_min, int_max; lia). cbn [bind].
    assert (EK : n * Z.of_nat i + Z.of_nat j = Z.of_nat (Z.to_nat n * i + j)).
    { rewrite Nat2Z.inj_add, Nat2Z.inj_mul, Z2Nat.id by lia. reflexivity. }
    unfold getz. rewrite EK. replace (Z.of_nat (Z.to_nat n * i + j) <? 0) with false by lia.
    rewrite Nat2Z.id, (get_ok mat (Z.to_nat n * i + j) 0) by lia. cbn [bind]. rewrite (get_ok vec j 0) by lia. cbn [bind].
    assert (B : Z.abs (entry mat (Z.to_nat n) i j * nth j vec 0) <= int32_max).
    { assert (Z.abs (entry mat (Z.to_nat n) i j * nth j vec 0) <=
              sumZ (Z.to_nat n) (fun j => Z.abs (entry mat (Z.to_nat n) i j * nth j vec 0))); [|lia].
      etransitivity; [|apply (sumZ_mono _ (S j)); [intros; lia|lia]].
      cbn [sumZ]. assert (0 <= sumZ j (fun j => Z.abs (entry mat (Z.to_nat n) i j * nth j vec 0)))
        by (apply sumZ_nonneg; intros; lia). lia. }
    unfold int32_max in B. rewrite mul32_ok by (unfold entry in B; unfold int_min, int_max; lia). reflexivity.
  - intros i Hi. specialize (Hb i Hi). rewrite sum_sumZ in Hb. exact Hb.
Qed.

Lemma emu_exact : forall S (cb : emu S) s res vec mat m n,
  cb_mvm cb = None ->
  0 <= m -> 0 <= n -> n * m <= int32_max ->
  m * n <= Z.of_nat (length mat) -> n <= Z.of_nat (length vec) -> m <= Z.of_nat (length res) ->
  (forall i, (i < Z.to_nat m)%nat ->
     Z.abs (nth i res 0) + sum (Z.to_nat n) (fun j => Z.abs (entry mat (Z.to_nat n) i j * nth j vec 0)) <= int32_max) ->
  emu_mvm cb s res vec mat m n = Ok (s, plus_product res mat vec (Z.to_nat m) (Z.to_nat n), 0).
Proof. intros. unfold emu_mvm. rewrite H. now rewrite emu_loop_ok. Qed.

Lemma emu_callback : forall S (cb : emu S) s res vec mat m n f,
  cb_mvm cb = Some f ->
  (forall s' res' k, f s res vec mat m n = Ok (s', res', k) -> emu_mvm cb s res vec mat m n = Ok (s', res', 0)) /\
  (forall s' res' k, emu_mvm cb s res vec mat m n = Ok (s', res', k) ->
     k = 0 /\ exists k', f s res vec mat m n = Ok (s', res', k')).
Proof.
  intros S cb s res vec mat m n f Hf. unfold emu_mvm. rewrite Hf. split.
  - intros s' res' k ->. reflexivity.
  - intros s' res' k H. destruct (f s res vec mat m n) as [[[s1 r1] k1]| | |]; try discriminate.
    cbn [bind] in H. inversion H; subst. eauto.
Qed.

Lemma emu_others : forall S (cb : emu S) s mat m n s' k,
  (emu_cpy cb s mat m n = Ok (s', k) -> k = 0 /\ (cb_cpy cb = None -> s' = s)) /\
  (emu_update cb s = Ok (s', k) -> k = 0 /\ (cb_upd cb = None -> s' = s)).
Proof.
  intros S cb s mat m n s' k. unfold emu_cpy, emu_update. split.
  - destruct (cb_cpy cb) as [f|].
    + destruct (f s mat m n) as [[a b]| | |]; try discriminate. cbn. intros H; inversion H; subst. split; congruence.
    + intros H; inversion H; auto.
  - destruct (cb_upd cb) as [f|].
    + destruct (f s) as [[a b]| | |]; try discriminate. cbn. intros H; inversion H; subst. split; congruence.
    + intros H; inversion H; auto.
Qed.

(** ** Slicing *)
Definition bit_of (v b : Z) : Z := (v / 2 ^ b) mod 2.

Lemma slice_bit v b : 0 <= b -> Z.land (Z.shiftr v b) 1 = bit_of v b.
Proof.
  intros H. unfold bit_of. rewrite Z.shiftr_div_pow2 by auto.
  change 1 with (Z.ones 1). now rewrite Z.land_ones by lia.
Qed.

Lemma forL_marks (f : nat -> Z) body is : forall (l : list Z),
  (forall j s, In j is -> length s = length l -> body j s = Ok (upd s j (f j))) ->
  forL is body l = Ok (imap (fun j x => if existsb (Nat.eqb j) is then f j else x) l).
Proof.
  induction is as [|i is IH]; intros l H; cbn [forL].
  - f_equal. symmetry. apply imap_id. reflexivity.
  - rewrite H by (auto; now left). cbn [bind]. rewrite IH.
    + f_equal. destruct (Nat.lt_ge_cases i (length l)) as [Hi|Hi].
      * apply (nth_ext _ _ 0 0); rewrite !imap_length, upd_length; auto.
        intros k Hk. rewrite !(nth_imap _ _ _ _ 0) by (rewrite ?upd_length; auto).
        rewrite nth_upd by auto. cbn [existsb]. destruct (k =? i)%nat eqn:E; cbn [orb]; auto.
        assert (k = i) by lia. subst. now destruct (existsb _ is).
      * replace (upd l i (f i)) with l.
        { apply imap_ext. intros k x Hk _. cbn [existsb]. replace (k =? i)%nat with false by lia. reflexivity. }
        clear H IH. generalize (f i). intros z. revert i Hi.
        induction l as [|y l IHl]; intros [|i] Hi; cbn in *; auto; try lia.
        f_equal. apply IHl. lia.
    + intros j s Hj Hs. rewrite upd_length in Hs. apply H; auto. now right.
Qed.

Lemma existsb_seq n k : existsb (Nat.eqb k) (seq 0 n) = (k <? n)%nat.
Proof.
  destruct (k <? n)%nat eqn:E.
  - apply existsb_exists. exists k. split; [apply in_seq; lia|apply Nat.eqb_refl].
  - apply not_true_iff_false. intros H. apply existsb_exists in H. destruct H as (z & Hz & Ez).
    apply in_seq in Hz. apply Nat.eqb_eq in Ez. lia.
Qed.
Lemma existsb_perm is is' k : Permutation is is' -> existsb (Nat.eqb k) is = existsb (Nat.eqb k) is'.
Proof.
  intros H. destruct (existsb (Nat.eqb k) is') eqn:E.
  - apply existsb_exists in E. destruct E as (z & Hz & Ez). apply existsb_exists. exists z.
    split; auto. now apply (Permutation_in _ (Permutation_sym H)).
  - apply not_true_iff_false. intros E'. apply existsb_exists in E'. destruct E' as (z & Hz & Ez).
    assert (existsb (Nat.eqb k) is' = true); [|congruence].
    apply existsb_exists. exists z. split; auto. now apply (Permutation_in _ H).
Qed.

Lemma slice_sched_ok vd vds is n b : Permutation is (seq 0 n) -> 0 <= b <= 31 ->
  (n <= length vd)%nat -> (n <= length vds)%nat ->
  slice_vd_sched vd vds is b = Ok (upto n (fun j _ => bit_of (nth j vd 0) b) vds).
Proof.
  intros Hp Hb Hv Hs. unfold slice_vd_sched.
  rewrite (forL_marks (fun j => bit_of (nth j vd 0) b)).
  - unfold upto. f_equal. apply imap_ext. intros k x _ _.
    now rewrite (existsb_perm _ _ k Hp), existsb_seq.
  - intros j s Hj Hl. apply (Permutation_in _ Hp) in Hj. apply in_seq in Hj.
    rewrite (get_ok vd j 0) by lia. cbn [bind]. rewrite shr32_ok by lia. cbn [bind].
    rewrite slice_bit by lia. apply set_ok. lia.
Qed.

Lemma forN_forL' {S} (f : nat -> S -> out S) n s : forN n f s = forL (seq 0 n) f s.
Proof.
  revert s. induction n as [|n IH]; intros s; [reflexivity|].
  rewrite seq_S. cbn [forN]. rewrite IH. clear IH. generalize (seq 0 n). cbn [plus]. intros q. revert s.
  induction q as [|i q IH]; intros s; cbn [forL app].
  - cbn [bind]. destruct (f n s); reflexivity.
  - destruct (f i s); cbn [bind]; auto.
Qed.
Lemma slice_eq vd vds n b : 0 <= b <= 31 -> (n <= length vd)%nat -> (n <= length vds)%nat ->
  slice_vd vd vds n b = Ok (upto n (fun j _ => bit_of (nth j vd 0) b) vds).
Proof. intros. unfold slice_vd. rewrite forN_forL'. now apply slice_sched_ok. Qed.

Lemma slice_any_order : forall vd vds is n b,
  Permutation is (seq 0 n) -> 0 <= b <= 31 -> (n <= length vd)%nat -> (n <= length vds)%nat ->
  slice_vd_sched vd vds is b = slice_vd vd vds n b.
Proof. intros. rewrite slice_eq by auto. now apply slice_sched_ok. Qed.

(** *** Recombination *)
Lemma bits_low v k : sum k (fun b => 2 ^ Z.of_nat b * bit_of v (Z.of_nat b)) = v mod 2 ^ Z.of_nat k.
Proof.
  rewrite sum_sumZ. induction k as [|k IH].
  - change (2 ^ Z.of_nat 0) with 1. cbn [sumZ]. now rewrite Z.mod_1_r.
  - cbn [sumZ]. rewrite IH. unfold bit_of. rewrite Nat2Z.inj_succ, Z.pow_succ_r by lia.
    assert (0 < 2 ^ Z.of_nat k) by (apply Z.pow_pos_nonneg; lia).
    rewrite (Z.mul_comm 2 (2 ^ Z.of_nat k)), Z.rem_mul_r by lia. reflexivity.
Qed.
Lemma bits_unsigned v k : 0 <= v < 2 ^ Z.of_nat k ->
  sum k (fun b => 2 ^ Z.of_nat b * bit_of v (Z.of_nat b)) = v.
Proof. intros H. rewrite bits_low. apply Z.mod_small. lia. Qed.
Lemma bits_signed v k : - 2 ^ Z.of_nat k <= v < 2 ^ Z.of_nat k ->
  sum k (fun b => 2 ^ Z.of_nat b * bit_of v (Z.of_nat b)) - 2 ^ Z.of_nat k * bit_of v (Z.of_nat k) = v.
Proof.
  intros H. rewrite bits_low. unfold bit_of.
  assert (P : 0 < 2 ^ Z.of_nat k) by lia.
  assert (D : v = 2 ^ Z.of_nat k * (v / 2 ^ Z.of_nat k) + v mod 2 ^ Z.of_nat k) by (apply Z.div_mod; lia).
  assert (Q : -1 <= v / 2 ^ Z.of_nat k < 1).
  { split; [apply Z.div_le_lower_bound; lia|apply Z.div_lt_upper_bound; lia]. }
  assert (C : v / 2 ^ Z.of_nat k = -1 \/ v / 2 ^ Z.of_nat k = 0) by lia.
  destruct C as [C|C]; rewrite C in *; [change (-1 mod 2) with 1|change (0 mod 2) with 0]; lia.
Qed.

Lemma slice_lossless : forall vd vds n k,
  (k <= 31)%nat -> (n <= length vd)%nat -> (n <= length vds)%nat ->
  exists planes : nat -> list Z,
    (forall b, (b <= k)%nat -> slice_vd vd vds n (Z.of_nat b) = Ok (planes b)) /\
    forall j, (j < n)%nat ->
      let v := nth j vd 0 in
      (forall b, (b <= k)%nat -> nth j (planes b) 0 = 0 \/ nth j (planes b) 0 = 1) /\
      (0 <= v < 2 ^ Z.of_nat k -> sum k (fun b => 2 ^ Z.of_nat b * nth j (planes b) 0) = v) /\
      (- 2 ^ Z.of_nat k <= v < 2 ^ Z.of_nat k ->
         sum k (fun b => 2 ^ Z.of_nat b * nth j (planes b) 0) - 2 ^ Z.of_nat k * nth j (planes k) 0 = v).
Proof.
  intros vd vds n k Hk Hv Hs.
  exists (fun b => upto n (fun j _ => bit_of (nth j vd 0) (Z.of_nat b)) vds). split.
  - intros b Hb. apply slice_eq; auto; lia.
  - intros j Hj v.
    assert (E : forall b, nth j (upto n (fun j _ => bit_of (nth j vd 0) (Z.of_nat b)) vds) 0 = bit_of v (Z.of_nat b)).
    { intros b. rewrite nth_upto by lia. now replace (j <? n)%nat with true by lia. }
    assert (ES : sum k (fun b => 2 ^ Z.of_nat b * nth j (upto n (fun j _ => bit_of (nth j vd 0) (Z.of_nat b)) vds) 0)
               = sum k (fun b => 2 ^ Z.of_nat b * bit_of v (Z.of_nat b))).
    { rewrite !sum_sumZ. apply sumZ_ext. intros b _. now rewrite E. }
    split; [|split].
    + intros b Hb. rewrite E. unfold bit_of. assert (0 <= (v / 2 ^ Z.of_nat b) mod 2 < 2) by (apply Z.mod_pos_bound; lia). lia.
    + intros H. rewrite ES. now apply bits_unsigned.
    + intros H. rewrite ES, E. now apply bits_signed.
Qed.
