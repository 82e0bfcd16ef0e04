(** Exact operations of single precision: values z * 2^e with at most 24 bits. *)
From Coq Require Import List ZArith Reals Lra Bool Lia.
From Flocq Require Import Core BinarySingleNaN.
From Verif Require Import Base Lib Machine FloatMachine.
Local Open Scope R_scope.

Notation fl := (binary_float 24 128).
Notation rnd := (round radix2 (SpecFloat.fexp 24 128) (round_mode mode_NE)).
Notation lim := (2 ^ 24)%Z.
#[local] Existing Instance p32.
#[local] Existing Instance e32.

Definition val (e : Z) (x : fl) (z : Z) : Prop := is_finite x = true /\ B2R x = IZR z * bpow radix2 e.

Lemma rep e z : (Z.abs z < lim)%Z -> (-149 <= e <= 60)%Z ->
  rnd (IZR z * bpow radix2 e) = IZR z * bpow radix2 e /\ Rabs (IZR z * bpow radix2 e) < bpow radix2 128.
Proof.
  intros Hz He. split.
  - apply round_generic; [apply valid_rnd_round_mode|].
    change (SpecFloat.fexp 24 128) with (FLT_exp (-149) 24). apply generic_format_FLT.
    exists (Float radix2 z e); [reflexivity|exact Hz|cbn; lia].
  - rewrite Rabs_mult, (Rabs_pos_eq (bpow _ _)) by apply bpow_ge_0. rewrite <- abs_IZR.
    replace (bpow radix2 128) with (bpow radix2 (128 - e) * bpow radix2 e) by (rewrite <- bpow_plus; f_equal; lia).
    apply Rmult_lt_compat_r; [apply bpow_gt_0|].
    apply Rlt_le_trans with (bpow radix2 24).
    + change (bpow radix2 24) with (IZR lim). now apply IZR_lt.
    + apply bpow_le. lia.
Qed.

Lemma val_of z : (Z.abs z < lim)%Z -> val 0 (norm32 z 0 false) z.
Proof.
  intros Hz. destruct (rep 0 z Hz ltac:(lia)) as [A B].
  pose proof (binary_normalize_correct 24 128 p32 e32 mode_NE z 0 false) as H. cbv zeta in H.
  change (F2R {| Fnum := z; Fexp := 0 |}) with (IZR z * bpow radix2 0) in H.
  rewrite A, (Rlt_bool_true _ _ B) in H. destruct H as (H1 & H2 & _). split; assumption.
Qed.
Lemma val_add e x y a b : val e x a -> val e y b -> (Z.abs (a + b) < lim)%Z -> (-149 <= e <= 60)%Z ->
  val e (Bplus mode_NE x y) (a + b).
Proof.
  intros [F1 E1] [F2 E2] Hz He. destruct (rep e _ Hz He) as [A B].
  pose proof (Bplus_correct 24 128 _ _ mode_NE x y F1 F2) as H.
  replace (B2R x + B2R y) with (IZR (a + b) * bpow radix2 e) in H by (rewrite E1, E2, plus_IZR; ring).
  rewrite A, (Rlt_bool_true _ _ B) in H. destruct H as (H1 & H2 & _). split; assumption.
Qed.
Lemma val_sub e x y a b : val e x a -> val e y b -> (Z.abs (a - b) < lim)%Z -> (-149 <= e <= 60)%Z ->
  val e (Bminus mode_NE x y) (a - b).
Proof.
  intros [F1 E1] [F2 E2] Hz He. destruct (rep e _ Hz He) as [A B].
  pose proof (Bminus_correct 24 128 _ _ mode_NE x y F1 F2) as H.
  replace (B2R x - B2R y) with (IZR (a - b) * bpow radix2 e) in H by (rewrite E1, E2, minus_IZR; ring).
  rewrite A, (Rlt_bool_true _ _ B) in H. destruct H as (H1 & H2 & _). split; assumption.
Qed.
Lemma val_mul e e' x y a b : val e x a -> val e' y b -> (Z.abs (a * b) < lim)%Z -> (-149 <= e + e' <= 60)%Z ->
  val (e + e') (Bmult mode_NE x y) (a * b).
Proof.
  intros [F1 E1] [F2 E2] Hz He. destruct (rep _ _ Hz He) as [A B].
  pose proof (Bmult_correct 24 128 _ _ mode_NE x y) as H.
  replace (B2R x * B2R y) with (IZR (a * b) * bpow radix2 (e + e')) in H by (rewrite E1, E2, mult_IZR, bpow_plus; ring).
  rewrite A, (Rlt_bool_true _ _ B) in H. destruct H as (H1 & H2 & _). split; [now rewrite H2, F1, F2|assumption].
Qed.
Lemma val_div e x y a k : val e x a -> val 0 y (2 ^ k) -> (0 <= k)%Z -> (Z.abs a < lim)%Z -> (-149 <= e - k <= 60)%Z ->
  val (e - k) (Bdiv mode_NE x y) a.
Proof.
  intros [F1 E1] [F2 E2] Hk Hz He. destruct (rep _ _ Hz He) as [A B].
  assert (Ey : B2R y = bpow radix2 k) by (rewrite E2, <- (IZR_Zpower radix2 k) by assumption; apply Rmult_1_r).
  pose proof (bpow_gt_0 radix2 k).
  assert (Hy : B2R y <> 0) by (rewrite Ey; lra).
  pose proof (Bdiv_correct 24 128 _ _ mode_NE x y Hy) as H0.
  replace (B2R x / B2R y) with (IZR a * bpow radix2 (e - k)) in H0.
  2: { rewrite Ey, E1. unfold Zminus. rewrite bpow_plus, bpow_opp. field. lra. }
  rewrite A, (Rlt_bool_true _ _ B) in H0. destruct H0 as (H1 & H2 & _). split; [now rewrite H2|assumption].
Qed.
(** Changing the unit. *)
Lemma val_up e x a k : val e x (a * 2 ^ k) -> (0 <= k)%Z -> val (e + k) x a.
Proof.
  intros [F1 E1] Hk. split; [exact F1|]. rewrite E1, mult_IZR, bpow_plus. rewrite <- (IZR_Zpower radix2 k) by assumption.
  change (Z.pow radix2 k) with (2 ^ k)%Z. ring.
Qed.
Lemma val_down e x a k : val (e + k) x a -> (0 <= k)%Z -> val e x (a * 2 ^ k).
Proof.
  intros [F1 E1] Hk. split; [exact F1|]. rewrite E1, mult_IZR, bpow_plus. rewrite <- (IZR_Zpower radix2 k) by assumption.
  change (Z.pow radix2 k) with (2 ^ k)%Z. ring.
Qed.
Lemma val_trunc x z : val 0 x z -> is_finite x = true /\ Btrunc x = z.
Proof.
  intros [F1 E1]. split; [exact F1|]. apply eq_IZR. rewrite Btrunc_correct by reflexivity.
  rewrite E1. cbn [bpow]. rewrite Rmult_1_r. apply round_generic; [typeclasses eauto|].
  apply generic_format_FIX. exists (Float radix2 z 0); [|reflexivity]. unfold F2R. cbn. ring.
Qed.
Lemma val_opp e x z : val e x z -> val e (Bopp x) (- z).
Proof. intros [F1 E1]. split; [now rewrite is_finite_Bopp|]. rewrite B2R_Bopp, E1, opp_IZR. ring. Qed.
