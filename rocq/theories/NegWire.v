(** C89: wire resistances below zero. *)
From Coq Require Import String List ZArith Reals Bool Arith Lia Lra ZifyBool ZifyNat.
From Verif Require Import Base Lib Machine Json Config Parasitics Mapper Crossbar Api RMachine ParSpec AnaReal
  Reach Spec DigApi AnaSpec CfgProps NoiseReal Ladder ParProps ParReal ParBound.
Import ListNotations.
Local Open Scope R_scope.
Ltac Zify.zify_post_hook ::= idtac.

(** One segment of conductance -U. *)
Lemma neg_step U b : 0 < U -> 0 <= b < U -> b <= b * - U / (b + - U) /\ (0 < b -> b < b * - U / (b + - U)).
Proof.
  intros HU Hb. replace (b * - U / (b + - U)) with (b + b * b / (U - b)) by (field; lra).
  assert (P : 0 < / (U - b)) by (apply Rinv_0_lt_compat; lra).
  split; [|intros Hp]; unfold Rdiv.
  - assert (0 <= b * b * / (U - b)) by (apply Rmult_le_pos; nra). lra.
  - assert (0 < b * b * / (U - b)) by (apply Rmult_lt_0_compat; nra). lra.
Qed.
(** The first k cells of a column of total conductance at most S: more than without resistance, and bounded. *)
Lemma neg_ladder U S g k : 0 < U -> (forall i, (i < k)%nat -> 0 <= g i) -> sumR k g <= S -> INR k * S < U ->
  sumR k g <= ladder (- U) g k /\ (0 < sumR k g -> sumR k g < ladder (- U) g k) /\ ladder (- U) g k * (U - INR k * S) <= sumR k g * U.
Proof.
  intros HU. induction k; cbn [ladder sumR]; intros Hg HS HK; [cbn; lra|].
  pose proof (Hg k ltac:(lia)) as Gk.
  assert (P : 0 <= sumR k g). { clear -Hg. induction k; cbn [sumR]; [lra|]. pose proof (Hg k ltac:(lia)). assert (0 <= sumR k g) by (apply IHk; intros; apply Hg; lia). lra. }
  rewrite S_INR in HK. pose proof (pos_INR k) as HI.
  assert (S0 : 0 <= S) by lra.
  destruct (IHk ltac:(auto) ltac:(lra) ltac:(nra)) as (A & B & C). clear IHk.
  rewrite S_INR. set (a := ladder (- U) g k) in *. set (t := sumR k g) in *. set (x := g k) in *. set (K := INR k) in *.
  assert (KS : 0 <= K * S) by nra.
  assert (D : (a + x) * (U - K * S) <= (t + x) * U) by nra.
  assert (E : a + x < U).
  { assert ((a + x) * (U - K * S) < U * (U - K * S)); [|nra]. apply Rle_lt_trans with ((t + x) * U); [exact D|]. nra. }
  destruct (neg_step U (a + x) HU ltac:(lra)) as [F G].
  split; [lra|]. split.
  - intros Hp. specialize (G ltac:(lra)). lra.
  - replace ((a + x) * - U / (a + x + - U)) with ((a + x) * U / (U - (a + x))) by (field; lra).
    apply (Rmult_le_reg_r (U - (a + x))); [lra|].
    replace ((a + x) * U / (U - (a + x)) * (U - (K + 1) * S) * (U - (a + x))) with ((a + x) * U * (U - (K + 1) * S)) by (field; lra).
    set (b := a + x) in *. set (t' := t + x) in *.
    assert (X : b * (U - (K + 1) * S) <= t' * (U - b)).
    { assert (Y : t' * b <= S * b) by (apply Rmult_le_compat_r; unfold b; lra). clear - D Y. clearbody b t' K. lra. }
    apply (Rmult_le_compat_r U) in X; [|lra]. clear - X. clearbody b t' K. lra.
Qed.

Section RR.
Context (nz : bool -> nat -> R) (s : bool).
#[local] Hint Extern 0 Machine => exact (R_machine nz s) : typeclass_instances.
Notation RM := (R_machine nz s).

Lemma amplified (w : @world RM) x p0 mat m0 n0 :
  reach w -> wx w = Some x -> digital_only (wcfg w) = false -> parasitics (wcfg w) = true -> one_column (m_mode (wcfg w)) = true ->
  @par RM (xm x) = Some p0 -> @ps_w RM p0 < 0 -> split_covers (wcfg w) -> dims_in (wcfg w) m0 n0 ->
  all_entries (weight_in (wcfg w)) mat m0 n0 -> sums_fit (wcfg w) n0 ->
  (two_rows (m_mode (wcfg w)) = true -> 2 * n0 <= N (wcfg w) \/ m0 = 0)%Z ->
  exists w1 x1 p, step w (CpyMtrx mat m0 n0) = Ok (w1, RCode 0) /\ wx w1 = Some x1 /\ @par RM (xm x1) = Some p /\
  forall vp vm k n,
  let c := wcfg w in
  (n <= Z.to_nat (N c))%nat -> (n <= List.length vp)%nat ->
  (two_rows (m_mode c) = true -> vm <> [] /\ n <= List.length vm /\ 2 * n <= Z.to_nat (N c))%nat ->
  (k <= Z.to_nat (M c))%nat -> (k <= outputs c (Z.to_nat m0))%nat ->
  exists t, @compute_currents RM (Some p) vp vm k n = Ok t /\
  forall i, (i < k)%nat ->
  let ideal := fold_right Rplus 0 (map (fun r => if driven (m_mode c) vp vm n r
    then cell_at (m_mode c) (current (@ia_p RM (xm x1))) (current (@ia_m RM (xm x1))) (Z.to_nat n0) false i r else 0)
    (seq 0 (Z.to_nat (N c)))) in
  0 <= ideal /\
  (0 < ideal -> IZR (N c) * ideal * - @ps_w RM p0 < - V_read c * 1000000 -> ideal < nth i t 0) /\
  (N c = 1%Z -> - V_read c * 1000000 < ideal * - @ps_w RM p0 -> nth i t 0 < 0).
Proof.
  intros Hr Hx Hd Hp Hone Hpar Hw Hcov Hdim Hent HN H2. pose proof (par_supported w Hr Hp) as Hsup.
  assert (HV : 0 < - V_read (wcfg w) /\ (1 <= N (wcfg w))%Z).
  { destruct Hsup as (M1 & N1 & _ & _ & HA). destruct (HA Hd) as (_ & _ & _ & _ & _ & _ & B3). destruct (B3 Hp) as [B4 _].
    apply rleb_false in B4. cbn in B4. split; [lra|lia]. }
  clear Hsup. destruct HV as [HV HN1].
  destruct (ladder_currents nz s w x p0 mat m0 n0) as (w1 & x1 & p & E & X1 & P1 & EW & HC); auto; [lra|].
  exists w1, x1, p. split; [exact E|]. split; [exact X1|]. split; [exact P1|].
  intros vp vm k n. cbv zeta. intros A1 A2 A3 A4 A5. destruct (HC vp vm k n A1 A2 A3 A4 A5) as (t & T1 & T2 & T3). clear HC.
  exists t. split; [exact T1|]. intros i Hi. specialize (T3 i Hi). cbv zeta in T3. rewrite EW, Hone in T3.
  set (V := - V_read (wcfg w)) in *. set (NN := Z.to_nat (N (wcfg w))) in *. set (r := - @ps_w RM p0) in *.
  assert (Hr0 : 0 < r) by (unfold r; lra).
  replace (1000000 / @ps_w RM p0) with (- (1000000 / r)) in T3 by (unfold r; field; lra). set (U := 1000000 / r) in *.
  assert (HU : 0 < U) by (apply Rdiv_lt_0_compat; lra).
  assert (EU : U * r = 1000000) by (unfold U; field; lra).
  assert (EN : INR NN = IZR (N (wcfg w))) by (unfold NN; rewrite INR_IZR_INZ, Z2Nat.id by lia; reflexivity).
  set (cell := cell_at _ _ _ _ false i) in *. set (dr := driven _ vp vm n) in *.
  destruct T3 as (G1 & _ & T3). destruct (ideal_over V cell dr NN ltac:(lra)) as [_ E2]. rewrite ideal_eq in E2.
  set (g := fun r => if dr r then cell r / V else 0) in *. rewrite T3. rewrite <- E2. clear E2 T3.
  assert (S0 : 0 <= sumR NN g). { clear -G1. induction NN; cbn [sumR]; [lra|]. specialize (G1 NN). change (0 <= g NN) in G1. lra. }
  rewrite !Rmult_1_r. split; [apply Rmult_le_pos; lra|]. split.
  - intros H1 H3. assert (Sp : 0 < sumR NN g) by nra.
    destruct (neg_ladder U (sumR NN g) g NN HU (fun i _ => G1 i) ltac:(lra)) as (_ & B & _).
    + rewrite EN. apply (Rmult_lt_reg_r (V * r)); [nra|]. replace (U * (V * r)) with (V * 1000000) by (rewrite <- EU; ring). nra.
    + specialize (B Sp). apply Rmult_lt_compat_r; lra.
  - intros H1 H3. replace NN with 1%nat in * by (unfold NN; lia). cbn [ladder sumR] in *.
    replace (0 + g 0%nat) with (g 0%nat) in * by ring. set (b := g 0%nat) in *.
    assert (Hb : U < b). { apply (Rmult_lt_reg_r (V * r)); [nra|]. replace (U * (V * r)) with (V * 1000000) by (rewrite <- EU; ring). nra. }
    replace (b * - U / (b + - U)) with (- (b * U / (b - U))) by (field; lra).
    assert (0 < b * U / (b - U)) by (apply Rdiv_lt_0_compat; nra). nra.
Qed.
End RR.
