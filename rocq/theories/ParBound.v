(** C42 for the currents that the solver computes. *)
From Coq Require Import String List ZArith Reals Bool Arith Lia Lra ZifyBool ZifyNat.
From Verif Require Import Base Lib Machine Json Config Parasitics Mapper Crossbar Api RMachine ParSpec
  Reach Spec DigApi AnaSpec CfgProps NoiseReal Ladder ParProps ParReal.
Import ListNotations.
Local Open Scope R_scope.
Ltac Zify.zify_post_hook ::= idtac.

Lemma ideal_over V (a : nat -> R) (b : nat -> bool) N : V <> 0 ->
  ideal_current V (fun r => if b r then a r / V else 0) N = fold_right Rplus 0 (map (fun r => if b r then a r else 0) (seq 0 N)) /\
  ideal_current 1 (fun r => if b r then a r / V else 0) N * V = fold_right Rplus 0 (map (fun r => if b r then a r else 0) (seq 0 N)).
Proof.
  intros HV. unfold ideal_current. induction (seq 0 N) as [|k l [IH1 IH2]]; cbn [map fold_right]; [split; ring|].
  rewrite IH1, Rmult_plus_distr_r, IH2. destruct (b k); split; try ring; field; exact HV.
Qed.

Lemma loss_bound V w I d e n : 0 < V -> 0 < w -> e * V = d -> (d - I) * (1000000 / w) <= n * (d * e) ->
  d - I <= n * (d * d) * w / (V * 1000000).
Proof.
  intros HV Hw He H. assert (E : e = d / V) by (rewrite <- He; field; lra). subst e.
  apply (Rmult_le_reg_r (1000000 / w)). { apply Rdiv_lt_0_compat; lra. }
  eapply Rle_trans; [exact H|]. right. field. lra.
Qed.

Section RR.
Context (nz : bool -> nat -> R) (s : bool).
#[local] Hint Extern 0 Machine => exact (R_machine nz s) : typeclass_instances.
Notation RM := (R_machine nz s).

Lemma computed_bounds (w : @world RM) x p0 mat m0 n0 :
  reach w -> wx w = Some x -> digital_only (wcfg w) = false -> parasitics (wcfg w) = true ->
  @par RM (xm x) = Some p0 -> 0 < @ps_w RM p0 -> split_covers (wcfg w) -> dims_in (wcfg w) m0 n0 ->
  all_entries (weight_in (wcfg w)) mat m0 n0 -> sums_fit (wcfg w) n0 ->
  (two_rows (m_mode (wcfg w)) = true -> 2 * n0 <= N (wcfg w) \/ m0 = 0)%Z ->
  exists w1 x1 p, step w (CpyMtrx mat m0 n0) = Ok (w1, RCode 0) /\ wx w1 = Some x1 /\ @par RM (xm x1) = Some p /\
  forall vp vm k n,
  let c := wcfg w in
  (n <= Z.to_nat (N c))%nat -> (n <= List.length vp)%nat ->
  (two_rows (m_mode c) = true -> vm <> [] /\ n <= List.length vm /\ 2 * n <= Z.to_nat (N c))%nat ->
  (k <= Z.to_nat (M c))%nat -> (k <= outputs c (Z.to_nat m0))%nat ->
  exists t, @compute_currents RM (Some p) vp vm k n = Ok t /\
  forall i, (i < k)%nat ->
  let ideal minus := fold_right Rplus 0 (map (fun r => if driven (m_mode c) vp vm n r
    then cell_at (m_mode c) (current (@ia_p RM (xm x1))) (current (@ia_m RM (xm x1))) (Z.to_nat n0) minus i r else 0)
    (seq 0 (Z.to_nat (N c)))) in
  let dp := ideal false in
  let dm := if one_column (m_mode c) then 0 else ideal true in
  0 <= dp /\ 0 <= dm /\ - dm <= nth i t 0 <= dp /\
  Rabs (nth i t 0 - (dp - dm)) <= IZR (N c) * (dp * dp + dm * dm) * @ps_w RM p0 / (- V_read c * 1000000) /\
  ((forall r, (r < Z.to_nat (N c))%nat -> driven (m_mode c) vp vm n r = false) -> nth i t 0 = 0).
Proof.
  intros Hr Hx Hd Hp Hpar Hw Hcov Hdim Hent HN H2. pose proof (par_supported w Hr Hp) as Hsup.
  assert (HV : 0 < - V_read (wcfg w) /\ (1 <= N (wcfg w))%Z).
  { destruct Hsup as (M1 & N1 & _ & _ & HA). destruct (HA Hd) as (_ & _ & _ & _ & _ & _ & B3). destruct (B3 Hp) as [B4 _].
    apply rleb_false in B4. cbn in B4. split; [lra|lia]. }
  clear Hsup. destruct HV as [HV HN1].
  destruct (kirchhoff_currents nz s w x p0 mat m0 n0) as (w1 & x1 & p & E & X1 & P1 & EW & HC); auto.
  exists w1, x1, p. split; [exact E|]. split; [exact X1|]. split; [exact P1|].
  intros vp vm k n. cbv zeta. intros A1 A2 A3 A4 A5. destruct (HC vp vm k n A1 A2 A3 A4 A5) as (t & T1 & T2 & T3). clear HC.
  exists t. split; [exact T1|]. intros i Hi. specialize (T3 i Hi). cbv zeta in T3. rewrite EW in T3.
  set (V := - V_read (wcfg w)) in *. set (W := 1000000 / @ps_w RM p0) in *. set (NN := Z.to_nat (N (wcfg w))) in *.
  assert (HW : 0 < W) by (apply Rdiv_lt_0_compat; lra).
  assert (EN : INR NN = IZR (N (wcfg w))) by (unfold NN; rewrite INR_IZR_INZ, Z2Nat.id by lia; reflexivity).
  set (cell := cell_at _ _ _ _) in *. set (dr := driven _ vp vm n) in *.
  destruct T3 as (G1 & G2 & Ip & Cp & T3).
  assert (Hone : forall minus I, (forall r, 0 <= (if dr r then cell minus i r / V else 0)) ->
    column_current V W (fun r => if dr r then cell minus i r / V else 0) NN I ->
    let d := fold_right Rplus 0 (map (fun r => if dr r then cell minus i r else 0) (seq 0 NN)) in
    0 <= I <= d /\ d - I <= IZR (N (wcfg w)) * (d * d) * @ps_w RM p0 / (V * 1000000) /\
    ((forall r, (r < NN)%nat -> dr r = false) -> I = 0)).
  { intros minus I Hg HI. destruct (ideal_over V (cell minus i) dr NN ltac:(lra)) as [E1 E2]. cbv zeta.
    pose proof (current_range V W NN _ I ltac:(lra) HW (fun k _ => Hg k) HI) as R1. rewrite E1 in R1.
    split; [exact R1|]. split.
    - pose proof (current_close V W _ NN I ltac:(lra) HW (fun k _ => Hg k) HI) as R2. rewrite E1, EN in R2.
      exact (loss_bound _ _ _ _ _ _ HV Hw E2 R2).
    - intros Hz. apply (current_zero V W NN _ I HW) in HI; [exact HI|]. intros r Hr'. cbv beta. now rewrite Hz. }
  destruct (Hone false Ip G1 Cp) as (B1 & B2 & B3). cbv zeta in B1, B2.
  destruct (one_column (m_mode (wcfg w))).
  - rewrite T3. set (d := fold_right _ _ _) in *. repeat split; try lra; [|exact B3].
    rewrite Rabs_left1 by lra. replace (d * d + 0 * 0) with (d * d) by ring. lra.
  - specialize (G2 eq_refl). destruct T3 as (Im & Cm & T3). destruct (Hone true Im G2 Cm) as (D1 & D2 & D3). cbv zeta in D1, D2.
    rewrite T3. set (d := fold_right _ _ _) in *. set (d' := fold_right _ _ (map (fun r => if dr r then cell true i r else 0) _)) in *.
    repeat split; try lra.
    + replace (IZR (N (wcfg w)) * (d * d + d' * d') * @ps_w RM p0 / (V * 1000000)) with
        (IZR (N (wcfg w)) * (d * d) * @ps_w RM p0 / (V * 1000000) + IZR (N (wcfg w)) * (d' * d') * @ps_w RM p0 / (V * 1000000)) by (field; lra).
      apply Rabs_le. lra.
    + intros Hz. rewrite (B3 Hz), (D3 Hz). lra.
Qed.
End RR.
