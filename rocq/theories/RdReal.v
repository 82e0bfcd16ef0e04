(** Read disturb in exact real arithmetic. *)
From Coq Require Import String List ZArith Bool Arith Lia ZifyBool ZifyNat Reals Lra.
From RecordUpdate Require Import RecordSet.
From Flocq Require Import Core.
From Verif Require Import Base Lib Hoare Machine Json Config Histogram Adc ReadDisturb Parasitics
  Mapper IntMappers BnnMappers TnnMappers Crossbar Api RMachine RSpec WriteProofs Shape MvmShape AnaShape ConfigProofs
  Reach Spec DigApi CfgProps Cells Invar StepFacts ApiProps NoiseProps NoiseReal RdSpec RdProps RdApi RdRefresh.
Import ListNotations RecordSetNotations.

(** ** The formulas *)
Section Phys.
Local Open Scope R_scope.

Lemma decay_pos v : 0 < decay v.
Proof. unfold decay. apply Rmult_lt_0_compat; [lra|apply exp_pos]. Qed.

Lemma pow41 n : (0 < n)%Z -> Rpower (Rpower (IZR n) (41 / 100)) (INR 100) = IZR (n ^ 41).
Proof.
  intros Hn. rewrite Rpower_mult.
  replace (41 / 100 * INR 100) with (INR 41).
  2:{ rewrite !INR_IZR_INZ. change (Z.of_nat 41) with 41%Z. change (Z.of_nat 100) with 100%Z. lra. }
  rewrite Rpower_pow by (apply (IZR_lt 0); exact Hn). rewrite pow_IZR. reflexivity.
Qed.
Lemma pow100 : Rpower (1000 / 3) (INR 100) * IZR (3 ^ 100) = IZR (1000 ^ 100).
Proof.
  rewrite Rpower_pow by lra.
  assert (E : forall k : nat, (1000 / 3) ^ k * IZR (3 ^ Z.of_nat k) = IZR (1000 ^ Z.of_nat k)).
  { induction k as [|k IH]; [cbn; lra|]. rewrite Nat2Z.inj_succ, !Z.pow_succ_r by lia. rewrite !mult_IZR.
    cbn [pow]. rewrite <- IH. lra. }
  exact (E 100%nat).
Qed.
Lemma endurance_up : (1000 ^ 100 <=? 3 ^ 100 * endurance ^ 41)%Z = true.
Proof. vm_compute. reflexivity. Qed.
Lemma endurance_low : (3 ^ 100 * (endurance - 1) ^ 41 <? 1000 ^ 100)%Z = true.
Proof. vm_compute. reflexivity. Qed.

Lemma fatigue_ge n : (endurance <= n)%Z -> 1 <= fatigue n.
Proof.
  intros H. assert (Hn : (0 < n)%Z) by (unfold endurance in H; lia).
  unfold fatigue. destruct (Z.eq_dec n 0) as [|_]; [lia|].
  destruct (Rle_lt_dec 1 (3 / 1000 * Rpower (IZR n) (41 / 100))) as [|L]; [assumption|exfalso].
  assert (L1 : Rpower (IZR n) (41 / 100) < 1000 / 3) by lra.
  assert (L2 : Rpower (Rpower (IZR n) (41 / 100)) (INR 100) < Rpower (1000 / 3) (INR 100)).
  { apply Rlt_Rpower_l; [rewrite INR_IZR_INZ; apply (IZR_lt 0); reflexivity|]. split; [apply exp_pos|exact L1]. }
  rewrite pow41 in L2 by exact Hn. pose proof pow100 as E.
  assert (P : 0 < IZR (3 ^ 100)) by (apply (IZR_lt 0); reflexivity).
  apply (Rmult_lt_compat_r _ _ _ P) in L2. rewrite E, <- mult_IZR in L2. apply lt_IZR in L2.
  pose proof endurance_up as EU. apply Z.leb_le in EU.
  assert (Q : (endurance ^ 41 <= n ^ 41)%Z) by (apply Z.pow_le_mono_l; unfold endurance in *; lia).
  assert (P3 : (0 < 3 ^ 100)%Z) by reflexivity.
  apply (Z.mul_le_mono_nonneg_l _ _ (3 ^ 100)) in Q; [|lia]. rewrite Z.mul_comm in L2.
  exact (Z.lt_irrefl _ (Z.lt_le_trans _ _ _ L2 (Z.le_trans _ _ _ EU Q))).
Qed.
Lemma fatigue_lt n : (0 <= n < endurance)%Z -> 0 <= fatigue n < 1.
Proof.
  intros H. unfold fatigue. destruct (Z.eq_dec n 0) as [|Hn0]; [lra|].
  assert (Hn : (0 < n)%Z) by lia. pose proof (exp_pos (41 / 100 * ln (IZR n))) as P0. fold (Rpower (IZR n) (41 / 100)) in P0.
  split; [lra|].
  destruct (Rlt_le_dec (3 / 1000 * Rpower (IZR n) (41 / 100)) 1) as [|L]; [assumption|exfalso].
  assert (L1 : 1000 / 3 <= Rpower (IZR n) (41 / 100)) by lra.
  assert (L2 : Rpower (1000 / 3) (INR 100) <= Rpower (Rpower (IZR n) (41 / 100)) (INR 100)).
  { apply Rle_Rpower_l; [apply pos_INR|]. split; lra. }
  rewrite pow41 in L2 by exact Hn. pose proof pow100 as E.
  assert (P : 0 <= IZR (3 ^ 100)) by (apply (IZR_le 0); discriminate).
  apply (Rmult_le_compat_r _ _ _ P) in L2. rewrite E, <- mult_IZR in L2. apply le_IZR in L2.
  pose proof endurance_low as EU. apply Z.ltb_lt in EU.
  assert (Q : (n ^ 41 <= (endurance - 1) ^ 41)%Z) by (apply Z.pow_le_mono_l; lia).
  apply (Z.mul_le_mono_nonneg_l _ _ (3 ^ 100)) in Q; [|discriminate]. rewrite Z.mul_comm in L2.
  exact (Z.lt_irrefl _ (Z.le_lt_trans _ _ _ L2 (Z.le_lt_trans _ _ _ Q EU))).
Qed.
Lemma fatigue_mono n n' : (0 <= n <= n')%Z -> fatigue n <= fatigue n'.
Proof.
  intros H. unfold fatigue. destruct (Z.eq_dec n 0) as [|H0], (Z.eq_dec n' 0) as [|H0']; try lra; try lia.
  - pose proof (exp_pos (41 / 100 * ln (IZR n'))) as P0. fold (Rpower (IZR n') (41 / 100)) in P0. lra.
  - apply Rmult_le_compat_l; [lra|]. apply Rle_Rpower_l; [lra|]. split; [apply (IZR_lt 0); lia|apply IZR_le; lia].
Qed.
Lemma onset_pos v n : 0 < onset v n.
Proof.
  unfold onset. apply Rmult_lt_0_compat; [|apply exp_pos]. apply Rmult_lt_0_compat; [|apply exp_pos].
  apply Rdiv_lt_0_compat; [lra|]. apply pow_lt. lra.
Qed.
Lemma onset_anti v n n' : (0 <= n <= n')%Z -> (n' < endurance)%Z -> onset v n' <= onset v n.
Proof.
  intros H H'. unfold onset. apply Rmult_le_compat_l.
  - left. apply Rmult_lt_0_compat; [|apply exp_pos]. apply Rdiv_lt_0_compat; [lra|]. apply pow_lt. lra.
  - apply Rle_Rpower_l; [left; apply Rinv_0_lt_compat, decay_pos|].
    pose proof (fatigue_mono n n' H). pose proof (fatigue_lt n' ltac:(lia)). lra.
Qed.
Lemma Rpower_neg_anti x y d : 0 < d -> 0 < x <= y -> Rpower y (- d) <= Rpower x (- d).
Proof.
  intros Hd H. rewrite !Rpower_Ropp. apply Rinv_le_contravar; [apply exp_pos|]. apply Rle_Rpower_l; lra.
Qed.
Lemma Rpower_neg_le1 x d : 0 < d -> 1 <= x -> Rpower x (- d) <= 1.
Proof.
  intros Hd H. replace 1 with (Rpower 1 (- d)); [apply Rpower_neg_anti; lra|]. unfold Rpower. rewrite ln_1, Rmult_0_r. apply exp_0.
Qed.
Lemma over_onset v n y : onset v n <= y -> 1 <= y / onset v n.
Proof.
  intros H. pose proof (onset_pos v n) as P. apply (Rmult_le_reg_r (onset v n)); [exact P|].
  unfold Rdiv. rewrite Rmult_assoc, Rinv_l by lra. lra.
Qed.
Lemma fading_range v t k n : 0 < fading v t k n <= 1.
Proof.
  unfold fading. destruct (Rlt_dec _ _) as [|H]; [lra|]. split; [apply exp_pos|].
  apply Rpower_neg_le1; [apply decay_pos|]. apply over_onset. lra.
Qed.
Lemma fading_fresh v t k n : IZR k * t < onset v n -> fading v t k n = 1.
Proof. intros H. unfold fading. destruct (Rlt_dec _ _); [reflexivity|contradiction]. Qed.
Lemma fading_reads v t k k' n : 0 <= t -> (k <= k')%Z -> fading v t k' n <= fading v t k n.
Proof.
  intros Ht Hk. pose proof (onset_pos v n) as P.
  assert (L : IZR k * t <= IZR k' * t) by (apply Rmult_le_compat_r; [exact Ht|now apply IZR_le]).
  destruct (Rlt_dec (IZR k * t) (onset v n)) as [H|H].
  - rewrite (fading_fresh v t k n H). apply fading_range.
  - unfold fading. destruct (Rlt_dec (IZR k' * t) _); [lra|]. destruct (Rlt_dec (IZR k * t) _); [lra|].
    apply Rpower_neg_anti; [apply decay_pos|]. split.
    + apply Rdiv_lt_0_compat; lra.
    + unfold Rdiv. apply Rmult_le_compat_r; [|exact L]. left. now apply Rinv_0_lt_compat.
Qed.
Lemma fading_cycles v t k n n' : (0 <= n <= n')%Z -> (n' < endurance)%Z -> fading v t k n' <= fading v t k n.
Proof.
  intros H H'. pose proof (onset_pos v n) as P. pose proof (onset_pos v n') as P'. pose proof (onset_anti v n n' H H') as A.
  destruct (Rlt_dec (IZR k * t) (onset v n)) as [L|L].
  - rewrite (fading_fresh v t k n L). apply fading_range.
  - unfold fading. destruct (Rlt_dec _ (onset v n')); [lra|]. destruct (Rlt_dec _ (onset v n)); [lra|].
    apply Rpower_neg_anti; [apply decay_pos|]. split.
    + apply Rdiv_lt_0_compat; lra.
    + unfold Rdiv. apply Rmult_le_compat_l; [lra|]. now apply Rinv_le_contravar.
Qed.
End Phys.

Section R.
Context (nz : bool -> nat -> R) (s : bool).
#[local] Hint Extern 0 Machine => exact (R_machine nz s) : typeclass_instances.
Local Open Scope R_scope.
Notation RM := (R_machine nz s).

Lemma decay_R v : @m_decay RM v = decay v.
Proof.
  change (68 * / 10 ^ 4 * exp (11 * / 10 ^ 2 * Rabs v /
    (138064852 * / 10 ^ 31 * (300 * 1) / (1602176634 * / 10 ^ 28))) = decay v).
  unfold decay, thermal. f_equal; [lra|]. f_equal. field.
Qed.
Lemma fatigue_R n : (0 <= n)%Z -> @m_fatigue RM n = fatigue n.
Proof.
  intros Hn. change (3 * / 10 ^ 3 * rpow (IZR n) (41 * / 10 ^ 2) = fatigue n). unfold fatigue.
  replace (41 * / 10 ^ 2) with (41 / 100) by lra.
  replace (3 * / 10 ^ 3) with (3 / 1000) by lra.
  destruct (Z.eq_dec n 0) as [-> |H0].
  - unfold rpow. destruct (Rlt_dec 0 0); [lra|]. destruct (Req_EM_T (41 / 100) 0); lra.
  - unfold rpow. destruct (Rlt_dec 0 (IZR n)) as [|L]; [reflexivity|]. destruct L. apply (IZR_lt 0). lia.
Qed.
Lemma invalid_R n : @m_invalid RM n = true <-> (endurance <= n)%Z.
Proof.
  unfold m_invalid. cbn -[IZR m_fatigue]. unfold rleb. destruct (Z_lt_le_dec n 0) as [Hn|Hn].
  - assert (E : @m_fatigue RM n = 0).
    { change (3 * / 10 ^ 3 * rpow (IZR n) (41 * / 10 ^ 2) = 0). replace (41 * / 10 ^ 2) with (41 / 100) by lra.
      unfold rpow. destruct (Rlt_dec 0 (IZR n)) as [L|_]; [apply (lt_IZR 0) in L; lia|]. destruct (Req_EM_T (41 / 100) 0); lra. }
    rewrite E. destruct (Rle_dec 1 0); [lra|]. unfold endurance. split; [discriminate|lia].
  - rewrite fatigue_R by exact Hn. destruct (Z_lt_le_dec n endurance) as [L|L].
    + pose proof (fatigue_lt n (conj Hn L)). destruct (Rle_dec 1 (fatigue n)); [lra|]. split; [discriminate|lia].
    + pose proof (fatigue_ge n L). destruct (Rle_dec 1 (fatigue n)); [|lra]. split; auto.
Qed.
Lemma onset_R v n : (0 <= n < endurance)%Z -> @m_onset RM v n = onset v n.
Proof.
  intros Hn. unfold m_onset. destruct (@m_invalid RM n) eqn:E; [apply invalid_R in E; lia|].
  rewrite decay_R, fatigue_R by lia. pose proof (fatigue_lt n Hn) as HF. unfold onset.
  change (155 / 10 ^ 10 * rpow (143339 * / 10 ^ 5) (1 / decay v) * rpow (1 - fatigue n) (1 / decay v) =
    155 / 10 ^ 10 * Rpower (143339 / 100000) (/ decay v) * Rpower (1 - fatigue n) (/ decay v)).
  replace (143339 * / 10 ^ 5) with (143339 / 100000) by lra.
  unfold rpow. destruct (Rlt_dec 0 (143339 / 100000)); [|lra]. destruct (Rlt_dec 0 (1 - fatigue n)); [|lra].
  replace (1 / decay v) with (/ decay v) by (unfold Rdiv; ring). reflexivity.
Qed.
Lemma fading_R v t k n : (0 <= n < endurance)%Z -> @m_fading RM v t k n = fading v t k n.
Proof.
  intros Hn. unfold m_fading. rewrite onset_R, decay_R by exact Hn. unfold fading.
  change ((if rltb (IZR k * t) (onset v n) then 1 else rpow (IZR k * t / onset v n) (- decay v)) =
    (if Rlt_dec (IZR k * t) (onset v n) then 1 else Rpower (IZR k * t / onset v n) (- decay v))).
  unfold rltb. pose proof (onset_pos v n) as P.
  destruct (Rlt_dec (IZR k * t) (onset v n)) as [|L]; [reflexivity|].
  unfold rpow. destruct (Rlt_dec 0 (IZR k * t / onset v n)) as [|L1]; [reflexivity|]. destruct L1. apply Rdiv_lt_0_compat; lra.
Qed.

(** ** C36 *)
Theorem factor_real : forall (w : @world RM) x r k n,
  reach w -> wx w = Some x -> xrd x = Some r -> (0 <= n < endurance)%Z ->
  fst (g0_factor (wcfg w) r k n) = fading (V_read (wcfg w)) (t_read (wcfg w)) k n.
Proof.
  intros w x r k n Hre Hx Hr Hn. pose proof (@reach_consts RM w x Hre Hx) as HK.
  rewrite (@fac_spec RM (wcfg w) x r k n HK Hr). now apply fading_R.
Qed.
Theorem factor_shape : forall (w : @world RM) x r (f := fun k n => fst (g0_factor (wcfg w) r k n)),
  reach w -> wx w = Some x -> xrd x = Some r -> 0 < t_read (wcfg w) ->
  forall k n, (0 <= n < endurance)%Z ->
    0 < f k n <= 1 /\
    (IZR k * t_read (wcfg w) < onset (V_read (wcfg w)) n -> f k n = 1) /\
    (forall k', (k <= k')%Z -> f k' n <= f k n) /\
    (forall n', (n <= n' < endurance)%Z -> f k n' <= f k n).
Proof.
  intros w x r f Hre Hx Hr Ht k n Hn. subst f. cbv beta.
  assert (HF : forall k n, (0 <= n < endurance)%Z ->
    fst (g0_factor (wcfg w) r k n) = fading (V_read (wcfg w)) (t_read (wcfg w)) k n)
    by (intros; eapply factor_real; eauto).
  repeat apply conj.
  - rewrite HF by exact Hn. apply fading_range.
  - rewrite HF by exact Hn. apply fading_range.
  - rewrite HF by exact Hn. apply fading_fresh.
  - intros k' Hk. rewrite !HF by exact Hn. apply fading_reads; [lra|exact Hk].
  - intros n' Hn'. rewrite !HF by lia. apply fading_cycles; lia.
Qed.

(** ** C37 *)
Theorem off_real : forall (w : @world RM) a w' ans x' k (p : bool),
  reach w -> mitigation (wcfg w) = MIT_OFF -> step w a = Ok (w', ans) -> multiplied a ans = true -> wx w' = Some x' ->
  step w' (GetNum NRead) = Ok (w', RNum k) -> updates (wcfg w) k = true ->
  (p = false -> both_arrays (m_mode (wcfg w))) ->
  forall i j, cell (if p then gd_p (xm x') else gd_m (xm x')) i j = 1%Z ->
  (0 <= stored (if p then CycP else CycM) w' i j < endurance)%Z ->
  current (if p then ia_p (xm x') else ia_m (xm x')) i j =
    LRS (wcfg w) * fading (V_read (wcfg w)) (t_read (wcfg w)) k (stored (if p then CycP else CycM) w' i j).
Proof.
  intros w a w' ans x' k p Hre Em H Hm Hx' Hk Hu Hb i j Hg Hc.
  rewrite (@off_lrs RM w a w' ans x' k p Hre Em H Hm Hx' Hk Hu Hb i j Hg). now rewrite fading_R.
Qed.

(** ** C38 *)
Lemma exactly_R (c : @config RM) g : (g = 0 \/ g = 1)%Z -> @exactly RM c g = if (g =? 1)%Z then LRS c else HRS c.
Proof. intros [-> | ->]; unfold exactly; cbn; ring. Qed.
Lemma rleb_true t : t <= 0 -> rleb t 0 = true.
Proof. intros Ht. unfold rleb. destruct (Rle_dec t 0); auto; lra. Qed.

Theorem soft_real : forall (w : @world RM) x a w' ans,
  reach w -> wx w = Some x -> digital_only (wcfg w) = false -> read_disturb (wcfg w) = true ->
  mitigation (wcfg w) = SOFTWARE -> step w a = Ok (w', ans) -> multiplied a ans = true -> refreshes (wcfg w) x = true ->
  HRS_NOISE (wcfg w) <= 0 -> LRS_NOISE (wcfg w) <= 0 ->
  exists x', wx w' = Some x' /\ forall i j, (Z.of_nat i < M (wcfg w))%Z -> (Z.of_nat j < N (wcfg w))%Z ->
    current (ia_p (xm x')) i j = (if (cell (gd_p (xm x)) i j =? 1)%Z then LRS (wcfg w) else HRS (wcfg w)) /\
    (m_mode (wcfg w) <> BNN_III -> m_mode (wcfg w) <> BNN_IV ->
     current (ia_m (xm x')) i j = (if (cell (gd_m (xm x)) i j =? 1)%Z then LRS (wcfg w) else HRS (wcfg w))).
Proof.
  intros w x a w' ans Hre Hx Hd Hrd Em H Hm Hdue H1 H2. pose proof (@reach_good RM w Hre) as Hg.
  destruct (xrd x) as [r|] eqn:Er; [|exfalso; exact (xo_some _ _ (g_x _ Hg _ Hx) Hrd Er)].
  destruct (@soft_step RM w x r a w' ans Hre Hx Er Hd Em H Hm) as (x' & r' & X' & _ & _ & HS). rewrite Hdue in HS.
  destruct HS as (_ & _ & _ & _ & _ & HC). specialize (HC (rleb_true _ H1) (rleb_true _ H2)).
  exists x'. split; [exact X'|]. intros i j Li Lj. destruct (HC i j Li Lj) as [[P1 P2] PM].
  split; [rewrite P1; now apply exactly_R|]. intros N1 N2. destruct (PM N1 N2) as [M1 M2]. rewrite M1. now apply exactly_R.
Qed.

(** ** C40: without noise not even a software refresh changes the second array *)
Definition steady_m (c : @config RM) (y : @xbar RM) : Prop :=
  digital_only c = false -> is_int (m_mode c) = false -> HRS_NOISE c <= 0 -> LRS_NOISE c <= 0 ->
  is_diff (m_mode c) = false -> one_array (m_mode c) = false ->
  forall i j, inside (rowsN c) (colsN c) i j = true ->
    at2 f0 (ia_m0 (xm y)) i j = (if (at2 0%Z (gd_m (xm y)) i j =? 1)%Z then LRS c else HRS c).
Lemma noisy_steady (c : @config RM) g y : HRS_NOISE c <= 0 -> LRS_NOISE c <= 0 ->
  @noisy RM c (level g (fsub (LRS c) (HRS c)) (HRS c)) g y -> y = if (g =? 1)%Z then LRS c else HRS c.
Proof.
  intros H1 H2 H. pose proof (@noisy_mask RM _ _ _ _ H) as HB.
  apply (@noisy_quiet RM _ _ _ _ (rleb_true _ H1) (rleb_true _ H2)) in H. rewrite H. exact (exactly_R c g HB).
Qed.
Lemma soft_steady (c : @config RM) y res vec mat m n l e rr y' e' :
  cfg_wf c -> xok c y -> read_disturb c = true -> mitigation c = SOFTWARE -> steady_m c y -> 
  xmvm c y res vec mat m n l e = Ok (rr, y', e') ->
  digital_only c = false -> is_int (m_mode c) = false -> HRS_NOISE c <= 0 -> LRS_NOISE c <= 0 ->
  is_diff (m_mode c) = false -> one_array (m_mode c) = false ->
  forall i j, inside (rowsN c) (colsN c) i j = true -> at2 f0 (ia_m0 (xm y')) i j = at2 f0 (ia_m0 (xm y)) i j.
Proof.
  intros Hw Hy Hrd Em HQ H Hd Hi N1 N2 D O i j Hij.
  destruct (@mvm_soft RM c y res vec mat m n l e rr y' e' Hw Hy Hd Hrd H Em)
    as (r & r' & _ & _ & _ & G1 & G2 & _ & _ & _ & _ & _ & _ & _ & HR).
  destruct (_ && _).
  - destruct HR as (_ & _ & _ & _ & HP). destruct (HP Hi) as (mp1 & _ & E2 & _ & E4 & _ & PR). specialize (PR i j).
    rewrite O in PR. destruct (inside (Z.to_nat (M c)) (colsN c) i j).
    + destruct PR as [_ [-> PM]]. apply (noisy_steady _ _ _ N1 N2) in PM. rewrite PM, G2. symmetry. now apply HQ.
    + destruct PR as (_ & _ & _ & ->). now rewrite E4.
  - destruct HR as (_ & _ & _ & _ & -> & _). reflexivity.
Qed.
Lemma reach_steady (w : @world RM) x : reach w -> wx w = Some x -> steady_m (wcfg w) x.
Proof.
  apply (@reach_Q RM steady_m).
  - intros c y Ho _ H Hd Hi N1 N2 D O i j Hij. destruct (@xbar_new_ia RM _ _ H) as (_ & _ & _ & -> & _ & ->).
    unfold inside in Hij. now rewrite !at2_mat2 by lia.
  - intros c c' y _ _ HC _ HQ. unfold steady_m, rowsN, nsplit, colsN in *.
    apply core_mode in HC as (-> & _ & -> & _ & -> & -> & -> & -> & _ & _ & _ & _ & _ & -> & -> & ->). exact HQ.
  - intros c y mat m n e y' e' Ho Hw Hy _ HQ H Hd Hi N1 N2 D O i j Hij.
    pose proof (@xwrite_written RM _ _ _ _ _ _ _ _ Hw Hy H) as W. pose proof (wr_xnn _ _ _ _ _ _ _ W Hd Hi i j) as P.
    rewrite O in P. destruct (inside m n i j) eqn:Ei.
    + destruct P as [_ [-> P]]. now apply (noisy_steady _ _ _ N1 N2) in P.
    + destruct P as (_ & _ & _ & ->). destruct (@write_gd_frame RM _ _ _ _ _ _ _ _ Hw Hy Hi H i j Ei) as [_ ->].
      now apply HQ.
  - intros c y res vec mat m n l e r y' e' Ho Hw Hy _ HQ H Hd Hi N1 N2 D O i j Hij.
    assert (ES : at2 0%Z (gd_m (xm y')) i j = at2 0%Z (gd_m (xm y)) i j /\ at2 f0 (ia_m0 (xm y')) i j = at2 f0 (ia_m0 (xm y)) i j).
    { split.
      - pose proof (@xmvm_ok RM _ _ _ _ _ _ _ _ _ _ _ _ Hw Hy H) as (_ & SD & _). destruct SD as [_ [-> _]]. reflexivity.
      - destruct (read_disturb c) eqn:Er; [destruct (mitigation c) eqn:Em|].
        + eapply soft_steady; eauto.
        + destruct (@mvm_cell RM c y res vec mat m n l e r y' e' Hw Hy Hd Er H Em) as (r0 & r1 & _ & _ & _ & _ & _ & _ & _ & _ & -> & _). reflexivity.
        + destruct (@mvm_off RM c y res vec mat m n l e r y' e' Hw Hy Hd Er H Em) as (r0 & r1 & _ & _ & _ & _ & _ & _ & -> & _). reflexivity.
        + destruct (@xmvm_split RM _ _ _ _ _ _ _ _ _ _ _ _ Hw Hy Hd H) as (mp & e1 & _ & E1 & E2 & _ & E3 & E4 & _ & HC & HR).
          rewrite Er in HR. destruct HR as [-> _]. change (at2 f0 (ia_m0 mp) i j = at2 f0 (ia_m0 (xm y)) i j). now rewrite E4. }
    destruct ES as [-> ->]. now apply HQ.
Qed.
Definition second_kept (c : @config RM) (y : @xbar RM) (c' : @config RM) (y' : @xbar RM) : Prop :=
  rowsN c' = rowsN c /\ colsN c' = colsN c /\
  forall i j, inside (rowsN c) (colsN c) i j = true -> at2 f0 (ia_m0 (xm y')) i j = at2 f0 (ia_m0 (xm y)) i j.
Definition secondQ (c : @config RM) (y : @xbar RM) : Prop :=
  @anchored RM c y /\ steady_m c y /\ digital_only c = false /\ is_int (m_mode c) = false /\ HRS_NOISE c <= 0 /\ LRS_NOISE c <= 0 /\
  is_diff (m_mode c) = false /\ one_array (m_mode c) = false.
Lemma mvm_ia0 (c : @config RM) y res vec mat m n l e r y' e' : cfg_wf c -> xok c y -> secondQ c y ->
  xmvm c y res vec mat m n l e = Ok (r, y', e') ->
  forall i j, inside (rowsN c) (colsN c) i j = true -> at2 f0 (ia_m0 (xm y')) i j = at2 f0 (ia_m0 (xm y)) i j.
Proof.
  intros Hw Hy (A & Q & Hd & Hi & N1 & N2 & D & O) H i j Hij.
  destruct (@mvm_anchored RM _ _ _ _ _ _ _ _ _ _ _ _ Hw Hy Hd Hi A H) as (_ & _ & _ & HI).
  destruct (read_disturb c) eqn:Er; [destruct (mitigation c) eqn:Em|].
  - eapply soft_steady; eauto.
  - destruct HI as [_ ->]; [right; discriminate|reflexivity].
  - destruct HI as [_ ->]; [right; discriminate|reflexivity].
  - destruct HI as [_ ->]; [now left|reflexivity].
Qed.
Theorem second_real : forall (w : @world RM) h w' rs x, reach w -> wx w = Some x ->
  digital_only (wcfg w) = false -> m_mode (wcfg w) = BNN_V \/ m_mode (wcfg w) = TNN_IV \/ m_mode (wcfg w) = TNN_V ->
  HRS_NOISE (wcfg w) <= 0 -> LRS_NOISE (wcfg w) <= 0 ->
  Forall quiet h -> run w h = Ok (w', rs) ->
  exists x', wx w' = Some x' /\ forall i j, current (ia_m (xm x')) i j = current (ia_m (xm x)) i j.
Proof.
  intros w h w' rs x Hre Hx Hd Hm N1 N2 HF H.
  assert (HQ : secondQ (wcfg w) x).
  { refine (conj (@reach_anchored RM w x Hre Hx) (conj (reach_steady w x Hre Hx) (conj Hd _))).
    destruct Hm as [-> |[-> | ->]]; auto 6. }
  pose proof (@reach_good RM w Hre) as Hg.
  destruct (@run_quietQ RM secondQ second_kept h) with (w := w) (w' := w') (rs := rs) (x := x) as (Hg' & x' & X' & HP & HQ'); auto.
  - intros c y. repeat split; auto.
  - intros c y c1 y1 c2 y2 (A0 & A1 & A2) (B0 & B1 & B2).
    refine (conj _ (conj _ _)); try congruence. intros i j Hij. rewrite B2, A2; auto. now rewrite A0, A1.
  - intros c y c' y' Hw Hy Q L. pose proof Q as (Q1 & Q2 & Q3 & Q4 & Q5 & Q6 & Q7 & Q8).
    destruct L as [c' L|res vec mat m n l e r y' e' L].
    + split.
      * apply core_mode in L as (_ & _ & _ & _ & _ & _ & _ & _ & _ & _ & _ & _ & _ & E1 & E2 & E3).
        unfold second_kept, rowsN, colsN, nsplit. rewrite E1, E2, E3. auto.
      * unfold secondQ, anchored, steady_m, rowsN, nsplit, colsN in *.
        apply core_mode in L as (-> & _ & -> & _ & -> & -> & -> & -> & _ & _ & _ & _ & _ & -> & -> & ->). exact Q.
    + split; [refine (conj eq_refl (conj eq_refl _)); eapply mvm_ia0; eauto|].
      destruct (@mvm_anchored RM _ _ _ _ _ _ _ _ _ _ _ _ Hw Hy Q3 Q4 Q1 L) as (G1 & G2 & HA & _).
      refine (conj HA (conj _ (proj2 (proj2 Q)))). intros _ _ _ _ _ _ i j Hij. rewrite G2.
      rewrite (mvm_ia0 _ _ _ _ _ _ _ _ _ _ _ _ Hw Hy Q L i j Hij). now apply Q2.
  - exists x'. split; [exact X'|]. intros i j. destruct HP as (P0 & P1 & P2).
    destruct HQ as (A & _ & B1 & B2 & _ & _ & B3 & _). destruct HQ' as (A' & _ & B1' & B2' & _ & _ & B3' & _).
    destruct (A B1 B2 i j) as [_ A1]. destruct (A' B1' B2' i j) as [_ A1'].
    change (at2 f0 (ia_m (xm x')) i j = at2 f0 (ia_m (xm x)) i j). rewrite A1, A1' by auto.
    destruct (inside (rowsN (wcfg w)) (colsN (wcfg w)) i j) eqn:Ei; [now apply P2|].
    pose proof (xo_shape _ _ (g_x _ Hg _ Hx)) as S1. pose proof (xo_shape _ _ (g_x _ Hg' _ X')) as S2.
    rewrite (at2_out f0 _ _ _ _ _ (sh_im0 _ _ S1) Ei). rewrite <- P0, <- P1 in Ei. now rewrite (at2_out f0 _ _ _ _ _ (sh_im0 _ _ S2) Ei).
Qed.

(** ** C39 *)
Theorem cell_real : forall (w : @world RM) x a w' ans (p : bool),
  reach w -> wx w = Some x -> mitigation (wcfg w) = CELL_BASED ->
  step w a = Ok (w', ans) -> multiplied a ans = true -> updates (wcfg w) (n_read x + 1) = true ->
  (p = false -> both_arrays (m_mode (wcfg w))) -> LRS_NOISE (wcfg w) <= 0 ->
  exists x', wx w' = Some x' /\
  forall i j, cell (if p then gd_p (xm x) else gd_m (xm x)) i j = 1%Z ->
    (1 - tolerance (wcfg w)) * LRS (wcfg w) <= current (if p then ia_p (xm x') else ia_m (xm x')) i j
      <= (1 + tolerance (wcfg w)) * LRS (wcfg w).
Proof.
  intros w x a w' ans p Hre Hx Em H Hm Hu Hb Hn.
  assert (Hrd : read_disturb (wcfg w) = true /\ digital_only (wcfg w) = false).
  { unfold updates in Hu. apply andb_prop in Hu as [Hu _]. apply andb_prop in Hu as [Hu Hd]. apply negb_true_iff in Hd. auto. }
  destruct Hrd as [Hrd Hd]. pose proof (@reach_good RM w Hre) as Hg.
  destruct (xrd x) as [r|] eqn:Er; [|exfalso; exact (xo_some _ _ (g_x _ Hg _ Hx) Hrd Er)].
  destruct (@cell_step RM w x r a w' ans p Hre Hx Er Em H Hm Hu Hb (rleb_true _ Hn)) as (x' & r' & X' & _ & HC).
  exists x'. split; [exact X'|]. intros i j Hij. specialize (HC i j Hij). cbv zeta in HC.
  assert (HT : 0 <= tolerance (wcfg w) /\ 0 < LRS (wcfg w)).
  { destruct (good_origin _ Hg) as [(j0 & c0 & E)|E].
    - destruct (apply_supported _ _ _ E) as (_ & _ & _ & _ & HS). destruct (HS Hd) as (_ & H2 & _ & _ & _ & H3 & _).
      destruct (H3 Hrd) as (_ & _ & _ & H4). destruct (H4 Em) as [H5 _]. apply rleb_false in H2. cbn in H5, H2. unfold rltb in H5.
      destruct (Rlt_dec _ _); [discriminate|]. lra.
    - rewrite E in Hrd. discriminate. }
  destruct HT as [HT HL]. destruct (off_limits _ _) eqn:Eo.
  - destruct HC as (-> & _). nra.
  - destruct HC as (-> & _). unfold off_limits in Eo. apply orb_false_iff in Eo as [O1 O2]. cbn -[IZR Rmult m_fading] in O1, O2.
    unfold rltb in O1, O2. destruct (Rlt_dec _ _) in O1; [discriminate|]. destruct (Rlt_dec _ _) in O2; [discriminate|].
    cbn -[IZR Rmult m_fading]. lra.
Qed.

(** ** C41 *)
Theorem worn_real : forall n, @m_invalid RM n = true <-> (endurance <= n)%Z.
Proof. exact invalid_R. Qed.
End R.
