(** Accuracy of analog MVMs with wire resistance: histories of API calls (C70). *)
From Coq Require Import String List ZArith Reals Bool Arith Lia Lra ZifyBool ZifyNat.
From RecordUpdate Require Import RecordSet.
From Verif Require Import Base Lib Hoare Machine Json Config Histogram Adc ReadDisturb Parasitics
  Mapper IntMappers BnnMappers TnnMappers Crossbar Api RMachine RSpec ParSpec ParCode WriteProofs Shape MvmShape DigMvm DigModes
  DigWrite AnaShape ConfigProofs Reach Cells Spec DigApi Invar StepFacts StoreProps AdcProps NoiseReal ParReal AnaReal AnaXnn AnaInt AnaWrite AnaSpec
  AnaApi AnaMvm AnaProps KinSpec KinProps ParProps WireSpec Wire Follow WireXnn WireInt.
Import ListNotations RecordSetNotations.
Local Open Scope Z_scope.
Local Open Scope out_scope.
Ltac Zify.zify_post_hook ::= idtac.

Section W.
Context {MC : Machine}.
Notation MM c := (Z.to_nat (M c)).
Notation at_f := (at2 f0).
Notation at_z := (at2 0).
Notation nominal c g := (level g (fsub (LRS c) (HRS c)) (HRS c)).

(** The crossbar without its solver. *)
Definition bare (fp : list F) (x : xbar) : xbar := x <| xm := xm x <| par := None |> <| tmp_fp := fp |> |>.
Definition no_wires (c : config) : config := c <| parasitics := false |>.

Lemma core_no_wires c : core c (no_wires c).
Proof. destruct c. do 7 eexists. cbn. reflexivity. Qed.
Lemma shape_bare c x fp : shape c (xm x) -> len fp = (if is_int (m_mode c) then rowsN c else MM c) -> shape (no_wires c) (xm (bare fp x)).
Proof.
  intros [] Hf. constructor; try assumption.
  - intros H. change (m_mode (no_wires c)) with (m_mode c) in H. destruct (sh_tlm H) as (T1 & T2 & _).
    split; [exact T1|]. split; [exact T2|]. cbn. rewrite Hf. destruct H as [-> | ->]; reflexivity.
  - intros H _. change (m_mode (no_wires c)) with (m_mode c) in H. rewrite H in Hf. exact Hf.
  - discriminate.
Qed.

(** A write with the solver leaves the cells of the same write without it. *)
Lemma wired_ready w x mat m n : reach w -> wx w = Some x -> digital_only (wcfg w) = false ->
  parasitics (wcfg w) = true -> par (xm x) <> None ->
  fle (HRS_NOISE (wcfg w)) f0 = true -> fle (LRS_NOISE (wcfg w)) f0 = true ->
  split_covers (wcfg w) -> dims_in (wcfg w) m n -> all_entries (weight_in (wcfg w)) mat m n ->
  n * row_bound (wcfg w) <= int32_max -> (two_rows (m_mode (wcfg w)) = true -> 2 * n <= N (wcfg w) \/ m = 0) ->
  exists w1 x1, step w (CpyMtrx mat m n) = Ok (w1, RCode 0) /\ wx w1 = Some x1 /\
    forall fp, ready (wcfg w) (bare fp x1) mat (Z.to_nat m) (Z.to_nat n).
Proof.
  intros Hr Hx Hd Hp Hpar Hn1 Hn2 Hcov Hdim Hent HN H2.
  destruct (ok_write w x m n mat Hr Hx Hd Hp Hpar Hcov Hdim Hent HN H2) as (w1 & x1 & Est & X1 & _).
  exists w1, x1. split; [exact Est|]. split; [exact X1|]. intros fp.
  pose proof (reach_good _ Hr) as Hg. destruct (guard_ok w m n Hg Hdim) as (G1 & G2 & Hm & Hn).
  pose proof (g_x _ Hg x Hx) as Hxo. pose proof (good_wf w Hg) as Hwf.
  pose proof (split_nonneg w Hg) as Hnn. pose proof (reach_built w x Hr Hx) as Hb.
  pose proof Est as T. cbn [step] in T. unfold cpy_mtrx in T. rewrite Hx, G1, G2 in T. cbn [bind] in T. inv_as T t T0. destruct t as [x1' e1].
  inversion T; subst w1; clear T. cbn in X1. inversion X1; subst x1'; clear X1.
  destruct (xwrite_parts _ _ _ _ _ _ _ _ Hxo Hwf T0) as (mp1 & E & S1 & SB & EA). rewrite Hd in EA. clear T0.
  set (c := wcfg w) in *. set (mN := Z.to_nat m) in *. set (nN := Z.to_nat n) in *.
  assert (HL : (mN * nN <= len mat)%nat) by (unfold mN, nN; destruct Hent, Hdim; nia).
  assert (S2 : stored c mp1 mat mN nN).
  { destruct (d_write_stored c (xm x) mat mN nN) as (mp1' & E' & _ & _ & S2); auto.
    { apply Hxo. }
    { apply Hent. }
    { unfold nN. destruct Hdim. rewrite Z2Nat.id by lia. exact HN. }
    congruence. }
  assert (Hc1 : same_consts (xm x) mp1) by (apply sc_digital; exact SB). destruct Hc1 as (C1 & C2 & C3).
  destruct (a_write_cells c mp1 mN nN (wenv w) _ e1 S1 EA) as (D1 & D2 & _ & _ & VX & _).
  pose proof (a_write_consts _ _ _ _ _ _ _ Hwf S1 EA) as (C4 & C5 & C6).
  assert (SW : sum_w (xm x1) = sum_w mp1).
  { destruct (proj1 (tri_any _ _) (a_write_tri anyfail harmless_any c mp1 mN nN (wenv w) Hwf S1 (or_introl (fun _ => I))) _ EA)
      as (_ & SA & _). destruct SA as (y1 & y2 & y3 & y4 & y5 & ->). reflexivity. }
  assert (VI : is_int (m_mode c) = true -> forall i q j, (i < mN)%nat -> (q < nsplit c)%nat -> (j < nN)%nat ->
      at_f (ia_p (xm x1)) (i * nsplit c + q) j = level (at_z (gd_p mp1) (i * nsplit c + q) j) (stepq c q) (HRS c) /\
      (one_array (m_mode c) = false ->
       at_f (ia_m (xm x1)) (i * nsplit c + q) j = level (at_z (gd_m mp1) (i * nsplit c + q) j) (stepq c q) (HRS c))).
  { intros Hi. destruct (a_write_front c x mp1 mat mN nN (wenv w) Hd Hwf S1 Hb C2 Hnn Hcov S2 Hm Hn) as (mp2 & e2 & E2 & _ & _ & V2).
    assert (I2 : ia_p (xm x1) = ia_p mp2 /\ ia_m (xm x1) = ia_m mp2).
    { unfold a_write in EA. rewrite (sh_mode _ _ S1), Hp in EA. cbv zeta in EA. rewrite E2 in EA. cbn [bind] in EA.
      inv_as EA q Q. inversion EA. split; reflexivity. }
    destruct I2 as [-> ->]. intros i q j H1 H3 H4. specialize (V2 Hi (i * nsplit c + q)%nat j ltac:(nia) H4). cbv zeta in V2.
    assert (Eq : ((i * nsplit c + q) mod nsplit c)%nat = q) by (rewrite Nat.add_comm, Nat.mod_add, Nat.mod_small; lia).
    rewrite Eq in V2. exact V2. }
  change (xm (bare fp x1)) with (xm x1 <| par := None |> <| tmp_fp := fp |>).
  constructor;
    change (xm (bare fp x1)) with (xm x1 <| par := None |> <| tmp_fp := fp |>);
    change (gd_p (xm x1 <| par := None |> <| tmp_fp := fp |>)) with (gd_p (xm x1));
    change (gd_m (xm x1 <| par := None |> <| tmp_fp := fp |>)) with (gd_m (xm x1));
    change (ia_p (xm x1 <| par := None |> <| tmp_fp := fp |>)) with (ia_p (xm x1));
    change (ia_m (xm x1 <| par := None |> <| tmp_fp := fp |>)) with (ia_m (xm x1));
    change (ia_p0 (xm x1 <| par := None |> <| tmp_fp := fp |>)) with (ia_p0 (xm x1));
    change (ia_m0 (xm x1 <| par := None |> <| tmp_fp := fp |>)) with (ia_m0 (xm x1)); rewrite ?D1, ?D2.
  - eapply (stored_core c c mp1); [apply core_refl| |exact S2]. repeat split; auto.
  - destruct Hb as (B1 & B2 & B3). unfold built.
    change (i_mm (xm (bare fp x1))) with (i_mm (xm x1)). change (i_step (xm (bare fp x1))) with (i_step (xm x1)).
    change (delta (xm (bare fp x1))) with (delta (xm x1)). rewrite C4, C5, C6, C1, C2, C3. auto.
  - reflexivity.
  - intros Hi i q j H1 H3 H4. destruct (Hcov Hi) as [T1 T2].
    assert (HN' : n * 2 ^ W_BIT c <= int32_max) by (unfold row_bound in HN; now rewrite Hi in HN).
    pose proof (write_decodes w mat m n _ (gd_p (xm x1)) (gd_m (xm x1)) Hr Hi ltac:(fold c; lia) T2 Hdim Hent HN' Est
       eq_refl eq_refl) as D.
    destruct (D i j H1 H4) as [_ D']. destruct (D' q H3) as (A1 & A2 & _). rewrite <- D1, <- D2.
    change (cell (gd_p (xm x1)) (i * nsplit c + q) j <= 2 ^ nth q (SPLIT c) 0 - 1 /\ cell (gd_m (xm x1)) (i * nsplit c + q) j <= 2 ^ nth q (SPLIT c) 0 - 1).
    change (nsplit c) with (len (SPLIT (wcfg w))). change (SPLIT c) with (SPLIT (wcfg w)). lia.
  - exact VI.
  - intros Hi i j H1 H3. specialize (VX Hi i j).
    replace (inside mN nN i j) with true in VX by (unfold inside; lia). rewrite D1, D2 in VX.
    destruct VX as ((V1 & V2) & V3). apply noisy_quiet in V2; auto. split; [split; congruence|].
    intros Ho. rewrite Ho in V3. destruct V3 as (V3 & V4). apply noisy_quiet in V4; auto. split; congruence.
Qed.
End W.

Section WR.
Context (nz : bool -> nat -> R) (s : bool).
#[local] Hint Extern 0 Machine => exact (R_machine nz s) : typeclass_instances.
Notation RM := (R_machine nz s).
Notation MM c := (Z.to_nat (M c)).
Local Open Scope R_scope.

Lemma rleb_0 (t : R) : t <= 0 -> rleb t 0 = true.
Proof. intros H. unfold rleb. destruct (Rle_dec t 0); auto; contradiction. Qed.
Lemma wire_loss_pos (c : @config RM) r n : V_read c < 0 -> 0 <= r -> (0 <= N c)%Z -> 0 <= wire_loss c r n.
Proof.
  intros HV Hr HN. unfold wire_loss. apply Rmult_le_pos; [|left; apply Rinv_0_lt_compat; lra].
  assert (0 <= IZR (N c)) by now apply (IZR_le 0). rewrite Rmult_assoc. apply Rmult_le_pos; [now apply Rmult_le_pos|].
  pose proof (Rle_0_sqr (IZR n * @LRS RM c)) as Q. unfold Rsqr in Q. exact Q.
Qed.

Lemma rows_outputs (c : @config RM) m : (rows_of c m <= outputs c m)%nat.
Proof. unfold rows_of, outputs, nsplit. destruct (is_int _); [lia|]. destruct (m_mode c); lia. Qed.

Lemma bit_gains_pos (c : @config RM) k : Forall (fun b => 0 <= b)%Z (SPLIT c) -> Forall (fun g => 0 <= g)%Z (bit_gains c k).
Proof.
  intros H. apply Forall_forall. intros g Hg. unfold bit_gains in Hg. apply in_flat_map in Hg. destruct Hg as (b & _ & Hg).
  apply in_map_iff in Hg. destruct Hg as (q & <- & Hq). apply in_seq in Hq.
  assert (0 <= nth q (SPLIT c) 0)%Z by (apply (proj1 (Forall_forall _ _) H), nth_In; lia).
  assert (1 <= 2 ^ nth q (SPLIT c) 0)%Z by (apply (Z.pow_le_mono_r 2 0); lia).
  repeat apply Z.mul_nonneg_nonneg; try (apply Z.pow_nonneg; lia); lia.
Qed.
Lemma gains_pos (c : @config RM) : Forall (fun b => 0 <= b)%Z (SPLIT c) -> 0 <= sum_gains c.
Proof.
  intros H. assert (HG : Forall (fun g => 0 <= g)%Z (gains c)).
  { unfold gains. destruct (m_mode c); try apply Forall_app; try (split; now apply bit_gains_pos); try now apply bit_gains_pos.
    all: repeat constructor; lia. }
  unfold sum_gains. induction HG as [|g k Hg _ IH]; cbn; [lra|]. apply (IZR_le 0) in Hg. lra.
Qed.

(** ** One MVM after a write *)
Lemma wired_mvm (w : @world RM) x x1 p0 mat m n w1 res vec mat' l :
  reach w -> wx w = Some x -> only_wires (wcfg w) -> adc_type (wcfg w) = INF_ADC ->
  @par RM (xm x) = Some p0 -> 0 < @ps_w RM p0 -> @HRS RM (wcfg w) < @LRS RM (wcfg w) ->
  (m_mode (wcfg w) = I_OFFS_W_DIFF -> s = false) ->
  split_covers (wcfg w) -> slices_wide (wcfg w) -> dims_in (wcfg w) m n -> solver_fits (wcfg w) m n ->
  all_entries (weight_in (wcfg w)) mat m n -> step w (CpyMtrx mat m n) = Ok (w1, RCode 0) -> wx w1 = Some x1 ->
  (forall fp, ready (wcfg w) (bare fp x1) mat (Z.to_nat m) (Z.to_nat n)) ->
  widths_fit (wcfg w) -> all_first (input_in (wcfg w)) vec n -> wire_room (wcfg w) res m n ->
  exists w3 r, step w1 (ExeMvm res vec mat' m n l) = Ok (w3, RRes 0 r) /\
    within (wire_error (wcfg w) (@ps_w RM p0) n) r res mat vec (Z.to_nat m) (Z.to_nat n).
Proof.
  intros Hr Hx (I1 & I2 & I3 & I4 & I5 & I6 & I7) Hadc Hpar Hpw Hdl Hst Hcov Hsw Hdim Hfit Hent E X1 HR Hwid Hin Hroom.
  pose proof (par_supported w Hr I2) as Hsup.
  assert (Hsp : SPLIT (wcfg w) <> []).
  { pose proof (good_wf w (reach_good _ Hr)) as Hwf. destruct (is_int (m_mode (wcfg w))) eqn:Hi.
    - destruct (Hcov Hi) as [T1 T2]. intros E0. rewrite E0 in T1. cbn in T1. lia.
    - pose proof (wf_ns _ Hwf Hi) as T. unfold nsplit in T. intros E0. rewrite E0 in T. cbn in T. lia. }
  destruct (write_loaded _ _ _ _ _ _ Hr Hx I1 I2 Hsp Hdim E) as (C1 & Hg1 & x2 & p & we & X2 & P2 & Ew & Ev & Sh & HL & _).
  assert (x2 = x1) by congruence. subst x2.
  assert (EW : @ps_w RM p = @ps_w RM p0).
  { assert (K : kept (par (xm x)) (par (xm x1))).
    { pose proof (reach_good _ Hr) as Hg. destruct (guard_ok w m n Hg Hdim) as (G1 & G2 & _).
      cbn [step] in E. unfold cpy_mtrx in E. rewrite Hx, G1, G2 in E. cbn [bind] in E. inv_as E t T. destruct t as [x2 e2].
      inversion E; subst w1. cbn in X1. inversion X1; subst x2.
      eapply xwrite_kept; [apply (g_x _ Hg _ Hx)|apply (good_wf _ Hg)|exact T]. }
    rewrite Hpar, P2 in K. destruct K as (q & Eq & (_ & _ & S3 & _)). inversion Eq; subst. exact S3. }
  destruct Hsup as (M1 & N1 & _ & _ & HA). destruct (HA I1) as (B1 & B2 & _ & _ & _ & _ & B3). destruct (B3 I2) as [B4 _].
  apply rleb_false in B1, B2, B4. cbn in B1, B2, B4. clear B3 HA.
  destruct (guard_ok w1 m n Hg1 ltac:(rewrite C1; exact Hdim)) as (G1 & G2 & Hm & Hn). rewrite C1 in G1, Hm, Hn.
  pose proof (good_wf w (reach_good _ Hr)) as Hwf. pose proof (split_nonneg w (reach_good _ Hr)) as Hnn.
  destruct Hent as [Hl Hent]. destruct Hin as [Hv1 Hin]. destruct Hroom as [HN [Hr1 Hr2]]. destruct Hdim as [Dm Dn].
  set (c := wcfg w) in *. set (mN := Z.to_nat m) in *. set (nN := Z.to_nat n) in *. set (mp := xm x1) in *.
  assert (ZN : Z.of_nat nN = n) by (unfold nN; lia).
  assert (HN' : (Z.of_nat nN * term_bound c <= int_max)%Z) by (rewrite ZN; exact HN).
  assert (Hns : (1 <= nsplit c)%nat) by (apply (some_split c); exact Hsp).
  assert (Hout : (outputs c mN <= MM c)%nat).
  { destruct Hfit as (F1 & F2 & F3). unfold outputs, mN. destruct (is_int (m_mode c)) eqn:Hi; [specialize (F2 eq_refl); lia|].
    destruct (m_mode c); try (clear -Hm; lia); specialize (F3 ltac:(auto)); lia. }
  assert (Hinf : a_ty (mp_adc mp) = INF_ADC).
  { pose proof (sh_adc _ _ Sh) as SA. fold c in Hadc. rewrite Hadc in SA. unfold adc_new in SA.
    destruct (d_trunc _); [|discriminate]. destruct (in32 _); [|discriminate]. inversion SA as [Hy]. reflexivity. }
  set (fp := repeat (@f0 RM) (if is_int (m_mode c) then rowsN c else MM c)).
  assert (Lfp : len fp = if is_int (m_mode c) then rowsN c else MM c) by (unfold fp; apply repeat_length).
  specialize (HR fp).
  pose proof (shape_bare c x1 fp Sh Lfp) as ShB. pose proof (core_no_wires c) as Hcore.
  pose proof (ready_core c (no_wires c) (bare fp x1) mat mN nN Hcore HR) as HRB.
  assert (Hst1 : stored c mp mat mN nN).
  { eapply (stored_core c c); [apply core_refl| |exact (re_st _ _ _ _ _ HR)]. repeat split. }
  assert (HK : 0 <= sum_gains c * (4 * (IZR n * @LRS RM c) / (@LRS RM c - @HRS RM c))).
  { apply Rmult_le_pos; [now apply gains_pos|]. apply Rmult_le_pos; [|left; apply Rinv_0_lt_compat; lra].
    assert (0 <= IZR n) by (apply (IZR_le 0); lia). nra. }
  (* the run without wires is exact *)
  assert (HB : agoal nz s (no_wires c) (xm (bare fp x1)) res vec mat' mN nN l (wenv w1) 0).
  { apply (amvm_ready nz s (no_wires c) (bare fp x1) mat res vec mat' mN nN l (wenv w1)
      (fun x sc off => (x + off) * sc) (fun _ => True) (fun _ => True) (fun _ => 0) 0 0); auto; try exact Hwf; try lia.
    - change (@LRS RM c - @HRS RM c <> 0). lra.
    - intros y sc off. unfold adc1. change (mp_adc (xm (bare fp x1))) with (mp_adc mp). rewrite Hinf. reflexivity.
    - apply conv_inf.
    - lra.
    - intros i Hi. specialize (Hr2 i Hi). rewrite ZN. change (term_bound (no_wires c)) with (term_bound c). change int_max with int32_max. lra.
    - rewrite errs_eq; [|exact Hnn|exact Hcov].
      assert (Z : forall l, total_eps (fun _ => 0) l = 0) by (unfold total_eps; induction l0; cbn; lra).
      rewrite Z. destruct (m_mode (no_wires c)); lra. }
  (* the solver follows it *)
  assert (HNS : near_solver nz s c mp mN nN (wire_loss c (@ps_w RM p0) n) (INR nN * @LRS RM c)).
  { rewrite <- EW, <- ZN. apply (solver_near nz s c mp p we mN nN); auto.
    - unfold colsN. lia.
    - now rewrite EW.
    - lra.
    - intros i j Hi Hj.
      destruct (cells_between nz s c (bare fp x1) mat mN nN (i / (if is_int (m_mode c) then len (SPLIT c) else 1))
        (i mod (if is_int (m_mode c) then len (SPLIT c) else 1)) j HR) as [K1 K2].
      { lra. }
      { unfold rows_of in Hi. destruct (is_int (m_mode c)); [|now rewrite Nat.div_1_r].
        apply Nat.div_lt_upper_bound; unfold nsplit in *; lia. }
      { apply Nat.mod_upper_bound. destruct (is_int _); unfold nsplit in *; lia. }
      { exact Hj. }
      assert (Ei : (i / (if is_int (m_mode c) then len (SPLIT c) else 1) * (if is_int (m_mode c) then len (SPLIT c) else 1) +
        i mod (if is_int (m_mode c) then len (SPLIT c) else 1))%nat = i).
      { rewrite Nat.mul_comm. symmetry. apply Nat.div_mod. destruct (is_int _); unfold nsplit in *; lia. }
      rewrite Ei in K1, K2. change (xm (bare fp x1)) with (mp <| par := None |> <| tmp_fp := fp |>) in K1, K2.
      change (@ia_p RM (mp <| par := None |> <| tmp_fp := fp |>)) with (@ia_p RM mp) in K1.
      change (@ia_m RM (mp <| par := None |> <| tmp_fp := fp |>)) with (@ia_m RM mp) in K2.
      split; [lra|]. intros Ho. specialize (K2 Ho). lra.
    - destruct Hfit as (F1 & _). intros H2. specialize (F1 H2). unfold colsN, nN. lia. }
  assert (HD : 0 <= wire_loss c (@ps_w RM p0) n) by (apply wire_loss_pos; [exact B4|lra|lia]).
  assert (ENI : INR nN = IZR n) by (rewrite INR_IZR_INZ, ZN; reflexivity).
  assert (HG : wgoal nz s c mp res vec mat' mN nN l (wenv w1) (wenv w1) (wire_loss c (@ps_w RM p0) n) (INR nN * @LRS RM c) fp).
  { assert (A1 : (mN <= len res)%nat) by (unfold mN; lia). assert (A2 : (nN <= len vec)%nat) by (unfold nN; lia).
    assert (A3 : INR nN * @HRS RM c <= INR nN * @LRS RM c) by (apply Rmult_le_compat_l; [apply pos_INR|lra]).
    assert (A4 : forall i, (i < mN)%nat -> Rabs (IZR (kap c * nth i (sum_w mp) 0)%Z) <= IZR (Z.of_nat nN * term_bound c)).
    { intros i Hi. rewrite <- abs_IZR. apply IZR_le. now apply (stored_sums_bound nz s c mp mat mN nN Hcov Hwid Hent Hst1). }
    assert (A5 : (rows_of c mN <= len fp)%nat).
    { rewrite Lfp. unfold rows_of. destruct (is_int (m_mode c)); [|exact Hm]. unfold rowsN. now apply Nat.mul_le_mono_r. }
    assert (A6 : forall i, (i < mN)%nat -> Rabs (IZR (nth i res 0%Z)) + IZR (Z.of_nat nN * term_bound c) +
       sum_gains c * (4 * (INR nN * @LRS RM c) / (@LRS RM c - @HRS RM c)) <= IZR int_max).
    { intros i Hi. specialize (Hr2 i Hi). rewrite ENI, ZN, <- abs_IZR, <- plus_IZR. exact Hr2. }
    assert (A7 : 0 < @LRS RM c - @HRS RM c) by lra. assert (A8 : 0 <= @HRS RM c) by lra.
    destruct (re_b _ _ _ _ _ HR) as (Q1 & Q2 & Q3). rewrite I1 in Q1, Q2, Q3.
    destruct (is_int (m_mode c)) eqn:Hi.
    - apply (wire_int nz s c mp res vec mat' mN nN l (wenv w1) (wenv w1)); auto.
      + intros E0. rewrite E0 in Ew. discriminate Ew.
      + now apply covers_bits.
      + intros q Hq. unfold top. pose proof (proj1 (Forall_forall _ _) (Hsw Hi) (nth q (SPLIT c) 0%Z) (nth_In _ _ Hq)) as K.
        cbv beta in K. assert (2 ^ 1 <= 2 ^ nth q (SPLIT c) 0)%Z by (apply Z.pow_le_mono_r; lia). lia.
      + apply (steps_nth c _ _ Hnn Hcov Hi). apply Q2. unfold uses_shift. now rewrite Hi.
      + intros Em. apply (delta_eq nz s c); auto.
    - apply (wire_xnn nz s c mp res vec mat' mN nN l (wenv w1) (wenv w1)); auto. }
  destruct HB as (mp' & d & EB & HDD). destruct (HG _ EB) as ([[r mpA] eA] & EA & Ee & HC). cbn [fst snd] in Ee, HC. subst eA.
  eexists. exists r. split.
  { cbn [step]. unfold exe_mvm. rewrite X1, C1, G1, G2. cbn [bind]. unfold xmvm. cbv zeta. rewrite I1, I4. cbn [bind].
    change (xm (x1 <| n_mvm := (n_mvm x1 + 1)%Z |> <| n_read := (n_read x1 + 1)%Z |>)) with mp. rewrite EA. cbn [bind].
    rewrite I3. cbn [bind]. reflexivity. }
  destruct HC as (L1 & L2 & H1 & H2). rewrite upto_length in L1. split; [exact L1|]. intros i. split.
  - intros Hi. destruct (H1 i Hi) as (K1 & _). rewrite nth_upto_lt in K1 by (unfold mN in *; lia). specialize (HDD i Hi).
    assert (ED : d i = product mat vec nN i).
    { assert (EQ : dres (no_wires c) (xm (bare fp x1)) vec nN i 0 = product mat vec nN i).
      { change (dres (no_wires c) (xm (bare fp x1)) vec nN i 0) with (dres c mp vec nN i 0).
        rewrite (stored_dres nz s c mp mat vec mN nN Hst1) by exact Hi. lia. }
      rewrite EQ in HDD. apply eq_IZR. apply Rminus_diag_uniq. destruct (Req_dec (IZR (d i) - IZR (product mat vec nN i)) 0) as [Z|Z]; [exact Z|].
      pose proof (Rabs_pos_lt _ Z). lra. }
    rewrite <- ED. exact K1.
  - intros Hi. rewrite H2 by exact Hi. destruct (Nat.lt_ge_cases i (len res)).
    + rewrite nth_upto by auto. now replace (i <? mN)%nat with false by lia.
    + rewrite !nth_overflow; rewrite ?upto_length; auto.
Qed.

(** C70. *)
Lemma wires_accurate : forall (w : @world RM) x p0 mat m n,
  reach w -> wx w = Some x -> only_wires (wcfg w) -> adc_type (wcfg w) = INF_ADC ->
  @par RM (xm x) = Some p0 -> 0 < @ps_w RM p0 -> @HRS RM (wcfg w) < @LRS RM (wcfg w) ->
  (m_mode (wcfg w) = I_OFFS_W_DIFF -> s = false) ->
  split_covers (wcfg w) -> slices_wide (wcfg w) -> dims_in (wcfg w) m n -> solver_fits (wcfg w) m n ->
  all_entries (weight_in (wcfg w)) mat m n -> sums_fit (wcfg w) n ->
  exists w1, step w (CpyMtrx mat m n) = Ok (w1, RCode 0) /\
    forall h w2 rs res vec mat' l, Forall asking h -> run w1 h = Ok (w2, rs) ->
      widths_fit (wcfg w) -> all_first (input_in (wcfg w)) vec n -> wire_room (wcfg w) res m n ->
      exists w3 r, step w2 (ExeMvm res vec mat' m n l) = Ok (w3, RRes 0 r) /\
        within (wire_error (wcfg w) (@ps_w RM p0) n) r res mat vec (Z.to_nat m) (Z.to_nat n).
Proof.
  intros w x p0 mat m n Hr Hx HO Hadc Hpar Hpw Hdl Hst Hcov Hsw Hdim Hfit Hent Hsum.
  pose proof HO as (I1 & I2 & I3 & I4 & I5 & I6 & I7).
  destruct (wired_ready w x mat m n) as (w1 & x1 & E & X1 & HR); auto.
  { rewrite Hpar. discriminate. }
  { now apply rleb_0. }
  { now apply rleb_0. }
  { intros H2. left. now apply Hfit. }
  exists w1. split; [exact E|]. intros h w2 rs res vec mat' l Hh Hrun Hwid Hin Hroom.
  destruct (wired_mvm w x x1 p0 mat m n w1 res vec mat' l) as (w3 & r & E3 & HW); auto.
  assert (Hr1 : reach w1) by (eapply reach_step; [exact Hr|exact E|discriminate]).
  assert (C1 : wcfg w1 = wcfg w).
  { cbn [step] in E. unfold cpy_mtrx in E. rewrite Hx in E. destruct (too_big _ _ _); [discriminate E|].
    inv_as E d0 D0. destruct d0 as [mm nn]. inv_as E t T. destruct t. inversion E; subst. reflexivity. }
  destruct (memoryless w1 h w2 rs (ExeMvm res vec mat' m n l) Hr1) as [_ HA]; try (rewrite C1; assumption); auto; [exact Logic.I|].
  rewrite C1 in HA. specialize (HA I7). unfold answer in HA. rewrite E3 in HA. cbn [bind] in HA.
  inv_as HA t T. destruct t as [w4 r4]. inversion HA; subst r4. exists w4, r. split; [exact T|exact HW].
Qed.
End WR.
