(** Refreshes of degraded cells at the level of API calls, in any arithmetic. *)
From Coq Require Import String List ZArith Bool Arith Lia ZifyBool ZifyNat.
From RecordUpdate Require Import RecordSet.
From Verif Require Import Base Lib Hoare Machine Json Config Histogram Adc ReadDisturb Parasitics
  Mapper IntMappers BnnMappers TnnMappers Crossbar Api WriteProofs Shape MvmShape AnaShape ConfigProofs
  Reach Spec DigApi CfgProps Cells Invar StepFacts ApiProps NoiseProps NoiseReal RdSpec RdProps RdApi.
Import ListNotations RecordSetNotations.
Local Open Scope Z_scope.
Local Open Scope out_scope.

Lemma total_sum (l : list Z) : total l = sumZ (List.length l) (fun j => nth j l 0).
Proof.
  induction l as [|v l IH] using rev_ind; [reflexivity|].
  unfold total in *. rewrite fold_right_app. cbn [fold_right]. rewrite app_length. cbn [List.length]. rewrite Nat.add_1_r. cbn [sumZ].
  rewrite app_nth2, Nat.sub_diag by lia. cbn [nth].
  assert (E : forall a b, fold_right Z.add b a = fold_right Z.add 0 a + b).
  { induction a as [|z a IHa]; cbn; intros b; [lia|]. rewrite IHa. lia. }
  rewrite E, IH, Z.add_0_r. f_equal. apply sumZ_ext. intros i Hi. now rewrite app_nth1.
Qed.
Lemma sum_all_sum R C g : wf2 R C g -> sum_all g = sumZ R (fun i => sumZ C (fun j => at2 0 g i j)).
Proof.
  intros Hg. unfold sum_all. rewrite total_sum, map_length, (proj1 Hg). apply sumZ_ext. intros i Hi.
  rewrite (nth_indep _ 0 (total [])) by (rewrite map_length, (proj1 Hg); exact Hi). rewrite map_nth, total_sum.
  now rewrite (wf2_row R C g i Hg Hi).
Qed.
Lemma ones_sum R C g : wf2 R C g -> ones g = sumZ R (fun i => sumZ C (fun j => if at2 0 g i j =? 1 then 1 else 0)).
Proof.
  intros Hg. set (f := fun v : Z => if v =? 1 then 1 else 0).
  assert (W : wf2 R C (map (map f) g)).
  { destruct Hg as [H1 H2]. split; [now rewrite map_length|]. rewrite Forall_map. eapply Forall_impl; [|exact H2].
    intros r E. now rewrite map_length. }
  assert (E : ones g = sum_all (map (map f) g)). { unfold ones, sum_all, total. now rewrite map_map. }
  rewrite E, (sum_all_sum R C _ W). apply sumZ_ext. intros i Hi. apply sumZ_ext. intros j Hj. unfold at2.
  rewrite (nth_indep _ [] (map f [])) by (rewrite map_length, (proj1 Hg); exact Hi). rewrite map_nth.
  rewrite (nth_indep _ 0 (f 0)) by (rewrite map_length, (wf2_row R C g i Hg Hi); exact Hj). now rewrite map_nth.
Qed.

Section G.
Context {MC : Machine}.
Notation at_f := (at2 f0).
Notation at_z := (at2 0).

Lemma onset_spec c x r n : consts c x -> xrd x = Some r -> fst (trans_time r n) = m_onset (V_read c) n.
Proof.
  intros HC Hr. destruct (HC r Hr) as (_ & E1 & E2). unfold trans_time, m_onset, m_invalid, m_fatigue.
  rewrite E1. unfold wear.
  change (calc_exp_tt (V_read c)) with (fdiv (f_of_Z 1) (m_decay (V_read c))).
  destruct (dle (d_of_Z 1) _); reflexivity.
Qed.

(** Current of a stored cell without noise. *)
Definition exactly (c : config) (g : Z) : F := fadd (fmul (f_of_Z g) (fsub (LRS c) (HRS c))) (HRS c).
(** A refresh of the whole crossbar is due after the call with consecutive reads [k]. *)
Definition refreshes (c : config) (x : xbar) : bool :=
  updates c (n_read x + 1) &&
  fle (fmul (mitigation_fp c) (m_onset (V_read c) (n_write x + n_refresh x))) (fmul (f_of_Z (n_read x + 1)) (t_read c)).

Theorem soft_step : forall w x r a w' ans,
  reach w -> wx w = Some x -> xrd x = Some r -> digital_only (wcfg w) = false -> mitigation (wcfg w) = SOFTWARE ->
  step w a = Ok (w', ans) -> multiplied a ans = true ->
  exists x' r', wx w' = Some x' /\ xrd x' = Some r' /\ n_write x' = n_write x /\
  if refreshes (wcfg w) x then
    n_read x' = 0 /\ n_refresh x' = n_refresh x + 1 /\
    (both_arrays (m_mode (wcfg w)) -> n_cell x' = n_cell x + ones (gd_p (xm x)) + ones (gd_m (xm x))) /\
    (~ both_arrays (m_mode (wcfg w)) -> n_cell x' = n_cell x + ones (gd_p (xm x))) /\
    (forall i j,
      cell (cyc_p r') i j = cell (cyc_p r) i j + (if cell (gd_p (xm x)) i j =? 1 then 1 else 0) /\
      (both_arrays (m_mode (wcfg w)) ->
       cell (cyc_m r') i j = cell (cyc_m r) i j + (if cell (gd_m (xm x)) i j =? 1 then 1 else 0)) /\
      (~ both_arrays (m_mode (wcfg w)) -> cell (cyc_m r') i j = cell (cyc_m r) i j)) /\
    (fle (HRS_NOISE (wcfg w)) f0 = true -> fle (LRS_NOISE (wcfg w)) f0 = true ->
     forall i j, Z.of_nat i < M (wcfg w) -> Z.of_nat j < N (wcfg w) ->
      (current (ia_p (xm x')) i j = exactly (wcfg w) (cell (gd_p (xm x)) i j) /\
       (cell (gd_p (xm x)) i j = 0 \/ cell (gd_p (xm x)) i j = 1)) /\
      (m_mode (wcfg w) <> BNN_III -> m_mode (wcfg w) <> BNN_IV ->
       current (ia_m (xm x')) i j = exactly (wcfg w) (cell (gd_m (xm x)) i j) /\
       (cell (gd_m (xm x)) i j = 0 \/ cell (gd_m (xm x)) i j = 1)))
  else n_read x' = n_read x + 1 /\ n_refresh x' = n_refresh x /\ n_cell x' = n_cell x /\ cyc_p r' = cyc_p r /\ cyc_m r' = cyc_m r.
Proof.
  intros w x r a w' ans Hre Hx Hr Hd Em H Hm.
  destruct (mvm_inv _ _ _ _ H Hm) as (y & x' & res & vec & mat & m & n & l & res' & Y & Hx' & Ec & _ & _ & _ & HX).
  assert (y = x) by congruence. subst y.
  pose proof (reach_consts _ _ Hre Hx) as HK. pose proof (reach_good _ Hre) as Hgd.
  pose proof (good_wf _ Hgd) as Hw. pose proof (g_x _ Hgd _ Hx) as Hxo. destruct (HK r Hr) as [Hrd _].
  pose proof (xnn_of_rd w Hre Hd Hrd) as Hi. unfold refreshes, updates. set (c := wcfg w) in *.
  destruct (mvm_soft c x res vec mat m n l (wenv w) res' x' (wenv w') Hw Hxo Hd Hrd HX Em)
      as (r0 & r' & R1 & R2 & Hrs & G1 & G2 & _ & _ & _ & _ & NW & _ & _ & HR).
  assert (r0 = r) by congruence. subst r0. exists x', r'. split; [exact Hx'|]. split; [exact R2|]. split; [exact NW|].
  unfold due in HR. rewrite (onset_spec c x r _ HK Hr) in HR. rewrite Hrd, Hd. cbn [negb andb].
  pose proof (proj1 (xmvm_ok _ _ _ _ _ _ _ _ _ _ _ _ Hw Hxo HX)) as Hxo'.
  pose proof (xo_rd _ _ Hxo' r' R2) as Hrs'. pose proof (xo_shape _ _ Hxo) as Hs.
  assert (HB : is_diff (m_mode c) = true <-> both_arrays (m_mode c)).
  { destruct (m_mode c); try discriminate Hi; cbn; split; easy. }
  destruct (_ && _).
  - destruct HR as (E1 & E2 & E3 & HC & HP). split; [exact E1|]. split; [exact E2|].
    rewrite <- (ones_sum _ _ _ (sh_gp _ _ Hs)), <- (ones_sum _ _ _ (sh_gm _ _ Hs)) in E3.
    split; [|split; [|split]].
    + intros B. rewrite (proj2 HB B) in E3. exact E3.
    + intros B. destruct (is_diff (m_mode c)); [destruct B; now apply HB|]. rewrite E3. ring.
    + intros i j. change cell with (@at2 Z 0). destruct (inside (rowsN c) (colsN c) i j) eqn:Ei.
      * destruct (HC i j) as [HC1 HC2]; try (unfold inside in Ei; lia). split; [exact HC1|]. split; intros B.
        -- rewrite (proj2 HB B) in HC2. exact HC2.
        -- destruct (is_diff (m_mode c)); [destruct B; now apply HB|]. rewrite HC2. apply Z.add_0_r.
      * rewrite (at2_out 0 _ _ _ _ _ (rs_cp _ _ Hrs) Ei), (at2_out 0 _ _ _ _ _ (rs_cp _ _ Hrs') Ei),
            (at2_out 0 _ _ _ _ _ (rs_cm _ _ Hrs) Ei), (at2_out 0 _ _ _ _ _ (rs_cm _ _ Hrs') Ei),
            (at2_out 0 _ _ _ _ _ (sh_gp _ _ Hs) Ei), (at2_out 0 _ _ _ _ _ (sh_gm _ _ Hs) Ei). auto.
    + intros Z1 Z2 i j L1 L2. destruct (HP Hi) as (mp1 & _ & _ & _ & _ & _ & PR). specialize (PR i j).
      assert (Ei : inside (Z.to_nat (M c)) (colsN c) i j = true) by (unfold inside, colsN; lia).
      rewrite Ei in PR. destruct PR as [[_ PP] PM]. rewrite G1 in PP. pose proof (noisy_mask _ _ _ _ PP) as PB.
      apply (noisy_quiet _ _ _ _ Z1 Z2) in PP. split; [exact (conj PP PB)|]. intros N1 N2. destruct (one_array (m_mode c)) eqn:Eo.
      * exfalso. destruct (m_mode c); try discriminate; congruence.
      * destruct PM as [_ PM]. rewrite G2 in PM. pose proof (noisy_mask _ _ _ _ PM) as PB2.
        apply (noisy_quiet _ _ _ _ Z1 Z2) in PM. exact (conj PM PB2).
  - destruct HR as (E1 & E2 & E3 & _ & _ & E4 & E5 & _). auto.
Qed.

(** ** C39 *)
Lemma counts_inside w a m n : is_int (m_mode (wcfg w)) = false -> cfg_wf (wcfg w) ->
  (forall i j, covers a i j = inside m n i j) ->
  forall i j, inside (m * nsplit (wcfg w)) n i j = counts (m_mode (wcfg w)) a i j.
Proof.
  intros Hi Hw Hc i j. unfold counts, nsplit. rewrite Hc. unfold cfg_wf in Hw. unfold inside.
  pose proof (Nat.div2_odd i) as E. assert (Nat.b2n (Nat.odd i) <= 1)%nat by (destruct (Nat.odd i); cbn; lia).
  destruct (m_mode (wcfg w)); try discriminate Hi; try rewrite (Hw eq_refl); try rewrite Hw; cbn [List.length]; lia.
Qed.

(** Too far from LRS for the configured tolerance. *)
Definition off_limits (c : config) (v : F) : bool :=
  flt v (fmul (fsub (f_of_Z 1) (tolerance c)) (LRS c)) || flt (fmul (fadd (f_of_Z 1) (tolerance c)) (LRS c)) v.

Theorem cell_step : forall w x r a w' ans (p : bool),
  reach w -> wx w = Some x -> xrd x = Some r -> mitigation (wcfg w) = CELL_BASED ->
  step w a = Ok (w', ans) -> multiplied a ans = true -> updates (wcfg w) (n_read x + 1) = true ->
  (p = false -> both_arrays (m_mode (wcfg w))) -> fle (LRS_NOISE (wcfg w)) f0 = true ->
  exists x' r', wx w' = Some x' /\ xrd x' = Some r' /\
  forall i j, cell (if p then gd_p (xm x) else gd_m (xm x)) i j = 1 ->
    let reads := cell (if p then con_p r else con_m r) i j + (if counts (m_mode (wcfg w)) a i j then 1 else 0) in
    let cycles := cell (if p then cyc_p r else cyc_m r) i j in
    let faded := fmul (LRS (wcfg w)) (m_fading (V_read (wcfg w)) (t_read (wcfg w)) reads cycles) in
    if off_limits (wcfg w) faded
    then current (if p then ia_p (xm x') else ia_m (xm x')) i j = LRS (wcfg w) /\
         cell (if p then cyc_p r' else cyc_m r') i j = cycles + 1 /\ cell (if p then con_p r' else con_m r') i j = 0
    else current (if p then ia_p (xm x') else ia_m (xm x')) i j = faded /\
         cell (if p then cyc_p r' else cyc_m r') i j = cycles /\ cell (if p then con_p r' else con_m r') i j = reads.
Proof.
  intros w x r a w' ans p Hre Hx Hr Em H Hm Hu Hb Hn.
  destruct (mvm_inv _ _ _ _ H Hm) as (y & x' & res & vec & mat & m & n & l & res' & Y & Hx' & Ec & _ & Hc & _ & HX).
  assert (y = x) by congruence. subst y.
  pose proof (reach_consts _ _ Hre Hx) as HK. pose proof (reach_good _ Hre) as Hgd.
  pose proof (good_wf _ Hgd) as Hw. pose proof (g_x _ Hgd _ Hx) as Hxo.
  unfold updates in Hu. apply andb_prop in Hu as [Hu Hf]. apply andb_prop in Hu as [Hrd Hd]. apply negb_true_iff in Hd.
  pose proof (xnn_of_rd w Hre Hd Hrd) as Hi. pose proof (counts_inside w a m n Hi Hw Hc) as HCt. set (c := wcfg w) in *.
  destruct (mvm_cell c x res vec mat m n l (wenv w) res' x' (wenv w') Hw Hxo Hd Hrd HX Em)
      as (r0 & r' & R1 & R2 & Hrs & G1 & G2 & _ & _ & _ & _ & _ & _ & _ & _ & HR). cbv zeta in HR.
  assert (r0 = r) by congruence. subst r0. exists x', r'. split; [exact Hx'|]. split; [exact R2|].
  rewrite Hf in HR. destruct HR as (_ & ip & im & [F1 F2] & HP & HM & _). pose proof (xo_shape _ _ Hxo) as Hs.
  intros i j Hg. cbv zeta. change cell with (@at2 Z 0) in *.
  assert (IN : forall g, wf2 (rowsN c) (colsN c) g -> at_z g i j = 1 -> inside (rowsN c) (colsN c) i j = true).
  { intros g W E. destruct (inside (rowsN c) (colsN c) i j) eqn:Ei; [reflexivity|]. rewrite (at2_out 0 _ _ _ _ _ W Ei) in E. discriminate. }
  assert (NL : forall y, noisy c (LRS c) 1 y -> y = LRS c).
  { intros y (k1 & k2 & E). unfold add_noise in E. cbn [Z.eqb Pos.eqb] in E. rewrite Hn in E. now inversion E. }
  change (off_limits c) with (outside c).
  destruct p.
  - specialize (HP i j). specialize (F1 i j). rewrite (IN _ (sh_gp _ _ Hs) Hg), Hg in HP, F1. cbn [andb Z.eqb Pos.eqb] in HP, F1.
    rewrite (fac_spec c x r _ _ HK Hr), HCt in F1. rewrite F1, HCt in HP.
    destruct (outside c _); destruct HP as (P1 & P2 & P3); auto.
  - specialize (HM i j). specialize (F2 i j). rewrite (both_diff _ Hi (Hb eq_refl)), (IN _ (sh_gm _ _ Hs) Hg), Hg in HM, F2.
    cbn [andb Z.eqb Pos.eqb] in HM, F2.
    rewrite (fac_spec c x r _ _ HK Hr), HCt in F2. rewrite F2, HCt in HM.
    destruct (outside c _); destruct HM as (P1 & P2 & P3); auto.
Qed.

(** TNN_IV and TNN_V: rows that the MVM does not read. *)
Theorem unread_rows : forall w x r a w' ans i j,
  reach w -> wx w = Some x -> xrd x = Some r -> mitigation (wcfg w) = CELL_BASED ->
  m_mode (wcfg w) = TNN_IV \/ m_mode (wcfg w) = TNN_V ->
  step w a = Ok (w', ans) -> multiplied a ans = true -> updates (wcfg w) (n_read x + 1) = true ->
  fle (LRS_NOISE (wcfg w)) f0 = true ->
  covers a i j = false -> covers a (Nat.div2 i) j = true -> cell (gd_p (xm x)) i j = 1 ->
  let faded := fmul (LRS (wcfg w)) (m_fading (V_read (wcfg w)) (t_read (wcfg w)) (cell (con_p r) i j + 1) (cell (cyc_p r) i j)) in
  exists x' r', wx w' = Some x' /\ xrd x' = Some r' /\
  if off_limits (wcfg w) faded
  then current (ia_p (xm x')) i j = LRS (wcfg w) /\ cell (cyc_p r') i j = cell (cyc_p r) i j + 1
  else current (ia_p (xm x')) i j = faded /\ cell (con_p r') i j = cell (con_p r) i j + 1.
Proof.
  intros w x r a w' ans i j Hre Hx Hr Em Hmo H Hm Hu Hn _ Hc Hg faded.
  destruct (cell_step w x r a w' ans true Hre Hx Hr Em H Hm Hu ltac:(discriminate) Hn) as (x' & r' & X' & R' & HC).
  exists x', r'. split; [exact X'|]. split; [exact R'|]. specialize (HC i j Hg). cbv zeta iota in HC.
  assert (E : counts (m_mode (wcfg w)) a i j = true) by (unfold counts; destruct Hmo as [-> | ->]; exact Hc).
  rewrite E in HC. fold faded in HC. destruct (off_limits _ _); tauto.
Qed.

(** The cell refresh counter counts the cycles added by MVMs. *)
Theorem refresh_total : forall w x r a w' ans,
  reach w -> wx w = Some x -> xrd x = Some r -> step w a = Ok (w', ans) -> multiplied a ans = true ->
  exists x' r', wx w' = Some x' /\ xrd x' = Some r' /\
    n_cell x' - n_cell x = sum_all (cyc_p r') + sum_all (cyc_m r') - sum_all (cyc_p r) - sum_all (cyc_m r).
Proof.
  intros w x r a w' ans Hre Hx Hr H Hm.
  destruct (mvm_inv _ _ _ _ H Hm) as (y & x' & res & vec & mat & m & n & l & res' & Y & Hx' & Ec & _ & Hc & _ & HX).
  assert (y = x) by congruence. subst y.
  pose proof (reach_consts _ _ Hre Hx) as HK. pose proof (reach_good _ Hre) as Hgd.
  pose proof (good_wf _ Hgd) as Hw. pose proof (g_x _ Hgd _ Hx) as Hxo. destruct (HK r Hr) as [Hrd _].
  set (c := wcfg w) in *.
  pose proof (proj1 (xmvm_ok _ _ _ _ _ _ _ _ _ _ _ _ Hw Hxo HX)) as Hxo'.
  destruct (digital_only c) eqn:Hd.
  { destruct (xmvm_digital _ _ _ _ _ _ _ _ _ _ _ _ Hw Hxo Hd HX) as (K & E & HN). exists x', r.
    split; [exact Hx'|]. split; [congruence|]. destruct HN as (_ & _ & HN). lia. }
  assert (SUM : forall r', xrd x' = Some r' -> forall a1 a2,
    (forall i j, (i < rowsN c)%nat -> (j < colsN c)%nat -> at_z (cyc_p r') i j = at_z (cyc_p r) i j + a1 i j /\
        at_z (cyc_m r') i j = at_z (cyc_m r) i j + a2 i j) ->
    sum_all (cyc_p r') + sum_all (cyc_m r') - sum_all (cyc_p r) - sum_all (cyc_m r) =
    sumZ (rowsN c) (fun i => sumZ (colsN c) (fun j => a1 i j)) + sumZ (rowsN c) (fun i => sumZ (colsN c) (fun j => a2 i j))).
  { intros r' R2 a1 a2 HA. pose proof (xo_rd _ _ Hxo' r' R2) as S2. pose proof (xo_rd _ _ Hxo r Hr) as S1.
    rewrite (sum_all_sum _ _ _ (rs_cp _ _ S1)), (sum_all_sum _ _ _ (rs_cm _ _ S1)),
      (sum_all_sum _ _ _ (rs_cp _ _ S2)), (sum_all_sum _ _ _ (rs_cm _ _ S2)).
    assert (A1 : sumZ (rowsN c) (fun i => sumZ (colsN c) (fun j => at_z (cyc_p r') i j)) =
      sumZ (rowsN c) (fun i => sumZ (colsN c) (fun j => at_z (cyc_p r) i j)) + sumZ (rowsN c) (fun i => sumZ (colsN c) (fun j => a1 i j))).
    { rewrite <- sumZ_add. apply sumZ_ext. intros i Hi. rewrite <- sumZ_add. apply sumZ_ext. intros j Hj. now apply HA. }
    assert (A2 : sumZ (rowsN c) (fun i => sumZ (colsN c) (fun j => at_z (cyc_m r') i j)) =
      sumZ (rowsN c) (fun i => sumZ (colsN c) (fun j => at_z (cyc_m r) i j)) + sumZ (rowsN c) (fun i => sumZ (colsN c) (fun j => a2 i j))).
    { rewrite <- sumZ_add. apply sumZ_ext. intros i Hi. rewrite <- sumZ_add. apply sumZ_ext. intros j Hj. now apply HA. }
    lia. }
  assert (Z0 : sumZ (rowsN c) (fun i => sumZ (colsN c) (fun _ => 0)) = 0).
  { assert (Z1 : forall q, sumZ q (fun _ => 0) = 0) by (induction q; cbn; lia).
    transitivity (sumZ (rowsN c) (fun _ => 0)); [|apply Z1]. apply sumZ_ext. intros i _. apply Z1. }
  destruct (mitigation c) eqn:Em.
  - destruct (mvm_soft c x res vec mat m n l (wenv w) res' x' (wenv w') Hw Hxo Hd Hrd HX Em)
      as (r0 & r' & R1 & R2 & Hrs & G1 & G2 & _ & _ & _ & _ & NW & _ & _ & HR).
    assert (r0 = r) by congruence. subst r0. exists x', r'. split; [exact Hx'|]. split; [exact R2|].
    destruct (_ && _).
    + destruct HR as (_ & _ & E3 & HC & _). rewrite (SUM r' R2 _ _ HC), E3.
      destruct (is_diff (m_mode c)); cbn [andb]; lia.
    + destruct HR as (_ & _ & -> & _ & _ & -> & -> & _). lia.
  - destruct (mvm_cell c x res vec mat m n l (wenv w) res' x' (wenv w') Hw Hxo Hd Hrd HX Em)
      as (r0 & r' & R1 & R2 & Hrs & G1 & G2 & _ & _ & _ & _ & _ & _ & _ & _ & HR). cbv zeta in HR.
    assert (r0 = r) by congruence. subst r0. exists x', r'. split; [exact Hx'|]. split; [exact R2|].
    destruct HR as (_ & HR). destruct (_ =? 0).
    + destruct HR as (ip & im & _ & HP & HM & ->).
      rewrite (SUM r' R2 (fun i j => if (at_z (gd_p (xm x)) i j =? 1) && outside c (at_f ip i j) then 1 else 0)
        (fun i j => if is_diff (m_mode c) && ((at_z (gd_m (xm x)) i j =? 1) && outside c (at_f im i j)) then 1 else 0)).
      * destruct (is_diff (m_mode c)); cbn [andb]; lia.
      * intros i j Hi Hj. assert (Ei : inside (rowsN c) (colsN c) i j = true) by (unfold inside; lia).
        specialize (HP i j). specialize (HM i j). rewrite Ei in HP, HM. cbn [andb] in HP, HM. split.
        -- destruct (_ && _); destruct HP as (_ & -> & _); [reflexivity|symmetry; apply Z.add_0_r].
        -- destruct (is_diff _ && _); destruct HM as (_ & -> & _); [reflexivity|symmetry; apply Z.add_0_r].
    + destruct HR as (-> & -> & -> & _). lia.
  - destruct (mvm_off c x res vec mat m n l (wenv w) res' x' (wenv w') Hw Hxo Hd Hrd HX Em)
      as (r0 & r' & R1 & R2 & Hrs & _ & _ & _ & _ & _ & _ & NC & _ & _ & HR).
    assert (r0 = r) by congruence. subst r0. exists x', r'. split; [exact Hx'|]. split; [exact R2|].
    rewrite NC. destruct (_ =? 0); destruct HR as [-> _]; cbn [cyc_p cyc_m RecordSet.set];
    try change (cyc_p (r <| rd_oob := _ |>)) with (cyc_p r); try change (cyc_m (r <| rd_oob := _ |>)) with (cyc_m r); lia.
Qed.
End G.
