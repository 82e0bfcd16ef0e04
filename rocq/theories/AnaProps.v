(** Proofs of the property theorems of P_Analog.v in exact arithmetic. *)
From Coq Require Import String List ZArith Reals Lra Bool Arith Lia ZifyBool ZifyNat.
From RecordUpdate Require Import RecordSet.
From Flocq Require Import Core.
From Verif Require Import Base Lib Hoare Machine Json Config Histogram Adc ReadDisturb Parasitics
  Mapper Crossbar Api WriteProofs Shape MvmShape DigMvm DigModes DigWrite AnaShape StepFacts
  ConfigProofs Reach Spec DigApi Invar StoreProps CfgProps RMachine RSpec AdcProps
  AnaReal AnaXnn AnaInt AnaWrite AnaSpec AnaApi AnaMvm.
Import ListNotations RecordSetNotations.
Local Open Scope R_scope.
Local Open Scope out_scope.

Ltac Zify.zify_post_hook ::= idtac.

Section AR.
Context (nz : bool -> nat -> R) (s : bool).
#[local] Hint Extern 0 Machine => exact (R_machine nz s) : typeclass_instances.
Notation len := List.length.
Notation RM := (R_machine nz s).

(** ** Converters *)
Lemma conv_inf dl : conv (fun x sc off => (x + off) * sc) (fun _ => True) (fun _ => True) (fun _ => 0) dl.
Proof.
  constructor.
  - intros. rewrite Rminus_diag_eq by reflexivity. rewrite Rabs_R0. lra.
  - right. reflexivity.
  - intros. lra.
Qed.

Section Fin.
Context (k : Z) (mn mx dl : R) (Hk : (2 <= k)%Z) (Hr : mn < mx) (Hdl : 0 < dl).
Notation cvf := (fun x sc off : R => round_away (pick k mn mx (x + off) * sc)).
Definition ratio : R := step_size k mn mx / 2 / dl.
Lemma ratio_pos : 0 < ratio.
Proof.
  unfold ratio. pose proof (@step_pos nz s k mn mx Hk Hr).
  apply Rdiv_lt_0_compat; [|exact Hdl]. lra.
Qed.
Lemma pick_scaled t sc : mn <= t <= mx -> Rabs (pick k mn mx t * sc - t * sc) <= Rabs (sc * dl) * ratio.
Proof.
  intros Ht. replace (pick k mn mx t * sc - t * sc) with ((pick k mn mx t - t) * sc) by ring.
  rewrite !Rabs_mult, (Rabs_pos_eq dl) by lra. unfold ratio.
  replace (Rabs sc * dl * (step_size k mn mx / 2 / dl)) with ((step_size k mn mx / 2) * Rabs sc) by (field; lra).
  apply Rmult_le_compat_r; [apply Rabs_pos|]. now apply (@pick_err nz s).
Qed.
Lemma away_half x : Rabs (round_away x - x) <= / 2.
Proof. rewrite <- away_eq, Rabs_minus_sym. apply near_half. Qed.

Lemma conv_fin : conv cvf (fun y => mn <= y <= mx) (fun _ => True) (fun g => Rabs g * ratio + / 2) dl.
Proof.
  pose proof ratio_pos as HR. constructor.
  - intros x sc off Hx _. rewrite Rabs_Rabsolu.
    pose proof (pick_scaled (x + off) sc Hx) as A. pose proof (away_half (pick k mn mx (x + off) * sc)) as B.
    replace (round_away (pick k mn mx (x + off) * sc) - (x + off) * sc) with
      ((round_away (pick k mn mx (x + off) * sc) - pick k mn mx (x + off) * sc) + (pick k mn mx (x + off) * sc - (x + off) * sc)) by ring.
    eapply Rle_trans; [apply Rabs_triang|]. lra.
  - left. intros. eexists. rewrite <- away_eq. reflexivity.
  - intros g. pose proof (Rabs_pos g). assert (0 <= Rabs g * ratio) by (apply Rmult_le_pos; lra). lra.
Qed.

Definition sharp (g : R) : R := if Rlt_dec (Rabs g * ratio) (/ 2) then 0 else Rabs g * ratio + / 2.
Lemma conv_sharp : conv cvf (fun y => mn <= y <= mx) (fun y => exists X, y = IZR X) sharp dl.
Proof.
  pose proof ratio_pos as HR. destruct conv_fin as [C1 C2 C3]. constructor.
  - intros x sc off Hx (X & EX). unfold sharp. destruct (Rlt_dec _ _) as [L|L].
    2: { now apply C1. }
    rewrite Rabs_Rabsolu in L. pose proof (pick_scaled (x + off) sc Hx) as A. rewrite EX in A |- *.
    rewrite <- away_eq. rewrite (near_imp _ X) by lra. rewrite Rminus_diag_eq by reflexivity. rewrite Rabs_R0. lra.
  - exact C2.
  - intros g. unfold sharp. destruct (Rlt_dec _ _); [lra|apply C3].
Qed.
End Fin.

(** ** Error bounds as sums over the gains *)
Definition total_eps (eps : R -> R) (l : list Z) : R := fold_right Rplus 0 (map (fun g => eps (IZR g)) l).
Lemma total_eps_app eps a b : total_eps eps (a ++ b) = total_eps eps a + total_eps eps b.
Proof. unfold total_eps. induction a; cbn; [lra|]. rewrite IHa. lra. Qed.
Lemma total_eps_seq eps f k : total_eps eps (map f (seq 0 k)) = sumR k (fun q => eps (IZR (f q))).
Proof.
  induction k as [|k IH]; [reflexivity|]. rewrite seq_S, map_app, total_eps_app, IH. cbn. unfold total_eps. cbn. lra.
Qed.
Lemma total_eps_flat eps (f : nat -> list Z) k : total_eps eps (flat_map f (seq 0 k)) = sumR k (fun b => total_eps eps (f b)).
Proof.
  induction k as [|k IH]; [reflexivity|]. rewrite seq_S, flat_map_app, total_eps_app, IH. cbn. rewrite app_nil_r. reflexivity.
Qed.
Lemma bit_gains_eq (c : @config RM) eps k : Forall (fun s => 0 <= s)%Z (SPLIT c) -> split_covers c -> is_int (m_mode c) = true ->
  sumR (Z.to_nat k) (eb nz s c eps) = total_eps eps (bit_gains c k).
Proof.
  intros Hnn Hcov Hi. unfold bit_gains. rewrite total_eps_flat. apply sumR_ext. intros b Hb. unfold eb.
  rewrite total_eps_seq. apply sumR_ext. intros q Hq. unfold gain, top.
  destruct (place_value nz s c q Hnn Hcov Hi Hq) as (-> & _). reflexivity.
Qed.
Lemma errs_eq (c : @config RM) eps hf : Forall (fun s => 0 <= s)%Z (SPLIT c) -> split_covers c ->
  (if is_int (m_mode c) then ierr nz s c eps hf else xerr nz s c eps) =
  total_eps eps (gains c) + match m_mode c with I_UINT_W_OFFS => hf | _ => 0 end.
Proof.
  intros Hnn Hcov. unfold ierr, xerr, gains.
  assert (B : is_int (m_mode c) = true -> forall k, sumR (Z.to_nat k) (eb nz s c eps) = total_eps eps (bit_gains c k))
    by (intros; now apply bit_gains_eq).
  destruct (m_mode c); cbn [is_int] in *; cbv zeta; rewrite ?B by reflexivity; rewrite ?total_eps_app; unfold total_eps; cbn; try lra.
Qed.

Lemma core_keeps (c c' : @config RM) : core c c' ->
  digital_only c' = digital_only c /\ read_disturb c' = read_disturb c /\ adc_profile c' = adc_profile c /\
  m_mode c' = m_mode c /\ SPLIT c' = SPLIT c /\ W_BIT c' = W_BIT c /\ M c' = M c /\ N c' = N c /\
  @HRS RM c' = @HRS RM c /\ @LRS RM c' = @LRS RM c /\ adc_type c' = adc_type c /\ resolution c' = resolution c /\
  adc_calib_mode c' = adc_calib_mode c.
Proof. intros (i & v & d2 & c2 & bs & wr & p & ->). repeat split. Qed.

(** ** Write, then a quiet history *)
Lemma ideal_history (w : @world RM) x mat m n : reach w -> wx w = Some x -> ideal_cells (wcfg w) x ->
  split_covers (wcfg w) -> dims_in (wcfg w) m n -> all_entries (weight_in (wcfg w)) mat m n -> sums_fit (wcfg w) n ->
  exists w1, step w (CpyMtrx mat m n) = Ok (w1, RCode 0) /\
    forall h w2 rs, Forall quiet h -> run w1 h = Ok (w2, rs) -> always no_variation w1 h ->
      good w2 /\ core (wcfg w) (wcfg w2) /\ no_variation (wcfg w2) /\
      exists x2, wx w2 = Some x2 /\ ready (wcfg w2) x2 mat (Z.to_nat m) (Z.to_nat n).
Proof.
  intros Hr Hx (I1 & I2 & I3 & I4 & I5 & I6 & I7) Hcov Hdim Hent Hsum.
  destruct (cpy_ready w x mat m n Hr Hx I1 I2 I3 I6 I4 I5 Hcov Hdim Hent Hsum) as (w1 & x1 & E1 & G1 & C1 & X1 & R1).
  exists w1. split; [exact E1|]. intros h w2 rs Hq Hrun Hal.
  assert (Hend : no_variation (wcfg w2)) by (apply (Hal h [] w2 rs); [now rewrite app_nil_r|exact Hrun]).
  rewrite <- C1 in R1, I1, I2.
  destruct (run_ready h mat (Z.to_nat m) (Z.to_nat n) w1 w2 rs x1 G1 X1 Hq Hrun I1 I2) as (G2 & K2 & X2); auto.
  - intros h1 h2 w' rs' E R _. exact (proj1 (Hal h1 h2 w' rs' E R)).
  - rewrite C1 in K2. auto.
Qed.

Lemma carry (c c' : @config RM) m n mat : core c c' -> slices_wide c -> dims_in c m n -> split_covers c ->
  all_entries (weight_in c) mat m n -> slices_wide c' /\ dims_in c' m n /\ split_covers c' /\ all_entries (weight_in c') mat m n.
Proof.
  intros Hc H1 H2 H3 H4. destruct (core_domains c c' Hc) as (W1 & W2 & W3 & W4 & W5).
  destruct (core_keeps c c' Hc) as (_ & _ & _ & K1 & K2 & _). split; [unfold slices_wide; now rewrite K1, K2|].
  split; [now apply W5|]. split; [now apply W2|]. now rewrite W1.
Qed.

Lemma within_0 r res mat vec m n : (m <= len res)%nat -> within 0 r res mat vec m n -> r = plus_product res mat vec m n.
Proof.
  intros Hm [L H]. unfold plus_product. apply (nth_ext _ _ 0%Z 0%Z).
  - now rewrite map_length, seq_length.
  - intros i Hi. match goal with |- _ = nth i (map ?f _) 0%Z => set (g := f) end.
    rewrite (nth_indep (map g (seq 0 (len res))) 0%Z (g O)) by (rewrite map_length, seq_length; lia).
    rewrite map_nth, seq_nth by lia. unfold g. cbn [plus]. destruct (H i) as [H1 H2].
    destruct (i <? m)%nat eqn:E.
    + specialize (H1 ltac:(lia)). apply eq_IZR. destruct (Rabs_def2 _ _ (Rle_lt_trans _ _ 1 H1 ltac:(lra))).
      rewrite <- minus_IZR in *. set (d := (nth i r 0 - (nth i res 0 + product mat vec n i))%Z) in *.
      assert (d < 1 /\ -1 < d)%Z by (split; apply lt_IZR; [lra|simpl; lra]). f_equal. unfold d in *. lia.
    + rewrite H2 by lia. lia.
Qed.

Lemma room_0 (c : @config RM) res m n : room c res m n -> room_for 0 c res m n.
Proof.
  intros [H1 [H2 H3]]. split; [exact H1|]. split; [exact H2|]. intros i Hi. rewrite Rplus_0_r. apply IZR_le. now apply H3.
Qed.

(** C21. *)
Lemma ideal_exact : forall (w : @world RM) x mat m n,
  reach w -> wx w = Some x -> ideal_cells (wcfg w) x -> adc_type (wcfg w) = INF_ADC ->
  @HRS RM (wcfg w) <> @LRS RM (wcfg w) -> (m_mode (wcfg w) = I_OFFS_W_DIFF -> s = false) ->
  split_covers (wcfg w) -> slices_wide (wcfg w) -> dims_in (wcfg w) m n ->
  all_entries (weight_in (wcfg w)) mat m n -> sums_fit (wcfg w) n ->
  exists w1, step w (CpyMtrx mat m n) = Ok (w1, RCode 0) /\
    forall h w2 rs res vec mat' l, Forall quiet h -> run w1 h = Ok (w2, rs) -> always no_variation w1 h ->
      widths_fit (wcfg w2) -> all_first (input_in (wcfg w2)) vec n -> room (wcfg w2) res m n ->
      exists w3, step w2 (ExeMvm res vec mat' m n l) =
        Ok (w3, RRes 0 (plus_product res mat vec (Z.to_nat m) (Z.to_nat n))).
Proof.
  intros w x mat m n Hr Hx HI Hadc Hdl Hst Hcov Hsw Hdim Hent Hsum.
  destruct (ideal_history w x mat m n Hr Hx HI Hcov Hdim Hent Hsum) as (w1 & E1 & HH).
  exists w1. split; [exact E1|]. intros h w2 rs res vec mat' l Hq Hrun Hal Hwid Hin Hroom.
  destruct (HH h w2 rs Hq Hrun Hal) as (G2 & K2 & (V1 & V2) & x2 & X2 & R2).
  destruct (carry _ _ m n mat K2 Hsw Hdim Hcov Hent) as (Hsw' & Hdim' & Hcov' & Hent').
  destruct (core_keeps _ _ K2) as (F1 & F2 & F3 & F4 & F5 & F6 & F7 & F8 & F9 & F10 & F11 & F12 & F13).
  destruct HI as (I1 & I2 & I3 & I4 & I5 & I6 & I7).
  destruct (mvm_ready nz s w2 x2 mat res vec mat' m n l (fun x sc off => (x + off) * sc) (fun _ => True) (fun _ => True)
    (fun _ => 0) 0 0) as (w3 & r & E3 & W); auto.
  - now rewrite F1.
  - now rewrite F2.
  - now rewrite F4, F3.
  - rewrite F9, F10. intros E. apply Hdl. lra.
  - now rewrite F4.
  - intros y sc off. pose proof (sh_adc _ _ (xo_shape _ _ (g_x _ G2 x2 X2))) as SA. rewrite F11, Hadc in SA.
    unfold adc_new in SA. destruct (d_trunc _); [|discriminate]. destruct (in32 _); [|discriminate]. inversion SA. reflexivity.
  - apply conv_inf.
  - lra.
  - now apply room_0.
  - rewrite errs_eq; [|now apply split_nonneg|exact Hcov'].
    assert (Z : forall l, total_eps (fun _ => 0) l = 0) by (unfold total_eps; induction l0; cbn; lra).
    rewrite Z. destruct (m_mode (wcfg w2)); lra.
  - exists w3. rewrite E3. do 4 f_equal. apply within_0; [|exact W].
    destruct Hroom as [_ [HL _]]. lia.
Qed.

(** ** Finite converters *)
Lemma levels_up (ty : adc_ty) r : ty <> INF_ADC -> (2 <= n_levels ty r)%Z -> (r <= 30)%Z ->
  (1 <= r <= 30 /\ 2 <= n_levels ty r <= 2 ^ 30)%Z.
Proof.
  intros Ht H Hr. assert (R1 : (1 <= r)%Z).
  { destruct (Z_le_gt_dec 1 r); [assumption|]. exfalso. assert (2 ^ r <= 1)%Z.
    { destruct (Z.eq_dec r 0) as [->|]; [cbn; lia|]. rewrite Z.pow_neg_r by lia. lia. }
    destruct ty; cbn [n_levels] in H; lia. }
  pose proof (@pow_bounds nz s r ltac:(lia)). destruct ty; [congruence| |]; cbn [n_levels] in *; lia.
Qed.

Section F.
Context (w : @world RM) (x : @xbar RM) (m n : Z) (l : string).
Notation c := (wcfg w).
Notation dl := (@LRS RM c - @HRS RM c).
Notation ty := (adc_type c).
Notation mx := (IZR (N c) * match ty with SYM_RANGE_ADC => dl | _ => @LRS RM c end).
Notation mn := (match ty with SYM_RANGE_ADC => - mx | _ => 0 end).
Notation k := (n_levels ty (resolution c)).
Context (Hg : good w) (Hx : wx w = Some x) (Hd : digital_only c = false) (Ht : ty <> INF_ADC) (Hcal : adc_calib_mode c = CAL_MAX)
  (Hk : (2 <= k)%Z) (Hr : (resolution c <= 30)%Z) (H1 : 0 <= @HRS RM c) (H2 : @HRS RM c < @LRS RM c) (Hdim : dims_in c m n)
  (Hm4 : m_mode c <> TNN_IV) (Hm5 : m_mode c <> TNN_V).

Lemma fin_supported : supported c.
Proof using Hg Ht.
  clear -Hg Ht.
  destruct (good_origin _ Hg) as [(j & c0 & E)|E]; [now apply apply_supported in E|].
  exfalso. rewrite E in Ht. now apply Ht.
Qed.
Lemma fin_N : (1 <= N c)%Z.
Proof using Hg Ht.
  clear -Hg Ht. apply fin_supported. Qed.
Lemma fin_range : mn < mx.
Proof using Hg Ht H1 H2.
  clear -Hg Ht H1 H2.
  pose proof (IZR_le 1 _ fin_N) as P. destruct ty; [congruence| |].
  - assert (0 < IZR (N c) * dl) by (apply Rmult_lt_0_compat; lra). lra.
  - apply Rmult_lt_0_compat; lra.
Qed.
Lemma fin_adc y sc off : @adc1 RM c (mp_adc (xm x)) l y sc off = Ok (round_away (pick k mn mx (y + off) * sc)).
Proof using Hg Hx Ht Hcal Hk Hr.
  clear -Hg Hx Ht Hcal Hk Hr.
  destruct (levels_up _ _ Ht Hk Hr) as [R1 R2].
  pose proof (sh_adc _ _ (xo_shape _ _ (g_x _ Hg x Hx))) as SA.
  rewrite new_ok in SA by (auto; lia). inversion SA as [E].
  apply adc1_pick; auto. unfold adc_range. rewrite Hcal. destruct ty; [congruence| |]; reflexivity.
Qed.
Lemma fin_ok :
  (0 <= @HRS RM c /\ 0 < dl /\ m_mode c <> TNN_IV /\ m_mode c <> TNN_V /\
   (is_diff (m_mode c) = true -> forall y, Rabs y <= INR (Z.to_nat n) * dl -> mn <= y <= mx) /\
   (is_diff (m_mode c) = false -> forall y, 0 <= y <= INR (Z.to_nat n) * @LRS RM c -> mn <= y <= mx)).
Proof using Hg Hd Ht H1 H2 Hdim Hm4 Hm5.
  clear -Hg Hd Ht H1 H2 Hdim Hm4 Hm5.
  pose proof fin_supported as HS. destruct HS as (_ & _ & _ & _ & HS). destruct (HS Hd) as (_ & _ & S1 & S2 & _).
  assert (HN : INR (Z.to_nat n) <= IZR (N c)).
  { rewrite INR_IZR_INZ. apply IZR_le. destruct Hdim. lia. }
  pose proof (pos_INR (Z.to_nat n)) as HP.
  split; [exact H1|]. split; [lra|]. split; [exact Hm4|]. split; [exact Hm5|]. split; intros Hdf y Hy.
  - assert (ty = SYM_RANGE_ADC) as ->.
    { destruct ty; [congruence|reflexivity|]. exfalso. specialize (S2 eq_refl).
      cbn in S2. destruct (m_mode c); try discriminate Hdf; intuition discriminate. }
    assert (INR (Z.to_nat n) * dl <= IZR (N c) * dl) by (apply Rmult_le_compat_r; lra).
    unfold Rabs in Hy. destruct (Rcase_abs y); lra.
  - assert (ty = POS_RANGE_ONLY_ADC) as ->.
    { destruct ty; [congruence| |reflexivity]. exfalso. apply (S1 eq_refl).
      cbn. destruct (m_mode c); try discriminate Hdf; tauto. }
    assert (INR (Z.to_nat n) * @LRS RM c <= IZR (N c) * @LRS RM c) by (apply Rmult_le_compat_r; lra). lra.
Qed.
Lemma fin_ratio : ratio k mn mx dl = half_step c.
Proof using Ht Hk H2.
  clear -Ht Hk H2.
  unfold ratio, half_step, step_size.
  assert (P : (1 <= k - 1)%Z) by lia. apply (IZR_le 1) in P. destruct ty; [congruence| |]; cbn [n_levels] in *.
  - replace (2 ^ resolution c - 1 - 1)%Z with (2 ^ resolution c - 2)%Z in * by ring. field. lra.
  - field. lra.
Qed.
End F.

Lemma eps_le f g q : (forall z, In z q -> f (IZR z) <= g (IZR z)) -> total_eps f q <= total_eps g q.
Proof.
  unfold total_eps. induction q as [|a q IH]; cbn; intros H; [lra|].
  pose proof (H a (or_introl eq_refl)). specialize (IH (fun z Hz => H z (or_intror Hz))). lra.
Qed.
Lemma gains_nonneg (c : @config RM) : Forall (fun s => 0 <= s)%Z (SPLIT c) -> split_covers c -> Forall (fun g => 0 <= g)%Z (gains c).
Proof.
  intros Hnn Hcov.
  assert (B : is_int (m_mode c) = true -> forall k, Forall (fun g => 0 <= g)%Z (bit_gains c k)).
  { intros Hi k. unfold bit_gains. apply Forall_forall. intros g Hg. apply in_flat_map in Hg. destruct Hg as (b & _ & Hg).
    apply in_map_iff in Hg. destruct Hg as (q & <- & Hq). apply in_seq in Hq.
    destruct (place_value nz s c q Hnn Hcov Hi ltac:(unfold nsplit; lia)) as (_ & P1 & P2 & _).
    assert (0 < 2 ^ Z.of_nat b)%Z by (apply Z.pow_pos_nonneg; lia). assert (0 < 2 ^ position c q)%Z by (apply Z.pow_pos_nonneg; lia).
    assert (1 <= 2 ^ nth q (SPLIT c) 0)%Z by (apply (Z.pow_le_mono_r 2 0); lia). nia. }
  unfold gains. destruct (m_mode c); cbn [is_int] in B; try (now apply B); try (apply Forall_app; split; now apply B);
    repeat constructor; lia.
Qed.

(** ** Currents of the rows *)
Lemma row_sum_between n f lo hi : (forall j, (j < n)%nat -> lo <= f j <= hi) -> INR n * lo <= row_sum n f <= INR n * hi.
Proof.
  unfold row_sum. intros H. induction n as [|n IH]; [cbn; lra|]. rewrite seq_S, map_app, S_INR.
  assert (E : forall a b, fold_right Rplus 0 (a ++ b) = fold_right Rplus 0 a + fold_right Rplus 0 b).
  { induction a; intros; cbn; [lra|]. rewrite IHa. lra. }
  rewrite E. cbn. pose proof (H n ltac:(lia)). specialize (IH (fun j Hj => H j ltac:(lia))). lra.
Qed.
Lemma cells_between (c : @config RM) x mat m n i q j : ready c x mat m n -> @HRS RM c <= @LRS RM c ->
  (i < m)%nat -> (q < if is_int (m_mode c) then len (SPLIT c) else 1)%nat -> (j < n)%nat ->
  let r := (i * (if is_int (m_mode c) then len (SPLIT c) else 1) + q)%nat in
  @HRS RM c <= current (ia_p (xm x)) r j <= @LRS RM c /\
  (one_array (m_mode c) = false -> @HRS RM c <= current (ia_m (xm x)) r j <= @LRS RM c).
Proof.
  assert (T : forall lo hi y z : R, y = z -> lo <= z <= hi -> lo <= y <= hi) by (intros; subst; auto).
  intros [R1 R2 R3 R4 R5 R6] HL Hi Hq Hj. cbv zeta. unfold current. change (@f0 RM) with 0 in *.
  pose proof (st_ok _ _ _ _ _ R1 i j Hi Hj) as OK. unfold cellok in OK.
  assert (B : forall g t, (0 <= g <= t)%Z -> @HRS RM c <= @level RM g (@fdiv RM (@fsub RM (@LRS RM c) (@HRS RM c)) (@f_of_Z RM t)) (@HRS RM c) <= @LRS RM c).
  { intros g t [G1 G2]. unfold level. change (@HRS RM c <= IZR g * ((@LRS RM c - @HRS RM c) / IZR t) + @HRS RM c <= @LRS RM c).
    destruct (Z.eq_dec t 0) as [->|Ht].
    - replace g with 0%Z by lia. lra.
    - assert (0 < t)%Z by lia. apply IZR_le in G1, G2. apply IZR_lt in H. set (d := @LRS RM c - @HRS RM c).
      assert (0 <= d) by (unfold d; lra).
      assert (K : 0 <= IZR g * (d / IZR t) <= d).
      { replace (IZR g * (d / IZR t)) with (d * (IZR g / IZR t)) by (field; lra).
        assert (0 <= IZR g / IZR t <= 1).
        { split; [apply Rle_mult_inv_pos; lra|]. apply (Rmult_le_reg_r (IZR t)); [lra|]. unfold Rdiv. rewrite Rmult_assoc, Rinv_l by lra. lra. }
        nra. }
      unfold d in K. unfold d. lra. }
  destruct (is_int (m_mode c)) eqn:E.
  - destruct OK as [OK _]. destruct (OK q Hq) as [O1 O2]. destruct (R4 eq_refl i q j Hi Hq Hj) as [T1 T2].
    destruct (R5 eq_refl i q j Hi Hq Hj) as [I1 I2]. unfold nsplit in *. split.
    + eapply T; [exact I1|]. apply B. split; [exact O1|exact T1].
    + intros Ho. eapply T; [exact (I2 Ho)|]. apply B. split; [exact O2|exact T2].
  - destruct OK as [O1 O2]. replace (i * 1 + q)%nat with i by lia. destruct (R6 eq_refl i j Hi Hj) as [[I1 _] I2].
    assert (B1 : forall g, (0 <= g <= 1)%Z -> @HRS RM c <= @level RM g (@fsub RM (@LRS RM c) (@HRS RM c)) (@HRS RM c) <= @LRS RM c).
    { intros g Hg0. unfold level. change (@HRS RM c <= IZR g * (@LRS RM c - @HRS RM c) + @HRS RM c <= @LRS RM c).
      assert (G : g = 0%Z \/ g = 1%Z) by lia. destruct G as [-> | ->]; lra. }
    split; [eapply T; [exact I1|]; now apply B1|]. intros Ho. destruct (I2 Ho) as [I3 _]. eapply T; [exact I3|]. now apply B1.
Qed.

Lemma in_range : forall (w : @world RM) x mat m n,
  reach w -> wx w = Some x -> ideal_cells (wcfg w) x ->
  adc_type (wcfg w) <> INF_ADC -> adc_calib_mode (wcfg w) = CAL_MAX ->
  0 < @HRS RM (wcfg w) <= @LRS RM (wcfg w) ->
  split_covers (wcfg w) -> dims_in (wcfg w) m n ->
  all_entries (weight_in (wcfg w)) mat m n -> sums_fit (wcfg w) n ->
  exists w1, step w (CpyMtrx mat m n) = Ok (w1, RCode 0) /\
    forall h w2 rs l, Forall quiet h -> run w1 h = Ok (w2, rs) -> always no_variation w1 h ->
      exists x2 mn mx, wx w2 = Some x2 /\ adc_range (wcfg w2) (adc_type (wcfg w2)) l = Some (mn, mx) /\
      forall i q, let k := (if is_int (m_mode (wcfg w2)) then len (SPLIT (wcfg w2)) else 1)%nat in
        (i < Z.to_nat m)%nat -> (q < k)%nat ->
        (adc_type (wcfg w2) = SYM_RANGE_ADC -> forall a, (forall j, In (a j) [-1; 0; 1]) ->
           mn <= diff_current x2 (i * k + q) (Z.to_nat n) a <= mx) /\
        (adc_type (wcfg w2) = POS_RANGE_ONLY_ADC -> forall a b, (forall j, a j && b j = false) ->
           (In (m_mode (wcfg w2)) [I_UINT_W_OFFS; BNN_III; BNN_IV] -> forall j, b j = false) ->
           mn <= single_current x2 (i * k + q) (Z.to_nat n) a b <= mx).
Proof.
  intros w x mat m n Hr Hx HI Hadc Hcal Hdl Hcov Hdim Hent Hsum.
  destruct (ideal_history w x mat m n Hr Hx HI Hcov Hdim Hent Hsum) as (w1 & E1 & HH).
  exists w1. split; [exact E1|]. intros h w2 rs l Hq Hrun Hal.
  destruct (HH h w2 rs Hq Hrun Hal) as (G2 & K2 & (V1 & V2) & x2 & X2 & R2).
  destruct (core_keeps _ _ K2) as (F1 & F2 & F3 & F4 & F5 & F6 & F7 & F8 & F9 & F10 & F11 & F12 & F13).
  destruct (core_domains _ _ K2) as (_ & _ & _ & _ & W5). apply W5 in Hdim.
  destruct HI as (I1 & _). rewrite <- F1 in I1.
  rewrite <- F11 in Hadc. rewrite <- F13 in Hcal. rewrite <- F9, <- F10 in Hdl.
  pose proof (fin_supported w2 G2 Hadc) as (_ & _ & _ & _ & HS). destruct (HS I1) as (_ & _ & S1 & S2 & _).
  assert (HN : INR (Z.to_nat n) <= IZR (N (wcfg w2))).
  { rewrite INR_IZR_INZ. apply IZR_le. destruct Hdim. lia. }
  pose proof (pos_INR (Z.to_nat n)) as HP.
  exists x2. destruct (adc_type (wcfg w2)) eqn:Et; [congruence| |].
  - exists (- (IZR (N (wcfg w2)) * (@LRS RM (wcfg w2) - @HRS RM (wcfg w2)))), (IZR (N (wcfg w2)) * (@LRS RM (wcfg w2) - @HRS RM (wcfg w2))).
    split; [exact X2|]. split; [unfold adc_range; rewrite Hcal; reflexivity|]. intros i q k Hi Hqk. split; [|discriminate].
    intros _ a Ha. unfold diff_current.
    assert (Ho : one_array (m_mode (wcfg w2)) = false).
    { specialize (S1 eq_refl). destruct (m_mode (wcfg w2)); try reflexivity; exfalso; apply S1; cbn; tauto. }
    set (d := @LRS RM (wcfg w2) - @HRS RM (wcfg w2)).
    assert (B : INR (Z.to_nat n) * - d <= row_sum (Z.to_nat n) (fun j => a j * (current (ia_p (xm x2)) (i * k + q) j - current (ia_m (xm x2)) (i * k + q) j)) <= INR (Z.to_nat n) * d).
    { apply row_sum_between. intros j Hj.
      destruct (cells_between _ _ _ _ _ i q j R2 (proj2 Hdl) Hi Hqk Hj) as [B1 B2]. specialize (B2 Ho). unfold k, d.
      destruct (Ha j) as [<-|[<-|[<-|[]]]]; lra. }
    assert (0 <= d) by (unfold d; lra). assert (INR (Z.to_nat n) * d <= IZR (N (wcfg w2)) * d) by (apply Rmult_le_compat_r; lra). lra.
  - exists 0, (IZR (N (wcfg w2)) * @LRS RM (wcfg w2)).
    split; [exact X2|]. split; [unfold adc_range; rewrite Hcal; reflexivity|]. intros i q k Hi Hqk. split; [discriminate|].
    intros _ a b Hab Hb. unfold single_current.
    assert (B : INR (Z.to_nat n) * 0 <= row_sum (Z.to_nat n) (fun j => (if a j then current (ia_p (xm x2)) (i * k + q) j else 0) +
      (if b j then current (ia_m (xm x2)) (i * k + q) j else 0)) <= INR (Z.to_nat n) * @LRS RM (wcfg w2)).
    { apply row_sum_between. intros j Hj.
      destruct (cells_between _ _ _ _ _ i q j R2 (proj2 Hdl) Hi Hqk Hj) as [B1 B2]. unfold k. specialize (Hab j).
      destruct (one_array (m_mode (wcfg w2))) eqn:Ho.
      - rewrite Hb by (destruct (m_mode (wcfg w2)); try discriminate Ho; cbn; tauto). destruct (a j); lra.
      - specialize (B2 eq_refl). destruct (a j), (b j); try discriminate Hab; lra. }
    assert (INR (Z.to_nat n) * @LRS RM (wcfg w2) <= IZR (N (wcfg w2)) * @LRS RM (wcfg w2)) by (apply Rmult_le_compat_r; lra). lra.
Qed.

(** C28. *)
Lemma never_clips : forall (w : @world RM) x mat m n,
  reach w -> wx w = Some x -> ideal_cells (wcfg w) x ->
  adc_type (wcfg w) <> INF_ADC -> adc_calib_mode (wcfg w) = CAL_MAX ->
  (2 <= n_levels (adc_type (wcfg w)) (resolution (wcfg w)))%Z -> (resolution (wcfg w) <= 30)%Z ->
  m_mode (wcfg w) <> TNN_IV -> m_mode (wcfg w) <> TNN_V ->
  0 < @HRS RM (wcfg w) < @LRS RM (wcfg w) -> (m_mode (wcfg w) = I_OFFS_W_DIFF -> s = false) ->
  split_covers (wcfg w) -> slices_wide (wcfg w) -> dims_in (wcfg w) m n ->
  all_entries (weight_in (wcfg w)) mat m n -> sums_fit (wcfg w) n ->
  exists w1, step w (CpyMtrx mat m n) = Ok (w1, RCode 0) /\
    forall h w2 rs res vec mat' l, Forall quiet h -> run w1 h = Ok (w2, rs) -> always no_variation w1 h ->
      widths_fit (wcfg w2) -> all_first (input_in (wcfg w2)) vec n -> room_for (accuracy (wcfg w2)) (wcfg w2) res m n ->
      exists w3 r, step w2 (ExeMvm res vec mat' m n l) = Ok (w3, RRes 0 r) /\
        within (accuracy (wcfg w2)) r res mat vec (Z.to_nat m) (Z.to_nat n).
Proof.
  intros w x mat m n Hr Hx HI Hadc Hcal Hk Hres Hm4 Hm5 Hdl Hst Hcov Hsw Hdim Hent Hsum.
  destruct (ideal_history w x mat m n Hr Hx HI Hcov Hdim Hent Hsum) as (w1 & E1 & HH).
  exists w1. split; [exact E1|]. intros h w2 rs res vec mat' l Hq Hrun Hal Hwid Hin Hroom.
  destruct (HH h w2 rs Hq Hrun Hal) as (G2 & K2 & (V1 & V2) & x2 & X2 & R2).
  destruct (carry _ _ m n mat K2 Hsw Hdim Hcov Hent) as (Hsw' & Hdim' & Hcov' & Hent').
  destruct (core_keeps _ _ K2) as (F1 & F2 & F3 & F4 & F5 & F6 & F7 & F8 & F9 & F10 & F11 & F12 & F13).
  destruct HI as (I1 & I2 & I3 & I4 & I5 & I6 & I7).
  rewrite <- F11 in Hadc, Hk. rewrite <- F12 in Hk, Hres. rewrite <- F13 in Hcal. rewrite <- F9, <- F10 in Hdl. rewrite <- F4 in Hm4, Hm5, Hst, I7.
  rewrite <- F1 in I1. rewrite <- F2 in I2. rewrite <- F3 in I7.
  assert (D0 : 0 <= @HRS RM (wcfg w2)) by lra. assert (D1 : @HRS RM (wcfg w2) < @LRS RM (wcfg w2)) by lra.
  assert (D2 : 0 < @LRS RM (wcfg w2) - @HRS RM (wcfg w2)) by lra.
  pose proof (fin_range w2 G2 Hadc D0 D1) as HR.
  pose proof (fin_ratio w2 Hadc Hk D1) as HQ.
  eapply (mvm_ready nz s w2 x2 mat res vec mat' m n l _ _ _ _ (/ 2) (accuracy (wcfg w2)) G2 X2 R2 I1 I2 V2 V1 I7); auto.
  - lra.
  - intros y sc off. apply (fin_adc w2 x2 l G2 X2 Hadc Hcal Hk Hres).
  - apply (conv_fin _ _ _ _ Hk HR D2).
  - now left.
  - lra.
  - right. lra.
  - right. apply (fin_ok w2 m n G2 I1 Hadc D0 D1 Hdim' Hm4 Hm5).
  - rewrite errs_eq; [|now apply split_nonneg|exact Hcov']. unfold accuracy.
    rewrite HQ. apply Rplus_le_compat_r. apply (eps_le _ (fun g => g * half_step (wcfg w2) + / 2)).
    intros z Hz. pose proof (proj1 (Forall_forall _ _) (gains_nonneg _ (split_nonneg _ G2) Hcov') z Hz) as P.
    rewrite Rabs_pos_eq by (apply (IZR_le 0); exact P). lra.
Qed.

(** C64. *)
Lemma fine_exact : forall (w : @world RM) x mat m n,
  reach w -> wx w = Some x -> ideal_cells (wcfg w) x ->
  adc_type (wcfg w) <> INF_ADC -> adc_calib_mode (wcfg w) = CAL_MAX ->
  (2 <= n_levels (adc_type (wcfg w)) (resolution (wcfg w)))%Z -> (resolution (wcfg w) <= 30)%Z ->
  ~ In (m_mode (wcfg w)) [I_UINT_W_OFFS; BNN_III; BNN_IV; TNN_IV; TNN_V] ->
  0 < @HRS RM (wcfg w) < @LRS RM (wcfg w) -> (m_mode (wcfg w) = I_OFFS_W_DIFF -> s = false) ->
  split_covers (wcfg w) -> slices_wide (wcfg w) -> dims_in (wcfg w) m n ->
  all_entries (weight_in (wcfg w)) mat m n -> sums_fit (wcfg w) n ->
  exists w1, step w (CpyMtrx mat m n) = Ok (w1, RCode 0) /\
    forall h w2 rs res vec mat' l, Forall quiet h -> run w1 h = Ok (w2, rs) -> always no_variation w1 h ->
      Forall (fun g => IZR g * half_step (wcfg w2) < / 2) (gains (wcfg w2)) ->
      widths_fit (wcfg w2) -> all_first (input_in (wcfg w2)) vec n -> room (wcfg w2) res m n ->
      exists w3, step w2 (ExeMvm res vec mat' m n l) =
        Ok (w3, RRes 0 (plus_product res mat vec (Z.to_nat m) (Z.to_nat n))).
Proof.
  intros w x mat m n Hr Hx HI Hadc Hcal Hk Hres Hmode Hdl Hst Hcov Hsw Hdim Hent Hsum.
  destruct (ideal_history w x mat m n Hr Hx HI Hcov Hdim Hent Hsum) as (w1 & E1 & HH).
  exists w1. split; [exact E1|]. intros h w2 rs res vec mat' l Hq Hrun Hal Hfine Hwid Hin Hroom.
  destruct (HH h w2 rs Hq Hrun Hal) as (G2 & K2 & (V1 & V2) & x2 & X2 & R2).
  destruct (carry _ _ m n mat K2 Hsw Hdim Hcov Hent) as (Hsw' & Hdim' & Hcov' & Hent').
  destruct (core_keeps _ _ K2) as (F1 & F2 & F3 & F4 & F5 & F6 & F7 & F8 & F9 & F10 & F11 & F12 & F13).
  destruct HI as (I1 & I2 & I3 & I4 & I5 & I6 & I7).
  rewrite <- F11 in Hadc, Hk. rewrite <- F12 in Hk, Hres. rewrite <- F13 in Hcal. rewrite <- F9, <- F10 in Hdl. rewrite <- F4 in Hmode, Hst, I7.
  rewrite <- F1 in I1. rewrite <- F2 in I2. rewrite <- F3 in I7.
  assert (D0 : 0 <= @HRS RM (wcfg w2)) by lra. assert (D1 : @HRS RM (wcfg w2) < @LRS RM (wcfg w2)) by lra.
  assert (D2 : 0 < @LRS RM (wcfg w2) - @HRS RM (wcfg w2)) by lra.
  assert (Hm4 : m_mode (wcfg w2) <> TNN_IV) by (intros E; apply Hmode; rewrite E; cbn; tauto).
  assert (Hm5 : m_mode (wcfg w2) <> TNN_V) by (intros E; apply Hmode; rewrite E; cbn; tauto).
  pose proof (fin_range w2 G2 Hadc D0 D1) as HR.
  pose proof (fin_ratio w2 Hadc Hk D1) as HQ.
  edestruct (mvm_ready nz s w2 x2 mat res vec mat' m n l) with (E := 0) (hf := / 2) as (w3 & r & E3 & W); auto.
  - lra.
  - intros y sc off. apply (fin_adc w2 x2 l G2 X2 Hadc Hcal Hk Hres).
  - apply (conv_sharp _ _ _ _ Hk HR D2).
  - right. split; [eauto|]. unfold partial_sums. destruct (m_mode (wcfg w2)); cbn in Hmode; try reflexivity; tauto.
  - lra.
  - right. lra.
  - right. apply (fin_ok w2 m n G2 I1 Hadc D0 D1 Hdim' Hm4 Hm5).
  - now apply room_0.
  - rewrite errs_eq; [|now apply split_nonneg|exact Hcov'].
    assert (X1 : match m_mode (wcfg w2) with I_UINT_W_OFFS => / 2 | _ => 0 end = 0).
    { destruct (m_mode (wcfg w2)); try reflexivity. exfalso. apply Hmode. cbn. tauto. }
    rewrite X1. match goal with |- total_eps ?f ?q + 0 <= 0 => assert (H : total_eps f q <= total_eps (fun _ => 0) q) end.
    { apply eps_le. intros z Hz. unfold sharp. rewrite HQ.
      pose proof (proj1 (Forall_forall _ _) (gains_nonneg _ (split_nonneg _ G2) Hcov') z Hz) as P.
      rewrite Rabs_pos_eq by (apply (IZR_le 0); exact P).
      pose proof (proj1 (Forall_forall _ _) Hfine z Hz) as Q. cbv beta in Q. destruct (Rlt_dec _ _); lra. }
    assert (Z : forall l, total_eps (fun _ => 0) l = 0) by (unfold total_eps; induction l0; cbn; lra).
    rewrite Z in H. lra.
  - exists w3. rewrite E3. do 4 f_equal. apply within_0; [|exact W].
    destruct Hroom as [_ [HL _]]. lia.
Qed.
End AR.
