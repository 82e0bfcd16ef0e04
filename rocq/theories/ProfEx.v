(** Concrete reports: C79 and C80. *)
From Coq Require Import String List ZArith Reals Bool Arith Lia Lra ZifyBool ZifyNat Permutation.
From RecordUpdate Require Import RecordSet.
From Flocq Require Import Core.
From Verif Require Import Base Lib Hoare Machine Json Config Histogram Adc ReadDisturb Parasitics
  Mapper IntMappers BnnMappers TnnMappers Crossbar Api RMachine RSpec Spec ConfigProofs WriteProofs Shape MvmShape AnaShape Reach Invar
  DigMvm DigModes Cells DigApi StepFacts StoreProps AdcProps HistProps AnaReal AnaXnn AnaWrite AnaSpec AnaApi AnaMvm AnaProps HistSpec HistCount HistBins EmuProps Demo AnaEx HistOk FloatMachine
  LeakProps HistEx Profile ProfSpec ProfProps ProfMean.
Import ListNotations RecordSetNotations.
Ltac Zify.zify_post_hook ::= idtac.
Local Open Scope R_scope.
Local Open Scope out_scope.

(** ** A profiled crossbar: BNN_VI, 3 x 4 cells, HRS 5, LRS 30, 8-bit symmetric converter, bins of 5 or 20 *)
Section PG.
Context {MC : Machine} (pb : Z).
Local Open Scope Z_scope.
Definition with_bin (c : config) : config := c <| adc_profile := true |> <| bin_size := pb |>.
Definition bin_doc : json := puts (demo_doc BNN_VI "BNN_VI" "SYM_RANGE_ADC" 8) [("adc_profile", JBool true); ("adc_profile_bin_size", JInt pb)]%string.
Definition bin_cfg : config := with_bin (demo_cfg BNN_VI SYM_RANGE_ADC 8).

Lemma bin_created a : adc_new bin_cfg SYM_RANGE_ADC = Ok a -> exists x, xbar_new bin_cfg = Ok x.
Proof.
  intros Ha. unfold xbar_new, mapper_new. rewrite (eq_refl : adc_type bin_cfg = SYM_RANGE_ADC), Ha. cbn [bind].
  assert (E1 : digital_only bin_cfg = false /\ parasitics bin_cfg = false) by (split; reflexivity).
  destruct E1 as [-> ->]. cbn [negb andb bind]. eexists. reflexivity.
Qed.
Lemma bin_world a : apply_config bin_doc config0 = Ok bin_cfg -> adc_new bin_cfg SYM_RANGE_ADC = Ok a ->
  exists w x, step world0 (SetConfig (Parsed bin_doc)) = Ok (w, RUnit) /\ reach w /\
    wx w = Some x /\ wcfg w = bin_cfg /\ histo (wenv w) = [].
Proof.
  intros E H6. destruct (bin_created a H6) as (x & X).
  eexists _, x.
  assert (Hrun : step world0 (SetConfig (Parsed bin_doc)) =
    Ok (world0 <| wdata := bin_doc |> <| wcfg := bin_cfg |> <| wx := Some x |>, RUnit)).
  { cbn [step]. unfold set_config. cbn [destroy wx wcfg world0 bind].
    change (wcfg (world0 <| wx := None |>)) with config0. rewrite E. cbn [bind]. unfold replace_xbar.
    change (wcfg (world0 <| wx := None |> <| wdata := bin_doc |> <| wcfg := bin_cfg |>)) with bin_cfg.
    rewrite X. reflexivity. }
  split; [exact Hrun|]. split; [exists [SetConfig (Parsed bin_doc)], [RUnit]; split; [|repeat constructor]; cbn [run]; rewrite Hrun; reflexivity|].
  split; [reflexivity|]. split; reflexivity.
Qed.

Lemma bin_entries c mat m n : all_entries (weight_in c) mat m n -> all_entries (weight_in (with_bin c)) mat m n.
Proof. exact (fun H => H). Qed.
Lemma bin_inputs c vec n : all_first (input_in c) vec n -> all_first (input_in (with_bin c)) vec n.
Proof. exact (fun H => H). Qed.
Lemma bin_sums c n : sums_fit c n -> sums_fit (with_bin c) n.
Proof. exact (fun H => H). Qed.
Lemma bin_dims c m n : dims_in c m n -> dims_in (with_bin c) m n.
Proof. exact (fun H => H). Qed.
Lemma bin_mode c : m_mode (with_bin c) = m_mode c.
Proof. reflexivity. Qed.
Lemma bin_facts c : digital_only (with_bin c) = digital_only c /\ adc_profile (with_bin c) = true /\ bin_size (with_bin c) = pb /\
  read_disturb (with_bin c) = read_disturb c /\ parasitics (with_bin c) = parasitics c /\ c2c_var (with_bin c) = c2c_var c /\
  HRS_NOISE (with_bin c) = HRS_NOISE c /\ LRS_NOISE (with_bin c) = LRS_NOISE c /\ adc_type (with_bin c) = adc_type c /\
  adc_calib_mode (with_bin c) = adc_calib_mode c /\ resolution (with_bin c) = resolution c /\ HRS (with_bin c) = HRS c /\
  LRS (with_bin c) = LRS c /\ N (with_bin c) = N c.
Proof. repeat split. Qed.
End PG.
Lemma applied5 {MC : Machine} : fle (f_of_Z 5) f0 = false -> fle (f_of_Z 30) f0 = false -> apply_config (bin_doc 5) config0 = Ok (bin_cfg 5).
Proof. intros A B. unfold f0 in *. cbv -[fle f_of_Z]; rewrite A, B; reflexivity. Qed.
Lemma applied20 {MC : Machine} : fle (f_of_Z 5) f0 = false -> fle (f_of_Z 30) f0 = false -> apply_config (bin_doc 20) config0 = Ok (bin_cfg 20).
Proof. intros A B. unfold f0 in *. cbv -[fle f_of_Z]; rewrite A, B; reflexivity. Qed.


Section PE.
Context (nz : bool -> nat -> R) (s : bool).
#[local] Hint Extern 0 Machine => exact (R_machine nz s) : typeclass_instances.
Notation RM := (R_machine nz s).
Context (pb : Z) (Hpb : (0 < pb <= 20)%Z) (Happ : @apply_config RM (bin_doc pb) config0 = Ok (bin_cfg pb)).

Lemma bin_room (c : @config RM) res m n : room_for (@accuracy nz s c) c res m n -> room_for (@accuracy nz s (with_bin pb c)) (with_bin pb c) res m n.
Proof. exact (fun H => H). Qed.
Lemma bin_adc (c : @config RM) ty : @adc_new RM c ty = @adc_new RM (with_bin pb c) ty.
Proof. reflexivity. Qed.
#[local] Opaque with_bin demo_cfg.

Lemma ex80 : exists w2 w3 x r h, reach w2 /\ wx w2 = Some x /\
  is_int (m_mode (wcfg w2)) = false /\ digital_only (wcfg w2) = false /\ adc_profile (wcfg w2) = true /\
  adc_type (wcfg w2) <> INF_ADC /\ c2c_var (wcfg w2) = false /\ parasitics (wcfg w2) = false /\
  dims_in (wcfg w2) 3 4 /\ all_first (input_in (wcfg w2)) prof_vec 4 /\
  bin_size (wcfg w2) = pb /\ lookup "L"%string (histo (wenv w2)) = None /\
  step w2 prof_mvm = Ok (w3, RRes 0 r) /\ lookup "L"%string (histo (wenv w3)) = Some h /\
  all_readings (wcfg w2) x prof_vec 3 4 = [50; -50; 50] /\
  (h_min h : R) = -100 /\ (h_bin h : R) = IZR pb /\ (h_max h : R) = 100 /\ total (h_data h) = 3%Z /\
  forall f, @over_samples nz s h f = f (lab (-100) (IZR pb) 50) + (f (lab (-100) (IZR pb) (-50)) + (f (lab (-100) (IZR pb) 50) + 0)).
Proof.
  destruct (@demo_flags RM) as (F1 & F2 & F3 & F4 & F5 & F6 & F7 & F8 & F9 & F10 & F11 & F12 & F13).
  assert (Ha : exists a, @adc_new RM (bin_cfg pb) SYM_RANGE_ADC = Ok a).
  { unfold bin_cfg. rewrite <- bin_adc. rewrite new_ok; [eauto|discriminate|]. rewrite F9. lia. }
  destruct Ha as (a & Ha).
  destruct (@bin_world RM pb a Happ Ha) as (w1 & x & E1 & Hr & Hx & Hc & Hh).
  destruct (@demo_fits RM) as [D1 D2].
  pose proof (bin_entries pb _ _ _ _ (@demo_entries RM BNN_VI SYM_RANGE_ADC 8)) as HEn.
  assert (HIn : all_first (input_in (@bin_cfg RM pb)) prof_vec 4).
  { apply bin_inputs. unfold input_in. rewrite F13. split; [cbn; lia|]. intros j Hj. change (Z.to_nat 4) with 4%nat in Hj. destruct j as [|[|[|[|]]]]; try lia; left; reflexivity. }
  pose proof (bin_room _ _ _ _ (demo_room nz s BNN_VI SYM_RANGE_ADC 8 ltac:(discriminate) ltac:(cbn; auto))) as HR.
  pose proof (bin_sums pb _ _ D2) as HS. pose proof (bin_dims pb _ _ _ D1) as HD.
  destruct (@bin_facts RM pb (demo_cfg BNN_VI SYM_RANGE_ADC 8)) as (P1 & P2 & P3 & P4 & P5 & P6 & P7 & P8 & P9 & P10 & P11 & P12 & P13 & P14).
  rewrite F1 in P1. rewrite F2 in P4. rewrite F3 in P5. rewrite F4 in P6. rewrite F5 in P7. rewrite F6 in P8. rewrite F7 in P9.
  rewrite F8 in P10. rewrite F9 in P11. rewrite F10 in P12. rewrite F11 in P13. rewrite F12 in P14.
  pose proof (@bin_mode RM pb (demo_cfg BNN_VI SYM_RANGE_ADC 8)) as P15. rewrite F13 in P15.
  change (with_bin pb (demo_cfg BNN_VI SYM_RANGE_ADC 8)) with (@bin_cfg RM pb) in *. set (c := @bin_cfg RM pb) in *. clearbody c.
  pose proof (profiled_ok nz s w1 x demo_mat 3 4 Hr Hx) as HP. rewrite Hc in HP.
  rewrite P7, P8 in HP.
  specialize (HP P1 P2 (or_introl P15) P4 P5 P6 (refl_le nz s) (refl_le nz s)). rewrite P3, P9, P11, P14 in HP.
  specialize (HP ltac:(discriminate) P10 ltac:(cbn; lia) ltac:(lia)).

  assert (Q0 : @HRS RM c = 5) by exact P12. assert (Q1 : @LRS RM c = 30) by exact P13.
  change (@F RM) with R in *. rewrite Q0, Q1 in HP. cbv zeta in HP.
  assert (B1 : 1 <= IZR pb <= 20) by (split; apply IZR_le; lia).
  specialize (HP ltac:(lra) HD ltac:(unfold int32_max; lia) HEn HS ltac:(lra) ltac:(change (2 ^ 30)%Z with 1073741824%Z; apply (Rmult_le_reg_r (IZR pb)); [lra|]; unfold Rdiv; rewrite Rmult_assoc, Rinv_l by lra; lra)).
  destruct HP as (w2 & E2 & HM).
  assert (Hi : is_int (m_mode (wcfg w1)) = false) by (rewrite Hc, P15; reflexivity).
  destruct (cpy_ready w1 x demo_mat 3 4 Hr Hx) as (w2' & x2 & E2' & G2 & C2 & X2 & R2); rewrite ?Hc; auto; try (rewrite ?P7, ?P8; apply refl_le).
  { intros Q. rewrite Hc in Hi. congruence. }
  { intros Q. rewrite Hc in Hi. congruence. }
  rewrite E2 in E2'. inversion E2'; subst w2'. clear E2'. rewrite Hc in C2, R2.
  assert (Hh2 : histo (wenv w2) = []).
  { rewrite <- Hh. exact (only_mvms w1 (CpyMtrx demo_mat 3 4) w2 (RCode 0) eq_refl E2). }
  assert (Hpr : forall i, (i < 3)%nat -> In (product demo_mat prof_vec 4 i) [2; -2]%Z).
  { intros i H. destruct i as [|[|[|]]]; try lia; cbn; auto. }
  destruct (HM [1; 2; 3]%Z prof_vec [] "L"%string) as (w3 & r & E3 & W).
  { rewrite Hh2. reflexivity. }
  { exact HIn. }
  { intros i H. change (Z.to_nat 4) with 4%nat. change (Z.to_nat 3) with 3%nat in H. destruct (Hpr i H) as [<-|[<-|[]]]; lra. }
  { exact HR. }
  assert (Hr2 : reach w2).
  { eapply reach_step; [exact Hr|exact E2|]. discriminate. }
  assert (RR : all_readings (wcfg w2) x2 prof_vec 3 4 = [50; -50; 50]).
  { rewrite C2. unfold all_readings, readings. rewrite P15. cbn [flat_map map seq app].
    pose proof (fun i H => quad_reading nz s c x2 demo_mat prof_vec 3 4 i (or_introl P15) R2 H) as QR. unfold one in QR.
    change (@F RM) with R in *. rewrite !QR by lia. rewrite Q0, Q1.
    change (product demo_mat prof_vec 4 0) with 2%Z. change (product demo_mat prof_vec 4 1) with (-2)%Z. change (product demo_mat prof_vec 4 2) with 2%Z.
    repeat (f_equal; try lra). }
  pose proof (mvm_samples nz s w2 x2 [1; 2; 3]%Z prof_vec [] 3 4 "L"%string w3 r Hr2 X2) as MS. rewrite C2 in MS.
  rewrite P15 in MS. specialize (MS eq_refl P1 P2). rewrite P9 in MS. specialize (MS ltac:(discriminate) P6 P5 HD ltac:(lia) ltac:(unfold int32_max; lia) HIn).
  rewrite Hh2 in MS. specialize (MS eq_refl E3). rewrite <- C2 in MS. change (Z.to_nat 3) with 3%nat in MS. change (Z.to_nat 4) with 4%nat in MS. rewrite RR in MS.
  destruct MS as (_ & h & M1 & M2 & M3 & M6 & _ & M5).
  assert (GG : grid (wcfg w2) None = (-100, IZR pb)).
  { rewrite C2. unfold grid. cbn. rewrite P9, P14, P3. change (@F RM) with R. rewrite Q0, Q1. f_equal. lra. }
  rewrite GG in M3. injection M3 as M3 M4. change (@F RM) with R in *. rewrite M3, M4 in M5.
  rewrite C2 in M6. unfold max_max_current in M6. rewrite P14 in M6. cbn [fmul fsub f_of_Z R_machine] in M6. rewrite Q0, Q1 in M6.
  assert (M7 : (h_max h : R) = 100) by (rewrite M6; lra).
  exists w2, w3, x2, r, h. rewrite C2 in *.
  repeat match goal with |- _ /\ _ => split end; auto; try (rewrite P9; discriminate); try (rewrite P15; reflexivity).
  rewrite Hh2; reflexivity.
Qed.
End PE.

Lemma left_leaves n : leaves (left_tree n) = seq 0 (S n).
Proof. induction n as [|n IH]; [reflexivity|]. cbn [left_tree leaves]. rewrite IH. now rewrite (seq_S (S n)). Qed.
Lemma left_schedule n : schedule_for n (fun _ => left_tree n).
Proof. intros k. rewrite left_leaves. apply Permutation_refl. Qed.

Section PW.
Context (nz : bool -> nat -> R) (s : bool).
#[local] Hint Extern 0 Machine => exact (R_machine nz s) : typeclass_instances.
Notation RM := (R_machine nz s).

Lemma near_tie k : (0 <= k)%Z -> ZnearestA (IZR k + / 2) = (k + 1)%Z.
Proof.
  intros H. apply eq_IZR. rewrite away_eq. unfold round_away. apply IZR_le in H. destruct (Rle_dec 0 (IZR k + / 2)); [|lra].
  f_equal. replace (IZR k + / 2 + / 2) with (IZR (k + 1)) by (rewrite plus_IZR; lra). apply Zfloor_IZR.
Qed.

Lemma whole_bin_off : exists (w : @world RM) x res vec mat m n l w' r h, reach w /\ wx w = Some x /\
  is_int (m_mode (wcfg w)) = false /\ digital_only (wcfg w) = false /\ adc_profile (wcfg w) = true /\
  adc_type (wcfg w) <> INF_ADC /\ c2c_var (wcfg w) = false /\ parasitics (wcfg w) = false /\
  dims_in (wcfg w) m n /\ (0 < m)%Z /\ (n <= int32_max)%Z /\ all_first (input_in (wcfg w)) vec n /\
  (0 < bin_size (wcfg w))%Z /\ lookup l (histo (wenv w)) = None /\
  step w (ExeMvm res vec mat m n l) = Ok (w', RRes 0 r) /\ lookup l (histo (wenv w')) = Some h /\
  let vs := all_readings (wcfg w) x vec (Z.to_nat m) (Z.to_nat n) in
  mean h = fold_right Rplus 0 vs / INR (List.length vs) + IZR (bin_size (wcfg w)).
Proof.
  destruct (ex80 nz s 20 ltac:(lia) (@applied20 RM (pos_false nz s 5 ltac:(lia)) (pos_false nz s 30 ltac:(lia))))
    as (w2 & w3 & x & r & h & H1 & H2 & H3 & H4 & H5 & H6 & H7 & H8 & H9 & H10 & H11 & H12 & H13 & H14 & H15 & H16 & H17 & H18 & H19 & H20).
  exists w2, x, [1; 2; 3]%Z, prof_vec, [], 3%Z, 4%Z, "L"%string, w3, r, h.
  repeat (split; [assumption || (rewrite ?H11; unfold int32_max; lia)|]). cbv zeta.
  change (Z.to_nat 3) with 3%nat. change (Z.to_nat 4) with 4%nat. rewrite H15, H11. unfold mean. rewrite !H20.
  unfold lab, idx. replace ((50 - -100) / 20) with (IZR 7 + / 2) by lra. replace ((-50 - -100) / 20) with (IZR 2 + / 2) by lra.
  rewrite !near_tie by lia. cbn [fold_right List.length INR]. rewrite !plus_IZR. lra.
Qed.

Lemma ex79_h : exists (w : @world RM) l h t r, reach w /\ lookup l (histo (wenv w)) = Some h /\
  0 < h_bin h /\ (0 < total (h_data h))%Z /\ schedule_for (nbins h) t /\ hist_report t h = Ok r /\
  (forall k, (k < nbins h)%nat -> fits_int32 (middle h k)) /\ nbins h = 40%nat /\ s_samples r = 3%Z /\ s_mean r = 115 / 6 /\
  s_var r <> variance h.
Proof.
  destruct (ex80 nz s 5 ltac:(lia) (@applied5 RM (pos_false nz s 5 ltac:(lia)) (pos_false nz s 30 ltac:(lia))))
    as (w2 & w3 & x & r & h & H1 & H2 & H3 & H4 & H5 & H6 & H7 & H8 & H9 & H10 & H11 & H12 & H13 & H14 & H15 & H16 & H17 & H18 & H19 & H20).
  assert (Hr : reach w3) by (eapply reach_step; [exact H1|exact H13|discriminate]).
  pose proof (reach_labelled w3 _ _ Hr (lookup_in _ _ _ H14)) as HL. pose proof (reach_sized w3 _ _ Hr (lookup_in _ _ _ H14)) as HZ.
  assert (Hb : 0 < h_bin h) by (change (@F RM) with R in *; rewrite H17; lra).
  assert (N40 : nbins h = 40%nat).
  { unfold sized in HZ. cbn [f_trunc fround fdiv fsub R_machine] in HZ. change (@F RM) with R in *. rewrite H16, H17, H18 in HZ.
    replace ((100 - -100) / 5) with (IZR 40) in HZ by lra. rewrite near_IZR, Ztrunc_IZR in HZ. injection HZ as HZ. unfold nbins. lia. }
  assert (HF : forall k, (k < nbins h)%nat -> fits_int32 (middle h k)).
  { intros k Hk. rewrite N40 in Hk. unfold fits_int32, middle.
    change (@F RM) with R in *. rewrite H16, H17.
    assert (K : 0 <= INR k <= 40) by (split; [apply pos_INR|change 40 with (IZR (Z.of_nat 40)); rewrite <- INR_IZR_INZ; apply le_INR; lia]).
    split.
    - apply Z.le_trans with (Ztrunc (IZR (-1000))); [rewrite Ztrunc_IZR; lia|]. apply Ztrunc_le. lra.
    - apply Z.le_lt_trans with (Ztrunc (IZR 1000)); [|rewrite Ztrunc_IZR; lia]. apply Ztrunc_le. lra. }
  eexists w3, _, h, (fun _ => left_tree (nbins h)), _. split; [exact Hr|]. split; [exact H14|]. split; [exact Hb|].
  split; [rewrite H19; lia|]. split; [apply left_schedule|].
  split; [exact (report_R nz s h _ HL Hb (left_schedule _) HF)|]. split; [exact HF|]. split; [exact N40|]. cbn [s_samples s_mean s_var].
  split; [exact H19|].
  unfold cut_variance, variance, mean. rewrite !H20. unfold lab, idx.
  replace ((50 - -100) / 5) with (IZR 30) by lra. replace ((-50 - -100) / 5) with (IZR 10) by lra. rewrite !near_IZR.
  replace (-100 + (30 + / 2) * 5) with (52 + / 2) by lra. replace (-100 + (10 + / 2) * 5) with (- (47 + / 2)) by lra.
  assert (T1 : Ztrunc (52 + / 2) = 52%Z) by (rewrite Ztrunc_floor by lra; apply Zfloor_imp; cbn; lra).
  assert (T2 : Ztrunc (- (47 + / 2)) = (-47)%Z) by (rewrite Ztrunc_opp, Ztrunc_floor by lra; rewrite (Zfloor_imp 47); [reflexivity|cbn; lra]).
  rewrite T1, T2. split; lra.
Qed.
Lemma variance_off : exists (w : @world RM) l h t r, reach w /\ lookup l (histo (wenv w)) = Some h /\
  0 < h_bin h /\ (0 < total (h_data h))%Z /\ schedule_for (nbins h) t /\ hist_report t h = Ok r /\ s_var r <> variance h.
Proof. destruct ex79_h as (w & l & h & t & r & H). exists w, l, h, t, r. tauto. Qed.
Lemma ex79 : exists (w : @world RM) l h t r, reach w /\ lookup l (histo (wenv w)) = Some h /\
  0 < h_bin h /\ (0 < total (h_data h))%Z /\ schedule_for (nbins h) t /\ hist_report t h = Ok r /\
  (forall k, (k < nbins h)%nat -> fits_int32 (middle h k)) /\ nbins h = 40%nat /\ s_samples r = 3%Z /\ s_mean r = 115 / 6.
Proof. destruct ex79_h as (w & l & h & t & r & H). exists w, l, h, t, r. tauto. Qed.
End PW.
