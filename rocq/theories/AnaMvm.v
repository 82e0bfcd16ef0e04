(** Analog MVMs of ideal cells in exact arithmetic, at the level of API calls. *)
From Coq Require Import String List ZArith Reals Lra Bool Arith Lia ZifyBool ZifyNat.
From RecordUpdate Require Import RecordSet.
From Flocq Require Import Core.
From Verif Require Import Base Lib Hoare Machine Json Config Histogram Adc ReadDisturb Parasitics
  Mapper IntMappers BnnMappers TnnMappers Crossbar Api WriteProofs Shape MvmShape DigMvm DigModes
  DigWrite AnaShape ConfigProofs Reach Cells Spec DigApi Invar StepFacts StoreProps CfgProps RMachine RSpec AdcProps
  AnaReal AnaXnn AnaInt AnaWrite AnaSpec AnaApi.
Import ListNotations RecordSetNotations.
Local Open Scope R_scope.
Local Open Scope out_scope.

Ltac Zify.zify_post_hook ::= idtac.

Section AR.
Context (nz : bool -> nat -> R) (s : bool).
#[local] Hint Extern 0 Machine => exact (R_machine nz s) : typeclass_instances.
Notation len := List.length.
Notation RM := (R_machine nz s).
Notation MM c := (Z.to_nat (M c)).

Lemma covers_bits (c : @config RM) : Forall (fun s => 0 <= s)%Z (SPLIT c) -> split_covers c -> widths_fit c -> bits_ok c.
Proof.
  intros Hnn Hcov Hwid Hi. destruct (Hcov Hi) as [E1 E2], (Hwid Hi) as [E3 E4]. unfold total in E1. fold (sumL (SPLIT c)) in E1.
  repeat split; try lia; rewrite ?shifts_eq by lia; apply shifts_from_range; auto; lia.
Qed.
Lemma term_span (c : @config RM) : split_covers c -> widths_fit c -> term_bound c = span c.
Proof.
  intros Hcov Hwid. unfold term_bound, span. destruct (is_int (m_mode c)) eqn:Hi; auto.
  destruct (Hcov Hi), (Hwid Hi). apply Z.pow_add_r; lia.
Qed.

Section St.
Context (c : @config RM) (mp : @mapper RM) (mat vec : list Z) (m n : nat).
Context (Hcov : split_covers c) (Hwid : widths_fit c)
  (Hd : forall i j, (i < m)%nat -> (j < n)%nat -> weight_in c (entry mat n i j))
  (Hvd : forall j, (j < n)%nat -> input_in c (nth j vec 0%Z))
  (HN : (Z.of_nat n * term_bound c <= int_max)%Z)
  (HS : stored c mp mat m n).

Lemma stored_dres i x : (i < m)%nat -> dres c mp vec n i x = (x + product mat vec n i)%Z.
Proof using HS.
  clear Hd Hvd HN Hcov Hwid. intros Hi. unfold dres, product. rewrite sum_sumZ.
  rewrite (sumZ_ext n (fun j => cellv c mp i j * nth j vec 0 + cellb c mp i j)%Z
            (fun j => entry mat n i j * nth j vec 0)%Z).
  2: { intros j Hj. rewrite (st_v _ _ _ _ _ HS i j Hi Hj), (st_b _ _ _ _ _ HS i j Hi Hj). ring. }
  rewrite (sumZ_ext n (fun j => cellv c mp i j) (entry mat n i)).
  2: { intros j Hj. apply (st_v _ _ _ _ _ HS i j Hi Hj). }
  assert (Hz : (kap c * (nth i (sum_w mp) 0 - sumZ n (entry mat n i)) = 0)%Z); [|lia].
  destruct (keeps_sums (m_mode c)) eqn:Ek.
  - rewrite (st_sum _ _ _ _ _ HS Ek i Hi). lia.
  - unfold kap. destruct (m_mode c); try discriminate Ek; lia.
Qed.
Lemma product_bound i : (i < m)%nat -> (Z.abs (product mat vec n i) <= Z.of_nat n * term_bound c)%Z.
Proof using Hcov Hwid Hd Hvd.
  intros Hi. rewrite (term_span c Hcov Hwid). unfold product. rewrite sum_sumZ. apply sumZ_bound. intros j Hj.
  destruct (weight_facts c _ Hcov (Hd i j Hi Hj)) as (B & _ & _).
  specialize (Hvd j Hj). rewrite Z.abs_mul. unfold span, input_in, row_bound in *.
  destruct (is_int (m_mode c)) eqn:Hii.
  - assert (Z.abs (nth j vec 0) <= 2 ^ I_BIT c)%Z.
    { destruct (Hcov Hii) as [F1 F2], (Hwid Hii) as [F3 F4].
      assert (2 ^ I_BIT c = 2 * 2 ^ (I_BIT c - 1))%Z.
      { replace (I_BIT c) with (Z.succ (I_BIT c - 1)) at 1 by lia. rewrite Z.pow_succ_r by lia. ring. }
      destruct (m_mode c); try discriminate Hii; lia. }
    apply Z.mul_le_mono_nonneg; lia.
  - assert (Z.abs (nth j vec 0) <= 1)%Z.
    { destruct (m_mode c); try discriminate Hii; lia. }
    nia.
Qed.
Lemma stored_sums_bound i : (i < m)%nat -> (Z.abs (kap c * nth i (sum_w mp) 0) <= Z.of_nat n * term_bound c)%Z.
Proof using Hcov Hwid Hd HS.
  clear Hvd HN. intros Hi. rewrite (term_span c Hcov Hwid).
  assert (Hspan : (row_bound c <= span c /\ Z.abs (kap c) * row_bound c <= span c)%Z).
  { unfold span, kap, row_bound. destruct (is_int (m_mode c)) eqn:Hii.
    - destruct (Hcov Hii) as [F1 F2], (Hwid Hii) as [F3 F4].
      assert (0 < 2 ^ W_BIT c)%Z by (apply Z.pow_pos_nonneg; lia).
      assert (0 < 2 ^ (I_BIT c - 1))%Z by (apply Z.pow_pos_nonneg; lia).
      assert (2 ^ I_BIT c = 2 * 2 ^ (I_BIT c - 1))%Z.
      { replace (I_BIT c) with (Z.succ (I_BIT c - 1)) at 1 by lia. rewrite Z.pow_succ_r by lia. ring. }
      destruct (m_mode c); try discriminate Hii; repeat split; nia.
    - destruct (m_mode c); try discriminate Hii; cbn; lia. }
  destruct Hspan as (Hs1 & Hs2). pose proof (row_bound_pos c) as Hs3.
  destruct (keeps_sums (m_mode c)) eqn:Ek.
  - rewrite (st_sum _ _ _ _ _ HS Ek i Hi). rewrite Z.abs_mul.
    pose proof (sumZ_abs n (entry mat n i)).
    assert (Hsum : (sumZ n (fun j => Z.abs (entry mat n i j)) <= Z.of_nat n * row_bound c)%Z).
    { rewrite <- sumZ_const. apply sumZ_le. intros j Hj. now apply (weight_facts c _ Hcov (Hd i j Hi Hj)). }
    transitivity (Z.abs (kap c) * (Z.of_nat n * row_bound c))%Z.
    + apply Z.mul_le_mono_nonneg_l; [apply Z.abs_nonneg|]. etransitivity; [|exact Hsum]. assumption.
    + nia.
  - unfold kap. destruct (m_mode c); try discriminate Ek; cbn; nia.
Qed.
Lemma stored_sums i : (i < m)%nat -> (Z.abs (kap c * nth i (sum_w mp) 0) <= int_max)%Z.
Proof using Hcov Hwid Hd HN HS. intros Hi. etransitivity; [now apply stored_sums_bound|exact HN]. Qed.
End St.

Lemma total_firstn l q : Forall (fun s => 0 <= s)%Z l -> (0 <= total (firstn q l) <= total l)%Z.
Proof.
  intros H. revert q. induction H as [|a l Ha Hl IH]; intros [|q]; cbn [firstn]; try (cbn; lia).
  - specialize (IH O). change (total (a :: l)) with (a + total l)%Z. cbn in *. lia.
  - specialize (IH q). change (total (a :: l)) with (a + total l)%Z. change (total (a :: firstn q l)) with (a + total (firstn q l))%Z. lia.
Qed.
Lemma total_next l q : (q < len l)%nat -> total (firstn (S q) l) = (total (firstn q l) + nth q l 0)%Z.
Proof.
  revert q. induction l as [|a l IH]; intros q Hq; [cbn in Hq; lia|]. destruct q as [|q].
  - cbn. lia.
  - specialize (IH q ltac:(cbn in Hq; lia)). change (firstn (S (S q)) (a :: l)) with (a :: firstn (S q) l).
    change (firstn (S q) (a :: l)) with (a :: firstn q l). cbn [nth].
    change (total (a :: firstn (S q) l)) with (a + total (firstn (S q) l))%Z.
    change (total (a :: firstn q l)) with (a + total (firstn q l))%Z. lia.
Qed.
Lemma place_value (c : @config RM) q : Forall (fun s => 0 <= s)%Z (SPLIT c) -> split_covers c -> is_int (m_mode c) = true ->
  (q < nsplit c)%nat -> nth q (shifts c) 0%Z = position c q /\
  (0 <= position c q <= 30 /\ 0 <= nth q (SPLIT c) 0 <= 30 /\ position c q + nth q (SPLIT c) 0 <= 30)%Z.
Proof.
  intros Hnn Hcov Hi Hq. pose proof (covers_fits c Hcov Hnn) as Hf. destruct (Hcov Hi) as [E1 E2].
  split; [now apply shifts_position|]. unfold position.
  pose proof (total_next (SPLIT c) q Hq). pose proof (total_firstn (SPLIT c) q Hnn).
  pose proof (total_firstn (SPLIT c) (S q) Hnn).
  assert (0 <= nth q (SPLIT c) 0)%Z by (apply (proj1 (Forall_forall _ _) Hnn), nth_In; exact Hq). lia.
Qed.

(** The offset factor of I_UINT_W_OFFS. *)
Lemma delta_eq (c : @config RM) (d : option R) : Forall (fun s => 0 <= s)%Z (SPLIT c) -> split_covers c -> is_int (m_mode c) = true ->
  @delta_of RM c (Some (@LRS RM c - @HRS RM c)) = Ok d ->
  d = Some (@HRS RM c / (@LRS RM c - @HRS RM c) *
            IZR (sumZ (nsplit c) (fun q => 2 ^ nth q (shifts c) 0 * top nz s c q)%Z)).
Proof.
  intros Hnn Hcov Hi H. pose proof (covers_fits c Hcov Hnn) as Hf.
  pose proof (fits_split_ok c Hi Hf) as (L1 & L2 & L3).
  unfold delta_of in H.
  assert (E : forN (len (SPLIT c)) (fun i d => sh <- get (shifts c) i ;; s0 <- get (SPLIT c) i ;;
         a <- shl32 s 1 sh ;; b <- @ones RM s0 ;; x <- mul32 a b ;; Ok (d + IZR x)) 0 =
         Ok (IZR (sumZ (nsplit c) (fun q => 2 ^ nth q (shifts c) 0 * top nz s c q)%Z))).
  { apply (forN_eq (fun k => IZR (sumZ k (fun q => 2 ^ nth q (shifts c) 0 * top nz s c q)%Z))).
    intros q Hq. change (q < nsplit c)%nat in Hq. destruct (place_value c q Hnn Hcov Hi Hq) as (Ep & P1 & P2 & P3).
    rewrite (get_ok (shifts c) q 0%Z) by (rewrite L1; exact Hq). cbn [bind].
    rewrite (get_ok (SPLIT c) q 0%Z) by exact Hq. cbn [bind]. cbn [sumZ]. rewrite Ep.
    assert (B1 : (1 <= 2 ^ position c q <= 2 ^ 30)%Z).
    { split; [apply (Z.pow_le_mono_r 2 0); lia|apply Z.pow_le_mono_r; lia]. }
    assert (B2 : (1 <= 2 ^ nth q (SPLIT c) 0)%Z) by (apply (Z.pow_le_mono_r 2 0); lia).
    assert (B3 : (2 ^ position c q * 2 ^ nth q (SPLIT c) 0 <= 2 ^ 30)%Z).
    { rewrite <- Z.pow_add_r by lia. apply Z.pow_le_mono_r; lia. }
    rewrite shl32_ok by (unfold int_min, int_max; lia). cbn [bind]. rewrite ones_ok by lia. cbn [bind].
    unfold mul32, chk32. unfold top.
    replace (in32 _) with true by (unfold in32, int_min, int_max; symmetry; apply andb_true_intro; split; apply Z.leb_le; nia).
    cbn [bind]. rewrite plus_IZR. do 3 f_equal. lia. }
  match type of H with bind ?lhs _ = _ => change lhs with (forN (len (SPLIT c)) (fun i d => sh <- get (shifts c) i ;; s0 <- get (SPLIT c) i ;;
         a <- shl32 s 1 sh ;; b <- @ones RM s0 ;; x <- mul32 a b ;; Ok (d + IZR x)) 0) in H end.
  rewrite E in H. cbn [bind] in H. inversion H. reflexivity.
Qed.

(** ** One MVM *)
Lemma amvm_ready (c : @config RM) x mat res vec mat' mN nN l e cv ok fit eps hf E :
  cfg_wf c -> shape c (xm x) -> Forall (fun b => 0 <= b)%Z (SPLIT c) -> (mN <= MM c)%nat -> (nN <= colsN c)%nat ->
  ready c x mat mN nN -> digital_only c = false -> parasitics c = false ->
  (is_int (m_mode c) = false -> adc_profile c = false) ->
  @LRS RM c - @HRS RM c <> 0 -> split_covers c -> widths_fit c -> slices_wide c ->
  (m_mode c = I_OFFS_W_DIFF -> s = false) ->
  (forall i j, (i < mN)%nat -> (j < nN)%nat -> weight_in c (entry mat nN i j)) ->
  (forall j, (j < nN)%nat -> input_in c (nth j vec 0%Z)) -> (mN <= len res)%nat -> (nN <= len vec)%nat ->
  (forall y sc off, @adc1 RM c (mp_adc (xm x)) l y sc off = Ok (cv y sc off)) ->
  conv cv ok fit eps (@LRS RM c - @HRS RM c) ->
  (forall y, fit y) \/ ((forall X, fit (IZR X)) /\ partial_sums (m_mode c) = false) ->
  0 <= hf -> (forall x sc off, cv x sc off = (x + off) * sc) \/ 1 / 2 <= hf ->
  (forall y, ok y) \/
     (0 <= @HRS RM c /\ 0 < @LRS RM c - @HRS RM c /\ m_mode c <> TNN_IV /\ m_mode c <> TNN_V /\
      (is_diff (m_mode c) = true -> forall y, Rabs y <= INR nN * (@LRS RM c - @HRS RM c) -> ok y) /\
      (is_diff (m_mode c) = false -> forall y, 0 <= y <= INR nN * @LRS RM c -> ok y)) ->
  (Z.of_nat nN * term_bound c <= int_max)%Z ->
  (forall i, (i < mN)%nat -> IZR (Z.abs (nth i res 0%Z) + Z.of_nat nN * term_bound c) + E <= IZR int_max) ->
  (if is_int (m_mode c) then ierr nz s c eps hf else xerr nz s c eps) <= E ->
  agoal nz s c (xm x) res vec mat' mN nN l e E.
Proof.
  intros Hwf Hs Hnn Hm Hn HR Hd Hpa Hprof Hdl Hcov Hwid Hsw Hst Hent Hin Hres Hvec Hcv HC Hfit Hhf Hhalf Hok HN' HB0 HE.
  pose proof (covers_bits c Hnn Hcov Hwid) as Hb. pose proof (term_span c Hcov Hwid) as Hsp.
  pose proof HR as [R1 R2 R3 R4 R5 R6].
  assert (HB : forall i, (i < mN)%nat -> IZR (Z.abs (nth i res 0%Z) + Z.of_nat nN * span c) + E <= IZR int_max).
  { intros i Hi. rewrite <- Hsp. now apply HB0. }
  assert (HF : forall i, (i < mN)%nat -> IZR (Z.abs (dres c (xm x) vec nN i (nth i res 0%Z))) + E <= IZR int_max).
  { intros i Hi. rewrite (stored_dres c (xm x) mat vec mN nN R1) by exact Hi.
    pose proof (product_bound c mat vec mN nN Hcov Hwid Hent Hin i Hi) as PB. specialize (HB i Hi). rewrite <- Hsp in HB.
    assert (IZR (Z.abs (nth i res 0 + product mat vec nN i)%Z) <= IZR (Z.abs (nth i res 0%Z) + Z.of_nat nN * term_bound c)) by (apply IZR_le; lia).
    lra. }
    destruct (is_int (m_mode c)) eqn:Hi.
    - assert (Hns : (1 <= nsplit c)%nat).
      { destruct (Hcov Hi) as [T1 T2]. unfold nsplit. destruct (SPLIT c); cbn in *; lia. }
      destruct R2 as (B1 & B2 & B3). rewrite Hd in *.
      change (@fsub RM (@LRS RM c) (@HRS RM c)) with (@LRS RM c - @HRS RM c) in *.
      apply (ana_int nz s c (xm x) res vec mat' mN nN l e cv ok fit eps hf E); auto.
      + destruct Hok as [H|(K1 & K2 & _ & _ & K3)]; [now left|right; auto].
      + intros q Hq. unfold top. pose proof (proj1 (Forall_forall _ _) (Hsw Hi) (nth q (SPLIT c) 0%Z) (nth_In _ _ Hq)) as K.
        cbv beta in K. assert (2 ^ 1 <= 2 ^ nth q (SPLIT c) 0)%Z by (apply Z.pow_le_mono_r; lia). lia.
      + apply (steps_nth c _ _ Hnn Hcov Hi). apply B2. unfold uses_shift. now rewrite Hi.
      + intros i j H1 H2. now apply (st_ok _ _ _ _ _ R1).
      + intros i q j H1 H2 H3. exact (R4 eq_refl i q j H1 H2 H3).
      + intros i q j H1 H2 H3. destruct (R5 eq_refl i q j H1 H2 H3) as [K _]. exact K.
      + intros H2a i q j H1 H2 H3. destruct (R5 eq_refl i q j H1 H2 H3) as [_ K]. apply K. now destruct (m_mode c).
      + now rewrite <- Hsp.
      + intros i Hi0. now apply (stored_sums c (xm x) mat mN nN Hcov Hwid Hent HN' R1).
      + intros Em. apply (delta_eq c); auto.
    - destruct R2 as (B1 & _). rewrite Hd in B1.
      apply (ana_xnn nz s c (xm x) res vec mat' mN nN l e cv ok fit eps E); auto.
      + intros i j H1 H2. now apply (st_ok _ _ _ _ _ R1).
      + intros i j H1 H2. destruct (R6 eq_refl i j H1 H2) as [[K _] _]. etransitivity; [exact K|]. unfold level. cbn. ring.
      + intros H2a i j H1 H2. destruct (R6 eq_refl i j H1 H2) as [_ K].
        assert (Ho : one_array (m_mode c) = false) by now destruct (m_mode c).
        destruct (K Ho) as [K1 _]. etransitivity; [exact K1|]. unfold level. cbn. ring.
      + unfold span in Hsp. rewrite Hi in Hsp. now rewrite <- Hsp.
      + unfold span in HB. rewrite Hi in HB. exact HB.
Qed.

Lemma mvm_ready (w : @world RM) x mat res vec mat' m n l cv ok fit eps hf E :
  good w -> wx w = Some x -> ready (wcfg w) x mat (Z.to_nat m) (Z.to_nat n) ->
  digital_only (wcfg w) = false -> read_disturb (wcfg w) = false ->
  parasitics (wcfg w) = false -> c2c_var (wcfg w) = false ->
  (is_int (m_mode (wcfg w)) = false -> adc_profile (wcfg w) = false) ->
  @LRS RM (wcfg w) - @HRS RM (wcfg w) <> 0 -> split_covers (wcfg w) -> widths_fit (wcfg w) -> slices_wide (wcfg w) ->
  (m_mode (wcfg w) = I_OFFS_W_DIFF -> s = false) ->
  dims_in (wcfg w) m n -> all_entries (weight_in (wcfg w)) mat m n -> all_first (input_in (wcfg w)) vec n ->
  (forall y sc off, @adc1 RM (wcfg w) (mp_adc (xm x)) l y sc off = Ok (cv y sc off)) ->
  conv cv ok fit eps (@LRS RM (wcfg w) - @HRS RM (wcfg w)) ->
  (forall y, fit y) \/ ((forall X, fit (IZR X)) /\ partial_sums (m_mode (wcfg w)) = false) ->
  0 <= hf -> (forall x sc off, cv x sc off = (x + off) * sc) \/ 1 / 2 <= hf ->
  (forall y, ok y) \/
     (0 <= @HRS RM (wcfg w) /\ 0 < @LRS RM (wcfg w) - @HRS RM (wcfg w) /\ m_mode (wcfg w) <> TNN_IV /\ m_mode (wcfg w) <> TNN_V /\
      (is_diff (m_mode (wcfg w)) = true -> forall y, Rabs y <= INR (Z.to_nat n) * (@LRS RM (wcfg w) - @HRS RM (wcfg w)) -> ok y) /\
      (is_diff (m_mode (wcfg w)) = false -> forall y, 0 <= y <= INR (Z.to_nat n) * @LRS RM (wcfg w) -> ok y)) ->
  room_for E (wcfg w) res m n ->
  (if is_int (m_mode (wcfg w)) then ierr nz s (wcfg w) eps hf else xerr nz s (wcfg w) eps) <= E ->
  exists w1 r, step w (ExeMvm res vec mat' m n l) = Ok (w1, RRes 0 r) /\
    within E r res mat vec (Z.to_nat m) (Z.to_nat n).
Proof.
  intros Hg Hx HR Hd Hrd Hpa Hc2 Hprof Hdl Hcov Hwid Hsw Hst Hdim Hent Hin Hcv HC Hfit Hhf Hhalf Hok Hroom HE.
  destruct (guard_ok w m n Hg Hdim) as (G1 & G2 & Hm & Hn).
  pose proof (g_x _ Hg x Hx) as Hxo. pose proof (good_wf w Hg) as Hwf.
  pose proof (split_nonneg w Hg) as Hnn. pose proof (xo_shape _ _ Hxo) as Hs.
  destruct Hent as [Hl Hent]. destruct Hin as [Hv1 Hin]. destruct Hroom as [HN [Hr1 Hr2]]. destruct Hdim as [Dm Dn].
  set (c := wcfg w) in *. set (mN := Z.to_nat m) in *. set (nN := Z.to_nat n) in *.
  assert (ZN : Z.of_nat nN = n) by (unfold nN; lia).
  assert (HN' : (Z.of_nat nN * term_bound c <= int_max)%Z) by (rewrite ZN; exact HN).
  pose proof HR as [R1 R2 R3 R4 R5 R6].
  assert (Hres : (mN <= len res)%nat) by (unfold mN; lia). assert (Hvec : (nN <= len vec)%nat) by (unfold nN; lia).
  assert (HG : agoal nz s c (xm x) res vec mat' mN nN l (wenv w) E).
  { eapply amvm_ready; eauto. intros i Hi. rewrite ZN. now apply Hr2. }
  destruct HG as (mp' & d & EA & HD).
  eexists. exists (upto mN (fun i y => (y + d i)%Z) res). split.
  { cbn [step]. unfold exe_mvm. fold c. rewrite Hx, G1, G2. cbn [bind]. fold mN nN. unfold xmvm. cbv zeta. rewrite Hd, Hc2. cbn [bind].
    change (xm (x <| n_mvm := (n_mvm x + 1)%Z |> <| n_read := (n_read x + 1)%Z |>)) with (xm x). rewrite EA. cbn [bind].
    rewrite Hrd. cbn [bind]. reflexivity. }
  split; [apply upto_length|]. intros i. split.
  - intros Hi. rewrite nth_upto_lt by lia. specialize (HD i Hi).
    rewrite (stored_dres c (xm x) mat vec mN nN R1) in HD by exact Hi.
    rewrite !plus_IZR. replace (IZR (nth i res 0%Z) + IZR (d i) - _) with (IZR (d i) - IZR (0 + product mat vec nN i)%Z) by (rewrite plus_IZR; simpl; ring).
    exact HD.
  - intros Hi. destruct (Nat.lt_ge_cases i (len res)).
    + rewrite nth_upto by auto. now replace (i <? mN)%nat with false by lia.
    + rewrite !nth_overflow; rewrite ?upto_length; auto.
Qed.
End AR.
