(** Profiled MVMs of ideal cells succeed when no current is within one bin of the end of the range: C74. *)
From Coq Require Import String List ZArith Reals Bool Arith Lia Lra ZifyBool ZifyNat.
From RecordUpdate Require Import RecordSet.
From Flocq Require Import Core.
From Verif Require Import Base Lib Hoare Machine Json Config Histogram Adc ReadDisturb Parasitics
  Mapper IntMappers BnnMappers TnnMappers Crossbar Api RMachine RSpec Spec ConfigProofs WriteProofs Shape MvmShape AnaShape Reach Invar
  DigMvm DigModes Cells DigApi StepFacts StoreProps AdcProps HistProps AnaReal AnaXnn AnaWrite AnaSpec AnaApi AnaMvm AnaProps HistSpec HistCount HistBins EmuProps Demo AnaEx.
Import ListNotations RecordSetNotations.
Ltac Zify.zify_post_hook ::= idtac.
Local Open Scope R_scope.
Local Open Scope out_scope.

Section HO.
Context (nz : bool -> nat -> R) (s : bool).
#[local] Hint Extern 0 Machine => exact (R_machine nz s) : typeclass_instances.
Notation len := List.length.
Notation RM := (R_machine nz s).

Lemma vec_on (c : @config RM) a l k (arr : list R) sc o e (t : list R) e2 e' : adc_profile c = true ->
  adc_vec (off c) a l k arr sc o e = Ok (t, e2) -> profile c a l (firstn k arr) e = Ok e' ->
  adc_vec c a l k arr sc o e = Ok (t, e').
Proof.
  intros Hp H1 H2. unfold adc_vec in *. destruct (_ <? k)%nat; [discriminate|].
  change (adc_profile (off c)) with false in H1. cbn [bind] in H1. rewrite Hp. change (@F RM) with R in *. rewrite H2. cbn [bind].
  change (forN k (fun i v => x <- get v i ;; y <- adc1 (off c) a l x sc o ;; set v i y) arr)
    with (forN k (fun i v => x <- get v i ;; y <- adc1 c a l x sc o ;; set v i y) arr) in H1.
  inv_as H1 v Hv. inversion H1; subst. change (@F RM) with R in *. rewrite Hv. reflexivity.
Qed.

Section Q.
Context (c : @config RM) (x : @xbar RM) (res vec mat : list Z) (m n : nat) (l : string) (e : @env RM).
Notation mp := (xm x).
Notation vv j := (nth j vec 0%Z).
Context (Hw : cfg_wf c) (Hs : shape c mp) (Hm : (m <= Z.to_nat (M c))%nat) (Hn : (n <= colsN c)%nat) (Hvec : (n <= len vec)%nat)
  (Hpar : parasitics c = false) (Hprof : adc_profile c = true)
  (Hq : m_mode c = BNN_VI \/ m_mode c = TNN_I) (Hv : forall j, (j < n)%nat -> vok c (vv j)).

Lemma quad_on r mp' e2 e' : @a_mvm RM (off c) mp res vec mat m n l e = Ok (r, mp', e2) ->
  profile c (mp_adc mp) l (all_readings c x vec m n) e = Ok e' ->
  @a_mvm RM c mp res vec mat m n l e = Ok (r, mp', e').
Proof.
  intros H HP.
  assert (Hx : is_int (m_mode c) = false) by (destruct Hq as [-> | ->]; reflexivity).
  assert (Ht : exists tern : bool, m_mode c = (if tern then TNN_I else BNN_VI)) by (destruct Hq; [exists false|exists true]; auto).
  destruct Ht as (tern & Hmode).
  assert (EA : forall c0 : @config RM, @a_mvm RM c0 mp res vec mat m n l e = @quad_a RM tern c0 mp res vec mat m n l e).
  { intros c0. unfold a_mvm. rewrite (sh_mode _ _ Hs), Hmode. destruct tern; reflexivity. }
  rewrite EA in *. unfold quad_a in *. pose proof (vdp_h nz s c x Hs) as Hvl.
  assert (Hb : forall j, (j < n)%nat -> (if tern then ter else bin) (vv j)).
  { intros j Hj. specialize (Hv j Hj). unfold vok in Hv. destruct tern; rewrite Hmode in Hv; exact Hv. }
  assert (Lvm : len (vd_m mp) = colsN c) by (apply Hs; destruct tern; now rewrite Hmode).
  rewrite (two_rail_ok tern) in * by (auto; lia). cbn [bind] in *.
  set (up := upto n (fun j _ => posp (vv j)) (vd_p mp)) in *. set (um := upto n (fun j _ => negp (vv j)) (vd_m mp)) in *.
  assert (Lp : len up = colsN c) by (unfold up; now rewrite upto_length).
  assert (Lm : len um = colsN c) by (unfold um; now rewrite upto_length).
  assert (Np : forall j, (j < n)%nat -> nth j up 0%Z = posp (vv j)) by (intros; unfold up; now rewrite nth_upto_lt by lia).
  assert (Nm : forall j, (j < n)%nat -> nth j um 0%Z = negp (vv j)) by (intros; unfold um; now rewrite nth_upto_lt by lia).
  rewrite off_currents in H. inv_as H t1 E1. rewrite E1. cbn [bind]. inv_as H sc Esc. rewrite Esc. cbn [bind].
  inv_as H q E2. destruct q as [t e1]. inv_as H r1 Er. inversion H; subst.
  assert (RR : all_readings c x vec m n = map (fun i => one nz s x vec n true (fun v => v) i - one nz s x vec n false (fun v => v) i) (seq 0 m)).
  { unfold all_readings, readings. destruct tern; rewrite Hmode; cbn [flat_map]; rewrite app_nil_r; reflexivity. }
  assert (EF : firstn m t1 = all_readings c x vec m n).
  { rewrite RR. unfold currents in E1. rewrite Hpar in E1.
    destruct (facc_fill nz s m n (@fquad RM (@ia_p RM mp) (@ia_m RM mp) up um)
      (fun i j => (current (@ia_p RM mp) i j - current (@ia_m RM mp) i j) * IZR (vv j)) (@tmp RM mp) (tmp_h nz s c x m Hs Hm Hx)) as (t2 & F1 & L1 & V1).
    - intros i j Hi Hj. unfold fquad.
      rewrite (fterm1_h nz s c x vec m n Hw Hs Hm Hn Hvec Hx Hv true up posp) by auto. cbn [bind].
      rewrite (fterm1_h nz s c x vec m n Hw Hs Hm Hn Hvec Hx Hv false um negp) by auto. cbn [bind].
      rewrite (fterm1_h nz s c x vec m n Hw Hs Hm Hn Hvec Hx Hv false up posp) by auto. cbn [bind].
      rewrite (fterm1_h nz s c x vec m n Hw Hs Hm Hn Hvec Hx Hv true um negp) by auto. cbn [bind].
      f_equal. change (@F RM) with R. change (@fadd RM) with Rplus. change (@fsub RM) with Rminus.
      rewrite <- (pos_neg (vv j)) at 5. rewrite minus_IZR. ring.
    - pose proof (eq_trans (eq_sym F1) E1) as E3. inversion E3; subst t2.
      apply (firstn_seq nz s).
      + exact (eq_ind_r (fun k => (m <= k)%nat) (tmp_h nz s c x m Hs Hm Hx) L1).
      + intros i Hi. rewrite V1 by exact Hi. exact (diff_sum nz s x vec n (fun v => v) i). }
  rewrite <- EF in HP. change (@F RM) with R in *. rewrite (vec_on c (mp_adc mp) l m t1 sc (@f0 RM) e t e2 e' Hprof E2 HP). cbn [bind]. rewrite Er. reflexivity.
Qed.
End Q.

Lemma quad_reading (c : @config RM) x mat vec m n i : (m_mode c = BNN_VI \/ m_mode c = TNN_I) -> ready c x mat m n -> (i < m)%nat ->
  one nz s x vec n true (fun v => v) i - one nz s x vec n false (fun v => v) i = IZR (product mat vec n i) * (@LRS RM c - @HRS RM c).
Proof.
  intros Hq [R1 _ _ _ _ R6] Hi.
  assert (Hx : is_int (m_mode c) = false) by (destruct Hq as [-> | ->]; reflexivity).
  assert (Ho : one_array (m_mode c) = false) by (destruct Hq as [-> | ->]; reflexivity).
  rewrite <- (diff_sum nz s x vec n (fun v => v) i).
  transitivity (sumR n (fun j => IZR (entry mat n i j * nth j vec 0%Z) * (@LRS RM c - @HRS RM c))).
  - apply sumR_ext. intros j Hj. destruct (R6 Hx i j Hi Hj) as [[E1 _] E2]. destruct (E2 Ho) as [E3 _].
    pose proof (st_v _ _ _ _ _ R1 i j Hi Hj) as V. unfold cellv in V.
    assert (V' : (at2 0%Z (gd_p (xm x)) i j - at2 0%Z (gd_m (xm x)) i j)%Z = entry mat n i j) by (destruct Hq as [Q|Q]; rewrite Q in V; exact V).
    rewrite <- V'. clear V V'.
    assert (F1 : current (@ia_p RM (xm x)) i j = @HRS RM c + IZR (at2 0%Z (gd_p (xm x)) i j) * (@LRS RM c - @HRS RM c)) by (etransitivity; [exact E1|]; unfold level; cbn; ring).
    assert (F2 : current (@ia_m RM (xm x)) i j = @HRS RM c + IZR (at2 0%Z (gd_m (xm x)) i j) * (@LRS RM c - @HRS RM c)) by (etransitivity; [exact E3|]; unfold level; cbn; ring).
    change (@F RM) with R in *. rewrite F1, F2, mult_IZR, minus_IZR. ring.
  - unfold product. rewrite sum_sumZ, <- sumR_IZR. set (d := _ - _). rewrite Rmult_comm, <- sumR_mul_l.
    apply sumR_ext. intros j _. ring.
Qed.

(** C74. *)
Lemma profiled_ok (w : @world RM) x mat m n : reach w -> wx w = Some x -> digital_only (wcfg w) = false -> adc_profile (wcfg w) = true ->
  (m_mode (wcfg w) = BNN_VI \/ m_mode (wcfg w) = TNN_I) ->
  read_disturb (wcfg w) = false -> parasitics (wcfg w) = false -> c2c_var (wcfg w) = false ->
  fle (HRS_NOISE (wcfg w)) f0 = true -> fle (LRS_NOISE (wcfg w)) f0 = true ->
  adc_type (wcfg w) <> INF_ADC -> adc_calib_mode (wcfg w) = CAL_MAX ->
  (2 <= n_levels (adc_type (wcfg w)) (resolution (wcfg w)))%Z -> (resolution (wcfg w) <= 30)%Z ->
  0 < @HRS RM (wcfg w) < @LRS RM (wcfg w) -> dims_in (wcfg w) m n -> (m <= int32_max)%Z ->
  all_entries (weight_in (wcfg w)) mat m n -> sums_fit (wcfg w) n ->
  let dl := @LRS RM (wcfg w) - @HRS RM (wcfg w) in let full := IZR (N (wcfg w)) * dl in let b := IZR (bin_size (wcfg w)) in
  0 < b -> 2 * full / b <= IZR (2 ^ 30) ->
  exists w1, step w (CpyMtrx mat m n) = Ok (w1, RCode 0) /\
    forall res vec mat' l, lookup l (histo (wenv w1)) = None -> all_first (input_in (wcfg w)) vec n ->
      (forall i, (i < Z.to_nat m)%nat -> IZR (product mat vec (Z.to_nat n) i) * dl <= full - b) ->
      room_for (accuracy (wcfg w)) (wcfg w) res m n ->
      exists w2 r, step w1 (ExeMvm res vec mat' m n l) = Ok (w2, RRes 0 r) /\
        within (accuracy (wcfg w)) r res mat vec (Z.to_nat m) (Z.to_nat n).
Proof.
  intros Hr Hx Hd Hp Hq Hrd Hpa Hc2 Hn1 Hn2 Hadc Hcal Hk Hres Hdl Hdim Hmx Hent Hsum dl full b Hb Hbins.
  assert (Hi : is_int (m_mode (wcfg w)) = false) by (destruct Hq as [-> | ->]; reflexivity).
  assert (Hcov : split_covers (wcfg w)) by (intros Q; congruence).
  assert (Hsw : slices_wide (wcfg w)) by (intros Q; congruence).
  assert (Hwf0 : widths_fit (wcfg w)) by (intros Q; congruence).
  destruct (cpy_ready w x mat m n Hr Hx Hd Hrd Hpa) as (w1 & x1 & E1 & G1 & EC & X1 & R1); auto; [intros Q; congruence|].
  exists w1. split; [exact E1|]. intros res vec mat' l Hfresh Hin Hlow Hroom. rewrite <- assoc_lookup in Hfresh.

  subst dl full b. rewrite <- EC in *.
  set (c := wcfg w1) in *. destruct (guard_ok w1 m n G1 Hdim) as (Gd1 & Gd2 & Hm & Hn).
  pose proof (g_x _ G1 x1 X1) as Hxo. pose proof (good_wf w1 G1) as Hwf. pose proof (xo_shape _ _ Hxo) as Hs.
  pose proof (split_nonneg w1 G1) as Hnn. fold c in Hxo, Hwf, Hs, Hnn, Hm, Hn, Gd1, Gd2.
  pose proof Hroom as [HN [Hr1 Hr2]]. pose proof Hin as [Hv1 Hv2]. pose proof Hent as [Hl He]. pose proof Hdim as [Dm Dn].
  set (mN := Z.to_nat m) in *. set (nN := Z.to_nat n) in *. assert (ZN : Z.of_nat nN = n) by (unfold nN; lia).
  assert (Lv : (nN <= len vec)%nat) by (unfold nN; lia). assert (Lr : (mN <= len res)%nat) by (unfold mN; lia).
  assert (D0 : 0 <= @HRS RM c) by lra. assert (D1 : @HRS RM c < @LRS RM c) by lra. assert (D2 : 0 < @LRS RM c - @HRS RM c) by lra.
  assert (Hm4 : m_mode c <> TNN_IV) by (destruct Hq as [-> | ->]; discriminate).
  assert (Hm5 : m_mode c <> TNN_V) by (destruct Hq as [-> | ->]; discriminate).
  pose proof (fin_range nz s w1 G1 Hadc D0 D1) as HR. pose proof (fin_ratio nz s w1 Hadc Hk D1) as HQ.

  assert (HG : agoal nz s (off c) (xm x1) res vec mat' mN nN l (wenv w1) (accuracy c)).
  { eapply (amvm_ready nz s (off c) x1 mat res vec mat' mN nN l (wenv w1) _ _ _ _ (/2) (accuracy c)).
    all: try (match goal with |- _ <= _ => idtac | _ => assumption end).
    - destruct Hs; constructor; assumption.
    - destruct R1 as [[S1 S2 S3 S4] B R2 R3 R4 R5]. constructor; try assumption. constructor; assumption.
    - reflexivity.
    - change (@LRS RM c - @HRS RM c <> 0). lra.
    - intros Q. exfalso. destruct Hq as [Q'|Q']; change (m_mode c = I_OFFS_W_DIFF) in Q; congruence.
    - intros y sc o. exact (fin_adc nz s w1 x1 l G1 X1 Hadc Hcal Hk Hres y sc o).
    - exact (conv_fin nz s _ _ _ _ Hk HR D2).
    - now left.
    - lra.
    - right. lra.
    - right. exact (fin_ok nz s w1 m n G1 Hd Hadc D0 D1 Hdim Hm4 Hm5).
    - rewrite ZN. exact HN.
    - intros i H. rewrite ZN. exact (Hr2 i H).

    - change (is_int (m_mode (off c))) with (is_int (m_mode c)). rewrite Hi.
      change (xerr nz s (off c)) with (xerr nz s c).
      match goal with |- xerr nz s c ?e <= _ => replace (xerr nz s c e) with (if is_int (m_mode c) then AnaInt.ierr nz s c e (/2) else xerr nz s c e) by now rewrite Hi end.
      rewrite errs_eq; [|assumption|assumption]. unfold accuracy. fold c in HQ.
      apply Rplus_le_compat_r. apply (eps_le _ (fun g => g * half_step c + / 2)).
      intros z Hz. pose proof (proj1 (Forall_forall _ _) (gains_nonneg nz s _ Hnn Hcov) z Hz) as P.
      cbv beta. rewrite Rabs_pos_eq by (apply (IZR_le 0); exact P).
      match type of HQ with ?q = _ => match goal with |- _ * ?r + _ <= _ => change r with q end end. rewrite HQ. lra. }
  destruct HG as (mp' & d & EA & HD).
  assert (HS : supported c) by exact (fin_supported nz s w1 G1 Hadc).
  assert (Hty : adc_type c = SYM_RANGE_ADC).
  { destruct HS as (_ & _ & _ & _ & HS). destruct (HS Hd) as (_ & _ & S1 & S2 & _).
    destruct (adc_type c); [congruence|reflexivity|]. exfalso. specialize (S2 eq_refl).
    cbn in S2. destruct Hq as [Q|Q]; rewrite Q in S2; intuition discriminate. }
  assert (Hat : a_ty (mp_adc (xm x1)) = SYM_RANGE_ADC).
  { destruct (levels_up nz s _ _ Hadc Hk Hres) as [L1 L2]. pose proof (sh_adc _ _ Hs) as SA.
    rewrite new_ok in SA by (auto; lia). inversion SA as [Ea]. cbn [a_ty]. exact Hty. }

  assert (Hprod : forall i, (i < mN)%nat -> (Z.abs (product mat vec nN i) <= n)%Z).
  { intros i Hi0. unfold product. rewrite sum_sumZ, <- ZN. rewrite <- (Z.mul_1_r (Z.of_nat nN)). apply sumZ_bound. intros j Hj.
    specialize (He i j Hi0 Hj). specialize (Hv2 j Hj). unfold weight_in in He. unfold input_in in Hv2.
    destruct Hq as [Q|Q]; rewrite Q in He, Hv2; [destruct He as [-> | ->], Hv2 as [-> | ->]|destruct He as [-> | [-> | ->]], Hv2 as [-> | [-> | ->]]]; cbn; lia. }
  assert (RR : all_readings c x1 vec mN nN = map (fun i => one nz s x1 vec nN true (fun v => v) i - one nz s x1 vec nN false (fun v => v) i) (seq 0 mN)).
  { unfold all_readings, readings. destruct Hq as [Q|Q]; rewrite Q; cbn [flat_map]; rewrite app_nil_r; reflexivity. }
  assert (HP : exists e', profile c (mp_adc (xm x1)) l (all_readings c x1 vec mN nN) (wenv w1) = Ok e').
  { unfold profile. rewrite Hfresh, Hat. cbn [max_min_current max_max_current].
    set (mn := - IZR (N c) * (@LRS RM c - @HRS RM c)). set (mx := IZR (N c) * (@LRS RM c - @HRS RM c)).
    change (@fmul RM (fneg (f_of_Z (N c))) (fsub (LRS c) (HRS c))) with mn.
    change (@fmul RM (f_of_Z (N c)) (fsub (LRS c) (HRS c))) with mx. change (@f_of_Z RM (bin_size c)) with (IZR (bin_size c)).
    assert (N1 : 1 <= IZR (N c)) by (apply IZR_le; exact (fin_N nz s w1 G1 Hadc)).
    assert (M0 : 0 < mx) by (unfold mx; apply Rmult_lt_0_compat; lra).
    assert (M1 : mn = - mx) by (unfold mn, mx; ring).
    assert (M2 : mn <= mx) by lra.
    assert (M3 : (mx - mn) / IZR (bin_size c) <= IZR (2 ^ 30)) by (rewrite M1; replace (mx - - mx) with (2 * mx) by ring; exact Hbins).
    pose proof (@hist_new_R nz s mn mx (IZR (bin_size c)) Hb M2 M3) as HN0.
    match type of HN0 with _ = Ok ?h => set (h0 := h) in HN0 end.
    destruct (@in_range_ok nz s mn mx (IZR (bin_size c)) h0 h0 [] (all_readings c x1 vec mN nN) Hb M2 M3 HN0 eq_refl) as (h' & Hh).
    - intros v Hv. rewrite RR in Hv. apply in_map_iff in Hv. destruct Hv as (i & <- & Hi0). apply in_seq in Hi0.
      assert (Him : (i < mN)%nat) by lia.
      pose proof (quad_reading c x1 mat vec mN nN i Hq R1 Him) as EQ. change (@F RM) with R in *. rewrite EQ.
      split; [|exact (Hlow i Him)]. rewrite M1.
      pose proof (Hprod i Him) as Hpb. assert (PB : (- N c <= product mat vec nN i)%Z) by lia. apply IZR_le in PB. rewrite opp_IZR in PB.
      unfold mx. replace (- (IZR (N c) * (@LRS RM c - @HRS RM c))) with ((- IZR (N c)) * (@LRS RM c - @HRS RM c)) by ring.
      apply Rmult_le_compat_r; lra.
    - rewrite RR, map_length, seq_length. cbn [List.length]. unfold mN. lia.
    - change (@F RM) with R in *. rewrite HN0. cbn [bind]. rewrite Hh. cbn [bind]. eexists; reflexivity. }
  destruct HP as (e' & HP).
  assert (Hvo : forall j, (j < nN)%nat -> vok c (nth j vec 0%Z)).
  { intros j Hj. specialize (Hv2 j Hj). unfold input_in in Hv2. unfold vok. destruct Hq as [Q|Q]; rewrite Q in *; exact Hv2. }
  pose proof (quad_on c x1 res vec mat' mN nN l (wenv w1) Hwf Hs Hm Hn Lv Hpa Hp Hq Hvo _ _ _ e' EA HP) as EB.
  eexists. exists (upto mN (fun i y => (y + d i)%Z) res). split.
  { cbn [step]. unfold exe_mvm. fold c. rewrite X1, Gd1, Gd2. cbn [bind]. fold mN nN. unfold xmvm. cbv zeta. rewrite Hd, Hc2. cbn [bind].
    change (xm (x1 <| n_mvm := (n_mvm x1 + 1)%Z |> <| n_read := (n_read x1 + 1)%Z |>)) with (xm x1). rewrite EB. cbn [bind].
    rewrite Hrd. cbn [bind]. reflexivity. }
  pose proof (re_st _ _ _ _ _ R1) as ST.
  split; [apply upto_length|]. intros i. split.
  - intros Hi0. rewrite nth_upto_lt by lia. specialize (HD i Hi0).
    change (dres (off c) (xm x1) vec nN i 0%Z) with (dres c (xm x1) vec nN i 0%Z) in HD.
    rewrite (stored_dres nz s c (xm x1) mat vec mN nN ST) in HD by exact Hi0.
    rewrite !plus_IZR. replace (IZR (nth i res 0%Z) + IZR (d i) - _) with (IZR (d i) - IZR (0 + product mat vec nN i)%Z) by (rewrite plus_IZR; simpl; ring).
    exact HD.
  - intros Hi0. destruct (Nat.lt_ge_cases i (len res)).
    + rewrite nth_upto by auto. now replace (i <? mN)%nat with false by lia.
    + rewrite !nth_overflow; rewrite ?upto_length; auto.
Qed.
End HO.

(** ** A profiled crossbar: BNN_VI, 3 x 4 cells, HRS 5, LRS 30, 8-bit symmetric converter, bins of 5 *)
Section PG.
Context {MC : Machine}.
Local Open Scope Z_scope.
Definition with_prof (c : config) : config := c <| adc_profile := true |> <| bin_size := 5 |>.
Definition prof_doc : json := puts (demo_doc BNN_VI "BNN_VI" "SYM_RANGE_ADC" 8) [("adc_profile", JBool true); ("adc_profile_bin_size", JInt 5)]%string.
Definition prof_cfg : config := with_prof (demo_cfg BNN_VI SYM_RANGE_ADC 8).
Definition prof_vec : list Z := [1; 1; 1; 1].
Definition prof_mvm : call := ExeMvm [1; 2; 3] prof_vec [] 3 4 "L"%string.

Lemma prof_applied : fle (f_of_Z 5) f0 = false -> fle (f_of_Z 30) f0 = false -> apply_config prof_doc config0 = Ok prof_cfg.
Proof. intros A B. unfold f0 in *. cbv -[fle f_of_Z]; rewrite A, B; reflexivity. Qed.
Lemma prof_created a : adc_new prof_cfg SYM_RANGE_ADC = Ok a -> exists x, xbar_new prof_cfg = Ok x.
Proof.
  intros Ha. unfold xbar_new, mapper_new. rewrite (eq_refl : adc_type prof_cfg = SYM_RANGE_ADC), Ha. cbn [bind].
  assert (E1 : digital_only prof_cfg = false /\ parasitics prof_cfg = false) by (split; reflexivity).
  destruct E1 as [-> ->]. cbn [negb andb bind]. eexists. reflexivity.
Qed.
Lemma prof_world a : fle (f_of_Z 5) f0 = false -> fle (f_of_Z 30) f0 = false -> adc_new prof_cfg SYM_RANGE_ADC = Ok a ->
  exists w x, step world0 (SetConfig (Parsed prof_doc)) = Ok (w, RUnit) /\ reach w /\
    wx w = Some x /\ wcfg w = prof_cfg /\ histo (wenv w) = [].
Proof.
  intros H4 H5 H6. pose proof (prof_applied H4 H5) as E. destruct (prof_created a H6) as (x & X).
  eexists _, x.
  assert (Hrun : step world0 (SetConfig (Parsed prof_doc)) =
    Ok (world0 <| wdata := prof_doc |> <| wcfg := prof_cfg |> <| wx := Some x |>, RUnit)).
  { cbn [step]. unfold set_config. cbn [destroy wx wcfg world0 bind].
    change (wcfg (world0 <| wx := None |>)) with config0. rewrite E. cbn [bind]. unfold replace_xbar.
    change (wcfg (world0 <| wx := None |> <| wdata := prof_doc |> <| wcfg := prof_cfg |>)) with prof_cfg.
    rewrite X. reflexivity. }
  split; [exact Hrun|]. split; [exists [SetConfig (Parsed prof_doc)], [RUnit]; split; [|repeat constructor]; cbn [run]; rewrite Hrun; reflexivity|].
  split; [reflexivity|]. split; reflexivity.
Qed.

Lemma prof_entries c mat m n : all_entries (weight_in c) mat m n -> all_entries (weight_in (with_prof c)) mat m n.
Proof. exact (fun H => H). Qed.
Lemma prof_inputs c vec n : all_first (input_in c) vec n -> all_first (input_in (with_prof c)) vec n.
Proof. exact (fun H => H). Qed.
Lemma prof_sums c n : sums_fit c n -> sums_fit (with_prof c) n.
Proof. exact (fun H => H). Qed.
Lemma prof_dims c m n : dims_in c m n -> dims_in (with_prof c) m n.
Proof. exact (fun H => H). Qed.
Lemma prof_mode c : m_mode (with_prof c) = m_mode c.
Proof. reflexivity. Qed.
Lemma prof_facts c : digital_only (with_prof c) = digital_only c /\ adc_profile (with_prof c) = true /\ bin_size (with_prof c) = 5 /\
  read_disturb (with_prof c) = read_disturb c /\ parasitics (with_prof c) = parasitics c /\ c2c_var (with_prof c) = c2c_var c /\
  HRS_NOISE (with_prof c) = HRS_NOISE c /\ LRS_NOISE (with_prof c) = LRS_NOISE c /\ adc_type (with_prof c) = adc_type c /\
  adc_calib_mode (with_prof c) = adc_calib_mode c /\ resolution (with_prof c) = resolution c /\ HRS (with_prof c) = HRS c /\
  LRS (with_prof c) = LRS c /\ N (with_prof c) = N c.
Proof. repeat split. Qed.
Lemma demo_flags : let c := demo_cfg BNN_VI SYM_RANGE_ADC 8 in digital_only c = false /\
  read_disturb c = false /\ parasitics c = false /\ c2c_var c = false /\
  HRS_NOISE c = f0 /\ LRS_NOISE c = f0 /\ adc_type c = SYM_RANGE_ADC /\
  adc_calib_mode c = CAL_MAX /\ resolution c = 8 /\ HRS c = f_of_Z 5 /\
  LRS c = f_of_Z 30 /\ N c = 4 /\ m_mode c = BNN_VI.
Proof. repeat split. Qed.
Lemma demo_fits : dims_in (demo_cfg BNN_VI SYM_RANGE_ADC 8) 3 4 /\ sums_fit (demo_cfg BNN_VI SYM_RANGE_ADC 8) 4.
Proof. split; [unfold dims_in; cbn; lia|]. unfold sums_fit. apply Z.leb_le. reflexivity. Qed.
End PG.

Section PE.
Context (nz : bool -> nat -> R) (s : bool).
#[local] Hint Extern 0 Machine => exact (R_machine nz s) : typeclass_instances.
Notation RM := (R_machine nz s).

Lemma near_int (z k : Z) : (if Req_EM_T (round_away (IZR z)) (IZR k) then 1 else 0)%Z = (if z =? k then 1 else 0)%Z.
Proof.
  rewrite <- away_eq. rewrite (Zrnd_IZR ZnearestA). destruct (Z.eqb_spec z k) as [->|E]; destruct (Req_EM_T _ _) as [Q|Q]; auto; [congruence|].
  exfalso. apply E. now apply eq_IZR.
Qed.


Lemma prof_room (c : @config RM) res m n : room_for (@accuracy nz s c) c res m n -> room_for (@accuracy nz s (with_prof c)) (with_prof c) res m n.
Proof. exact (fun H => H). Qed.
Lemma prof_adc (c : @config RM) ty : @adc_new RM c ty = @adc_new RM (with_prof c) ty.
Proof. reflexivity. Qed.
#[local] Opaque with_prof demo_cfg.

Lemma ex73 : exists w1 w2 w3 x r, step world0 (SetConfig (Parsed (@prof_doc RM))) = Ok (w1, RUnit) /\
  step w1 (CpyMtrx demo_mat 3 4) = Ok (w2, RCode 0) /\ wx w2 = Some x /\ reach w2 /\ wcfg w2 = prof_cfg /\
  step w2 prof_mvm = Ok (w3, RRes 0 r) /\ within (@accuracy nz s prof_cfg) r [1; 2; 3]%Z demo_mat prof_vec 3 4 /\
  all_readings (wcfg w2) x prof_vec 3 4 = [50; -50; 50] /\ grid (wcfg w2) (lookup "L"%string (histo (wenv w2))) = (-100, 5) /\
  map (counter (lookup "L"%string (histo (wenv w3)))) [9; 10; 11; 30; 39]%nat = [0; 1; 0; 2; 0]%Z.
Proof.
  destruct (@demo_flags RM) as (F1 & F2 & F3 & F4 & F5 & F6 & F7 & F8 & F9 & F10 & F11 & F12 & F13).
  assert (Ha : exists a, @adc_new RM prof_cfg SYM_RANGE_ADC = Ok a).
  { unfold prof_cfg. rewrite <- prof_adc. rewrite new_ok; [eauto|discriminate|]. rewrite F9. lia. }
  destruct Ha as (a & Ha).
  destruct (@prof_world RM a (pos_false nz s 5 ltac:(lia)) (pos_false nz s 30 ltac:(lia)) Ha) as (w1 & x & E1 & Hr & Hx & Hc & Hh).
  destruct (@demo_fits RM) as [D1 D2].
  pose proof (prof_entries _ _ _ _ (@demo_entries RM BNN_VI SYM_RANGE_ADC 8)) as HEn.
  assert (HIn : all_first (input_in (@prof_cfg RM)) prof_vec 4).
  { apply prof_inputs. unfold input_in. rewrite F13. split; [cbn; lia|]. intros j Hj. change (Z.to_nat 4) with 4%nat in Hj. destruct j as [|[|[|[|]]]]; try lia; left; reflexivity. }
  pose proof (prof_room _ _ _ _ (demo_room nz s BNN_VI SYM_RANGE_ADC 8 ltac:(discriminate) ltac:(cbn; auto))) as HR.
  pose proof (prof_sums _ _ D2) as HS. pose proof (prof_dims _ _ _ D1) as HD.
  destruct (@prof_facts RM (demo_cfg BNN_VI SYM_RANGE_ADC 8)) as (P1 & P2 & P3 & P4 & P5 & P6 & P7 & P8 & P9 & P10 & P11 & P12 & P13 & P14).
  rewrite F1 in P1. rewrite F2 in P4. rewrite F3 in P5. rewrite F4 in P6. rewrite F5 in P7. rewrite F6 in P8. rewrite F7 in P9.
  rewrite F8 in P10. rewrite F9 in P11. rewrite F10 in P12. rewrite F11 in P13. rewrite F12 in P14.
  pose proof (@prof_mode RM (demo_cfg BNN_VI SYM_RANGE_ADC 8)) as P15. rewrite F13 in P15.
  change (with_prof (demo_cfg BNN_VI SYM_RANGE_ADC 8)) with (@prof_cfg RM) in *. set (c := @prof_cfg RM) in *. clearbody c.
  pose proof (profiled_ok nz s w1 x demo_mat 3 4 Hr Hx) as HP. rewrite Hc in HP.
  rewrite P7, P8 in HP.
  specialize (HP P1 P2 (or_introl P15) P4 P5 P6 (refl_le nz s) (refl_le nz s)). rewrite P3, P9, P11, P14 in HP.
  specialize (HP ltac:(discriminate) P10 ltac:(cbn; lia) ltac:(lia)).

  assert (Q0 : @HRS RM c = 5) by exact P12. assert (Q1 : @LRS RM c = 30) by exact P13.
  change (@F RM) with R in *. rewrite Q0, Q1 in HP. cbv zeta in HP.
  specialize (HP ltac:(lra) HD ltac:(unfold int32_max; lia) HEn HS ltac:(lra) ltac:(change (2 ^ 30)%Z with 1073741824%Z; lra)).
  destruct HP as (w2 & E2 & HM).
  assert (Hi : is_int (m_mode (wcfg w1)) = false) by (rewrite Hc, P15; reflexivity).
  destruct (cpy_ready w1 x demo_mat 3 4 Hr Hx) as (w2' & x2 & E2' & G2 & C2 & X2 & R2); rewrite ?Hc; auto; try (rewrite ?P7, ?P8; apply refl_le).
  { intros Q. rewrite Hc in Hi. congruence. }
  { intros Q. rewrite Hc in Hi. congruence. }
  rewrite E2 in E2'. inversion E2'; subst w2'. clear E2'. rewrite Hc in C2, R2.
  assert (Hh2 : histo (wenv w2) = []).
  { rewrite <- Hh. exact (only_mvms w1 (CpyMtrx demo_mat 3 4) w2 (RCode 0) eq_refl E2). }
  assert (Hpr : forall i, (i < 3)%nat -> In (product demo_mat prof_vec 4 i) [2; -2]%Z).
  { intros i H. destruct i as [|[|[|]]]; try lia; cbn; auto. }
  destruct (HM [1; 2; 3]%Z prof_vec [] "L"%string) as (w3 & r & E3 & W).
  { rewrite Hh2. reflexivity. }
  { exact HIn. }
  { intros i H. change (Z.to_nat 4) with 4%nat. change (Z.to_nat 3) with 3%nat in H. destruct (Hpr i H) as [<-|[<-|[]]]; lra. }
  { exact HR. }
  assert (Hr2 : reach w2).
  { eapply reach_step; [exact Hr|exact E2|]. discriminate. }
  exists w1, w2, w3, x2, r.
  assert (RR : all_readings (wcfg w2) x2 prof_vec 3 4 = [50; -50; 50]).
  { rewrite C2. unfold all_readings, readings. rewrite P15. cbn [flat_map map seq app].
    pose proof (fun i H => quad_reading nz s c x2 demo_mat prof_vec 3 4 i (or_introl P15) R2 H) as QR. unfold one in QR.
    change (@F RM) with R in *. rewrite !QR by lia. rewrite Q0, Q1.
    change (product demo_mat prof_vec 4 0) with 2%Z. change (product demo_mat prof_vec 4 1) with (-2)%Z. change (product demo_mat prof_vec 4 2) with 2%Z.
    repeat (f_equal; try lra). }
  assert (GG : grid (wcfg w2) (lookup "L"%string (histo (wenv w2))) = (-100, 5)).
  { rewrite Hh2, C2. cbn [lookup]. unfold grid. cbn. rewrite P9, P14, P3. change (@F RM) with R. rewrite Q0, Q1. f_equal. lra. }
  repeat (split; [assumption|]).
  pose proof (bins_filled nz s w2 x2 [1; 2; 3]%Z prof_vec [] 3 4 "L"%string w3 r Hr2 X2) as BF. rewrite C2 in BF.
  rewrite P15 in BF. specialize (BF eq_refl P1 P2). rewrite P9 in BF. specialize (BF ltac:(discriminate) P6 P5 HD ltac:(unfold int32_max; lia) HIn E3).
  rewrite <- C2 in BF. change (Z.to_nat 3) with 3%nat in BF. change (Z.to_nat 4) with 4%nat in BF. rewrite RR, GG in BF.
  assert (H0 : forall k, counter (lookup "L"%string (histo (wenv w2))) k = 0%Z) by (intros; rewrite Hh2; reflexivity).
  assert (HH : forall k, hits (-100, 5) [50; -50; 50] k =
    ((if 30 =? Z.of_nat k then 1 else 0) + ((if 10 =? Z.of_nat k then 1 else 0) + ((if 30 =? Z.of_nat k then 1 else 0) + 0)))%Z).
  { intros k. unfold hits. cbn [map fst snd]. rewrite <- !near_int.
    replace ((50 - -100) / 5) with 30 by lra. replace ((-50 - -100) / 5) with 10 by lra. reflexivity. }
  cbn [map]. rewrite !BF, !H0, !HH. reflexivity.
Qed.
End PE.
