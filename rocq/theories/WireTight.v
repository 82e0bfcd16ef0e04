(** Wire resistance keeps the results of BNN_VI and TNN_I below full scale (C71). *)
From Coq Require Import String List ZArith Reals Bool Arith Lia Lra ZifyBool ZifyNat.
From Flocq Require Import Core.
From RecordUpdate Require Import RecordSet.
From Verif Require Import Base Lib Hoare Machine Json Config Histogram Adc ReadDisturb Parasitics
  Mapper IntMappers BnnMappers TnnMappers Crossbar Api RMachine RSpec ParSpec ParCode WriteProofs Shape MvmShape DigMvm DigModes
  DigWrite AnaShape ConfigProofs Reach Cells Spec DigApi Invar StepFacts StoreProps AdcProps NoiseReal ParReal Ladder AnaReal AnaXnn AnaInt AnaWrite AnaSpec
  AnaApi AnaMvm AnaProps KinSpec KinProps ParProps WireSpec Wire Follow WireXnn WireInt WireProps.
Import ListNotations RecordSetNotations.
Local Open Scope R_scope.
Local Open Scope out_scope.
Ltac Zify.zify_post_hook ::= idtac.

(** ** Two columns *)
(** A segment brings two conductances closer, strictly if they differ. *)
Lemma seg_diff W x y : 0 < W -> 0 <= x -> 0 <= y ->
  Rabs (x * W / (x + W) - y * W / (y + W)) <= Rabs (x - y) /\
  (x <> y -> Rabs (x * W / (x + W) - y * W / (y + W)) < Rabs (x - y)).
Proof.
  intros HW Hx Hy.
  assert (E : x * W / (x + W) - y * W / (y + W) = (x - y) * (W * W / ((x + W) * (y + W)))) by (field; lra).
  rewrite E, Rabs_mult.
  assert (P : 0 < (x + W) * (y + W)) by nra.
  assert (Q0 : 0 <= W * W / ((x + W) * (y + W))).
  { apply Rmult_le_pos; [nra|]. left. now apply Rinv_0_lt_compat. }
  assert (Q1 : W * W / ((x + W) * (y + W)) <= 1).
  { apply (Rmult_le_reg_r ((x + W) * (y + W))); [exact P|]. unfold Rdiv. rewrite Rmult_assoc, Rinv_l by lra. nra. }
  rewrite (Rabs_pos_eq _ Q0). pose proof (Rabs_pos (x - y)). split; [nra|].
  intros Hd. assert (Q2 : W * W / ((x + W) * (y + W)) < 1).
  { apply (Rmult_lt_reg_r ((x + W) * (y + W))); [exact P|]. unfold Rdiv. rewrite Rmult_assoc, Rinv_l by lra.
    assert (0 < x \/ 0 < y) as [K|K] by (destruct (Rle_lt_or_eq_dec _ _ Hx), (Rle_lt_or_eq_dec _ _ Hy); auto; lra); nra. }
  assert (0 < Rabs (x - y)) by (apply Rabs_pos_lt; lra). nra.
Qed.
Lemma ladder_diff W g g' k : 0 < W -> (forall i, (i < k)%nat -> 0 <= g i) -> (forall i, (i < k)%nat -> 0 <= g' i) ->
  Rabs (ladder W g k - ladder W g' k) <= sumR k (fun i => Rabs (g i - g' i)) /\
  (0 < sumR k (fun i => Rabs (g i - g' i)) -> Rabs (ladder W g k - ladder W g' k) < sumR k (fun i => Rabs (g i - g' i))).
Proof.
  intros HW. induction k; intros Hg Hg'.
  - cbn. rewrite Rminus_0_r, Rabs_R0. lra.
  - destruct (IHk ltac:(auto) ltac:(auto)) as [IH _]. cbn [ladder sumR].
    pose proof (ladder_nonneg W HW g k ltac:(auto)) as A. pose proof (ladder_nonneg W HW g' k ltac:(auto)) as B.
    specialize (Hg k ltac:(lia)). specialize (Hg' k ltac:(lia)).
    set (x := ladder W g k + g k) in *. set (y := ladder W g' k + g' k) in *.
    assert (D : Rabs (x - y) <= sumR k (fun i => Rabs (g i - g' i)) + Rabs (g k - g' k)).
    { unfold x, y. replace (_ - _) with ((ladder W g k - ladder W g' k) + (g k - g' k)) by ring.
      eapply Rle_trans; [apply Rabs_triang|]. lra. }
    destruct (seg_diff W x y HW ltac:(unfold x; lra) ltac:(unfold y; lra)) as [S1 S2].
    split; [lra|]. intros HP. destruct (Req_dec x y) as [E|E]; [|specialize (S2 E); lra].
    rewrite E, Rminus_diag_eq, Rabs_R0 by reflexivity. exact HP.
Qed.
Lemma column_diff V W g g' N I I' : 0 < V -> 0 < W -> (forall i, 0 <= g i) -> (forall i, 0 <= g' i) ->
  column_current V W g N I -> column_current V W g' N I' ->
  Rabs (I - I') <= sumR N (fun i => Rabs (g i - g' i)) * V /\
  (0 < sumR N (fun i => Rabs (g i - g' i)) * V -> Rabs (I - I') < sumR N (fun i => Rabs (g i - g' i)) * V).
Proof.
  intros HV HW Hg Hg' H H'. apply current_iff in H; auto. apply current_iff in H'; auto. subst I I'.
  destruct (ladder_diff W g g' N HW (fun i _ => Hg i) (fun i _ => Hg' i)) as [D1 D2].
  replace (_ - _) with ((ladder W g N - ladder W g' N) * V) by ring. rewrite Rabs_mult, (Rabs_pos_eq V) by lra.
  split; [apply Rmult_le_compat_r; lra|]. intros HP. apply Rmult_lt_compat_r; [exact HV|]. apply D2. nra.
Qed.

(** Truncation of a sum that stays below an integer bound. *)
Lemma trunc_below (x : R) (b : Z) : Rabs x < IZR b -> (Z.abs (Ztrunc x) < b)%Z.
Proof.
  intros H. apply lt_IZR. rewrite abs_IZR. eapply Rle_lt_trans; [|exact H].
  destruct (Rle_lt_dec 0 x) as [P|P].
  - rewrite Ztrunc_floor by exact P. pose proof (Zfloor_lb x). assert (0 <= IZR (Zfloor x)) by (apply (IZR_le 0), Zfloor_lub; exact P).
    rewrite !Rabs_pos_eq by lra. lra.
  - rewrite Ztrunc_ceil by lra. pose proof (Zceil_ub x). assert (IZR (Zceil x) <= 0) by (apply (IZR_le _ 0), Zceil_glb; lra).
    rewrite !Rabs_left1 by lra. lra.
Qed.

Section RR.
Context (nz : bool -> nat -> R) (s : bool).
#[local] Hint Extern 0 Machine => exact (R_machine nz s) : typeclass_instances.
Notation RM := (R_machine nz s).
Notation MM c := (Z.to_nat (M c)).

Lemma add_loop m (t : list R) (res r : list Z) : (m <= len t)%nat ->
  forN m (fun i res => x <- get t i ;; @res_fadd RM res i x) res = Ok r ->
  forall i, (i < m)%nat -> nth i r 0%Z = Ztrunc (IZR (nth i res 0%Z) + nth i t 0).
Proof.
  intros Lt H. 
  assert (G : len r = len res /\ forall i, nth i r 0%Z = if (i <? m)%nat then Ztrunc (IZR (nth i res 0%Z) + nth i t 0) else nth i res 0%Z).
  { apply (forN_Ok (fun k r => len r = len res /\ forall i, nth i r 0%Z = if (i <? k)%nat then Ztrunc (IZR (nth i res 0%Z) + nth i t 0) else nth i res 0%Z)
      _ _ _ _ H); [split; auto|].
    intros k a b Hk [La Ha] E. change (@F RM) with R in E. rewrite (get_ok t k 0) in E by lia. cbn [bind] in E.
    apply res_fadd_inv in E. destruct E as [Hl ->]. split; [now rewrite upd_length|]. intros i.
    rewrite nth_upd by exact Hl. destruct (i =? k)%nat eqn:Hi.
    - apply Nat.eqb_eq in Hi. subst i. rewrite Ha. replace (k <? k)%nat with false by lia. now replace (k <? S k)%nat with true by lia.
    - rewrite Ha. now replace (i <? S k)%nat with (i <? k)%nat by lia. }
  intros i Hi. destruct G as [_ G]. rewrite G. now replace (i <? m)%nat with true by lia.
Qed.

(** What the two columns of an output differ by, row by row. *)
Lemma rows_diff md ip im vp vm n N i V : md = BNN_VI \/ md = TNN_I -> 0 < V -> (2 * n <= N)%nat -> bits01 vp n -> bits01 vm n ->
  sumR N (fun r => Rabs ((if driven md vp vm n r then cell_at md ip im n false i r / V else 0) -
                         (if driven md vp vm n r then cell_at md ip im n true i r / V else 0))) * V =
  sumR n (fun j => Rabs (ip i j - im i j) * IZR (nth j vp 0 + nth j vm 0)%Z).
Proof.
  intros Hmd HV HN Hp Hm. rewrite <- sumR_mul_r.
  assert (E2 : two_rows md = true) by (destruct Hmd; subst; reflexivity).
  rewrite (sumR_cut (2 * n) N); [|exact HN|].
  2: { intros r Hr. unfold driven, input_of. rewrite E2. replace (r / 2 <? n)%nat with false; [cbn; rewrite Rminus_0_r, Rabs_R0; lra|].
       symmetry. apply Nat.ltb_ge. apply Nat.div_le_lower_bound; lia. }
  rewrite sumR_pairs. apply sumR_ext. intros j Hj.
  assert (A1 : (2 * j / 2 = j)%nat) by (rewrite Nat.mul_comm; now apply Nat.div_mul).
  assert (A2 : ((2 * j + 1) / 2 = j)%nat) by (rewrite Nat.mul_comm, Nat.div_add_l by lia; change (1 / 2)%nat with 0%nat; lia).
  assert (K : forall a b, Rabs (a / V - b / V) * V = Rabs (a - b)).
  { intros a b. replace (a / V - b / V) with ((a - b) / V) by (field; lra). unfold Rdiv. rewrite Rabs_mult, (Rabs_pos_eq (/ V)).
    - field. lra.
    - left. now apply Rinv_0_lt_compat. }
  assert (C : forall minus r, (r / 2 = j)%nat -> cell_at md ip im n minus i r = if Bool.eqb minus (Nat.odd r) then ip i j else im i j).
  { intros minus r Hr. unfold cell_at, input_of. rewrite E2, Hr. replace (j <? n)%nat with true by lia. destruct Hmd; subst md; reflexivity. }
  rewrite !C by auto. unfold driven, input_of. rewrite E2, A1, A2. replace (j <? n)%nat with true by lia. cbn [andb].
  unfold Nat.odd. rewrite even2, even21. cbn [negb Bool.eqb]. rewrite plus_IZR.
  destruct (Hp j Hj) as [-> | ->], (Hm j Hj) as [-> | ->]; cbn [Z.eqb negb]; rewrite ?K, ?(Rabs_minus_sym (im i j)), ?Rminus_0_r, ?Rabs_R0; lra.
Qed.

(** One MVM. *)
Lemma tight_quad (tern : bool) (c : @config RM) (mp : @mapper RM) (p : @psolver RM) we mat res vec mat' m n l e r mp' e' :
  m_mode c = (if tern then TNN_I else BNN_VI) ->
  cfg_wf c -> shape c mp -> @par RM mp = Some p -> @wenc_of (m_mode c) = Some we -> @loaded_with RM c mp p we m n ->
  parasitics c = true -> adc_profile c = false -> a_ty (mp_adc mp) = INF_ADC ->
  (1 <= colsN c)%nat -> @ps_v RM p = V_read c -> V_read c < 0 -> 0 < @ps_w RM p -> 0 <= @HRS RM c ->
  0 < @LRS RM c - @HRS RM c -> @i_mm RM mp = Some (@LRS RM c - @HRS RM c) ->
  stored c mp mat m n ->
  (forall i j, (i < m)%nat -> (j < n)%nat -> at2 0 (@ia_p RM mp) i j = @HRS RM c + IZR (at2 0%Z (gd_p mp) i j) * (@LRS RM c - @HRS RM c) /\
     at2 0 (@ia_m RM mp) i j = @HRS RM c + IZR (at2 0%Z (gd_m mp) i j) * (@LRS RM c - @HRS RM c)) ->
  (m <= MM c)%nat -> (n <= len vec)%nat -> (2 * n <= colsN c)%nat ->
  (forall j, (j < n)%nat -> vok c (nth j vec 0%Z)) ->
  @a_mvm RM c mp res vec mat' m n l e = Ok (r, mp', e') ->
  forall i, (i < m)%nat -> below_full_scale res mat vec r n i.
Proof.
  intros Hmode Hwf Hs Hp Ew HL Hpar Hprof Hinf HN Ev HV Hw Hhrs Hdl Himm Hst Hcell Hm Hvec H2n Hv HE.
  set (dl := @LRS RM c - @HRS RM c) in *.
  assert (Hvb : forall j, (j < n)%nat -> (if tern then ter else bin) (nth j vec 0%Z)).
  { intros j Hj. specialize (Hv j Hj). unfold vok in Hv. destruct tern; now rewrite Hmode in Hv. }
  assert (Hvt : forall j, (j < n)%nat -> ter (nth j vec 0%Z)).
  { intros j Hj. specialize (Hvb j Hj). destruct tern; auto using bin_ter. }
  assert (Lvd : len (vd_p mp) = colsN c) by apply Hs.
  assert (Lvm : len (vd_m mp) = colsN c) by (apply Hs; destruct tern; now rewrite Hmode).
  assert (Ho : outputs c m = m) by (unfold outputs; destruct tern; now rewrite Hmode).
  assert (Hx : is_int (m_mode c) = false) by (destruct tern; now rewrite Hmode).
  assert (E1 : one_column (m_mode c) = false) by (destruct tern; now rewrite Hmode).
  assert (E2 : two_rows (m_mode c) = true) by (destruct tern; now rewrite Hmode).
  assert (HE2 : @quad_a RM tern c mp res vec mat' m n l e = Ok (r, mp', e')).
  { rewrite <- HE. unfold a_mvm. rewrite (sh_mode _ _ Hs), Hmode. destruct tern; reflexivity. }
  clear HE. unfold quad_a in HE2. rewrite two_rail_ok in HE2 by (auto; lia). cbn [bind] in HE2.
  change (upto n _ (vd_p mp)) with (rail vec n posp (vd_p mp)) in HE2. set (up := rail vec n posp _) in *.
  change (upto n _ (vd_m mp)) with (rail vec n negp (vd_m mp)) in HE2. set (um := rail vec n negp _) in *.
  assert (Lp : len up = colsN c) by (unfold up; now rewrite rail_len).
  assert (Lm : len um = colsN c) by (unfold um; now rewrite rail_len).
  assert (Bp : bits01 up n) by (intros j Hj; unfold up, rail; rewrite nth_upto_lt by lia; destruct (Hvt j Hj) as [-> | [-> | ->]]; cbn; auto).
  assert (Bm : bits01 um n) by (intros j Hj; unfold um, rail; rewrite nth_upto_lt by lia; destruct (Hvt j Hj) as [-> | [-> | ->]]; cbn; auto).
  unfold currents in HE2. rewrite Hpar in HE2. cbn iota in HE2. rewrite Hp in HE2.
  assert (Hns : (1 <= nsplit c)%nat) by (pose proof (wf_ns _ Hwf Hx); lia).
  destruct (computed nz s c mp p we m n up um m n) as (t & E & Lt & Ht); auto; try lia.
  { intros i j Hi Hj. unfold rows_of in Hi. rewrite Hx in Hi. destruct (Hcell i j Hi Hj) as [C1 C2].
    pose proof (st_ok _ _ _ _ _ Hst i j Hi Hj) as K. unfold cellok in K. rewrite Hx in K. destruct K as [K1 K2].
    destruct K1 as [K1 _], K2 as [K2 _]. apply IZR_le in K1, K2.
    change (current (@ia_p RM mp) i j) with (at2 0 (@ia_p RM mp) i j). change (current (@ia_m RM mp) i j) with (at2 0 (@ia_m RM mp) i j).
    rewrite C1, C2. split; [nra|]. intros _. nra. }
  { intros _. split; [intros E0; rewrite E0 in Lm; cbn in Lm; lia|]. lia. }
  rewrite E in HE2. cbn [bind] in HE2. clear E.
  assert (Ei : @inv_imm RM mp 1 = Ok (1 / dl)) by (unfold inv_imm; now rewrite Himm). rewrite Ei in HE2. cbn [bind] in HE2.
  destruct (adc_vec_eq nz s c (mp_adc mp) l (fun x sc off => (x + off) * sc) m t (1 / dl) 0 e) as (t2 & Ea & L2 & V2); auto.
  { intros x sc off. unfold adc1. now rewrite Hinf. }
  { exact (eq_ind_r (fun k => m <= k)%nat Hm Lt). }
  change (@f0 RM) with 0 in HE2. rewrite Ea in HE2. cbn [bind] in HE2. apply bind_Ok in HE2. destruct HE2 as (r2 & El & HE2).
  inversion HE2; subst r2; clear HE2. intros i Hi.
  assert (L3 : (m <= len t2)%nat) by (rewrite L2; exact (eq_ind_r (fun k => m <= k)%nat Hm Lt)).
  pose proof (add_loop m t2 res r L3 El i Hi) as Er. rewrite V2 in Er by exact Hi.
  specialize (Ht i Hi). cbv zeta in Ht. rewrite E1 in Ht. destruct Ht as (G1 & G2 & Ip & HIp & Im & HIm & Et).
  specialize (G2 eq_refl).
  assert (HW : 0 < 1000000 / @ps_w RM p) by (apply Rdiv_lt_0_compat; lra).
  destruct (column_diff _ _ _ _ _ _ _ (Ropp_0_gt_lt_contravar _ HV) HW G1 G2 HIp HIm) as [D1 D2].
  rewrite rows_diff in D1, D2 by (auto; try lra; destruct tern; rewrite Hmode; auto).
  assert (ES : sumR n (fun j => Rabs (current (@ia_p RM mp) i j - current (@ia_m RM mp) i j) * IZR (nth j up 0 + nth j um 0)%Z) =
    IZR (abs_product mat vec n i) * dl).
  { unfold abs_product. rewrite sum_sumZ, <- sumR_IZR, <- sumR_mul_r. apply sumR_ext. intros j Hj.
    change (current (@ia_p RM mp) i j) with (at2 0 (@ia_p RM mp) i j). change (current (@ia_m RM mp) i j) with (at2 0 (@ia_m RM mp) i j).
    destruct (Hcell i j Hi Hj) as [-> ->]. pose proof (st_v _ _ _ _ _ Hst i j Hi Hj) as Kv.
    assert (Ke : cellv c mp i j = (at2 0 (gd_p mp) i j - at2 0 (gd_m mp) i j)%Z) by (unfold cellv; destruct tern; now rewrite Hmode).
    rewrite Ke in Kv. rewrite <- Kv, Z.abs_mul, mult_IZR, abs_IZR, minus_IZR.
    replace (_ - _) with ((IZR (at2 0%Z (gd_p mp) i j) - IZR (at2 0%Z (gd_m mp) i j)) * dl) by ring.
    rewrite Rabs_mult, (Rabs_pos_eq dl) by lra.
    assert (Kb : (nth j up 0 + nth j um 0 = Z.abs (nth j vec 0))%Z).
    { unfold up, um, rail. rewrite !nth_upto_lt by lia. destruct (Hvt j Hj) as [-> | [-> | ->]]; reflexivity. }
    rewrite Kb. ring. }
  rewrite ES in D1, D2. rewrite <- Et in D1, D2.
  assert (Hinv : 0 < / dl) by now apply Rinv_0_lt_compat.
  assert (Eq : forall y, Rabs ((y + 0) * (1 / dl)) = Rabs y * / dl).
  { intros y. rewrite Rplus_0_r. unfold Rdiv. rewrite Rmult_1_l, Rabs_mult. now rewrite (Rabs_pos_eq (/ dl)) by lra. }
  split.
  - intros HA. rewrite Er. apply trunc_below. rewrite plus_IZR, abs_IZR.
    eapply Rle_lt_trans; [apply Rabs_triang|]. apply Rplus_lt_compat_l. rewrite Eq.
    apply (Rmult_lt_reg_r dl); [exact Hdl|]. rewrite Rmult_assoc, Rinv_l, Rmult_1_r by lra. apply D2.
    apply Rmult_lt_0_compat; [|exact Hdl]. now apply (IZR_lt 0).
  - intros HA. rewrite HA, Rmult_0_l in D1. pose proof (Rabs_pos (nth i t 0)) as Ha.
    assert (Z0 : nth i t 0 = 0). { destruct (Req_dec (nth i t 0) 0) as [Z0|Z0]; [exact Z0|]. pose proof (Rabs_pos_lt _ Z0). change (@F RM) with R in *. lra. }
    rewrite Er. change (@F RM) with R in *. rewrite Z0, Rplus_0_l, Rmult_0_l, Rplus_0_r. apply Ztrunc_IZR.
Qed.
(** C71. *)
Lemma wires_below : forall (w : @world RM) x p0 mat m n,
  reach w -> wx w = Some x -> m_mode (wcfg w) = BNN_VI \/ m_mode (wcfg w) = TNN_I ->
  only_wires (wcfg w) -> adc_type (wcfg w) = INF_ADC ->
  @par RM (xm x) = Some p0 -> 0 < @ps_w RM p0 -> @HRS RM (wcfg w) < @LRS RM (wcfg w) ->
  dims_in (wcfg w) m n -> solver_fits (wcfg w) m n ->
  all_entries (weight_in (wcfg w)) mat m n -> sums_fit (wcfg w) n ->
  exists w1, step w (CpyMtrx mat m n) = Ok (w1, RCode 0) /\
    forall h w2 rs res vec mat' l, Forall asking h -> run w1 h = Ok (w2, rs) ->
      all_first (input_in (wcfg w)) vec n -> wire_room (wcfg w) res m n ->
      exists w3 r, step w2 (ExeMvm res vec mat' m n l) = Ok (w3, RRes 0 r) /\
        forall i, (i < Z.to_nat m)%nat -> below_full_scale res mat vec r (Z.to_nat n) i.
Proof.
  intros w x p0 mat m n Hr Hx Hmd HO Hadc Hpar Hpw Hdl Hdim Hfit Hent Hsum.
  assert (Hx0 : is_int (m_mode (wcfg w)) = false) by (destruct Hmd as [-> | ->]; reflexivity).
  assert (H2 : two_rows (m_mode (wcfg w)) = true) by (destruct Hmd as [-> | ->]; reflexivity).
  assert (Hcov : split_covers (wcfg w)) by (intros Hi; congruence).
  assert (Hsw : slices_wide (wcfg w)) by (intros Hi; congruence).
  assert (Hwid : widths_fit (wcfg w)) by (intros Hi; congruence).
  pose proof HO as (I1 & I2 & I3 & I4 & I5 & I6 & I7).
  destruct (wired_ready w x mat m n) as (w1 & x1 & E & X1 & HR); auto.
  { rewrite Hpar. discriminate. }
  { now apply rleb_0. }
  { now apply rleb_0. }
  { intros _. left. now apply Hfit. }
  exists w1. split; [exact E|]. intros h w2 rs res vec mat' l Hh Hrun Hin Hroom.
  destruct (wired_mvm nz s w x x1 p0 mat m n w1 res vec mat' l) as (w3 & r & E3 & _); auto.
  { intros K. destruct Hmd as [K2|K2]; rewrite K in K2; discriminate. }
  assert (Hr1 : reach w1) by (eapply reach_step; [exact Hr|exact E|discriminate]).
  assert (HB : forall i, (i < Z.to_nat m)%nat -> below_full_scale res mat vec r (Z.to_nat n) i).
  { pose proof (par_supported w Hr I2) as Hsup.
    assert (Hsp : SPLIT (wcfg w) <> []).
    { pose proof (good_wf w (reach_good _ Hr)) as Hwf. pose proof (wf_ns _ Hwf Hx0) as T. unfold nsplit in T. intros E0. rewrite E0 in T. cbn in T. lia. }
    destruct (write_loaded _ _ _ _ _ _ Hr Hx I1 I2 Hsp Hdim E) as (C1 & Hg1 & x2 & p & we & X2 & P2 & Ew & Ev & Sh & HL & _).
    assert (x2 = x1) by congruence. subst x2.
    assert (EW : @ps_w RM p = @ps_w RM p0).
    { assert (K : kept (par (xm x)) (par (xm x1))).
      { pose proof (reach_good _ Hr) as Hg. destruct (guard_ok w m n Hg Hdim) as (G1 & G2 & _).
        pose proof E as E'. cbn [step] in E'. unfold cpy_mtrx in E'. rewrite Hx, G1, G2 in E'. cbn [bind] in E'. inv_as E' t T. destruct t as [x2 e2].
        inversion E'; subst w1. cbn in X1. inversion X1; subst x2.
        eapply xwrite_kept; [apply (g_x _ Hg _ Hx)|apply (good_wf _ Hg)|exact T]. }
      rewrite Hpar, P2 in K. destruct K as (q & Eq & (_ & _ & S3 & _)). inversion Eq; subst. exact S3. }
    destruct Hsup as (M1 & N1 & _ & _ & HA). destruct (HA I1) as (B1 & B2 & _ & _ & _ & _ & B3). destruct (B3 I2) as [B4 _].
    apply rleb_false in B1, B2, B4. cbn in B1, B2, B4. clear B3 HA.
    destruct (guard_ok w1 m n Hg1 ltac:(rewrite C1; exact Hdim)) as (G1 & G2 & Hm & Hn). rewrite C1 in G1, Hm, Hn.
    pose proof (good_wf w (reach_good _ Hr)) as Hwf.
    destruct Hin as [Hv1 Hin]. destruct Hdim as [Dm Dn].
    specialize (HR []).
    assert (Hst1 : stored (wcfg w) (xm x1) mat (Z.to_nat m) (Z.to_nat n)).
    { eapply (stored_core (wcfg w) (wcfg w)); [apply core_refl| |exact (re_st _ _ _ _ _ HR)]. repeat split. }
    assert (Hinf : a_ty (mp_adc (xm x1)) = INF_ADC).
    { pose proof (sh_adc _ _ Sh) as SA. rewrite Hadc in SA. unfold adc_new in SA.
      destruct (d_trunc _); [|discriminate]. destruct (in32 _); [|discriminate]. inversion SA as [Hy]. reflexivity. }
    destruct (re_b _ _ _ _ _ HR) as (Q1 & _). rewrite I1 in Q1.
    cbn [step] in E3. unfold exe_mvm in E3. rewrite X1, C1, G1, G2 in E3. cbn [bind] in E3. unfold xmvm in E3. cbv zeta in E3.
    rewrite I1, I4 in E3. cbn [bind] in E3.
    change (xm (x1 <| n_mvm := (n_mvm x1 + 1)%Z |> <| n_read := (n_read x1 + 1)%Z |>)) with (xm x1) in E3.
    inv_as E3 t T. inv_as T t3 T3. destruct t3 as [[r3 mp3] e3]. cbn [bind] in T. rewrite I3 in T. cbn [bind] in T.
    inversion T; subst t; clear T. cbv beta iota in E3. inversion E3; subst r3; clear E3.
    assert (F1 : (Z.to_nat n <= len vec)%nat) by lia.
    assert (F2 : (2 * Z.to_nat n <= colsN (wcfg w))%nat) by (destruct Hfit as (K & _); specialize (K H2); unfold colsN; lia).
    assert (F3 : exists tern : bool, m_mode (wcfg w) = if tern then TNN_I else BNN_VI) by (destruct Hmd; [exists false|exists true]; auto).
    destruct F3 as [tern F3].
    apply (tight_quad tern (wcfg w) (xm x1) p we mat res vec mat' (Z.to_nat m) (Z.to_nat n) l (wenv w1) r mp3 e3); auto; try lra.
    - unfold colsN. lia.
    - intros i j Hi Hj. destruct (re_xnn _ _ _ _ _ HR Hx0 i j Hi Hj) as [[K1 _] K2].
      destruct (K2 ltac:(destruct Hmd as [-> | ->]; reflexivity)) as [K3 _].
      assert (LV : forall g, @level RM g (@fsub RM (@LRS RM (wcfg w)) (@HRS RM (wcfg w))) (@HRS RM (wcfg w)) = @HRS RM (wcfg w) + IZR g * (@LRS RM (wcfg w) - @HRS RM (wcfg w))).
      { intros g. change (IZR g * (@LRS RM (wcfg w) - @HRS RM (wcfg w)) + @HRS RM (wcfg w) = @HRS RM (wcfg w) + IZR g * (@LRS RM (wcfg w) - @HRS RM (wcfg w))). ring. }
      rewrite LV in K1, K3. split; [exact K1|exact K3]. }
  assert (C1 : wcfg w1 = wcfg w).
  { cbn [step] in E. unfold cpy_mtrx in E. rewrite Hx in E. destruct (too_big _ _ _); [discriminate E|].
    inv_as E d0 D0. destruct d0 as [mm nn]. inv_as E t T. destruct t. inversion E; subst. reflexivity. }
  destruct (memoryless w1 h w2 rs (ExeMvm res vec mat' m n l) Hr1) as [_ HA]; try (rewrite C1; assumption); auto; [exact Logic.I|].
  rewrite C1 in HA. specialize (HA I7). unfold answer in HA. rewrite E3 in HA. cbn [bind] in HA.
  inv_as HA t T. destruct t as [w4 r4]. inversion HA; subst r4. exists w4, r. split; [exact T|exact HB].
Qed.
End RR.

(** Rows whose terms and accumulator are not negative come out too small. *)
Lemma aligned_low res mat vec r n i : below_full_scale res mat vec r n i ->
  (forall j, (j < n)%nat -> 0 <= entry mat n i j * nth j vec 0)%Z -> (0 <= nth i res 0)%Z -> (0 < product mat vec n i)%Z ->
  (nth i r 0 < nth i res 0 + product mat vec n i)%Z.
Proof.
  intros [H _] Hj Hr Hp.
  assert (E : abs_product mat vec n i = product mat vec n i).
  { unfold abs_product, product. rewrite !sum_sumZ. apply sumZ_ext. intros j Hlt. apply Z.abs_eq. auto. }
  rewrite E in H. specialize (H Hp). lia.
Qed.
