(** The analog MVMs of the binary and ternary modes in exact real arithmetic. *)
From Coq Require Import List ZArith Reals Lra Bool Arith Lia ZifyBool ZifyNat String.
From RecordUpdate Require Import RecordSet.
From Flocq Require Import Core.
From Verif Require Import Base Lib Hoare Machine Json Config Histogram Adc ReadDisturb Parasitics
  Mapper IntMappers BnnMappers TnnMappers WriteProofs Shape MvmShape DigMvm DigModes EmuProps RMachine AnaReal.
Import ListNotations RecordSetNotations.
Local Open Scope R_scope.
Local Open Scope out_scope.

Ltac Zify.zify_post_hook ::= idtac.

Section AR.
Context (nz : bool -> nat -> R) (s : bool).
#[local] Hint Extern 0 Machine => exact (R_machine nz s) : typeclass_instances.
Notation len := List.length.
Notation RM := (R_machine nz s).

Section M.
Context (c : @config RM) (mp : @mapper RM) (res vec mat : list Z) (m n : nat) (l : string) (e : @env RM)
  (cv : R -> R -> R -> R) (ok fit : R -> Prop) (eps : R -> R) (E : R).
Notation MM := (Z.to_nat (M c)).
Notation hrs := (@HRS RM c).
Notation lrs := (@LRS RM c).
Notation dl := (lrs - hrs).
Notation gp r j := (at2 0%Z (gd_p mp) r j).
Notation gm r j := (at2 0%Z (gd_m mp) r j).
Notation ip r j := (at2 0 (@ia_p RM mp) r j).
Notation im r j := (at2 0 (@ia_m RM mp) r j).
Notation vv j := (nth j vec 0%Z).

Context (Hw : cfg_wf c) (Hs : shape c mp)
  (Hm : (m <= MM)%nat) (Hn : (n <= colsN c)%nat)
  (Hres : (m <= len res)%nat) (Hvec : (n <= len vec)%nat)
  (Hpar : parasitics c = false) (Hprof : adc_profile c = false)
  (Hcv : forall x sc off, @adc1 RM c (mp_adc mp) l x sc off = Ok (cv x sc off))
  (HC : conv cv ok fit eps dl)
  (Hfit : (forall y, fit y) \/ ((forall X, fit (IZR X)) /\ partial_sums (m_mode c) = false))
  (Himm : @i_mm RM mp = Some dl) (Hdl : dl <> 0)
  (Hv : forall j, (j < n)%nat -> vok c (vv j))
  (Hok : (forall y, ok y) \/
     (0 <= hrs /\ 0 < dl /\ m_mode c <> TNN_IV /\ m_mode c <> TNN_V /\
      (is_diff (m_mode c) = true -> forall y, Rabs y <= INR n * dl -> ok y) /\
      (is_diff (m_mode c) = false -> forall y, 0 <= y <= INR n * lrs -> ok y)))
  (Hx : is_int (m_mode c) = false)
  (Hc : forall i j, (i < m)%nat -> (j < n)%nat -> cellok c mp i j)
  (Hip : forall i j, (i < m)%nat -> (j < n)%nat -> ip i j = hrs + IZR (gp i j) * dl)
  (Him : two_arrays (m_mode c) = true -> forall i j, (i < m)%nat -> (j < n)%nat -> im i j = hrs + IZR (gm i j) * dl)
  (HN : (Z.of_nat n * 3 <= int_max)%Z)
  (HB : forall i, (i < m)%nat -> IZR (Z.abs (nth i res 0%Z) + Z.of_nat n * 3) + E <= IZR int_max)
  (HF : forall i, (i < m)%nat -> IZR (Z.abs (dres c mp vec n i (nth i res 0%Z))) + E <= IZR int_max).

Definition agoal : Prop :=
  exists mp' d, @a_mvm RM c mp res vec mat m n l e = Ok (upto m (fun i x => (x + d i)%Z) res, mp', e) /\
    forall i, (i < m)%nat -> Rabs (IZR (d i) - IZR (dres c mp vec n i 0)) <= E.

Lemma cell01 i j : (i < m)%nat -> (j < n)%nat -> (0 <= gp i j <= 1 /\ 0 <= gm i j <= 1)%Z.
Proof. intros H1 H2. specialize (Hc i j H1 H2). unfold cellok in Hc. now rewrite Hx in Hc. Qed.
Lemma row_x i : (i < m)%nat -> (i < rowsN c)%nat.
Proof. intros H. pose proof (wf_ns c Hw Hx). unfold rowsN. nia. Qed.
Lemma dres_x i x : dres c mp vec n i x = (x + dres c mp vec n i 0)%Z.
Proof. unfold dres. ring. Qed.

(** *** One conversion of all rows *)
Lemma pass term (tv : nat -> nat -> R) vp vm (t0 : list R) sc off : (m <= len t0)%nat ->
  (forall i j, (i < m)%nat -> (j < n)%nat -> term i j = Ok (tv i j)) ->
  exists t1 t : list R, @currents RM c mp term vp vm m n (@fill (@F RM) t0 (@f0 RM)) = Ok t1 /\
    @adc_vec RM c (mp_adc mp) l m t1 sc off e = Ok (t, e) /\ len t = len t0 /\ (m <= len t)%nat /\
    forall i, (i < m)%nat -> nth i t 0 = cv (sumR n (tv i)) sc off.
Proof.
  intros Ht0 Ht. unfold currents. rewrite Hpar.
  destruct (facc_fill nz s m n term tv t0 Ht0 Ht) as (t1 & E1 & L1 & V1).
  destruct (adc_vec_eq nz s c (mp_adc mp) l cv m t1 sc off e Hcv Hprof (eq_ind_r (fun k => (m <= k)%nat) Ht0 L1)) as (t & E2 & L2 & V2).
  exists t1, t. split; [exact E1|]. split; [exact E2|]. split; [congruence|].
  split; [lia|]. intros i Hi. now rewrite V2, V1.
Qed.
Lemma imm_eq k : @inv_imm RM mp k = Ok (IZR k / dl).
Proof. unfold inv_imm. now rewrite Himm. Qed.

Lemma sc_gain k : (0 <= k)%Z -> Rabs (IZR k / dl * dl) = IZR k.
Proof.
  intros Hk. replace (IZR k / dl * dl) with (IZR k) by (field; exact Hdl).
  apply Rabs_pos_eq. now apply (IZR_le 0).
Qed.

Lemma fit_int X : fit (IZR X).
Proof. destruct Hfit as [H|[H _]]; apply H. Qed.
Lemma fit_any : partial_sums (m_mode c) = true -> forall y, fit y.
Proof. intros H. destruct Hfit as [F|[_ F]]; [exact F|congruence]. Qed.

(** One conversion of a multiple of the step. *)
Lemma near_o (k : Z) (x off : R) (X : Z) : (0 <= k)%Z -> x + off = IZR X * dl -> ok (x + off) ->
  exists z, cv x (IZR k / dl) off = IZR z /\ Rabs (IZR z - IZR (k * X)) <= eps (IZR k).
Proof.
  intros Hk Ex Hy. assert (EX : (x + off) * (IZR k / dl) = IZR (k * X)).
  { rewrite Ex, mult_IZR. field. exact Hdl. }
  exists (Ztrunc (cv x (IZR k / dl) off)). rewrite <- (cv_int cv ok fit eps dl x _ off _ HC EX). split; [reflexivity|].
  pose proof (cv_acc _ _ _ _ _ HC x (IZR k / dl) off Hy (eq_ind_r fit (fit_int _) EX)) as H.
  now rewrite EX, sc_gain in H.
Qed.
Lemma near_x (k : Z) (x : R) (X : Z) : (0 <= k)%Z -> x = IZR X * dl -> ok x ->
  exists z, cv x (IZR k / dl) 0 = IZR z /\ Rabs (IZR z - IZR (k * X)) <= eps (IZR k).
Proof. intros Hk Ex Hy. apply near_o; auto; now rewrite Rplus_0_r. Qed.

(** Sums of differential currents. *)
Lemma ok_diff (x : R) (f : nat -> Z) : is_diff (m_mode c) = true -> x = IZR (sumZ n f) * dl ->
  (forall j, (j < n)%nat -> (Z.abs (f j) <= 1)%Z) -> ok x.
Proof.
  intros Hd -> Hf. destruct Hok as [H|(_ & H2 & _ & _ & H & _)]; [apply H|]. apply H; auto.
  rewrite Rabs_mult, (Rabs_pos_eq dl) by lra. apply Rmult_le_compat_r; [lra|].
  rewrite abs_Z, INR_IZR_INZ. apply IZR_le.
  rewrite <- (Z.mul_1_r (Z.of_nat n)). now apply sumZ_bound.
Qed.

Definition rail (f : Z -> Z) (l0 : list Z) : list Z := upto n (fun j _ => f (nth j vec 0%Z)) l0.
Lemma rail_nth f l0 j : len l0 = colsN c -> (j < n)%nat -> nth j (rail f l0) 0%Z = f (vv j).
Proof. intros Hl Hj. unfold rail. now rewrite nth_upto_lt by lia. Qed.
Lemma rail_len f l0 : len (rail f l0) = len l0.
Proof. apply upto_length. Qed.

Lemma fterm_x (sw : bool) (u : list Z) i j : (i < m)%nat -> (j < n)%nat -> len u = colsN c -> two_arrays (m_mode c) = true ->
  @fterm RM (if sw then @ia_m RM mp else @ia_p RM mp) (if sw then @ia_p RM mp else @ia_m RM mp) u i j =
  Ok (IZR ((if sw then gm i j - gp i j else gp i j - gm i j) * nth j u 0)%Z * dl).
Proof.
  intros Hi Hj Hu Ht. pose proof (row_x i Hi).
  destruct sw; rewrite (fterm_eq nz s (rowsN c) (colsN c)); try apply Hs; try lia;
    rewrite Hip, Him by auto; rewrite mult_IZR, minus_IZR; f_equal; ring.
Qed.

Lemma vdp_len : len (vd_p mp) = colsN c. Proof. apply Hs. Qed.
Lemma tmp_len : (m <= len (@tmp RM mp))%nat.
Proof. rewrite (sh_tmp _ _ Hs Hx). exact Hm. Qed.

Lemma sum_dl (f : nat -> Z) : sumR n (fun j => IZR (f j) * dl) = IZR (sumZ n f) * dl.
Proof. now rewrite sumR_mul_r, sumR_IZR. Qed.

Lemma dres_lin i (f : nat -> Z) k : kap c = k -> (forall j, (j < n)%nat ->
   f j = cellv c mp i j * vv j + cellb c mp i j + k * cellv c mp i j)%Z ->
  (dres c mp vec n i 0 = sumZ n f - k * nth i (sum_w mp) 0)%Z.
Proof.
  intros Hk Hf. unfold dres. rewrite Hk.
  rewrite (sumZ_ext n f (fun j => cellv c mp i j * vv j + cellb c mp i j + k * cellv c mp i j)%Z) by auto.
  rewrite (sumZ_add n (fun j => cellv c mp i j * vv j + cellb c mp i j)%Z (fun j => k * cellv c mp i j)%Z).
  rewrite (sumZ_mul_l n k (fun j => cellv c mp i j)). ring.
Qed.

Ltac fin w :=
  match goal with |- context [forN m ?b res] =>
    destruct (res_final nz s m b w (fun i => dres c mp vec n i 0) E res Hres) as (Efin & HD) end.

(** *** BNN_I and BNN_II *)
Lemma ana_bnn_i : m_mode c = BNN_I -> eps 2 <= E -> agoal.
Proof.
  intros Hmode HE.
  assert (Hvb : forall j, (j < n)%nat -> bin (vv j)).
  { intros j Hj. specialize (Hv j Hj). unfold vok in Hv. now rewrite Hmode in Hv. }
  assert (H2 : two_arrays (m_mode c) = true) by now rewrite Hmode.
  unfold agoal, a_mvm. rewrite (sh_mode _ _ Hs), Hmode. unfold bnn_i_a. pose proof vdp_len as Hvl.
  rewrite (load_ok vec n _ posp) by (try lia; intros j Hj; destruct (Hvb j Hj) as [-> | ->]; reflexivity).
  change (upto n _ (vd_p mp)) with (rail posp (vd_p mp)). set (u := rail _ _). cbn [bind].
  assert (Lu : len u = colsN c) by (unfold u; now rewrite rail_len).
  assert (Nu : forall j, (j < n)%nat -> nth j u 0%Z = posp (vv j)) by (intros; unfold u; now apply rail_nth).
  destruct (pass (@fterm RM (@ia_p RM mp) (@ia_m RM mp) u) (fun i j => IZR ((gp i j - gm i j) * nth j u 0)%Z * dl)
    u [] (@tmp RM mp) (IZR 2 / dl) (@f0 RM) tmp_len) as (t1 & t & E1 & E2 & _ & L & V).
  { intros i j Hi Hj. exact (fterm_x false u i j Hi Hj Lu H2). }
  rewrite E1. cbn [bind]. rewrite imm_eq. cbn [bind]. rewrite E2. cbn [bind].
  fin (fun i => nth i t 0 - IZR (nth i (sum_w mp) 0%Z)).
  - intros i Hi. rewrite V by auto. rewrite sum_dl. change (@f0 RM) with 0.
    set (X := sumZ n _).
    destruct (near_x 2 (IZR X * dl) X ltac:(lia) eq_refl) as (z & Ez & Hz).
    { apply (ok_diff _ (fun j => (gp i j - gm i j) * nth j u 0)%Z); [now rewrite Hmode|reflexivity|].
      intros j Hj. rewrite Nu by auto. pose proof (cell01 i j Hi Hj).
      destruct (Hvb j Hj) as [-> | ->]; cbn; lia. }
    rewrite Ez. exists (z - nth i (sum_w mp) 0)%Z. split; [now rewrite minus_IZR|].
    rewrite (dres_lin i (fun j => 2 * ((gp i j - gm i j) * nth j u 0))%Z 1).
    + rewrite sumZ_mul_l. fold X. rewrite !minus_IZR, !Z.mul_1_l.
      replace (_ - _) with (IZR z - IZR (2 * X)) by ring. lra.
    + unfold kap. now rewrite Hmode.
    + intros j Hj. rewrite Nu by auto. unfold cellv, cellb. rewrite Hmode.
      destruct (Hvb j Hj) as [-> | ->]; cbn [posp Z.max Z.compare]; ring.
  - intros i Hi. pose proof (HF i Hi) as HFi. now rewrite dres_x in HFi.
  - intros i a Hi Ha. change (@F RM) with R. rewrite (get_ok t i 0) by lia. cbn [bind].
    rewrite (get_ok (sum_w mp) i 0%Z) by (rewrite (sh_sw _ _ Hs); lia). reflexivity.
  - rewrite Efin. cbn [bind]. eexists _, _. split; [reflexivity|exact HD].
Qed.

Lemma ana_bnn_ii : m_mode c = BNN_II -> eps 2 <= E -> agoal.
Proof.
  intros Hmode HE.
  assert (Hvb : forall j, (j < n)%nat -> bin (vv j)).
  { intros j Hj. specialize (Hv j Hj). unfold vok in Hv. now rewrite Hmode in Hv. }
  assert (H2 : two_arrays (m_mode c) = true) by now rewrite Hmode.
  unfold agoal, a_mvm. rewrite (sh_mode _ _ Hs), Hmode. unfold bnn_ii_a. pose proof vdp_len as Hvl.
  rewrite (load_ok vec n _ negp) by (try lia; intros j Hj; destruct (Hvb j Hj) as [-> | ->]; reflexivity).
  change (upto n _ (vd_p mp)) with (rail negp (vd_p mp)). set (u := rail _ _). cbn [bind].
  assert (Lu : len u = colsN c) by (unfold u; now rewrite rail_len).
  assert (Nu : forall j, (j < n)%nat -> nth j u 0%Z = negp (vv j)) by (intros; unfold u; now apply rail_nth).
  destruct (pass (@fterm RM (@ia_m RM mp) (@ia_p RM mp) u) (fun i j => IZR ((gm i j - gp i j) * nth j u 0)%Z * dl)
    u [] (@tmp RM mp) (IZR 2 / dl) (@f0 RM) tmp_len) as (t1 & t & E1 & E2 & _ & L & V).
  { intros i j Hi Hj. exact (fterm_x true u i j Hi Hj Lu H2). }
  rewrite E1. cbn [bind]. rewrite imm_eq. cbn [bind]. rewrite E2. cbn [bind].
  fin (fun i => nth i t 0 + IZR (nth i (sum_w mp) 0%Z)).
  - intros i Hi. rewrite V by auto. rewrite sum_dl. change (@f0 RM) with 0.
    set (X := sumZ n _).
    destruct (near_x 2 (IZR X * dl) X ltac:(lia) eq_refl) as (z & Ez & Hz).
    { apply (ok_diff _ (fun j => (gm i j - gp i j) * nth j u 0)%Z); [now rewrite Hmode|reflexivity|].
      intros j Hj. rewrite Nu by auto. pose proof (cell01 i j Hi Hj).
      destruct (Hvb j Hj) as [-> | ->]; cbn; lia. }
    rewrite Ez. exists (z + nth i (sum_w mp) 0)%Z. split; [now rewrite plus_IZR|].
    rewrite (dres_lin i (fun j => 2 * ((gm i j - gp i j) * nth j u 0))%Z (-1)).
    + rewrite sumZ_mul_l. fold X.
      replace (2 * X - -1 * nth i (sum_w mp) 0)%Z with (2 * X + nth i (sum_w mp) 0)%Z by ring.
      rewrite !plus_IZR. replace (_ - _) with (IZR z - IZR (2 * X)) by ring. lra.
    + unfold kap. now rewrite Hmode.
    + intros j Hj. rewrite Nu by auto. unfold cellv, cellb. rewrite Hmode.
      destruct (Hvb j Hj) as [-> | ->]; cbn [negp Z.max Z.compare Z.opp]; ring.
  - intros i Hi. pose proof (HF i Hi) as HFi. now rewrite dres_x in HFi.
  - intros i a Hi Ha. change (@F RM) with R. rewrite (get_ok t i 0) by lia. cbn [bind].
    rewrite (get_ok (sum_w mp) i 0%Z) by (rewrite (sh_sw _ _ Hs); lia). reflexivity.
  - rewrite Efin. cbn [bind]. eexists _, _. split; [reflexivity|exact HD].
Qed.

(** *** Two rails *)
Lemma fterm1_x (second : bool) (u : list Z) i j : (i < m)%nat -> (j < n)%nat -> len u = colsN c ->
  (second = true -> two_arrays (m_mode c) = true) ->
  @fterm1 RM (if second then @ia_m RM mp else @ia_p RM mp) u i j =
  Ok ((hrs + IZR (if second then gm i j else gp i j) * dl) * IZR (nth j u 0%Z)).
Proof.
  intros Hi Hj Hu Ht. pose proof (row_x i Hi).
  destruct second; rewrite (fterm1_eq nz s (rowsN c) (colsN c)); try apply Hs; try lia;
    [rewrite Him by auto|rewrite Hip by auto]; reflexivity.
Qed.
Lemma sum_hrs (f g : nat -> Z) :
  sumR n (fun j => (hrs + IZR (f j) * dl) * IZR (g j)) = IZR (sumZ n g) * hrs + IZR (sumZ n (fun j => f j * g j)%Z) * dl.
Proof.
  rewrite (sumR_ext n _ (fun j => IZR (g j) * hrs + IZR (f j * g j) * dl)).
  - now rewrite sumR_add, !sumR_mul_r, !sumR_IZR.
  - intros j _. rewrite mult_IZR. ring.
Qed.
Lemma sum_le01 (f g : nat -> Z) : (forall j, (j < n)%nat -> (0 <= f j <= g j)%Z) ->
  0 <= IZR (sumZ n f) <= IZR (sumZ n g).
Proof.
  intros H. split; apply IZR_le.
  - apply sumZ_nonneg. intros. now apply H.
  - apply sumZ_le. intros. now apply H.
Qed.

(** Two conversions whose ideal difference is integral. *)
Lemma near2 k x1 off1 x2 off2 X : partial_sums (m_mode c) = true -> (0 <= k)%Z -> (x1 + off1) - (x2 + off2) = IZR X * dl ->
  ok (x1 + off1) -> ok (x2 + off2) ->
  exists z, cv x1 (IZR k / dl) off1 - cv x2 (IZR k / dl) off2 = IZR z /\
    Rabs (IZR z - IZR (k * X)) <= 2 * eps (IZR k).
Proof.
  intros Hps Hk EX O1 O2. pose proof (fit_any Hps) as HF0.
  assert (EX' : (x1 + off1) * (IZR k / dl) - (x2 + off2) * (IZR k / dl) = IZR (k * X)).
  { rewrite mult_IZR. replace (_ - _) with ((x1 + off1 - (x2 + off2)) * (IZR k / dl)) by ring.
    rewrite EX. field. exact Hdl. }
  pose proof (cv_acc _ _ _ _ _ HC x1 (IZR k / dl) off1 O1 (HF0 _)) as A1.
  pose proof (cv_acc _ _ _ _ _ HC x2 (IZR k / dl) off2 O2 (HF0 _)) as A2. rewrite sc_gain in A1, A2 by auto.
  assert (A : Rabs (cv x1 (IZR k / dl) off1 - cv x2 (IZR k / dl) off2 - IZR (k * X)) <= 2 * eps (IZR k)).
  { rewrite <- EX'.
    replace (_ - _) with ((cv x1 (IZR k / dl) off1 - (x1 + off1) * (IZR k / dl)) -
       (cv x2 (IZR k / dl) off2 - (x2 + off2) * (IZR k / dl))) by ring.
    unfold Rminus at 1. eapply Rle_trans; [apply Rabs_triang|]. rewrite Rabs_Ropp. lra. }
  destruct (cv_case _ _ _ _ _ HC) as [I|I].
  - destruct (I x1 (IZR k / dl) off1) as (z1 & E1), (I x2 (IZR k / dl) off2) as (z2 & E2).
    exists (z1 - z2)%Z. rewrite minus_IZR, <- E1, <- E2. split; [reflexivity|]. exact A.
  - exists (k * X)%Z. split; [now rewrite !I, EX'|]. rewrite Rminus_diag_eq, Rabs_R0 by reflexivity.
    pose proof (cv_eps _ _ _ _ _ HC (IZR k)). lra.
Qed.

Lemma bin_rails v : bin v -> (0 <= posp v /\ 0 <= negp v /\ posp v + negp v = 1 /\ posp v - negp v = v)%Z.
Proof. intros [-> | ->]; cbn; lia. Qed.
Lemma ter_rails v : ter v -> (0 <= posp v /\ 0 <= negp v /\ posp v + negp v <= 1 /\ posp v - negp v = v)%Z.
Proof. intros [-> | [-> | ->]]; cbn; lia. Qed.

Lemma ana_bnn_iii_iv (inv : bool) : m_mode c = (if inv then BNN_IV else BNN_III) -> 2 * eps 2 <= E -> agoal.
Proof.
  intros Hmode HE.
  assert (Hvb : forall j, (j < n)%nat -> bin (vv j)).
  { intros j Hj. specialize (Hv j Hj). unfold vok in Hv. destruct inv; now rewrite Hmode in Hv. }
  assert (Hd : is_diff (m_mode c) = false) by (destruct inv; now rewrite Hmode).
  assert (Lvm : len (vd_m mp) = colsN c) by (apply Hs; destruct inv; now rewrite Hmode).
  destruct (sh_tpm _ _ Hs) as (Ltp & Ltm); [destruct inv; auto|].
  assert (EA : @a_mvm RM c mp res vec mat m n l e = @bnn_iii_iv_a RM inv c mp res vec mat m n l e).
  { unfold a_mvm. rewrite (sh_mode _ _ Hs), Hmode. destruct inv; reflexivity. }
  unfold agoal. rewrite EA. unfold bnn_iii_iv_a. pose proof vdp_len as Hvl.
  rewrite two_rail_sum_ok by (auto; unfold int_max in *; lia). cbn [bind].
  change (upto n _ (vd_p mp)) with (rail posp (vd_p mp)). set (up := rail posp _).
  change (upto n _ (vd_m mp)) with (rail negp (vd_m mp)). set (um := rail negp _).
  assert (Lp : len up = colsN c) by (unfold up; now rewrite rail_len).
  assert (Lm : len um = colsN c) by (unfold um; now rewrite rail_len).
  assert (Np : forall j, (j < n)%nat -> nth j up 0%Z = posp (vv j)) by (intros; unfold up; now apply rail_nth).
  assert (Nm : forall j, (j < n)%nat -> nth j um 0%Z = negp (vv j)) by (intros; unfold um; now apply rail_nth).
  set (sm := sumZ n (fun j => vv j)).
  assert (Hsm : (Z.abs sm <= Z.of_nat n * 1)%Z).
  { apply sumZ_bound. intros j Hj. destruct (Hvb j Hj) as [-> | ->]; lia. }
  assert (Esm : (sm = sumZ n (fun j => nth j up 0) - sumZ n (fun j => nth j um 0))%Z).
  { unfold sm. rewrite <- sumZ_sub. apply sumZ_ext. intros j Hj. rewrite Np, Nm by auto. symmetry. apply pos_neg. }
  assert (En : (sumZ n (fun j => nth j up 0) + sumZ n (fun j => nth j um 0) = Z.of_nat n)%Z).
  { rewrite <- sumZ_add. rewrite (sumZ_ext n _ (fun _ => 1%Z)); [rewrite sumZ_const; lia|].
    intros j Hj. rewrite Np, Nm by auto. now apply bin_rails, Hvb. }
  destruct (pass (@fterm1 RM (@ia_p RM mp) up) (fun i j => (hrs + IZR (gp i j) * dl) * IZR (nth j up 0%Z))
    up [] (@tmp_p RM mp) (IZR 2 / dl) (@fmul RM (@f_of_Z RM (- sm)) hrs) ltac:(change (m <= len (@tmp_p RM mp))%nat; rewrite Ltp; exact Hm))
    as (t1 & tp & E1 & E2 & _ & L1 & V1).
  { intros i j Hi Hj. apply (fterm1_x false up i j Hi Hj Lp). discriminate. }
  destruct (pass (@fterm1 RM (@ia_p RM mp) um) (fun i j => (hrs + IZR (gp i j) * dl) * IZR (nth j um 0%Z))
    um [] (@tmp_m RM mp) (IZR 2 / dl) (@f0 RM) ltac:(change (m <= len (@tmp_m RM mp))%nat; rewrite Ltm; exact Hm))
    as (t2 & tm & E3 & E4 & _ & L2 & V2).
  { intros i j Hi Hj. apply (fterm1_x false um i j Hi Hj Lm). discriminate. }
  rewrite E1. cbn [bind]. rewrite E3. cbn [bind]. rewrite imm_eq. cbn [bind].
  rewrite neg32_ok by (unfold int_min, int_max in *; lia). cbn [bind].
  rewrite E2. cbn [bind]. rewrite E4. cbn [bind].
  fin (fun i => if inv then nth i tm 0 - nth i tp 0 + IZR sm else nth i tp 0 - nth i tm 0 - IZR sm).
  - intros i Hi. rewrite V1, V2 by auto. rewrite !sum_hrs. change (@f0 RM) with 0.
    change (@fmul RM (@f_of_Z RM (- sm)) hrs) with (IZR (- sm) * hrs).
    set (Gp := sumZ n (fun j => gp i j * nth j up 0)%Z). set (Gm := sumZ n (fun j => gp i j * nth j um 0)%Z).
    set (np := sumZ n (fun j => nth j up 0)%Z) in *. set (nm := sumZ n (fun j => nth j um 0)%Z) in *.
    assert (BGp : 0 <= IZR Gp <= IZR np).
    { apply sum_le01. intros j Hj. pose proof (cell01 i j Hi Hj). rewrite Np by auto.
      pose proof (bin_rails _ (Hvb j Hj)). nia. }
    assert (BGm : 0 <= IZR Gm <= IZR nm).
    { apply sum_le01. intros j Hj. pose proof (cell01 i j Hi Hj). rewrite Nm by auto.
      pose proof (bin_rails _ (Hvb j Hj)). nia. }
    assert (Rsm : IZR sm = IZR np - IZR nm) by (rewrite <- minus_IZR; now f_equal).
    assert (Rn : IZR np + IZR nm = INR n) by (rewrite <- plus_IZR, INR_IZR_INZ; now f_equal).
    assert (EO : IZR np * hrs + IZR Gp * dl + IZR (- sm) * hrs = IZR nm * hrs + IZR Gp * dl).
    { rewrite opp_IZR, Rsm. ring. }
    assert (O1 : ok (IZR np * hrs + IZR Gp * dl + IZR (- sm) * hrs)).
    { rewrite EO. destruct Hok as [H|(H1 & H2 & _ & _ & _ & H)]; [apply H|]. apply H; auto.
      rewrite <- Rn. split; [nra|]. nra. }
    assert (O2 : ok (IZR nm * hrs + IZR Gm * dl + 0)).
    { rewrite Rplus_0_r. destruct Hok as [H|(H1 & H2 & _ & _ & _ & H)]; [apply H|]. apply H; auto.
      rewrite <- Rn. split; [nra|]. nra. }
    destruct (near2 2 (IZR np * hrs + IZR Gp * dl) (IZR (- sm) * hrs) (IZR nm * hrs + IZR Gm * dl) 0 (Gp - Gm))
      as (z & Ez & Hz); auto; [now destruct inv; rewrite Hmode|lia|rewrite EO, minus_IZR; ring|].
    assert (ED : dres c mp vec n i 0 = (if inv then - (2 * (Gp - Gm)) + sm else 2 * (Gp - Gm) - sm)%Z).
    { rewrite (dres_lin i (fun j => if inv then - 2 * (gp i j * nth j up 0 - gp i j * nth j um 0) + vv j
         else 2 * (gp i j * nth j up 0 - gp i j * nth j um 0) - vv j)%Z 0).
      - rewrite Z.mul_0_l, Z.sub_0_r. unfold Gp, Gm, sm. destruct inv.
        + rewrite sumZ_add, sumZ_mul_l, sumZ_sub. ring.
        + rewrite sumZ_sub, sumZ_mul_l, sumZ_sub. ring.
      - unfold kap. destruct inv; now rewrite Hmode.
      - intros j Hj. rewrite Np, Nm by auto. unfold cellv, cellb.
        destruct inv; rewrite Hmode; destruct (Hvb j Hj) as [-> | ->]; cbn [posp negp Z.max Z.compare Z.opp]; ring. }
    rewrite ED. destruct inv.
    + exists (- z + sm)%Z. split; [rewrite plus_IZR, (opp_IZR z), <- Ez; ring|].
      rewrite !plus_IZR, !opp_IZR. replace (_ - _) with (- (IZR z - IZR (2 * (Gp - Gm)))) by ring.
      rewrite Rabs_Ropp. lra.
    + exists (z - sm)%Z. split; [rewrite minus_IZR, <- Ez; ring|].
      rewrite !minus_IZR with (m := sm). replace (_ - _) with (IZR z - IZR (2 * (Gp - Gm))) by ring. lra.
  - intros i Hi. pose proof (HF i Hi) as HFi. now rewrite dres_x in HFi.
  - intros i a Hi Ha. change (@F RM) with R. rewrite (get_ok tp i 0) by lia. cbn [bind].
    rewrite (get_ok tm i 0) by lia. destruct inv; reflexivity.
  - rewrite Efin. cbn [bind]. eexists _, _. split; [reflexivity|exact HD].
Qed.

Lemma ana_bnn_v : m_mode c = BNN_V -> eps 2 <= E -> agoal.
Proof.
  intros Hmode HE.
  assert (Hvb : forall j, (j < n)%nat -> bin (vv j)).
  { intros j Hj. specialize (Hv j Hj). unfold vok in Hv. now rewrite Hmode in Hv. }
  assert (Hd : is_diff (m_mode c) = false) by now rewrite Hmode.
  assert (H2 : two_arrays (m_mode c) = true) by now rewrite Hmode.
  assert (Lvm : len (vd_m mp) = colsN c) by (apply Hs; now rewrite Hmode).
  unfold agoal, a_mvm. rewrite (sh_mode _ _ Hs), Hmode. unfold bnn_v_a. pose proof vdp_len as Hvl.
  rewrite two_rail_ok by (auto; lia). cbn [bind].
  change (upto n _ (vd_p mp)) with (rail posp (vd_p mp)). set (up := rail posp _).
  change (upto n _ (vd_m mp)) with (rail negp (vd_m mp)). set (um := rail negp _).
  assert (Lp : len up = colsN c) by (unfold up; now rewrite rail_len).
  assert (Lm : len um = colsN c) by (unfold um; now rewrite rail_len).
  assert (Np : forall j, (j < n)%nat -> nth j up 0%Z = posp (vv j)) by (intros; unfold up; now apply rail_nth).
  assert (Nm : forall j, (j < n)%nat -> nth j um 0%Z = negp (vv j)) by (intros; unfold um; now apply rail_nth).
  destruct (pass (fun i j => x <- @fterm1 RM (@ia_p RM mp) up i j ;; y <- @fterm1 RM (@ia_m RM mp) um i j ;; Ok (@fadd RM x y))
    (fun i j => hrs + IZR (gp i j * nth j up 0 + gm i j * nth j um 0)%Z * dl)
    up um (@tmp RM mp) (IZR 2 / dl) (@fmul RM (@f_of_Z RM (- Z.of_nat n)) hrs) tmp_len) as (t1 & t & E1 & E2 & _ & L & V).
  { intros i j Hi Hj. rewrite (fterm1_x false up i j Hi Hj Lp) by discriminate. cbn [bind].
    rewrite (fterm1_x true um i j Hi Hj Lm) by auto. cbn [bind]. f_equal.
    change (@F RM) with R. change (@fadd RM) with Rplus. rewrite Np, Nm by auto.
    destruct (Hvb j Hj) as [-> | ->]; cbn [posp negp Z.max Z.compare Z.opp];
      rewrite ?Z.mul_0_r, ?Z.mul_1_r, ?Z.add_0_l, ?Z.add_0_r; ring. }
  rewrite E1. cbn [bind]. rewrite imm_eq. cbn [bind]. rewrite E2. cbn [bind].
  fin (fun i => nth i t 0 - IZR (Z.of_nat n)).
  - intros i Hi. rewrite V by auto.
    change (@fmul RM (@f_of_Z RM (- Z.of_nat n)) hrs) with (IZR (- Z.of_nat n) * hrs).
    rewrite sumR_add, sumR_const, sum_dl, INR_IZR_INZ. set (X := sumZ n _).
    assert (EO : IZR (Z.of_nat n) * hrs + IZR X * dl + IZR (- Z.of_nat n) * hrs = IZR X * dl).
    { rewrite opp_IZR. ring. }
    assert (BX : 0 <= IZR X <= IZR (sumZ n (fun _ => 1%Z))).
    { apply sum_le01. intros j Hj. rewrite Np, Nm by auto. pose proof (cell01 i j Hi Hj).
      destruct (Hvb j Hj) as [-> | ->]; cbn [posp negp Z.max Z.compare Z.opp]; lia. }
    rewrite sumZ_const, Z.mul_1_r, <- INR_IZR_INZ in BX.
    destruct (near_o 2 (IZR (Z.of_nat n) * hrs + IZR X * dl) (IZR (- Z.of_nat n) * hrs) X ltac:(lia) EO) as (z & Ez & Hz).
    { rewrite EO. destruct Hok as [H|(H1 & H3 & _ & _ & _ & H)]; [apply H|]. apply H; auto.
      split; [nra|]. apply Rle_trans with (INR n * dl); [nra|]. pose proof (pos_INR n). nra. }
    rewrite Ez. exists (z - Z.of_nat n)%Z. split; [now rewrite minus_IZR|].
    rewrite (dres_lin i (fun j => 2 * (gp i j * nth j up 0 + gm i j * nth j um 0) - 1)%Z 0).
    + rewrite sumZ_sub, sumZ_mul_l, sumZ_const. fold X. rewrite Z.mul_0_l, Z.sub_0_r, Z.mul_1_r, !minus_IZR.
      replace (_ - _) with (IZR z - IZR (2 * X)) by ring. lra.
    + unfold kap. now rewrite Hmode.
    + intros j Hj. rewrite Np, Nm by auto. unfold cellv, cellb. rewrite Hmode.
      destruct (Hvb j Hj) as [-> | ->]; cbn [posp negp Z.max Z.compare Z.opp]; ring.
  - intros i Hi. pose proof (HF i Hi) as HFi. now rewrite dres_x in HFi.
  - intros i a Hi Ha. change (@F RM) with R. rewrite (get_ok t i 0) by lia. reflexivity.
  - rewrite Efin. cbn [bind]. eexists _, _. split; [reflexivity|exact HD].
Qed.

Lemma ana_quad (tern : bool) : m_mode c = (if tern then TNN_I else BNN_VI) -> eps 1 <= E -> agoal.
Proof.
  intros Hmode HE.
  assert (Hvb : forall j, (j < n)%nat -> (if tern then ter else bin) (vv j)).
  { intros j Hj. specialize (Hv j Hj). unfold vok in Hv. destruct tern; now rewrite Hmode in Hv. }
  assert (Hd : is_diff (m_mode c) = true) by (destruct tern; now rewrite Hmode).
  assert (H2 : two_arrays (m_mode c) = true) by (destruct tern; now rewrite Hmode).
  assert (Lvm : len (vd_m mp) = colsN c) by (apply Hs; destruct tern; now rewrite Hmode).
  assert (EA : @a_mvm RM c mp res vec mat m n l e = @quad_a RM tern c mp res vec mat m n l e).
  { unfold a_mvm. rewrite (sh_mode _ _ Hs), Hmode. destruct tern; reflexivity. }
  unfold agoal. rewrite EA. unfold quad_a. pose proof vdp_len as Hvl.
  rewrite two_rail_ok by (auto; lia). cbn [bind].
  change (upto n _ (vd_p mp)) with (rail posp (vd_p mp)). set (up := rail posp _).
  change (upto n _ (vd_m mp)) with (rail negp (vd_m mp)). set (um := rail negp _).
  assert (Lp : len up = colsN c) by (unfold up; now rewrite rail_len).
  assert (Lm : len um = colsN c) by (unfold um; now rewrite rail_len).
  assert (Np : forall j, (j < n)%nat -> nth j up 0%Z = posp (vv j)) by (intros; unfold up; now apply rail_nth).
  assert (Nm : forall j, (j < n)%nat -> nth j um 0%Z = negp (vv j)) by (intros; unfold um; now apply rail_nth).
  destruct (pass (@fquad RM (@ia_p RM mp) (@ia_m RM mp) up um)
    (fun i j => IZR ((gp i j - gm i j) * vv j)%Z * dl)
    up um (@tmp RM mp) (IZR 1 / dl) (@f0 RM) tmp_len) as (t1 & t & E1 & E2 & _ & L & V).
  { intros i j Hi Hj. unfold fquad.
    rewrite (fterm1_x false up i j Hi Hj Lp) by discriminate. cbn [bind].
    rewrite (fterm1_x true um i j Hi Hj Lm) by auto. cbn [bind].
    rewrite (fterm1_x true up i j Hi Hj Lp) by auto. cbn [bind].
    rewrite (fterm1_x false um i j Hi Hj Lm) by discriminate. cbn [bind]. f_equal.
    change (@F RM) with R. change (@fadd RM) with Rplus. change (@fsub RM) with Rminus. rewrite Np, Nm by auto.
    rewrite <- (pos_neg (vv j)) at 5. rewrite mult_IZR, !minus_IZR. ring. }
  rewrite E1. cbn [bind]. rewrite imm_eq. cbn [bind]. rewrite E2. cbn [bind].
  fin (fun i => nth i t 0).
  - intros i Hi. rewrite V by auto. rewrite sum_dl. change (@f0 RM) with 0.
    set (X := sumZ n _).
    destruct (near_x 1 (IZR X * dl) X ltac:(lia) eq_refl) as (z & Ez & Hz).
    { apply (ok_diff _ (fun j => (gp i j - gm i j) * vv j)%Z); [auto|reflexivity|].
      intros j Hj. pose proof (cell01 i j Hi Hj). specialize (Hvb j Hj).
      assert (ter (vv j)) as [-> |[-> | ->]] by (destruct tern; auto using bin_ter); lia. }
    exists z. split; [exact Ez|].
    rewrite (dres_lin i (fun j => (gp i j - gm i j) * vv j)%Z 0).
    + fold X. rewrite Z.mul_0_l, Z.sub_0_r. rewrite Z.mul_1_l in Hz. lra.
    + unfold kap. destruct tern; now rewrite Hmode.
    + intros j Hj. unfold cellv, cellb. destruct tern; rewrite Hmode; ring.
  - intros i Hi. pose proof (HF i Hi) as HFi. now rewrite dres_x in HFi.
  - intros i a Hi Ha. change (@F RM) with R. rewrite (get_ok t i 0) by lia. reflexivity.
  - rewrite Efin. cbn [bind]. eexists _, _. split; [reflexivity|exact HD].
Qed.

(** *** TNN_II and TNN_III *)
Lemma slice_x (k : Z) (sub : bool) (u : list Z) (t0 : list R) (res0 : list Z) :
  is_diff (m_mode c) = true -> two_arrays (m_mode c) = true -> (0 <= k)%Z ->
  len u = colsN c -> (forall j, (j < n)%nat -> (0 <= nth j u 0 <= 1)%Z) ->
  (m <= len t0)%nat -> (m <= len res0)%nat ->
  (forall i, (i < m)%nat -> IZR (Z.abs (nth i res0 0%Z +
     (if sub then -1 else 1) * (k * sumZ n (fun j => (gp i j - gm i j) * nth j u 0))))%Z + eps (IZR k) <= IZR int_max) ->
  exists (t : list R) d, @tnn_slice RM c mp u m n l k sub t0 res0 e = Ok (upto m (fun i x => (x + d i)%Z) res0, t, e) /\
    (m <= len t)%nat /\
    forall i, (i < m)%nat -> Rabs (IZR (d i) - IZR ((if sub then -1 else 1) * (k * sumZ n (fun j => (gp i j - gm i j) * nth j u 0)))%Z) <= eps (IZR k).
Proof.
  intros Hd H2 Hk Lu Hu Lt Lr Hb. unfold tnn_slice.
  destruct (pass (@fterm RM (@ia_p RM mp) (@ia_m RM mp) u) (fun i j => IZR ((gp i j - gm i j) * nth j u 0)%Z * dl)
    u [] t0 (IZR k / dl) (@f0 RM) Lt) as (t1 & t & E1 & E2 & _ & L & V).
  { intros i j Hi Hj. exact (fterm_x false u i j Hi Hj Lu H2). }
  rewrite E1. cbn [bind]. rewrite imm_eq. cbn [bind]. rewrite E2. cbn [bind].
  match goal with |- context [forN m ?b res0] =>
    destruct (res_final nz s m b (fun i => if sub then - nth i t 0 else nth i t 0)
      (fun i => (if sub then -1 else 1) * (k * sumZ n (fun j => (gp i j - gm i j) * nth j u 0)))%Z
      (eps (IZR k)) res0 Lr) as (Efin & HD) end.
  - intros i Hi. rewrite V by auto. rewrite sum_dl. change (@f0 RM) with 0.
    set (X := sumZ n _).
    destruct (near_x k (IZR X * dl) X Hk eq_refl) as (z & Ez & Hz).
    { apply (ok_diff _ (fun j => (gp i j - gm i j) * nth j u 0)%Z); [auto|reflexivity|].
      intros j Hj. pose proof (cell01 i j Hi Hj). specialize (Hu j Hj).
      assert (nth j u 0 = 0 \/ nth j u 0 = 1)%Z as [-> | ->] by lia; lia. }
    rewrite Ez. destruct sub.
    + exists (- z)%Z. split; [now rewrite opp_IZR|].
      replace (-1 * (k * X))%Z with (- (k * X))%Z by ring. rewrite !opp_IZR.
      replace (_ - _) with (- (IZR z - IZR (k * X))) by ring. now rewrite Rabs_Ropp.
    + exists z. split; [reflexivity|]. now rewrite Z.mul_1_l.
  - exact Hb.
  - intros i a Hi Ha. change (@F RM) with R. rewrite (get_ok t i 0) by lia. cbn [bind]. destruct sub; reflexivity.
  - rewrite Efin. cbn [bind]. eexists _, _. split; [reflexivity|]. split; [exact L|exact HD].
Qed.

Lemma tri2 (a b x y : Z) e1 e2 : Rabs (IZR a - IZR x) <= e1 -> Rabs (IZR b - IZR y) <= e2 ->
  Rabs (IZR (a + b) - IZR (x + y)) <= e1 + e2.
Proof.
  intros H1 H2. rewrite !plus_IZR. replace (_ - _) with ((IZR a - IZR x) + (IZR b - IZR y)) by ring.
  eapply Rle_trans; [apply Rabs_triang|lra].
Qed.
Lemma sum_cell i (u : list Z) : (i < m)%nat -> (forall j, (j < n)%nat -> (0 <= nth j u 0 <= 1)%Z) ->
  (Z.abs (sumZ n (fun j => (gp i j - gm i j) * nth j u 0)) <= Z.of_nat n)%Z.
Proof.
  intros Hi Hu. rewrite <- (Z.mul_1_r (Z.of_nat n)). apply sumZ_bound. intros j Hj.
  pose proof (cell01 i j Hi Hj). specialize (Hu j Hj).
  assert (nth j u 0 = 0 \/ nth j u 0 = 1)%Z as [-> | ->] by lia; lia.
Qed.
Lemma near_fit x y e1 : Rabs (IZR x - IZR y) <= e1 -> IZR (Z.abs y) + e1 <= IZR int_max -> (int_min <= x <= int_max)%Z.
Proof.
  intros H1 H2. apply near_bound in H1. assert (Z.abs x <= int_max)%Z by (apply le_IZR; lra).
  unfold int_min, int_max in *. lia.
Qed.
Lemma abs_shift x d T e1 B : Rabs (IZR d - IZR T) <= e1 -> IZR (Z.abs x + Z.abs T + Z.abs B) <= IZR (Z.abs x + Z.of_nat n * 3) ->
  IZR (Z.abs (x + d + B)) <= IZR (Z.abs x + Z.of_nat n * 3) + e1.
Proof.
  intros H1 H2. assert (H : Rabs (IZR (x + d + B) - IZR (x + T + B)) <= e1).
  { rewrite !plus_IZR. now replace (_ - _) with (IZR d - IZR T) by ring. }
  apply near_bound in H. apply le_IZR in H2.
  assert (IZR (Z.abs (x + T + B)) <= IZR (Z.abs x + Z.of_nat n * 3)) by (apply IZR_le; lia). lra.
Qed.

Lemma ana_tnn_ii : m_mode c = TNN_II -> eps 1 + eps 2 <= E -> agoal.
Proof.
  intros Hmode HE.
  assert (Hvb : forall j, (j < n)%nat -> ter (vv j)).
  { intros j Hj. specialize (Hv j Hj). unfold vok in Hv. now rewrite Hmode in Hv. }
  assert (Hd : is_diff (m_mode c) = true) by now rewrite Hmode.
  assert (H2 : two_arrays (m_mode c) = true) by now rewrite Hmode.
  unfold agoal, a_mvm. rewrite (sh_mode _ _ Hs), Hmode. unfold tnn_ii_a. pose proof vdp_len as Hvl.
  pose proof (cv_eps _ _ _ _ _ HC 1) as P1. pose proof (cv_eps _ _ _ _ _ HC 2) as P2.
  rewrite (load_ok vec n bit0_ii (fun v => if v =? 0 then 0 else 1)%Z) by (auto; lia). cbn [bind].
  change (upto n _ (vd_p mp)) with (rail (fun v => if v =? 0 then 0 else 1)%Z (vd_p mp)). set (u := rail _ _).
  assert (Lu : len u = colsN c) by (unfold u; now rewrite rail_len).
  assert (Nu : forall j, (j < n)%nat -> nth j u 0%Z = (if vv j =? 0 then 0 else 1)%Z).
  { intros j Hj. unfold u. now rewrite rail_nth. }
  assert (Bu : forall j, (j < n)%nat -> (0 <= nth j u 0 <= 1)%Z).
  { intros j Hj. rewrite Nu by auto. destruct (_ =? _)%Z; lia. }
  set (S0 := fun i => sumZ n (fun j => (gp i j - gm i j) * nth j u 0)%Z).
  destruct (slice_x 1 false u (@tmp RM mp) res Hd H2 ltac:(lia) Lu Bu tmp_len Hres) as (t & d1 & E1 & Lt & D1).
  { intros i Hi. pose proof (HB i Hi) as HBi. pose proof (sum_cell i u Hi Bu) as BS. fold (S0 i) in *.
    assert (IZR (Z.abs (nth i res 0%Z + 1 * (1 * S0 i))) <= IZR (Z.abs (nth i res 0%Z) + Z.of_nat n * 3)) by (apply IZR_le; lia).
    lra. }
  rewrite E1. cbn [bind].
  rewrite (load_ok vec n bit1_ii (fun v => if v =? -1 then 1 else 0)%Z) by (auto; lia). cbn [bind].
  change (upto n _ u) with (rail (fun v => if v =? -1 then 1 else 0)%Z u). set (w := rail _ u).
  assert (Lw : len w = colsN c) by (unfold w; now rewrite rail_len).
  assert (Nw : forall j, (j < n)%nat -> nth j w 0%Z = (if vv j =? -1 then 1 else 0)%Z).
  { intros j Hj. unfold w. now rewrite rail_nth. }
  assert (Bw : forall j, (j < n)%nat -> (0 <= nth j w 0 <= 1)%Z).
  { intros j Hj. rewrite Nw by auto. destruct (_ =? _)%Z; lia. }
  set (S1 := fun i => sumZ n (fun j => (gp i j - gm i j) * nth j w 0)%Z).
  destruct (slice_x 2 true w t (upto m (fun i x => (x + d1 i)%Z) res) Hd H2 ltac:(lia) Lw Bw Lt
    ltac:(now rewrite upto_length)) as (t' & d2 & E2 & Lt' & D2).
  { intros i Hi. rewrite nth_upto_lt by lia. pose proof (HB i Hi) as HBi. specialize (D1 i Hi).
    pose proof (sum_cell i u Hi Bu) as BS0. pose proof (sum_cell i w Hi Bw) as BS1. fold (S0 i) (S1 i) in *.
    pose proof (abs_shift (nth i res 0%Z) (d1 i) (1 * (1 * S0 i)) (eps 1) (-1 * (2 * S1 i)) D1 ltac:(apply IZR_le; lia)). lra. }
  rewrite E2. cbn [bind]. eexists _, (fun i => d1 i + d2 i)%Z. split.
  - do 3 f_equal. rewrite upto_upto. apply (upto_ext m _ _ res 0%Z). intros; lia.
  - intros i Hi. eapply Rle_trans; [|exact HE].
    rewrite (dres_lin i (fun j => (gp i j - gm i j) * nth j u 0 + -2 * ((gp i j - gm i j) * nth j w 0))%Z 0).
    + rewrite sumZ_add, sumZ_mul_l.
      replace (_ - 0 * _)%Z with (1 * (1 * S0 i) + -1 * (2 * S1 i))%Z by (unfold S0, S1; ring).
      apply tri2; [apply D1|apply D2]; auto.
    + unfold kap. now rewrite Hmode.
    + intros j Hj. rewrite Nu, Nw by auto. unfold cellv, cellb. rewrite Hmode.
      destruct (Hvb j Hj) as [-> |[-> | ->]]; cbn [Z.eqb Pos.eqb]; ring.
Qed.

Lemma ana_tnn_iii : m_mode c = TNN_III -> eps 1 + eps 2 <= E -> agoal.
Proof.
  intros Hmode HE.
  assert (Hvb : forall j, (j < n)%nat -> ter (vv j)).
  { intros j Hj. specialize (Hv j Hj). unfold vok in Hv. now rewrite Hmode in Hv. }
  assert (Hd : is_diff (m_mode c) = true) by now rewrite Hmode.
  assert (H2 : two_arrays (m_mode c) = true) by now rewrite Hmode.
  unfold agoal, a_mvm. rewrite (sh_mode _ _ Hs), Hmode. unfold tnn_iii_a. pose proof vdp_len as Hvl.
  pose proof (cv_eps _ _ _ _ _ HC 1) as P1. pose proof (cv_eps _ _ _ _ _ HC 2) as P2.
  rewrite (load_ok vec n bit0_iii (fun v => if v =? 0 then 1 else 0)%Z)
    by (try lia; intros j Hj; destruct (Hvb j Hj) as [-> |[-> | ->]]; reflexivity). cbn [bind].
  change (upto n _ (vd_p mp)) with (rail (fun v => if v =? 0 then 1 else 0)%Z (vd_p mp)). set (u := rail _ _).
  assert (Lu : len u = colsN c) by (unfold u; now rewrite rail_len).
  assert (Nu : forall j, (j < n)%nat -> nth j u 0%Z = (if vv j =? 0 then 1 else 0)%Z).
  { intros j Hj. unfold u. now rewrite rail_nth. }
  assert (Bu : forall j, (j < n)%nat -> (0 <= nth j u 0 <= 1)%Z).
  { intros j Hj. rewrite Nu by auto. destruct (_ =? _)%Z; lia. }
  set (S0 := fun i => sumZ n (fun j => (gp i j - gm i j) * nth j u 0)%Z).
  destruct (slice_x 1 false u (@tmp RM mp) res Hd H2 ltac:(lia) Lu Bu tmp_len Hres) as (t & d1 & E1 & Lt & D1).
  { intros i Hi. pose proof (HB i Hi) as HBi. pose proof (sum_cell i u Hi Bu) as BS. fold (S0 i) in *.
    assert (IZR (Z.abs (nth i res 0%Z + 1 * (1 * S0 i))) <= IZR (Z.abs (nth i res 0%Z) + Z.of_nat n * 3)) by (apply IZR_le; lia).
    lra. }
  rewrite E1. cbn [bind].
  rewrite (load_ok vec n bit1_iii (fun v => if v =? 1 then 1 else 0)%Z)
    by (try lia; intros j Hj; destruct (Hvb j Hj) as [-> |[-> | ->]]; reflexivity). cbn [bind].
  change (upto n _ u) with (rail (fun v => if v =? 1 then 1 else 0)%Z u). set (w := rail _ u).
  assert (Lw : len w = colsN c) by (unfold w; now rewrite rail_len).
  assert (Nw : forall j, (j < n)%nat -> nth j w 0%Z = (if vv j =? 1 then 1 else 0)%Z).
  { intros j Hj. unfold w. now rewrite rail_nth. }
  assert (Bw : forall j, (j < n)%nat -> (0 <= nth j w 0 <= 1)%Z).
  { intros j Hj. rewrite Nw by auto. destruct (_ =? _)%Z; lia. }
  set (S1 := fun i => sumZ n (fun j => (gp i j - gm i j) * nth j w 0)%Z).
  destruct (slice_x 2 false w t (upto m (fun i x => (x + d1 i)%Z) res) Hd H2 ltac:(lia) Lw Bw Lt
    ltac:(now rewrite upto_length)) as (t' & d2 & E2 & Lt' & D2).
  { intros i Hi. rewrite nth_upto_lt by lia. pose proof (HB i Hi) as HBi. specialize (D1 i Hi).
    pose proof (sum_cell i u Hi Bu) as BS0. pose proof (sum_cell i w Hi Bw) as BS1. fold (S0 i) (S1 i) in *.
    pose proof (abs_shift (nth i res 0%Z) (d1 i) (1 * (1 * S0 i)) (eps 1) (1 * (2 * S1 i)) D1 ltac:(apply IZR_le; lia)). lra. }
  rewrite E2. cbn [bind].
  assert (ED : forall i, (i < m)%nat ->
     dres c mp vec n i 0 = (1 * (1 * S0 i) + 1 * (2 * S1 i) - nth i (sum_w mp) 0)%Z).
  { intros i Hi. rewrite (dres_lin i (fun j => (gp i j - gm i j) * nth j u 0 + 2 * ((gp i j - gm i j) * nth j w 0))%Z 1).
    - rewrite sumZ_add, sumZ_mul_l. unfold S0, S1. ring.
    - unfold kap. now rewrite Hmode.
    - intros j Hj. rewrite Nu, Nw by auto. unfold cellv, cellb. rewrite Hmode.
      destruct (Hvb j Hj) as [-> |[-> | ->]]; cbn [Z.eqb Pos.eqb]; ring. }
  assert (HD : forall i, (i < m)%nat -> Rabs (IZR (d1 i + d2 i - nth i (sum_w mp) 0)%Z - IZR (dres c mp vec n i 0)) <= E).
  { intros i Hi. rewrite ED by auto. eapply Rle_trans; [|exact HE].
    pose proof (tri2 _ _ _ _ _ _ (D1 i Hi) (D2 i Hi)) as H. fold (S0 i) (S1 i) in H.
    rewrite (minus_IZR (d1 i + d2 i)), (minus_IZR (1 * (1 * S0 i) + 1 * (2 * S1 i))).
    now replace (_ - _) with (IZR (d1 i + d2 i) - IZR (1 * (1 * S0 i) + 1 * (2 * S1 i))) by ring. }
  rewrite upto_upto.
  rewrite (res_rows m _ (fun i => - nth i (sum_w mp) 0)%Z).
  - cbn [bind]. eexists _, (fun i => d1 i + d2 i - nth i (sum_w mp) 0)%Z. split; [|exact HD].
    do 3 f_equal. rewrite upto_upto. apply (upto_ext m _ _ res 0%Z). intros; lia.
  - now rewrite upto_length.
  - intros i a Hi La Ea. rewrite upto_length in La. rewrite nth_upto_lt in Ea by lia.
    rewrite (get_ok (sum_w mp) i 0%Z) by (rewrite (sh_sw _ _ Hs); lia). cbn [bind].
    rewrite (subto_ok _ _ _ 0%Z); [reflexivity|lia|]. rewrite Ea. pose proof (HF i Hi) as HFi. rewrite dres_x in HFi.
    apply (near_fit _ (nth i res 0 + dres c mp vec n i 0)%Z E); [|exact HFi].
    specialize (HD i Hi).
    replace (nth i res 0 + d1 i + d2 i - nth i (sum_w mp) 0)%Z with
      (nth i res 0 + (d1 i + d2 i - nth i (sum_w mp) 0))%Z by ring.
    rewrite (plus_IZR (nth i res 0%Z)), (plus_IZR (nth i res 0%Z) (dres _ _ _ _ _ _)).
    now replace (_ - _) with (IZR (d1 i + d2 i - nth i (sum_w mp) 0)%Z - IZR (dres c mp vec n i 0)) by ring.
Qed.

(** *** TNN_IV and TNN_V *)
Lemma tc_x (second : bool) (u : list Z) k off (sub : bool) (t0 fp0 : list R) : (m <= len t0)%nat -> (m <= len fp0)%nat ->
  len u = colsN c -> two_arrays (m_mode c) = true ->
  exists t fp : list R, @tc_pass RM c mp (if second then @ia_m RM mp else @ia_p RM mp) u m n l k off sub t0 fp0 e = Ok (t, fp, e) /\
    (m <= len t)%nat /\ len fp = len fp0 /\
    forall i, (i < m)%nat -> nth i fp 0 = nth i fp0 0 + (if sub then -1 else 1) *
      cv (IZR (sumZ n (fun j => nth j u 0%Z)) * hrs +
          IZR (sumZ n (fun j => (if second then gm i j else gp i j) * nth j u 0)%Z) * dl) (IZR k / dl) off.
Proof.
  intros Lt Lf Lu H2. unfold tc_pass.
  destruct (facc_fill nz s m n (@fterm1 RM (if second then @ia_m RM mp else @ia_p RM mp) u)
    (fun i j => (hrs + IZR (if second then gm i j else gp i j) * dl) * IZR (nth j u 0%Z)) t0 Lt) as (t1 & E1 & L1 & V1).
  { intros i j Hi Hj. apply fterm1_x; auto. }
  destruct (adc_vec_eq nz s c (mp_adc mp) l cv m t1 (IZR k / dl) off e Hcv Hprof ltac:(lia)) as (t & E2 & L2 & V2).
  change (@fill R t0 0) with (@fill (@F RM) t0 (@f0 RM)) in E1. rewrite E1. cbn [bind].
  rewrite imm_eq. cbn [bind]. rewrite E2. cbn [bind].
  assert (E3 : forN m (fun i (fp : list (@F RM)) => x <- @get (@F RM) t i ;; if sub then @fsubto RM fp i x else @faddto RM fp i x) fp0 =
    Ok (upto m (fun i x => x + (if sub then -1 else 1) * nth i t 0) fp0)).
  { apply (rows_eq m _ (fun i x => x + (if sub then -1 else 1) * nth i t 0) fp0 0 Lf).
    intros i a Hi La _. change (@F RM) with R. rewrite (get_ok t i 0) by lia. cbn [bind].
    destruct sub; unfold fsubto, faddto; change (@F RM) with R; rewrite (get_ok a i 0) by lia; cbn [bind];
      rewrite set_ok by lia; do 2 f_equal;
      [change (@fsub RM) with Rminus|change (@fadd RM) with Rplus];
      match goal with |- @eq _ ?a ?b => change (@eq R a b) end; ring. }
  rewrite E3. cbn [bind]. eexists t, _. split; [reflexivity|]. split; [lia|]. split; [apply upto_length|].
  intros i Hi. change (@F RM) with R. rewrite nth_upto_lt by lia. rewrite V2, V1 by auto.
  now rewrite (sum_hrs (fun j => if second then gm i j else gp i j) (fun j => nth j u 0%Z)).
Qed.

(** Four conversions whose ideal combination is integral. *)
Lemma near4 (x1 o1 x2 o2 x3 o3 x4 o4 : R) (X : Z) (f : R) : partial_sums (m_mode c) = true -> (forall y, ok y) -> f = 1 \/ f = -1 ->
  (x1 + o1) - (x2 + o2) + f * 2 * ((x3 + o3) - (x4 + o4)) = IZR X * dl ->
  exists z, cv x1 (IZR 1 / dl) o1 - cv x2 (IZR 1 / dl) o2 +
      f * (cv x3 (IZR 2 / dl) o3 - cv x4 (IZR 2 / dl) o4) = IZR z /\
    Rabs (IZR z - IZR X) <= 2 * eps 1 + 2 * eps 2.
Proof.
  intros Hps Ho Hf EX. pose proof (fit_any Hps) as HF0.
  assert (EX' : (x1 + o1) * (IZR 1 / dl) - (x2 + o2) * (IZR 1 / dl) +
     f * ((x3 + o3) * (IZR 2 / dl) - (x4 + o4) * (IZR 2 / dl)) = IZR X).
  { transitivity (((x1 + o1) - (x2 + o2) + f * 2 * ((x3 + o3) - (x4 + o4))) / dl); [field; exact Hdl|].
    rewrite EX. field. exact Hdl. }
  pose proof (cv_acc _ _ _ _ _ HC x1 (IZR 1 / dl) o1 (Ho _) (HF0 _)) as A1.
  pose proof (cv_acc _ _ _ _ _ HC x2 (IZR 1 / dl) o2 (Ho _) (HF0 _)) as A2.
  pose proof (cv_acc _ _ _ _ _ HC x3 (IZR 2 / dl) o3 (Ho _) (HF0 _)) as A3.
  pose proof (cv_acc _ _ _ _ _ HC x4 (IZR 2 / dl) o4 (Ho _) (HF0 _)) as A4.
  rewrite sc_gain in A1, A2, A3, A4 by lia.
  set (c1 := cv x1 _ o1) in *. set (c2 := cv x2 _ o2) in *. set (c3 := cv x3 _ o3) in *. set (c4 := cv x4 _ o4) in *.
  assert (A : Rabs (c1 - c2 + f * (c3 - c4) - IZR X) <= 2 * eps 1 + 2 * eps 2).
  { rewrite <- EX'. apply Rabs_le. apply Rabs_le_inv in A1, A2, A3, A4. destruct Hf as [-> | ->]; lra. }
  destruct (cv_case _ _ _ _ _ HC) as [I|I].
  - destruct (I x1 (IZR 1 / dl) o1) as (z1 & F1), (I x2 (IZR 1 / dl) o2) as (z2 & F2),
      (I x3 (IZR 2 / dl) o3) as (z3 & F3), (I x4 (IZR 2 / dl) o4) as (z4 & F4).
    fold c1 in F1. fold c2 in F2. fold c3 in F3. fold c4 in F4.
    assert (exists z, c1 - c2 + f * (c3 - c4) = IZR z) as (z & Ez).
    { destruct Hf as [-> | ->].
      - exists (z1 - z2 + (z3 - z4))%Z. rewrite plus_IZR, !minus_IZR, F1, F2, F3, F4. ring.
      - exists (z1 - z2 - (z3 - z4))%Z. rewrite !minus_IZR, F1, F2, F3, F4. ring. }
    exists z. split; [exact Ez|]. now rewrite Ez in A.
  - exists X. split; [unfold c1, c2, c3, c4; now rewrite !I|]. rewrite Rminus_diag_eq, Rabs_R0 by reflexivity.
    pose proof (cv_eps _ _ _ _ _ HC 1). pose proof (cv_eps _ _ _ _ _ HC 2). lra.
Qed.

Lemma ana_tc (v : bool) : m_mode c = (if v then TNN_V else TNN_IV) -> 2 * eps 1 + 2 * eps 2 <= E -> agoal.
Proof.
  intros Hmode HE.
  assert (Ho : forall y, ok y).
  { destruct Hok as [H|(_ & _ & N1 & N2 & _)]; [exact H|]. destruct v; contradiction. }
  assert (Hvb : forall j, (j < n)%nat -> ter (vv j)).
  { intros j Hj. specialize (Hv j Hj). unfold vok in Hv. destruct v; now rewrite Hmode in Hv. }
  assert (H2 : two_arrays (m_mode c) = true) by (destruct v; now rewrite Hmode).
  assert (Lvm : len (vd_m mp) = colsN c) by (apply Hs; destruct v; now rewrite Hmode).
  destruct (sh_tlm _ _ Hs) as (_ & _ & Lfp); [destruct v; auto|].
  assert (EA : @a_mvm RM c mp res vec mat m n l e = @tnn_tc_a RM v c mp res vec mat m n l e).
  { unfold a_mvm. rewrite (sh_mode _ _ Hs), Hmode. destruct v; reflexivity. }
  assert (HS : SPLIT c = [1; 1]%Z) by (unfold cfg_wf in Hw; destruct v; now rewrite Hmode in Hw).
  unfold agoal. rewrite EA. unfold tnn_tc_a. pose proof vdp_len as Hvl.
  rewrite HS. change (split11 [1; 1]%Z) with true. cbn iota.
  rewrite (sum64_ok vec n 1); auto; [|unfold int_max in *; lia|].
  2: { intros j Hj. destruct (Hvb j Hj) as [-> |[-> | ->]]; lia. }
  cbn [bind]. rewrite two_rail_ok by (auto; lia). cbn [bind].
  change (upto n _ (vd_p mp)) with (rail posp (vd_p mp)). set (up := rail posp _).
  change (upto n _ (vd_m mp)) with (rail negp (vd_m mp)). set (um := rail negp _).
  assert (Lp : len up = colsN c) by (unfold up; now rewrite rail_len).
  assert (Lm : len um = colsN c) by (unfold um; now rewrite rail_len).
  assert (Np : forall j, (j < n)%nat -> nth j up 0%Z = posp (vv j)) by (intros; unfold up; now apply rail_nth).
  assert (Nm : forall j, (j < n)%nat -> nth j um 0%Z = negp (vv j)) by (intros; unfold um; now apply rail_nth).
  set (isum := sumZ n (fun j => vv j)).
  assert (Hsm : (Z.abs isum <= Z.of_nat n * 1)%Z).
  { apply sumZ_bound. intros j Hj. destruct (Hvb j Hj) as [-> |[-> | ->]]; lia. }
  assert (Esm : (isum = sumZ n (fun j => nth j up 0) - sumZ n (fun j => nth j um 0))%Z).
  { unfold isum. rewrite <- sumZ_sub. apply sumZ_ext. intros j Hj. rewrite Np, Nm by auto. symmetry. apply pos_neg. }
  assert (E3i : (if v then chk64 (3 * isum) else Ok isum) = Ok (if v then 3 * isum else isum)%Z).
  { destruct v; [|reflexivity]. apply chk64_ok. unfold int_max in *. lia. }
  rewrite E3i. cbn [bind]. rewrite Hpar. set (i3 := if v then (3 * isum)%Z else isum).
  set (offp := if v then @f0 RM else _). set (offm := if v then _ else _).
  destruct (tc_x false up 1 offp false (@tmp RM mp) (@fill (@F RM) (@tmp_fp RM mp) (@f0 RM)) tmp_len
    ltac:(change (@F RM) with R; rewrite fill_length; change R with (@F RM); rewrite Lfp; exact Hm) Lp H2) as (t1 & p1 & E1 & T1 & L1 & V1).
  cbn iota in E1. rewrite E1. cbn [bind].
  assert (M1 : (m <= len p1)%nat).
  { rewrite L1. change (@F RM) with R. rewrite fill_length. change R with (@F RM). rewrite Lfp. exact Hm. }
  destruct (tc_x false um 1 offm true t1 p1 T1 M1 Lm H2) as (t2 & p2 & E2 & T2 & L2 & V2).
  cbn iota in E2. rewrite E2. cbn [bind].
  destruct (tc_x true up 2 (@f0 RM) (negb v) t2 p2 T2 ltac:(lia) Lp H2) as (t3 & p3 & E3 & T3 & L3 & V3).
  cbn iota in E3. rewrite E3. cbn [bind].
  destruct (tc_x true um 2 (@f0 RM) v t3 p3 T3 ltac:(lia) Lm H2) as (t4 & p4 & E4 & T4 & L4 & V4).
  cbn iota in E4. rewrite E4. cbn [bind].
  set (np := sumZ n (fun j => nth j up 0%Z)) in *. set (nm := sumZ n (fun j => nth j um 0%Z)) in *.
  assert (Rsm : IZR isum = IZR np - IZR nm) by (rewrite <- minus_IZR; now f_equal).
  set (T := fun i => sumZ n (fun j => (if v then gp i j + 2 * gm i j else gp i j - 2 * gm i j) * vv j)%Z).
  assert (HT : forall i, (i < m)%nat -> exists z, nth i p4 0 = IZR z /\ Rabs (IZR z - IZR (T i)) <= E).
  { intros i Hi. rewrite V4, V3, V2, V1 by auto. change (@F RM) with R. rewrite nth_fill by (change R with (@F RM); rewrite Lfp; lia).
    change (@f0 RM) with 0. cbn iota.
    destruct (near4 (IZR np * hrs + IZR (sumZ n (fun j => gp i j * nth j up 0)%Z) * dl) offp
      (IZR nm * hrs + IZR (sumZ n (fun j => gp i j * nth j um 0)%Z) * dl) offm
      (IZR np * hrs + IZR (sumZ n (fun j => gm i j * nth j up 0)%Z) * dl) 0
      (IZR nm * hrs + IZR (sumZ n (fun j => gm i j * nth j um 0)%Z) * dl) 0 (T i) (if v then 1 else -1)) as (z & Ez & Hz).
    - now destruct v; rewrite Hmode.
    - exact Ho.
    - destruct v; auto.
    - assert (ET : IZR (T i) = IZR (sumZ n (fun j => gp i j * nth j up 0)%Z) - IZR (sumZ n (fun j => gp i j * nth j um 0)%Z)
        + (if v then 1 else -1) * 2 * (IZR (sumZ n (fun j => gm i j * nth j up 0)%Z) - IZR (sumZ n (fun j => gm i j * nth j um 0)%Z))).
      { unfold T. rewrite <- !sumR_IZR. destruct v.
        - rewrite Rmult_1_l, <- !sumR_sub, <- sumR_mul_l, <- sumR_add. apply sumR_ext. intros j Hj.
          rewrite Np, Nm by auto. rewrite <- (pos_neg (vv j)) at 1. rewrite !mult_IZR, plus_IZR, mult_IZR, minus_IZR. ring.
        - rewrite <- !sumR_sub, <- sumR_mul_l, <- sumR_add. apply sumR_ext. intros j Hj.
          rewrite Np, Nm by auto. rewrite <- (pos_neg (vv j)) at 1. rewrite !mult_IZR, !minus_IZR, mult_IZR. ring. }
      rewrite ET. unfold offp, offm, i3. change (@f0 RM) with 0. change (@fmul RM) with Rmult.
      change (@fdiv RM) with Rdiv. change (@fneg RM) with Ropp. change (@f_of_Z RM) with IZR.
      destruct v; rewrite ?mult_IZR, Rsm; field.
    - exists z. split; [|lra]. rewrite <- Ez. destruct v; cbn [negb]; ring. }
  assert (BT : forall i, (i < m)%nat -> (Z.abs (T i) <= Z.of_nat n * 3)%Z).
  { intros i Hi. apply sumZ_bound. intros j Hj. pose proof (cell01 i j Hi Hj).
    destruct v; destruct (Hvb j Hj) as [-> |[-> | ->]]; lia. }
  assert (ED : forall i, (i < m)%nat -> dres c mp vec n i 0 = (T i - if v then isum else 0)%Z).
  { intros i Hi. rewrite (dres_lin i (fun j => (if v then gp i j + 2 * gm i j else gp i j - 2 * gm i j) * vv j - (if v then vv j else 0))%Z 0).
    - rewrite Z.mul_0_l, Z.sub_0_r. unfold T, isum. rewrite sumZ_sub. destruct v; [reflexivity|].
      rewrite sumZ_const. ring.
    - unfold kap. destruct v; now rewrite Hmode.
    - intros j Hj. unfold cellv, cellb. destruct v; rewrite Hmode; ring. }
  set (d := fun i => (Ztrunc (nth i p4 0%R) - if v then isum else 0)%Z).
  assert (HD : forall i, (i < m)%nat -> Rabs (IZR (d i) - IZR (dres c mp vec n i 0)) <= E).
  { intros i Hi. destruct (HT i Hi) as (z & Ez & Hz). unfold d. rewrite ED, Ez, Ztrunc_IZR by auto.
    rewrite !minus_IZR. now replace (_ - _) with (IZR z - IZR (T i)) by ring. }
  match goal with |- context [forN m ?b res] => rewrite (res_rows m b d) end.
  - cbn [bind]. eexists _, d. split; [reflexivity|exact HD].
  - exact Hres.
  - intros i a Hi La Ea. destruct (HT i Hi) as (z & Ez & Hz). change (@F RM) with R.
    rewrite (get_ok p4 i 0) by lia. cbn [bind].
    pose proof (HB i Hi) as HBi. pose proof (HF i Hi) as HFi. rewrite dres_x in HFi. pose proof (BT i Hi) as BTi.
    rewrite (res_fadd_eq nz s a i z); [|lia|exact Ez|].
    2: { rewrite Ea. apply (fits_int nz s _ _ (T i) E (Z.of_nat n * 3)); auto. }
    cbn [bind]. unfold d. rewrite Ez, Ztrunc_IZR. destruct v.
    + rewrite (subto64_ok _ _ _ 0%Z).
      * rewrite upd_upd, nth_upd, Nat.eqb_refl by lia. do 2 f_equal. lia.
      * rewrite upd_length. lia.
      * rewrite nth_upd, Nat.eqb_refl by lia. rewrite Ea.
        apply (near_fit _ (nth i res 0 + dres c mp vec n i 0)%Z E); [|exact HFi].
        rewrite ED by auto. rewrite !minus_IZR, !plus_IZR, minus_IZR.
        now replace (_ - _) with (IZR z - IZR (T i)) by ring.
    + do 2 f_equal. lia.
Qed.

(** What a converter of any kind makes of the four conversions. *)
Lemma tc_value (v : bool) (d : nat -> Z) : m_mode c = (if v then TNN_V else TNN_IV) ->
  (let np := IZR (sumZ n (fun j => posp (vv j))) in let nm := IZR (sumZ n (fun j => negp (vv j))) in
   let isum := sumZ n (fun j => vv j) in
   let offp := if v then 0 else IZR isum * hrs / 2 in
   let offm := if v then IZR (3 * isum) * hrs else - (IZR isum * hrs) / 2 in
   forall i, (i < m)%nat -> (int_min <= nth i res 0 + d i <= int_max /\ (v = true -> int_min <= nth i res 0 + d i - isum <= int_max))%Z /\
     cv (np * hrs + IZR (sumZ n (fun j => gp i j * posp (vv j))%Z) * dl) (IZR 1 / dl) offp -
     cv (nm * hrs + IZR (sumZ n (fun j => gp i j * negp (vv j))%Z) * dl) (IZR 1 / dl) offm +
     (if v then 1 else -1) *
     (cv (np * hrs + IZR (sumZ n (fun j => gm i j * posp (vv j))%Z) * dl) (IZR 2 / dl) 0 -
      cv (nm * hrs + IZR (sumZ n (fun j => gm i j * negp (vv j))%Z) * dl) (IZR 2 / dl) 0) = IZR (d i)) ->
  exists mp', @a_mvm RM c mp res vec mat m n l e =
    Ok (upto m (fun i x => (x + (d i - if v then sumZ n (fun j => vv j) else 0))%Z) res, mp', e).
Proof.
  intros Hmode. cbv zeta. intros HD.
  assert (Hvb : forall j, (j < n)%nat -> ter (vv j)).
  { intros j Hj. specialize (Hv j Hj). unfold vok in Hv. destruct v; now rewrite Hmode in Hv. }
  assert (H2 : two_arrays (m_mode c) = true) by (destruct v; now rewrite Hmode).
  assert (Lvm : len (vd_m mp) = colsN c) by (apply Hs; destruct v; now rewrite Hmode).
  destruct (sh_tlm _ _ Hs) as (_ & _ & Lfp); [destruct v; auto|].
  assert (EA : @a_mvm RM c mp res vec mat m n l e = @tnn_tc_a RM v c mp res vec mat m n l e).
  { unfold a_mvm. rewrite (sh_mode _ _ Hs), Hmode. destruct v; reflexivity. }
  assert (HS : SPLIT c = [1; 1]%Z) by (unfold cfg_wf in Hw; destruct v; now rewrite Hmode in Hw).
  rewrite EA. unfold tnn_tc_a. pose proof vdp_len as Hvl.
  rewrite HS. change (split11 [1; 1]%Z) with true. cbn iota.
  rewrite (sum64_ok vec n 1); auto; [|unfold int_max in *; lia|].
  2: { intros j Hj. destruct (Hvb j Hj) as [-> |[-> | ->]]; lia. }
  cbn [bind]. rewrite two_rail_ok by (auto; lia). cbn [bind].
  change (upto n _ (vd_p mp)) with (rail posp (vd_p mp)). set (up := rail posp _).
  change (upto n _ (vd_m mp)) with (rail negp (vd_m mp)). set (um := rail negp _).
  assert (Lp : len up = colsN c) by (unfold up; now rewrite rail_len).
  assert (Lm : len um = colsN c) by (unfold um; now rewrite rail_len).
  assert (Np : forall j, (j < n)%nat -> nth j up 0%Z = posp (vv j)) by (intros; unfold up; now apply rail_nth).
  assert (Nm : forall j, (j < n)%nat -> nth j um 0%Z = negp (vv j)) by (intros; unfold um; now apply rail_nth).
  set (isum := sumZ n (fun j => vv j)) in *.
  assert (Hsm : (Z.abs isum <= Z.of_nat n * 1)%Z).
  { apply sumZ_bound. intros j Hj. destruct (Hvb j Hj) as [-> |[-> | ->]]; lia. }
  assert (E3i : (if v then chk64 (3 * isum) else Ok isum) = Ok (if v then 3 * isum else isum)%Z).
  { destruct v; [|reflexivity]. apply chk64_ok. unfold int_max in *. lia. }
  rewrite E3i. cbn [bind]. rewrite Hpar. set (i3 := if v then (3 * isum)%Z else isum).
  set (offp := if v then @f0 RM else _). set (offm := if v then @fmul RM _ _ else _).
  destruct (tc_x false up 1 offp false (@tmp RM mp) (@fill (@F RM) (@tmp_fp RM mp) (@f0 RM)) tmp_len
    ltac:(change (@F RM) with R; rewrite fill_length; change R with (@F RM); rewrite Lfp; exact Hm) Lp H2) as (t1 & p1 & E1 & T1 & L1 & V1).
  cbn iota in E1. rewrite E1. cbn [bind].
  assert (M1 : (m <= len p1)%nat).
  { rewrite L1. change (@F RM) with R. rewrite fill_length. change R with (@F RM). rewrite Lfp. exact Hm. }
  destruct (tc_x false um 1 offm true t1 p1 T1 M1 Lm H2) as (t2 & p2 & E2 & T2 & L2 & V2).
  cbn iota in E2. rewrite E2. cbn [bind].
  destruct (tc_x true up 2 (@f0 RM) (negb v) t2 p2 T2 ltac:(lia) Lp H2) as (t3 & p3 & E3 & T3 & L3 & V3).
  cbn iota in E3. rewrite E3. cbn [bind].
  destruct (tc_x true um 2 (@f0 RM) v t3 p3 T3 ltac:(lia) Lm H2) as (t4 & p4 & E4 & T4 & L4 & V4).
  cbn iota in E4. rewrite E4. cbn [bind].
  assert (HT : forall i, (i < m)%nat -> nth i p4 0 = IZR (d i)).
  { intros i Hi. rewrite V4, V3, V2, V1 by auto. change (@F RM) with R. rewrite nth_fill by (change R with (@F RM); rewrite Lfp; lia).
    change (@f0 RM) with 0. cbn iota. destruct (HD i Hi) as [_ <-].
    rewrite (sumZ_ext n (fun j => nth j up 0%Z) (fun j => posp (vv j))) by auto.
    rewrite (sumZ_ext n (fun j => nth j um 0%Z) (fun j => negp (vv j))) by auto.
    rewrite (sumZ_ext n (fun j => gp i j * nth j up 0)%Z (fun j => gp i j * posp (vv j))%Z) by (intros; now rewrite Np).
    rewrite (sumZ_ext n (fun j => gp i j * nth j um 0)%Z (fun j => gp i j * negp (vv j))%Z) by (intros; now rewrite Nm).
    rewrite (sumZ_ext n (fun j => gm i j * nth j up 0)%Z (fun j => gm i j * posp (vv j))%Z) by (intros; now rewrite Np).
    rewrite (sumZ_ext n (fun j => gm i j * nth j um 0)%Z (fun j => gm i j * negp (vv j))%Z) by (intros; now rewrite Nm).
    unfold offp, offm, i3. change (@f0 RM) with 0. change (@fmul RM) with Rmult.
    change (@fdiv RM) with Rdiv. change (@fneg RM) with Ropp. change (@f_of_Z RM) with IZR.
    destruct v; cbn [negb]; ring. }
  match goal with |- context [forN m ?b res] => rewrite (res_rows m b (fun i => d i - if v then isum else 0)%Z) end.
  - cbn [bind]. eexists. reflexivity.
  - exact Hres.
  - intros i a Hi La Ea. pose proof (HT i Hi) as Ez. change (@F RM) with R. destruct (HD i Hi) as [[B1 B2] _].
    rewrite (get_ok p4 i 0) by lia. cbn [bind].
    rewrite (res_fadd_eq nz s a i (d i)); [|lia|exact Ez|rewrite Ea; exact B1].
    cbn [bind]. destruct v.
    + rewrite (subto64_ok _ _ _ 0%Z).
      * rewrite upd_upd, nth_upd, Nat.eqb_refl by lia. do 2 f_equal. lia.
      * rewrite upd_length. lia.
      * rewrite nth_upd, Nat.eqb_refl by lia. rewrite Ea. now apply B2.
    + do 2 f_equal. lia.
Qed.

(** Error of the result of a mode. *)
Definition xerr : R :=
  match m_mode c with
  | BNN_III | BNN_IV => 2 * eps 2
  | BNN_VI | TNN_I => eps 1
  | TNN_II | TNN_III => eps 1 + eps 2
  | TNN_IV | TNN_V => 2 * eps 1 + 2 * eps 2
  | _ => eps 2
  end.
Theorem ana_xnn : xerr <= E -> agoal.
Proof.
  assert (H : forall md, m_mode c = md -> xerr <= E -> agoal); [|exact (H _ eq_refl)].
  unfold xerr. intros md Hmode. rewrite Hmode.
  destruct md; intros HE; try (exfalso; pose proof Hx as Hx'; rewrite Hmode in Hx'; discriminate Hx').
  - now apply ana_bnn_i.
  - now apply ana_bnn_ii.
  - now apply (ana_bnn_iii_iv false).
  - now apply (ana_bnn_iii_iv true).
  - now apply ana_bnn_v.
  - now apply (ana_quad false).
  - now apply (ana_quad true).
  - now apply ana_tnn_ii.
  - now apply ana_tnn_iii.
  - now apply (ana_tc false).
  - now apply (ana_tc true).
Qed.
End M.
End AR.
