(** Exactly when the differential integer modes shift a negative number: C53. *)
From Coq Require Import List ZArith Bool Arith Lia ZifyBool ZifyNat String.
From RecordUpdate Require Import RecordSet.
From Verif Require Import Base Lib Hoare Machine Json Config Histogram Adc ReadDisturb Parasitics
  Mapper IntMappers BnnMappers TnnMappers Crossbar Api WriteProofs Shape MvmShape DigMvm DigModes DigWrite
  ConfigProofs Reach Spec DigApi AnaShape ShiftUb.
Import ListNotations RecordSetNotations.
Local Open Scope Z_scope.
Local Open Scope out_scope.

Ltac Zify.zify_post_hook ::= idtac.
Notation len := List.length.

Section Modes.
Context {MC : Machine} (Hstr : strict_shl = true).
Notation MM c := (Z.to_nat (M c)).
Notation gp mp r j := (at2 0 (gd_p mp) r j).
Notation gm mp r j := (at2 0 (gd_m mp) r j).
Context (c : config) (mp : mapper) (res vec mat : list Z) (m n : nat)
  (Hw : cfg_wf c) (Hs : shape c mp) (Hb : bits_ok c)
  (Hm : (m <= MM c)%nat) (Hn : (n <= colsN c)%nat)
  (Hres : (m <= len res)%nat) (Hvec : (n <= len vec)%nat)
  (Hc : forall i j, (i < m)%nat -> (j < n)%nat -> cellok c mp i j)
  (Hv : forall j, (j < n)%nat -> vok c (nth j vec 0))
  (HB : forall i, (i < m)%nat -> Z.abs (nth i res 0) + Z.of_nat n * span c <= int_max)
  (HK : forall i, (i < m)%nat -> Z.abs (kap c * nth i (sum_w mp) 0) <= int_max)
  (HF : forall i, (i < m)%nat -> Z.abs (dres c mp vec n i (nth i res 0)) <= int_max)
  (Hi : is_int (m_mode c) = true)
  (Hno : match m_mode c with I_UINT_W_OFFS => False | _ => True end)
  (Hm0 : (0 < m)%nat).
Notation D := (fun r j => gp mp r j - gm mp r j).
Notation ns := (nsplit c).
Notation HWD := (HW_diff c mp res vec m n Hm Hn Hres Hvec Hc Hv HB HK HF Hi).
Notation HWO := (HW_diff_opp c mp res vec m n Hm Hn Hres Hvec Hc Hv HB HK HF Hi).
Notation SP := (span_le c mp res vec m n Hm Hn Hres Hvec Hc Hv HB HK HF Hi).
Notation SR := (seg_rng c Hb Hi).
Notation PD := (partial_diff c mp res vec m n Hs Hb Hm Hn Hres Hvec Hc Hv HB HK HF Hi).
Notation PO := (partial_diff_opp c mp res vec m n Hs Hb Hm Hn Hres Hvec Hc Hv HB HK HF Hi).
Notation BB := (fun i H => bB c res m n HB i H Hi).

Definition Neg (u : nat -> Z) : Prop := exists i s, (i < m)%nat /\ (s < ns)%nat /\ sl ns n D u i s < 0.
Definition Pos (u : nat -> Z) : Prop := forall i s, (i < m)%nat -> (s < ns)%nat -> 0 <= sl ns n D u i s.

Lemma sl_ext E F u v i s : (forall r j, (j < n)%nat -> E r j * u j = F r j * v j) -> sl ns n E u i s = sl ns n F v i s.
Proof. intros H. apply sumZ_ext. intros j Hj. now apply H. Qed.

Notation answer := (upto m (dres c mp vec n) res).

Lemma cases_iv : m_mode c = I_UINT_W_DIFF ->
  Neg (fun j => nth j vec 0) /\ int_iv_d c mp res vec mat m n = UB BadShift \/
  Pos (fun j => nth j vec 0) /\ exists mp', int_iv_d c mp res vec mat m n = Ok (answer, mp').
Proof.
  intros Hmode.
  assert (Hk : kap c = 0) by (unfold kap; now rewrite Hmode).
  assert (HVu : forall j, (j < n)%nat -> Z.abs (nth j vec 0) <= 2 ^ I_BIT c).
  { intros j Hj. pose proof (Hv j Hj) as Hvj. unfold vok in Hvj. rewrite Hmode in Hvj. lia. }
  unfold int_iv_d. destruct (PD vec Hvec HVu (tmp_int mp) (sh_ti _ _ Hs Hi) Hm0) as (t1 & E1 & L1 & T1).
  rewrite E1. cbn [bind]. rewrite (shift_int c mp Hs Hi).
  assert (Lt : (m * ns <= len t1)%nat) by (rewrite L1; unfold rowsN; nia).
  destruct (neg_dec m ns (sl ns n D (fun j => nth j vec 0))) as [Hpos|Hbad]; [right|left; split; [exact Hbad|]].
  - split; [exact Hpos|]. rewrite (shift_good Hstr ns m n (shifts c) D (fun j => nth j vec 0) (2 ^ W_BIT c) (2 ^ I_BIT c)
      (seg_len c) SR HVu HWD (SP Hm0) t1 Lt T1 res Hres BB Hpos).
    cbn [bind]. eexists. do 2 f_equal. apply (upto_ext m _ _ res 0). intros i Hi' _.
    rewrite (dres_int c mp vec n Hi) by auto. f_equal. apply sumZ_ext. intros j _. now rewrite (val_diff c mp Hi _ _ Hno).
  - now rewrite (shift_bad Hstr ns m n (shifts c) D (fun j => nth j vec 0) (2 ^ W_BIT c) (2 ^ I_BIT c)
      (seg_len c) SR HVu HWD (SP Hm0) t1 Lt T1 res Hres BB Hbad).
Qed.

Lemma cases_i : m_mode c = I_DIFF_W_DIFF_1XB \/ m_mode c = I_DIFF_W_DIFF_2XB ->
  (Neg (fun j => Z.max 0 (nth j vec 0)) \/ Neg (fun j => Z.min 0 (nth j vec 0))) /\ int_i_d c mp res vec mat m n = UB BadShift \/
  (Pos (fun j => Z.max 0 (nth j vec 0)) /\ Pos (fun j => Z.min 0 (nth j vec 0))) /\
    exists mp', int_i_d c mp res vec mat m n = Ok (answer, mp').
Proof.
  intros Hmode.
  assert (Hk : kap c = 0) by (unfold kap; destruct Hmode as [E|E]; now rewrite E).
  assert (Hvm : has_vdm (m_mode c) = true) by (destruct Hmode as [E|E]; now rewrite E).
  assert (Hsg : forall j, (j < n)%nat -> - 2 ^ (I_BIT c - 1) <= nth j vec 0 < 2 ^ (I_BIT c - 1)).
  { intros j Hj. apply (vec_signed c vec n Hv Hi j Hj). destruct Hmode as [E|E]; now rewrite E. }
  destruct (Hb Hi) as (W1 & I1 & WI & _).
  assert (HVh : 2 ^ I_BIT c = 2 * 2 ^ (I_BIT c - 1)).
  { replace (I_BIT c) with (Z.succ (I_BIT c - 1)) at 1 by lia. rewrite Z.pow_succ_r by lia. ring. }
  assert (HP : 0 < 2 ^ (I_BIT c - 1) <= 2 ^ 28) by (split; [apply Z.pow_pos_nonneg; lia|apply Z.pow_le_mono_r; lia]).
  assert (HWp : 0 < 2 ^ W_BIT c) by (apply Z.pow_pos_nonneg; lia).
  pose proof (sh_vdp _ _ Hs) as Lp. pose proof (sh_vdm _ _ Hs Hvm) as Lm.
  unfold int_i_d.
  rewrite split_pm_ok; [|lia|lia|lia|].
  2: { intros j Hj. specialize (Hsg j Hj). unfold int_max. lia. }
  cbn [bind]. set (up := upto n (fun j _ => posp (nth j vec 0)) (vd_p mp)).
  set (um := upto n (fun j _ => negp (nth j vec 0)) (vd_m mp)).
  assert (Np : forall j, (j < n)%nat -> nth j up 0 = posp (nth j vec 0)) by (intros; unfold up; now rewrite nth_upto_lt by lia).
  assert (Nm : forall j, (j < n)%nat -> nth j um 0 = negp (nth j vec 0)) by (intros; unfold um; now rewrite nth_upto_lt by lia).
  assert (HVp : forall j, (j < n)%nat -> Z.abs (nth j up 0) <= 2 ^ I_BIT c).
  { intros j Hj. rewrite Np by auto. specialize (Hsg j Hj). unfold posp. lia. }
  assert (HVm : forall j, (j < n)%nat -> Z.abs (nth j um 0) <= 2 ^ I_BIT c).
  { intros j Hj. rewrite Nm by auto. specialize (Hsg j Hj). unfold negp. lia. }
  destruct (PD up ltac:(unfold up; rewrite upto_length; lia) HVp (tmp_int mp) (sh_ti _ _ Hs Hi) Hm0) as (t1 & E1 & L1 & T1).
  rewrite E1. cbn [bind]. rewrite (shift_int c mp Hs Hi).
  assert (Lt : (m * ns <= len t1)%nat) by (rewrite L1; unfold rowsN; nia).
  assert (Eup : forall i s, sl ns n D (fun j => nth j up 0) i s = sl ns n D (fun j => Z.max 0 (nth j vec 0)) i s).
  { intros i s. apply sl_ext. intros r j Hj. rewrite Np by auto. unfold posp. f_equal. lia. }
  assert (Eum : forall i s, sl ns n (fun r j => - (D r j)) (fun j => nth j um 0) i s = sl ns n D (fun j => Z.min 0 (nth j vec 0)) i s).
  { intros i s. apply sl_ext. intros r j Hj. rewrite Nm by auto. unfold negp.
    replace (Z.min 0 (nth j vec 0)) with (- Z.max (- nth j vec 0) 0) by lia. ring. }
  destruct (neg_dec m ns (sl ns n D (fun j => nth j up 0))) as [Hpos|Hbad].
  2: { left. split; [left; destruct Hbad as (i & s & H1 & H2 & H3); exists i, s; rewrite <- Eup; auto|].
       now rewrite (shift_bad Hstr ns m n (shifts c) D (fun j => nth j up 0) (2 ^ W_BIT c) (2 ^ I_BIT c)
         (seg_len c) SR HVp HWD (SP Hm0) t1 Lt T1 res Hres BB Hbad). }
  rewrite (shift_good Hstr ns m n (shifts c) D (fun j => nth j up 0) (2 ^ W_BIT c) (2 ^ I_BIT c)
         (seg_len c) SR HVp HWD (SP Hm0) t1 Lt T1 res Hres BB Hpos). cbn [bind].
  destruct (PO um ltac:(unfold um; rewrite upto_length; lia) HVm t1 L1 Hm0) as (t2 & E2 & L2 & T2).
  rewrite E2. cbn [bind].
  assert (HVn : forall j, (j < n)%nat -> Z.abs (nth j um 0) <= 2 ^ (I_BIT c - 1)).
  { intros j Hj. rewrite Nm by auto. specialize (Hsg j Hj). unfold negp. lia. }
  assert (HSn : Z.of_nat n * (2 ^ W_BIT c * 2 ^ (I_BIT c - 1)) <= int_max).
  { pose proof (SP Hm0) as S0. nia. }
  assert (Lt2 : (m * ns <= len t2)%nat) by (rewrite L2; unfold rowsN; nia).
  set (r1 := upto m _ res).
  assert (Lr1 : (m <= len r1)%nat) by (unfold r1; now rewrite upto_length).
  assert (B1 : forall i, (i < m)%nat -> Z.abs (nth i r1 0) + Z.of_nat n * (2 ^ W_BIT c * 2 ^ (I_BIT c - 1)) <= int_max).
  { intros i Hi'. unfold r1. rewrite nth_upto_lt by lia.
    pose proof (bB c res m n HB i Hi' Hi) as HBi. rewrite HVh in HBi.
    assert (Hps : Z.abs (sumZ n (fun j => val ns (shifts c) D i j * nth j up 0)) <= Z.of_nat n * (2 ^ W_BIT c * 2 ^ (I_BIT c - 1))).
    { apply sumZ_bound. intros j Hj. rewrite Np by auto. rewrite Z.abs_mul.
      apply Z.mul_le_mono_nonneg; try lia.
      - unfold val. etransitivity; [apply sumZ_abs|].
        etransitivity; [|exact (HWD i j Hi' Hj)]. apply sumZ_le. intros s _.
        rewrite Z.abs_mul, (Z.abs_eq (2 ^ _)) by (apply Z.pow_nonneg; lia). lia.
      - specialize (Hsg j Hj). unfold posp. lia. }
    lia. }
  destruct (neg_dec m ns (sl ns n (fun r j => - (D r j)) (fun j => nth j um 0))) as [Hpos2|Hbad].
  2: { left. split; [right; destruct Hbad as (i & s & H1 & H2 & H3); exists i, s; rewrite <- Eum; auto|].
       now rewrite (shift_bad Hstr ns m n (shifts c) (fun r j => - (D r j)) (fun j => nth j um 0) (2 ^ W_BIT c) (2 ^ (I_BIT c - 1))
         (seg_len c) SR HVn HWO HSn t2 Lt2 T2 r1 Lr1 B1 Hbad). }
  right. split.
  { split; intros i s H1 H2; [rewrite <- Eup; now apply Hpos|rewrite <- Eum; now apply Hpos2]. }
  rewrite (shift_good Hstr ns m n (shifts c) (fun r j => - (D r j)) (fun j => nth j um 0) (2 ^ W_BIT c) (2 ^ (I_BIT c - 1))
         (seg_len c) SR HVn HWO HSn t2 Lt2 T2 r1 Lr1 B1 Hpos2). cbn [bind]. eexists. unfold r1. rewrite upto_upto. do 2 f_equal.
  apply (upto_ext m _ _ res 0). intros i Hi' _. rewrite (dres_int c mp vec n Hi) by auto.
  rewrite <- Z.add_assoc. f_equal. rewrite <- sumZ_add. apply sumZ_ext. intros j Hj.
  rewrite (val_opp c mp), Np, Nm by auto. rewrite !(val_diff c mp Hi _ _ Hno).
  rewrite <- (pos_neg (nth j vec 0)) at 3. ring.
Qed.

Lemma cases_ii : m_mode c = I_OFFS_W_DIFF ->
  (Neg (fun j => 2 ^ (I_BIT c - 1) + nth j vec 0) \/ exists i, (i < m)%nat /\ nth i (sum_w mp) 0 < 0) /\
    int_ii_d c mp res vec mat m n = UB BadShift \/
  (Pos (fun j => 2 ^ (I_BIT c - 1) + nth j vec 0) /\ forall i, (i < m)%nat -> 0 <= nth i (sum_w mp) 0) /\
    exists mp', int_ii_d c mp res vec mat m n = Ok (answer, mp').
Proof.
  intros Hmode.
  assert (Hk' : kap c = 2 ^ (I_BIT c - 1)) by (unfold kap; now rewrite Hmode).
  assert (Hsg : forall j, (j < n)%nat -> - 2 ^ (I_BIT c - 1) <= nth j vec 0 < 2 ^ (I_BIT c - 1)).
  { intros j Hj. apply (vec_signed c vec n Hv Hi j Hj). now rewrite Hmode. }
  destruct (Hb Hi) as (W1 & I1 & WI & _).
  assert (HVh : 2 ^ I_BIT c = 2 * 2 ^ (I_BIT c - 1)).
  { replace (I_BIT c) with (Z.succ (I_BIT c - 1)) at 1 by lia. rewrite Z.pow_succ_r by lia. ring. }
  assert (HP : 0 < 2 ^ (I_BIT c - 1) <= 2 ^ 28) by (split; [apply Z.pow_pos_nonneg; lia|apply Z.pow_le_mono_r; lia]).
  pose proof (sh_vdp _ _ Hs) as Lp.
  unfold int_ii_d. rewrite u32_less by lia.
  rewrite (load_ok vec n _ (fun v => 2 ^ (I_BIT c - 1) + v)); [|lia|lia|].
  2: { intros j Hj. specialize (Hsg j Hj). rewrite shl32_ok by (unfold int_min, int_max; lia).
       cbn [bind]. rewrite Z.mul_1_l. apply add32_ok. unfold int_min, int_max; lia. }
  cbn [bind]. set (u := upto n (fun j _ => 2 ^ (I_BIT c - 1) + nth j vec 0) (vd_p mp)).
  assert (Hu : forall j, (j < n)%nat -> nth j u 0 = 2 ^ (I_BIT c - 1) + nth j vec 0) by (intros; unfold u; now rewrite nth_upto_lt by lia).
  assert (HVu : forall j, (j < n)%nat -> Z.abs (nth j u 0) <= 2 ^ I_BIT c).
  { intros j Hj. rewrite Hu by auto. specialize (Hsg j Hj). lia. }
  destruct (PD u ltac:(unfold u; rewrite upto_length; lia) HVu (tmp_int mp) (sh_ti _ _ Hs Hi) Hm0) as (t1 & E1 & L1 & T1).
  rewrite E1. cbn [bind]. rewrite (shift_int c mp Hs Hi).
  assert (Lt : (m * ns <= len t1)%nat) by (rewrite L1; unfold rowsN; nia).
  set (corr := fun i res => sw <- get (sum_w mp) i ;; y <- shl32 strict_shl sw (I_BIT c - 1) ;; subto res i y).
  assert (Eu : forall i s, sl ns n D (fun j => nth j u 0) i s = sl ns n D (fun j => 2 ^ (I_BIT c - 1) + nth j vec 0) i s).
  { intros i s. apply sl_ext. intros r j Hj. now rewrite Hu by auto. }
  assert (EQ : forall i, sumZ n (fun j => cellv c mp i j * nth j vec 0 + cellb c mp i j) =
    sumZ n (fun j => val ns (shifts c) D i j * nth j u 0) - 2 ^ (I_BIT c - 1) * sumZ n (fun j => cellv c mp i j)).
  { intros i. rewrite <- sumZ_mul_l, <- sumZ_sub. apply sumZ_ext. intros j Hj.
    rewrite (cellb_int c mp Hi), (val_diff c mp Hi _ _ Hno), Hu by auto. ring. }
  assert (Cok : forall i a, (i < m)%nat -> len a = len res -> nth i a 0 = nth i res 0 + sumZ n (fun j => val ns (shifts c) D i j * nth j u 0) ->
    0 <= nth i (sum_w mp) 0 -> corr i a = Ok (upd a i (nth i a 0 + - (nth i (sum_w mp) 0 * 2 ^ (I_BIT c - 1))))).
  { intros i a Hi' La Ea L. unfold corr. rewrite (get_ok _ i 0) by (rewrite (sh_sw _ _ Hs); lia). cbn [bind].
    pose proof (HK i Hi') as HKi. rewrite Hk' in HKi.
    rewrite shl32_ok by (unfold int_min, int_max in *; lia). cbn [bind].
    rewrite (subto_ok _ _ _ 0); [reflexivity|lia|].
    pose proof (HF i Hi') as HFi. unfold dres in HFi. rewrite Hk' in HFi.
    rewrite EQ in HFi. rewrite Ea. unfold int_min, int_max in *. lia. }
  assert (Cub : forall i a, (i < m)%nat -> nth i (sum_w mp) 0 < 0 -> corr i a = UB BadShift).
  { intros i a Hi' L. unfold corr. rewrite (get_ok _ i 0) by (rewrite (sh_sw _ _ Hs); lia). cbn [bind].
    unfold shl32. rewrite Hstr. replace (_ && _) with true by lia. now replace (nth i (sum_w mp) 0 <? 0) with true by lia. }
  match goal with |- context [bind ?x _] => set (X := x) end.
  assert (EX : X = forN m (fun i a => b <- forN ns (fun s b => e <- (x <- get t1 (i * ns + s) ;; sh <- get (shifts c) s ;;
    shl32 strict_shl x sh) ;; addto b i e) a ;; corr i b) res).
  { unfold X. apply forN_ext. intros i a _. unfold corr.
    assert (EF : forall q b, (q < ns)%nat ->
      (x <- get t1 (i * ns + q) ;; sh <- get (shifts c) q ;; y <- shl32 strict_shl x sh ;; addto b i y) =
      (e <- (x <- get t1 (i * ns + q) ;; sh <- get (shifts c) q ;; shl32 strict_shl x sh) ;; addto b i e)).
    { intros q b _. destruct (get t1 (i * ns + q)); cbn [bind]; [destruct (get (shifts c) q)| | |]; reflexivity. }
    now rewrite (forN_ext _ _ _ a EF). }
  assert (RB : forall k, (k < m)%nat -> (exists s, (s < ns)%nat /\ sl ns n D (fun j => nth j u 0) k s < 0) \/ nth k (sum_w mp) 0 < 0 ->
    X = UB BadShift).
  { intros k Hk Hbad. rewrite EX.
    apply (rows_bad Hstr ns m n (shifts c) D (fun j => nth j u 0) (2 ^ W_BIT c) (2 ^ I_BIT c)
      (seg_len c) SR HVu HWD (SP Hm0) t1 Lt T1 corr (fun i => - (nth i (sum_w mp) 0 * 2 ^ (I_BIT c - 1))) res k Hres BB); [|exact Hk|].
    - intros i a Hi' La Ea. destruct (Z_lt_ge_dec (nth i (sum_w mp) 0) 0) as [L|L]; [right; now apply Cub|].
      left. apply Cok; auto. lia.
    - destruct Hbad as [H|H]; [now left|right]. intros a _ _. now apply Cub. }
  destruct (neg_dec m ns (sl ns n D (fun j => nth j u 0))) as [Hpos|(i & s & H1 & H2 & H3)].
  2: { left. split; [left; exists i, s; rewrite <- Eu; auto|]. rewrite (RB i); [reflexivity|exact H1|left; eauto]. }
  destruct (neg_dec m 1 (fun i _ => nth i (sum_w mp) 0)) as [Hps|(i & s & H1 & _ & H3)].
  2: { left. split; [right; eauto|]. rewrite (RB i); [reflexivity|exact H1|now right]. }
  right. split.
  { split; [intros i s H1 H2; rewrite <- Eu; now apply Hpos|]. intros i Hi'. exact (Hps i O Hi' ltac:(lia)). }
  assert (EG : X = Ok (upto m (fun i x => x + sumZ n (fun j => val ns (shifts c) D i j * nth j u 0) +
      - (nth i (sum_w mp) 0 * 2 ^ (I_BIT c - 1))) res)).
  { rewrite EX. apply (rows_eq m _ _ res 0 Hres). intros i a Hi' La Va.
    rewrite (row_ok Hstr ns m n (shifts c) D (fun j => nth j u 0) (2 ^ W_BIT c) (2 ^ I_BIT c)
      (seg_len c) SR HVu HWD (SP Hm0) t1 Lt T1 i a Hi'); [|lia|rewrite Va; now apply BB|intros s Hs'; now apply Hpos].
    cbn [bind]. rewrite Cok; [| |now rewrite upd_length| |].
    - rewrite upd_upd, nth_upd, Nat.eqb_refl by lia. reflexivity.
    - exact Hi'.
    - rewrite nth_upd, Nat.eqb_refl, Va by lia. reflexivity.
    - exact (Hps i O Hi' ltac:(lia)). }
  rewrite EG. cbn [bind]. eexists. do 2 f_equal. apply (upto_ext m _ _ res 0). intros i Hi' _.
  unfold dres. rewrite Hk', EQ. ring.
Qed.

Lemma cases_iii : m_mode c = I_TC_W_DIFF ->
  Neg (fun j => nth j vec 0) /\ int_iii_d c mp res vec mat m n = UB BadShift \/
  Pos (fun j => nth j vec 0) /\ exists mp', int_iii_d c mp res vec mat m n = Ok (answer, mp').
Proof.
  intros Hmode.
  assert (Hk : kap c = 0) by (unfold kap; now rewrite Hmode).
  assert (Hsg : forall j, (j < n)%nat -> - 2 ^ (I_BIT c - 1) <= nth j vec 0 < 2 ^ (I_BIT c - 1)).
  { intros j Hj. apply (vec_signed c vec n Hv Hi j Hj). now rewrite Hmode. }
  destruct (Hb Hi) as (W1 & I1 & WI & _).
  assert (HVh : 2 ^ I_BIT c = 2 * 2 ^ (I_BIT c - 1)).
  { replace (I_BIT c) with (Z.succ (I_BIT c - 1)) at 1 by lia. rewrite Z.pow_succ_r by lia. ring. }
  assert (HP : 0 < 2 ^ (I_BIT c - 1) <= 2 ^ 28) by (split; [apply Z.pow_pos_nonneg; lia|apply Z.pow_le_mono_r; lia]).
  pose proof (sh_vdp _ _ Hs) as Lp.
  unfold int_iii_d. rewrite u32_less by lia. rewrite WriteProofs.ones_ok by lia. cbn [bind].
  rewrite (load_ok vec n _ (fun v => v mod 2 ^ (I_BIT c - 1))); [|lia|lia|].
  2: { intros j Hj. specialize (Hsg j Hj). f_equal. apply (land_mask c mp res vec m n); auto; lia. }
  cbn [bind]. set (u1 := upto n (fun j _ => nth j vec 0 mod 2 ^ (I_BIT c - 1)) (vd_p mp)).
  assert (Hu1 : forall j, (j < n)%nat -> nth j u1 0 = nth j vec 0 mod 2 ^ (I_BIT c - 1)) by (intros; unfold u1; now rewrite nth_upto_lt by lia).
  assert (Lu1 : len u1 = colsN c) by (unfold u1; now rewrite upto_length).
  rewrite (shl32_ok strict_shl 1) by (unfold int_min, int_max; lia). rewrite Z.mul_1_l.
  assert (EL : load vec n (fun v => Ok (wrap32 (Z.land (u32 (2 ^ (I_BIT c - 1))) (u32 v)))) u1 =
               Ok (upto n (fun j _ => if nth j vec 0 <? 0 then 2 ^ (I_BIT c - 1) else 0) u1)).
  { apply (load_ok vec n _ (fun v => if v <? 0 then 2 ^ (I_BIT c - 1) else 0)); [lia|lia|].
    intros j Hj. specialize (Hsg j Hj). f_equal. apply (land_sign c mp res vec m n); auto; lia. }
  set (u2 := upto n (fun j _ => if nth j vec 0 <? 0 then 2 ^ (I_BIT c - 1) else 0) u1) in *.
  assert (Hu2 : forall j, (j < n)%nat -> nth j u2 0 = if nth j vec 0 <? 0 then 2 ^ (I_BIT c - 1) else 0) by (intros; unfold u2; now rewrite nth_upto_lt by lia).
  assert (Lu2 : len u2 = colsN c) by (unfold u2; now rewrite upto_length).
  assert (H12 : forall j, (j < n)%nat -> 0 <= nth j u1 0 /\ 0 <= nth j u2 0 /\
     nth j u1 0 - nth j u2 0 = nth j vec 0 /\ nth j u1 0 + nth j u2 0 <= 2 ^ I_BIT c).
  { intros j Hj. rewrite Hu1, Hu2 by auto. specialize (Hsg j Hj).
    pose proof (Z.mod_pos_bound (nth j vec 0) (2 ^ (I_BIT c - 1)) ltac:(lia)).
    destruct (nth j vec 0 <? 0) eqn:E.
    - assert (nth j vec 0 mod 2 ^ (I_BIT c - 1) = nth j vec 0 + 2 ^ (I_BIT c - 1)).
      { symmetry. apply (Z.mod_unique _ _ (-1)); lia. }
      lia.
    - rewrite Z.mod_small in * by lia. lia. }
  assert (HV1 : forall j, (j < n)%nat -> Z.abs (nth j u1 0) <= 2 ^ I_BIT c) by (intros j Hj; specialize (H12 j Hj); lia).
  assert (HV2 : forall j, (j < n)%nat -> Z.abs (nth j u2 0) <= 2 ^ I_BIT c) by (intros j Hj; specialize (H12 j Hj); lia).
  assert (HV3 : forall j, (j < n)%nat -> Z.abs (nth j vec 0) <= 2 ^ I_BIT c) by (intros j Hj; specialize (H12 j Hj); lia).
  destruct (PD u1 ltac:(lia) HV1 (tmp_int mp) (sh_ti _ _ Hs Hi) Hm0) as (t1 & E1 & L1 & T1).
  rewrite E1. cbn [bind]. rewrite EL. cbn [bind].
  rewrite (dec2_eq _ _ _ (fun r j => (gp mp r j - gm mp r j) * nth j u2 0)).
  - cbn [bind]. rewrite (shift_int c mp Hs Hi). set (t2 := upto (m * ns) _ t1).
    assert (Lt : (m * ns <= len t2)%nat) by (unfold t2; rewrite upto_length, L1; unfold rowsN; nia).
    assert (T2 : forall r, (r < m * ns)%nat -> nth r t2 0 = sumZ n (fun j => D r j * nth j vec 0)).
    { intros r Hr. unfold t2. rewrite nth_upto_lt by (rewrite ?L1; unfold rowsN; nia). rewrite T1 by auto.
      rewrite <- sumZ_sub. apply sumZ_ext. intros j Hj. destruct (H12 j Hj) as (?&?&E&?). rewrite <- E. ring. }
    destruct (neg_dec m ns (sl ns n D (fun j => nth j vec 0))) as [Hpos|Hbad]; [right|left; split; [exact Hbad|]].
    + split; [exact Hpos|]. rewrite (shift_good Hstr ns m n (shifts c) D (fun j => nth j vec 0) (2 ^ W_BIT c) (2 ^ I_BIT c)
        (seg_len c) SR HV3 HWD (SP Hm0) t2 Lt T2 res Hres BB Hpos).
      cbn [bind]. eexists. do 2 f_equal. apply (upto_ext m _ _ res 0). intros i Hi' _.
      rewrite (dres_int c mp vec n Hi) by auto. f_equal. apply sumZ_ext. intros j _. now rewrite (val_diff c mp Hi _ _ Hno).
    + now rewrite (shift_bad Hstr ns m n (shifts c) D (fun j => nth j vec 0) (2 ^ W_BIT c) (2 ^ I_BIT c)
        (seg_len c) SR HV3 HWD (SP Hm0) t2 Lt T2 res Hres BB Hbad).
  - rewrite L1. unfold rowsN. nia.
  - intros r j Hr Hj.
    destruct (core_term ns m n (shifts c) D (fun j => nth j u2 0) (2 ^ W_BIT c) (2 ^ I_BIT c) (seg_len c) SR HV2 HWD r j Hr Hj) as [B1 B2].
    pose proof (V_max c mp res vec m n Hb Hm Hn Hres Hvec Hc Hv HB HK HF Hi).
    assert (Hrow : (r < rowsN c)%nat) by (unfold rowsN; nia).
    apply (dterm_ok (rowsN c) (colsN c)); try apply Hs; try exact Hrow; try lia; unfold int_min, int_max; lia.
  - intros r Hr. rewrite T1 by auto. etransitivity; [|exact (SP Hm0)].
    etransitivity; [apply Z.add_le_mono_r, sumZ_abs|].
    rewrite <- sumZ_add, <- sumZ_const. apply sumZ_le. intros j Hj.
    destruct (core_term ns m n (shifts c) D (fun j => nth j u2 0) (2 ^ W_BIT c) (2 ^ I_BIT c) (seg_len c) SR HV2 HWD r j Hr Hj) as [B1 B2].
    destruct (H12 j Hj) as (?&?&?&?). rewrite !Z.abs_mul, (Z.abs_eq (nth j u1 0)), (Z.abs_eq (nth j u2 0)) by auto.
    rewrite <- Z.mul_add_distr_l. apply Z.mul_le_mono_nonneg; lia.
Qed.
End Modes.

Section Empty.
Context {MC : Machine}.
Notation MM c := (Z.to_nat (M c)).
Notation gp mp r j := (at2 0 (gd_p mp) r j).
Notation gm mp r j := (at2 0 (gd_m mp) r j).
Context (c : config) (mp : mapper) (res vec mat : list Z) (m n : nat)
  (Hw : cfg_wf c) (Hs : shape c mp) (Hb : bits_ok c)
  (Hm : (m <= MM c)%nat) (Hn : (n <= colsN c)%nat)
  (Hres : (m <= len res)%nat) (Hvec : (n <= len vec)%nat)
  (Hc : forall i j, (i < m)%nat -> (j < n)%nat -> cellok c mp i j)
  (Hv : forall j, (j < n)%nat -> vok c (nth j vec 0))
  (HB : forall i, (i < m)%nat -> Z.abs (nth i res 0) + Z.of_nat n * span c <= int_max)
  (HK : forall i, (i < m)%nat -> Z.abs (kap c * nth i (sum_w mp) 0) <= int_max)
  (HF : forall i, (i < m)%nat -> Z.abs (dres c mp vec n i (nth i res 0)) <= int_max)
  (Hi : is_int (m_mode c) = true)
  (Hno : match m_mode c with I_UINT_W_OFFS => False | _ => True end)
  (E0 : m = O).

Lemma none_i : m_mode c = I_DIFF_W_DIFF_1XB \/ m_mode c = I_DIFF_W_DIFF_2XB ->
  exists mp', int_i_d c mp res vec mat m n = Ok (res, mp').
Proof.
  intros Hmode. assert (Hvm : has_vdm (m_mode c) = true) by (destruct Hmode as [E|E]; now rewrite E).
  assert (Hsg : forall j, (j < n)%nat -> - 2 ^ (I_BIT c - 1) <= nth j vec 0 < 2 ^ (I_BIT c - 1)).
  { intros j Hj. apply (vec_signed c vec n Hv Hi j Hj). destruct Hmode as [E|E]; now rewrite E. }
  destruct (Hb Hi) as (W1 & I1 & WI & _).
  assert (HP : 0 < 2 ^ (I_BIT c - 1) <= 2 ^ 28) by (split; [apply Z.pow_pos_nonneg; lia|apply Z.pow_le_mono_r; lia]).
  pose proof (sh_vdp _ _ Hs) as Lp. pose proof (sh_vdm _ _ Hs Hvm) as Lm.
  unfold int_i_d. rewrite split_pm_ok; [|lia|lia|lia|intros j Hj; specialize (Hsg j Hj); unfold int_max; lia].
  rewrite E0. cbn [Nat.mul acc2 forN bind shift_add]. eauto.
Qed.
Lemma none_ii : m_mode c = I_OFFS_W_DIFF -> exists mp', int_ii_d c mp res vec mat m n = Ok (res, mp').
Proof.
  intros Hmode.
  assert (Hsg : forall j, (j < n)%nat -> - 2 ^ (I_BIT c - 1) <= nth j vec 0 < 2 ^ (I_BIT c - 1)).
  { intros j Hj. apply (vec_signed c vec n Hv Hi j Hj). now rewrite Hmode. }
  destruct (Hb Hi) as (W1 & I1 & WI & _).
  assert (HP : 0 < 2 ^ (I_BIT c - 1) <= 2 ^ 28) by (split; [apply Z.pow_pos_nonneg; lia|apply Z.pow_le_mono_r; lia]).
  pose proof (sh_vdp _ _ Hs) as Lp.
  unfold int_ii_d. rewrite u32_less by lia.
  rewrite (load_ok vec n _ (fun v => 2 ^ (I_BIT c - 1) + v)); [|lia|lia|].
  2: { intros j Hj. specialize (Hsg j Hj). rewrite shl32_ok by (unfold int_min, int_max; lia).
       cbn [bind]. rewrite Z.mul_1_l. apply add32_ok. unfold int_min, int_max; lia. }
  rewrite E0. cbn [Nat.mul acc2 forN bind]. eauto.
Qed.
Lemma none_iii : m_mode c = I_TC_W_DIFF -> exists mp', int_iii_d c mp res vec mat m n = Ok (res, mp').
Proof.
  intros Hmode.
  assert (Hsg : forall j, (j < n)%nat -> - 2 ^ (I_BIT c - 1) <= nth j vec 0 < 2 ^ (I_BIT c - 1)).
  { intros j Hj. apply (vec_signed c vec n Hv Hi j Hj). now rewrite Hmode. }
  destruct (Hb Hi) as (W1 & I1 & WI & _).
  assert (HP : 0 < 2 ^ (I_BIT c - 1) <= 2 ^ 28) by (split; [apply Z.pow_pos_nonneg; lia|apply Z.pow_le_mono_r; lia]).
  pose proof (sh_vdp _ _ Hs) as Lp.
  unfold int_iii_d. rewrite u32_less by lia. rewrite WriteProofs.ones_ok by lia. cbn [bind].
  rewrite (load_ok vec n _ (fun v => v mod 2 ^ (I_BIT c - 1))); [|lia|lia|].
  2: { intros j Hj. specialize (Hsg j Hj). f_equal. apply (land_mask c mp res vec m n); auto; lia. }
  rewrite (shl32_ok strict_shl 1) by (unfold int_min, int_max; lia). rewrite Z.mul_1_l.
  rewrite E0. cbn [Nat.mul acc2 dec2 forN bind].
  rewrite (load_ok vec n _ (fun v => if v <? 0 then 2 ^ (I_BIT c - 1) else 0)); [cbn [bind]; eexists; reflexivity|lia|rewrite upto_length; lia|].
  intros j Hj. specialize (Hsg j Hj). f_equal. apply (land_sign c mp res vec m n); auto; lia.
Qed.
Lemma none_iv : m_mode c = I_UINT_W_DIFF -> exists mp', int_iv_d c mp res vec mat m n = Ok (res, mp').
Proof. intros Hmode. unfold int_iv_d. rewrite E0. cbn [Nat.mul acc2 forN bind shift_add]. eauto. Qed.
End Empty.

(** ** Specification *)
(** Slice [s] of a weight, with its sign: the bits of the magnitude above those of the later slices. *)
Definition digit (split : list Z) (s : nat) (w : Z) : Z :=
  Z.sgn w * ((Z.abs w / 2 ^ total (skipn (S s) split)) mod 2 ^ nth s split 0).

(** Row [i] of the product of one slice of the weights with inputs changed by [f] is negative. *)
Definition negative_slice {MC : Machine} (c : config) (mat vec : list Z) (n i : nat) (f : Z -> Z) : Prop :=
  exists s, (s < List.length (SPLIT c))%nat /\
    sum n (fun j => digit (SPLIT c) s (entry mat n i j) * f (nth j vec 0)) < 0.

(** The rows for which a negative number is shifted. *)
Definition shifts_negative {MC : Machine} (c : config) (mat vec : list Z) (n i : nat) : Prop :=
  match m_mode c with
  | I_DIFF_W_DIFF_1XB | I_DIFF_W_DIFF_2XB => negative_slice c mat vec n i (Z.max 0) \/ negative_slice c mat vec n i (Z.min 0)
  | I_OFFS_W_DIFF => negative_slice c mat vec n i (Z.add (2 ^ (I_BIT c - 1))) \/ sum n (entry mat n i) < 0
  | I_TC_W_DIFF | I_UINT_W_DIFF => negative_slice c mat vec n i (fun v => v)
  | _ => False
  end.

Lemma shifts_total l : forall cur, Forall (fun s => 0 <= s) l -> total l = cur -> 0 <= cur <= 31 ->
  forall s, (s < len l)%nat -> nth s (shifts_from cur l) 0 = total (skipn (S s) l).
Proof.
  induction l as [|a l IH]; intros cur HF Hc Hr s Hs; [cbn in Hs; lia|].
  inversion HF as [|? ? Ha HF']; subst. unfold total in *. cbn [fold_right] in *.
  assert (0 <= fold_right Z.add 0 l) by (apply (sumL_nonneg l HF')).
  assert (E : u32 (a + fold_right Z.add 0 l - a) = fold_right Z.add 0 l).
  { replace (a + fold_right Z.add 0 l - a) with (fold_right Z.add 0 l) by lia. apply u32_id. lia. }
  cbn [shifts_from]. rewrite E, wrap32_id by (unfold int_min, int_max; lia).
  destruct s as [|s]; [reflexivity|]. cbn [nth skipn] in *. apply IH; auto; cbn in Hs; lia.
Qed.

Section Write.
Context {MC : Machine}.
Lemma digit_cell c w s : is_int (m_mode c) = true -> split_covers c -> Forall (fun s => 0 <= s) (SPLIT c) -> (s < len (SPLIT c))%nat ->
  diff_p (SPLIT c) (shifts c) w s - diff_m (SPLIT c) (shifts c) w s = digit (SPLIT c) s w.
Proof.
  intros Hi Hcov Hnn Hs. destruct (Hcov Hi) as [F1 F2].
  assert (Esh : nth s (shifts c) 0 = total (skipn (S s) (SPLIT c))).
  { rewrite shifts_eq by lia. apply shifts_total; auto. lia. }
  assert (Hsp : 0 <= nth s (SPLIT c) 0) by (rewrite Forall_forall in Hnn; apply Hnn, nth_In, Hs).
  assert (Hpos : 0 <= total (skipn (S s) (SPLIT c))).
  { apply sumL_nonneg. rewrite Forall_forall in *. intros x Hx. apply Hnn. rewrite <- (firstn_skipn (S s) (SPLIT c)). apply in_or_app. now right. }
  assert (Es : forall v, slice (nth s (shifts c) 0) (nth s (SPLIT c) 0) v = (v / 2 ^ total (skipn (S s) (SPLIT c))) mod 2 ^ nth s (SPLIT c) 0).
  { intros v. unfold slice. rewrite Esh. replace (2 ^ nth s (SPLIT c) 0 - 1) with (Z.ones (nth s (SPLIT c) 0)) by (rewrite Z.ones_equiv; lia).
    rewrite Z.land_ones, Z.shiftr_div_pow2 by assumption. reflexivity. }
  unfold diff_p, diff_m, digit. rewrite !Es. destruct (0 <=? w) eqn:E.
  - destruct (Z.eq_dec w 0) as [->|Hne].
    + rewrite Z.div_0_l by (apply Z.pow_nonzero; lia). rewrite Z.mod_0_l by (apply Z.pow_nonzero; lia). reflexivity.
    + rewrite Z.sgn_pos, Z.abs_eq by lia. ring.
  - rewrite Z.sgn_neg, Z.abs_neq by lia. ring.
Qed.

Lemma d_write_cells c mp mat m n mp' :
  cfg_wf c -> shape c mp -> Forall (fun s => 0 <= s) (SPLIT c) -> split_covers c ->
  (m <= Z.to_nat (M c))%nat -> (n <= colsN c)%nat -> (m * n <= len mat)%nat ->
  (forall i j, (i < m)%nat -> (j < n)%nat -> weight_in c (entry mat n i j)) ->
  Z.of_nat n * row_bound c <= int_max ->
  In (m_mode c) [I_DIFF_W_DIFF_1XB; I_DIFF_W_DIFF_2XB; I_OFFS_W_DIFF; I_TC_W_DIFF; I_UINT_W_DIFF] ->
  d_write c mp mat m n = Ok mp' ->
  forall i s j, (i < m)%nat -> (s < nsplit c)%nat -> (j < n)%nat ->
    at2 0 (gd_p mp') (i * nsplit c + s) j - at2 0 (gd_m mp') (i * nsplit c + s) j = digit (SPLIT c) s (entry mat n i j).
Proof.
  intros Hw Hs Hnn Hcov Hm Hn Hl Hd HN Hmd EW i s j Hi Hs' Hj. pose proof (covers_fits c Hcov Hnn) as Hf.
  assert (Hwok : forall i j, (i < m)%nat -> (j < n)%nat -> wok c (nth (n * i + j) mat 0)).
  { intros i' j' Hi' Hj'. now apply (weight_facts c _ Hcov (Hd i' j' Hi' Hj')). }
  assert (Hsum : forall i, (i < m)%nat -> sumZ n (fun j => Z.abs (nth (n * i + j) mat 0)) <= int_max).
  { intros i' Hi'. etransitivity; [|exact HN]. rewrite <- sumZ_const. apply sumZ_le. intros j' Hj'.
    now apply (weight_facts c _ Hcov (Hd i' j' Hi' Hj')). }
  destruct (d_write_ok c mp mat m n) as (mp1 & E & S' & SB & P1 & P2 & Esw); auto.
  rewrite E in EW. injection EW as <-.
  assert (Hii : is_int (m_mode c) = true) by (cbn in Hmd; destruct Hmd as [<-|[<-|[<-|[<-|[<-|[]]]]]]; reflexivity).
  assert (H2 : two_arrays (m_mode c) = true) by (cbn in Hmd; destruct Hmd as [<-|[<-|[<-|[<-|[<-|[]]]]]]; reflexivity).
  assert (Hr : rpw c = nsplit c) by (unfold rpw; now rewrite Hii).
  assert (Hrow : (i * nsplit c + s < rowsN c)%nat) by (unfold rowsN; nia).
  assert (Hdiv : ((i * nsplit c + s) / nsplit c = i)%nat) by (rewrite Nat.div_add_l by lia; rewrite Nat.div_small by lia; lia).
  assert (Hmod : ((i * nsplit c + s) mod nsplit c = s)%nat) by (rewrite Nat.add_comm, Nat.mod_add by lia; apply Nat.mod_small; lia).
  assert (Hrect : rect (rpw c) m n (i * nsplit c + s) j = true).
  { unfold rect. rewrite Hr. apply andb_true_intro. split; apply Nat.ltb_lt; nia. }
  destruct P1 as [_ P1], P2 as [_ P2]. rewrite P1, P2 by lia. cbv beta. rewrite H2, Hrect. cbn [andb].
  unfold wcell. rewrite Hr, Hdiv, Hmod. rewrite <- (digit_cell c (entry mat n i j) s Hii Hcov Hnn Hs').
  unfold stp, stm, entry. cbn in Hmd. destruct Hmd as [<-|[<-|[<-|[<-|[<-|[]]]]]]; reflexivity.
Qed.
End Write.

(** An MVM of a differential integer mode: undefined for such a row, exact without one. *)
Lemma d_mvm_int {MC : Machine} c mp mat res vec mat' m n : strict_shl = true ->
  In (m_mode c) [I_DIFF_W_DIFF_1XB; I_DIFF_W_DIFF_2XB; I_OFFS_W_DIFF; I_TC_W_DIFF; I_UINT_W_DIFF] ->
  cfg_wf c -> shape c mp -> Forall (fun s => 0 <= s) (SPLIT c) -> split_covers c -> widths_fit c ->
  (m <= Z.to_nat (M c))%nat -> (n <= colsN c)%nat -> (m <= len res)%nat -> (n <= len vec)%nat ->
  (forall i j, (i < m)%nat -> (j < n)%nat -> weight_in c (entry mat n i j)) ->
  (forall j, (j < n)%nat -> input_in c (nth j vec 0)) ->
  Z.of_nat n * term_bound c <= int_max ->
  (forall i, (i < m)%nat -> Z.abs (nth i res 0) + Z.of_nat n * term_bound c <= int_max) ->
  stored c mp mat m n ->
  (forall i s j, (i < m)%nat -> (s < nsplit c)%nat -> (j < n)%nat ->
    at2 0 (gd_p mp) (i * nsplit c + s) j - at2 0 (gd_m mp) (i * nsplit c + s) j = digit (SPLIT c) s (entry mat n i j)) ->
  (exists i, (i < m)%nat /\ shifts_negative c mat vec n i) /\ d_mvm c mp res vec mat' m n = UB BadShift \/
  (~ exists i, (i < m)%nat /\ shifts_negative c mat vec n i) /\
    exists mp', d_mvm c mp res vec mat' m n = Ok (plus_product res mat vec m n, mp').
Proof.
  intros Hstr Hmd Hw Hs Hnn Hcov Hwid Hm Hn Hr Hv Hd Hvd HN HB HS HC.
  assert (Espan : term_bound c = span c).
  { unfold term_bound, span. destruct (is_int (m_mode c)) eqn:Hi; auto.
    destruct (Hcov Hi), (Hwid Hi). apply Z.pow_add_r; lia. }
  rewrite Espan in *.
  assert (Hb : bits_ok c).
  { intros Hi. destruct (Hcov Hi) as [E1 E2], (Hwid Hi) as [E3 E4]. unfold total in E1. fold (sumL (SPLIT c)) in E1.
    repeat split; try lia; rewrite ?shifts_eq by lia; apply shifts_from_range; auto; lia. }
  assert (Hspan : row_bound c <= span c /\ Z.abs (kap c) * row_bound c <= span c).
  { unfold span, kap, row_bound. destruct (is_int (m_mode c)) eqn:Hi.
    - destruct (Hcov Hi) as [F1 F2], (Hwid Hi) as [F3 F4].
      assert (0 < 2 ^ W_BIT c) by (apply Z.pow_pos_nonneg; lia).
      assert (0 < 2 ^ (I_BIT c - 1)) by (apply Z.pow_pos_nonneg; lia).
      assert (2 ^ I_BIT c = 2 * 2 ^ (I_BIT c - 1)).
      { replace (I_BIT c) with (Z.succ (I_BIT c - 1)) at 1 by lia. rewrite Z.pow_succ_r by lia. ring. }
      destruct (m_mode c); try discriminate Hi; repeat split; nia.
    - destruct (m_mode c); try discriminate Hi; cbn; lia. }
  destruct Hspan as (Hs1 & Hs2). pose proof (row_bound_pos c) as Hs3.
  assert (Hsum : forall i, (i < m)%nat ->
     sumZ n (fun j => Z.abs (entry mat n i j)) <= Z.of_nat n * row_bound c).
  { intros i Hi. rewrite <- sumZ_const. apply sumZ_le. intros j Hj. now apply (weight_facts c _ Hcov (Hd i j Hi Hj)). }
  assert (Hdres : forall i x, (i < m)%nat ->
    dres c mp vec n i x = x + sumZ n (fun j => nth (n * i + j) mat 0 * nth j vec 0)).
  { intros i x Hi. unfold dres.
    rewrite (sumZ_ext n (fun j => cellv c mp i j * nth j vec 0 + cellb c mp i j)
              (fun j => nth (n * i + j) mat 0 * nth j vec 0)).
    2: { intros j Hj. rewrite (st_v _ _ _ _ _ HS i j Hi Hj), (st_b _ _ _ _ _ HS i j Hi Hj). unfold entry. ring. }
    rewrite (sumZ_ext n (fun j => cellv c mp i j) (entry mat n i)).
    2: { intros j Hj. apply (st_v _ _ _ _ _ HS i j Hi Hj). }
    assert (Hz : kap c * (nth i (sum_w mp) 0 - sumZ n (entry mat n i)) = 0); [|lia].
    destruct (keeps_sums (m_mode c)) eqn:Ek.
    - rewrite (st_sum _ _ _ _ _ HS Ek i Hi). lia.
    - unfold kap. destruct (m_mode c); try discriminate Ek; lia. }
  assert (Hok : forall i j, (i < m)%nat -> (j < n)%nat -> cellok c mp i j).
  { intros i j Hi Hj. now apply (st_ok _ _ _ _ _ HS). }
  assert (HK : forall i, (i < m)%nat -> Z.abs (kap c * nth i (sum_w mp) 0) <= int_max).
  { intros i Hi. destruct (keeps_sums (m_mode c)) eqn:Ek.
    + rewrite (st_sum _ _ _ _ _ HS Ek i Hi). rewrite Z.abs_mul.
      pose proof (sumZ_abs n (entry mat n i)). specialize (Hsum i Hi).
      etransitivity; [|exact HN].
      transitivity (Z.abs (kap c) * (Z.of_nat n * row_bound c)).
      * apply Z.mul_le_mono_nonneg_l; [apply Z.abs_nonneg|]. etransitivity; [|exact Hsum]. assumption.
      * nia.
    + unfold kap. destruct (m_mode c); try discriminate Ek; cbn; unfold int_max; lia. }
  assert (HF : forall i, (i < m)%nat -> Z.abs (dres c mp vec n i (nth i res 0)) <= int_max).
  { intros i Hi. rewrite Hdres by auto. specialize (HB i Hi).
    assert (HV : forall j, (j < n)%nat -> Z.abs (nth (n * i + j) mat 0 * nth j vec 0) <= span c).
    { intros j Hj. destruct (weight_facts c _ Hcov (Hd i j Hi Hj)) as (B & _ & _).
      specialize (Hvd j Hj). unfold entry in B. rewrite Z.abs_mul. unfold span, input_in, row_bound in *.
      destruct (is_int (m_mode c)) eqn:Hii.
      - assert (Z.abs (nth j vec 0) <= 2 ^ I_BIT c).
        { destruct (Hcov Hii) as [F1 F2], (Hwid Hii) as [F3 F4].
          assert (2 ^ I_BIT c = 2 * 2 ^ (I_BIT c - 1)).
          { replace (I_BIT c) with (Z.succ (I_BIT c - 1)) at 1 by lia. rewrite Z.pow_succ_r by lia. ring. }
          destruct (m_mode c); try discriminate Hii; lia. }
        apply Z.mul_le_mono_nonneg; lia.
      - assert (Z.abs (nth j vec 0) <= 1).
        { destruct (m_mode c); try discriminate Hii; lia. }
        nia. }
    pose proof (sumZ_bound n (fun j => nth (n * i + j) mat 0 * nth j vec 0) (span c) HV). lia. }
  assert (Hvo : forall j, (j < n)%nat -> vok c (nth j vec 0)) by exact Hvd.
  assert (Hii : is_int (m_mode c) = true) by (cbn in Hmd; destruct Hmd as [<-|[<-|[<-|[<-|[<-|[]]]]]]; reflexivity).
  assert (Hno : match m_mode c with I_UINT_W_OFFS => False | _ => True end).
  { cbn in Hmd; destruct Hmd as [<-|[<-|[<-|[<-|[<-|[]]]]]]; exact I. }
  assert (Hans : upto m (dres c mp vec n) res = plus_product res mat vec m n).
  { rewrite <- plus_product_upto. apply (upto_ext m _ _ res 0). intros i Hi _. now apply Hdres. }
  assert (Hsl : forall f i s, (i < m)%nat -> (s < nsplit c)%nat ->
    sl (nsplit c) n (fun r j => at2 0 (gd_p mp) r j - at2 0 (gd_m mp) r j) (fun j => f (nth j vec 0)) i s =
    sum n (fun j => digit (SPLIT c) s (entry mat n i j) * f (nth j vec 0))).
  { intros f i s Hi Hs'. rewrite sum_sumZ. apply sumZ_ext. intros j Hj. now rewrite HC by auto. }
  assert (HNeg : forall f, Neg c mp m n (fun j => f (nth j vec 0)) -> exists i, (i < m)%nat /\ negative_slice c mat vec n i f).
  { intros f (i & s & H1 & H2 & H3). exists i. split; [exact H1|]. exists s. split; [exact H2|]. now rewrite <- Hsl. }
  assert (HPos : forall f, Pos c mp m n (fun j => f (nth j vec 0)) -> forall i, (i < m)%nat -> ~ negative_slice c mat vec n i f).
  { intros f HP i Hi (s & H2 & H3). rewrite <- Hsl in H3 by auto. specialize (HP i s Hi H2). cbv beta in HP, H3. lia. }
  assert (Hsw : m_mode c = I_OFFS_W_DIFF -> forall i, (i < m)%nat -> nth i (sum_w mp) 0 = sum n (entry mat n i)).
  { intros E i Hi. rewrite sum_sumZ. apply (st_sum _ _ _ _ _ HS); [now rewrite E|exact Hi]. }
  assert (Hdm : d_mvm c mp res vec mat' m n = match m_mode c with
    | I_DIFF_W_DIFF_1XB | I_DIFF_W_DIFF_2XB => int_i_d c mp res vec mat' m n
    | I_OFFS_W_DIFF => int_ii_d c mp res vec mat' m n
    | I_TC_W_DIFF => int_iii_d c mp res vec mat' m n
    | _ => int_iv_d c mp res vec mat' m n end).
  { unfold d_mvm. rewrite (sh_mode _ _ Hs). cbn in Hmd; destruct Hmd as [<-|[<-|[<-|[<-|[<-|[]]]]]]; reflexivity. }
  rewrite Hdm. unfold shifts_negative. rewrite <- Hans. clear Hdm Hans Hsum Hdres Hsl.
  destruct (Nat.eq_dec m 0) as [E0|E0].
  { right. split; [intros (i & Hi & _); rewrite E0 in Hi; now apply Nat.nlt_0_r in Hi|].
    assert (C1 := none_i c mp res vec mat' m n Hs Hb Hm Hn Hr Hv Hok Hvo HB HK HF Hii E0).
    assert (C2 := none_ii c mp res vec mat' m n Hs Hb Hm Hn Hr Hv Hok Hvo HB HK HF Hii E0).
    assert (C3 := none_iii c mp res vec mat' m n Hs Hb Hm Hn Hr Hv Hok Hvo HB HK HF Hii E0).
    assert (C4 := none_iv c mp res vec mat' m n E0).
    rewrite E0, upto_0 in *.
    cbn [In] in Hmd. destruct Hmd as [E|[E|[E|[E|[E|[]]]]]]; rewrite <- E; auto. }
  assert (Hm0 : (0 < m)%nat) by lia. clear E0.
  assert (C1 := cases_i Hstr c mp res vec mat' m n Hs Hb Hm Hn Hr Hv Hok Hvo HB HK HF Hii Hno Hm0).
  assert (C2 := cases_ii Hstr c mp res vec mat' m n Hs Hb Hm Hn Hr Hv Hok Hvo HB HK HF Hii Hno Hm0).
  assert (C3 := cases_iii Hstr c mp res vec mat' m n Hs Hb Hm Hn Hr Hv Hok Hvo HB HK HF Hii Hno Hm0).
  assert (C4 := cases_iv Hstr c mp res vec mat' m n Hs Hb Hm Hn Hr Hv Hok Hvo HB HK HF Hii Hno Hm0).
  cbn [In] in Hmd. destruct Hmd as [E|[E|[E|[E|[E|[]]]]]]; rewrite <- E.
  - destruct (C1 (or_introl (eq_sym E))) as [[[H|H] U]|[[H1 H2] G]].
    + left. split; [|exact U]. destruct (HNeg _ H) as (i & Hi & Hx). eauto.
    + left. split; [|exact U]. destruct (HNeg _ H) as (i & Hi & Hx). eauto.
    + right. split; [|exact G]. intros (i & Hi & [Hx|Hx]); [exact (HPos _ H1 i Hi Hx)|exact (HPos _ H2 i Hi Hx)].
  - destruct (C1 (or_intror (eq_sym E))) as [[[H|H] U]|[[H1 H2] G]].
    + left. split; [|exact U]. destruct (HNeg _ H) as (i & Hi & Hx). eauto.
    + left. split; [|exact U]. destruct (HNeg _ H) as (i & Hi & Hx). eauto.
    + right. split; [|exact G]. intros (i & Hi & [Hx|Hx]); [exact (HPos _ H1 i Hi Hx)|exact (HPos _ H2 i Hi Hx)].
  - destruct (C2 (eq_sym E)) as [[[H|(i & Hi & H)] U]|[[H1 H2] G]].
    + left. split; [|exact U]. destruct (HNeg (Z.add (2 ^ (I_BIT c - 1))) H) as (i & Hi & Hx). eauto.
    + left. split; [|exact U]. exists i. split; [exact Hi|]. right. now rewrite <- (Hsw (eq_sym E)).
    + right. split; [|exact G]. intros (i & Hi & [Hx|Hx]); [exact (HPos (Z.add (2 ^ (I_BIT c - 1))) H1 i Hi Hx)|].
      rewrite <- (Hsw (eq_sym E)) in Hx by exact Hi. specialize (H2 i Hi). lia.
  - destruct (C3 (eq_sym E)) as [[H U]|[H G]].
    + left. split; [|exact U]. destruct (HNeg (fun v => v) H) as (i & Hi & Hx). eauto.
    + right. split; [|exact G]. intros (i & Hi & Hx). exact (HPos (fun v => v) H i Hi Hx).
  - destruct (C4 (eq_sym E)) as [[H U]|[H G]].
    + left. split; [|exact U]. destruct (HNeg (fun v => v) H) as (i & Hi & Hx). eauto.
    + right. split; [|exact G]. intros (i & Hi & Hx). exact (HPos (fun v => v) H i Hi Hx).
Qed.

Lemma integer_shift {MC : Machine} : strict_shl = true ->
  forall (w : world) (mat vec res mat' : list Z) (m n : Z) (l : string),
  In (m_mode (wcfg w)) [I_DIFF_W_DIFF_1XB; I_DIFF_W_DIFF_2XB; I_OFFS_W_DIFF; I_TC_W_DIFF; I_UINT_W_DIFF] ->
  reach w -> wx w <> None -> digital_only (wcfg w) = true ->
  split_covers (wcfg w) -> widths_fit (wcfg w) -> dims_in (wcfg w) m n ->
  all_entries (weight_in (wcfg w)) mat m n -> all_first (input_in (wcfg w)) vec n -> room (wcfg w) res m n ->
  exists w1, step w (CpyMtrx mat m n) = Ok (w1, RCode 0) /\
  let bad := exists i, (i < Z.to_nat m)%nat /\ shifts_negative (wcfg w) mat vec (Z.to_nat n) i in
  (bad -> step w1 (ExeMvm res vec mat' m n l) = UB BadShift) /\
  (~ bad -> exists w2, step w1 (ExeMvm res vec mat' m n l) =
     Ok (w2, RRes 0 (plus_product res mat vec (Z.to_nat m) (Z.to_nat n)))).
Proof.
  intros Hstr w mat vec res mat' m n l Hmd Hr Hx Hd Hcov Hwid Hdim Hmat Hvec Hroom.
  apply reach_good in Hr. destruct (wx w) as [x|] eqn:Ex; [|easy].
  assert (HN : n * row_bound (wcfg w) <= int32_max).
  { destruct Hroom as [HN _], Hdim as [_ Dn]. pose proof (row_term _ Hwid Hcov). nia. }
  destruct (cpy_stored w x mat m n Hr Ex Hd Hcov Hdim Hmat HN) as (w1 & E1 & Hg & Ec & _ & x1 & Ex1 & HS).
  exists w1. split; [exact E1|]. cbv zeta.
  assert (HC : forall i s j, (i < Z.to_nat m)%nat -> (s < nsplit (wcfg w))%nat -> (j < Z.to_nat n)%nat ->
    at2 0 (gd_p (xm x1)) (i * nsplit (wcfg w) + s) j - at2 0 (gd_m (xm x1)) (i * nsplit (wcfg w) + s) j =
    digit (SPLIT (wcfg w)) s (entry mat (Z.to_nat n) i j)).
  { destruct (guard_ok w m n Hr Hdim) as (G1 & G2 & Hm & Hn). destruct Hdim as [Dm Dn], Hmat as [Hl Hent].
    pose proof (g_x _ Hr x Ex) as Hxo. pose proof (good_wf w Hr) as Hwf.
    assert (L : (Z.to_nat m * Z.to_nat n <= len mat)%nat) by (clear -Hl Dm Dn; nia).
    assert (B : Z.of_nat (Z.to_nat n) * row_bound (wcfg w) <= int_max) by (rewrite Z2Nat.id by (clear -Dn; lia); exact HN).
    destruct (d_write_stored (wcfg w) (xm x) mat (Z.to_nat m) (Z.to_nat n) Hwf (xo_shape _ _ Hxo) (split_nonneg w Hr) Hcov Hm Hn L Hent B)
      as (mp' & E & S1 & _ & _).
    destruct (xwrite_digital (wcfg w) x mat (Z.to_nat m) (Z.to_nat n) (wenv w) mp' Hd Hxo S1 E) as (x' & Ex' & Exm).
    assert (Est : step w (CpyMtrx mat m n) = Ok (w <| wx := Some x' |> <| wenv := wenv w |>, RCode 0)).
    { cbn. unfold cpy_mtrx. rewrite Ex, G1, G2. cbn [bind]. rewrite Ex'. reflexivity. }
    rewrite E1 in Est. injection Est as Ew. assert (x1 = x') as ->.
    { rewrite Ew in Ex1. cbn in Ex1. now injection Ex1. }
    rewrite Exm. exact (d_write_cells (wcfg w) (xm x) mat (Z.to_nat m) (Z.to_nat n) mp' Hwf (xo_shape _ _ Hxo) (split_nonneg w Hr)
      Hcov Hm Hn L Hent B Hmd E). }
  destruct Hmat as [Hl Hent], Hvec as [Hv1 Hv2], Hroom as [HN' [Hr1 Hr2]].
  rewrite <- Ec in Hd, Hcov, Hwid, Hdim, Hent, Hv2, HN', Hr2, HC, Hmd |- *. clear HN E1. destruct (guard_ok w1 m n Hg Hdim) as (G1 & G2 & Hm & Hn).
  destruct Hdim as [Dm Dn]. pose proof (g_x _ Hg x1 Ex1) as Hxo. pose proof (good_wf w1 Hg) as Hwf.
  assert (L1 : (Z.to_nat m <= len res)%nat) by (clear -Hr1; lia).
  assert (L2 : (Z.to_nat n <= len vec)%nat) by (clear -Hv1; lia).
  assert (B1 : Z.of_nat (Z.to_nat n) * term_bound (wcfg w1) <= int_max) by (rewrite Z2Nat.id by (clear -Dn; lia); exact HN').
  assert (B2 : forall i, (i < Z.to_nat m)%nat ->
    Z.abs (nth i res 0) + Z.of_nat (Z.to_nat n) * term_bound (wcfg w1) <= int_max)
    by (intros i Hi; rewrite Z2Nat.id by (clear -Dn; lia); exact (Hr2 i Hi)).
  destruct (d_mvm_int (wcfg w1) (xm x1) mat res vec mat' (Z.to_nat m) (Z.to_nat n) Hstr Hmd Hwf
    (xo_shape _ _ Hxo) (split_nonneg w1 Hg) Hcov Hwid Hm Hn L1 L2 Hent Hv2 B1 B2 HS HC) as [[Hb E]|[Hb (mp' & E)]].
  - split; [intros _|contradiction]. cbn. unfold exe_mvm. rewrite Ex1, G1, G2. cbn [bind]. unfold xmvm. cbv zeta.
    change (xm (x1 <|n_mvm := n_mvm x1 + 1|> <|n_read := n_read x1 + 1|>)) with (xm x1).
    rewrite Hd, E. reflexivity.
  - split; [contradiction|intros _].
    destruct (xmvm_digital (wcfg w1) x1 res vec mat' _ _ l (wenv w1) _ _ Hd E) as (x' & E').
    cbn. unfold exe_mvm. rewrite Ex1, G1, G2. cbn [bind]. rewrite E'. cbn [bind]. eauto.
Qed.
