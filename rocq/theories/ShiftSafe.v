(** The ternary modes on a machine where shifts of negative numbers are undefined, without such shifts: C53. *)
From Coq Require Import List ZArith Bool Arith Lia ZifyBool ZifyNat String.
From RecordUpdate Require Import RecordSet.
From Verif Require Import Base Lib Hoare Machine Json Config Histogram Adc ReadDisturb Parasitics
  Mapper IntMappers BnnMappers TnnMappers Crossbar Api WriteProofs Shape MvmShape DigMvm DigModes DigWrite
  AnaShape ConfigProofs Reach Spec DigApi ShiftUb ShiftTnn.
Import ListNotations RecordSetNotations.
Local Open Scope Z_scope.
Local Open Scope out_scope.

Ltac Zify.zify_post_hook ::= idtac.
Notation len := List.length.

Section Safe.
Context {MC : Machine}.
Notation MM c := (Z.to_nat (M c)).
Notation gp mp r j := (at2 0 (gd_p mp) r j).
Notation gm mp r j := (at2 0 (gd_m mp) r j).
Context (c : config) (mp : mapper) (res vec mat : list Z) (m n : nat)
  (Hw : cfg_wf c) (Hs : shape c mp)
  (Hm : (m <= MM c)%nat) (Hn : (n <= colsN c)%nat)
  (Hres : (m <= len res)%nat) (Hvec : (n <= len vec)%nat)
  (Hc : forall i j, (i < m)%nat -> (j < n)%nat -> cellok c mp i j)
  (Hv : forall j, (j < n)%nat -> vok c (nth j vec 0))
  (HB : forall i, (i < m)%nat -> Z.abs (nth i res 0) + Z.of_nat n * span c <= int_max)
  (HK : forall i, (i < m)%nat -> Z.abs (kap c * nth i (sum_w mp) 0) <= int_max)
  (HF : forall i, (i < m)%nat -> Z.abs (dres c mp vec n i (nth i res 0)) <= int_max)
  (Hx : is_int (m_mode c) = false)
  (HN : Z.of_nat n * span c <= int_max).
Notation dterm_x := (DigModes.dterm_x c mp res vec m n Hw Hs Hm Hn Hres Hvec Hc Hv HB HK HF Hx).
Notation cell_x := (DigModes.cell_x c mp m n Hc Hx).
Notation gp_get := (DigModes.gp_get c mp res vec m n Hw Hs Hm Hn Hres Hvec Hc Hv HB HK HF Hx).
Notation row_x := (DigModes.row_x c mp res vec m n Hw Hm Hn Hres Hvec Hc Hv HB HK HF Hx).
Notation bound3 := (DigModes.bound3 c mp res vec m n Hm Hn Hres Hvec Hc Hv HB HK HF Hx).
Notation vdp_len := (DigModes.vdp_len c mp n Hs Hn).

Notation rails := (DigModes.rails c mp res vec m n Hs Hm Hn Hres Hvec Hc Hv HB HK HF).
Notation row_corr := (DigModes.row_corr c mp res vec m n Hs Hm Hn Hres Hvec Hc Hv HB HK HF).
Notation span_xnn := (DigModes.span_xnn c Hx).

Lemma dshl1_x v i j : (strict_shl = true -> 0 <= (gp mp i j - gm mp i j) * nth j v 0) -> (i < m)%nat -> (j < n)%nat -> (n <= len v)%nat ->
  Z.abs (nth j v 0) <= 1 ->
  dshl1 (gd_p mp) (gd_m mp) v i j = Ok (2 * ((gp mp i j - gm mp i j) * nth j v 0)) /\
  Z.abs (2 * ((gp mp i j - gm mp i j) * nth j v 0)) <= 2.
Proof.
  intros Hst Hi Hj Hl Hb1. unfold dshl1. destruct (dterm_x false v i j Hi Hj Hl Hb1) as [E B].
  rewrite E. cbn [bind]. rewrite Z.mul_1_l in B |- *. split; [|lia].
  rewrite shl32_ok by (try congruence; change (2 ^ 1) with 2; unfold int_min, int_max; lia).
  f_equal. change (2 ^ 1) with 2. ring.
Qed.

Lemma safe_tnn_ii (Hst : forall i j, (i < m)%nat -> (j < n)%nat -> strict_shl = true -> 0 <= (gp mp i j - gm mp i j) * (if nth j vec 0 =? -1 then 1 else 0))
  (Hmode : m_mode c = TNN_II) :
  exists mp', tnn_ii_d c mp res vec mat m n = Ok (upto m (dres c mp vec n) res, mp').
Proof.
  assert (Hvb : forall j, (j < n)%nat -> ter (nth j vec 0)).
  { intros j Hj. pose proof (Hv j Hj) as Hvj. unfold vok in Hvj. now rewrite Hmode in Hvj. }
  unfold tnn_ii_d. pose proof vdp_len as Hvl.
  rewrite (load_ok vec n bit0_ii (fun v => if v =? 0 then 0 else 1)) by auto. cbn [bind].
  set (u := upto n _ _).
  assert (Lu : (n <= len u)%nat) by (unfold u; rewrite upto_length; auto).
  assert (Hu : forall j, (j < n)%nat -> nth j u 0 = (if nth j vec 0 =? 0 then 0 else 1)).
  { intros j Hj. unfold u. now rewrite nth_upto_lt by lia. }
  assert (Hu1 : forall j, (j < n)%nat -> Z.abs (nth j u 0) <= 1).
  { intros j Hj. rewrite Hu by auto. destruct (_ =? _); lia. }
  rewrite (acc2_eq m n _ (fun i j => (gp mp i j - gm mp i j) * nth j u 0)); auto.
  2: { intros i j Hi Hj. destruct (dterm_x false u i j Hi Hj Lu (Hu1 j Hj)) as [E B].
       rewrite E. f_equal. ring. }
  2: { intros i Hi. apply (bound3 _ i 1); [auto|lia|]. intros j Hj.
       destruct (dterm_x false u i j Hi Hj Lu (Hu1 j Hj)) as [E B]. lia. }
  cbn [bind].
  rewrite (load_ok vec n bit1_ii (fun v => if v =? -1 then 1 else 0)) by auto. cbn [bind].
  set (w := upto n (fun j _ => if nth j vec 0 =? -1 then 1 else 0) u).
  assert (Lw : (n <= len w)%nat) by (unfold w; rewrite upto_length; auto).
  assert (Hwv : forall j, (j < n)%nat -> nth j w 0 = (if nth j vec 0 =? -1 then 1 else 0)).
  { intros j Hj. unfold w. now rewrite nth_upto_lt by lia. }
  assert (Hw1 : forall j, (j < n)%nat -> Z.abs (nth j w 0) <= 1).
  { intros j Hj. rewrite Hwv by auto. destruct (_ =? _); lia. }
  rewrite (dec2_eq m n _ (fun i j => 2 * ((gp mp i j - gm mp i j) * nth j w 0))).
  - cbn [bind]. eexists. do 2 f_equal. rewrite upto_upto. apply (upto_ext m _ _ res 0). intros i Hi _.
    unfold dres, kap, cellb, cellv. rewrite Hmode.
    rewrite (sumZ_lin n (fun j => (gp mp i j - gm mp i j) * nth j vec 0 + 0)
      (fun j => (gp mp i j - gm mp i j) * nth j u 0)
      (fun j => 2 * ((gp mp i j - gm mp i j) * nth j w 0)) (-1)); [ring|].
    intros j Hj. rewrite Hu, Hwv by auto. destruct (Hvb j Hj) as [-> |[-> | ->]]; cbn [Z.eqb Pos.eqb]; ring.
  - rewrite upto_length; auto.
  - intros i j Hi Hj. apply dshl1_x; auto. now rewrite Hwv by auto; apply Hst.
  - intros i Hi. rewrite nth_upto_lt by lia.
    pose proof (HB i Hi) as HBi. rewrite span_xnn in HBi.
    assert (Z.abs (sumZ n (fun j => (gp mp i j - gm mp i j) * nth j u 0)) <= Z.of_nat n * 1).
    { apply sumZ_bound. intros j Hj. destruct (dterm_x false u i j Hi Hj Lu (Hu1 j Hj)) as [E B]. lia. }
    assert (sumZ n (fun j => Z.abs (2 * ((gp mp i j - gm mp i j) * nth j w 0))) <= Z.of_nat n * 2).
    { rewrite <- sumZ_const. apply sumZ_le. intros j Hj. apply dshl1_x; auto. now rewrite Hwv by auto; apply Hst. }
    lia.
Qed.

Lemma safe_tnn_iii (Hst : forall i j, (i < m)%nat -> (j < n)%nat -> strict_shl = true -> 0 <= (gp mp i j - gm mp i j) * (if nth j vec 0 =? 1 then 1 else 0))
  (Hmode : m_mode c = TNN_III) :
  exists mp', tnn_iii_d c mp res vec mat m n = Ok (upto m (dres c mp vec n) res, mp').
Proof.
  assert (Hvb : forall j, (j < n)%nat -> ter (nth j vec 0)).
  { intros j Hj. pose proof (Hv j Hj) as Hvj. unfold vok in Hvj. now rewrite Hmode in Hvj. }
  unfold tnn_iii_d. pose proof vdp_len as Hvl.
  rewrite (load_ok vec n bit0_iii (fun v => if v =? 0 then 1 else 0)); auto.
  2: { intros j Hj. destruct (Hvb j Hj) as [-> |[-> | ->]]; reflexivity. }
  cbn [bind].
  set (u := upto n _ _).
  assert (Lu : (n <= len u)%nat) by (unfold u; rewrite upto_length; auto).
  assert (Hu : forall j, (j < n)%nat -> nth j u 0 = (if nth j vec 0 =? 0 then 1 else 0)).
  { intros j Hj. unfold u. now rewrite nth_upto_lt by lia. }
  assert (Hu1 : forall j, (j < n)%nat -> Z.abs (nth j u 0) <= 1).
  { intros j Hj. rewrite Hu by auto. destruct (_ =? _); lia. }
  rewrite (acc2_eq m n _ (fun i j => (gp mp i j - gm mp i j) * nth j u 0)); auto.
  2: { intros i j Hi Hj. destruct (dterm_x false u i j Hi Hj Lu (Hu1 j Hj)) as [E B].
       rewrite E. f_equal. ring. }
  2: { intros i Hi. apply (bound3 _ i 1); [auto|lia|]. intros j Hj.
       destruct (dterm_x false u i j Hi Hj Lu (Hu1 j Hj)) as [E B]. lia. }
  cbn [bind].
  rewrite (load_ok vec n bit1_iii (fun v => if v =? 1 then 1 else 0)); auto.
  2: { intros j Hj. destruct (Hvb j Hj) as [-> |[-> | ->]]; reflexivity. }
  cbn [bind].
  set (w := upto n (fun j _ => if nth j vec 0 =? 1 then 1 else 0) u).
  assert (Lw : (n <= len w)%nat) by (unfold w; rewrite upto_length; auto).
  assert (Hwv : forall j, (j < n)%nat -> nth j w 0 = (if nth j vec 0 =? 1 then 1 else 0)).
  { intros j Hj. unfold w. now rewrite nth_upto_lt by lia. }
  assert (Hw1 : forall j, (j < n)%nat -> Z.abs (nth j w 0) <= 1).
  { intros j Hj. rewrite Hwv by auto. destruct (_ =? _); lia. }
  rewrite (acc2_eq m n _ (fun i j => 2 * ((gp mp i j - gm mp i j) * nth j w 0))).
  - cbn [bind]. rewrite upto_upto. rewrite (row_corr subto 1 _ op_sub); [cbn [bind]; eauto|].
    intros i Hi. unfold dres, kap, cellb, cellv. rewrite Hmode.
    rewrite (sumZ_lin n (fun j => (gp mp i j - gm mp i j) * nth j vec 0 + 0)
      (fun j => (gp mp i j - gm mp i j) * nth j u 0 + 2 * ((gp mp i j - gm mp i j) * nth j w 0))
      (fun j => gp mp i j - gm mp i j) (-1)); [rewrite sumZ_add; ring|].
    intros j Hj. rewrite Hu, Hwv by auto. destruct (Hvb j Hj) as [-> |[-> | ->]]; cbn [Z.eqb Pos.eqb]; ring.
  - rewrite upto_length; auto.
  - intros i j Hi Hj. apply dshl1_x; auto. now rewrite Hwv by auto; apply Hst.
  - intros i Hi. rewrite nth_upto_lt by lia.
    pose proof (HB i Hi) as HBi. rewrite span_xnn in HBi.
    assert (Z.abs (sumZ n (fun j => (gp mp i j - gm mp i j) * nth j u 0)) <= Z.of_nat n * 1).
    { apply sumZ_bound. intros j Hj. destruct (dterm_x false u i j Hi Hj Lu (Hu1 j Hj)) as [E B]. lia. }
    assert (sumZ n (fun j => Z.abs (2 * ((gp mp i j - gm mp i j) * nth j w 0))) <= Z.of_nat n * 2).
    { rewrite <- sumZ_const. apply sumZ_le. intros j Hj. apply dshl1_x; auto. now rewrite Hwv by auto; apply Hst. }
    lia.
Qed.

Lemma dtc_x (plus : bool) vp vm i j : (strict_shl = true -> 0 <= gm mp i j * nth j vec 0) -> (i < m)%nat -> (j < n)%nat ->
  (n <= len vp)%nat -> (n <= len vm)%nat ->
  nth j vp 0 = posp (nth j vec 0) -> nth j vm 0 = negp (nth j vec 0) -> ter (nth j vec 0) ->
  dtc plus (gd_p mp) (gd_m mp) vp vm i j =
    Ok ((gp mp i j + (if plus then 2 else -2) * gm mp i j) * nth j vec 0) /\
  Z.abs ((gp mp i j + (if plus then 2 else -2) * gm mp i j) * nth j vec 0) <= 3.
Proof.
  intros Hst Hi Hj Lp Lm E1 E2 Ht. pose proof (cell_x i j Hi Hj) as [C1 C2].
  split; [|destruct plus, Ht as [-> |[-> | ->]]; lia].
  unfold dtc. rewrite (get_ok vp j 0) by lia. cbn [bind]. rewrite (get_ok vm j 0) by lia. cbn [bind].
  rewrite E1, E2, sub32_ok, pos_neg by (rewrite pos_neg; destruct Ht as [-> |[-> | ->]]; unfold int_min, int_max; lia).
  cbn [bind]. rewrite gp_get by auto. cbn [bind].
  rewrite mul32_ok by (destruct Ht as [-> |[-> | ->]]; unfold int_min, int_max; lia). cbn [bind].
  rewrite (get2_ok 0 (rowsN c) (colsN c)) by (try apply Hs; try lia; now apply row_x). cbn [bind].
  rewrite mul32_ok by (destruct Ht as [-> |[-> | ->]]; unfold int_min, int_max; lia). cbn [bind].
  rewrite shl32_ok by (try congruence; change (2 ^ 1) with 2;
    destruct Ht as [Et|[Et|Et]]; rewrite ?Et; unfold int_min, int_max; lia).
  cbn [bind]. change (2 ^ 1) with 2. destruct plus.
  - rewrite add32_ok by (destruct Ht as [-> |[-> | ->]]; unfold int_min, int_max; lia). f_equal. ring.
  - rewrite sub32_ok by (destruct Ht as [-> |[-> | ->]]; unfold int_min, int_max; lia). f_equal. ring.
Qed.

Lemma safe_tnn_iv (Hst : forall i j, (i < m)%nat -> (j < n)%nat -> strict_shl = true -> 0 <= gm mp i j * nth j vec 0)
  (Hmode : m_mode c = TNN_IV) :
  exists mp', tnn_iv_d c mp res vec mat m n = Ok (upto m (dres c mp vec n) res, mp').
Proof.
  assert (Hvb : forall j, (j < n)%nat -> ter (nth j vec 0)).
  { intros j Hj. pose proof (Hv j Hj) as Hvj. unfold vok in Hvj. now rewrite Hmode in Hvj. }
  destruct (rails true) as (vp & vm & Ep & Em & Lm & Lp' & Lm' & Hpm); [now rewrite Hmode|auto|].
  unfold tnn_iv_d. assert (HS : SPLIT c = [1; 1]) by (unfold cfg_wf in Hw; now rewrite Hmode in Hw).
  rewrite HS. change (split11 [1; 1]) with true. cbn iota. rewrite two_rail_ok by auto using vdp_len. cbn [bind]. rewrite <- Ep, <- Em.
  rewrite (acc2_eq m n _ (fun i j => (gp mp i j + (-2) * gm mp i j) * nth j vec 0)); auto.
  - cbn [bind]. eexists. do 2 f_equal. apply (upto_ext m _ _ res 0). intros i Hi _.
    unfold dres, kap, cellb, cellv. rewrite Hmode.
    rewrite (sumZ_ext n (fun j => (gp mp i j + -2 * gm mp i j) * nth j vec 0)
        (fun j => (gp mp i j - 2 * gm mp i j) * nth j vec 0 + 0)); [ring|]. intros; ring.
  - intros i j Hi Hj. destruct (Hpm j Hj) as (E1 & E2 & B1 & B2). now apply (dtc_x false); auto.
  - intros i Hi. apply (bound3 _ i 3); [auto|lia|]. intros j Hj.
    destruct (Hpm j Hj) as (E1 & E2 & B1 & B2). now apply (dtc_x false vp vm); auto.
Qed.

Lemma safe_tnn_v (Hst : forall i j, (i < m)%nat -> (j < n)%nat -> strict_shl = true -> 0 <= gm mp i j * nth j vec 0)
  (Hmode : m_mode c = TNN_V) :
  exists mp', tnn_v_d c mp res vec mat m n = Ok (upto m (dres c mp vec n) res, mp').
Proof.
  assert (Hvb : forall j, (j < n)%nat -> ter (nth j vec 0)).
  { intros j Hj. pose proof (Hv j Hj) as Hvj. unfold vok in Hvj. now rewrite Hmode in Hvj. }
  destruct (rails true) as (vp & vm & Ep & Em & Lm & Lp' & Lm' & Hpm); [now rewrite Hmode|auto|].
  pose proof HN as HN'. rewrite span_xnn in HN'.
  unfold tnn_v_d. assert (HS : SPLIT c = [1; 1]) by (unfold cfg_wf in Hw; now rewrite Hmode in Hw).
  rewrite HS. change (split11 [1; 1]) with true. cbn iota.
  rewrite (sum64_ok vec n 1); auto; [|unfold int_max in *; lia|].
  2: { intros j Hj. destruct (Hvb j Hj) as [-> |[-> | ->]]; lia. }
  cbn [bind]. rewrite two_rail_ok by auto using vdp_len. cbn [bind]. rewrite <- Ep, <- Em.
  rewrite (rows_eq m _ (dres c mp vec n) res 0); [cbn [bind]; eauto|auto|].
  intros i a Hi La Ea.
  rewrite (acc_entry n _ (fun j => (gp mp i j + 2 * gm mp i j) * nth j vec 0)).
  - cbn [bind].
    assert (E : nth i a 0 + sumZ n (fun j => (gp mp i j + 2 * gm mp i j) * nth j vec 0)
       - sumZ n (fun j => nth j vec 0) = dres c mp vec n i (nth i a 0)).
    { unfold dres, kap, cellb, cellv. rewrite Hmode.
      rewrite (sumZ_lin n (fun j => (gp mp i j + 2 * gm mp i j) * nth j vec 0)
        (fun j => (gp mp i j + 2 * gm mp i j - 1) * nth j vec 0 + 0) (fun j => nth j vec 0) 1); [ring|].
      intros; ring. }
    rewrite (subto64_ok _ _ _ 0).
    + rewrite upd_upd, nth_upd, Nat.eqb_refl by lia. now rewrite E.
    + rewrite upd_length. lia.
    + rewrite nth_upd, Nat.eqb_refl by lia. rewrite E, Ea. specialize (HF i Hi).
      unfold int_min, int_max in *. lia.
  - lia.
  - intros j Hj. destruct (Hpm j Hj) as (E1 & E2 & B1 & B2). now apply (dtc_x true); auto.
  - rewrite Ea. apply (bound3 _ i 3); [auto|lia|]. intros j Hj.
    destruct (Hpm j Hj) as (E1 & E2 & B1 & B2). now apply (dtc_x true vp vm); auto.
Qed.
End Safe.

(** Weight and input whose product a ternary mode shifts as a negative number. *)
Definition negative_shift (md : mode) (weight input : Z) : Prop :=
  match md with
  | TNN_II | TNN_IV => weight = -1 /\ input = -1
  | TNN_III => weight = -1 /\ input = 1
  | TNN_V => weight = 1 /\ input = -1
  | _ => False
  end.

(** Without such a pair the product is exact. *)
Lemma d_mvm_safe_tnn {MC : Machine} c mp mat res vec mat' m n :
  In (m_mode c) [TNN_II; TNN_III; TNN_IV; TNN_V] ->
  cfg_wf c -> shape c mp -> Forall (fun s => 0 <= s) (SPLIT c) -> split_covers c -> widths_fit c ->
  (m <= Z.to_nat (M c))%nat -> (n <= colsN c)%nat -> (m <= len res)%nat -> (n <= len vec)%nat ->
  (forall i j, (i < m)%nat -> (j < n)%nat -> weight_in c (entry mat n i j)) ->
  (forall j, (j < n)%nat -> input_in c (nth j vec 0)) ->
  Z.of_nat n * term_bound c <= int_max ->
  (forall i, (i < m)%nat -> Z.abs (nth i res 0) + Z.of_nat n * term_bound c <= int_max) ->
  stored c mp mat m n ->
  ~ (exists k q, (k < m)%nat /\ (q < n)%nat /\ negative_shift (m_mode c) (entry mat n k q) (nth q vec 0)) ->
  exists mp', d_mvm c mp res vec mat' m n = Ok (plus_product res mat vec m n, mp').
Proof.
  intros Hmd Hw Hs Hnn Hcov Hwid Hm Hn Hr Hv Hd Hvd HN HB HS Hin.
  assert (Espan : term_bound c = span c).
  { unfold term_bound, span. destruct (is_int (m_mode c)) eqn:Hi; auto.
    destruct (Hcov Hi), (Hwid Hi). apply Z.pow_add_r; lia. }
  rewrite Espan in *.
  assert (Hb : bits_ok c).
  { intros Hi. destruct (Hcov Hi) as [E1 E2], (Hwid Hi) as [E3 E4]. unfold total in E1. fold (sumL (SPLIT c)) in E1.
    repeat split; try lia; rewrite ?shifts_eq by lia; apply shifts_from_range; auto; lia. }
  assert (Hspan : row_bound c <= span c /\ Z.abs (kap c) * row_bound c <= span c).
  { unfold span, kap, row_bound. destruct (is_int (m_mode c)) eqn:Hi.
    - destruct (Hcov Hi) as [F1 F2], (Hwid Hi) as [F3 F4].
      assert (0 < 2 ^ W_BIT c) by (apply Z.pow_pos_nonneg; lia).
      assert (0 < 2 ^ (I_BIT c - 1)) by (apply Z.pow_pos_nonneg; lia).
      assert (2 ^ I_BIT c = 2 * 2 ^ (I_BIT c - 1)).
      { replace (I_BIT c) with (Z.succ (I_BIT c - 1)) at 1 by lia. rewrite Z.pow_succ_r by lia. ring. }
      destruct (m_mode c); try discriminate Hi; repeat split; nia.
    - destruct (m_mode c); try discriminate Hi; cbn; lia. }
  destruct Hspan as (Hs1 & Hs2). pose proof (row_bound_pos c) as Hs3.
  assert (Hsum : forall i, (i < m)%nat ->
     sumZ n (fun j => Z.abs (entry mat n i j)) <= Z.of_nat n * row_bound c).
  { intros i Hi. rewrite <- sumZ_const. apply sumZ_le. intros j Hj. now apply (weight_facts c _ Hcov (Hd i j Hi Hj)). }
  assert (Hdres : forall i x, (i < m)%nat ->
    dres c mp vec n i x = x + sumZ n (fun j => nth (n * i + j) mat 0 * nth j vec 0)).
  { intros i x Hi. unfold dres.
    rewrite (sumZ_ext n (fun j => cellv c mp i j * nth j vec 0 + cellb c mp i j)
              (fun j => nth (n * i + j) mat 0 * nth j vec 0)).
    2: { intros j Hj. rewrite (st_v _ _ _ _ _ HS i j Hi Hj), (st_b _ _ _ _ _ HS i j Hi Hj). unfold entry. ring. }
    rewrite (sumZ_ext n (fun j => cellv c mp i j) (entry mat n i)).
    2: { intros j Hj. apply (st_v _ _ _ _ _ HS i j Hi Hj). }
    assert (Hz : kap c * (nth i (sum_w mp) 0 - sumZ n (entry mat n i)) = 0); [|lia].
    destruct (keeps_sums (m_mode c)) eqn:Ek.
    - rewrite (st_sum _ _ _ _ _ HS Ek i Hi). lia.
    - unfold kap. destruct (m_mode c); try discriminate Ek; lia. }
  assert (Hok : forall i j, (i < m)%nat -> (j < n)%nat -> cellok c mp i j).
  { intros i j Hi Hj. now apply (st_ok _ _ _ _ _ HS). }
  assert (HK : forall i, (i < m)%nat -> Z.abs (kap c * nth i (sum_w mp) 0) <= int_max).
  { intros i Hi. destruct (keeps_sums (m_mode c)) eqn:Ek.
    + rewrite (st_sum _ _ _ _ _ HS Ek i Hi). rewrite Z.abs_mul.
      pose proof (sumZ_abs n (entry mat n i)). specialize (Hsum i Hi).
      etransitivity; [|exact HN].
      transitivity (Z.abs (kap c) * (Z.of_nat n * row_bound c)).
      * apply Z.mul_le_mono_nonneg_l; [apply Z.abs_nonneg|]. etransitivity; [|exact Hsum]. assumption.
      * nia.
    + unfold kap. destruct (m_mode c); try discriminate Ek; cbn; unfold int_max; lia. }
  assert (HF : forall i, (i < m)%nat -> Z.abs (dres c mp vec n i (nth i res 0)) <= int_max).
  { intros i Hi. rewrite Hdres by auto. specialize (HB i Hi).
    assert (HV : forall j, (j < n)%nat -> Z.abs (nth (n * i + j) mat 0 * nth j vec 0) <= span c).
    { intros j Hj. destruct (weight_facts c _ Hcov (Hd i j Hi Hj)) as (B & _ & _).
      specialize (Hvd j Hj). unfold entry in B. rewrite Z.abs_mul. unfold span, input_in, row_bound in *.
      destruct (is_int (m_mode c)) eqn:Hii.
      - assert (Z.abs (nth j vec 0) <= 2 ^ I_BIT c).
        { destruct (Hcov Hii) as [F1 F2], (Hwid Hii) as [F3 F4].
          assert (2 ^ I_BIT c = 2 * 2 ^ (I_BIT c - 1)).
          { replace (I_BIT c) with (Z.succ (I_BIT c - 1)) at 1 by lia. rewrite Z.pow_succ_r by lia. ring. }
          destruct (m_mode c); try discriminate Hii; lia. }
        apply Z.mul_le_mono_nonneg; lia.
      - assert (Z.abs (nth j vec 0) <= 1).
        { destruct (m_mode c); try discriminate Hii; lia. }
        nia. }
    pose proof (sumZ_bound n (fun j => nth (n * i + j) mat 0 * nth j vec 0) (span c) HV). lia. }
  assert (Hvo : forall j, (j < n)%nat -> vok c (nth j vec 0)) by exact Hvd.
  assert (Hx : is_int (m_mode c) = false).
  { cbn [In] in Hmd. destruct Hmd as [E|[E|[E|[E|[]]]]]; now rewrite <- E. }
  enough (G : exists mp', d_mvm c mp res vec mat' m n = Ok (upto m (dres c mp vec n) res, mp')).
  { destruct G as (mp' & E). exists mp'. rewrite E. do 2 f_equal. rewrite <- plus_product_upto.
    apply (upto_ext m _ _ res 0). intros i Hi _. now apply Hdres. }
  assert (Hcell : forall i j, (i < m)%nat -> (j < n)%nat -> (0 <= at2 0 (gd_p mp) i j <= 1) /\ (0 <= at2 0 (gd_m mp) i j <= 1) /\
    cellv c mp i j = entry mat n i j /\ weight_in c (entry mat n i j) /\ input_in c (nth j vec 0) /\
    ~ negative_shift (m_mode c) (entry mat n i j) (nth j vec 0)).
  { intros i j Hi Hj. destruct (cell_x c mp m n Hok Hx i j Hi Hj) as [C1 C2]. split; [exact C1|]. split; [exact C2|].
    split; [exact (st_v _ _ _ _ _ HS i j Hi Hj)|]. split; [exact (Hd i j Hi Hj)|]. split; [exact (Hvd j Hj)|].
    intros Hb'. apply Hin. exists i, j. auto. }
  clear Hsum Hdres. unfold d_mvm. rewrite (sh_mode _ _ Hs).
  cbn [In] in Hmd. destruct Hmd as [E|[E|[E|[E|[]]]]]; symmetry in E; rewrite E.
  - eapply safe_tnn_ii; eauto. intros i j Hi Hj _. destruct (Hcell i j Hi Hj) as (C1 & C2 & CV & CW & CI & CN).
    unfold cellv in CV. unfold weight_in in CW. unfold input_in in CI. rewrite E in CV, CW, CI, CN. cbn in CN.
    destruct (nth j vec 0 =? -1) eqn:Ev; lia.
  - eapply safe_tnn_iii; eauto. intros i j Hi Hj _. destruct (Hcell i j Hi Hj) as (C1 & C2 & CV & CW & CI & CN).
    unfold cellv in CV. unfold weight_in in CW. unfold input_in in CI. rewrite E in CV, CW, CI, CN. cbn in CN.
    destruct (nth j vec 0 =? 1) eqn:Ev; lia.
  - eapply safe_tnn_iv; eauto. intros i j Hi Hj _. destruct (Hcell i j Hi Hj) as (C1 & C2 & CV & CW & CI & CN).
    unfold cellv in CV. unfold weight_in in CW. unfold input_in in CI. rewrite E in CV, CW, CI, CN. cbn in CN.
    assert (at2 0 (gd_m mp) i j = 0 \/ 0 <= nth j vec 0) as [-> |]; [lia|lia|apply Z.mul_nonneg_nonneg; lia].
  - eapply safe_tnn_v; eauto. intros i j Hi Hj _. destruct (Hcell i j Hi Hj) as (C1 & C2 & CV & CW & CI & CN).
    unfold cellv in CV. unfold weight_in in CW. unfold input_in in CI. rewrite E in CV, CW, CI, CN. cbn in CN.
    assert (at2 0 (gd_m mp) i j = 0 \/ 0 <= nth j vec 0) as [-> |]; [lia|lia|apply Z.mul_nonneg_nonneg; lia].
Qed.

Lemma ternary_shift {MC : Machine} : strict_shl = true ->
  forall (w : world) (mat vec res mat' : list Z) (m n : Z) (l : string),
  In (m_mode (wcfg w)) [TNN_II; TNN_III; TNN_IV; TNN_V] ->
  reach w -> wx w <> None -> digital_only (wcfg w) = true -> dims_in (wcfg w) m n ->
  all_entries (weight_in (wcfg w)) mat m n -> all_first (input_in (wcfg w)) vec n -> room (wcfg w) res m n ->
  exists w1, step w (CpyMtrx mat m n) = Ok (w1, RCode 0) /\
  let bad := exists k q, (k < Z.to_nat m)%nat /\ (q < Z.to_nat n)%nat /\
    negative_shift (m_mode (wcfg w)) (entry mat (Z.to_nat n) k q) (nth q vec 0) in
  (bad -> step w1 (ExeMvm res vec mat' m n l) = UB BadShift) /\
  (~ bad -> exists w2, step w1 (ExeMvm res vec mat' m n l) =
     Ok (w2, RRes 0 (plus_product res mat vec (Z.to_nat m) (Z.to_nat n)))).
Proof.
  intros Hstr w mat vec res mat' m n l Hmd Hr Hx Hd Hdim Hmat Hvec Hroom.
  assert (Hii : is_int (m_mode (wcfg w)) = false).
  { cbn [In] in Hmd. destruct Hmd as [E|[E|[E|[E|[]]]]]; now rewrite <- E. }
  assert (Hcov : split_covers (wcfg w)) by (intros H; congruence).
  assert (Hwid : widths_fit (wcfg w)) by (intros H; congruence).
  pose proof Hr as Hr0. apply reach_good in Hr. destruct (wx w) as [x|] eqn:Ex; [|easy].
  assert (HN : n * row_bound (wcfg w) <= int32_max).
  { destruct Hroom as [HN _], Hdim as [_ Dn]. pose proof (row_term _ Hwid Hcov). nia. }
  destruct (cpy_stored w x mat m n Hr Ex Hd Hcov Hdim Hmat HN) as (w1 & E1 & Hg & Ec & _ & x1 & Ex1 & HS).
  exists w1. split; [exact E1|]. cbv zeta. split.
  - intros (k & q & Hk & Hq & Hb). destruct (negative_pair Hstr w mat vec res mat' m n l k q) as (w1' & E1' & E2); auto.
    + now rewrite Ex.
    + cbn [In] in Hmd. unfold negative_shift in Hb.
      destruct Hmd as [E|[E|[E|[E|[]]]]]; rewrite <- E in Hb |- *; destruct Hb as [-> ->]; cbn; tauto.
    + rewrite E1 in E1'. injection E1' as <-. exact E2.
  - intros Hnb.
    destruct Hmat as [Hl Hent], Hvec as [Hv1 Hv2], Hroom as [HN' [Hr1 Hr2]].
    rewrite <- Ec in Hd, Hcov, Hwid, Hdim, Hent, Hv2, HN', Hr2, Hnb, Hmd. clear HN E1. destruct (guard_ok w1 m n Hg Hdim) as (G1 & G2 & Hm & Hn).
    destruct Hdim as [Dm Dn]. pose proof (g_x _ Hg x1 Ex1) as Hxo. pose proof (good_wf w1 Hg) as Hwf.
    assert (L1 : (Z.to_nat m <= len res)%nat) by (clear -Hr1; lia).
    assert (L2 : (Z.to_nat n <= len vec)%nat) by (clear -Hv1; lia).
    assert (B1 : Z.of_nat (Z.to_nat n) * term_bound (wcfg w1) <= int_max) by (rewrite Z2Nat.id by (clear -Dn; lia); exact HN').
    assert (B2 : forall i, (i < Z.to_nat m)%nat ->
      Z.abs (nth i res 0) + Z.of_nat (Z.to_nat n) * term_bound (wcfg w1) <= int_max)
      by (intros i Hi; rewrite Z2Nat.id by (clear -Dn; lia); exact (Hr2 i Hi)).
    destruct (d_mvm_safe_tnn (wcfg w1) (xm x1) mat res vec mat' (Z.to_nat m) (Z.to_nat n) Hmd Hwf
      (xo_shape _ _ Hxo) (split_nonneg w1 Hg) Hcov Hwid Hm Hn L1 L2 Hent Hv2 B1 B2 HS Hnb) as (mp' & E).
    destruct (xmvm_digital (wcfg w1) x1 res vec mat' _ _ l (wenv w1) _ _ Hd E) as (x' & E').
    cbn. unfold exe_mvm. rewrite Ex1, G1, G2. cbn [bind]. rewrite E'. cbn [bind]. eauto.
Qed.
