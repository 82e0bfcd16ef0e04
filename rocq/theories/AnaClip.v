(** TNN_IV and TNN_V with finite converters: the correction terms leave the range of the converter. *)
From Coq Require Import String List ZArith Reals Lra Bool Arith Lia ZifyBool ZifyNat.
From RecordUpdate Require Import RecordSet.
From Flocq Require Import Core.
From Verif Require Import Base Lib Hoare Machine Json Config Histogram Adc ReadDisturb Parasitics
  Mapper IntMappers BnnMappers TnnMappers Crossbar Api WriteProofs Shape MvmShape DigMvm DigModes DigWrite AnaShape
  ConfigProofs Reach Cells Spec DigApi Invar StepFacts StoreProps CfgProps RMachine RSpec AdcProps Demo
  AnaReal AnaXnn AnaInt AnaWrite AnaSpec AnaApi AnaMvm AnaProps AnaEx.
Import ListNotations RecordSetNotations.
Local Open Scope out_scope.

Section G.
Context {MC : Machine}.
Local Open Scope Z_scope.
(** One row of four cells, HRS 20, LRS 30, a converter of [r] bits. *)
Definition clip_doc (v : bool) (r : Z) : json :=
  puts (ana_doc (if v then "TNN_V" else "TNN_IV") 1 4 2 4 [1; 1] 20 30)
    [("adc_type", JStr "POS_RANGE_ONLY_ADC"); ("resolution", JInt r)]%string.
Definition clip_cfg (v : bool) (r : Z) : config :=
  config0 <| M := 1 |> <| N := 4 |> <| m_mode := if v then TNN_V else TNN_IV |> <| HRS := f_of_Z 20 |> <| LRS := f_of_Z 30 |>
    <| adc_type := POS_RANGE_ONLY_ADC |> <| resolution := r |> <| d2d_var := true |> <| W_BIT := 2 |> <| SPLIT := [1; 1] |>.

Lemma clip_applied v r : int_min <= r <= int_max -> fle (f_of_Z 20) f0 = false -> fle (f_of_Z 30) f0 = false ->
  apply_config (clip_doc v r) config0 = Ok (clip_cfg v r).
Proof.
  intros Hr A B. unfold f0 in *. rewrite <- (wrap32_id r Hr) at 2.
  destruct v; cbv -[fle f_of_Z wrap32]; rewrite A, B; reflexivity.
Qed.
Lemma clip_created v r a : adc_new (clip_cfg v r) POS_RANGE_ONLY_ADC = Ok a ->
  exists x, xbar_new (clip_cfg v r) = Ok x /\ par (xm x) = None.
Proof.
  intros Ha. unfold xbar_new, mapper_new. rewrite (eq_refl : adc_type (clip_cfg v r) = POS_RANGE_ONLY_ADC), Ha. cbn [bind].
  assert (E1 : digital_only (clip_cfg v r) = false /\ parasitics (clip_cfg v r) = false) by (split; reflexivity).
  destruct E1 as [-> ->]. cbn [negb andb bind].
  assert (E2 : exists st, (if uses_shift (m_mode (clip_cfg v r)) then step_sizes (clip_cfg v r) (Some (fsub (LRS (clip_cfg v r)) (HRS (clip_cfg v r))))
    else Ok (repeat (Some f0) (nsplit (clip_cfg v r)))) = Ok st).
  { unfold step_sizes, ones. destruct strict_shl; destruct v; cbv -[fdiv fsub f_of_Z]; eauto. }
  destruct E2 as [st ->]. cbn [bind].
  assert (E3 : exists dl, match m_mode (clip_cfg v r) with
    | I_UINT_W_OFFS => delta_of (clip_cfg v r) (Some (fsub (LRS (clip_cfg v r)) (HRS (clip_cfg v r))))
    | _ => Ok (Some f0) end = Ok dl).
  { destruct v; eexists; reflexivity. }
  destruct E3 as [dl ->]. cbn [bind]. eexists. split; reflexivity.
Qed.
Lemma clip_world v r a : int_min <= r <= int_max -> fle (f_of_Z 20) f0 = false -> fle (f_of_Z 30) f0 = false ->
  adc_new (clip_cfg v r) POS_RANGE_ONLY_ADC = Ok a ->
  exists w x, step world0 (SetConfig (Parsed (clip_doc v r))) = Ok (w, RUnit) /\ reach w /\
    wx w = Some x /\ wcfg w = clip_cfg v r /\ par (xm x) = None.
Proof.
  intros H1 H4 H5 H6. pose proof (clip_applied v r H1 H4 H5) as E.
  destruct (clip_created v r a H6) as (x & X & P).
  eexists _, x.
  assert (Hrun : step world0 (SetConfig (Parsed (clip_doc v r))) =
    Ok (world0 <| wdata := clip_doc v r |> <| wcfg := clip_cfg v r |> <| wx := Some x |>, RUnit)).
  { cbn [step]. unfold set_config. cbn [destroy wx wcfg world0 bind].
    change (wcfg (world0 <| wx := None |>)) with config0. rewrite E. cbn [bind]. unfold replace_xbar.
    change (wcfg (world0 <| wx := None |> <| wdata := clip_doc v r |> <| wcfg := clip_cfg v r |>)) with (clip_cfg v r).
    rewrite X. reflexivity. }
  split; [exact Hrun|]. split; [exists [SetConfig (Parsed (clip_doc v r))], [RUnit]; split; [cbn [run]; rewrite Hrun|]; reflexivity|].
  split; [reflexivity|]. split; [reflexivity|exact P].
Qed.
Lemma clip_facts v r x : par (xm x) = None -> fle f0 f0 = true -> let c := clip_cfg v r in
  ideal_cells c x /\ no_variation c /\ split_covers c /\ dims_in c 1 4 /\ sums_fit c 4 /\
  all_entries (weight_in c) [0; 0; 0; 0] 1 4.
Proof.
  intros Hp H0 c.
  split; [unfold ideal_cells; repeat split; try reflexivity; auto|]. split; [split; reflexivity|].
  split; [intros Hi; destruct v; discriminate Hi|].
  split; [unfold dims_in; cbn; lia|].
  split; [destruct v; apply Z.leb_le; reflexivity|].
  split; [cbn; lia|]. intros i j Hi Hj. change (Z.to_nat 1) with 1%nat in Hi. change (Z.to_nat 4) with 4%nat in *.
  assert (E : entry [0; 0; 0; 0] 4 i j = 0).
  { destruct i; [|lia]. destruct j as [|[|[|[|]]]]; try lia; reflexivity. }
  rewrite E. destruct v; cbn; auto.
Qed.
End G.

Section R.
Context (nz : bool -> nat -> R) (s : bool).
#[local] Hint Extern 0 Machine => exact (R_machine nz s) : typeclass_instances.
Notation RM := (R_machine nz s).
Notation len := List.length.
Local Open Scope R_scope.

Section K.
Context (k : Z) (Hk : k = 2%Z \/ k = 4%Z \/ (8 <= k)%Z).
Notation cv := (fun x sc off : R => round_away (pick k 0 120 (x + off) * sc)).
Lemma k2 : (2 <= k)%Z.
Proof. lia. Qed.
Lemma rng : 0 < 120.
Proof. lra. Qed.
Lemma away_int z : round_away (IZR z) = IZR z.
Proof. now rewrite <- away_eq, near_IZR. Qed.
Lemma top_12 y : 120 <= y -> round_away (pick k 0 120 y * (1 / 10)) = 12.
Proof.
  intros Hy. rewrite (@pick_hi nz s) by (try exact k2; lra). replace (120 * (1 / 10)) with (IZR 12) by (simpl; lra). apply away_int.
Qed.
Lemma low_0 y sc : y <= 0 -> round_away (pick k 0 120 y * sc) = 0.
Proof.
  intros Hy. rewrite (@pick_lo nz s) by (try exact k2; lra). rewrite Rmult_0_l. apply (away_int 0).
Qed.
Lemma mid_14 : exists z, round_away (pick k 0 120 80 * (2 / 10)) = IZR z /\ (14 <= z <= 24)%Z.
Proof.
  pose proof (@pick_level nz s k 0 120 80 k2 rng) as (i & Hi & Ei).
  pose proof (@pick_err nz s k 0 120 80 k2 rng ltac:(lra)) as He. rewrite Ei in He |- *. clear Ei.
  unfold step_size in *. rewrite <- away_eq. eexists. split; [reflexivity|].
  assert (P : (1 <= k - 1)%Z) by lia. apply (IZR_le 1) in P. set (K := IZR (k - 1)) in *.
  assert (B : 14 <= (0 + IZR i * ((120 - 0) / K)) * (2 / 10) <= 24).
  { replace ((0 + IZR i * ((120 - 0) / K)) * (2 / 10)) with (24 * (IZR i / K)) by (field; lra).
    destruct Hi as [Hi1 Hi2]. pose proof (IZR_le _ _ Hi2) as Hi3. fold K in Hi3.
    assert (U : IZR i / K <= 1).
    { apply (Rmult_le_reg_r K); [lra|]. unfold Rdiv. rewrite Rmult_assoc, Rinv_l by lra. lra. }
    assert (Lo : IZR i >= 2 / 3 * K - / 2).
    { apply Rabs_le_inv in He. destruct He as [He _].
      assert (- (120 / K / 2) * K <= (IZR i * (120 / K) - 80) * K) by (apply Rmult_le_compat_r; lra).
      replace (- (120 / K / 2) * K) with (- 60) in H by (field; lra).
      replace ((IZR i * (120 / K) - 80) * K) with (120 * IZR i - 80 * K) in H by (field; lra). lra. }
    split; [|lra]. apply (Rmult_le_reg_r K); [lra|]. replace (24 * (IZR i / K) * K) with (24 * IZR i) by (field; lra).
    destruct Hk as [E|[E|E]].
    - assert (K = 1) by (unfold K; rewrite E; reflexivity). rewrite H in *.
      assert (0 < i)%Z by (apply lt_IZR; lra). apply (Z.lt_le_pred 0 i) in H0. assert (1 <= i)%Z by lia. apply IZR_le in H1. lra.
    - assert (K = 3) by (unfold K; rewrite E; reflexivity). rewrite H in *.
      assert (1 < i)%Z by (apply lt_IZR; lra). assert (2 <= i)%Z by lia. apply IZR_le in H1. lra.
    - assert (7 <= k - 1)%Z by lia. apply IZR_le in H. fold K in H. lra. }
  split.
  - rewrite <- (near_IZR 14). apply near_le. simpl; lra.
  - rewrite <- (near_IZR 24). apply near_le. simpl; lra.
Qed.
End K.

(** C29, exact arithmetic. *)
Lemma clip_wrong v r : (1 <= r <= 30)%Z ->
  exists w z, run world0 [SetConfig (Parsed (@clip_doc RM v r)); CpyMtrx [0; 0; 0; 0]%Z 1 4;
      ExeMvm [0]%Z [1; 1; 1; 1]%Z [] 1 4 ""%string] = Ok (w, [RUnit; RCode 0; RRes 0 [z]]) /\
    (if v then 0 < z else z < 0)%Z /\ plus_product [0]%Z [0; 0; 0; 0]%Z [1; 1; 1; 1]%Z 1 4 = [0]%Z.
Proof.
  intros Hr.
  assert (Ha : exists a, @adc_new RM (clip_cfg v r) POS_RANGE_ONLY_ADC = Ok a).
  { rewrite new_ok; [eauto|discriminate|exact Hr]. }
  destruct Ha as (a & Ha).
  assert (Hr' : (int_min <= r <= int_max)%Z) by (unfold int_min, int_max; lia).
  destruct (@clip_world RM v r a Hr' (pos_false nz s 20 ltac:(lia)) (pos_false nz s 30 ltac:(lia)) Ha) as (w & x & E0 & Hre & Hx & Hc & Hp).
  destruct (@clip_facts RM v r x Hp (refl_le nz s)) as (F1 & F2 & F3 & F4 & F5 & F6). rewrite <- Hc in F1, F2, F3, F4, F5, F6.
  destruct F1 as (I1 & I2 & I3 & I4 & I5 & I6 & I7).
  destruct (cpy_ready w x [0;0;0;0]%Z 1 4 Hre Hx I1 I2 I3 I6 I4 I5 F3 F4 F6 F5) as (w1 & x1 & E1 & G1 & C1 & X1 & R1).
  cbn [run]. rewrite E0. cbn [bind]. rewrite E1. cbn [bind].
  rewrite <- C1 in R1, I1, I2, I3, F4. rewrite Hc in C1.
  destruct (guard_ok w1 1 4 G1 F4) as (G2 & G3 & Hm & Hn).
  pose proof R1 as [S1 S2 S3 S4 S5 S6].
  assert (Hmode : m_mode (wcfg w1) = if v then TNN_V else TNN_IV) by (rewrite C1; reflexivity).
  assert (Hxn : is_int (m_mode (wcfg w1)) = false) by (rewrite Hmode; destruct v; reflexivity).
  assert (HH : @HRS RM (wcfg w1) = 20) by (rewrite C1; reflexivity).
  assert (HL : @LRS RM (wcfg w1) = 30) by (rewrite C1; reflexivity).
  assert (Ht : adc_type (wcfg w1) = POS_RANGE_ONLY_ADC) by (rewrite C1; reflexivity).
  assert (Hre1 : resolution (wcfg w1) = r) by (rewrite C1; reflexivity).
  assert (HK : (2 ^ r = 2 \/ 2 ^ r = 4 \/ 8 <= 2 ^ r)%Z).
  { assert (r = 1 \/ r = 2 \/ 3 <= r)%Z as [->|[->|R3]] by lia; [auto..|]. right; right. apply (Z.pow_le_mono_r 2 3); lia. }
  assert (HA : forall y sc off, @adc1 RM (wcfg w1) (mp_adc (xm x1)) ""%string y sc off =
     Ok (round_away (pick (2 ^ r) 0 120 (y + off) * sc))).
  { intros y sc off. rewrite (fin_adc nz s w1 x1 ""%string G1 X1); rewrite ?Ht, ?Hre1, ?HL.
    - cbn [n_levels]. replace (N (wcfg w1)) with 4%Z by (rewrite C1; reflexivity). do 3 f_equal. apply f_equal2; [|reflexivity]. f_equal. lra.
    - discriminate.
    - rewrite C1. reflexivity.
    - cbn [n_levels]. lia.
    - lia. }
  assert (HG : forall j, (j < 4)%nat -> at2 0%Z (gd_p (xm x1)) 0 j = (if v then 1 else 0)%Z /\ at2 0%Z (gd_m (xm x1)) 0 j = 0%Z).
  { intros j Hj. pose proof (st_ok _ _ _ _ _ S1 0%nat j ltac:(cbn; lia) Hj) as O. pose proof (st_v _ _ _ _ _ S1 0%nat j ltac:(cbn; lia) Hj) as V.
    unfold cellok in O. rewrite Hxn in O. unfold cellv in V. rewrite Hmode in V.
    assert (E : entry [0; 0; 0; 0]%Z (Z.to_nat 4) 0 j = 0%Z) by (change (Z.to_nat 4) with 4%nat; destruct j as [|[|[|[|]]]]; try lia; reflexivity).
    rewrite E in V. destruct v; lia. }
  destruct (mid_14 (2 ^ r) HK) as (zc & Ec & Bc).
  assert (P1 : forall g : nat -> Z, sumZ 4 (fun j => g j * posp (nth j [1;1;1;1] 0))%Z = (g 0%nat + g 1%nat + g 2%nat + g 3%nat)%Z).
  { intros g. cbn. lia. }
  assert (P2 : forall g : nat -> Z, sumZ 4 (fun j => g j * negp (nth j [1;1;1;1] 0))%Z = 0%Z).
  { intros g. cbn. lia. }
  change (Z.to_nat 1) with 1%nat in *. change (Z.to_nat 4) with 4%nat in *.
  destruct (tc_value nz s (wcfg w1) (xm x1) [0]%Z [1;1;1;1]%Z [] 1 4 ""%string (wenv w1) (fun y sc off => round_away (pick (2 ^ r) 0 120 (y + off) * sc)) 0)
    with (v := v) (d := fun _ : nat => if v then zc else (12 - zc)%Z) as (mp' & EA); auto.

  - apply (good_wf w1 G1).
  - apply (xo_shape _ _ (g_x _ G1 x1 X1)).
  - rewrite C1; reflexivity.
  - destruct S2 as (B1 & _). rewrite I1 in B1. exact B1.
  - intros j Hj. unfold vok. rewrite Hmode. destruct v; destruct j as [|[|[|[|]]]]; try lia; cbn; unfold ter; lia.
  - intros i j K1 K2. now apply (st_ok _ _ _ _ _ S1).
  - intros i j K1 K2. destruct (S6 Hxn i j K1 K2) as [[K _] _]. etransitivity; [exact K|]. unfold level. cbn. ring.
  - intros _ i j K1 K2. destruct (S6 Hxn i j K1 K2) as [_ K].
    assert (Ho : one_array (m_mode (wcfg w1)) = false) by (rewrite Hmode; now destruct v).
    destruct (K Ho) as [K3 _]. etransitivity; [exact K3|]. unfold level. cbn. ring.
  - unfold int_max; lia.
  - intros i Hi. replace i with 0%nat by lia. cbn [nth]. rewrite Rplus_0_r. apply IZR_le. unfold int_max; lia.
  - intros i Hi. rewrite (stored_dres nz s (wcfg w1) (xm x1) [0;0;0;0]%Z [1;1;1;1]%Z 1 4 S1) by exact Hi. replace i with 0%nat by lia.
    rewrite Rplus_0_r. apply IZR_le. apply Z.leb_le. reflexivity.
  - cbv zeta. intros i Hi. replace i with 0%nat by lia. clear i Hi. split.
    { change (nth 0 [0%Z] 0%Z) with 0%Z. assert (Is : sumZ 4 (fun j => nth j [1;1;1;1] 0)%Z = 4%Z) by reflexivity. rewrite Is.
      unfold int_min, int_max; destruct v; split; intros; try discriminate; lia. }
    rewrite !P1, !P2. destruct (HG 0%nat ltac:(lia)) as [-> ->]. destruct (HG 1%nat ltac:(lia)) as [-> ->].
    destruct (HG 2%nat ltac:(lia)) as [-> ->]. destruct (HG 3%nat ltac:(lia)) as [-> ->]. rewrite HH, HL.
    assert (N1 : sumZ 4 (fun j => posp (nth j [1;1;1;1] 0))%Z = 4%Z) by reflexivity.
    assert (N2 : sumZ 4 (fun j => negp (nth j [1;1;1;1] 0))%Z = 0%Z) by reflexivity.
    assert (N3 : sumZ 4 (fun j => nth j [1;1;1;1] 0)%Z = 4%Z) by reflexivity.
    rewrite N1, N2, N3. clear N1 N2 N3.
    replace (1 / (30 - 20)) with (1 / 10) by (f_equal; lra). replace (2 / (30 - 20)) with (2 / 10) by (f_equal; lra).
    replace (4 * 20 + IZR (0 + 0 + 0 + 0) * (30 - 20) + 0) with 80 by (simpl; lra).
    rewrite Ec, (low_0 (2 ^ r) HK (0 * 20 + 0 * (30 - 20) + 0) (2 / 10)) by lra. destruct v.
    + rewrite (top_12 (2 ^ r) HK) by (simpl; lra). rewrite (top_12 (2 ^ r) HK) by (simpl; lra). lra.
    + rewrite (top_12 (2 ^ r) HK) by (simpl; lra). rewrite (low_0 (2 ^ r) HK) by (simpl; lra). rewrite minus_IZR. lra.
  - eexists _, _. split.
    + cbn [step]. unfold exe_mvm. rewrite X1, G2, G3. cbn [bind]. change (Z.to_nat 1) with 1%nat. change (Z.to_nat 4) with 4%nat.
      unfold xmvm. cbv zeta. rewrite I1. replace (c2c_var (wcfg w1)) with false by (rewrite C1; reflexivity). cbn [bind].
      change (xm (x1 <| n_mvm := (n_mvm x1 + 1)%Z |> <| n_read := (n_read x1 + 1)%Z |>)) with (xm x1). rewrite EA. cbn [bind].
      rewrite I2. cbn [bind]. reflexivity.
    + split; [|reflexivity]. assert (Is : sumZ 4 (fun j => nth j [1;1;1;1] 0)%Z = 4%Z) by reflexivity. destruct v; [rewrite Is|]; change (0 <? 1)%nat with true; cbn iota; lia.
Qed.
End R.
