(** Writes of numbers that are not weights (C78). *)
From Coq Require Import List ZArith Bool Arith Lia ZifyBool ZifyNat String.
From RecordUpdate Require Import RecordSet.
From Verif Require Import Base Lib Hoare Machine Json Config Histogram Adc ReadDisturb Parasitics
  Mapper IntMappers BnnMappers TnnMappers Crossbar Api WriteProofs Shape MvmShape DigMvm DigModes
  DigWrite AnaShape ConfigProofs Reach Spec DigApi Invar OddSpec.
Import ListNotations RecordSetNotations.
Local Open Scope Z_scope.
Local Open Scope out_scope.

Section Odd.
Context {MC : Machine}.
Notation len := List.length.
Notation gp mp r j := (at2 0 (gd_p mp) r j).
Notation gm mp r j := (at2 0 (gd_m mp) r j).

Lemma bits4 v :
  Z.land (u32 v) 1 = v mod 2 /\ Z.shiftr (Z.land (u32 v) 2) 1 = v / 2 mod 2 /\
  v mod 4 = v mod 2 + 2 * (v / 2 mod 2).
Proof.
  assert (E1 : u32 v mod 2 = v mod 2).
  { unfold u32. symmetry. apply Znumtheory.Zmod_div_mod; [lia|lia|]. exists (2 ^ 31). reflexivity. }
  assert (E2 : u32 v mod 4 = v mod 4).
  { unfold u32. symmetry. apply Znumtheory.Zmod_div_mod; [lia|lia|]. exists (2 ^ 30). reflexivity. }
  assert (E3 : forall x, x / 2 mod 2 = x mod 4 / 2).
  { intros x. change 4 with (2 * 2). rewrite Z.rem_mul_r by lia.
    replace (x mod 2 + 2 * (x / 2 mod 2)) with (x / 2 mod 2 * 2 + x mod 2) by ring.
    rewrite Z.div_add_l by lia. rewrite (Z.div_small (x mod 2)) by (apply Z.mod_pos_bound; lia). ring. }
  assert (L1 : forall x, Z.land x 1 = x mod 2).
  { intros x. change 1 with (Z.ones 1). rewrite Z.land_ones by lia. reflexivity. }
  split; [rewrite L1; exact E1|]. split.
  - rewrite Z.shiftr_land. change (Z.shiftr 2 1) with 1. rewrite L1, Z.shiftr_div_pow2 by lia.
    change (2 ^ 1) with 2. rewrite !E3, E2. reflexivity.
  - change 4 with (2 * 2). apply Z.rem_mul_r; lia.
Qed.

Lemma odd_cells c w : accepts_weights (m_mode c) = true -> storable c w ->
  let p := stp c w 0 in let q := if two_arrays (m_mode c) then stm c w 0 else 0 in
  0 <= p <= 1 /\ 0 <= q <= 1 /\
  match m_mode c with
  | BNN_III => 2 * p - 1 | BNN_IV => 1 - 2 * p | TNN_IV => p - 2 * q | _ => p + 2 * q - 1
  end = stands_for c w /\ wput c w.
Proof.
  intros Hu H. unfold stp, stm, storable, stands_for, wput, int_min, int_max in *.
  destruct (m_mode c) eqn:Em; try discriminate Hu; cbn [two_arrays]; cbv zeta.
  - unfold single_p. rewrite Z.shiftr_div_pow2 by lia. change (2 ^ 1) with 2.
    destruct (w <=? 0) eqn:E; Z.to_euclidean_division_equations; lia.
  - unfold single_p. destruct (w <? 0) eqn:E; Z.to_euclidean_division_equations; lia.
  - unfold tc_p, tc_m. destruct (bits4 w) as (-> & -> & E).
    pose proof (Z.mod_pos_bound w 2 ltac:(lia)). pose proof (Z.mod_pos_bound (w / 2) 2 ltac:(lia)).
    split; [lia|]. split; [lia|]. split; [|lia]. Z.to_euclidean_division_equations; lia.
  - unfold tc_p, tc_m. destruct (bits4 (w + 1)) as (-> & -> & E).
    pose proof (Z.mod_pos_bound (w + 1) 2 ltac:(lia)). pose proof (Z.mod_pos_bound ((w + 1) / 2) 2 ltac:(lia)).
    split; [lia|]. split; [lia|]. split; [|lia]. lia.
Qed.

Lemma odd_mvm : strict_shl = false ->
  forall w x mat vec res mat' m n l,
  reach w -> wx w = Some x -> digital_only (wcfg w) = true -> accepts_weights (m_mode (wcfg w)) = true ->
  dims_in (wcfg w) m n ->
  all_entries (storable (wcfg w)) mat m n -> all_first (input_in (wcfg w)) vec n -> room (wcfg w) res m n ->
  exists w1 w2,
    step w (CpyMtrx mat m n) = Ok (w1, RCode 0) /\
    step w1 (ExeMvm res vec mat' m n l) =
      Ok (w2, RRes 0 (odd_product (wcfg w) res mat vec (Z.to_nat m) (Z.to_nat n))).
Proof.
  intros Hst w x mat vec res mat' m n l Hr Hx Hd Hu Hdim [Hl Hent] [Hv1 Hv2] (HN & Hr1 & HR).
  apply reach_good in Hr. rename Hr into Hg.
  destruct (guard_ok w m n Hg Hdim) as (G1 & G2 & Hm & Hn).
  pose proof (g_x _ Hg x Hx) as Hxo. pose proof (good_wf w Hg) as Hwf.
  pose proof (xo_shape _ _ Hxo) as Hs.
  set (c := wcfg w) in *. set (m' := Z.to_nat m) in *. set (n' := Z.to_nat n) in *.
  assert (En : Z.of_nat n' = n) by (subst n'; destruct Hdim; lia).
  assert (Hint : is_int (m_mode c) = false) by (destruct (m_mode c); try discriminate Hu; reflexivity).
  assert (Hks : keeps_sums (m_mode c) = false) by (destruct (m_mode c); try discriminate Hu; reflexivity).
  assert (Hkap : kap c = 0) by (unfold kap; destruct (m_mode c); try discriminate Hu; reflexivity).
  assert (Hcb : forall mp i j, cellb c mp i j = 0) by (intros; unfold cellb; destruct (m_mode c); try discriminate Hu; reflexivity).
  assert (Hf : fits c) by (intros E; rewrite Hint in E; discriminate E).
  assert (Hrp : rpw c = 1%nat) by (unfold rpw; now rewrite Hint).
  assert (HR0 : (m' * rpw c <= rowsN c)%nat) by now apply rpw_rows.
  rewrite Hrp, Nat.mul_1_r in HR0.
  destruct (d_write_put c (xm x) mat m' n' Hwf Hs Hf Hm Hn) as (mp' & E & S1 & SB & P1 & P2 & Esw).
  { destruct Hdim. subst m' n'. clear - Hl H H0. nia. }
  { intros i j A B. apply (odd_cells c _ Hu (Hent i j A B)). }
  { intros Ek. rewrite Hks in Ek. discriminate Ek. }
  assert (V : forall i j, (i < m')%nat -> (j < n')%nat ->
    cellok c mp' i j /\ cellv c mp' i j = stands_for c (entry mat n' i j)).
  { intros i j A B. destruct (odd_cells c _ Hu (Hent i j A B)) as (C1 & C2 & C3 & _).
    assert (Gp : gp mp' i j = stp c (entry mat n' i j) 0).
    { destruct P1 as [_ Pp]. rewrite Pp by lia. unfold rect. rewrite Hrp. replace (_ && _) with true by lia.
      unfold wcell. now rewrite Hrp, Nat.div_1_r, Nat.mod_1_r. }
    assert (Gm : gm mp' i j = if two_arrays (m_mode c) then stm c (entry mat n' i j) 0 else 0).
    { destruct P2 as [_ Pm]. rewrite Pm by lia. unfold rect. rewrite Hrp.
      replace ((_ <? _)%nat && (j <? n')%nat) with true by lia.
      rewrite andb_true_r. unfold wcell. rewrite Hrp, Nat.div_1_r, Nat.mod_1_r.
      destruct (two_arrays (m_mode c)) eqn:Et; [reflexivity|].
      rewrite (sh_gm0 _ _ Hs Et). apply at2_mat2; lia. }
    unfold cellok, cellv. rewrite Hint, Gp, Gm. split; [split; assumption|].
    destruct (m_mode c); try discriminate Hu; exact C3. }
  destruct (xwrite_digital c x mat m' n' (wenv w) mp' Hd Hxo S1 E) as (x' & Ex & Exm).
  assert (Est : step w (CpyMtrx mat m n) = Ok (w <| wx := Some x' |> <| wenv := wenv w |>, RCode 0)).
  { cbn. unfold cpy_mtrx. fold c. rewrite Hx. rewrite G1, G2. cbn [bind]. fold m' n'. rewrite Ex. reflexivity. }
  assert (D : forall i y, (i < m')%nat -> dres c mp' vec n' i y =
    y + sumZ n' (fun j => stands_for c (entry mat n' i j) * nth j vec 0)).
  { intros i y A. unfold dres. rewrite Hkap.
    rewrite (sumZ_ext n' (fun j => cellv c mp' i j * nth j vec 0 + cellb c mp' i j)
      (fun j => stands_for c (entry mat n' i j) * nth j vec 0)).
    - ring.
    - intros j B. rewrite Hcb, (proj2 (V i j A B)). ring. }
  assert (Espan : term_bound c = 3 /\ span c = 3).
  { unfold term_bound, span. now rewrite Hint. }
  destruct Espan as [Et3 Es3]. rewrite Et3 in *.
  assert (Hvb : forall j, (j < n')%nat -> Z.abs (nth j vec 0) <= 1).
  { intros j B. specialize (Hv2 j B). unfold input_in in Hv2. destruct (m_mode c); try discriminate Hu; lia. }
  assert (Hsb : forall i j, (i < m')%nat -> (j < n')%nat -> Z.abs (stands_for c (entry mat n' i j)) <= 3).
  { intros i j A B. destruct (odd_cells c _ Hu (Hent i j A B)) as (C1 & C2 & C3 & _). rewrite <- C3.
    destruct (m_mode c); try discriminate Hu; lia. }
  destruct (go_all c mp' res vec mat' m' n') as (mp'' & E2).
  - exact Hwf.
  - exact S1.
  - intros Ei. rewrite Hint in Ei. discriminate Ei.
  - exact Hm.
  - exact Hn.
  - subst m'. destruct Hdim. lia.
  - subst n'. destruct Hdim. lia.
  - intros i j A B. now apply V.
  - intros j B. exact (Hv2 j B).
  - intros i A. rewrite Es3, En. exact (HR i A).
  - rewrite Es3, En. exact HN.
  - intros i A. rewrite Hkap. cbn. unfold int_max. lia.
  - intros i A. rewrite D by exact A. specialize (HR i A).
    assert (B1 : Z.abs (sumZ n' (fun j => stands_for c (entry mat n' i j) * nth j vec 0)) <= Z.of_nat n' * 3).
    { apply sumZ_bound. intros j Hj. rewrite Z.abs_mul. specialize (Hvb j Hj). specialize (Hsb i j A Hj).
      clear - Hvb Hsb. nia. }
    unfold int32_max, int_max in *. rewrite En in B1. clear - HR B1. lia.
  - congruence.
  - assert (Hd1 : digital_only c = true) by exact Hd.
    rewrite <- Exm in E2. destruct (xmvm_digital c x' res vec mat' m' n' l (wenv w) _ _ Hd1 E2) as (x'' & Ex2).
    do 2 eexists. split; [exact Est|].
    cbn [step]. unfold exe_mvm.
    change (wx (w <| wx := Some x' |> <| wenv := wenv w |>)) with (Some x').
    change (wcfg (w <| wx := Some x' |> <| wenv := wenv w |>)) with c.
    change (wenv (w <| wx := Some x' |> <| wenv := wenv w |>)) with (wenv w).
    rewrite G1, G2. cbn [bind]. fold m' n'. rewrite Ex2. cbn [bind].
    replace (upto m' (dres c (xm x') vec n') res) with (odd_product c res mat vec m' n'); [reflexivity|].
    unfold odd_product. apply (nth_ext _ _ 0 0).
    + now rewrite upto_length, map_length, seq_length.
    + intros k Hk. rewrite map_length, seq_length in Hk. rewrite nth_upto by auto.
      match goal with |- nth k (map ?f _) 0 = _ => set (g := f) end.
      rewrite (nth_indep (map g (seq 0 (len res))) 0 (g O)) by now rewrite map_length, seq_length.
      rewrite map_nth, seq_nth by auto. unfold g. cbn [plus]. rewrite !sum_sumZ, Exm.
      destruct (k <? m')%nat eqn:Ek; [|lia]. rewrite D by lia. reflexivity.
Qed.
End Odd.
