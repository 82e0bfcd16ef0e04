(** MVMs whose solver fails: every mode reaches the solver and fails with it. *)
From Coq Require Import List ZArith Bool Arith Lia ZifyBool ZifyNat String.
From RecordUpdate Require Import RecordSet.
From Verif Require Import Base Lib Hoare Machine Json Config Histogram Adc ReadDisturb Parasitics
  Mapper IntMappers BnnMappers TnnMappers Crossbar Api ParCode Shape MvmShape DigMvm AnaShape Spec EmuProps.
Import ListNotations RecordSetNotations.
Local Open Scope Z_scope.
Local Open Scope out_scope.
Ltac Zify.zify_post_hook ::= idtac.

Ltac rails Lp Lm Hin Em :=
  solve [rewrite ?Lp, ?Lm by reflexivity; unfold int_max; lia |
         let j := fresh in let Hj := fresh in intros j Hj; specialize (Hin j Hj); unfold input_in in Hin; rewrite ?Em in Hin;
         unfold bin, ter; lia].

Section PM.
Context {MC : Machine}.
Notation len := List.length.
Notation MM c := (Z.to_nat (M c)).

Context (c : config) (mp : mapper) (m n : nat).
Context (Hs : shape c mp) (Hp : parasitics c = true) (Hn : (n <= colsN c)%nat).
Context (Hdead : forall vp vm, len vp = colsN c -> (ienc_double (m_mode c) = true -> len vm = colsN c) ->
  compute_currents (par mp) vp vm (outs c m) n = UB OutOfBounds).

Lemma currents_dead term vp vm t : outs c m = m -> len vp = colsN c -> (ienc_double (m_mode c) = true -> len vm = colsN c) ->
  currents c mp term vp vm m n t = UB OutOfBounds.
Proof. intros Ho H1 H2. unfold currents. rewrite Hp, <- Ho. now apply Hdead. Qed.
Lemma slices_dead term vds t : is_int (m_mode c) = true -> len vds = colsN c ->
  slice_currents c mp term vds (m * nsplit c) n t = UB OutOfBounds.
Proof.
  intros Hi H1. unfold slice_currents. rewrite Hp. replace (m * nsplit c)%nat with (outs c m) by (unfold outs; now rewrite Hi).
  apply Hdead; auto. destruct (m_mode c); discriminate.
Qed.
Lemma bit_loop_dead l vd bits neg res t vds : is_int (m_mode c) = true -> 1 <= bits -> len vd = colsN c -> len vds = colsN c ->
  bit_loop c mp l vd m n bits neg (res, t, vds) = UB OutOfBounds.
Proof.
  intros Hi Hb H1 H2. unfold bit_loop.
  eapply (forN_fail _ _ (res, t, vds) (res, t, vds) 0); [lia|reflexivity| |discriminate].
  rewrite slice_eq by lia. cbn [bind]. rewrite slices_dead; auto. now rewrite upto_length.
Qed.


Lemma a_mvm_dead res vec mat l e : supported c -> widths_fit c -> digital_only c = false ->
  Z.of_nat n <= int32_max -> (n <= len vec)%nat -> (forall j, (j < n)%nat -> input_in c (nth j vec 0)) ->
  a_mvm c mp res vec mat m n l e = UB OutOfBounds.
Proof.
  intros Hsup Hwf Hd Hn32 Hv Hin. unfold a_mvm. rewrite (sh_mode _ _ Hs).
  destruct Hsup as (_ & _ & HB & HT & _). unfold int32_max in Hn32.
  pose proof (sh_vdp _ _ Hs) as Lp. pose proof (sh_vdm _ _ Hs) as Lm. pose proof (sh_vds _ _ Hs) as Ls.
  assert (HW : is_int (m_mode c) = true -> 1 <= I_BIT c <= 29 /\ u32 (I_BIT c - 1) = I_BIT c - 1 /\ u32 (I_BIT c + 1) = I_BIT c + 1).
  { intros Hi. destruct (Hwf Hi), (HB Hi). unfold u32. rewrite !Z.mod_small by lia. lia. }
  assert (Hpw : is_int (m_mode c) = true -> 2 ^ (I_BIT c - 1) * 2 = 2 ^ I_BIT c /\ 2 ^ I_BIT c <= 2 ^ 29).
  { intros Hi. destruct (HW Hi). rewrite Z.mul_comm, <- Z.pow_succ_r by lia. split; [f_equal; lia|]. apply Z.pow_le_mono_r; lia. }
  assert (Hsm : forall j, (j < n)%nat -> Z.abs (nth j vec 0) <= 2 ^ 29).
  { intros j Hj. specialize (Hin j Hj). unfold input_in in Hin.
    destruct (m_mode c); try (destruct (Hpw eq_refl); lia); lia. }
  change (2 ^ 29) with 536870912 in *.
  assert (Hs64 : exists x, sum64 vec n = Ok x /\ Z.abs x <= Z.of_nat n * 536870912).
  { exists (sumZ n (fun j => nth j vec 0)). split; [|now apply sumZ_bound].
    apply (sum64_ok vec n 536870912); auto. change (2 ^ 62) with 4611686018427387904. lia. }
  destruct Hs64 as (x64 & E64 & B64).
  assert (Ho : is_int (m_mode c) = false -> m_mode c <> TNN_IV -> m_mode c <> TNN_V -> outs c m = m).
  { intros Hi H1 H2. unfold outs. rewrite Hi. destruct (m_mode c); congruence. }
  assert (Hul : forall f (v : list Z), len v = colsN c -> len (upto n f v) = colsN c) by (intros; now rewrite upto_length).
  pose proof currents_dead as CD. pose proof bit_loop_dead as BD. pose proof slices_dead as SD. pose proof Hdead as DD.
  destruct (m_mode c) eqn:Em; unfold int_i_a, int_ii_a, int_iii_a, int_iv_a, int_v_a, bnn_i_a, bnn_ii_a, bnn_iii_iv_a, bnn_v_a, quad_a,
    tnn_ii_a, tnn_iii_a, tnn_tc_a, tnn_slice.
  - rewrite split_pm_ok by (rewrite ?Lp, ?Lm by reflexivity; auto; intros j Hj; specialize (Hsm j Hj); unfold int_max; lia).
    cbn [bind]. destruct (HW eq_refl) as (H1 & H2 & _). rewrite H2.
    destruct (Z.eq_dec (I_BIT c) 1) as [E1|E1].
    + replace (I_BIT c - 1) with 0 by lia. unfold bit_loop at 1. cbn [Z.to_nat forN bind].
      rewrite BD; auto; try lia.
    + rewrite BD; auto; try lia.
  - rewrite split_pm_ok by (rewrite ?Lp, ?Lm by reflexivity; auto; intros j Hj; specialize (Hsm j Hj); unfold int_max; lia).
    cbn [bind]. destruct (HW eq_refl) as (H1 & H2 & _). rewrite H2.
    destruct (Z.eq_dec (I_BIT c) 1) as [E1|E1].
    + replace (I_BIT c - 1) with 0 by lia. unfold bit_loop at 1. cbn [Z.to_nat forN bind].
      rewrite BD; auto; try lia.
    + rewrite BD; auto; try lia.
  - destruct (HW eq_refl) as (H1 & H2 & H3). rewrite H2, H3. destruct (Hpw eq_refl) as [P1 P2].
    assert (0 < 2 ^ (I_BIT c - 1)) by (apply Z.pow_pos_nonneg; lia).
    rewrite (load_ok _ _ _ (fun v => 2 ^ (I_BIT c - 1) + v)); auto; try lia.
    + cbn [bind]. rewrite BD; auto; try lia.
    + intros j Hj. rewrite shl32_ok by (rewrite ?Z.mul_1_l; unfold int_min, int_max; lia). rewrite Z.mul_1_l. cbn [bind]. specialize (Hsm j Hj). apply add32_ok. unfold int_min, int_max. lia.
  - destruct (HW eq_refl) as (H1 & H2 & H3). rewrite H2.
    rewrite (load_ok _ _ _ (fun v => v)); auto; try lia. cbn [bind].
    destruct (Z.eq_dec (I_BIT c) 1) as [E1|E1].
    + replace (I_BIT c - 1) with 0 by lia. unfold bit_loop at 1. cbn [Z.to_nat forN bind].
      rewrite slice_eq by (rewrite ?upto_length, ?Ls by reflexivity; lia). cbn [bind].
      rewrite SD; auto.
    + rewrite BD; auto; try lia.
  - destruct (HW eq_refl) as (H1 & H2 & H3). rewrite (load_ok _ _ _ (fun v => v)); auto; try lia. cbn [bind].
    rewrite BD; auto; try lia.
  - destruct (HW eq_refl) as (H1 & H2 & H3). rewrite (load_ok _ _ _ (fun v => v)); auto; try lia. cbn [bind].
    rewrite E64. cbn [bind].
    rewrite (forN_fail _ _ (fill (res_fp mp) f0, fill (tmp_fp mp) f0, vd_slice mp) (fill (res_fp mp) f0, fill (tmp_fp mp) f0, vd_slice mp) 0 (UB OutOfBounds)); [|lia|reflexivity| |].
    + reflexivity.
    + rewrite slice_eq by (rewrite ?upto_length, ?Ls by reflexivity; lia). cbn [bind].
      rewrite SD; auto.
    + discriminate.
  - rewrite (load_ok _ _ _ (fun v => Z.shiftr (v + 1) 1)); auto; try lia.
    + cbn [bind]. rewrite CD; auto; try discriminate; apply Ho; (reflexivity || discriminate).
    + intros j Hj. unfold enc_i. specialize (Hsm j Hj). rewrite add32_ok by (unfold int_min, int_max; lia). cbn [bind].
      reflexivity.
  - rewrite (load_ok _ _ _ (fun v => Z.quot (v - 1) (-2))); auto; try lia.
    + cbn [bind]. rewrite CD; auto; try discriminate; apply Ho; (reflexivity || discriminate).
    + intros j Hj. unfold enc_ii. specialize (Hsm j Hj). now rewrite sub32_ok by (unfold int_min, int_max; lia).
  - rewrite two_rail_sum_ok by rails Lp Lm Hin Em. cbn [bind]. rewrite CD; auto; try discriminate; apply Ho; (reflexivity || discriminate).
  - rewrite two_rail_sum_ok by rails Lp Lm Hin Em. cbn [bind]. rewrite CD; auto; try discriminate; apply Ho; (reflexivity || discriminate).
  - rewrite two_rail_ok by rails Lp Lm Hin Em. cbn [bind]. rewrite CD; auto. apply Ho; (reflexivity || discriminate).
  - rewrite two_rail_ok by rails Lp Lm Hin Em. cbn [bind]. rewrite CD; auto. apply Ho; (reflexivity || discriminate).
  - rewrite two_rail_ok by rails Lp Lm Hin Em.
    cbn [bind]. rewrite CD; auto. apply Ho; (reflexivity || discriminate).
  - rewrite (load_ok _ _ _ (fun v => if v =? 0 then 0 else 1)); auto; try lia.
    cbn [bind]. rewrite CD; auto; try discriminate; apply Ho; (reflexivity || discriminate).
  - rewrite (load_ok _ _ _ (fun v => Z.land (u32 (v + 1)) 1)); auto; try lia.
    + cbn [bind]. rewrite CD; auto; try discriminate; apply Ho; (reflexivity || discriminate).
    + intros j Hj. unfold bit0_iii. specialize (Hsm j Hj). now rewrite add32_ok by (unfold int_min, int_max; lia).
  - destruct (HT (or_introl eq_refl)) as [_ Sp]. rewrite Sp. cbn [split11]. rewrite E64. cbn [bind].
    rewrite two_rail_ok by rails Lp Lm Hin Em.
    cbn [bind]. rewrite Hp. unfold tc_pass_par at 1. 
    replace (2 * m)%nat with (outs c m) by (unfold outs; now rewrite Em).
    rewrite DD; auto. discriminate.
  - destruct (HT (or_intror eq_refl)) as [_ Sp]. rewrite Sp. cbn [split11]. rewrite E64. cbn [bind].
    rewrite two_rail_ok by rails Lp Lm Hin Em.
    cbn [bind]. rewrite chk64_ok by (change (2 ^ 63) with 9223372036854775808; lia). cbn [bind]. rewrite Hp. unfold tc_pass_par at 1.
    replace (2 * m)%nat with (outs c m) by (unfold outs; now rewrite Em).
    rewrite DD; auto. discriminate.
Qed.
End PM.
