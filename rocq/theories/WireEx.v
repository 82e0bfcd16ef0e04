(** Concrete crossbars for the accuracy with wire resistance. *)
From Coq Require Import String List ZArith Reals Lra Bool Lia ZifyBool ZifyNat.
From RecordUpdate Require Import RecordSet.
From Flocq Require Import Core.
From Verif Require Import Base Lib Hoare Shape ConfigProofs Machine Json Config Adc Parasitics Mapper Crossbar Api Reach Spec RMachine FloatMachine
  Demo RSpec ParSpec Ladder DigApi AnaSpec AnaApi AnaProps AnaEx NoiseFloat ParProps ParReal ParEx WireSpec WireProps WireTight.
Import ListNotations RecordSetNotations.
Ltac Zify.zify_post_hook ::= idtac.

Section G.
Context {MC : Machine}.
Local Open Scope Z_scope.
Transparent with_wire.
Lemma with_more c : let d := with_wire c in
  read_disturb d = read_disturb c /\ c2c_var d = c2c_var c /\ HRS_NOISE d = HRS_NOISE c /\ LRS_NOISE d = LRS_NOISE c /\
  adc_profile d = adc_profile c /\ I_BIT d = I_BIT c /\ V_read d = f_of_Z (-1) /\ gains d = gains c.
Proof. repeat split. Qed.
Opaque with_wire.
Lemma wire_more md : let d := wire_cfg md in let c := demo_cfg md INF_ADC 8 in
  read_disturb d = false /\ c2c_var d = false /\ HRS_NOISE d = f0 /\ LRS_NOISE d = f0 /\
  adc_profile d = false /\ I_BIT d = I_BIT c /\ V_read d = f_of_Z (-1) /\ gains d = gains c.
Proof. exact (with_more (demo_cfg md INF_ADC 8)). Qed.

Definition wire_vec (md : mode) : list Z := match md with I_UINT_W_DIFF | I_UINT_W_OFFS => [1; 15] | _ => [1; -1] end.
Lemma wire_inputs md : all_first (input_in (wire_cfg md)) (wire_vec md) 2.
Proof.
  split; [destruct md; cbn; lia|]. intros j Hj. change (Z.to_nat 2) with 2%nat in *.
  unfold input_in. destruct (wire_same md) as (_ & _ & _ & Em & _). destruct (wire_more md) as (_ & _ & _ & _ & _ & Ei & _). rewrite Em, Ei.
  pose proof (demo_ibit md INF_ADC 8) as HW. revert HW.
  generalize (I_BIT (demo_cfg md INF_ADC 8)). intros wb HW. destruct md; try rewrite (HW eq_refl); clear -Hj;
  destruct j as [|[|]]; try lia; cbn [wire_vec nth]; auto; lia.
Qed.
Lemma wire_entries1 md : all_entries (weight_in (wire_cfg md)) [1; -1] 1 2.
Proof.
  assert (Hv : forall v, v = 1%Z \/ v = (-1)%Z -> weight_in (wire_cfg md) v).
  { intros v Hv. unfold weight_in. destruct (wire_same md) as (_ & _ & _ & -> & -> & _).
    pose proof (demo_wbit md INF_ADC 8) as HW. revert HW.
    generalize (W_BIT (demo_cfg md INF_ADC 8)). intros wb HW. destruct md; try rewrite (HW eq_refl); clear -Hv; auto; lia. }
  split; [cbn; lia|]. intros i j Hi Hj. apply Hv. clear Hv. change (Z.to_nat 2) with 2%nat in *. change (Z.to_nat 1) with 1%nat in *.
  destruct i as [|]; try lia; destruct j as [|[|]]; try lia; cbn; auto.
Qed.
Lemma wire_shapes md : let c := wire_cfg md in
  split_covers c /\ slices_wide c /\ widths_fit c /\ dims_in c 1 2 /\ solver_fits c 1 2 /\ sums_fit c 2 /\ term_bound c <= 256.
Proof.
  intros c. destruct (wire_same md) as (A & _ & _ & Em & B & _ & Ed & Ep & EM & EN & _). fold c in A, Em, B, Ed, Ep, EM, EN.
  destruct (wire_more md) as (_ & _ & _ & _ & _ & Ei & _). fold c in Ei.
  split. { intros Hi. rewrite Em in Hi. rewrite A, B. cbn. rewrite Hi. cbn. lia. }
  split. { intros Hi. rewrite Em in Hi. rewrite A, demo_split by exact Hi. repeat constructor; lia. }
  split. { intros Hi. rewrite Em in Hi. rewrite Ei, B, demo_ibit, demo_wbit by exact Hi. lia. }
  split. { unfold dims_in. rewrite EM, EN. lia. }
  split. { unfold solver_fits. rewrite EM, EN, Em, A. split; [lia|]. split; [|lia]. intros Hi. rewrite demo_split by exact Hi. cbn. lia. }
  split. { unfold sums_fit. rewrite Em, B. destruct (is_int md) eqn:E; [rewrite demo_wbit by exact E|]; apply Z.leb_le; reflexivity. }
  unfold term_bound. rewrite Em, B, Ei. destruct (is_int md) eqn:E; [rewrite demo_wbit, demo_ibit by exact E|]; apply Z.leb_le; reflexivity.
Qed.
Lemma wire_gains md : (fold_right Z.add 0 (gains (wire_cfg md)) <=? 1000) = true /\
  (is_int md = false -> (fold_right Z.add 0 (gains (wire_cfg md)) <=? 6) = true).
Proof.
  destruct (wire_more md) as (_ & _ & _ & _ & _ & _ & _ & ->).
  destruct md; (split; [vm_compute; reflexivity|]); first [discriminate 1|intros _; vm_compute; reflexivity].
Qed.
End G.

Section E.
Context (nz : bool -> nat -> R) (s : bool).
#[local] Hint Extern 0 Machine => exact (R_machine nz s) : typeclass_instances.
Notation RM := (R_machine nz s).
Local Open Scope R_scope.
Lemma sum_IZR l : fold_right Rplus 0 (map IZR l) = IZR (fold_right Z.add 0%Z l).
Proof. induction l; cbn [map fold_right]; [reflexivity|]. now rewrite IHl, plus_IZR. Qed.
(** The world of [wire_doc]. *)
Lemma wire_start name md : In (name, md) mode_names -> md <> I_TC_W_DIFF -> exists (w : @world RM) x p,
  run world0 [SetConfig (Parsed (@wire_doc RM md name))] = Ok (w, [RUnit]) /\ reach w /\
  wx w = Some x /\ wcfg w = wire_cfg md /\ @par RM (xm x) = Some p /\ @ps_w RM p = 2.
Proof.
  intros Hn Ht. assert (Ha : exists a, @adc_new RM (wire_cfg md) INF_ADC = Ok a).
  { unfold adc_new. rewrite wire_resolution. cbn -[Ztrunc bpow]. rewrite (@AdcProps.trunc_pow nz s) by lia. eexists; reflexivity. }
  destruct Ha as [a Ha]. destruct (@wire_world RM name md a Hn Ht) as (w & x & p & R1 & R2 & X & C & P & W); auto.
  1,2: apply pos_false; lia.
  { cbn. unfold reqb. destruct (Req_EM_T 2 0); [exfalso; lra|reflexivity]. }
  { cbn. unfold rleb. destruct (Rle_dec _ _); [exfalso; lra|reflexivity]. }
  exists w, x, p. repeat (split; [assumption|]). exact W.
Qed.
Lemma ex70 name md : In (name, md) mode_names -> md <> I_TC_W_DIFF -> (md = I_OFFS_W_DIFF -> s = false) ->
  exists (w : @world RM) x p,
  run world0 [SetConfig (Parsed (@wire_doc RM md name))] = Ok (w, [RUnit]) /\ reach w /\ m_mode (wcfg w) = md /\
  wx w = Some x /\ only_wires (wcfg w) /\ adc_type (wcfg w) = INF_ADC /\ @par RM (xm x) = Some p /\ 0 < @ps_w RM p /\
  @HRS RM (wcfg w) < @LRS RM (wcfg w) /\ (m_mode (wcfg w) = I_OFFS_W_DIFF -> s = false) /\
  split_covers (wcfg w) /\ slices_wide (wcfg w) /\ dims_in (wcfg w) 1 2 /\ solver_fits (wcfg w) 1 2 /\
  all_entries (weight_in (wcfg w)) [1; -1]%Z 1 2 /\ sums_fit (wcfg w) 2 /\ widths_fit (wcfg w) /\
  all_first (input_in (wcfg w)) (wire_vec md) 2 /\ wire_room (wcfg w) [7]%Z 1 2 /\
  (is_int md = false -> wire_error (wcfg w) (@ps_w RM p) 2 <= INR (cuts (wcfg w)) + 1 / 100).
Proof.
  intros Hn Ht Hs. destruct (wire_start name md Hn Ht) as (w & x & p & R1 & R2 & X & C & P & W).
  exists w, x, p. rewrite C.
  destruct (@wire_same RM md) as (A & EL & EH & Em & B & Ea & Ed & Ep & EM & EN & _).
  destruct (@wire_more RM md) as (Er & Ec & En1 & En2 & Eq & Ei & Ev & Eg).
  destruct (@wire_shapes RM md) as (F1 & F2 & F3 & F4 & F5 & F6 & F7).
  destruct (@wire_gains RM md) as (G1 & G2).
  assert (EL' : @LRS RM (wire_cfg md) = 30) by exact EL. assert (EH' : @HRS RM (wire_cfg md) = 5) by exact EH.
  assert (EV' : @V_read RM (wire_cfg md) = -1) by exact Ev.
  repeat (split; [first [assumption|reflexivity]|]).
  split. { unfold only_wires. repeat (split; [assumption|]). rewrite En1, En2. cbn. split; [lra|]. split; [lra|exact Eq]. }
  repeat (split; [assumption|]).
  split; [rewrite W; lra|]. split; [rewrite EL', EH'; lra|]. split; [rewrite Em; exact Hs|].
  repeat (split; [first [assumption|apply wire_entries1|apply wire_inputs]|]).
  split.
  { assert (K1 : (2 * term_bound (wire_cfg md) <= 512)%Z) by lia.
    split; [unfold int32_max; lia|]. split; [cbn; lia|]. intros j Hj. change (Z.to_nat 1) with 1%nat in Hj. replace j with 0%nat by lia. cbn [nth].
    unfold sum_gains. rewrite sum_IZR, EL', EH'. apply Z.leb_le in G1. apply IZR_le in G1. change (Z.abs 7) with 7%Z.
    assert (K2 : IZR (7 + 2 * term_bound (wire_cfg md)) <= 519) by (apply IZR_le; lia).
    unfold int32_max. change (IZR (fold_right Z.add 0%Z (gains (wire_cfg md)))) with (IZR (fold_right Z.add 0%Z (@gains RM (wire_cfg md)))) in *.
    eapply Rle_trans; [apply Rplus_le_compat; [exact K2|]|].
    - replace (4 * (2 * 30) / (30 - 5)) with (96 / 10) by lra. apply Rmult_le_compat_r; [lra|exact G1].
    - lra. }
  intros Hi. unfold wire_error, wire_loss, sum_gains. rewrite sum_IZR, EL', EH', EN, EV', W.
  assert (K : IZR (fold_right Z.add 0%Z (gains (wire_cfg md))) <= 6) by (apply IZR_le, Z.leb_le, (G2 Hi)).
  apply Rplus_le_compat_l.
  replace (4 * 2 * (2 * 30) * (2 * 30) / (1000000 * - -1) / (30 - 5)) with (288 / 250000) by field.
  apply Rle_trans with (6 * (288 / 250000)); [apply Rmult_le_compat_r; [lra|exact K]|lra].
Qed.

(** One row [1; -1] and inputs 1, -1 in the modes of C71: the accumulator 7 becomes 8, not 9. *)
Lemma ex71 name md : In (name, md) mode_names -> md = BNN_VI \/ md = TNN_I -> exists (w : @world RM),
  run world0 [SetConfig (Parsed (@wire_doc RM md name)); CpyMtrx [1; -1]%Z 1 2; ExeMvm [7]%Z [1; -1]%Z [] 1 2 ""%string] =
    Ok (w, [RUnit; RCode 0; RRes 0 [8]%Z]).
Proof.
  intros Hn Hmd.
  assert (Ht : md <> I_TC_W_DIFF) by (intros E; subst; destruct Hmd; discriminate).
  destruct (ex70 name md Hn Ht) as (w & x & p & R1 & R2 & Em & X & HO & Ha & P & Pw & Hd & Hst & F1 & F2 & F3 & F4 & F5 & F6 & F7 & F8 & F9 & F10).
  { intros E; subst; destruct Hmd; discriminate. }
  assert (Hi : is_int md = false) by (destruct Hmd; subst; reflexivity).
  assert (Ev : wire_vec md = [1; -1]%Z) by (destruct Hmd; subst; reflexivity). rewrite Ev in F8.
  destruct (wires_accurate nz s w x p [1; -1]%Z 1 2) as (w1 & S1 & A1); auto.
  destruct (wires_below nz s w x p [1; -1]%Z 1 2) as (w1' & S1' & A2); auto.
  { rewrite Em. exact Hmd. }
  assert (w1' = w1) by congruence. subst w1'.
  destruct (A1 [] w1 [] [7]%Z [1; -1]%Z [] ""%string) as (w3 & r & S3 & L & W); auto.
  destruct (A2 [] w1 [] [7]%Z [1; -1]%Z [] ""%string) as (w3' & r' & S3' & B); auto.
  rewrite S3 in S3'. inversion S3'; subst w3' r'. clear S3'.
  exists w3. cbn [run] in R1 |- *. destruct (step world0 _) as [[w0 r0]|u| |] eqn:E0; cbn [bind] in R1; try discriminate R1. inversion R1; subst w0 r0; clear R1.
  cbn [bind]. rewrite S1. cbn [bind]. rewrite S3. cbn [bind]. do 2 f_equal.
  assert (Er : r = [8]%Z).
  { destruct r as [|z [|]]; try discriminate L. specialize (W 0%nat). destruct W as [W _]. specialize (W ltac:(cbn; lia)).
    specialize (B 0%nat ltac:(cbn; lia)). apply aligned_low in B; [|..|reflexivity]; try (cbn; lia).
    2: { intros j Hj. change (Z.to_nat 2) with 2%nat in *. destruct j as [|[|]]; cbn; lia. }
    cbn [nth] in W, B. change (7 + product [1; -1]%Z [1; -1]%Z (Z.to_nat 2) 0)%Z with 9%Z in W, B.
    assert (EC : INR (cuts (wcfg w)) = 1) by (unfold cuts; rewrite Em; destruct Hmd; subst; reflexivity).
    specialize (F10 Hi). rewrite EC in F10.
    assert (K : (7 < z)%Z).
    { apply lt_IZR. assert (K2 : Rabs (IZR z - 9) <= 1 + 1 / 100) by (eapply Rle_trans; [exact W|exact F10]).
      apply Rabs_le_inv in K2. lra. }
    f_equal. lia. }
  rewrite Er. reflexivity.
Qed.
End E.
