(** A history of two writes in exact arithmetic. *)
From Coq Require Import String List ZArith Reals Lra Bool Lia ZifyBool ZifyNat.
From RecordUpdate Require Import RecordSet.
From Verif Require Import Base Lib ConfigProofs Machine Json Config Adc Mapper Crossbar Api Reach Spec RMachine Demo
  Shape DigModes DigApi AnaWrite AnaSpec AnaApi AnaProps AnaEx MemSpec MemProps MemEx AnaMemSpec AnaMem.
Import ListNotations.

Lemma run_one {MC : Machine} w a w' r : run w [a] = Ok (w', [r]) -> step w a = Ok (w', r).
Proof. cbn [run]. destruct (step w a) as [[? ?]| | |]; try discriminate. cbn [bind]. intros H. injection H as -> ->. reflexivity. Qed.
Lemma run_chain {MC : Machine} w0 a w1 r1 h w2 rs b w3 r : run w0 [a] = Ok (w1, [r1]) -> run w1 h = Ok (w2, rs) ->
  step w2 b = Ok (w3, r) -> run w0 ([a] ++ h ++ [b]) = Ok (w3, r1 :: rs ++ [r]).
Proof.
  intros H1 H2 H3. apply run_one in H1. cbn [app run]. rewrite H1. cbn [bind]. rewrite run_app, H2. cbn [bind run].
  rewrite H3. reflexivity.
Qed.

Section E.
Context (nz : bool -> nat -> R) (s : bool).
#[local] Hint Extern 0 Machine => exact (R_machine nz s) : typeclass_instances.
Notation RM := (R_machine nz s).
Local Open Scope Z_scope.

Definition amem_hist : list (@call RM) := [CpyMtrx demo_mat 2 3; CpyMtrx [-1; 1] 2 1].
Definition amem_sum (md : mode) : list Z :=
  let c := @demo_cfg RM md INF_ADC 8 in
  memory_product c [1; 2; 3] (demo_vec md) (memory c amem_hist) (row_sums c amem_hist) 3 4.

Lemma amem_values md : amem_sum md =
  match md with
  | I_UINT_W_DIFF => [13; -14; 3]
  | I_UINT_W_OFFS => [13; -14; -141]
  | I_OFFS_W_DIFF => [2; -13; 3]
  | BNN_I | TNN_III => [2; 1; 3]
  | BNN_II => [2; 5; 3]
  | BNN_III | TNN_V => [1; 2; 1]
  | BNN_IV => [3; 4; 5]
  | BNN_V => [1; 2; -1]
  | _ => [2; 3; 3]
  end.
Proof. destruct md; lazy; reflexivity. Qed.

Lemma amem_dims md ty res : dims_in (@demo_cfg RM md ty res) 2 3 /\ dims_in (@demo_cfg RM md ty res) 2 1.
Proof. repeat split; cbn; lia. Qed.
Lemma amem_weight md ty res v : v = 1 \/ v = (-1) -> weight_in (@demo_cfg RM md ty res) v.
Proof.
  intros Hv. unfold weight_in. rewrite demo_mode. pose proof (@demo_wbit RM md ty res) as HW. revert HW.
  generalize (W_BIT (@demo_cfg RM md ty res)). intros wb HW. destruct md; try rewrite (HW eq_refl); clear -Hv; auto; lia.
Qed.
Lemma amem_entries md ty res : all_entries (weight_in (@demo_cfg RM md ty res)) demo_mat 2 3 /\
  all_entries (weight_in (@demo_cfg RM md ty res)) [-1; 1] 2 1.
Proof.
  pose proof (amem_weight md ty res) as Hv. revert Hv. generalize (@demo_cfg RM md ty res). intros c Hv.
  split; (split; [cbn; lia|]); intros i j Hi Hj; apply Hv; change (Z.to_nat 2) with 2%nat in *;
    change (Z.to_nat 1) with 1%nat in *; change (Z.to_nat 3) with 3%nat in *;
    destruct i as [|[|]]; try lia; destruct j as [|[|[|]]]; try lia; cbn; auto.
Qed.

Lemma amem_steps name md ty res : In (name, md) mode_names -> adc_ok md ty = true -> In res [8; 12] ->
  exists w1 x1 w2, run world0 [SetConfig (Parsed (@demo_doc RM md name (adc_name ty) res))] = Ok (w1, [RUnit]) /\ reach w1 /\
    wx w1 = Some x1 /\ wcfg w1 = demo_cfg md ty res /\ par (xm x1) = None /\ ideal_cells (wcfg w1) x1 /\
    run w1 amem_hist = Ok (w2, [RCode 0; RCode 0]) /\ wcfg w2 = wcfg w1 /\ always no_variation w1 amem_hist.
Proof.
  intros H1 H2 H3. destruct (demo_start nz s name md ty res H1 H2 H3)
    as (w & x & R0 & Hr & Hx & Hc & Hp).
  destruct (demo_facts md ty res x Hp (refl_le nz s)) as (F1 & F2 & F3 & F4 & F5 & F6 & F7 & F10). rewrite <- Hc in F1, F2, F3, F4, F5, F6, F7, F10.
  pose proof F1 as (I1 & I2 & I3 & I4 & I5 & I6 & I7).
  destruct (amem_dims md ty res) as [D1 D2]. destruct (amem_entries md ty res) as [A1 A2]. rewrite <- Hc in D1, D2, A1, A2.
  assert (F8 : sums_fit (wcfg w) 3) by (unfold sums_fit, int32_max in *; clear - F7; destruct (is_int _); lia).
  destruct (ideal_history nz s w x demo_mat 2 3 Hr Hx F1 F3 D1 A1 F8) as (w' & E1 & HH).
  pose proof (cpy_cfg nz s _ _ _ _ _ _ E1) as C1.
  assert (Hr1 : reach w') by (eapply reach_step; [exact Hr|exact E1|discriminate]).
  destruct (HH [] w' [] (Forall_nil _) eq_refl) as (_ & _ & _ & x' & X' & Rd). { apply always_nil. now rewrite C1. }
  destruct (cpy_ready w' x' [-1; 1] 2 1 Hr1 X') as (w2 & x2 & E2 & G2 & C2 & X2 & _); rewrite ?C1 in *; auto.
  - exact (re_par _ _ _ _ _ Rd).
  - change (row_bound (wcfg w)) with (if is_int (m_mode (wcfg w)) then 2 ^ W_BIT (wcfg w) else 1). unfold sums_fit in F7. unfold int32_max in *. lia.
  - exists w, x, w2. repeat (split; [assumption|]). split.
    { unfold amem_hist. cbn [run]. rewrite E1. cbn [bind]. rewrite E2. reflexivity. }
    split; [congruence|]. intros h1 h2 wx' rs E R. unfold amem_hist in E.
    destruct h1 as [|a1 [|a2 [|]]]; cbn [app] in E.
    + injection R as <- _. exact F2.
    + injection E as <- _. cbn [run] in R. rewrite E1 in R. injection R as <- _. now rewrite C1.
    + injection E as <- <- _. cbn [run] in R. rewrite E1 in R. cbn [bind] in R. rewrite E2 in R. injection R as <- _. now rewrite C2.
    + discriminate E.
Qed.

Lemma demo_N md ty res : N (@demo_cfg RM md ty res) = 4.
Proof. reflexivity. Qed.
Lemma demo_ty md ty res : adc_type (@demo_cfg RM md ty res) = ty.
Proof. reflexivity. Qed.
Lemma ex82 name md : In (name, md) mode_names -> (md = I_OFFS_W_DIFF -> s = false) ->
  exists w, run world0 ([SetConfig (Parsed (@demo_doc RM md name "INF_ADC" 8))] ++ amem_hist ++
                        [ExeMvm [1; 2; 3] (demo_vec md) [] 3 4 ""%string]) =
    Ok (w, [RUnit; RCode 0; RCode 0; RRes 0 (amem_sum md)]).
Proof.
  intros H1 Hs. destruct (amem_steps name md INF_ADC 8 H1 ltac:(destruct md; reflexivity) ltac:(cbn; auto)) as (w1 & x1 & w2 & R0 & Hr & Hx & Hc & Hp & HI & R1 & C2 & Hal).
  destruct (demo_facts md INF_ADC 8 x1 Hp (refl_le nz s)) as (F1 & F2 & F3 & F4 & F5 & F6 & F7 & F10). rewrite <- Hc in *.
  pose proof (run_one _ _ _ _ R0) as E0.
  destruct (analog_memory nz s world0 _ w1 x1 amem_hist w2 [RCode 0; RCode 0] [1; 2; 3] (demo_vec md) [] 3 4 ""%string
    world0_reach E0 Hx HI) as (w3 & E3); rewrite ?C2; auto.
  - rewrite Hc. apply demo_ty.
  - rewrite Hc, demo_hrs, demo_lrs. apply Rlt_not_eq. lra.
  - rewrite Hc, demo_mode. exact Hs.
  - unfold amem_hist. constructor; [|constructor; [|constructor]]; cbn [usual]; (split; [lia|]); (split; [lia|]); intros _;
      rewrite Hc; [exact (proj1 (amem_entries md INF_ADC 8))|exact (proj2 (amem_entries md INF_ADC 8))].
  - rewrite Hc. apply demo_inputs.
  - destruct F10 as (K1 & K2 & K3). rewrite Hc, demo_N.
    assert (T : term_bound (@demo_cfg RM md INF_ADC 8) <= 256).
    { unfold term_bound. rewrite demo_mode; destruct (is_int md) eqn:E; [rewrite demo_wbit, demo_ibit by exact E|]; apply Z.leb_le; reflexivity. }
    split; [unfold int32_max; lia|]. split; [cbn; lia|]. intros j Hj. unfold int32_max.
    destruct j as [|[|[|j]]]; [cbn [nth Z.abs]; lia..|]. cbn in Hj. lia.
  - exists w3. rewrite C2 in E3. unfold amem_sum. cbv zeta. rewrite <- Hc. change 3%nat with (Z.to_nat 3). change 4%nat with (Z.to_nat 4).
    exact (run_chain _ _ _ _ _ _ _ _ _ _ R0 R1 E3).
Qed.

(** Finite converters. *)
Lemma amem_any md ty res : (let c := @demo_cfg RM md ty res in
  memory_product c [1; 2; 3] (demo_vec md) (memory c amem_hist) (row_sums c amem_hist) 3 4) = amem_sum md.
Proof. destruct md; lazy; reflexivity. Qed.
Lemma demo_cal md ty res : adc_calib_mode (@demo_cfg RM md ty res) = CAL_MAX.
Proof. reflexivity. Qed.
Lemma demo_res md ty res : ty <> INF_ADC -> resolution (@demo_cfg RM md ty res) = res.
Proof. destruct ty; [congruence|reflexivity..]. Qed.
Lemma demo_term md ty res : term_bound (@demo_cfg RM md ty res) <= 256.
Proof.
  unfold term_bound. rewrite demo_mode; destruct (is_int md) eqn:E; [rewrite demo_wbit, demo_ibit by exact E|]; apply Z.leb_le; reflexivity.
Qed.
Lemma demo_accuracy md ty res : ty <> INF_ADC -> In res [8; 12] -> (@accuracy nz s (demo_cfg md ty res) <= 1001)%R.
Proof.
  intros Ht Hr. destruct (demo_half nz s md ty res Ht Hr) as [Hh _]. destruct (@demo_gains RM md ty res) as [G1 G2].
  pose proof (sum_bound nz s _ _ Hh G1) as B. apply Z.leb_le, IZR_le in G2.
  unfold accuracy. destruct (m_mode _); lra.
Qed.
Lemma demo_rooms md ty res : ty <> INF_ADC -> In res [8; 12] ->
  room_for (@accuracy nz s (demo_cfg md ty res)) (@demo_cfg RM md ty res) [1; 2; 3] 3 (2 * N (@demo_cfg RM md ty res)) /\
  room (@demo_cfg RM md ty res) [1; 2; 3] 3 (2 * N (@demo_cfg RM md ty res)).
Proof.
  intros Ht Hr. pose proof (demo_term md ty res) as T. pose proof (demo_accuracy md ty res Ht Hr) as A. rewrite demo_N.
  assert (B : forall v, In v [1; 2; 3] -> Z.abs v + 2 * 4 * term_bound (@demo_cfg RM md ty res) <= 3000).
  { intros v Hv. cbn in Hv. lia. }
  unfold room_for, room. revert T A B. generalize (term_bound (@demo_cfg RM md ty res)) (@accuracy nz s (demo_cfg md ty res)). intros tb a T A B.
  assert (Hn : forall j, (j < Z.to_nat 3)%nat -> In (nth j [1; 2; 3] 0) [1; 2; 3]).
  { intros j Hj. apply nth_In. cbn in *. lia. }
  split; (split; [unfold int32_max; lia|]); (split; [cbn; lia|]); intros j Hj; specialize (B _ (Hn j Hj)).
  - apply IZR_le in B. unfold int32_max. change (2 ^ 31 - 1) with 2147483647. lra.
  - unfold int32_max. lia.
Qed.

Lemma ex83 name md ty : In (name, md) mode_names -> (md = I_OFFS_W_DIFF -> s = false) -> md <> TNN_IV -> md <> TNN_V ->
  adc_ok md ty = true -> ty <> INF_ADC ->
  (exists w r, run world0 ([SetConfig (Parsed (@demo_doc RM md name (adc_name ty) 8))] ++ amem_hist ++
                        [ExeMvm [1; 2; 3] (demo_vec md) [] 3 4 ""%string]) =
    Ok (w, [RUnit; RCode 0; RCode 0; RRes 0 r]) /\ near (@accuracy nz s (demo_cfg md ty 8)) r (amem_sum md) 3) /\
  (~ In md [I_UINT_W_OFFS; BNN_III; BNN_IV] ->
   exists w, run world0 ([SetConfig (Parsed (@demo_doc RM md name (adc_name ty) 12))] ++ amem_hist ++
                        [ExeMvm [1; 2; 3] (demo_vec md) [] 3 4 ""%string]) =
    Ok (w, [RUnit; RCode 0; RCode 0; RRes 0 (amem_sum md)])).
Proof.
  intros H1 Hs H4 H5 Hok Ht.
  assert (G : forall res, In res [8; 12] -> exists w1 w2, run world0 [SetConfig (Parsed (@demo_doc RM md name (adc_name ty) res))] = Ok (w1, [RUnit]) /\
    run w1 amem_hist = Ok (w2, [RCode 0; RCode 0]) /\ wcfg w1 = demo_cfg md ty res /\ wcfg w2 = wcfg w1 /\
    let c := wcfg w2 in
    (room_for (accuracy c) c [1; 2; 3] 3 (2 * N c) ->
     exists w3 r, step w2 (ExeMvm [1; 2; 3] (demo_vec md) [] 3 4 ""%string) = Ok (w3, RRes 0 r) /\ near (accuracy c) r (amem_sum md) (Z.to_nat 3)) /\
    (~ In (m_mode c) [I_UINT_W_OFFS; BNN_III; BNN_IV] ->
     Forall (fun g => (IZR g * half_step c < / 2)%R) (gains c) -> room c [1; 2; 3] 3 (2 * N c) ->
     exists w3, step w2 (ExeMvm [1; 2; 3] (demo_vec md) [] 3 4 ""%string) = Ok (w3, RRes 0 (amem_sum md)))).
  { intros res Hr'. destruct (amem_steps name md ty res H1 Hok Hr') as (w1 & x1 & w2 & R0 & Hr & Hx & Hc & Hp & HI & R1 & C2 & Hal).
    exists w1, w2. split; [exact R0|]. split; [exact R1|]. split; [exact Hc|]. split; [exact C2|]. cbv zeta.
    destruct (demo_facts md ty res x1 Hp (refl_le nz s)) as (F1 & F2 & F3 & F4 & F5 & F6 & F7 & F10). rewrite <- Hc in F1, F2, F3, F4, F5, F6, F7, F10.
    pose proof (run_one _ _ _ _ R0) as E0. pose proof (amem_any md ty res) as HA. cbv zeta in HA. rewrite <- Hc in HA.
    destruct (finite_memory nz s world0 _ w1 x1 amem_hist w2 [RCode 0; RCode 0] [1; 2; 3] (demo_vec md) [] 3 4 ""%string
      world0_reach E0 Hx HI) as [P1 P2]; rewrite ?C2; auto.
    - rewrite Hc, demo_ty. exact Ht.
    - rewrite Hc. apply demo_cal.
    - rewrite Hc, demo_ty, demo_res by exact Ht. clear - Hr' Ht. destruct Hr' as [<-|[<-|[]]]; destruct ty; try congruence; cbn; lia.
    - rewrite Hc, demo_res by exact Ht. clear - Hr'. cbn in Hr'. lia.
    - rewrite Hc, demo_mode. exact H4.
    - rewrite Hc, demo_mode. exact H5.
    - rewrite Hc, demo_hrs, demo_lrs. lra.
    - rewrite Hc, demo_mode. exact Hs.
    - unfold amem_hist. constructor; [|constructor; [|constructor]]; cbn [usual]; (split; [lia|]); (split; [lia|]); intros _;
        rewrite Hc; [exact (proj1 (amem_entries md ty res))|exact (proj2 (amem_entries md ty res))].
    - rewrite Hc. apply demo_inputs.
    - change (Z.to_nat 4) with 4%nat in *. change (Z.to_nat 3) with 3%nat in *. rewrite C2 in *. rewrite HA in *. split; assumption. }
  split.
  - destruct (G 8) as (w1 & w2 & R0 & R1 & Hc & C2 & P1 & _); [cbn; auto|]. rewrite C2, Hc in P1.
    destruct (P1 (proj1 (demo_rooms md ty 8 Ht ltac:(cbn; auto)))) as (w3 & r & E3 & W).
    exists w3, r. split; [|exact W]. exact (run_chain _ _ _ _ _ _ _ _ _ _ R0 R1 E3).
  - intros Hm. destruct (G 12) as (w1 & w2 & R0 & R1 & Hc & C2 & _ & P2); [cbn; auto|]. rewrite C2, Hc in P2.
    destruct P2 as (w3 & E3).
    + rewrite demo_mode. exact Hm.
    + destruct (demo_half nz s md ty 12 Ht ltac:(cbn; auto)) as [Hh Hh2]. specialize (Hh2 eq_refl).
      destruct (@demo_gains RM md ty 12) as [G1 _]. apply Forall_forall. intros g Hg.
      apply (proj1 (forallb_forall _ _) G1) in Hg. assert (P : 0 <= g <= 128) by lia. destruct P as [Q1 Q2].
      apply IZR_le in Q1, Q2. assert (IZR g * @half_step nz s (demo_cfg md ty 12) <= 128 * / 500)%R.
      { apply Rmult_le_compat; lra. }
      lra.
    + exact (proj2 (demo_rooms md ty 12 Ht ltac:(cbn; auto))).
    + exists w3. exact (run_chain _ _ _ _ _ _ _ _ _ _ R0 R1 E3).
Qed.
End E.
