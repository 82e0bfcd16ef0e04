(** Read disturb: what one MVM does to currents, counters and the validity flag (C35, C37-C41, C61). *)
From Coq Require Import String List ZArith Bool Arith Lia ZifyBool ZifyNat.
From RecordUpdate Require Import RecordSet.
From Verif Require Import Base Lib Hoare Machine Json Config Histogram Adc ReadDisturb Parasitics
  Mapper IntMappers BnnMappers TnnMappers Crossbar Api WriteProofs Shape MvmShape DigMvm DigModes DigWrite AnaShape ConfigProofs
  Reach Spec DigApi CfgProps Cells Invar StepFacts StoreProps ApiProps NoiseProps RdSpec.
Import ListNotations RecordSetNotations.
Local Open Scope Z_scope.
Local Open Scope out_scope.

Ltac split_if H := match type of H with (if ?b then _ else _) => destruct b end.

Section G.
Context {MC : Machine}.
Notation at_f := (at2 f0).
Notation at_z := (at2 0).
Notation nominal c g := (level g (fsub (LRS c) (HRS c)) (HRS c)).
Notation quietly c := (fle (HRS_NOISE c) f0 = true /\ fle (LRS_NOISE c) f0 = true).

(** ** One MVM, by mitigation *)
Definition start (c : config) (x : xbar) (m n : nat) (plus : bool) (i j : nat) : F :=
  if c2c_var c && inside m n i j
  then at_f ((if plus then ia_p0 else ia_m0) (xm x)) i j
  else at_f ((if plus then ia_p else ia_m) (xm x)) i j.
Notation fac c r k cy := (fst (g0_factor c r k cy)).

Section One.
Context (c : config) (x : xbar) (res vec mat : list Z) (m n : nat) (l : string) (e : env)
        (rr : list Z) (x' : xbar) (e' : env).
Context (Hw : cfg_wf c) (Hx : xok c x) (Hd : digital_only c = false) (Hr : read_disturb c = true).
Context (H : xmvm c x res vec mat m n l e = Ok (rr, x', e')).
Notation k := (n_read x + 1).

Lemma mvm_stage : exists mp e1 r, xrd x = Some r /\ rdshape c r /\
  shape c mp /\ gd_p mp = gd_p (xm x) /\ gd_m mp = gd_m (xm x) /\
  ia_p0 mp = ia_p0 (xm x) /\ ia_m0 mp = ia_m0 (xm x) /\
  (forall i j, at_f (ia_p mp) i j = start c x m n true i j /\ at_f (ia_m mp) i j = start c x m n false i j) /\
  mp_diff mp = is_diff (m_mode c) /\
  rd_step c (x <| n_mvm := n_mvm x + 1 |> <| n_read := k |> <| xm := mp |>) m n e1 = Ok (x', e').
Proof.
  destruct (xmvm_split _ _ _ _ _ _ _ _ _ _ _ _ Hw Hx Hd H) as (mp & e1 & Hs & E1 & E2 & _ & E3 & E4 & _ & HC & HR).
  cbv zeta in HR. rewrite Hr in HR. pose proof (xo_some _ _ Hx Hr) as HS.
  destruct (xrd x) as [r|] eqn:Er; [|congruence]. exists mp, e1, r.
  split; [reflexivity|]. split; [now apply (xo_rd _ _ Hx)|]. split; [exact Hs|].
  refine (conj E1 (conj E2 (conj E3 (conj E4 (conj _ (conj (sh_diff _ _ Hs) HR)))))).
  intros i j. specialize (HC i j). unfold start. destruct (c2c_var c && inside m n i j); exact HC.
Qed.

(** Currents and flag after a read-disturb update with read numbers [kp] and [km]. *)
Definition fades (r : rdm) (kp km : nat -> nat -> Z) (ip im : list (list F)) : Prop :=
  (forall i j, at_f ip i j =
     if inside (rowsN c) (colsN c) i j && (at_z (gd_p (xm x)) i j =? 1)
     then fmul (LRS c) (fac c r (kp i j) (at_z (cyc_p r) i j)) else start c x m n true i j) /\
  (forall i j, at_f im i j =
     if is_diff (m_mode c) && (inside (rowsN c) (colsN c) i j && (at_z (gd_m (xm x)) i j =? 1))
     then fmul (LRS c) (fac c r (km i j) (at_z (cyc_m r) i j)) else start c x m n false i j).
Definition lrs_worn (g cyc : list (list Z)) : bool :=
  anyN (rowsN c) (fun i => anyN (colsN c) (fun j => (at_z g i j =? 1) && worn (at_z cyc i j))).
Definition cells_worn (r : rdm) : bool :=
  lrs_worn (gd_p (xm x)) (cyc_p r) || (is_diff (m_mode c) && lrs_worn (gd_m (xm x)) (cyc_m r)).

Lemma update_stage mp r rp rm mp' r' (kp km : nat -> nat -> Z) : shape c mp -> rdshape c r ->
  gd_p mp = gd_p (xm x) -> gd_m mp = gd_m (xm x) -> mp_diff mp = is_diff (m_mode c) ->
  (forall i j, at_f (ia_p mp) i j = start c x m n true i j /\ at_f (ia_m mp) i j = start c x m n false i j) ->
  (forall i j v, inside (rowsN c) (colsN c) i j = true -> rp i j = Ok v -> v = kp i j) ->
  (forall i j v, inside (rowsN c) (colsN c) i j = true -> rm i j = Ok v -> v = km i j) ->
  rd_update c rp rm mp r = Ok (mp', r') ->
  shape c mp' /\ gd_p mp' = gd_p mp /\ gd_m mp' = gd_m mp /\ mp_diff mp' = mp_diff mp /\
  ia_p0 mp' = ia_p0 mp /\ ia_m0 mp' = ia_m0 mp /\
  fades r kp km (ia_p mp') (ia_m mp') /\ r' = r <| rd_oob := rd_oob r || cells_worn r |>.
Proof.
  intros Hs Hrs E1 E2 E3 HC Hp Hm HU.
  destruct (rd_update_cells _ _ _ _ _ _ _ Hs Hrs HU) as ((ip & im & E) & Hs' & (b & Eb) & HP & HM & HB).
  rewrite E3 in HM, HB. rewrite E1, E2 in HB. rewrite <- orb_assoc in HB. fold (lrs_worn (gd_p (xm x)) (cyc_p r)) in HB.
  fold (lrs_worn (gd_m (xm x)) (cyc_m r)) in HB. fold (cells_worn r) in HB.
  split; [exact Hs'|]. subst mp'. refine (conj eq_refl (conj eq_refl (conj eq_refl (conj eq_refl (conj eq_refl (conj _ _)))))).
  - change (ia_p (mp <| ia_p := ip |> <| ia_m := im |>)) with ip in *. change (ia_m (mp <| ia_p := ip |> <| ia_m := im |>)) with im in *.
    split; intros i j; destruct (HC i j) as [C1 C2].
    + specialize (HP i j). rewrite E1 in HP. destruct (inside (rowsN c) (colsN c) i j) eqn:Ei; cbn [andb] in HP |- *.
      * destruct (at_z (gd_p (xm x)) i j =? 1); [|now rewrite HP].
        destruct HP as (v & Ev & ->). now rewrite (Hp _ _ _ Ei Ev).
      * now rewrite HP.
    + destruct (is_diff (m_mode c)); cbn [andb].
      * specialize (HM i j). rewrite E2 in HM. destruct (inside (rowsN c) (colsN c) i j) eqn:Ei; cbn [andb] in HM |- *.
        -- destruct (at_z (gd_m (xm x)) i j =? 1); [|now rewrite HM].
           destruct HM as (v & Ev & ->). now rewrite (Hm _ _ _ Ei Ev).
        -- now rewrite HM.
      * rewrite HM. exact C2.
  - subst r'. change (rd_oob (r <| rd_oob := b |>)) with b in HB. now subst b.
Qed.

(** No mitigation. *)
Lemma mvm_off : mitigation c = MIT_OFF -> exists r r', xrd x = Some r /\ xrd x' = Some r' /\ rdshape c r /\
  gd_p (xm x') = gd_p (xm x) /\ gd_m (xm x') = gd_m (xm x) /\
  ia_p0 (xm x') = ia_p0 (xm x) /\ ia_m0 (xm x') = ia_m0 (xm x) /\
  n_read x' = k /\ n_refresh x' = n_refresh x /\ n_cell x' = n_cell x /\ n_write x' = n_write x /\
  update_freq c <> 0 /\
  (if k mod update_freq c =? 0
   then r' = r <| rd_oob := rd_oob r || cells_worn r |> /\ fades r (fun _ _ => k) (fun _ _ => k) (ia_p (xm x')) (ia_m (xm x'))
   else r' = r /\ (forall i j, at_f (ia_p (xm x')) i j = start c x m n true i j) /\
        (forall i j, at_f (ia_m (xm x')) i j = start c x m n false i j)).
Proof.
  intros Em. destruct mvm_stage as (mp & e1 & r & Er & Hrs & Hs & E1 & E2 & E3 & E4 & HC & Edf & HR).
  set (x1 := x <| n_mvm := n_mvm x + 1 |> <| n_read := k |> <| xm := mp |>) in HR.
  apply rd_step_off in HR; [|exact Em]. destruct HR as (_ & Hf & HR). change (n_read x1) with k in HR.
  destruct (k mod update_freq c =? 0).
  - destruct HR as (r1 & mp' & r' & Er1 & HU & ->). change (xrd x1) with (xrd x) in Er1. change (xm x1) with mp in HU.
    rewrite Er in Er1. inversion Er1; subst r1; clear Er1.
    destruct (update_stage mp r (fun _ _ => Ok k) (fun _ _ => Ok k) mp' r' (fun _ _ => k) (fun _ _ => k) Hs Hrs E1 E2 Edf HC) as (Hs' & G1 & G2 & _ & G3 & G4 & HF & HB);
      [intros ? ? ? _ E; injection E; auto|intros ? ? ? _ E; injection E; auto|exact HU|].
    exists r, r'. cbn. refine (conj Er (conj eq_refl (conj Hrs (conj _ (conj _ (conj _ (conj _
      (conj eq_refl (conj eq_refl (conj eq_refl (conj eq_refl (conj Hf (conj HB HF))))))))))))); congruence.
  - subst x'. exists r, r. cbn.
    refine (conj Er (conj Er (conj Hrs (conj E1 (conj E2 (conj E3 (conj E4
      (conj eq_refl (conj eq_refl (conj eq_refl (conj eq_refl (conj Hf (conj eq_refl (conj _ _)))))))))))))); apply HC.
Qed.

(** Software refresh. *)
Lemma mvm_soft : mitigation c = SOFTWARE -> exists r r', xrd x = Some r /\ xrd x' = Some r' /\ rdshape c r /\
  gd_p (xm x') = gd_p (xm x) /\ gd_m (xm x') = gd_m (xm x) /\ rd_ett r' = rd_ett r /\ rd_p r' = rd_p r /\
  con_p r' = con_p r /\ con_m r' = con_m r /\ n_write x' = n_write x /\
  update_freq c <> 0 /\
  rd_oob r' = (if k mod update_freq c =? 0 then rd_oob r || cells_worn r || worn (n_write x + n_refresh x) else rd_oob r) /\
  (if (k mod update_freq c =? 0) && due c r k (n_write x + n_refresh x)
   then n_read x' = 0 /\ n_refresh x' = n_refresh x + 1 /\
     n_cell x' = n_cell x + sumZ (rowsN c) (fun i => sumZ (colsN c) (fun j => if at_z (gd_p (xm x)) i j =? 1 then 1 else 0)) +
      (if is_diff (m_mode c)
       then sumZ (rowsN c) (fun i => sumZ (colsN c) (fun j => if at_z (gd_m (xm x)) i j =? 1 then 1 else 0)) else 0) /\
    (forall i j, (i < rowsN c)%nat -> (j < colsN c)%nat ->
      at_z (cyc_p r') i j = at_z (cyc_p r) i j + (if at_z (gd_p (xm x)) i j =? 1 then 1 else 0) /\
      at_z (cyc_m r') i j = at_z (cyc_m r) i j + (if is_diff (m_mode c) && (at_z (gd_m (xm x)) i j =? 1) then 1 else 0)) /\
    (is_int (m_mode c) = false -> exists mp1,
       gd_p mp1 = gd_p (xm x) /\ gd_m mp1 = gd_m (xm x) /\ ia_p0 mp1 = ia_p0 (xm x) /\ ia_m0 mp1 = ia_m0 (xm x) /\
       fades r (fun _ _ => k) (fun _ _ => k) (ia_p mp1) (ia_m mp1) /\
       programmed c mp1 (xm x') (Z.to_nat (M c)) (colsN c))
   else n_read x' = k /\ n_refresh x' = n_refresh x /\ n_cell x' = n_cell x /\
     ia_p0 (xm x') = ia_p0 (xm x) /\ ia_m0 (xm x') = ia_m0 (xm x) /\
     cyc_p r' = cyc_p r /\ cyc_m r' = cyc_m r /\
     (if k mod update_freq c =? 0 then fades r (fun _ _ => k) (fun _ _ => k) (ia_p (xm x')) (ia_m (xm x'))
      else (forall i j, at_f (ia_p (xm x')) i j = start c x m n true i j) /\
        (forall i j, at_f (ia_m (xm x')) i j = start c x m n false i j))).
Proof.
  intros Em. destruct mvm_stage as (mp & e1 & r & Er & Hrs & Hs & E1 & E2 & E3 & E4 & HC & Edf & HR).
  set (x1 := x <| n_mvm := n_mvm x + 1 |> <| n_read := k |> <| xm := mp |>) in HR.
  apply rd_step_soft in HR; [|exact Em]. destruct HR as (Hf & HR). change (n_read x1) with k in HR.
  change (n_write x1) with (n_write x) in HR. change (n_refresh x1) with (n_refresh x) in HR.
  destruct (k mod update_freq c =? 0) eqn:Eu; cbn [andb].
  - destruct HR as (r0 & mp' & r1 & Er1 & HU & HR). cbv zeta in HR. change (xrd x1) with (xrd x) in Er1. change (xm x1) with mp in HU.
    rewrite Er in Er1. inversion Er1; subst r0; clear Er1.
    destruct (update_stage mp r (fun _ _ => Ok k) (fun _ _ => Ok k) mp' r1 (fun _ _ => k) (fun _ _ => k) Hs Hrs E1 E2 Edf HC) as (Hs' & G1 & G2 & G5 & G3 & G4 & HF & HB);
      [intros ? ? ? _ E; injection E; auto|intros ? ? ? _ E; injection E; auto|exact HU|].
    assert (ED : due c r1 k (n_write x + n_refresh x) = due c r k (n_write x + n_refresh x)).
    { subst r1. unfold due. now rewrite trans_fst. }
    rewrite ED in HR. clear ED.
    set (r2 := r1 <| rd_oob := rd_oob r1 || worn (n_write x + n_refresh x) |>) in HR.
    assert (F0 : rdshape c r2). { subst r2 r1. destruct Hrs. constructor; assumption. }
    assert (F1 : rd_oob r2 = rd_oob r || cells_worn r || worn (n_write x + n_refresh x)) by (subst r2 r1; reflexivity).
    assert (F2 : rd_ett r2 = rd_ett r /\ rd_p r2 = rd_p r /\ con_p r2 = con_p r /\ con_m r2 = con_m r /\
      cyc_p r2 = cyc_p r /\ cyc_m r2 = cyc_m r) by (subst r2 r1; repeat apply conj; reflexivity).
    destruct F2 as (F2 & F3 & F4 & F5 & F6 & F7). clearbody r2.
    destruct (due c r k (n_write x + n_refresh x)) eqn:Edue.
    + set (x2 := x1 <| xm := mp' |> <| xrd := Some r2 |>) in HR.
      assert (E5 : xm x2 = mp') by reflexivity.
      assert (K1 : n_refresh x2 = n_refresh x /\ n_cell x2 = n_cell x /\ n_write x2 = n_write x) by (repeat apply conj; reflexivity).
      destruct K1 as (K1 & K2 & K3). clearbody x2. rewrite <- E5 in Hs'.
      destruct (soft_refresh_cells _ _ _ _ _ _ Hs' F0 HR)
        as (r' & R1 & R2 & R3 & R4 & R5 & R6 & R7 & R8 & R9 & R10 & R11 & R12 & R13 & R14 & _ & R15).
      rewrite E5, G1, G2, G5, Edf, E1, E2 in *.
      exists r, r'. rewrite Edue. refine (conj Er (conj R1 (conj Hrs (conj R11 (conj R12 _))))).
      refine (conj _ (conj _ (conj _ (conj _ (conj _ (conj Hf (conj _ _))))))); try congruence.
      refine (conj R3 (conj _ (conj _ (conj _ _)))).
      * congruence.
      * lia.
      * rewrite F6, F7 in R14. exact R14.
      * intros Hi. exists mp'. refine (conj G1 (conj G2 (conj _ (conj _ (conj HF (R15 Hi)))))); congruence.
    + destruct HR as [-> _]. exists r, r2. rewrite Edue. cbn. refine (conj Er (conj eq_refl (conj Hrs (conj _ (conj _ (conj F2 (conj F3 (conj F4 (conj F5
      (conj eq_refl (conj Hf (conj F1 _)))))))))))); try congruence.
      refine (conj eq_refl (conj eq_refl (conj eq_refl (conj _ (conj _ (conj F6 (conj F7 HF))))))); congruence.
  - destruct HR as [-> _]. exists r, r. cbn. refine (conj Er (conj Er (conj Hrs (conj E1 (conj E2 (conj eq_refl (conj eq_refl (conj eq_refl (conj eq_refl
      (conj eq_refl (conj Hf (conj eq_refl _)))))))))))).
    refine (conj eq_refl (conj eq_refl (conj eq_refl (conj E3 (conj E4 (conj eq_refl (conj eq_refl (conj _ _)))))))); apply HC.
Qed.
(** Cell-based refresh. *)
Notation cov i j := (if inside (m * nsplit c) n i j then 1 else 0).
Lemma mvm_cell : mitigation c = CELL_BASED -> exists r r', xrd x = Some r /\ xrd x' = Some r' /\ rdshape c r /\
  gd_p (xm x') = gd_p (xm x) /\ gd_m (xm x') = gd_m (xm x) /\ rd_ett r' = rd_ett r /\ rd_p r' = rd_p r /\
  ia_p0 (xm x') = ia_p0 (xm x) /\ ia_m0 (xm x') = ia_m0 (xm x) /\
  n_read x' = k /\ n_refresh x' = n_refresh x /\ n_write x' = n_write x /\ update_freq c <> 0 /\
  let kp := fun i j => at_z (con_p r) i j + cov i j in
  let km := fun i j => at_z (con_m r) i j + cov i j in
  rd_oob r' = (if k mod update_freq c =? 0 then rd_oob r || cells_worn r else rd_oob r) /\
  (if k mod update_freq c =? 0 then exists ip im, fades r kp km ip im /\
     (forall i j,
        if inside (rowsN c) (colsN c) i j && (at_z (gd_p (xm x)) i j =? 1) && outside c (at_f ip i j) then
          noisy c (LRS c) 1 (at_f (ia_p (xm x')) i j) /\ at_z (cyc_p r') i j = at_z (cyc_p r) i j + 1 /\ at_z (con_p r') i j = 0
        else at_f (ia_p (xm x')) i j = at_f ip i j /\ at_z (cyc_p r') i j = at_z (cyc_p r) i j /\ at_z (con_p r') i j = kp i j) /\
     (forall i j,
        if is_diff (m_mode c) && (inside (rowsN c) (colsN c) i j && (at_z (gd_m (xm x)) i j =? 1) && outside c (at_f im i j)) then
          noisy c (LRS c) 1 (at_f (ia_m (xm x')) i j) /\ at_z (cyc_m r') i j = at_z (cyc_m r) i j + 1 /\ at_z (con_m r') i j = 0
        else at_f (ia_m (xm x')) i j = at_f im i j /\ at_z (cyc_m r') i j = at_z (cyc_m r) i j /\ at_z (con_m r') i j = km i j) /\
     n_cell x' = n_cell x + sumZ (rowsN c) (fun i => sumZ (colsN c) (fun j =>
         if (at_z (gd_p (xm x)) i j =? 1) && outside c (at_f ip i j) then 1 else 0)) +
       (if is_diff (m_mode c) then sumZ (rowsN c) (fun i => sumZ (colsN c) (fun j =>
         if (at_z (gd_m (xm x)) i j =? 1) && outside c (at_f im i j) then 1 else 0)) else 0)
   else cyc_p r' = cyc_p r /\ cyc_m r' = cyc_m r /\ n_cell x' = n_cell x /\
     (forall i j, at_f (ia_p (xm x')) i j = start c x m n true i j /\ at_f (ia_m (xm x')) i j = start c x m n false i j /\
        at_z (con_p r') i j = kp i j /\ at_z (con_m r') i j = km i j)).
Proof.
  intros Em. destruct mvm_stage as (mp & e1 & r & Er & Hrs & Hs & E1 & E2 & E3 & E4 & HC & Edf & HR).
  set (x1 := x <| n_mvm := n_mvm x + 1 |> <| n_read := k |> <| xm := mp |>) in HR.
  apply rd_step_cell in HR; [|exact Em]. destruct HR as (r0 & r1 & Er1 & HU & Hf & HR). change (n_read x1) with k in HR.
  change (xrd x1) with (xrd x) in Er1. rewrite Er in Er1. inversion Er1; subst r0; clear Er1.
  destruct (update_consecutive_cells _ _ _ _ _ Hrs HU) as ((pp & qq & E5) & Hrs1 & HK). clear HU.
  destruct (k mod update_freq c =? 0).
  - destruct HR as (mp1 & r2 & mp2 & r3 & cnt & HU & HF & ->). change (xm x1) with mp in HU.
    destruct (update_stage mp r1 (get2 (con_p r1)) (get2 (con_m r1)) mp1 r2
      (fun i j => at_z (con_p r) i j + cov i j) (fun i j => at_z (con_m r) i j + cov i j)
      Hs Hrs1 E1 E2 Edf HC) as (Hs' & G1 & G2 & G5 & G3 & G4 & HFd & HB); [| |exact HU|].
    { intros i j v _ E. apply (get2_inv 0 _ _ _ _ _ _ (rs_kp _ _ Hrs1)) in E. destruct E as (_ & _ & ->). apply HK. }
    { intros i j v _ E. apply (get2_inv 0 _ _ _ _ _ _ (rs_km _ _ Hrs1)) in E. destruct E as (_ & _ & ->). apply HK. }
    assert (Hrs2 : rdshape c r2) by (subst r2; destruct Hrs1; constructor; assumption).
    destruct (cell_refresh_cells _ _ _ _ _ _ _ _ Hs' Hrs2 HF) as ((ip & im & E) & Q1 & Q2 & Q3 & _ & HP & HM & HN).
    rewrite G5, Edf in HM, HN. rewrite G1, E1 in HP, HN. rewrite G2, E2 in HM, HN.
    assert (C2 : cyc_p r2 = cyc_p r /\ cyc_m r2 = cyc_m r /\ con_p r2 = con_p r1 /\ con_m r2 = con_m r1 /\ rd_ett r2 = rd_ett r /\ rd_p r2 = rd_p r).
    { subst r2 r1. repeat apply conj; reflexivity. }
    destruct C2 as (C2 & C3 & C4 & C5 & C6 & C7).
    exists r, r3. cbn [xrd xm n_read n_refresh n_write n_cell RecordSet.set].
    change (xrd (x1 <| xrd := Some r1 |> <| xm := mp2 |> <| xrd := Some r3 |> <| n_cell := n_cell x1 + cnt |>)) with (Some r3).
    change (xm (x1 <| xrd := Some r1 |> <| xm := mp2 |> <| xrd := Some r3 |> <| n_cell := n_cell x1 + cnt |>)) with mp2.
    change (n_cell (x1 <| xrd := Some r1 |> <| xm := mp2 |> <| xrd := Some r3 |> <| n_cell := n_cell x1 + cnt |>)) with (n_cell x + cnt).
    refine (conj Er (conj eq_refl (conj Hrs (conj _ (conj _ (conj _ (conj _ (conj _ (conj _ (conj eq_refl (conj eq_refl (conj eq_refl (conj Hf (conj _ _))))))))))))));
      try (subst mp2; cbn; congruence); try congruence.
    + rewrite Q1, HB, E5. reflexivity.
    + exists (ia_p mp1), (ia_m mp1). split; [rewrite E5 in HFd; exact HFd|]. split; [|split].
      * intros i j. specialize (HP i j). rewrite C2, C4 in HP. destruct (HK i j) as [K1 _]. rewrite K1 in HP. exact HP.
      * intros i j. destruct (HK i j) as [_ K1]. destruct (is_diff (m_mode c)); cbn [andb].
        -- specialize (HM i j). rewrite C3, C5, K1 in HM. exact HM.
        -- destruct HM as (-> & -> & ->). rewrite C3, C5, K1. auto.
      * rewrite HN. change (n_cell x1) with (n_cell x). ring.
  - destruct HR as [-> _]. exists r, r1.
    assert (C2 : cyc_p r1 = cyc_p r /\ cyc_m r1 = cyc_m r /\ rd_ett r1 = rd_ett r /\ rd_p r1 = rd_p r /\ rd_oob r1 = rd_oob r).
    { subst r1. repeat apply conj; reflexivity. }
    destruct C2 as (C2 & C3 & C6 & C7 & C8).
    change (xrd (x1 <| xrd := Some r1 |>)) with (Some r1). change (xm (x1 <| xrd := Some r1 |>)) with mp.
    refine (conj Er (conj eq_refl (conj Hrs (conj E1 (conj E2 (conj C6 (conj C7 (conj E3 (conj E4 (conj eq_refl (conj eq_refl (conj eq_refl (conj Hf (conj C8 _)))))))))))))).
    refine (conj C2 (conj C3 (conj eq_refl _))). intros i j. destruct (HC i j), (HK i j). auto.
Qed.
End One.

(** ** Invariants *)
Lemma at2_out {A} (d : A) R C g i j : wf2 R C g -> inside R C i j = false -> at2 d g i j = d.
Proof.
  intros Hg Hi. unfold at2. destruct (Nat.lt_ge_cases i R) as [Hr|Hr].
  - apply nth_overflow. rewrite (wf2_row _ _ _ _ Hg Hr). unfold inside in Hi. lia.
  - rewrite (nth_overflow g) by (destruct Hg as [-> _]; auto). now destruct j.
Qed.

(** The model of a crossbar was built for the V_read in force. *)
Definition consts (c : config) (x : xbar) : Prop := forall r, xrd x = Some r ->
  read_disturb c = true /\ rd_ett r = calc_exp_tt (V_read c) /\ rd_p r = calc_p (V_read c).
Lemma reach_consts w x : reach w -> wx w = Some x -> consts (wcfg w) x.
Proof.
  apply (reach_Q consts).
  - intros c y _ _ H r Hr. unfold xbar_new in H. inv_as H mp A. inversion H; subst. cbn in Hr.
    destruct (read_disturb c); [|discriminate]. inversion Hr; subst. auto.
  - intros c c' y _ _ HC _ HQ r Hr. destruct (HQ r Hr) as (A1 & A2 & A3).
    apply core_mode in HC as (_ & -> & _ & _ & _ & _ & _ & _ & -> & _). auto.
  - intros c y mat m n e y' e' Ho Hw Hy _ HQ H. pose proof (xwrite_written _ _ _ _ _ _ _ _ Hw Hy H) as W.
    destruct (read_disturb c) eqn:Er.
    + destruct (wr_rd _ _ _ _ _ _ _ W Er) as (r & r' & R1 & R2 & R3 & R4 & _). intros r0 R0.
      destruct (HQ r R1) as (A1 & A2 & A3). assert (r0 = r') by congruence. subst r0. rewrite R3, R4. auto.
    + intros r0 R0. rewrite (wr_nord _ _ _ _ _ _ _ W Er) in R0. now apply HQ.
  - intros c y res vec mat m n l e r y' e' Ho Hw Hy _ HQ H.
    destruct (digital_only c) eqn:Ed.
    { destruct (xmvm_digital _ _ _ _ _ _ _ _ _ _ _ _ Hw Hy Ed H) as (_ & E & _). intros r0 R0. rewrite E in R0. now apply HQ. }
    destruct (read_disturb c) eqn:Er.
    2:{ destruct (xmvm_split _ _ _ _ _ _ _ _ _ _ _ _ Hw Hy Ed H) as (mp & e1 & _ & _ & _ & _ & _ & _ & _ & _ & HR).
        rewrite Er in HR. destruct HR as [-> _]. intros r0 R0. now apply HQ. }
    assert (HX : exists r0 r', xrd y = Some r0 /\ xrd y' = Some r' /\ rd_ett r' = rd_ett r0 /\ rd_p r' = rd_p r0).
    { destruct (mitigation c) eqn:Em.
      - destruct (mvm_soft c y res vec mat m n l e r y' e' Hw Hy Ed Er H Em) as (r0 & r' & R1 & R2 & _ & _ & _ & R3 & R4 & _). exists r0, r'. auto.
      - destruct (mvm_cell c y res vec mat m n l e r y' e' Hw Hy Ed Er H Em) as (r0 & r' & R1 & R2 & _ & _ & _ & R3 & R4 & _). exists r0, r'. auto.
      - destruct (mvm_off c y res vec mat m n l e r y' e' Hw Hy Ed Er H Em) as (r0 & r' & R1 & R2 & _ & _ & _ & _ & _ & _ & _ & _ & _ & _ & HR).
        exists r0, r'. destruct (_ =? 0); destruct HR as [-> _]; auto. }
    destruct HX as (r0 & r' & R1 & R2 & R3 & R4). intros r1 R0. assert (r1 = r') by congruence. subst r1.
    rewrite R3, R4. split; [exact Er|]. now apply HQ.
Qed.
Lemma fac_spec c x r k n : consts c x -> xrd x = Some r -> fac c r k n = m_fading (V_read c) (t_read c) k n.
Proof.
  intros HC Hr. destruct (HC r Hr) as (_ & E1 & E2). unfold g0_factor, trans_time, m_fading, m_onset, m_invalid, m_fatigue.
  rewrite E1, E2. unfold wear. change (calc_p (V_read c)) with (m_decay (V_read c)).
  change (calc_exp_tt (V_read c)) with (fdiv (f_of_Z 1) (m_decay (V_read c))).
  destruct (dle (d_of_Z 1) _); destruct (flt _ _); reflexivity.
Qed.

(** Cells that are not low-resistive keep their programmed current. *)
Definition anchored (c : config) (x : xbar) : Prop := digital_only c = false -> is_int (m_mode c) = false -> forall i j,
  (at_z (gd_p (xm x)) i j <> 1 -> at_f (ia_p (xm x)) i j = at_f (ia_p0 (xm x)) i j) /\
  (at_z (gd_m (xm x)) i j <> 1 \/ is_diff (m_mode c) = false -> at_f (ia_m (xm x)) i j = at_f (ia_m0 (xm x)) i j).

Lemma start_anchored c x m n : digital_only c = false -> is_int (m_mode c) = false -> anchored c x -> forall i j,
  (at_z (gd_p (xm x)) i j <> 1 -> start c x m n true i j = at_f (ia_p0 (xm x)) i j) /\
  (at_z (gd_m (xm x)) i j <> 1 \/ is_diff (m_mode c) = false -> start c x m n false i j = at_f (ia_m0 (xm x)) i j).
Proof.
  intros Hd Hi HA i j. destruct (HA Hd Hi i j) as [A1 A2]. unfold start.
  destruct (c2c_var c && inside m n i j); auto.
Qed.
Lemma fades_anchored c x m n r kp km ip im : digital_only c = false -> is_int (m_mode c) = false -> anchored c x ->
  fades c x m n r kp km ip im -> forall i j,
  (at_z (gd_p (xm x)) i j <> 1 -> at_f ip i j = at_f (ia_p0 (xm x)) i j) /\
  (at_z (gd_m (xm x)) i j <> 1 \/ is_diff (m_mode c) = false -> at_f im i j = at_f (ia_m0 (xm x)) i j).
Proof.
  intros Hd Hi HA [HP HM] i j. destruct (start_anchored c x m n Hd Hi HA i j) as [S1 S2]. rewrite HP, HM. split.
  - intros Hg. replace (at_z (gd_p (xm x)) i j =? 1) with false by lia. rewrite andb_false_r. auto.
  - intros [Hg|Hg].
    + replace (at_z (gd_m (xm x)) i j =? 1) with false by lia. rewrite !andb_false_r. auto.
    + rewrite Hg. cbn [andb]. auto.
Qed.

(** What an MVM leaves alone, whatever the mitigation. *)
Lemma mvm_anchored c y res vec mat m n l e r y' e' : cfg_wf c -> xok c y -> digital_only c = false -> is_int (m_mode c) = false ->
  anchored c y -> xmvm c y res vec mat m n l e = Ok (r, y', e') ->
  gd_p (xm y') = gd_p (xm y) /\ gd_m (xm y') = gd_m (xm y) /\ anchored c y' /\
  (read_disturb c = false \/ mitigation c <> SOFTWARE -> ia_p0 (xm y') = ia_p0 (xm y) /\ ia_m0 (xm y') = ia_m0 (xm y)).
Proof.
  intros Hw Hy Ed Hi HA H. destruct (read_disturb c) eqn:Er.
  2:{ destruct (xmvm_split _ _ _ _ _ _ _ _ _ _ _ _ Hw Hy Ed H) as (mp & e1 & _ & E1 & E2 & _ & E3 & E4 & _ & HC & HR).
      rewrite Er in HR. destruct HR as [-> _]. change (gd_p mp = gd_p (xm y) /\ gd_m mp = gd_m (xm y) /\
        anchored c (y <| n_mvm := n_mvm y + 1 |> <| n_read := n_read y + 1 |> <| xm := mp |>) /\
        (false = false \/ mitigation c <> SOFTWARE -> ia_p0 mp = ia_p0 (xm y) /\ ia_m0 mp = ia_m0 (xm y))).
      refine (conj E1 (conj E2 (conj _ (fun _ => conj E3 E4)))).
      intros _ _ i j. change (xm (y <| n_mvm := n_mvm y + 1 |> <| n_read := n_read y + 1 |> <| xm := mp |>)) with mp.
      rewrite E1, E2, E3, E4. specialize (HC i j). destruct (HA Ed Hi i j) as [A1 A2].
      destruct (c2c_var c && inside m n i j); destruct HC as [-> ->]; auto. }
  destruct (mitigation c) eqn:Em.
  - destruct (mvm_soft c y res vec mat m n l e r y' e' Hw Hy Ed Er H Em)
      as (r0 & r' & R1 & R2 & _ & G1 & G2 & _ & _ & _ & _ & _ & _ & _ & HR).
    refine (conj G1 (conj G2 (conj _ _))); [|intros [? | ?]; congruence].
    intros _ _ i j. rewrite G1, G2.
    destruct ((_ =? 0) && _) eqn:Eu.
    + destruct HR as (_ & _ & _ & _ & HR). destruct (HR Hi) as (mp1 & B1 & B2 & B3 & B4 & HF & HP).
      destruct (fades_anchored _ _ _ _ _ _ _ _ _ Ed Hi HA HF i j) as [F1 F2]. specialize (HP i j).
      destruct (inside (Z.to_nat (M c)) (colsN c) i j).
      * destruct HP as ((Q1 & _) & Q2). split; [auto|]. destruct (one_array (m_mode c)) eqn:Eo.
        -- destruct Q2 as [-> ->]. rewrite B4. auto.
        -- destruct Q2 as [Q2 _]. auto.
      * destruct HP as (-> & -> & -> & ->). rewrite B3, B4. auto.
    + destruct HR as (_ & _ & _ & -> & -> & _ & _ & HR). destruct (_ =? 0).
      * exact (fades_anchored _ _ _ _ _ _ _ _ _ Ed Hi HA HR i j).
      * destruct HR as [-> ->]. exact (start_anchored _ _ _ _ Ed Hi HA i j).
  - destruct (mvm_cell c y res vec mat m n l e r y' e' Hw Hy Ed Er H Em)
      as (r0 & r' & R1 & R2 & _ & G1 & G2 & _ & _ & G3 & G4 & _ & _ & _ & _ & HR). cbv zeta in HR. destruct HR as (_ & HR).
    refine (conj G1 (conj G2 (conj _ (fun _ => conj G3 G4)))).
    intros _ _ i j. rewrite G1, G2, G3, G4. destruct (_ =? 0).
    + destruct HR as (ip & im & HF & HP & HM & _). specialize (HP i j). specialize (HM i j).
      destruct (fades_anchored _ _ _ _ _ _ _ _ _ Ed Hi HA HF i j) as [F1 F2]. split.
      * intros Hg. replace (at_z (gd_p (xm y)) i j =? 1) with false in HP by lia. rewrite andb_false_r in HP. cbn [andb] in HP.
        destruct HP as (-> & _). auto.
      * intros Hg. assert (Eb : is_diff (m_mode c) && (inside (rowsN c) (colsN c) i j && (at_z (gd_m (xm y)) i j =? 1) && outside c (at_f im i j)) = false).
        { destruct Hg as [Hg | ->]; [|reflexivity]. replace (at_z (gd_m (xm y)) i j =? 1) with false by lia.
          rewrite andb_false_r. cbn [andb]. apply andb_false_r. }
        rewrite Eb in HM. destruct HM as (-> & _). auto.
    + destruct HR as (_ & _ & _ & HR). destruct (HR i j) as (-> & -> & _). exact (start_anchored _ _ _ _ Ed Hi HA i j).
  - destruct (mvm_off c y res vec mat m n l e r y' e' Hw Hy Ed Er H Em)
      as (r0 & r' & R1 & R2 & _ & G1 & G2 & G3 & G4 & _ & _ & _ & _ & _ & HR).
    refine (conj G1 (conj G2 (conj _ (fun _ => conj G3 G4)))).
    intros _ _ i j. rewrite G1, G2, G3, G4. destruct (_ =? 0).
    + destruct HR as [_ HF]. exact (fades_anchored _ _ _ _ _ _ _ _ _ Ed Hi HA HF i j).
    + destruct HR as (_ & -> & ->). exact (start_anchored _ _ _ _ Ed Hi HA i j).
Qed.

Lemma write_gd_frame c x mat m n e x' e' : cfg_wf c -> xok c x -> is_int (m_mode c) = false ->
  xwrite c x mat m n e = Ok (x', e') -> forall i j, inside m n i j = false ->
  at_z (gd_p (xm x')) i j = at_z (gd_p (xm x)) i j /\ at_z (gd_m (xm x')) i j = at_z (gd_m (xm x)) i j.
Proof.
  intros Hw Hx Hi H i j Hij. destruct (xwrite_d _ _ _ _ _ _ _ _ H) as (mp1 & D & S1 & S2 & _).
  destruct (StoreProps.d_write_frame c (xm x) mat m n mp1 (xo_shape _ _ Hx) D) as [F1 F2]. cbn [fst snd] in F1, F2.
  assert (Er : rect (rpw c) m n i j = false).
  { unfold rect, rpw. rewrite Hi. unfold inside in Hij. lia. }
  rewrite S1, S2. split; [exact (F1 i j Er)|exact (F2 i j Er)].
Qed.
Lemma reach_anchored w x : reach w -> wx w = Some x -> anchored (wcfg w) x.
Proof.
  apply (reach_Q anchored).
  - intros c y _ _ H _ _ i j. destruct (xbar_new_ia _ _ H) as (-> & -> & -> & -> & _). auto.
  - intros c c' y _ _ HC _ HQ Hd Hi. apply core_mode in HC as (E1 & _ & E2 & _). rewrite E1, E2 in *. exact (HQ Hd Hi).
  - intros c y mat m n e y' e' Ho Hw Hy _ HQ H Hd Hi i j. pose proof (xwrite_written _ _ _ _ _ _ _ _ Hw Hy H) as W.
    pose proof (wr_xnn _ _ _ _ _ _ _ W Hd Hi i j) as HP. destruct (HQ Hd Hi i j) as [A1 A2].
    destruct (inside m n i j) eqn:Eij.
    + destruct HP as ((Q1 & _) & Q2). split; [auto|]. destruct (one_array (m_mode c)) eqn:Eo.
      * destruct Q2 as [-> ->]. intros _. apply A2. right. now destruct (m_mode c).
      * destruct Q2 as [Q2 _]. auto.
    + destruct (write_gd_frame _ _ _ _ _ _ _ _ Hw Hy Hi H i j Eij) as [-> ->]. destruct HP as (-> & -> & -> & ->). auto.
  - intros c y res vec mat m n l e r y' e' Ho Hw Hy _ HQ H. destruct (digital_only c) eqn:Ed; [intros E; congruence|].
    destruct (is_int (m_mode c)) eqn:Ei; [intros _ E; congruence|].
    apply (mvm_anchored _ _ _ _ _ _ _ _ _ _ _ _ Hw Hy Ed Ei HQ H).
Qed.
End G.
