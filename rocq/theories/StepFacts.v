(** What one write and one MVM do to currents, counters and flags, cell by cell. *)
From Coq Require Import List ZArith Bool Arith Lia ZifyBool ZifyNat String.
From RecordUpdate Require Import RecordSet.
From Verif Require Import Base Lib Hoare Machine Json Config Histogram Adc ReadDisturb Parasitics
  Mapper IntMappers BnnMappers TnnMappers Crossbar Api WriteProofs Shape MvmShape AnaShape ConfigProofs Reach Spec DigApi
  Cells Invar.
Import ListNotations RecordSetNotations.
Local Open Scope Z_scope.
Local Open Scope out_scope.

Section SF.
Context {MC : Machine}.
Notation len := List.length.
Notation at_f := (at2 f0).
Notation at_z := (at2 0).
Notation nominal c g := (level g (fsub (LRS c) (HRS c)) (HRS c)).
Notation quietly c := (fle (HRS_NOISE c) f0 = true /\ fle (LRS_NOISE c) f0 = true).

(** Modes whose a_write programs one array only. *)
Definition one_array (m : mode) : bool := match m with I_UINT_W_OFFS | BNN_III | BNN_IV => true | _ => false end.

(** Currents after programming the stored cells of m rows and n columns. *)
Definition programmed (c : config) (mp mp' : mapper) (m n : nat) : Prop :=
  forall i j,
    if inside m n i j then
      (at_f (ia_p0 mp') i j = at_f (ia_p mp') i j /\
       noisy c (nominal c (at_z (gd_p mp') i j)) (at_z (gd_p mp') i j) (at_f (ia_p mp') i j)) /\
      (if one_array (m_mode c)
       then at_f (ia_m mp') i j = at_f (ia_m mp) i j /\ at_f (ia_m0 mp') i j = at_f (ia_m0 mp) i j
       else at_f (ia_m0 mp') i j = at_f (ia_m mp') i j /\
            noisy c (nominal c (at_z (gd_m mp') i j)) (at_z (gd_m mp') i j) (at_f (ia_m mp') i j))
    else at_f (ia_p mp') i j = at_f (ia_p mp) i j /\ at_f (ia_p0 mp') i j = at_f (ia_p0 mp) i j /\
         at_f (ia_m mp') i j = at_f (ia_m mp) i j /\ at_f (ia_m0 mp') i j = at_f (ia_m0 mp) i j.

Lemma a_write_cells c mp m n e mp' e' : shape c mp -> a_write c mp m n e = Ok (mp', e') ->
  gd_p mp' = gd_p mp /\ gd_m mp' = gd_m mp /\ mp_diff mp' = mp_diff mp /\
  (quietly c -> e' = e) /\
  (is_int (m_mode c) = false -> programmed c mp mp' m n) /\
  (is_int (m_mode c) = true -> ia_p0 mp' = ia_p0 mp /\ ia_m0 mp' = ia_m0 mp /\ e' = e).
Proof.
  intros Hs H. unfold a_write in H. cbv zeta in H. pose proof (sh_mode _ _ Hs) as Em.
  inv_as H t T. destruct t as [mp1 e1].
  assert (HP : gd_p mp' = gd_p mp1 /\ gd_m mp' = gd_m mp1 /\ mp_diff mp' = mp_diff mp1 /\ e' = e1 /\
    ia_p mp' = ia_p mp1 /\ ia_m mp' = ia_m mp1 /\ ia_p0 mp' = ia_p0 mp1 /\ ia_m0 mp' = ia_m0 mp1).
  { destruct (parasitics c).
    - inv_as H p P. inversion H; subst. cbn. repeat apply conj; reflexivity.
    - inversion H; subst. repeat apply conj; reflexivity. }
  destruct HP as (P1 & P2 & P3 & P4 & P5 & P6 & P7 & P8). clear H. subst e1.
  rewrite Em in T. destruct (is_int (m_mode c)) eqn:Ei.
  - inv_as T mp2 T2. inversion T; subst mp2 e'; clear T.
    unfold a_write_int in T2. inv_as T2 q Q. destruct q as [ip im]. inversion T2; subst mp1; clear T2.
    cbn in *. rewrite P1, P2, P3, P7, P8. repeat apply conj; auto; discriminate.
  - set (both := match m_mode c with I_UINT_W_OFFS | BNN_III | BNN_IV => false | _ => true end) in T.
    destruct (a_write_xnn_cells c both mp m n e mp1 e' Hs T) as (W1 & W2 & W3 & W4 & HE & HC).
    assert (HG : gd_p mp1 = gd_p mp /\ gd_m mp1 = gd_m mp /\ mp_diff mp1 = mp_diff mp).
    { unfold a_write_xnn in T. inv_as T q Q. destruct q as [[[[? ?] ?] ?] ?]. inversion T; subst. repeat apply conj; reflexivity. }
    destruct HG as (G1 & G2 & G3).
    assert (Eb : both = negb (one_array (m_mode c))) by (unfold both; now destruct (m_mode c)).
    refine (conj _ (conj _ (conj _ (conj _ (conj _ _))))); try congruence.
    + intros [? ?]. auto.
    + intros _ i j. specialize (HC i j). rewrite P1, P2, P5, P6, P7, P8, G1, G2. rewrite Eb in HC.
      destruct (inside m n i j); [|exact HC]. now destruct (one_array (m_mode c)).
Qed.

Lemma d_write_frame c mp mat m n mp' : d_write c mp mat m n = Ok mp' ->
  exists gp gm sw, mp' = mp <| gd_p := gp |> <| gd_m := gm |> <| sum_w := sw |>.
Proof. unfold d_write. intros H. inv_as H t T. destruct t as [[gp gm] sw]. inversion H; subst. eauto. Qed.

(** ** One write *)
Record written (c : config) (x : xbar) (m n : nat) (e : env) (x' : xbar) (e' : env) : Prop := {
  wr_quiet : quietly c -> e' = e;
  wr_dig : digital_only c = true -> ia_p (xm x') = ia_p (xm x) /\ ia_m (xm x') = ia_m (xm x) /\
           ia_p0 (xm x') = ia_p0 (xm x) /\ ia_m0 (xm x') = ia_m0 (xm x) /\ e' = e;
  wr_xnn : digital_only c = false -> is_int (m_mode c) = false -> programmed c (xm x) (xm x') m n;
  wr_int : is_int (m_mode c) = true -> ia_p0 (xm x') = ia_p0 (xm x) /\ ia_m0 (xm x') = ia_m0 (xm x) /\ e' = e;
  wr_nord : read_disturb c = false -> xrd x' = xrd x;
  wr_rd : read_disturb c = true -> exists r r', xrd x = Some r /\ xrd x' = Some r' /\
    rd_ett r' = rd_ett r /\ rd_p r' = rd_p r /\ rd_oob r' = rd_oob r /\
    (mitigation c <> CELL_BASED -> con_p r' = con_p r /\ con_m r' = con_m r) /\
    (mitigation c = CELL_BASED -> forall i j, (i < rowsN c)%nat -> (j < colsN c)%nat ->
        at_z (con_p r') i j = 0 /\ at_z (con_m r') i j = 0) /\
    forall i j, (i < rowsN c)%nat -> (j < colsN c)%nat ->
      at_z (cyc_p r') i j = at_z (cyc_p r) i j +
        (if (at_z (gd_p (xm x)) i j =? 1) && (at_z (gd_p (xm x')) i j =? 0) then 1 else 0) /\
      at_z (cyc_m r') i j = at_z (cyc_m r) i j +
        (if (at_z (gd_m (xm x)) i j =? 1) && (at_z (gd_m (xm x')) i j =? 0) then 1 else 0)
}.

Lemma xwrite_written c x mat m n e x' e' : cfg_wf c -> xok c x -> xwrite c x mat m n e = Ok (x', e') ->
  written c x m n e x' e'.
Proof.
  intros Hw Hx H. unfold xwrite in H. cbv zeta in H.
  set (x0 := x <| n_write := n_write x + 1 |> <| n_read := 0 |>) in H.
  change (xm x0) with (xm x) in H. change (xrd x0) with (xrd x) in H.
  inv_as H x1 T.
  assert (HA : exists mp1, d_write c (xm x) mat m n = Ok mp1 /\ xm x1 = mp1 /\
    (read_disturb c = false -> xrd x1 = xrd x) /\
    (read_disturb c = true -> exists r r', xrd x = Some r /\ xrd x1 = Some r' /\
      rd_ett r' = rd_ett r /\ rd_p r' = rd_p r /\ rd_oob r' = rd_oob r /\
      (mitigation c <> CELL_BASED -> con_p r' = con_p r /\ con_m r' = con_m r) /\
      (mitigation c = CELL_BASED -> forall i j, (i < rowsN c)%nat -> (j < colsN c)%nat ->
        at_z (con_p r') i j = 0 /\ at_z (con_m r') i j = 0) /\
      forall i j, (i < rowsN c)%nat -> (j < colsN c)%nat ->
      at_z (cyc_p r') i j = at_z (cyc_p r) i j +
        (if (at_z (gd_p (xm x)) i j =? 1) && (at_z (gd_p mp1) i j =? 0) then 1 else 0) /\
      at_z (cyc_m r') i j = at_z (cyc_m r) i j +
        (if (at_z (gd_m (xm x)) i j =? 1) && (at_z (gd_m mp1) i j =? 0) then 1 else 0))).
  { destruct (read_disturb c) eqn:Er.
    - inv_as T mp1 D. inv_as T up U. inv_as T um V. inv_as T r R. inv_as T r1 R1. inv_as T r2 R2.
      inversion T; subst x1; clear T. exists mp1. split; [exact D|]. split; [reflexivity|]. split; [discriminate|].
      intros _. destruct (xrd x) as [r0|] eqn:E0; [|discriminate]. inversion R; subst r0; clear R.
      exists r, r2. split; [reflexivity|]. split; [reflexivity|].
      pose proof (xo_shape _ _ Hx) as Hs. pose proof (xo_rd _ _ Hx _ E0) as Hr.
      pose proof (proj1 (tri_any _ _) (d_write_tri anyfail harmless_any c (xm x) mat m n Hw Hs (or_introl I)) _ D) as [Hs1 _].
      destruct (reset_mask_cells c _ _ _ (sh_gp _ _ Hs) (sh_gp _ _ Hs1) U) as [Wu Hu].
      destruct (reset_mask_cells c _ _ _ (sh_gm _ _ Hs) (sh_gm _ _ Hs1) V) as [Wv Hv].
      destruct (update_cycles_cells c up um r r1 Hr Wu Wv R1) as ((p & q & E1) & Hr1 & HC).
      assert (HC' : forall i j, (i < rowsN c)%nat -> (j < colsN c)%nat ->
        at_z (cyc_p r1) i j = at_z (cyc_p r) i j +
        (if (at_z (gd_p (xm x)) i j =? 1) && (at_z (gd_p mp1) i j =? 0) then 1 else 0) /\
        at_z (cyc_m r1) i j = at_z (cyc_m r) i j +
        (if (at_z (gd_m (xm x)) i j =? 1) && (at_z (gd_m mp1) i j =? 0) then 1 else 0)).
      { intros i j Hi Hj. specialize (HC i j). rewrite Hu, Hv in HC.
        replace (inside (rowsN c) (colsN c) i j) with true in HC by (unfold inside; lia). exact HC. }
      destruct (mitigation c) eqn:Em.
      + inversion R2; subst r2. rewrite E1 at 1 2 3 4 5. refine (conj eq_refl (conj eq_refl (conj eq_refl (conj _ (conj _ HC'))))); [auto|discriminate].
      + destruct (reset_consecutive_cells c r1 r2 Hr1 R2) as ((p2 & q2 & E2) & _ & HR).
        rewrite E2 at 1 2 3. rewrite E1 at 1 2 3.
        refine (conj eq_refl (conj eq_refl (conj eq_refl (conj _ (conj _ _))))); [congruence|intros _; exact HR|].
        rewrite E2. exact HC'.
      + inversion R2; subst r2. rewrite E1 at 1 2 3 4 5. refine (conj eq_refl (conj eq_refl (conj eq_refl (conj _ (conj _ HC'))))); [auto|discriminate].
    - inv_as T mp1 D. inversion T; subst x1. exists mp1. repeat apply conj; auto. discriminate. }
  destruct HA as (mp1 & D & E1 & HN & HR).
  pose proof (xo_shape _ _ Hx) as Hs.
  pose proof (proj1 (tri_any _ _) (d_write_tri anyfail harmless_any c (xm x) mat m n Hw Hs (or_introl I)) _ D) as [Hs1 _].
  destruct (d_write_frame _ _ _ _ _ _ D) as (gp & gm & sw & EF).
  assert (F1 : ia_p mp1 = ia_p (xm x)) by now rewrite EF.
  assert (F2 : ia_m mp1 = ia_m (xm x)) by now rewrite EF.
  assert (F3 : ia_p0 mp1 = ia_p0 (xm x)) by now rewrite EF.
  assert (F4 : ia_m0 mp1 = ia_m0 (xm x)) by now rewrite EF.
  destruct (digital_only c) eqn:Ed.
  - inversion H; subst x' e'. constructor; rewrite ?E1; auto; try congruence.
  - inv_as H t A. destruct t as [mp2 e2]. rewrite E1 in A. inversion H; subst x' e'; clear H.
    destruct (a_write_cells c mp1 m n e mp2 e2 Hs1 A) as (G1 & G2 & G3 & HE & HX & HI).
    constructor; cbn; auto; try congruence.
    + intros _ Hi i j. specialize (HX Hi i j). rewrite F1, F2, F3, F4 in HX. exact HX.
    + intros Hi. rewrite <- F3, <- F4. auto.
    + intros Hr. destruct (HR Hr) as (r & r' & X1 & X2 & X3 & X4 & X5 & X6 & X7 & X8).
      exists r, r'. rewrite G1, G2. repeat apply conj; auto; tauto.
Qed.

(** ** Read disturb after an MVM *)
Lemma rd_update_cells c rp rm mp r mp' r' : shape c mp -> rdshape c r ->
  rd_update c rp rm mp r = Ok (mp', r') ->
  (exists ip im, mp' = mp <| ia_p := ip |> <| ia_m := im |>) /\ shape c mp' /\
  (exists b, r' = r <| rd_oob := b |>) /\
  (forall i j, if inside (rowsN c) (colsN c) i j && (at_z (gd_p mp) i j =? 1) then
       exists k, rp i j = Ok k /\ at_f (ia_p mp') i j = fmul (LRS c) (fst (g0_factor c r k (at_z (cyc_p r) i j)))
     else at_f (ia_p mp') i j = at_f (ia_p mp) i j) /\
  (if mp_diff mp then
     forall i j, if inside (rowsN c) (colsN c) i j && (at_z (gd_m mp) i j =? 1) then
       exists k, rm i j = Ok k /\ at_f (ia_m mp') i j = fmul (LRS c) (fst (g0_factor c r k (at_z (cyc_m r) i j)))
     else at_f (ia_m mp') i j = at_f (ia_m mp) i j
   else ia_m mp' = ia_m mp) /\
  rd_oob r' = rd_oob r ||
    anyN (rowsN c) (fun i => anyN (colsN c) (fun j => (at_z (gd_p mp) i j =? 1) && worn (at_z (cyc_p r) i j))) ||
    (mp_diff mp &&
     anyN (rowsN c) (fun i => anyN (colsN c) (fun j => (at_z (gd_m mp) i j =? 1) && worn (at_z (cyc_m r) i j)))).
Proof.
  intros Hs Hr H.
  pose proof (proj1 (tri_any _ _) (rd_update_tri anyfail c rp rm mp r Hs Hr
    (fun i j _ _ => proj2 (tri_any _ _) (fun _ _ => I)) (fun i j _ _ => proj2 (tri_any _ _) (fun _ _ => I))) _ H) as HT.
  cbn in HT. destruct HT as (Hs' & _).
  unfold rd_update in H. inv_as H t T. destruct t as [ip b].
  destruct (disturb_cells c r rp _ _ _ _ ip b (sh_gp _ _ Hs) (rs_cp _ _ Hr) (sh_ip _ _ Hs) T) as (W1 & C1 & B1).
  destruct (mp_diff mp).
  - inv_as H t2 T2. destruct t2 as [im b2]. inversion H; subst mp' r'; clear H.
    destruct (disturb_cells c r rm _ _ _ _ im b2 (sh_gm _ _ Hs) (rs_cm _ _ Hr) (sh_im _ _ Hs) T2) as (W2 & C2 & B2).
    split; [eauto|]. split; [exact Hs'|]. split; [eauto|]. split; [exact C1|]. split; [exact C2|].
    cbn [andb]. change (rd_oob (r <| rd_oob := b2 |>)) with b2. rewrite B2, B1. reflexivity.
  - inversion H; subst mp' r'; clear H. split; [exists ip, (ia_m mp); now destruct mp|]. split; [exact Hs'|].
    split; [eauto|]. split; [exact C1|]. split; [reflexivity|].
    cbn [andb]. rewrite orb_false_r. exact B1.
Qed.

(** The trigger of a software refresh. *)
Definition due (c : config) (r : rdm) (reads writes : Z) : bool :=
  fle (fmul (mitigation_fp c) (fst (trans_time r writes))) (fmul (f_of_Z reads) (t_read c)).
Lemma trans_oob r writes : snd (trans_time r writes) = rd_oob r || worn writes.
Proof.
  unfold trans_time, worn. destruct (dle _ _); cbn; [now rewrite orb_true_r|now rewrite orb_false_r].
Qed.
Lemma trans_fst r b writes : fst (trans_time (r <| rd_oob := b |>) writes) = fst (trans_time r writes).
Proof. unfold trans_time. now destruct (dle _ _). Qed.

Lemma rd_step_off c x m n e x' e' : mitigation c = MIT_OFF -> rd_step c x m n e = Ok (x', e') ->
  e' = e /\ update_freq c <> 0 /\
  if n_read x mod update_freq c =? 0 then
    exists r mp' r', xrd x = Some r /\
      rd_update c (fun _ _ => Ok (n_read x)) (fun _ _ => Ok (n_read x)) (xm x) r = Ok (mp', r') /\
      x' = x <| xm := mp' |> <| xrd := Some r' |>
  else x' = x.
Proof.
  intros Em H. unfold rd_step in H. rewrite Em in H. cbv zeta in H. inv_as H u U. unfold at_update in U.
  destruct (update_freq c =? 0) eqn:E0; [discriminate|]. inversion U; subst u; clear U.
  apply Z.eqb_neq in E0.
  destruct (n_read x mod update_freq c =? 0).
  - inv_as H r R. inv_as H t T. destruct t as [mp' r']. inversion H; subst x' e'; clear H.
    split; [reflexivity|]. split; [exact E0|]. exists r, mp', r'. split; [|auto].
    destruct (xrd x); [now inversion R|discriminate].
  - inversion H; subst. auto.
Qed.

Lemma rd_step_soft c x m n e x' e' : mitigation c = SOFTWARE -> rd_step c x m n e = Ok (x', e') ->
  update_freq c <> 0 /\
  if n_read x mod update_freq c =? 0 then
    exists r mp1 r1, xrd x = Some r /\
      rd_update c (fun _ _ => Ok (n_read x)) (fun _ _ => Ok (n_read x)) (xm x) r = Ok (mp1, r1) /\
      let r2 := r1 <| rd_oob := rd_oob r1 || worn (n_write x + n_refresh x) |> in
      if due c r1 (n_read x) (n_write x + n_refresh x)
      then soft_refresh c (x <| xm := mp1 |> <| xrd := Some r2 |>) r2 e = Ok (x', e')
      else x' = x <| xm := mp1 |> <| xrd := Some r2 |> /\ e' = e
  else x' = x /\ e' = e.
Proof.
  intros Em H. unfold rd_step in H. rewrite Em in H. cbv zeta in H. inv_as H u U. unfold at_update in U.
  destruct (update_freq c =? 0) eqn:E0; [discriminate|]. inversion U; subst u; clear U.
  apply Z.eqb_neq in E0. split; [exact E0|].
  destruct (n_read x mod update_freq c =? 0).
  - inv_as H r R. inv_as H t T. destruct t as [mp1 r1].
    exists r, mp1, r1. split; [destruct (xrd x); [now inversion R|discriminate]|]. split; [exact T|]. cbv zeta.
    unfold check_refresh in H. pose proof (trans_oob r1 (n_write x + n_refresh x)) as HO. unfold due.
    destruct (trans_time r1 (n_write x + n_refresh x)) as [tt b]. cbn [fst snd] in *. subst b.
    destruct (fle _ _); [exact H|]. now inversion H.
  - inversion H; subst. auto.
Qed.

Lemma rd_step_cell c x m n e x' e' : mitigation c = CELL_BASED -> rd_step c x m n e = Ok (x', e') ->
  exists r r1, xrd x = Some r /\ update_consecutive c m n r = Ok r1 /\ update_freq c <> 0 /\
  if n_read x mod update_freq c =? 0 then
    exists mp1 r2 mp2 r3 cnt,
      rd_update c (get2 (con_p r1)) (get2 (con_m r1)) (xm x) r1 = Ok (mp1, r2) /\
      cell_refresh c mp1 r2 e = Ok (mp2, r3, cnt, e') /\
      x' = x <| xrd := Some r1 |> <| xm := mp2 |> <| xrd := Some r3 |> <| n_cell := n_cell x + cnt |>
  else x' = x <| xrd := Some r1 |> /\ e' = e.
Proof.
  intros Em H. unfold rd_step in H. rewrite Em in H. cbv zeta in H.
  inv_as H r R. inv_as H r1 R1. exists r, r1. split; [destruct (xrd x); [now inversion R|discriminate]|].
  split; [exact R1|]. inv_as H u U. unfold at_update in U.
  destruct (update_freq c =? 0) eqn:E0; [discriminate|]. inversion U; subst u; clear U.
  apply Z.eqb_neq in E0. split; [exact E0|].
  change (n_read (x <| xrd := Some r1 |>)) with (n_read x) in H.
  destruct (n_read x mod update_freq c =? 0).
  - inv_as H t T. destruct t as [mp1 r2]. inv_as H q Q. destruct q as [[[mp2 r3] cnt] e2].
    inversion H; subst x' e2; clear H. exists mp1, r2, mp2, r3, cnt. auto.
  - inversion H; subst. auto.
Qed.

Lemma soft_refresh_cells c x r e x' e' : shape c (xm x) -> rdshape c r ->
  soft_refresh c x r e = Ok (x', e') ->
  exists r',
    xrd x' = Some r' /\ n_refresh x' = n_refresh x + 1 /\ n_read x' = 0 /\ n_write x' = n_write x /\ n_mvm x' = n_mvm x /\
    rd_oob r' = rd_oob r /\ rd_ett r' = rd_ett r /\ rd_p r' = rd_p r /\ con_p r' = con_p r /\ con_m r' = con_m r /\
    gd_p (xm x') = gd_p (xm x) /\ gd_m (xm x') = gd_m (xm x) /\
    n_cell x' = n_cell x + sumZ (rowsN c) (fun i => sumZ (colsN c) (fun j => if at_z (gd_p (xm x)) i j =? 1 then 1 else 0)) +
      (if mp_diff (xm x)
       then sumZ (rowsN c) (fun i => sumZ (colsN c) (fun j => if at_z (gd_m (xm x)) i j =? 1 then 1 else 0)) else 0) /\
    (forall i j, (i < rowsN c)%nat -> (j < colsN c)%nat ->
      at_z (cyc_p r') i j = at_z (cyc_p r) i j + (if at_z (gd_p (xm x)) i j =? 1 then 1 else 0) /\
      at_z (cyc_m r') i j = at_z (cyc_m r) i j + (if mp_diff (xm x) && (at_z (gd_m (xm x)) i j =? 1) then 1 else 0)) /\
    (quietly c -> e' = e) /\
    (is_int (m_mode c) = false -> programmed c (xm x) (xm x') (Z.to_nat (M c)) (colsN c)).
Proof.
  intros Hs Hr H. unfold soft_refresh in H. inv_as H t T. destruct t as [up k]. inv_as H q Q. destruct q as [um k2].
  inv_as H r1 R1. inv_as H v V. destruct v as [mp2 e2]. inversion H; subst x' e2; clear H.
  destruct (lrs_mask_cells c _ _ _ _ (sh_gp _ _ Hs) T) as (W1 & C1 & K1).
  assert (HQ : wf2 (rowsN c) (colsN c) um /\
    (forall i j, at2 false um i j = inside (rowsN c) (colsN c) i j && (mp_diff (xm x) && (at_z (gd_m (xm x)) i j =? 1))) /\
    k2 = k + (if mp_diff (xm x)
       then sumZ (rowsN c) (fun i => sumZ (colsN c) (fun j => if at_z (gd_m (xm x)) i j =? 1 then 1 else 0)) else 0)).
  { destruct (mp_diff (xm x)).
    - destruct (lrs_mask_cells c _ _ _ _ (sh_gm _ _ Hs) Q) as (W2 & C2 & K2). auto.
    - inversion Q; subst. split; [apply wf2_mat2|]. split; [|lia]. intros i j. cbn [andb]. rewrite andb_false_r.
      destruct (inside (rowsN c) (colsN c) i j) eqn:E; unfold inside in E.
      + now rewrite at2_mat2 by lia.
      + unfold at2, mat2. destruct (Nat.lt_ge_cases i (rowsN c)) as [Hi|Hi].
        * rewrite nth_repeat_lt by auto. apply nth_overflow. rewrite repeat_length. lia.
        * rewrite (nth_overflow (repeat _ _)) by (rewrite repeat_length; auto). now destruct j. }
  destruct HQ as (W2 & C2 & K2).
  destruct (update_cycles_cells c up um r r1 Hr W1 W2 R1) as ((p & q & E1) & _ & HC).
  destruct (a_write_cells c (xm x) _ _ e mp2 e' Hs V) as (G1 & G2 & G3 & HE & HX & _).
  exists r1. cbn. rewrite E1 at 3 4 5 6 7.
  refine (conj eq_refl (conj eq_refl (conj eq_refl (conj eq_refl (conj eq_refl (conj eq_refl (conj eq_refl (conj eq_refl
    (conj eq_refl (conj eq_refl (conj G1 (conj G2 (conj _ (conj _ (conj HE HX))))))))))))))).
  - lia.
  - intros i j Hi Hj. specialize (HC i j). rewrite C1, C2 in HC.
    replace (inside (rowsN c) (colsN c) i j) with true in HC by (unfold inside; lia). exact HC.
Qed.

Lemma cell_refresh_cells c mp r e mp' r' cnt e' : shape c mp -> rdshape c r ->
  cell_refresh c mp r e = Ok (mp', r', cnt, e') ->
  (exists ip im, mp' = mp <| ia_p := ip |> <| ia_m := im |>) /\
  rd_oob r' = rd_oob r /\ rd_ett r' = rd_ett r /\ rd_p r' = rd_p r /\
  (quietly c -> e' = e) /\
  (forall i j,
    if inside (rowsN c) (colsN c) i j && (at_z (gd_p mp) i j =? 1) && outside c (at_f (ia_p mp) i j) then
      noisy c (LRS c) 1 (at_f (ia_p mp') i j) /\ at_z (cyc_p r') i j = at_z (cyc_p r) i j + 1 /\ at_z (con_p r') i j = 0
    else at_f (ia_p mp') i j = at_f (ia_p mp) i j /\ at_z (cyc_p r') i j = at_z (cyc_p r) i j /\
         at_z (con_p r') i j = at_z (con_p r) i j) /\
  (if mp_diff mp then
    forall i j,
    if inside (rowsN c) (colsN c) i j && (at_z (gd_m mp) i j =? 1) && outside c (at_f (ia_m mp) i j) then
      noisy c (LRS c) 1 (at_f (ia_m mp') i j) /\ at_z (cyc_m r') i j = at_z (cyc_m r) i j + 1 /\ at_z (con_m r') i j = 0
    else at_f (ia_m mp') i j = at_f (ia_m mp) i j /\ at_z (cyc_m r') i j = at_z (cyc_m r) i j /\
         at_z (con_m r') i j = at_z (con_m r) i j
   else ia_m mp' = ia_m mp /\ cyc_m r' = cyc_m r /\ con_m r' = con_m r) /\
  cnt = sumZ (rowsN c) (fun i => sumZ (colsN c) (fun j =>
     if (at_z (gd_p mp) i j =? 1) && outside c (at_f (ia_p mp) i j) then 1 else 0)) +
    (if mp_diff mp then sumZ (rowsN c) (fun i => sumZ (colsN c) (fun j =>
     if (at_z (gd_m mp) i j =? 1) && outside c (at_f (ia_m mp) i j) then 1 else 0)) else 0).
Proof.
  intros Hs Hr H. unfold cell_refresh in H. inv_as H t T. destruct t as [[[[ip cp] kp] c1] k1].
  destruct (refresh_cells_cells c _ _ _ _ _ _ _ _ _ _ _ (sh_gp _ _ Hs) (sh_ip _ _ Hs) (rs_cp _ _ Hr) (rs_kp _ _ Hr) T)
    as (W1 & W2 & W3 & HE & HK & HC).
  destruct (mp_diff mp).
  - inv_as H q Q. destruct q as [[[[im cm] km] c2] k2].
    destruct (refresh_cells_cells c _ _ _ _ _ _ _ _ _ _ _ (sh_gm _ _ Hs) (sh_im _ _ Hs) (rs_cm _ _ Hr) (rs_km _ _ Hr) Q)
      as (V1 & V2 & V3 & HE2 & HK2 & HC2).
    inversion H; subst mp' r' cnt e'; clear H.
    refine (conj _ (conj eq_refl (conj eq_refl (conj eq_refl (conj _ (conj _ (conj _ _))))))).
    + eauto.
    + intros [A B]. rewrite HE2, HE by auto. now destruct e.
    + exact HC.
    + exact HC2.
    + lia.
  - inversion H; subst mp' r' cnt e'; clear H.
    refine (conj _ (conj eq_refl (conj eq_refl (conj eq_refl (conj _ (conj _ (conj _ _))))))).
    + exists ip, (ia_m mp). now destruct mp.
    + intros [A B]. rewrite HE by auto. now destruct e.
    + exact HC.
    + auto.
    + lia.
Qed.

(** ** From calls to the crossbar *)
Lemma write_inv w a w' r : step w a = Ok (w', r) -> wrote a r = true ->
  exists x x' mat m n, wx w = Some x /\ wx w' = Some x' /\ wcfg w' = wcfg w /\ wdata w' = wdata w /\
    (forall i j, covers a i j = inside m n i j) /\ r = RCode 0 /\
    (a = CpyMtrx mat (Z.of_nat m) (Z.of_nat n)) /\
    xwrite (wcfg w) x mat m n (wenv w) = Ok (x', wenv w').
Proof.
  intros H Hr. destruct a; try discriminate Hr. cbn in H. unfold cpy_mtrx in H.
  destruct (wx w) as [x|] eqn:Ex; [|inversion H; subst; discriminate].
  destruct (too_big _ _ _); [inversion H; subst; discriminate|].
  inv_as H d D. destruct d as [m' n']. inv_as H t T. destruct t as [x' e']. inversion H; subst; clear H.
  unfold dims in D. destruct ((m <? 0) || (n <? 0)) eqn:E; [discriminate|]. inversion D; subst; clear D.
  exists x, x', mat, (Z.to_nat m), (Z.to_nat n). cbn. repeat apply conj; auto.
  - intros i j. unfold inside. lia.
  - f_equal; lia.
Qed.
Lemma mvm_inv w a w' r : step w a = Ok (w', r) -> multiplied a r = true ->
  exists x x' res vec mat m n l res', wx w = Some x /\ wx w' = Some x' /\ wcfg w' = wcfg w /\ wdata w' = wdata w /\
    (forall i j, covers a i j = inside m n i j) /\ r = RRes 0 res' /\
    xmvm (wcfg w) x res vec mat m n l (wenv w) = Ok (res', x', wenv w').
Proof.
  intros H Hr. destruct a; try discriminate Hr; cbn in H.
  - unfold exe_mvm in H. destruct (wx w) as [x|] eqn:Ex; [|inversion H; subst; discriminate].
    destruct (too_big _ _ _); [inversion H; subst; discriminate|].
    inv_as H d D. destruct d as [m' n']. inv_as H t T. destruct t as [[r' x'] e']. inversion H; subst; clear H.
    unfold dims in D. destruct ((m <? 0) || (n <? 0)) eqn:E; [discriminate|]. inversion D; subst; clear D.
    exists x, x', res, vec, mat, (Z.to_nat m), (Z.to_nat n), l, r'. cbn. repeat apply conj; auto.
    intros i j. unfold inside. lia.
  - unfold py_mvm in H. destruct (wx w) as [x|] eqn:Ex; [|discriminate]. cbn [deref bind] in H.
    inv_as H d D. destruct d as [m' n']. inv_as H t T. destruct t as [[r' x'] e']. inversion H; subst; clear H.
    unfold dims in D. destruct ((m <? 0) || (n <? 0)) eqn:E; [discriminate|]. inversion D; subst; clear D.
    exists x, x', res, vec, mat, (Z.to_nat m), (Z.to_nat n), "Unknown"%string, r'. cbn. repeat apply conj; auto.
    intros i j. unfold inside. lia.
Qed.

Lemma xmvm_digital c x res vec mat m n l e r x' e' : cfg_wf c -> xok c x -> digital_only c = true ->
  xmvm c x res vec mat m n l e = Ok (r, x', e') ->
  keeps (xm x) (xm x') /\ xrd x' = xrd x /\ e' = e /\ n_read x' = n_read x + 1 /\ n_write x' = n_write x /\
  n_refresh x' = n_refresh x /\ n_cell x' = n_cell x.
Proof.
  intros Hw Hx Hd H. unfold xmvm in H. rewrite Hd in H. cbv zeta in H.
  change (xm (x <| n_mvm := n_mvm x + 1 |> <| n_read := n_read x + 1 |>)) with (xm x) in H.
  inv_as H t T. destruct t as [r' mp']. inversion H; subst; clear H.
  pose proof (proj1 (tri_any _ _) (d_mvm_tri anyfail harmless_any c (xm x) res vec mat m n Hw (xo_shape _ _ Hx) (or_introl I)) _ T) as HT.
  cbn in HT. destruct HT as (_ & K & _). cbn. repeat apply conj; auto.
Qed.
End SF.
