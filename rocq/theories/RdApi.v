(** Read disturb at the level of API calls, in any arithmetic. *)
From Coq Require Import String List ZArith Bool Arith Lia ZifyBool ZifyNat.
From RecordUpdate Require Import RecordSet.
From Verif Require Import Base Lib Hoare Machine Json Config Histogram Adc ReadDisturb Parasitics
  Mapper IntMappers BnnMappers TnnMappers Crossbar Api WriteProofs Shape MvmShape AnaShape ConfigProofs
  Reach Spec DigApi CfgProps Cells Invar StepFacts ApiProps NoiseProps NoiseReal RdSpec RdProps.
Import ListNotations RecordSetNotations.
Local Open Scope Z_scope.
Local Open Scope out_scope.

Section G.
Context {MC : Machine}.
Notation at_f := (at2 f0).
Notation at_z := (at2 0).

Lemma get_cyc w x r (p : bool) : wx w = Some x -> xrd x = Some r ->
  step w (GetMat (if p then CycP else CycM)) = Ok (w, RMat (if p then cyc_p r else cyc_m r)).
Proof. intros Hx Hr. cbn [step]. rewrite Hx. cbn [checked bind]. destruct p; cbn [get_mat]; rewrite Hr; reflexivity. Qed.
Lemma stored_gd w x (p : bool) i j : wx w = Some x ->
  stored (if p then GdP else GdM) w i j = at_z (if p then gd_p (xm x) else gd_m (xm x)) i j.
Proof. intros Hx. unfold stored. cbn [step]. rewrite Hx. now destruct p. Qed.
Lemma stored_cyc w x r (p : bool) i j : wx w = Some x -> xrd x = Some r ->
  stored (if p then CycP else CycM) w i j = at_z (if p then cyc_p r else cyc_m r) i j.
Proof. intros Hx Hr. unfold stored. rewrite (get_cyc w x r p Hx Hr). now destruct p. Qed.

(** ** C35 *)
Definition fixed (c : config) : Prop := mitigation c = MIT_OFF \/ digital_only c = true.

Lemma cyc_change c x c' x' r : cfg_wf c -> xok c x -> consts c x -> fixed c -> xrd x = Some r -> change c x c' x' ->
  fixed c' /\ exists r', xrd x' = Some r' /\ forall i j,
    at_z (cyc_p r') i j = at_z (cyc_p r) i j +
      (if (at_z (gd_p (xm x)) i j =? 1) && (at_z (gd_p (xm x')) i j =? 0) then 1 else 0) /\
    at_z (cyc_m r') i j = at_z (cyc_m r) i j +
      (if (at_z (gd_m (xm x)) i j =? 1) && (at_z (gd_m (xm x')) i j =? 0) then 1 else 0).
Proof.
  intros Hw Hx HK HF Hr H.
  assert (NZ : forall z, (z =? 1) && (z =? 0) = false) by (intros z; lia).
  destruct H as [c' HC|mat m n e x' e' H|res vec mat m n l e rr x' e' H].
  - split; [unfold fixed in *; apply core_mode in HC as (_ & _ & -> & -> & _); exact HF|].
    exists r. split; [exact Hr|]. intros i j. rewrite !NZ. split; lia.
  - split; [exact HF|]. pose proof (xwrite_written _ _ _ _ _ _ _ _ Hw Hx H) as W. destruct (HK r Hr) as [Er _].
    destruct (wr_rd _ _ _ _ _ _ _ W Er) as (r0 & r' & R1 & R2 & _ & _ & _ & _ & _ & HC).
    assert (r0 = r) by congruence. subst r0. exists r'. split; [exact R2|]. intros i j.
    destruct (inside (rowsN c) (colsN c) i j) eqn:Ei; [apply HC; unfold inside in Ei; lia|].
    pose proof (proj1 (xwrite_ok _ _ _ _ _ _ _ _ Hw Hx H)) as Hx'.
    pose proof (xo_rd _ _ Hx r Hr) as S1. pose proof (xo_rd _ _ Hx' r' R2) as S2.
    pose proof (xo_shape _ _ Hx) as S3.
    rewrite (at2_out 0 _ _ _ _ _ (rs_cp _ _ S1) Ei), (at2_out 0 _ _ _ _ _ (rs_cp _ _ S2) Ei),
            (at2_out 0 _ _ _ _ _ (rs_cm _ _ S1) Ei), (at2_out 0 _ _ _ _ _ (rs_cm _ _ S2) Ei),
            (at2_out 0 _ _ _ _ _ (sh_gp _ _ S3) Ei), (at2_out 0 _ _ _ _ _ (sh_gm _ _ S3) Ei). cbn. auto.
  - split; [exact HF|]. destruct (digital_only c) eqn:Ed.
    + destruct (xmvm_digital _ _ _ _ _ _ _ _ _ _ _ _ Hw Hx Ed H) as (K & E & _). exists r. split; [congruence|].
      intros i j. destruct K. rewrite kp_gp, kp_gm, !NZ. split; lia.
    + destruct HF as [Em|]; [|congruence]. destruct (HK r Hr) as [Er _].
      destruct (mvm_off c x res vec mat m n l e rr x' e' Hw Hx Ed Er H Em)
        as (r0 & r' & R1 & R2 & _ & G1 & G2 & _ & _ & _ & _ & _ & _ & _ & HR).
      assert (r0 = r) by congruence. subst r0. exists r'. split; [exact R2|]. intros i j. rewrite G1, G2, !NZ.
      destruct (_ =? 0); destruct HR as [-> _]; split; symmetry; exact (Z.add_0_r _).
Qed.

Lemma cyc_run (p : bool) h : forall w w' rs x r, reach w -> wx w = Some x -> xrd x = Some r -> fixed (wcfg w) ->
  Forall no_create h -> run w h = Ok (w', rs) ->
  forall i j, stored (if p then CycP else CycM) w' i j =
    stored (if p then CycP else CycM) w i j + resets (if p then GdP else GdM) i j w h.
Proof.
  induction h as [|a h IH]; intros w w' rs x r Hre Hx Hr HF HN H i j.
  - cbn in H. inversion H; subst. cbn [resets]. lia.
  - cbn [run] in H. inv_as H t Ht. destruct t as [w1 r1]. inv_as H t2 Ht2. destruct t2 as [w2 rs2]. inversion H; subst; clear H.
    inversion HN; subst. pose proof (reach_good _ Hre) as Hg.
    destruct (no_create_step _ _ _ _ _ Hg H1 Hx Ht) as (Hg1 & Hexc & x1 & X1 & C).
    pose proof (reach_consts w x Hre Hx) as HK.
    destruct (cyc_change _ _ _ _ r (good_wf _ Hg) (g_x _ Hg _ Hx) HK HF Hr C) as (HF1 & r' & R' & HC).
    assert (Hre1 : reach w1) by (eapply reach_step; eauto).
    rewrite (IH w1 w' rs2 x1 r' Hre1 X1 R' HF1 H2 Ht2 i j). cbn [resets]. rewrite Ht.
    rewrite (stored_cyc w1 x1 r' p i j X1 R'), (stored_cyc w x r p i j Hx Hr).
    rewrite (stored_gd w x p i j Hx), (stored_gd w1 x1 p i j X1).
    destruct (HC i j) as [H5 H6]. destruct p; lia.
Qed.
Lemma new_rd c x : xbar_new c = Ok x -> read_disturb c = true ->
  xrd x = Some (rd_new c (V_read c)).
Proof. intros H Hr. unfold xbar_new in H. inv_as H mp A. inversion H; subst. cbn. now rewrite Hr. Qed.
Lemma set_new w0 s w : step w0 (SetConfig s) = Ok (w, RUnit) -> exists x, wx w = Some x /\ xbar_new (wcfg w) = Ok x.
Proof.
  assert (HR : forall v v', replace_xbar v RUnit = Ok (v', RUnit) -> exists x, wx v' = Some x /\ xbar_new (wcfg v') = Ok x).
  { intros v v' H. unfold replace_xbar in H. destruct (xbar_new (wcfg v)) as [x| | |] eqn:E; try discriminate.
    inv_as H u U. inversion H; subst. exists x. auto. }
  cbn. unfold set_config. intros H. inv_as H u U. destruct s; try discriminate.
  - now apply HR in H.
  - inv_as H c C. now apply HR in H.
Qed.
Theorem cycles_count w0 s w h w' rs (p : bool) : reach w0 -> step w0 (SetConfig s) = Ok (w, RUnit) ->
  read_disturb (wcfg w) = true -> (mitigation (wcfg w) = MIT_OFF \/ digital_only (wcfg w) = true) ->
  Forall no_create h -> run w h = Ok (w', rs) ->
  forall i j, stored (if p then CycP else CycM) w' i j = resets (if p then GdP else GdM) i j w h.
Proof.
  intros Hre HS Hrd HF HN H i j. destruct (set_new _ _ _ HS) as (x & Ex & Nx). pose proof (new_rd _ _ Nx Hrd) as Er.
  assert (Hre1 : reach w) by (eapply reach_step; eauto; discriminate).
  rewrite (cyc_run p h w w' rs x _ Hre1 Ex Er HF HN H i j), (stored_cyc w x _ p i j Ex Er).
  replace (at_z (if p then cyc_p _ else cyc_m _) i j) with 0; [lia|].
  destruct p; cbn; symmetry; destruct (at2_mat2_or (rowsN (wcfg w)) (colsN (wcfg w)) 0 0 i j); auto.
Qed.

(** ** C37, C61 *)
Lemma xnn_of_rd w : reach w -> digital_only (wcfg w) = false -> read_disturb (wcfg w) = true -> is_int (m_mode (wcfg w)) = false.
Proof.
  intros Hr Hd Hrd. destruct (is_int (m_mode (wcfg w))) eqn:E; [|reflexivity].
  pose proof (rd_int_off _ (good_origin _ (reach_good _ Hr)) E Hd). congruence.
Qed.
Lemma both_diff m : is_int m = false -> both_arrays m -> is_diff m = true.
Proof. now destruct m. Qed.

(** Reads a cell has seen, as far as the model looks at them. *)
Definition reads_of (p : bool) (c : config) (x : xbar) (r : rdm) (i j : nat) : Z :=
  match mitigation c with
  | CELL_BASED => cell (if p then con_p r else con_m r) i j
  | _ => n_read x
  end.

Theorem lrs_update : forall w x r a w' ans x' r' (p : bool),
  reach w -> wx w = Some x -> xrd x = Some r -> step w a = Ok (w', ans) -> multiplied a ans = true ->
  wx w' = Some x' -> xrd x' = Some r' -> updates (wcfg w) (n_read x + 1) = true ->
  (p = false -> both_arrays (m_mode (wcfg w))) ->
  forall i j, cell (if p then gd_p (xm x') else gd_m (xm x')) i j = 1 ->
  cell (if p then cyc_p r' else cyc_m r') i j = cell (if p then cyc_p r else cyc_m r) i j ->
  current (if p then ia_p (xm x') else ia_m (xm x')) i j =
    fmul (LRS (wcfg w)) (m_fading (V_read (wcfg w)) (t_read (wcfg w)) (reads_of p (wcfg w) x' r' i j)
                                  (cell (if p then cyc_p r' else cyc_m r') i j)).
Proof.
  intros w x r a w' ans x' r' p Hre Hx Hr H Hm Hx' Hr' Hu Hb i j Hg Hc.
  destruct (mvm_inv _ _ _ _ H Hm) as (y & y' & res & vec & mat & m & n & l & res' & Y & Y' & Ec & _ & _ & _ & HX).
  assert (y = x) by congruence. assert (y' = x') by congruence. subst y y'.
  pose proof (reach_consts _ _ Hre Hx) as HK. pose proof (reach_good _ Hre) as Hgd.
  pose proof (good_wf _ Hgd) as Hw. pose proof (g_x _ Hgd _ Hx) as Hxo.
  unfold updates in Hu. set (c := wcfg w) in *.
  apply andb_prop in Hu as [Hu Hf]. apply andb_prop in Hu as [Hrd Hd]. apply negb_true_iff in Hd.
  pose proof (xnn_of_rd w Hre Hd Hrd) as Hi. fold c in Hi.
  assert (Hdf : p = false -> is_diff (m_mode c) = true) by (intros E; apply both_diff; auto).
  assert (IN : forall R C (g : list (list Z)) a b, wf2 R C g -> at_z g a b = 1 -> inside R C a b = true).
  { intros R C g a0 b0 W E. destruct (inside R C a0 b0) eqn:Ei; [reflexivity|]. rewrite (at2_out 0 _ _ _ _ _ W Ei) in E. discriminate. }
  pose proof (xo_shape _ _ Hxo) as Hs.
  change cell with (@at2 Z 0) in Hg, Hc. change (current (if p then ia_p (xm x') else ia_m (xm x')) i j)
    with (at_f (if p then ia_p (xm x') else ia_m (xm x')) i j). unfold reads_of.
  change cell with (@at2 Z 0).
  assert (HFd : forall kp km ip im, at_z (if p then gd_p (xm x) else gd_m (xm x)) i j = 1 -> fades c x m n r kp km ip im ->
    at_f (if p then ip else im) i j = fmul (LRS c) (m_fading (V_read c) (t_read c) ((if p then kp else km) i j)
       (at_z (if p then cyc_p r else cyc_m r) i j))).
  { intros kp km ip im Eg [F1 F2]. destruct p.
    - rewrite F1, (IN _ _ _ _ _ (sh_gp _ _ Hs) Eg), Eg. cbn [andb Z.eqb]. now rewrite (fac_spec c x r _ _ HK Hr).
    - rewrite F2, (IN _ _ _ _ _ (sh_gm _ _ Hs) Eg), Eg, (Hdf eq_refl). cbn [andb Z.eqb]. now rewrite (fac_spec c x r _ _ HK Hr). }
  destruct (mitigation c) eqn:Em.
  - destruct (mvm_soft c x res vec mat m n l (wenv w) res' x' (wenv w') Hw Hxo Hd Hrd HX Em)
      as (r0 & r1 & R1 & R2 & Hrs & G1 & G2 & _ & _ & _ & _ & _ & _ & _ & HR).
    assert (r0 = r) by congruence. assert (r1 = r') by congruence. subst r0 r1. rewrite G1, G2 in Hg. rewrite Hf in HR. cbn [andb] in HR.
    destruct (due _ _ _ _).
    + exfalso. destruct HR as (_ & _ & _ & HR & _).
      assert (HI : inside (rowsN c) (colsN c) i j = true).
      { destruct p; eapply IN; [exact (sh_gp _ _ Hs)|exact Hg|exact (sh_gm _ _ Hs)|exact Hg]. }
      unfold inside in HI. destruct (HR i j) as [H1 H2]; [lia|lia|]. destruct p.
      * rewrite Hg in H1. cbn in H1. lia.
      * rewrite (Hdf eq_refl), Hg in H2. cbn in H2. lia.
    + destruct HR as (-> & _ & _ & _ & _ & -> & -> & HR). specialize (HFd _ _ _ _ Hg HR). destruct p; exact HFd.
  - destruct (mvm_cell c x res vec mat m n l (wenv w) res' x' (wenv w') Hw Hxo Hd Hrd HX Em)
      as (r0 & r1 & R1 & R2 & Hrs & G1 & G2 & _ & _ & _ & _ & _ & _ & _ & _ & HR). cbv zeta in HR.
    assert (r0 = r) by congruence. assert (r1 = r') by congruence. subst r0 r1. rewrite G1, G2 in Hg. rewrite Hf in HR.
    destruct HR as (_ & ip & im & HF & HP & HM & _). specialize (HFd _ _ _ _ Hg HF).
    rewrite Hc. destruct p.
    + specialize (HP i j). split_if HP; [destruct HP as (_ & HP & _); lia|]. destruct HP as (-> & _ & ->). exact HFd.
    + specialize (HM i j). split_if HM; [destruct HM as (_ & HM & _); lia|]. destruct HM as (-> & _ & ->). exact HFd.
  - destruct (mvm_off c x res vec mat m n l (wenv w) res' x' (wenv w') Hw Hxo Hd Hrd HX Em)
      as (r0 & r1 & R1 & R2 & Hrs & G1 & G2 & _ & _ & E & _ & _ & _ & _ & HR).
    assert (r0 = r) by congruence. assert (r1 = r') by congruence. subst r0 r1. rewrite G1, G2 in Hg. rewrite Hf in HR.
    destruct HR as (_ & HF). specialize (HFd _ _ _ _ Hg HF). rewrite E, Hc. destruct p; exact HFd.
Qed.

Theorem off_lrs : forall w a w' ans x' k (p : bool),
  reach w -> mitigation (wcfg w) = MIT_OFF -> step w a = Ok (w', ans) -> multiplied a ans = true -> wx w' = Some x' ->
  step w' (GetNum NRead) = Ok (w', RNum k) -> updates (wcfg w) k = true ->
  (p = false -> both_arrays (m_mode (wcfg w))) ->
  forall i j, cell (if p then gd_p (xm x') else gd_m (xm x')) i j = 1 ->
  current (if p then ia_p (xm x') else ia_m (xm x')) i j =
    fmul (LRS (wcfg w)) (m_fading (V_read (wcfg w)) (t_read (wcfg w)) k (stored (if p then CycP else CycM) w' i j)).
Proof.
  intros w a w' ans x' k p Hre Em H Hm Hx' Hk Hu Hb i j Hg.
  destruct (mvm_inv _ _ _ _ H Hm) as (x & y' & res & vec & mat & m & n & l & res' & Hx & Y' & Ec & _ & _ & _ & HX).
  assert (y' = x') by congruence. subst y'.
  pose proof (reach_good _ Hre) as Hgd. pose proof (good_wf _ Hgd) as Hw. pose proof (g_x _ Hgd _ Hx) as Hxo.
  pose proof Hu as Hu0. unfold updates in Hu0.
  apply andb_prop in Hu0 as [Hu0 Hf]. apply andb_prop in Hu0 as [Hrd Hd]. apply negb_true_iff in Hd.
  destruct (mvm_off (wcfg w) x res vec mat m n l (wenv w) res' x' (wenv w') Hw Hxo Hd Hrd HX Em)
      as (r & r' & R1 & R2 & Hrs & G1 & G2 & _ & _ & E & _ & _ & _ & _ & HR).
  cbn [step] in Hk. rewrite Hx' in Hk. cbn [checked bind get_num] in Hk.
  assert (k = n_read x + 1) by (inversion Hk; congruence). subst k.
  assert (HC : cyc_p r' = cyc_p r /\ cyc_m r' = cyc_m r).
  { destruct (_ =? 0); destruct HR as [-> _]; auto. }
  destruct HC as [C1 C2].
  rewrite (lrs_update w x r a w' ans x' r' p Hre Hx R1 H Hm Hx' R2 Hu Hb i j Hg) by (now destruct p; rewrite ?C1, ?C2).
  unfold reads_of. rewrite Em, E. rewrite (stored_cyc w' x' r' p i j Hx' R2). reflexivity.
Qed.

(** Cells that hold no low-resistive state, and second arrays that do not take part. *)
Definition kept_alone (c : config) (x : xbar) (c' : config) (x' : xbar) : Prop :=
  m_mode c' = m_mode c /\ gd_p (xm x') = gd_p (xm x) /\ gd_m (xm x') = gd_m (xm x) /\ forall i j,
  (at_z (gd_p (xm x)) i j <> 1 -> at_f (ia_p (xm x')) i j = at_f (ia_p (xm x)) i j) /\
  (at_z (gd_m (xm x)) i j <> 1 \/ is_diff (m_mode c) = false -> at_f (ia_m (xm x')) i j = at_f (ia_m (xm x)) i j).
Definition settledQ (c : config) (x : xbar) : Prop :=
  anchored c x /\ digital_only c = false /\ is_int (m_mode c) = false /\ (read_disturb c = false \/ mitigation c <> SOFTWARE).
Lemma alone_run w h w' rs x : reach w -> wx w = Some x -> digital_only (wcfg w) = false -> is_int (m_mode (wcfg w)) = false ->
  (read_disturb (wcfg w) = false \/ mitigation (wcfg w) <> SOFTWARE) -> Forall quiet h -> run w h = Ok (w', rs) ->
  exists x', wx w' = Some x' /\ kept_alone (wcfg w) x (wcfg w') x'.
Proof.
  intros Hre Hx Hd Hi Hm HF H. pose proof (reach_anchored _ _ Hre Hx) as HA.
  destruct (run_quietQ settledQ kept_alone h) with (w := w) (w' := w') (rs := rs) (x := x) as (_ & x' & X' & HP & _);
    auto using reach_good.
  - intros c y. repeat apply conj; auto.
  - intros c y c1 y1 c2 y2 (A0 & A1 & A2 & A3) (B0 & B1 & B2 & B3).
    refine (conj _ (conj _ (conj _ _))); try congruence. intros i j. specialize (A3 i j). specialize (B3 i j).
    rewrite A1, A2, A0 in B3. destruct A3 as [A3 A4], B3 as [B3 B4]. split; intros Hz.
    + rewrite B3, A3; auto.
    + rewrite B4, A4; auto.
  - intros c y c' y' Hw Hy (Q1 & Q2 & Q3 & Q4) L. destruct L as [c' L|res vec mat m n l e r y' e' L].
    + pose proof (core_mode _ _ L) as (E1 & E2 & E3 & E4 & _). split; [split; [exact E1|]; auto|].
      unfold settledQ, anchored in *. rewrite E1, E2, E3, E4. auto.
    + destruct (mvm_anchored _ _ _ _ _ _ _ _ _ _ _ _ Hw Hy Q2 Q3 Q1 L) as (G1 & G2 & HA' & HI). destruct (HI Q4) as [I1 I2].
      split; [|repeat apply conj; auto]. refine (conj eq_refl (conj G1 (conj G2 _))). intros i j.
      destruct (Q1 Q2 Q3 i j) as [A1 A2]. destruct (HA' Q2 Q3 i j) as [B1 B2]. rewrite G1, I1 in B1. rewrite G2, I2 in B2. split; intros Hz.
      * rewrite A1, B1; auto.
      * rewrite A2, B2; auto.
  - repeat apply conj; auto.
  - eauto.
Qed.

Theorem off_hrs : forall w h w' rs x, reach w -> wx w = Some x ->
  digital_only (wcfg w) = false -> read_disturb (wcfg w) = true -> mitigation (wcfg w) <> SOFTWARE ->
  Forall quiet h -> run w h = Ok (w', rs) ->
  exists x', wx w' = Some x' /\ forall i j,
    (cell (gd_p (xm x)) i j <> 1 -> current (ia_p (xm x')) i j = current (ia_p (xm x)) i j) /\
    (cell (gd_m (xm x)) i j <> 1 -> current (ia_m (xm x')) i j = current (ia_m (xm x)) i j).
Proof.
  intros w h w' rs x Hre Hx Hd Hrd Hm HF H. pose proof (xnn_of_rd w Hre Hd Hrd) as Hi.
  destruct (alone_run w h w' rs x Hre Hx Hd Hi (or_intror Hm) HF H) as (x' & X' & _ & _ & _ & HP).
  exists x'. split; [exact X'|]. intros i j. destruct (HP i j) as [H1 H2]. split; auto.
Qed.

(** ** C40 *)
Definition cyc_m_same (c : config) (x : xbar) (c' : config) (x' : xbar) : Prop :=
  is_diff (m_mode c) = false -> forall r, xrd x = Some r ->
  is_diff (m_mode c') = false /\ exists r', xrd x' = Some r' /\ forall i j, at_z (cyc_m r') i j = at_z (cyc_m r) i j.
Definition rdQ (c : config) (x : xbar) : Prop := read_disturb c = true /\ digital_only c = false.
Lemma cyc_m_run w h w' rs x : reach w -> wx w = Some x -> digital_only (wcfg w) = false -> read_disturb (wcfg w) = true ->
  Forall quiet h -> run w h = Ok (w', rs) -> exists x', wx w' = Some x' /\ cyc_m_same (wcfg w) x (wcfg w') x'.
Proof.
  intros Hre Hx Hd Hrd HF H.
  destruct (run_quietQ rdQ cyc_m_same h) with (w := w) (w' := w') (rs := rs) (x := x) as (_ & x' & X' & HP & _);
    auto using reach_good; [| | | now split |eauto].
  - intros c y Hdf r Hr. eauto.
  - intros c y c1 y1 c2 y2 A B Hdf r Hr. destruct (A Hdf r Hr) as (Hdf1 & r1 & R1 & E1).
    destruct (B Hdf1 r1 R1) as (Hdf2 & r2 & R2 & E2). split; [exact Hdf2|]. exists r2. split; [exact R2|]. intros i j. now rewrite E2.
  - intros c y c' y' Hw Hy (Q1 & Q2) L. destruct L as [c' L|res vec mat m n l e rr y' e' L].
    + pose proof (core_mode _ _ L) as (E1 & E2 & E3 & _). unfold rdQ. rewrite E2, E3. split; [|auto].
      intros Hdf r Hr. rewrite E1. eauto.
    + split; [|now split]. intros Hdf r Hr. split; [exact Hdf|].
      pose proof (proj1 (xmvm_ok _ _ _ _ _ _ _ _ _ _ _ _ Hw Hy L)) as Hy'.
      destruct (mitigation c) eqn:Em.
      * destruct (mvm_soft c y res vec mat m n l e rr y' e' Hw Hy Q2 Q1 L Em)
          as (r0 & r1 & R1 & R2 & Hrs & _ & _ & _ & _ & _ & _ & _ & _ & _ & HR).
        assert (r0 = r) by congruence. subst r0. exists r1. split; [exact R2|]. intros i j.
        destruct (_ && _).
        -- destruct HR as (_ & _ & _ & HR & _). destruct (inside (rowsN c) (colsN c) i j) eqn:Ei.
           ++ destruct (HR i j) as [_ HR2]; try (unfold inside in Ei; lia). rewrite Hdf in HR2. cbn in HR2. unfold at2 in *. lia.
           ++ pose proof (xo_rd _ _ Hy' r1 R2) as S2.
              now rewrite (at2_out 0 _ _ _ _ _ (rs_cm _ _ S2) Ei), (at2_out 0 _ _ _ _ _ (rs_cm _ _ Hrs) Ei).
        -- destruct HR as (_ & _ & _ & _ & _ & _ & -> & _). reflexivity.
      * destruct (mvm_cell c y res vec mat m n l e rr y' e' Hw Hy Q2 Q1 L Em)
          as (r0 & r1 & R1 & R2 & Hrs & _ & _ & _ & _ & _ & _ & _ & _ & _ & _ & HR). cbv zeta in HR. destruct HR as (_ & HR).
        assert (r0 = r) by congruence. subst r0. exists r1. split; [exact R2|]. intros i j.
        destruct (_ =? 0).
        -- destruct HR as (ip & im & _ & _ & HR & _). specialize (HR i j). rewrite Hdf in HR. cbn [andb] in HR. apply HR.
        -- destruct HR as (_ & -> & _). reflexivity.
      * destruct (mvm_off c y res vec mat m n l e rr y' e' Hw Hy Q2 Q1 L Em)
          as (r0 & r1 & R1 & R2 & Hrs & _ & _ & _ & _ & _ & _ & _ & _ & _ & HR).
        assert (r0 = r) by congruence. subst r0. exists r1. split; [exact R2|]. intros i j.
        destruct (_ =? 0); destruct HR as [-> _]; reflexivity.
Qed.
Theorem second_array : forall w h w' rs x, reach w -> wx w = Some x ->
  digital_only (wcfg w) = false -> read_disturb (wcfg w) = true ->
  m_mode (wcfg w) = BNN_V \/ m_mode (wcfg w) = TNN_IV \/ m_mode (wcfg w) = TNN_V ->
  Forall quiet h -> run w h = Ok (w', rs) ->
  exists x', wx w' = Some x' /\
    (forall i j, stored CycM w' i j = stored CycM w i j) /\
    (mitigation (wcfg w) <> SOFTWARE -> forall i j, current (ia_m (xm x')) i j = current (ia_m (xm x)) i j).
Proof.
  intros w h w' rs x Hre Hx Hd Hrd Hm HF H. pose proof (xnn_of_rd w Hre Hd Hrd) as Hi.
  assert (Hdf : is_diff (m_mode (wcfg w)) = false) by (destruct Hm as [-> |[-> | ->]]; reflexivity).
  destruct (cyc_m_run w h w' rs x Hre Hx Hd Hrd HF H) as (x' & X' & HC). exists x'. split; [exact X'|]. split.
  - pose proof (xo_some _ _ (g_x _ (reach_good _ Hre) _ Hx) Hrd) as HS. destruct (xrd x) as [r|] eqn:Er; [|congruence].
    destruct (HC Hdf r Er) as (_ & r' & R' & E). intros i j.
    rewrite (stored_cyc w' x' r' false i j X' R'), (stored_cyc w x r false i j Hx Er). apply E.
  - intros Hs. destruct (alone_run w h w' rs x Hre Hx Hd Hi (or_intror Hs) HF H) as (x1 & X1 & _ & _ & _ & HP).
    assert (x1 = x') by congruence. subst x1. intros i j. apply HP. auto.
Qed.

(** ** C41 *)
Lemma lrs_worn_spec c g cyc : wf2 (rowsN c) (colsN c) g -> lrs_worn c g cyc = true <-> some_invalid g cyc.
Proof.
  intros Hg. unfold lrs_worn, some_invalid. rewrite anyN_true. split.
  - intros (i & Hi & H). apply anyN_true in H. destruct H as (j & Hj & H). exists i, j.
    apply andb_prop in H as [H1 H2]. split; [now apply Z.eqb_eq|exact H2].
  - intros (i & j & H1 & H2). change (at_z g i j = 1) in H1.
    assert (E : inside (rowsN c) (colsN c) i j = true).
    { destruct (inside (rowsN c) (colsN c) i j) eqn:Ei; [reflexivity|]. rewrite (at2_out 0 _ _ _ _ _ Hg Ei) in H1. discriminate. }
    unfold inside in E. exists i. split; [lia|]. apply anyN_true. exists j. split; [lia|]. rewrite H1. exact H2.
Qed.

Theorem flag_step : forall w x r a w' ans b,
  reach w -> wx w = Some x -> xrd x = Some r -> no_create a -> step w a = Ok (w', ans) ->
  step w' GetOob = Ok (w', RBool b) ->
  (b = true <->
   step w GetOob = Ok (w, RBool true) \/
   (multiplied a ans = true /\ updates (wcfg w) (n_read x + 1) = true /\
    (some_invalid (gd_p (xm x)) (cyc_p r) \/
     (both_arrays (m_mode (wcfg w)) /\ some_invalid (gd_m (xm x)) (cyc_m r)) \/
     (mitigation (wcfg w) = SOFTWARE /\ m_invalid (n_write x + n_refresh x) = true)))).
Proof.
  intros w x r a w' ans b Hre Hx Hr Hn H Hb. pose proof (reach_good _ Hre) as Hg. set (c := wcfg w).
  destruct (no_create_step _ _ _ _ _ Hg Hn Hx H) as (Hg1 & Hexc & x' & X' & _).
  cbn [step] in Hb. rewrite X' in Hb. cbn [checked bind] in Hb.
  destruct (xrd x') as [r'|] eqn:Er'; [|discriminate]. cbn [checked bind] in Hb.
  assert (b = rd_oob r') by (inversion Hb; reflexivity). subst b. clear Hb.
  assert (EG : step w GetOob = Ok (w, RBool true) <-> rd_oob r = true).
  { cbn [step]. rewrite Hx. cbn [checked bind]. rewrite Hr. cbn [checked bind].
    split; [intros E; inversion E; auto|intros ->; reflexivity]. }
  rewrite EG. clear EG. destruct (reach_consts _ _ Hre Hx r Hr) as [Hrd _]. fold c in Hrd.
  destruct (multiplied a ans) eqn:Em.
  2:{ assert (ES : rd_oob r' = rd_oob r).
      { destruct (wrote a ans) eqn:Ew.
        - destruct (write_inv _ _ _ _ H Ew) as (y & y' & mat & m & n & Y & Y' & _ & _ & _ & _ & _ & HX).
          assert (y = x) by congruence. assert (y' = x') by congruence. subst y y'.
          pose proof (xwrite_written _ _ _ _ _ _ _ _ (good_wf _ Hg) (g_x _ Hg _ Hx) HX) as W.
          destruct (wr_rd _ _ _ _ _ _ _ W Hrd) as (r0 & r1 & R1 & R2 & _ & _ & R3 & _). congruence.
        - destruct (counters_step w x a w' ans Hx Hn H) as (y & Y & _ & _ & _ & _ & HE).
          specialize (HE Ew Em). congruence. }
      rewrite ES. split; [auto|]. intros [?|[? _]]; [auto|discriminate]. }
  destruct (mvm_inv _ _ _ _ H Em) as (y & y' & res & vec & mat & m & n & l & res' & Y & Y' & Ec & _ & _ & _ & HX).
  assert (y = x) by congruence. assert (y' = x') by congruence. subst y y'. fold c in HX.
  pose proof (good_wf _ Hg) as Hw. pose proof (g_x _ Hg _ Hx) as Hxo. fold c in Hw, Hxo.
  pose proof (xo_shape _ _ Hxo) as Hs.
  unfold updates. rewrite Hrd. destruct (digital_only c) eqn:Ed; cbn [andb negb].
  { destruct (xmvm_digital _ _ _ _ _ _ _ _ _ _ _ _ Hw Hxo Ed HX) as (_ & E & _).
    assert (r' = r) by congruence. subst r'. split; [auto|]. intros [?|(_ & ? & _)]; [auto|discriminate]. }
  pose proof (xnn_of_rd w Hre Ed Hrd) as Hi. fold c in Hi.
  assert (CW : cells_worn c x r = true <-> some_invalid (gd_p (xm x)) (cyc_p r) \/
     (both_arrays (m_mode c) /\ some_invalid (gd_m (xm x)) (cyc_m r))).
  { unfold cells_worn. rewrite orb_true_iff, andb_true_iff, !lrs_worn_spec by apply Hs.
    assert (is_diff (m_mode c) = true <-> both_arrays (m_mode c)) by (destruct (m_mode c); try discriminate Hi; cbn; split; easy).
    tauto. }
  destruct (mitigation c) eqn:Emi.
  - destruct (mvm_soft c x res vec mat m n l (wenv w) res' x' (wenv w') Hw Hxo Ed Hrd HX Emi)
      as (r0 & r1 & R1 & R2 & Hrs & _ & _ & _ & _ & _ & _ & _ & _ & HO & _).
    assert (r0 = r) by congruence. assert (r1 = r') by congruence. subst r0 r1. rewrite HO.
    destruct (_ =? 0).
    + rewrite !orb_true_iff, CW. change (m_invalid (n_write x + n_refresh x)) with (worn (n_write x + n_refresh x)). tauto.
    + split; [auto|]. intros [?|(_ & ? & _)]; [auto|discriminate].
  - destruct (mvm_cell c x res vec mat m n l (wenv w) res' x' (wenv w') Hw Hxo Ed Hrd HX Emi)
      as (r0 & r1 & R1 & R2 & Hrs & _ & _ & _ & _ & _ & _ & _ & _ & _ & _ & HR). cbv zeta in HR. destruct HR as (HO & _).
    assert (r0 = r) by congruence. assert (r1 = r') by congruence. subst r0 r1. rewrite HO.
    destruct (_ =? 0).
    + rewrite !orb_true_iff, CW. split; [tauto|]. intros [?|(_ & _ & [?|[?|[? _]]])]; try tauto. discriminate.
    + split; [auto|]. intros [?|(_ & ? & _)]; [auto|discriminate].
  - destruct (mvm_off c x res vec mat m n l (wenv w) res' x' (wenv w') Hw Hxo Ed Hrd HX Emi)
      as (r0 & r1 & R1 & R2 & Hrs & _ & _ & _ & _ & _ & _ & _ & _ & _ & HR).
    assert (r0 = r) by congruence. assert (r1 = r') by congruence. subst r0 r1.
    destruct (_ =? 0); destruct HR as [-> _].
    + change (rd_oob (r <| rd_oob := rd_oob r || cells_worn c x r |>)) with (rd_oob r || cells_worn c x r).
      rewrite !orb_true_iff, CW. split; [tauto|]. intros [?|(_ & _ & [?|[?|[? _]]])]; try tauto. discriminate.
    + split; [auto|]. intros [?|(_ & ? & _)]; [auto|discriminate].
Qed.
Theorem flag_new : forall w0 s w, step w0 (SetConfig s) = Ok (w, RUnit) -> read_disturb (wcfg w) = true ->
  step w GetOob = Ok (w, RBool false).
Proof.
  intros w0 s w H Hrd. destruct (set_new _ _ _ H) as (x & Ex & Nx). cbn [step]. rewrite Ex. cbn [checked bind].
  rewrite (new_rd _ _ Nx Hrd). reflexivity.
Qed.
End G.
