(** Noise: C31 - C34. *)
From Coq Require Import String List ZArith Bool Arith Lia ZifyBool ZifyNat.
From RecordUpdate Require Import RecordSet.
From Verif Require Import Base Lib Hoare Machine Json Config Histogram Adc ReadDisturb Parasitics
  Mapper IntMappers BnnMappers TnnMappers Crossbar Api WriteProofs Shape MvmShape AnaShape ConfigProofs Reach Spec DigApi
  Cells Invar StepFacts CfgProps.
Import ListNotations RecordSetNotations.
Local Open Scope Z_scope.
Local Open Scope out_scope.

Section N.
Context {MC : Machine}.
Notation at_f := (at2 f0).
Notation at_z := (at2 0).
Notation nominal c g := (level g (fsub (LRS c) (HRS c)) (HRS c)).

(** ** C31 *)
Definition second_array (m : mode) : Prop := m <> BNN_III /\ m <> BNN_IV.

Lemma noisy_nonneg c x g y : flt f0 f0 = false -> fle (HRS_NOISE c) f0 = false -> fle (LRS_NOISE c) f0 = false ->
  noisy c x g y -> flt y f0 = false.
Proof.
  intros H0 Hh Hl (k & k' & H). unfold add_noise in H. rewrite Hh, Hl in H. unfold fmax in H.
  destruct (g =? 0).
  - inversion H; subst. destruct (flt (fadd x (noise false k)) f0) eqn:E; auto.
  - destruct (g =? 1); [|discriminate]. inversion H; subst. destruct (flt (fadd x (noise true k)) f0) eqn:E; auto.
Qed.

(** The masks of add_c2c are 0 or 1. *)
Lemma noisy_mask c x g y : noisy c x g y -> g = 0 \/ g = 1.
Proof.
  intros (k & k' & H). unfold add_noise in H. destruct (g =? 0) eqn:E; [lia|]. destruct (g =? 1) eqn:E1; [lia|discriminate].
Qed.
Lemma write_nonneg w a w' r x' i j :
  reach w -> digital_only (wcfg w) = false -> is_int (m_mode (wcfg w)) = false ->
  step w a = Ok (w', r) -> wrote a r = true -> wx w' = Some x' ->
  flt f0 f0 = false -> fle (HRS_NOISE (wcfg w)) f0 = false -> fle (LRS_NOISE (wcfg w)) f0 = false ->
  covers a i j = true ->
  flt (current (ia_p (xm x')) i j) f0 = false /\
  (m_mode (wcfg w) <> BNN_III -> m_mode (wcfg w) <> BNN_IV -> flt (current (ia_m (xm x')) i j) f0 = false).
Proof.
  intros Hr Hd Hi H Hwr Hx' H0 Hh Hl Hc. apply reach_good in Hr.
  destruct (write_inv _ _ _ _ H Hwr) as (x & x1 & mat & m & n & X & X1 & Ec & _ & Hcov & _ & _ & HW).
  assert (x1 = x') by congruence. subst x1.
  pose proof (xwrite_written _ _ _ _ _ _ _ _ (good_wf _ Hr) (g_x _ Hr _ X) HW) as W.
  pose proof (wr_xnn _ _ _ _ _ _ _ W Hd Hi i j) as HP. rewrite <- Hcov, Hc in HP. destruct HP as [[_ P1] P2].
  split.
  - eapply noisy_nonneg; eauto.
  - intros E1 E2. destruct (one_array (m_mode (wcfg w))) eqn:E; [destruct (m_mode (wcfg w)); easy|].
    eapply noisy_nonneg; [| | |apply P2]; auto.
Qed.

Lemma write_quiet w a w' r x' :
  reach w -> digital_only (wcfg w) = false -> is_int (m_mode (wcfg w)) = false ->
  step w a = Ok (w', r) -> wrote a r = true -> wx w' = Some x' ->
  fle (HRS_NOISE (wcfg w)) f0 = true -> fle (LRS_NOISE (wcfg w)) f0 = true ->
  wenv w' = wenv w /\
  forall i j, covers a i j = true ->
    current (ia_p (xm x')) i j = nominal (wcfg w) (cell (gd_p (xm x')) i j) /\
    (m_mode (wcfg w) <> BNN_III -> m_mode (wcfg w) <> BNN_IV ->
     current (ia_m (xm x')) i j = nominal (wcfg w) (cell (gd_m (xm x')) i j)).
Proof.
  intros Hr Hd Hi H Hwr Hx' Hh Hl. apply reach_good in Hr.
  destruct (write_inv _ _ _ _ H Hwr) as (x & x1 & mat & m & n & X & X1 & Ec & _ & Hcov & _ & _ & HW).
  assert (x1 = x') by congruence. subst x1.
  pose proof (xwrite_written _ _ _ _ _ _ _ _ (good_wf _ Hr) (g_x _ Hr _ X) HW) as W.
  split; [now apply (wr_quiet _ _ _ _ _ _ _ W)|]. intros i j Hc.
  pose proof (wr_xnn _ _ _ _ _ _ _ W Hd Hi i j) as HP. rewrite <- Hcov, Hc in HP. destruct HP as [[_ P1] P2].
  split.
  - eapply noisy_quiet; eauto.
  - intros E1 E2. destruct (one_array (m_mode (wcfg w))) eqn:E; [destruct (m_mode (wcfg w)); easy|].
    eapply noisy_quiet; [| |apply P2]; auto.
Qed.

(** The programmed cells of these modes are 0 or 1. *)
Lemma write_binary w a w' r x' :
  reach w -> digital_only (wcfg w) = false -> is_int (m_mode (wcfg w)) = false ->
  step w a = Ok (w', r) -> wrote a r = true -> wx w' = Some x' ->
  forall i j, covers a i j = true ->
    (cell (gd_p (xm x')) i j = 0 \/ cell (gd_p (xm x')) i j = 1) /\
    (m_mode (wcfg w) <> BNN_III -> m_mode (wcfg w) <> BNN_IV ->
     cell (gd_m (xm x')) i j = 0 \/ cell (gd_m (xm x')) i j = 1).
Proof.
  intros Hr Hd Hi H Hwr Hx' i j Hc. apply reach_good in Hr.
  destruct (write_inv _ _ _ _ H Hwr) as (x & x1 & mat & m & n & X & X1 & Ec & _ & Hcov & _ & _ & HW).
  assert (x1 = x') by congruence. subst x1.
  pose proof (xwrite_written _ _ _ _ _ _ _ _ (good_wf _ Hr) (g_x _ Hr _ X) HW) as W.
  pose proof (wr_xnn _ _ _ _ _ _ _ W Hd Hi i j) as HP. rewrite <- Hcov, Hc in HP. destruct HP as [[_ P1] P2].
  split.
  - eapply noisy_mask; eauto.
  - intros E1 E2. destruct (one_array (m_mode (wcfg w))) eqn:E; [destruct (m_mode (wcfg w)); easy|].
    eapply noisy_mask. apply P2.
Qed.

(** ** C33 *)
Definition steady (c : config) (x : xbar) : Prop :=
  is_int (m_mode c) = false -> read_disturb c = false ->
  ia_p (xm x) = ia_p0 (xm x) /\ ia_m (xm x) = ia_m0 (xm x).

Lemma core_mode c c' : core c c' -> m_mode c' = m_mode c /\ read_disturb c' = read_disturb c /\ digital_only c' = digital_only c /\
  mitigation c' = mitigation c /\ HRS c' = HRS c /\ LRS c' = LRS c /\ HRS_NOISE c' = HRS_NOISE c /\ LRS_NOISE c' = LRS_NOISE c /\
  V_read c' = V_read c /\ t_read c' = t_read c /\ update_freq c' = update_freq c /\ tolerance c' = tolerance c /\
  mitigation_fp c' = mitigation_fp c /\ SPLIT c' = SPLIT c /\ M c' = M c /\ N c' = N c.
Proof. intros (i & v & d2 & c2 & bs & wr & p & ->). cbn. repeat apply conj; reflexivity. Qed.

Lemma mapper_new_ia c mp : mapper_new c = Ok mp ->
  ia_p mp = mat2 (rowsN c) (colsN c) (HRS c) /\ ia_m mp = mat2 (rowsN c) (colsN c) (HRS c) /\
  ia_p0 mp = mat2 (rowsN c) (colsN c) (HRS c) /\ ia_m0 mp = mat2 (rowsN c) (colsN c) (HRS c) /\
  gd_p mp = mat2 (rowsN c) (colsN c) 0 /\ gd_m mp = mat2 (rowsN c) (colsN c) 0.
Proof.
  unfold mapper_new. intros H. inv_as H a A. inv_as H p P. inv_as H s S. inv_as H d D. inversion H; subst. cbn.
  repeat apply conj; reflexivity.
Qed.
Lemma xbar_new_ia c x : xbar_new c = Ok x ->
  ia_p (xm x) = mat2 (rowsN c) (colsN c) (HRS c) /\ ia_m (xm x) = mat2 (rowsN c) (colsN c) (HRS c) /\
  ia_p0 (xm x) = mat2 (rowsN c) (colsN c) (HRS c) /\ ia_m0 (xm x) = mat2 (rowsN c) (colsN c) (HRS c) /\
  gd_p (xm x) = mat2 (rowsN c) (colsN c) 0 /\ gd_m (xm x) = mat2 (rowsN c) (colsN c) 0.
Proof.
  unfold xbar_new. intros H. inv_as H mp A. inversion H; subst. cbn. now apply mapper_new_ia.
Qed.

Lemma steady_write c x mat m n e x' e' : cfg_wf c -> xok c x -> xok c x' -> steady c x ->
  xwrite c x mat m n e = Ok (x', e') -> steady c x'.
Proof.
  intros Hw Hx Hx' HQ H Hi Hr. destruct (HQ Hi Hr) as [Q1 Q2].
  pose proof (xwrite_written _ _ _ _ _ _ _ _ Hw Hx H) as W.
  destruct (digital_only c) eqn:Ed.
  - destruct (wr_dig _ _ _ _ _ _ _ W Ed) as (-> & -> & -> & -> & _). auto.
  - pose proof (xo_shape _ _ Hx') as Hs.
    split; eapply at2_ext; try apply Hs; intros i j _ _; pose proof (wr_xnn _ _ _ _ _ _ _ W Ed Hi i j) as HP;
      destruct (inside m n i j).
    + destruct HP as [[-> _] _]. reflexivity.
    + destruct HP as (-> & -> & _). now rewrite Q1.
    + destruct HP as [_ HP]. destruct (one_array _).
      * destruct HP as (-> & ->). now rewrite Q2.
      * destruct HP as (-> & _). reflexivity.
    + destruct HP as (_ & _ & -> & ->). now rewrite Q2.
Qed.
Lemma steady_mvm c x res vec mat m n l e r x' e' : cfg_wf c -> xok c x -> steady c x ->
  is_int (m_mode c) = false -> read_disturb c = false ->
  xmvm c x res vec mat m n l e = Ok (r, x', e') ->
  ia_p (xm x') = ia_p (xm x) /\ ia_m (xm x') = ia_m (xm x) /\
  ia_p0 (xm x') = ia_p0 (xm x) /\ ia_m0 (xm x') = ia_m0 (xm x).
Proof.
  intros Hw Hx HQ Hi Hr H. destruct (HQ Hi Hr) as [Q1 Q2].
  destruct (digital_only c) eqn:Ed.
  - destruct (xmvm_digital _ _ _ _ _ _ _ _ _ _ _ _ Hw Hx Ed H) as ([] & _). auto.
  - destruct (xmvm_split _ _ _ _ _ _ _ _ _ _ _ _ Hw Hx Ed H)
      as (mp & e1 & Hs & _ & _ & _ & E3 & E4 & _ & HC & HR). cbv zeta in HR. rewrite Hr in HR. destruct HR as [-> _].
    cbn. pose proof (xo_shape _ _ Hx) as Hs0.
    refine (conj _ (conj _ (conj E3 E4))).
    + eapply at2_ext; [apply Hs|apply Hs0|]. intros i j _ _. specialize (HC i j).
      destruct (c2c_var c && inside m n i j); destruct HC as [-> _]; now rewrite ?Q1.
    + eapply at2_ext; [apply Hs|apply Hs0|]. intros i j _ _. specialize (HC i j).
      destruct (c2c_var c && inside m n i j); destruct HC as [_ ->]; now rewrite ?Q2.
Qed.
Lemma steady_core c c' x : core c c' -> steady c x -> steady c' x.
Proof. intros HC H. unfold steady. apply core_mode in HC as (-> & -> & _). exact H. Qed.
Lemma steady_mvm' c x res vec mat m n l e r x' e' : cfg_wf c -> xok c x -> steady c x ->
  xmvm c x res vec mat m n l e = Ok (r, x', e') -> steady c x'.
Proof.
  intros Hw Hx HQ H Hi Hr. destruct (steady_mvm _ _ _ _ _ _ _ _ _ _ _ _ Hw Hx HQ Hi Hr H) as (-> & -> & -> & ->).
  now apply HQ.
Qed.
Lemma reach_steady w x : reach w -> wx w = Some x -> steady (wcfg w) x.
Proof.
  apply (reach_Q steady).
  - intros c y _ _ H _ _. destruct (xbar_new_ia _ _ H) as (-> & -> & -> & -> & _). auto.
  - intros c c' y _ _ HC _. now apply steady_core.
  - intros. eapply steady_write; [| | |eassumption|eassumption]; auto.
  - intros. eapply steady_mvm'; [| |eassumption|eassumption]; auto.
Qed.

Lemma quiet_steady h w w' rs x : reach w -> wx w = Some x ->
  is_int (m_mode (wcfg w)) = false -> read_disturb (wcfg w) = false ->
  Forall quiet h -> run w h = Ok (w', rs) ->
  exists x', wx w' = Some x' /\ ia_p (xm x') = ia_p (xm x) /\ ia_m (xm x') = ia_m (xm x).
Proof.
  intros Hr Hx Hi Hd HF H. pose proof (reach_steady _ _ Hr Hx) as HS. apply reach_good in Hr.
  destruct (run_quietQ (fun c y => steady c y /\ is_int (m_mode c) = false /\ read_disturb c = false)
     (fun c y c' y' => ia_p (xm y') = ia_p (xm y) /\ ia_m (xm y') = ia_m (xm y)) h) with (w := w) (w' := w') (rs := rs) (x := x)
    as (_ & x' & X' & HP & _); auto.
  - intros c y c1 y1 c2 y2 (A & B) (A' & B'). split; congruence.
  - intros c y c' y' Hw Hy (HQ & H1 & H2) L. destruct L as [c' L|res vec mat m n l e r x' e' L].
    + split; [auto|]. split; [now apply (steady_core c)|]. apply core_mode in L as (-> & -> & _). auto.
    + destruct (steady_mvm _ _ _ _ _ _ _ _ _ _ _ _ Hw Hy HQ H1 H2 L) as (E1 & E2 & _). split; [auto|].
      split; [eapply steady_mvm'; eauto|auto].
  - exists x'. auto.
Qed.

(** ** C34 *)
Definition bare (c : config) (x : xbar) : Prop :=
  is_int (m_mode c) = true ->
  ia_p0 (xm x) = mat2 (rowsN c) (colsN c) (HRS c) /\ ia_m0 (xm x) = mat2 (rowsN c) (colsN c) (HRS c).
Lemma core_rows c c' : core c c' -> rowsN c' = rowsN c /\ colsN c' = colsN c.
Proof. intros (i & v & d2 & c2 & bs & wr & p & ->). cbn. auto. Qed.

Lemma rd_int_off c : origin c -> is_int (m_mode c) = true -> digital_only c = false -> read_disturb c = false.
Proof.
  intros [(j & c0 & E)|E].
  - intros Hi Hd. destruct (read_disturb c) eqn:Er; [|reflexivity].
    destruct (apply_supported _ _ _ E) as (_ & _ & _ & _ & HS).
    destruct (HS Hd) as (_ & _ & _ & _ & _ & HR & _). destruct (HR Er). congruence.
  - subst c. reflexivity.
Qed.
Lemma reach_bare w x : reach w -> wx w = Some x -> bare (wcfg w) x.
Proof.
  apply (reach_Q bare).
  - intros c y _ _ H _. destruct (xbar_new_ia _ _ H) as (_ & _ & -> & -> & _). auto.
  - intros c c' y _ _ HC _ HQ Hi. pose proof (core_rows _ _ HC) as [-> ->].
    apply core_mode in HC as (E & _ & _ & _ & -> & _). apply HQ. congruence.
  - intros c y mat m n e y' e' _ Hw Hy _ HQ H Hi.
    pose proof (xwrite_written _ _ _ _ _ _ _ _ Hw Hy H) as W.
    destruct (wr_int _ _ _ _ _ _ _ W Hi) as (-> & -> & _). now apply HQ.
  - intros c y res vec mat m n l e r y' e' Ho Hw Hy _ HQ H Hi.
    destruct (digital_only c) eqn:Ed.
    + destruct (xmvm_digital _ _ _ _ _ _ _ _ _ _ _ _ Hw Hy Ed H) as ([] & _). rewrite kp_ip0, kp_im0. now apply HQ.
    + destruct (xmvm_split _ _ _ _ _ _ _ _ _ _ _ _ Hw Hy Ed H)
        as (mp & e1 & Hs & _ & _ & _ & E3 & E4 & _ & HC & HR). cbv zeta in HR.
      rewrite (rd_int_off _ Ho Hi Ed) in HR. destruct HR as [-> _]. cbn. rewrite E3, E4. now apply HQ.
Qed.


Lemma int_c2c_hrs w a w' r x' : reach w -> is_int (m_mode (wcfg w)) = true -> digital_only (wcfg w) = false ->
  c2c_var (wcfg w) = true -> step w a = Ok (w', r) -> multiplied a r = true -> wx w' = Some x' ->
  forall i j, covers a i j = true ->
    (i < rowsN (wcfg w))%nat -> (j < colsN (wcfg w))%nat ->
    current (ia_p (xm x')) i j = HRS (wcfg w) /\ current (ia_m (xm x')) i j = HRS (wcfg w).
Proof.
  intros Hr Hi Hd Hc H Hm Hx' i j Hij Hri Hcj.
  destruct (mvm_inv _ _ _ _ H Hm) as (x & x1 & res & vec & mat & m & n & l & res' & X & X1 & Ec & _ & Hcov & _ & HM).
  assert (x1 = x') by congruence. subst x1.
  pose proof (reach_bare _ _ Hr X Hi) as [B1 B2]. apply reach_good in Hr.
  destruct (xmvm_split _ _ _ _ _ _ _ _ _ _ _ _ (good_wf _ Hr) (g_x _ Hr _ X) Hd HM)
    as (mp & e1 & Hs & _ & _ & _ & E3 & E4 & _ & HC & HR). cbv zeta in HR.
  rewrite (rd_int_off _ (good_origin _ Hr) Hi Hd) in HR. destruct HR as [-> _]. cbn.
  specialize (HC i j). rewrite Hc, <- Hcov, Hij in HC. cbn [andb] in HC. rewrite B1, B2 in HC.
  unfold current. rewrite !at2_mat2 in HC by auto. exact HC.
Qed.

Lemma int_c2c_mask w a w' r x : reach w -> digital_only (wcfg w) = false -> c2c_var (wcfg w) = true ->
  step w a = Ok (w', r) -> multiplied a r = true -> wx w = Some x ->
  forall i j, covers a i j = true -> (cell (gd_p (xm x)) i j = 0 \/ cell (gd_p (xm x)) i j = 1) /\
    (cell (gd_m (xm x)) i j = 0 \/ cell (gd_m (xm x)) i j = 1).
Proof.
  intros Hr Hd Hc H Hm Hx i j Hij.
  destruct (mvm_inv _ _ _ _ H Hm) as (x0 & x1 & res & vec & mat & m & n & l & res' & X & X1 & Ec & _ & Hcov & _ & HM).
  assert (x0 = x) by congruence. subst x0. apply reach_good in Hr.
  unfold xmvm in HM. rewrite Hd, Hc in HM. cbv zeta in HM. inv_as HM t T. destruct t as [mp e1].
  destruct (add_c2c_cells _ _ _ _ _ _ _ (xo_shape _ _ (g_x _ Hr _ X)) T) as (_ & _ & _ & _ & HC).
  specialize (HC i j). rewrite <- Hcov, Hij in HC. destruct HC as [C1 C2].
  split; eapply noisy_mask; eauto.
Qed.
End N.
