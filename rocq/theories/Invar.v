(** Invariants and step relations of the crossbar over histories of API calls. *)
From Coq Require Import List ZArith Bool Arith Lia ZifyBool ZifyNat String.
From RecordUpdate Require Import RecordSet.
From Verif Require Import Base Lib Hoare Machine Json Config Histogram Adc ReadDisturb Parasitics
  Mapper IntMappers BnnMappers TnnMappers Crossbar Api WriteProofs Shape MvmShape AnaShape ConfigProofs Reach Spec DigApi
  Cells.
Import ListNotations RecordSetNotations.
Local Open Scope Z_scope.
Local Open Scope out_scope.

Section I.
Context {MC : Machine}.
Notation len := List.length.
Notation at_f := (at2 f0).
Notation at_z := (at2 0).

(** What one call can do to the crossbar that exists. *)
Inductive change (c : config) (x : xbar) : config -> xbar -> Prop :=
| ch_idle c' : core c c' -> change c x c' x
| ch_write mat m n e x' e' : xwrite c x mat m n e = Ok (x', e') -> change c x c x'
| ch_mvm res vec mat m n l e r x' e' : xmvm c x res vec mat m n l e = Ok (r, x', e') -> change c x c x'.

Lemma no_create_step w a w' r x : good w -> no_create a -> wx w = Some x -> step w a = Ok (w', r) ->
  good w' /\ r <> RExc /\ exists x', wx w' = Some x' /\ change (wcfg w) x (wcfg w') x'.
Proof.
  intros Hg Hn Hx H.
  assert (Hsame : w' = w -> exists x', wx w' = Some x' /\ change (wcfg w) x (wcfg w') x').
  { intros ->. exists x. split; [auto|]. apply ch_idle, core_refl. }
  enough (HM : r <> RExc /\ exists x', wx w' = Some x' /\ change (wcfg w) x (wcfg w') x').
  { destruct HM as [H1 H2]. split; [eapply step_good; eauto|auto]. }
  destruct a; cbn in Hn; try easy; cbn in H.
  - unfold update_config in H. rewrite Hx in H. destruct u; try discriminate.
    { inversion H; subst. split; [discriminate|auto]. }
    inv_as H t Ht. destruct t as [[[j1 c1] up] rc]. cbn zeta in H.
    assert (rc = false).
    { unfold update_cfg in Ht. inv_as Ht t2 Ht2. destruct t2 as [[j2 md] rc2].
      apply update_norec in Ht2; [|exact Hn]. subst rc2.
      destruct md; [inv_as Ht c2 Hc2|]; inversion Ht; auto. }
    subst rc. rewrite andb_false_r in H. inversion H; subst. split; [discriminate|]. cbn.
    exists x. split; [exact Hx|]. apply ch_idle. eapply update_core; eauto. apply andb_false_r.
  - unfold cpy_mtrx in H. rewrite Hx in H. destruct (too_big _ _ _); [inversion H; subst; split; [discriminate|auto]|].
    inv_as H d Hd. destruct d as [m' n']. inv_as H t Ht. destruct t as [x' e']. inversion H; subst.
    split; [discriminate|]. exists x'. split; [reflexivity|]. eapply ch_write; eauto.
  - unfold exe_mvm in H. rewrite Hx in H. destruct (too_big _ _ _); [inversion H; subst; split; [discriminate|auto]|].
    inv_as H d Hd. destruct d as [m' n']. inv_as H t Ht. destruct t as [[r' x'] e']. inversion H; subst.
    split; [discriminate|]. exists x'. split; [reflexivity|]. eapply ch_mvm; eauto.
  - unfold py_mvm in H. rewrite Hx in H. cbn [deref bind] in H.
    inv_as H d Hd. destruct d as [m' n']. inv_as H t Ht. destruct t as [[r' x'] e']. inversion H; subst.
    split; [discriminate|]. exists x'. split; [reflexivity|]. eapply ch_mvm; eauto.
  - inv_as H y Y. inv_as H g G. inversion H; subst. split; [discriminate|auto].
  - inv_as H y Y. inversion H; subst. split; [discriminate|auto].
  - inv_as H y Y. inversion H; subst. split; [discriminate|auto].
  - inv_as H y Y. inv_as H g G. inversion H; subst. split; [discriminate|auto].
  - inversion H; subst. split; [discriminate|auto].
Qed.

(** Quiet calls do not write. *)
Inductive look (c : config) (x : xbar) : config -> xbar -> Prop :=
| lk_idle c' : core c c' -> look c x c' x
| lk_mvm res vec mat m n l e r x' e' : xmvm c x res vec mat m n l e = Ok (r, x', e') -> look c x c x'.
Lemma quiet_look w a w' r x : good w -> quiet a -> wx w = Some x -> step w a = Ok (w', r) ->
  good w' /\ r <> RExc /\ exists x', wx w' = Some x' /\ look (wcfg w) x (wcfg w') x'.
Proof.
  intros Hg Hn Hx H.
  assert (Hsame : w' = w -> exists x', wx w' = Some x' /\ look (wcfg w) x (wcfg w') x').
  { intros ->. exists x. split; [auto|]. apply lk_idle, core_refl. }
  enough (HM : r <> RExc /\ exists x', wx w' = Some x' /\ look (wcfg w) x (wcfg w') x').
  { destruct HM as [H1 H2]. split; [eapply step_good; eauto|auto]. }
  destruct a; cbn in Hn; try easy; cbn in H.
  - unfold update_config in H. rewrite Hx in H. destruct u; try discriminate.
    { inversion H; subst. split; [discriminate|auto]. }
    inv_as H t Ht. destruct t as [[[j1 c1] up] rc]. cbn zeta in H.
    assert (rc = false).
    { unfold update_cfg in Ht. inv_as Ht t2 Ht2. destruct t2 as [[j2 md] rc2].
      apply update_norec in Ht2; [|exact Hn]. subst rc2.
      destruct md; [inv_as Ht c2 Hc2|]; inversion Ht; auto. }
    subst rc. rewrite andb_false_r in H. inversion H; subst. split; [discriminate|]. cbn.
    exists x. split; [exact Hx|]. apply lk_idle. eapply update_core; eauto. apply andb_false_r.
  - unfold exe_mvm in H. rewrite Hx in H. destruct (too_big _ _ _); [inversion H; subst; split; [discriminate|auto]|].
    inv_as H d Hd. destruct d as [m' n']. inv_as H t Ht. destruct t as [[r' x'] e']. inversion H; subst.
    split; [discriminate|]. exists x'. split; [reflexivity|]. eapply lk_mvm; eauto.
  - unfold py_mvm in H. rewrite Hx in H. cbn [deref bind] in H.
    inv_as H d Hd. destruct d as [m' n']. inv_as H t Ht. destruct t as [[r' x'] e']. inversion H; subst.
    split; [discriminate|]. exists x'. split; [reflexivity|]. eapply lk_mvm; eauto.
  - inv_as H y Y. inv_as H g G. inversion H; subst. split; [discriminate|auto].
  - inv_as H y Y. inversion H; subst. split; [discriminate|auto].
  - inv_as H y Y. inversion H; subst. split; [discriminate|auto].
  - inv_as H y Y. inv_as H g G. inversion H; subst. split; [discriminate|auto].
  - inversion H; subst. split; [discriminate|auto].
Qed.

(** Where a configuration comes from. *)
Definition origin (c : config) : Prop := (exists j c0, apply_config j c0 = Ok c) \/ c = config0.
Lemma good_origin w : good w -> origin (wcfg w).
Proof. intros Hg. destruct (g_sync _ Hg) as [(c0 & E)|[_ E]]; [left; eauto|now right]. Qed.

(** A property of configuration and crossbar that every call keeps holds of what is reachable. *)
Section Inv.
Context (Q : config -> xbar -> Prop).
Context (Qnew : forall c x, origin c -> cfg_wf c -> xbar_new c = Ok x -> Q c x).
Context (Qcore : forall c c' x, origin c -> origin c' -> core c c' -> xok c x -> Q c x -> Q c' x).
Context (Qwrite : forall c x mat m n e x' e', origin c -> cfg_wf c -> xok c x -> xok c x' -> Q c x ->
  xwrite c x mat m n e = Ok (x', e') -> Q c x').
Context (Qmvm : forall c x res vec mat m n l e r x' e', origin c -> cfg_wf c -> xok c x -> xok c x' -> Q c x ->
  xmvm c x res vec mat m n l e = Ok (r, x', e') -> Q c x').

Lemma change_Q c x c' x' : origin c -> origin c' -> cfg_wf c -> xok c x -> Q c x -> change c x c' x' -> Q c' x'.
Proof.
  intros Ho Ho' Hw Hx HQ H. destruct H as [c' H|mat m n e x' e' H|res vec mat m n l e r x' e' H].
  - exact (Qcore _ _ _ Ho Ho' H Hx HQ).
  - pose proof (xwrite_ok _ _ _ _ _ _ _ _ Hw Hx H). eapply Qwrite; eauto. tauto.
  - pose proof (xmvm_ok _ _ _ _ _ _ _ _ _ _ _ _ Hw Hx H). eapply Qmvm; eauto. tauto.
Qed.

Definition goodQ (w : world) : Prop := good w /\ forall x, wx w = Some x -> Q (wcfg w) x.

Lemma replace_Q w r w' r' :
  ((exists c0, apply_config (wdata w) c0 = Ok (wcfg w)) \/ (wdata w = JNull /\ wcfg w = config0)) ->
  replace_xbar w r = Ok (w', r') -> r' <> RExc -> goodQ w'.
Proof.
  intros Hs H Hr. pose proof (replace_good _ _ _ _ Hs H Hr) as Hg. split; [exact Hg|].
  unfold replace_xbar in H. destruct (xbar_new (wcfg w)) as [x| | |] eqn:E; try discriminate.
  - inv_as H u U. inversion H; subst. cbn. intros y Hy. inversion Hy; subst. apply Qnew; auto.
    + destruct Hs as [(c0 & E0)|[_ E0]]; [left; eauto|now right].
    + exact (good_wf _ Hg).
  - inversion H; subst. congruence.
Qed.
Lemma load_Q w j w' r : step w (SetConfig (Parsed j)) = Ok (w', r) -> r <> RExc -> goodQ w'.
Proof.
  cbn. unfold set_config. intros H Hr. inv_as H u U. inv_as H c Hc.
  eapply replace_Q; [|exact H|exact Hr]. left. cbn. eauto.
Qed.
Lemma step_Q w a w' r : goodQ w -> step w a = Ok (w', r) -> r <> RExc -> goodQ w'.
Proof.
  intros [Hg HQ] H Hr. pose proof (step_good _ _ _ _ Hg H Hr) as Hg'. pose proof (good_wf w Hg) as Hw.
  assert (HC : forall x, wx w = Some x -> no_create a -> goodQ w').
  { intros x Hx Hn. split; [exact Hg'|]. destruct (no_create_step w a w' r x Hg Hn Hx H) as (_ & _ & x' & X' & C).
    intros y Hy. assert (y = x') by congruence. subst y.
    eapply change_Q; [exact (good_origin _ Hg)|exact (good_origin _ Hg')|exact Hw| |apply HQ; exact Hx|exact C]. now apply Hg. }
  assert (HN : wx w' = None -> goodQ w') by (intros E; split; [exact Hg'|]; intros y Hy; congruence).
  destruct a; cbn in H.
  - unfold set_config in H. inv_as H u U. destruct s; try discriminate.
    + eapply replace_Q; [|exact H|exact Hr]. apply Hg.
    + inversion H; subst. congruence.
    + inv_as H c Hc. eapply replace_Q; [|exact H|exact Hr]. left; cbn; eauto.
  - unfold update_config in H. destruct (wx w) as [x|] eqn:Ex; [|inversion H; subst; auto].
    destruct u; try discriminate; [inversion H; subst; split; [auto|]; rewrite Ex; exact HQ|].
    inv_as H t Ht. destruct t as [[[j1 c1] up] rc]. cbn zeta in H.
    pose proof (update_sync _ _ _ _ _ _ _ (g_sync _ Hg) Ht) as HS.
    destruct (up && rc)%bool eqn:E.
    + refine (replace_Q (w <| wdata := j1 |> <| wcfg := c1 |>) _ _ _ _ H Hr). exact HS.
    + inversion H; subst. split; [exact Hg'|]. cbn. intros y Hy.
      destruct (update_core _ _ _ _ _ _ Hg Ht E) as [Hc _]. assert (y = x) by congruence. subst y.
      eapply Qcore; [exact (good_origin _ Hg)|exact (good_origin _ Hg')|exact Hc| |]; [now apply Hg|now apply HQ].
  - destruct (wx w) as [x|] eqn:Ex; [exact (HC x eq_refl I)|]. apply HN.
    unfold cpy_mtrx in H. rewrite Ex in H. now inversion H; subst.
  - destruct (wx w) as [x|] eqn:Ex; [exact (HC x eq_refl I)|]. apply HN.
    unfold exe_mvm in H. rewrite Ex in H. now inversion H; subst.
  - destruct (wx w) as [x|] eqn:Ex; [exact (HC x eq_refl I)|].
    unfold py_mvm in H. rewrite Ex in H. discriminate.
  - inv_as H y Y. inv_as H g G. inversion H; subst; now split.
  - inv_as H y Y. inversion H; subst; now split.
  - inv_as H y Y. inversion H; subst; now split.
  - inv_as H y Y. inv_as H g G. inversion H; subst; now split.
  - inversion H; subst; now split.
Qed.
Lemma run_Q h : forall w w' rs b, (b = true -> goodQ w) -> run w h = Ok (w', rs) ->
  settled b h rs = true -> goodQ w'.
Proof.
  induction h as [|a h IH]; cbn; intros w w' rs b Hb H Hs.
  - inversion H; subst. auto.
  - inv_as H t Ht. destruct t as [w1 r]. inv_as H t2 Ht2. destruct t2 as [w2 rs2]. inversion H; subst.
    eapply IH; [|exact Ht2|exact Hs].
    intros E. destruct r; try discriminate E;
      (destruct a as [s| | | | | | | | |]; try (eapply step_Q; [apply Hb; exact E|exact Ht|discriminate]);
       destruct s; try (eapply step_Q; [apply Hb; exact E|exact Ht|discriminate]);
       eapply load_Q; [exact Ht|discriminate]).
Qed.
Theorem reach_Q w x : reach w -> wx w = Some x -> Q (wcfg w) x.
Proof.
  intros (h & rs & H & Hs) Hx. eapply (run_Q h); [|exact H|exact Hs|exact Hx].
  intros _. split; [apply good0|discriminate].
Qed.
End Inv.

(** Histories. *)
Lemma run_no_create (P : world -> Prop) h : 
  (forall w a w' r, good w -> P w -> no_create a -> step w a = Ok (w', r) -> P w') ->
  forall w w' rs x, good w -> wx w = Some x -> P w -> Forall no_create h -> run w h = Ok (w', rs) ->
  good w' /\ P w' /\ exists x', wx w' = Some x'.
Proof.
  intros HP. induction h as [|a h IH]; cbn; intros w w' rs x Hg Hx HPw HF H.
  - inversion H; subst. eauto.
  - inv_as H t Ht. destruct t as [w1 r]. inv_as H t2 Ht2. destruct t2 as [w2 rs2]. inversion H; subst.
    inversion HF; subst. destruct (no_create_step _ _ _ _ _ Hg H2 Hx Ht) as (Hg1 & _ & x1 & X1 & _).
    eapply IH; eauto.
Qed.
(** A reflexive and transitive relation that every quiet call establishes. *)
Lemma run_quiet (P : config -> xbar -> config -> xbar -> Prop) h :
  (forall c x, P c x c x) ->
  (forall c x c1 x1 c2 x2, P c x c1 x1 -> P c1 x1 c2 x2 -> P c x c2 x2) ->
  (forall c x c' x', cfg_wf c -> xok c x -> look c x c' x' -> P c x c' x') ->
  forall w w' rs x, good w -> wx w = Some x -> Forall quiet h -> run w h = Ok (w', rs) ->
  good w' /\ exists x', wx w' = Some x' /\ P (wcfg w) x (wcfg w') x'.
Proof.
  intros Hrefl Htr Hlook. induction h as [|a h IH]; cbn; intros w w' rs x Hg Hx HF H.
  - inversion H; subst. eauto.
  - inv_as H t Ht. destruct t as [w1 r]. inv_as H t2 Ht2. destruct t2 as [w2 rs2]. inversion H; subst.
    inversion HF; subst. destruct (quiet_look _ _ _ _ _ Hg H2 Hx Ht) as (Hg1 & _ & x1 & X1 & L).
    destruct (IH _ _ _ _ Hg1 X1 H3 Ht2) as (Hg2 & x2 & X2 & P2). split; [exact Hg2|]. exists x2. split; [exact X2|].
    eapply Htr; [|exact P2]. apply Hlook; auto; [now apply good_wf|now apply Hg].
Qed.

(** The same with an invariant. *)
Lemma run_quietQ (Q : config -> xbar -> Prop) (P : config -> xbar -> config -> xbar -> Prop) h :
  (forall c x, P c x c x) ->
  (forall c x c1 x1 c2 x2, P c x c1 x1 -> P c1 x1 c2 x2 -> P c x c2 x2) ->
  (forall c x c' x', cfg_wf c -> xok c x -> Q c x -> look c x c' x' -> P c x c' x' /\ Q c' x') ->
  forall w w' rs x, good w -> wx w = Some x -> Q (wcfg w) x -> Forall quiet h -> run w h = Ok (w', rs) ->
  good w' /\ exists x', wx w' = Some x' /\ P (wcfg w) x (wcfg w') x' /\ Q (wcfg w') x'.
Proof.
  intros Hrefl Htr Hlook. induction h as [|a h IH]; cbn; intros w w' rs x Hg Hx HQ HF H.
  - inversion H; subst. eauto.
  - inv_as H t Ht. destruct t as [w1 r]. inv_as H t2 Ht2. destruct t2 as [w2 rs2]. inversion H; subst.
    inversion HF; subst. destruct (quiet_look _ _ _ _ _ Hg H2 Hx Ht) as (Hg1 & _ & x1 & X1 & L).
    destruct (Hlook _ _ _ _ (good_wf _ Hg) (g_x _ Hg _ Hx) HQ L) as [P1 Q1].
    destruct (IH _ _ _ _ Hg1 X1 Q1 H3 Ht2) as (Hg2 & x2 & X2 & P2 & Q2).
    split; [exact Hg2|]. exists x2. eauto.
Qed.

(** ** The analog half of an MVM up to read disturb *)
Lemma xmvm_split c x res vec mat m n l e r x' e' : cfg_wf c -> xok c x -> digital_only c = false ->
  xmvm c x res vec mat m n l e = Ok (r, x', e') ->
  exists mp e1,
    shape c mp /\ gd_p mp = gd_p (xm x) /\ gd_m mp = gd_m (xm x) /\ sum_w mp = sum_w (xm x) /\
    ia_p0 mp = ia_p0 (xm x) /\ ia_m0 mp = ia_m0 (xm x) /\ par mp = par (xm x) /\
    (forall i j, if c2c_var c && inside m n i j then
        at_f (ia_p mp) i j = at_f (ia_p0 (xm x)) i j /\ at_f (ia_m mp) i j = at_f (ia_m0 (xm x)) i j
      else at_f (ia_p mp) i j = at_f (ia_p (xm x)) i j /\ at_f (ia_m mp) i j = at_f (ia_m (xm x)) i j) /\
    (let x1 := x <| n_mvm := n_mvm x + 1 |> <| n_read := n_read x + 1 |> <| xm := mp |> in
     if read_disturb c then rd_step c x1 m n e1 = Ok (x', e') else x' = x1 /\ e' = e1).
Proof.
  intros Hw Hx Hd H. unfold xmvm in H. rewrite Hd in H. cbv zeta in H.
  pose proof (xo_shape _ _ Hx) as Hs.
  inv_as H t T. destruct t as [mp1 e1].
  change (xm (x <| n_mvm := n_mvm x + 1 |> <| n_read := n_read x + 1 |>)) with (xm x) in T.
  inv_as H u U. destruct u as [[r1 mp2] e2].
  inv_as H mp3 V. inv_as H q Qq. destruct q as [x2 e3]. inversion H; subst r1 x2 e3; clear H.
  assert (HA : shape c mp1 /\ gd_p mp1 = gd_p (xm x) /\ gd_m mp1 = gd_m (xm x) /\ sum_w mp1 = sum_w (xm x) /\
    ia_p0 mp1 = ia_p0 (xm x) /\ ia_m0 mp1 = ia_m0 (xm x) /\ par mp1 = par (xm x) /\
    (forall i j, c2c_var c && inside m n i j = false ->
       at_f (ia_p mp1) i j = at_f (ia_p (xm x)) i j /\ at_f (ia_m mp1) i j = at_f (ia_m (xm x)) i j)).
  { destruct (c2c_var c).
    - pose proof (proj1 (tri_any _ _) (add_c2c_tri anyfail harmless_any c (xm x) m n e Hs (or_introl (fun _ => I))) _ T) as (S1 & _).
      destruct (add_c2c_cells c (xm x) m n e mp1 e1 Hs T) as (_ & _ & (ip & im & E) & _ & HC).
      split; [exact S1|]. rewrite E at 1 2 3 4 5 6. refine (conj eq_refl (conj eq_refl (conj eq_refl (conj eq_refl (conj eq_refl (conj eq_refl _)))))).
      intros i j Hij. specialize (HC i j). cbn [andb] in Hij. now rewrite Hij in HC.
    - inversion T; subst. split; [exact Hs|]. refine (conj eq_refl (conj eq_refl (conj eq_refl (conj eq_refl (conj eq_refl (conj eq_refl _)))))).
      auto. }
  destruct HA as (S1 & A1 & A2 & A3 & A4 & A5 & A6 & A7).
  pose proof (proj1 (tri_any _ _) (a_mvm_tri anyfail harmless_any c mp1 res vec mat m n l e1 S1 (or_introl (fun _ => I))) _ U)
    as (S2 & K & _).
  assert (HB : shape c mp3 /\ gd_p mp3 = gd_p mp2 /\ gd_m mp3 = gd_m mp2 /\ sum_w mp3 = sum_w mp2 /\
    ia_p0 mp3 = ia_p0 mp2 /\ ia_m0 mp3 = ia_m0 mp2 /\ par mp3 = par mp2 /\
    (forall i j, if c2c_var c && inside m n i j then
       at_f (ia_p mp3) i j = at_f (ia_p0 mp2) i j /\ at_f (ia_m mp3) i j = at_f (ia_m0 mp2) i j
      else at_f (ia_p mp3) i j = at_f (ia_p mp2) i j /\ at_f (ia_m mp3) i j = at_f (ia_m mp2) i j)).
  { destruct (c2c_var c).
    - pose proof (proj1 (tri_any _ _) (remove_c2c_tri anyfail c mp2 m n S2 (or_introl (fun _ => I))) _ V) as (S3 & _).
      destruct (remove_c2c_cells c mp2 m n mp3 S2 V) as (_ & _ & (ip & im & E) & HC).
      split; [exact S3|]. rewrite E at 1 2 3 4 5 6. refine (conj eq_refl (conj eq_refl (conj eq_refl (conj eq_refl (conj eq_refl (conj eq_refl _)))))).
      intros i j. cbn [andb]. apply HC.
    - inversion V; subst. split; [exact S2|]. refine (conj eq_refl (conj eq_refl (conj eq_refl (conj eq_refl (conj eq_refl (conj eq_refl _)))))).
      cbn [andb]. auto. }
  destruct HB as (S3 & B1 & B2 & B3 & B4 & B5 & B6 & B7). destruct K.
  exists mp3, e2. refine (conj S3 (conj _ (conj _ (conj _ (conj _ (conj _ (conj _ (conj _ _)))))))); try congruence.
  - intros i j. specialize (B7 i j). specialize (A7 i j). rewrite kp_ip0, kp_im0, kp_ip, kp_im, A4, A5 in B7.
    destruct (c2c_var c && inside m n i j); [exact B7|]. destruct (A7 eq_refl). now rewrite H, H0 in B7.
  - cbv zeta. destruct (read_disturb c); [exact Qq|]. now inversion Qq.
Qed.
End I.
