(** Invariant of the process state over every sequence of API calls. *)
From Coq Require Import List ZArith Bool Arith Lia ZifyBool ZifyNat String.
From RecordUpdate Require Import RecordSet.
From Verif Require Import Base Lib Hoare Machine Json Config Histogram Adc ReadDisturb Parasitics
  Mapper IntMappers BnnMappers TnnMappers Crossbar Api WriteProofs Shape MvmShape AnaShape ConfigProofs.
Import ListNotations RecordSetNotations.
Local Open Scope Z_scope.
Local Open Scope out_scope.

Section R.
Context {MC : Machine}.
Notation len := List.length.
Notation MM c := (Z.to_nat (M c)).

(** No exception since the last configuration file that was loaded ([b]: none so far). *)
Fixpoint settled (b : bool) (h : list call) (rs : list result) : bool :=
  match h, rs with
  | a :: h', r :: rs' =>
      settled (match r with
               | RExc => false
               | _ => match a with SetConfig (Parsed _) => true | _ => b end
               end) h' rs'
  | _, _ => b
  end.

(** States a client can bring the library into without an unhandled exception. *)
Definition reach (w : world) : Prop :=
  exists h rs, run world0 h = Ok (w, rs) /\ settled true h rs = true.

Record good (w : world) : Prop := {
  g_sync : (exists c0, apply_config (wdata w) c0 = Ok (wcfg w)) \/
           (wdata w = JNull /\ wcfg w = config0);
  g_x : forall x, wx w = Some x -> xok (wcfg w) x
}.

(** ** Facts about loaded configurations *)
Lemma as_u32_range j z : as_u32 j = CVal z -> 0 <= z < 2 ^ 32.
Proof.
  destruct j; cbn; try discriminate.
  - intros E; inversion E. destruct b; lia.
  - intros E; inversion E. unfold u32. now apply Z.mod_pos_bound.
  - destruct (d_trunc d); [|discriminate]. destruct (_ && _) eqn:B; [|discriminate].
    intros E; inversion E; subst. change (2 ^ 32) with 4294967296 in *. lia.
Qed.
Lemma need_u32 j k z : need as_u32 j k = Ok z -> 0 <= z < 2 ^ 32.
Proof.
  unfold need. destruct (jat j k) as [v|]; [|discriminate]. destruct (as_u32 v) eqn:E; try discriminate.
  intros H; inversion H; subst. now apply as_u32_range in E.
Qed.
Lemma need_u32s j k l : need as_u32s j k = Ok l -> Forall (fun s => 0 <= s < 2 ^ 32) l.
Proof.
  unfold need. destruct (jat j k) as [v|]; [|discriminate]. destruct (as_u32s v) as [l'| |] eqn:E; try discriminate.
  intros H; inversion H; subst. clear H. destruct v as [| | | | |vs|]; try discriminate. cbn in E.
  revert l E. induction vs as [|v vs IH]; cbn; intros l E; [inversion E; constructor|].
  destruct (as_u32 v) eqn:Ev; try discriminate. destruct (convs as_u32 vs); try discriminate.
  inversion E; subst. constructor; [now apply as_u32_range in Ev|auto].
Qed.

Record loaded (c : config) : Prop := {
  ld_M : 0 < M c < 2 ^ 32;
  ld_N : 0 < N c < 2 ^ 32;
  ld_wf : cfg_wf c;
  ld_split : Forall (fun s => 0 <= s < 2 ^ 32) (SPLIT c);
  ld_bits : is_int (m_mode c) = true -> 0 < W_BIT c < 2 ^ 32 /\ 0 < I_BIT c < 2 ^ 32
}.

Lemma apply_analog_M j a b : apply_analog j a = Ok b -> M b = M a /\ N b = N a /\ m_mode b = m_mode a.
Proof.
  intros A1. unfold apply_analog in A1.
  inv_as A1 h E0. inv_as A1 l E1. inv_as A1 an E2. inv_as A1 at_ E3. inv_as A1 u1 U1.
  inv_as A1 y E4. apply adc_frame in E4. destruct E4 as (k1 & k2 & k3 & k4 & k5 & Ea).
  inv_as A1 u2 U2. inv_as A1 hn E5. inv_as A1 ln E6. inv_as A1 dv E7. inv_as A1 cv E8. inv_as A1 u3 U3.
  inv_as A1 rd E9. inv_as A1 pa E10. inv_as A1 z E12. inv_as A1 zz E13.
  assert (Hv : exists v, z = y <| HRS_NOISE := hn |> <| LRS_NOISE := ln |> <| d2d_var := dv |>
    <| c2c_var := cv |> <| read_disturb := rd |> <| parasitics := pa |> <| V_read := v |>).
  { destruct (pa || rd).
    - inv_as E12 q Q. inv_as E12 q' Q'. inversion E12. eauto.
    - inversion E12. exists (V_read y). destruct y; reflexivity. }
  destruct Hv as (v & Hv). apply rd_frame in E13.
  destruct E13 as (q1 & q2 & q3 & q4 & q5 & Er). apply par_frame in A1. destruct A1 as (q6 & q7 & Ep).
  subst b zz z y. now destruct a.
Qed.

Lemma apply_loaded j c0 c : apply_config j c0 = Ok c -> loaded c.
Proof.
  intros H. unfold apply_config in H.
  inv_as H x Hx. inv_as H x0 Hx0. inv_as H u1 U1. inv_as H x1 Hx1. inv_as H x2 Hx2. inv_as H x3 Hx3.
  inv_as H a1 A1. inv_as H b1 B1. inv_as H x4 Hx4. inversion H as [Hc]. clear H.
  apply need_u32 in Hx, Hx0. unfold die_if in U1. destruct (_ || _) eqn:Epos in U1; [discriminate|].
  assert (Ha : M a1 = x /\ N a1 = x0 /\ m_mode a1 = x2).
  { destruct x3; [inversion A1; auto|]. apply apply_analog_M in A1. exact A1. }
  destruct Ha as (Ha1 & Ha2 & Ha3). unfold apply_bits in B1.
  assert (Hb : M b1 = M a1 /\ N b1 = N a1 /\ m_mode b1 = m_mode a1 /\ cfg_wf b1 /\
    Forall (fun s => 0 <= s < 2 ^ 32) (SPLIT b1) /\
    (is_int (m_mode b1) = true -> 0 < W_BIT b1 < 2 ^ 32 /\ 0 < I_BIT b1 < 2 ^ 32)).
  { destruct (is_int (m_mode a1)) eqn:Ei.
    - inv_as B1 w Ew. inv_as B1 i Eii. inv_as B1 s Es. inv_as B1 u Eu. inversion B1; subst b1; cbn.
      apply need_u32 in Ew, Eii. apply need_u32s in Es. unfold die_if in Eu.
      destruct (_ || _) eqn:Eo in Eu; [discriminate|]. repeat split; auto; try lia.
      unfold cfg_wf; cbn. destruct (m_mode a1); try discriminate Ei; intros; discriminate.
    - assert (Hd : Ok (a1 <| SPLIT := [0] |>) = Ok b1 -> m_mode a1 <> TNN_IV -> m_mode a1 <> TNN_V ->
       M b1 = M a1 /\ N b1 = N a1 /\ m_mode b1 = m_mode a1 /\ cfg_wf b1 /\
       Forall (fun s => 0 <= s < 2 ^ 32) (SPLIT b1) /\
       (is_int (m_mode b1) = true -> 0 < W_BIT b1 < 2 ^ 32 /\ 0 < I_BIT b1 < 2 ^ 32)).
      { intros E N1 N2. inversion E; subst b1; cbn. repeat split; auto; try congruence.
        - unfold cfg_wf; cbn. destruct (m_mode a1); congruence.
        - repeat constructor; lia. }
      assert (Htc : forall (B1 : bind (need as_u32 j "W_BIT") (fun w => bind (need as_u32s j "SPLIT") (fun s =>
           bind (die_if (negb (w =? 2))) (fun _ =>
           match s with [1; 1] => Ok (a1 <| W_BIT := w |> <| SPLIT := s |>) | _ => Died end))) = Ok b1),
       M b1 = M a1 /\ N b1 = N a1 /\ m_mode b1 = m_mode a1 /\ SPLIT b1 = [1; 1]).
      { clear - MC. intros B1. inv_as B1 w Ew. inv_as B1 s Es. inv_as B1 u Eu.
        assert (Haux : forall (s : list Z) (c1 c2 : config),
          (match s with [1; 1] => Ok c1 | _ => Died end) = Ok c2 -> c2 = c1 /\ s = [1; 1]).
        { intros s0 c1 c2 E. repeat match type of E with context [match ?s with _ => _ end] => destruct s; try discriminate E end.
          inversion E; auto. }
        apply Haux in B1. destruct B1; subst; auto. }
      destruct (m_mode a1) eqn:Em; try discriminate Ei; try (apply Hd; [exact B1|discriminate|discriminate]);
        apply Htc in B1; destruct B1 as (E1 & E2 & E3 & E4); rewrite E3, E4; repeat split; auto;
        try discriminate; try (unfold cfg_wf; now rewrite E3); repeat constructor; lia. }
  destruct Hb as (Hb1 & Hb2 & Hb3 & Hb4 & Hb5 & Hb6). subst c. constructor; cbn; auto; try lia.
Qed.

Lemma config0_wf : cfg_wf config0.
Proof. cbn. discriminate. Qed.

Lemma good_wf w : good w -> cfg_wf (wcfg w).
Proof.
  intros H. destruct (g_sync _ H) as [[c0 E]|[_ E]].
  - apply apply_loaded in E. apply E.
  - rewrite E. apply config0_wf.
Qed.
Lemma good_loaded w : good w -> loaded (wcfg w) \/ wcfg w = config0.
Proof.
  intros H. destruct (g_sync _ H) as [[c0 E]|[_ E]]; [left|auto]. now apply apply_loaded in E.
Qed.

(** ** Non-recreating updates keep the shape *)
Lemma core_eqs c c' : core c c' ->
  M c' = M c /\ N c' = N c /\ m_mode c' = m_mode c /\ SPLIT c' = SPLIT c /\ W_BIT c' = W_BIT c /\
  digital_only c' = digital_only c /\ resolution c' = resolution c /\ adc_type c' = adc_type c /\
  read_disturb c' = read_disturb c /\ HRS c' = HRS c /\ LRS c' = LRS c /\ adc_profile c' = adc_profile c.
Proof. intros (i & v & d2 & c2 & bs & w & p & ->). now repeat split. Qed.

Lemma core_shape c c' mp : core c c' -> shape c mp -> shape c' mp.
Proof.
  intros H Hs. apply core_eqs in H. destruct H as (E1 & E2 & E3 & E4 & E5 & E6 & E7 & E8 & E9 & E10 & E11 & E12).
  assert (Er : rowsN c' = rowsN c) by (unfold rowsN, nsplit; congruence).
  assert (Ec : colsN c' = colsN c) by (unfold colsN; congruence).
  assert (En : nsplit c' = nsplit c) by (unfold nsplit; congruence).
  assert (Esh : shifts c' = shifts c) by (unfold shifts; congruence).
  assert (Ea : adc_new c' (adc_type c') = adc_new c (adc_type c)) by (unfold adc_new; rewrite E7, E8; reflexivity).
  constructor; rewrite ?Er, ?Ec, ?En, ?Esh, ?Ea, ?E3, ?E1; apply Hs.
Qed.
Lemma core_xok c c' x : core c c' -> xok c x -> xok c' x.
Proof.
  intros H Hx. pose proof (core_eqs _ _ H) as (E1 & E2 & E3 & E4 & E5 & E6 & E7 & E8 & E9 & _).
  assert (Er : rowsN c' = rowsN c) by (unfold rowsN, nsplit; congruence).
  assert (Ec : colsN c' = colsN c) by (unfold colsN; congruence).
  constructor.
  - eapply core_shape; eauto. apply Hx.
  - intros r Hr. pose proof (xo_rd _ _ Hx r Hr) as []. constructor; now rewrite Er, Ec.
  - rewrite E9. apply Hx.
Qed.

(** ** Preservation *)
Lemma replace_good w r w' r' : 
  ((exists c0, apply_config (wdata w) c0 = Ok (wcfg w)) \/ (wdata w = JNull /\ wcfg w = config0)) ->
  replace_xbar w r = Ok (w', r') -> r' <> RExc -> good w'.
Proof.
  intros Hs H Hr. unfold replace_xbar in H. destruct (xbar_new (wcfg w)) as [x| | |] eqn:E; try discriminate.
  - inv_as H u U. inversion H; subst. constructor; cbn; [exact Hs|].
    intros y Hy. inversion Hy; subst. now apply xbar_new_ok.
  - inversion H; subst. congruence.
Qed.

Lemma load_good w j w' r : step w (SetConfig (Parsed j)) = Ok (w', r) -> r <> RExc -> good w'.
Proof.
  cbn. unfold set_config. intros H Hr. inv_as H u U. inv_as H c Hc.
  eapply replace_good; [|exact H|exact Hr]. left. cbn. eauto.
Qed.

Lemma xwrite_ok c x mat m n e x' e' : cfg_wf c -> xok c x -> xwrite c x mat m n e = Ok (x', e') ->
  xok c x' /\ n_write x' = n_write x + 1 /\ n_read x' = 0 /\
  n_mvm x' = n_mvm x /\ n_refresh x' = n_refresh x /\ n_cell x' = n_cell x.
Proof.
  intros Hw Hx H.
  pose proof (proj1 (tri_any _ _) (xwrite_tri anyfail harmless_any c x mat m n e Hw Hx (or_introl (fun _ => I))) _ H)
    as HT. cbn in HT. tauto.
Qed.
Lemma xmvm_ok c x res vec mat m n l e r x' e' : cfg_wf c -> xok c x ->
  xmvm c x res vec mat m n l e = Ok (r, x', e') ->
  xok c x' /\ same_digital (xm x) (xm x') /\ len r = len res /\ n_write x' = n_write x /\ n_mvm x' = n_mvm x + 1.
Proof.
  intros Hw Hx H.
  pose proof (proj1 (tri_any _ _) (xmvm_tri anyfail harmless_any c x res vec mat m n l e Hw Hx (or_introl (fun _ => I))) _ H)
    as HT. cbn in HT. tauto.
Qed.

(** A successful update without recreation. *)
Lemma update_core w upds j c up rc : good w ->
  update_cfg upds (wdata w) (wcfg w) = Ok (j, c, up, rc) ->
  (up && rc = false)%bool -> core (wcfg w) c /\
  ((exists c0, apply_config j c0 = Ok c) \/ (j = JNull /\ c = config0)).
Proof.
  intros Hg H E. unfold update_cfg in H. inv_as H t Ht. destruct t as [[j1 md] rc1].
  pose proof (update_keys_spec _ _ _ _ _ _ _ Ht) as (S1 & S2 & _).
  destruct md.
  - inv_as H c1 Hc1. inversion H; subst. cbn in E. subst rc.
    destruct (S2 eq_refl) as [_ Hk].
    destruct (g_sync _ Hg) as [[c0 E0]|[E0 E1]].
    + split; [eapply apply_again; eauto|left; eauto].
    + exfalso. pose proof Hc1 as Hc2. unfold apply_config in Hc2. inv_as Hc2 m Hm.
      rewrite (need_same _ (wdata w) j "M") in Hm by (apply Hk; cbn; tauto).
      rewrite E0 in Hm. discriminate.
  - inversion H; subst. destruct (S1 eq_refl) as [_ ->]. split; [apply core_refl|apply (g_sync _ Hg)].
Qed.
Lemma update_sync upds j0 c0 j c up rc :
  ((exists c', apply_config j0 c' = Ok c0) \/ (j0 = JNull /\ c0 = config0)) ->
  update_cfg upds j0 c0 = Ok (j, c, up, rc) ->
  (exists c', apply_config j c' = Ok c) \/ (j = JNull /\ c = config0).
Proof.
  intros Hg H. unfold update_cfg in H. inv_as H t Ht. destruct t as [[j1 md] rc1].
  pose proof (update_keys_spec _ _ _ _ _ _ _ Ht) as (S1 & S2 & _). destruct md.
  - inv_as H c1 Hc1. inversion H; subst. left; eauto.
  - inversion H; subst. destruct (S1 eq_refl) as [_ ->]. exact Hg.
Qed.

Lemma step_good w a w' r : good w -> step w a = Ok (w', r) -> r <> RExc -> good w'.
Proof.
  intros Hg H Hr. pose proof (good_wf w Hg) as Hw. destruct a; cbn in H.
  - unfold set_config in H. inv_as H u U. destruct s; try discriminate.
    + eapply replace_good; [|exact H|exact Hr]. apply Hg.
    + inversion H; subst. congruence.
    + inv_as H c Hc. eapply replace_good; [|exact H|exact Hr]. left; cbn; eauto.
  - unfold update_config in H. destruct (wx w) as [x|] eqn:Ex; [|inversion H; subst; auto].
    destruct u; try discriminate; [inversion H; subst; auto|].
    inv_as H t Ht. destruct t as [[[j1 c1] up] rc]. cbn zeta in H.
    pose proof (update_sync _ _ _ _ _ _ _ (g_sync _ Hg) Ht) as HS.
    destruct (up && rc)%bool eqn:E.
    + refine (replace_good (w <| wdata := j1 |> <| wcfg := c1 |>) _ _ _ _ H Hr). exact HS.
    + inversion H; subst. destruct (update_core _ _ _ _ _ _ Hg Ht E) as [Hc _].
      constructor; cbn; [exact HS|]. intros y Hy. eapply core_xok; eauto. now apply Hg.
  - unfold cpy_mtrx in H. destruct (wx w) as [x|] eqn:Ex; [|inversion H; subst; auto].
    destruct (too_big _ _ _); [inversion H; subst; auto|].
    inv_as H d Hd. destruct d as [m' n']. inv_as H t Ht. destruct t as [x' e']. inversion H; subst.
    constructor; cbn; [apply Hg|]. intros y Hy; inversion Hy; subst y.
    eapply xwrite_ok; eauto. now apply Hg.
  - unfold exe_mvm in H. destruct (wx w) as [x|] eqn:Ex; [|inversion H; subst; auto].
    destruct (too_big _ _ _); [inversion H; subst; auto|].
    inv_as H d Hd. destruct d as [m' n']. inv_as H t Ht. destruct t as [[r' x'] e']. inversion H; subst.
    constructor; cbn; [apply Hg|]. intros y Hy; inversion Hy; subst y.
    eapply xmvm_ok; eauto. now apply Hg.
  - unfold py_mvm in H. destruct (wx w) as [x|] eqn:Ex; [|discriminate]. cbn [deref bind] in H.
    inv_as H d Hd. destruct d as [m' n']. inv_as H t Ht. destruct t as [[r' x'] e']. inversion H; subst.
    constructor; cbn; [apply Hg|]. intros y Hy; inversion Hy; subst y.
    eapply xmvm_ok; eauto. now apply Hg.
  - inv_as H x Hx. inv_as H g G. inversion H; subst; auto.
  - inv_as H x Hx. inversion H; subst; auto.
  - inv_as H x Hx. inversion H; subst; auto.
  - inv_as H x Hx. inv_as H g G. inversion H; subst; auto.
  - inversion H; subst; auto.
Qed.

Lemma good0 : good world0.
Proof. constructor; cbn; [auto|discriminate]. Qed.

Lemma run_good h : forall w w' rs b, (b = true -> good w) -> run w h = Ok (w', rs) ->
  settled b h rs = true -> good w'.
Proof.
  induction h as [|a h IH]; cbn; intros w w' rs b Hb H Hs.
  - inversion H; subst. auto.
  - inv_as H t Ht. destruct t as [w1 r]. inv_as H t2 Ht2. destruct t2 as [w2 rs2]. inversion H; subst.
    eapply IH; [|exact Ht2|exact Hs].
    intros E. destruct r; try discriminate E;
      (destruct a as [s| | | | | | | | |]; try (eapply step_good; [apply Hb; exact E|exact Ht|discriminate]);
       destruct s; try (eapply step_good; [apply Hb; exact E|exact Ht|discriminate]);
       eapply load_good; [exact Ht|discriminate]).
Qed.

Theorem reach_good w : reach w -> good w.
Proof. intros (h & rs & H & Hs). eapply run_good; [intros _; apply good0|exact H|exact Hs]. Qed.

(** ** Closure *)
Lemma run_app w h1 h2 : run w (h1 ++ h2) =
  bind (run w h1) (fun '(w1, r1) => bind (run w1 h2) (fun '(w2, r2) => Ok (w2, r1 ++ r2))).
Proof.
  revert w. induction h1 as [|a h1 IH]; intros w; cbn.
  - destruct (run w h2) as [[w2 r2]| | |]; reflexivity.
  - destruct (step w a) as [[w1 r]| | |]; cbn; auto. rewrite IH.
    destruct (run w1 h1) as [[w2 r1]| | |]; cbn; auto.
    destruct (run w2 h2) as [[w3 r3]| | |]; reflexivity.
Qed.
Lemma run_len h : forall w w' rs, run w h = Ok (w', rs) -> len rs = len h.
Proof.
  induction h as [|a h IH]; cbn; intros w w' rs H; [inversion H; auto|].
  inv_as H t Ht. destruct t as [w1 r]. inv_as H t2 Ht2. destruct t2 as [w2 rs2]. inversion H; subst.
  cbn. f_equal. eauto.
Qed.
Lemma settled_app h1 : forall rs1 h2 rs2 b, len rs1 = len h1 ->
  settled b (h1 ++ h2) (rs1 ++ rs2) = settled (settled b h1 rs1) h2 rs2.
Proof.
  induction h1 as [|a h1 IH]; intros [|r rs1] h2 rs2 b Hl; try discriminate Hl; [reflexivity|].
  cbn [app settled]. apply IH. now inversion Hl.
Qed.
Lemma reach_step w a w' r : reach w -> step w a = Ok (w', r) -> r <> RExc -> reach w'.
Proof.
  intros (h & rs & H & Hs) Hst Hr. exists (h ++ [a]), (rs ++ [r]). split.
  - rewrite run_app, H. cbn. rewrite Hst. reflexivity.
  - rewrite settled_app by (eapply run_len; eauto). rewrite Hs. cbn.
    destruct r; auto; destruct a; auto; destruct s; auto.
Qed.
Lemma reach_run h : forall w w' rs, reach w -> run w h = Ok (w', rs) -> ~ In RExc rs -> reach w'.
Proof.
  induction h as [|a h IH]; cbn; intros w w' rs Hw H Hn; [inversion H; subst; auto|].
  inv_as H t Ht. destruct t as [w1 r]. inv_as H t2 Ht2. destruct t2 as [w2 rs2]. inversion H; subst.
  eapply IH; [eapply reach_step; eauto|exact Ht2|].
  - intros ->. apply Hn. now left.
  - intros Hi. apply Hn. now right.
Qed.
Lemma reach0 : reach world0.
Proof. now exists [], []. Qed.
End R.
