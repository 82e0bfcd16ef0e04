(** Findings about configuration handling: C18, C19, C20, C57, C60. *)
From Coq Require Import List ZArith Bool Arith Lia ZifyBool String.
From RecordUpdate Require Import RecordSet.
From Verif Require Import Base Lib Machine Json Config Histogram Adc ReadDisturb Parasitics Mapper
  IntMappers BnnMappers TnnMappers Crossbar Api Shape ConfigProofs Reach Spec Demo ApiProps CfgProps.
Import ListNotations RecordSetNotations.
Local Open Scope Z_scope.
Local Open Scope out_scope.

Section Leak.
Context {MC : Machine}.

Lemma xmvm_wres c f x res vec mat m n l e :
  xmvm (c <| w_res := f |>) x res vec mat m n l e = xmvm c x res vec mat m n l e.
Proof. destruct c. reflexivity. Qed.
Lemma xwrite_wres c f x mat m n e : xwrite (c <| w_res := f |>) x mat m n e = xwrite c x mat m n e.
Proof. destruct c. reflexivity. Qed.

(** ** C19 *)
Definition with_wres (f : F) (w : world) : world := w <| wcfg := wcfg w <| w_res := f |> |>.

Lemma step_wres f a w : no_config a ->
  step (with_wres f w) a =
    match step w a with Ok (w1, r) => Ok (with_wres f w1, r) | UB u => UB u | Died => Died | Threw => Threw end.
Proof.
  unfold with_wres. destruct a; cbn [no_config step]; try tauto; intros _.
  - unfold cpy_mtrx. cbn [wx wcfg wenv set]. destruct (wx w) as [x|] eqn:Ex.
    2: { destruct w; cbn in *; subst. reflexivity. }
    change (wx (w <| wcfg := wcfg w <| w_res := f |> |>)) with (wx w). rewrite Ex.
    change (too_big (wcfg (w <| wcfg := wcfg w <| w_res := f |> |>)) m n) with (too_big (wcfg w) m n).
    destruct (too_big _ _ _); [reflexivity|]. destruct (dims m n) as [[m' n']| | |]; cbn [bind]; try reflexivity.
    change (wcfg (w <| wcfg := wcfg w <| w_res := f |> |>)) with (wcfg w <| w_res := f |>).
    change (wenv (w <| wcfg := wcfg w <| w_res := f |> |>)) with (wenv w).
    rewrite xwrite_wres. destruct (xwrite _ _ _ _ _ _) as [[x' e']| | |]; reflexivity.
  - unfold exe_mvm. 
    change (wx (w <| wcfg := wcfg w <| w_res := f |> |>)) with (wx w).
    change (too_big (wcfg (w <| wcfg := wcfg w <| w_res := f |> |>)) m n) with (too_big (wcfg w) m n).
    change (wcfg (w <| wcfg := wcfg w <| w_res := f |> |>)) with (wcfg w <| w_res := f |>).
    change (wenv (w <| wcfg := wcfg w <| w_res := f |> |>)) with (wenv w).
    destruct (wx w) as [x|] eqn:Ex; [|reflexivity].
    destruct (too_big _ _ _); [reflexivity|]. destruct (dims m n) as [[m' n']| | |]; cbn [bind]; try reflexivity.
    rewrite xmvm_wres. destruct (xmvm _ _ _ _ _ _ _ _ _) as [[[rs' x'] e']| | |]; reflexivity.
  - unfold py_mvm. 
    change (wx (w <| wcfg := wcfg w <| w_res := f |> |>)) with (wx w).
    change (wcfg (w <| wcfg := wcfg w <| w_res := f |> |>)) with (wcfg w <| w_res := f |>).
    change (wenv (w <| wcfg := wcfg w <| w_res := f |> |>)) with (wenv w).
    destruct (wx w) as [x|] eqn:Ex; [|reflexivity]. cbn [deref bind].
    destruct (dims m n) as [[m' n']| | |]; cbn [bind]; try reflexivity.
    rewrite xmvm_wres. destruct (xmvm _ _ _ _ _ _ _ _ _) as [[[rs' x'] e']| | |]; reflexivity.
  - change (wx (w <| wcfg := wcfg w <| w_res := f |> |>)) with (wx w).
    destruct (wx w) as [x|]; [|reflexivity]. cbn [checked bind]. destruct (get_mat x q); reflexivity.
  - change (wx (w <| wcfg := wcfg w <| w_res := f |> |>)) with (wx w).
    destruct (wx w) as [x|]; reflexivity.
  - change (wx (w <| wcfg := wcfg w <| w_res := f |> |>)) with (wx w).
    destruct (wx w) as [x|]; reflexivity.
  - change (wx (w <| wcfg := wcfg w <| w_res := f |> |>)) with (wx w).
    destruct (wx w) as [x|]; [|reflexivity]. cbn [checked bind]. destruct (xrd x); reflexivity.
Qed.

Lemma run_wres f h : Forall no_config h -> forall w, seen (run (with_wres f w) h) = seen (run w h).
Proof.
  induction 1 as [|a h Ha _ IH]; intros w; cbn [run]; [reflexivity|].
  rewrite step_wres by exact Ha. destruct (step w a) as [[w1 r]| | |]; cbn [bind seen]; try reflexivity.
  specialize (IH w1). destruct (run (with_wres f w1) h) as [[w2 rs]| | |], (run w1 h) as [[w3 rs3]| | |];
    cbn [bind seen] in *; congruence.
Qed.

Lemma par_of j a b : apply_config j a = Ok b -> digital_only b = false ->
  exists pa, opt as_bool j "parasitics" false = Ok pa /\
    if pa then exists w, need as_float j "w_res" = Ok w /\ w_res b = w /\ parasitics b = negb (feq w f0) /\
               V_read b = match need as_float j "V_read" with Ok v => v | _ => V_read b end
    else parasitics b = false /\ w_res b = w_res a.
Proof.
  intros H Hd. apply config_inv in H.
  destruct H as (m & n & mm & dig & a1 & b1 & v & Hm & Hn & _ & _ & _ & Hdig & Ha & Hb & Hv & ->).
  assert (B : exists wb ib sp, b1 = a1 <| W_BIT := wb |> <| I_BIT := ib |> <| SPLIT := sp |>).
  { eapply bits_frame; exact Hb. }
  destruct B as (wb & ib & sp & ->). cbn in Hd. destruct dig. { subst a1. discriminate. }
  apply analog_inv in Ha.
  destruct Ha as (h & l & at_ & y & hn & ln & dv & cv & rd & pa & v1 & r1 & _ & _ & _ & _ & _ & Ea & _ & _ & _ & _ & _ & _ & _ & Epa & Evr & Er & Ep).
  exists pa. split; [exact Epa|]. apply adc_frame in Ea. destruct Ea as (k1 & k2 & k3 & k4 & k5 & Ey).
  apply rd_frame in Er. destruct Er as (q1 & q2 & q3 & q4 & q5 & Er).
  assert (R : parasitics r1 = pa /\ w_res r1 = w_res a /\ V_read r1 = v1).
  { rewrite Er. refine (conj eq_refl (conj _ eq_refl)). rewrite Ey. reflexivity. }
  destruct R as (R1 & R2 & R3). apply par_inv in Ep. destruct Ep as [[Hp ->]|(Hp & w & Ew & ->)].
  - rewrite R1 in Hp. subst pa. split; [exact R1|exact R2].
  - rewrite R1 in Hp. subst pa. cbn [orb] in Evr. destruct Evr as [Evr _]. exists w. rewrite Evr.
    refine (conj Ew (conj eq_refl (conj eq_refl R3))).
Qed.

Lemma with_wres_eta c c' f : agree c (c' <| w_res := w_res c |>) -> keeps_rest c c' ->
  digital_only c = false -> parasitics c = true -> w_res c' = f -> supported c -> supported c' ->
  (is_int (m_mode c) = true \/ W_BIT c' = W_BIT c) ->
  c' = c <| w_res := f |>.
Proof.
  intros A K Hd Hp Hf S S' HW.
  destruct A as (A1 & A2 & A3 & A4 & A5 & A6 & A7 & A8 & A9).
  destruct K as (K1 & K2 & K3 & K4 & K5 & K6 & K7 & K8 & K9).
  specialize (A9 Hd). destruct A9 as (B1 & B2 & B3 & B4 & B5 & B6 & B7 & B8 & B9 & B10 & B11 & B12 & _).
  specialize (B11 (or_intror Hp)).
  destruct c, c'; cbn in *. subst.
  assert (E1 : W_BIT0 = W_BIT). { destruct HW as [HW|HW]; [now apply A7|exact HW]. }
  assert (E2 : I_BIT0 = I_BIT). { destruct (is_int m_mode) eqn:Ei; [now apply A7|now apply K1]. }
  assert (E3 : resolution0 = resolution /\ adc_calib_mode0 = adc_calib_mode /\ adc_profile0 = adc_profile /\
    adc_calib_dict0 = adc_calib_dict /\ bin_size0 = bin_size).
  { assert (Hdec : adc_type = INF_ADC \/ adc_type <> INF_ADC) by (destruct adc_type; auto; right; discriminate).
    destruct Hdec as [Ht|Ht].
    - destruct (K3 (or_intror Ht)) as (-> & -> & ->). rewrite (K4 (or_intror (or_introl Ht))), (K5 (or_intror (or_introl Ht))). auto.
    - destruct (B10 Ht) as (-> & -> & -> & Q1 & Q2). refine (conj eq_refl (conj eq_refl (conj eq_refl (conj _ _)))).
      + destruct adc_calib_mode; [apply K4; auto|apply Q1; reflexivity].
      + destruct adc_profile; [apply Q2; reflexivity|apply K5; auto]. }
  destruct E3 as (-> & -> & -> & -> & ->).
  assert (E4 : t_read0 = t_read /\ update_freq0 = update_freq /\ mitigation0 = mitigation /\
    mitigation_fp0 = mitigation_fp /\ tolerance0 = tolerance).
  { destruct read_disturb.
    - destruct (B12 eq_refl) as (-> & -> & -> & Q1 & Q2). refine (conj eq_refl (conj eq_refl (conj eq_refl (conj _ _)))).
      + destruct mitigation; [apply Q1; reflexivity|apply K7; right; right; discriminate|apply K7; right; right; discriminate].
      + destruct mitigation; [apply K8; right; right; discriminate|apply Q2; reflexivity|apply K8; right; right; discriminate].
    - destruct (K6 (or_intror eq_refl)) as (-> & -> & ->). rewrite (K7 (or_intror (or_introl eq_refl))), (K8 (or_intror (or_introl eq_refl))). auto. }
  destruct E4 as (-> & -> & -> & -> & ->). subst. reflexivity.
Qed.

Lemma bits_keep j a b : apply_config j a = Ok b -> is_int (m_mode b) = false ->
  ~ (m_mode b = TNN_IV \/ m_mode b = TNN_V) -> W_BIT b = W_BIT a.
Proof.
  intros H Hi Hn. apply config_inv in H.
  destruct H as (m & n & mm & dig & a1 & b1 & v & _ & _ & _ & _ & _ & Hdig & Ha & Hb & Hv & ->).
  assert (E : W_BIT a1 = W_BIT a).
  { destruct dig; [subst a1; reflexivity|]. apply analog_inv in Ha.
    destruct Ha as (h & l & at_ & y & hn & ln & dv & cv & rd & pa & v1 & r1 & _ & _ & _ & _ & _ & Ea & _ & _ & _ & _ & _ & _ & _ & _ & _ & Er & Ep).
    apply adc_frame in Ea. destruct Ea as (? & ? & ? & ? & ? & ->).
    apply rd_frame in Er. destruct Er as (? & ? & ? & ? & ? & ->).
    apply par_frame in Ep. destruct Ep as (? & ? & ->). reflexivity. }
  apply bits_inv in Hb. assert (Em : m_mode b1 = m_mode a1).
  { destruct (m_mode a1) eqn:Em; cbn [is_int] in Hb; try (destruct Hb as (?&?&?&_&_&_&_&_&->)); subst; cbn; auto. }
  cbn in Hi, Hn. rewrite Em in Hi, Hn. cbn. rewrite <- E.
  destruct (m_mode a1); try discriminate Hi; try (exfalso; apply Hn; tauto); cbn [is_int] in Hb; subst b1; reflexivity.
Qed.

Lemma w_res_stale : forall w v f w' r,
  reach w -> wx w <> None -> digital_only (wcfg w) = false -> parasitics (wcfg w) = true ->
  as_float v = CVal f -> feq f f0 = false -> ~ same_value (wdata w) ("w_res"%string, v) ->
  step w (UpdateConfig (UJson (JObj [("w_res"%string, v)]))) = Ok (w', r) ->
  wcfg w' = wcfg w <| w_res := f |> /\ wx w' = wx w /\
  forall h, Forall no_config h -> seen (run w' h) = seen (run w h).
Proof.
  intros w v f w' r Hr Hx Hd Hp Hf Hnz Hv H.
  pose proof (reach_good _ Hr) as G.
  destruct (g_sync _ G) as [[c0 Hs]|[_ E0]]; [|rewrite E0 in Hp; discriminate].
  cbn [step] in H. unfold update_config in H. destruct (wx w) as [x|] eqn:Ex; [|congruence].
  inv_as H q Q. destruct q as [[[j' c'] up] rc]. unfold update_cfg in Q. inv_as Q q Q1. destruct q as [[j1 md] rc1].
  assert (Q2 : exists j2, jset (wdata w) "w_res" v = Some j2 /\ j1 = j2 /\ md = true /\ rc1 = false).
  { change (jitems (JObj [("w_res"%string, v)])) with [("w_res"%string, v)] in Q1.
    rewrite changed_true in Q1 by exact Hv. destruct (jset (wdata w) "w_res" v) as [j2|]; [|discriminate].
    cbn in Q1. inversion Q1. eauto. }
  destruct Q2 as (j2 & Ej & -> & -> & ->). inv_as Q c1 C1. inversion Q; subst j2 c1 up rc. clear Q Q1.
  cbn [andb] in H. inversion H; subst w' r. clear H. cbn [wcfg wx set].
  assert (Hx' : eqx (wdata w) j').
  { intros k Hk. rewrite (jat_jset _ _ _ _ k Ej). destruct (String.eqb k "w_res") eqn:E; [|reflexivity].
    apply String.eqb_eq in E. congruence. }
  pose proof (config_det _ _ _ _ _ _ Hx' Hs C1) as (D1 & D2 & D3 & D4 & D5 & D6 & D7 & D8 & D9).
  pose proof (config_keeps _ _ _ C1) as K. pose proof (apply_supported _ _ _ Hs) as S.
  pose proof (apply_supported _ _ _ C1) as S'.
  destruct (D9 Hd) as ((G1 & G2 & G3 & G4 & G5 & G6 & G7 & G8 & G9 & G10 & G11) & _).
  assert (P : parasitics c' = true /\ w_res c' = f).
  { destruct (par_of _ _ _ Hs Hd) as (pa & Epa & Pa). destruct pa; [|destruct Pa; congruence].
    destruct (par_of _ _ _ C1 ltac:(congruence)) as (pa' & Epa' & Pa').
    rewrite (opt_same _ (wdata w) j') in Epa' by (apply Hx'; discriminate). assert (pa' = true) by congruence. subst pa'.
    destruct Pa' as (w1 & Ew & W1 & W2 & _). unfold need in Ew. rewrite (jat_jset _ _ _ _ "w_res" Ej) in Ew.
    rewrite String.eqb_refl, Hf in Ew. assert (E1 : f = w1) by congruence. rewrite <- E1 in W1, W2. rewrite Hnz in W2. split; assumption. }
  destruct P as [P1 P2].
  assert (Ec : c' = wcfg w <| w_res := f |>).
  { apply with_wres_eta; auto.
    - unfold agree. cbn. 
      refine (conj D1 (conj D2 (conj D3 (conj D4 (conj D5 (conj D6 (conj D7 (conj D8 (fun _ => conj G1 (conj G2 (conj G3 (conj G4 (conj G5 (conj G6 (conj G7 (conj G8 (conj _ (conj G9 (conj G10 (conj G11 _)))))))))))))))))))).
      + congruence.
      + reflexivity.
    - destruct (is_int (m_mode (wcfg w))) eqn:Ei; [now left|right].
      assert (Hdec : (m_mode (wcfg w) = TNN_IV \/ m_mode (wcfg w) = TNN_V) \/ ~ (m_mode (wcfg w) = TNN_IV \/ m_mode (wcfg w) = TNN_V)).
      { destruct (m_mode (wcfg w)); auto; right; intros [?|?]; discriminate. }
      destruct Hdec as [Ht|Ht]; [now apply D8|]. eapply bits_keep; [exact C1| |]; rewrite D3; auto. }
  split; [exact Ec|]. split; [exact Ex|].
  intros h Hh. rewrite <- (run_wres f h Hh w). 
  (* the data differs but is not looked at *)
  assert (Hdata : forall h, Forall no_config h -> forall w jd, seen (run (w <| wdata := jd |>) h) = seen (run w h)).
  { clear. induction 1 as [|a h Ha _ IH]; intros w jd; [reflexivity|]. cbn [run].
    assert (E : step (w <| wdata := jd |>) a =
      match step w a with Ok (w1, r) => Ok (w1 <| wdata := jd |>, r) | UB u => UB u | Died => Died | Threw => Threw end).
    { destruct w as [c j x e]. change (({| wcfg := c; wdata := j; wx := x; wenv := e |}) <| wdata := jd |>) with ({| wcfg := c; wdata := jd; wx := x; wenv := e |}). destruct a; cbn [no_config] in Ha; try tauto; cbn [step]; unfold cpy_mtrx, exe_mvm, py_mvm; cbn [wx wcfg wenv set bind deref checked].
      - destruct x; [|reflexivity]. destruct (too_big _ _ _); [reflexivity|].
        destruct (dims m n) as [[m' n']| | |]; cbn [bind]; try reflexivity.
        destruct (xwrite _ _ _ _ _ _) as [[x' e']| | |]; reflexivity.
      - destruct x; [|reflexivity]. destruct (too_big _ _ _); [reflexivity|].
        destruct (dims m n) as [[m' n']| | |]; cbn [bind]; try reflexivity.
        destruct (xmvm _ _ _ _ _ _ _ _ _) as [[[x' ?] e']| | |]; reflexivity.
      - destruct x; [|reflexivity]. cbn [deref bind].
        destruct (dims m n) as [[m' n']| | |]; cbn [bind]; try reflexivity.
        destruct (xmvm _ _ _ _ _ _ _ _ _) as [[[x' ?] e']| | |]; reflexivity.
      - destruct x as [x|]; [|reflexivity]. cbn [checked bind]. destruct (get_mat x q); reflexivity.
      - destruct x as [x|]; reflexivity.
      - destruct x as [x|]; reflexivity.
      - destruct x as [x|]; [|reflexivity]. cbn [checked bind]. destruct (xrd x); reflexivity. }
    rewrite E. destruct (step w a) as [[w1 r]| | |]; cbn [bind seen]; try reflexivity.
    specialize (IH w1 jd). destruct (run (w1 <| wdata := jd |>) h) as [[w2 rs]| | |], (run w1 h) as [[w3 rs3]| | |];
      cbn [bind seen] in *; congruence. }
  subst c'. exact (Hdata h Hh (with_wres f w) j').
Qed.

(** ** C18 *)
Lemma stale_resolution : forall w j s,
  resolution (wcfg w) = -1 -> jat j "digital_only" = Some (JBool false) -> jat j "adc_type" = Some (JStr s) ->
  s = "SYM_RANGE_ADC"%string \/ s = "POS_RANGE_ONLY_ADC"%string ->
  forall w' r, step w (SetConfig (Parsed j)) <> Ok (w', r).
Proof.
  intros w j s Hr Hd Ha Hs w' r H.
  assert (A : exists c', apply_config j (wcfg w) = Ok c').
  { cbn [step] in H. unfold set_config in H. inv_as H p P. inv_as H c1 C1. exists c1. exact C1. }
  destruct A as [c' A]. apply config_inv in A.
  destruct A as (m & n & mm & dig & a1 & b1 & v & _ & _ & _ & _ & _ & Hdig & Hana & _).
  unfold need in Hdig. rewrite Hd in Hdig. cbn in Hdig. inversion Hdig; subst dig.
  apply analog_inv in Hana.
  destruct Hana as (h & l & at_ & y & hn & ln & dv & cv & rd & pa & v1 & r1 & _ & _ & _ & _ & (an & N1 & N2) & Ea & _).
  unfold need in N1. rewrite Ha in N1. cbn in N1. inversion N1; subst an.
  assert (Hne : at_ <> INF_ADC).
  { destruct Hs as [->| ->]; cbn in N2; inversion N2; discriminate. }
  apply adc_inv in Ea. destruct Ea as [[E _]|(_ & E & _)].
  - cbn in E. congruence.
  - apply E. cbn. exact Hr.
Qed.

(** ** C57 *)
Lemma a_mvm_freq c k mp res vec mat m n l e :
  a_mvm (c <| update_freq := k |>) mp res vec mat m n l e = a_mvm c mp res vec mat m n l e.
Proof. destruct c. reflexivity. Qed.
Lemma add_c2c_freq c k mp m n e : add_c2c (c <| update_freq := k |>) mp m n e = add_c2c c mp m n e.
Proof. destruct c. reflexivity. Qed.
Lemma consec_freq c k m n r : update_consecutive (c <| update_freq := k |>) m n r = update_consecutive c m n r.
Proof. destruct c. reflexivity. Qed.

Lemma at_update0 c x : update_freq c = 0 -> at_update c x = UB DivByZero.
Proof. unfold at_update. intros ->. reflexivity. Qed.

Lemma rd_step0 c x m n e k r :
  update_freq c = 0 -> rd_step (c <| update_freq := k |>) x m n e = Ok r -> rd_step c x m n e = UB DivByZero.
Proof.
  intros H0 H. unfold rd_step in *. change (mitigation (c <| update_freq := k |>)) with (mitigation c) in H.
  destruct (mitigation c).
  - rewrite at_update0 by exact H0. reflexivity.
  - destruct (xrd x) as [r0|]; cbn [deref bind] in *; [|discriminate].
    rewrite consec_freq in H. destruct (update_consecutive c m n r0); cbn [bind] in *; try discriminate.
    rewrite at_update0 by exact H0. reflexivity.
  - rewrite at_update0 by exact H0. reflexivity.
Qed.

Lemma xmvm0 c x res vec mat m n l e k r :
  update_freq c = 0 -> digital_only c = false -> read_disturb c = true ->
  xmvm (c <| update_freq := k |>) x res vec mat m n l e = Ok r ->
  xmvm c x res vec mat m n l e = UB DivByZero.
Proof.
  intros H0 Hd Hr H. unfold xmvm in *. change (digital_only (c <| update_freq := k |>)) with (digital_only c) in H.
  change (c2c_var (c <| update_freq := k |>)) with (c2c_var c) in H.
  change (read_disturb (c <| update_freq := k |>)) with (read_disturb c) in H.
  rewrite Hd, Hr in *. rewrite add_c2c_freq in H.
  destruct (if c2c_var c then _ else _) as [[mp e1]| | |]; cbn [bind] in *; try discriminate.
  rewrite a_mvm_freq in H. destruct (a_mvm _ _ _ _ _ _ _ _ _) as [[[rs mp1] e2]| | |]; cbn [bind] in *; try discriminate.
  destruct (if c2c_var c then _ else _) as [mp2| | |]; cbn [bind] in *; try discriminate.
  destruct (rd_step (c <| update_freq := k |>) _ m n e2) as [q| | |] eqn:E; try discriminate.
  erewrite rd_step0; [reflexivity|exact H0|exact E].
Qed.

Lemma rd_step_never c x m n e r : update_freq c = 0 -> rd_step c x m n e <> Ok r.
Proof.
  intros H0 H. unfold rd_step in H. destruct (mitigation c).
  - rewrite at_update0 in H by exact H0. discriminate.
  - destruct (xrd x) as [r0|]; cbn [deref bind] in *; [|discriminate].
    destruct (update_consecutive c m n r0); cbn [bind] in *; try discriminate.
    rewrite at_update0 in H by exact H0. discriminate.
  - rewrite at_update0 in H by exact H0. discriminate.
Qed.

Lemma freq_zero : forall w res vec mat m n l,
  digital_only (wcfg w) = false -> read_disturb (wcfg w) = true -> update_freq (wcfg w) = 0 ->
  (forall w' rs, step w (ExeMvm res vec mat m n l) <> Ok (w', RRes 0 rs)) /\
  (forall k w' rs, step (w <| wcfg := wcfg w <| update_freq := k |> |>) (ExeMvm res vec mat m n l) = Ok (w', RRes 0 rs) ->
     step w (ExeMvm res vec mat m n l) = UB DivByZero).
Proof.
  intros w res vec mat m n l Hd Hr H0. cbn [step]. unfold exe_mvm. split.
  - intros w' rs H. destruct (wx w) as [x|]; [|discriminate]. destruct (too_big _ _ _); [discriminate|].
    destruct (dims m n) as [[m' n']| | |]; cbn [bind] in H; try discriminate.
    inv_as H q Q. unfold xmvm in Q. rewrite Hd, Hr in Q. inv_as Q q1 Q1. destruct q1. inv_as Q q2 Q2.
    destruct q2 as [[? ?] ?]. inv_as Q q3 Q3. inv_as Q q4 Q4. eapply rd_step_never; eassumption.
  - intros k w' rs H.
    change (wx (w <| wcfg := wcfg w <| update_freq := k |> |>)) with (wx w) in H.
    change (wcfg (w <| wcfg := wcfg w <| update_freq := k |> |>)) with (wcfg w <| update_freq := k |>) in H.
    change (wenv (w <| wcfg := wcfg w <| update_freq := k |> |>)) with (wenv w) in H.
    change (too_big (wcfg w <| update_freq := k |>) m n) with (too_big (wcfg w) m n) in H.
    destruct (wx w) as [x|]; [|discriminate]. destruct (too_big _ _ _); [discriminate|].
    destruct (dims m n) as [[m' n']| | |]; cbn [bind] in *; try discriminate.
    destruct (xmvm (wcfg w <| update_freq := k |>) _ _ _ _ _ _ _ _) as [q| | |] eqn:E; try discriminate.
    erewrite xmvm0; [reflexivity|exact H0|exact Hd|exact Hr|exact E].
Qed.

(** ** C20 at the level of the API *)
Lemma set_apply w j w' r : step w (SetConfig (Parsed j)) = Ok (w', r) -> apply_config j (wcfg w) = Ok (wcfg w').
Proof.
  cbn [step]. unfold set_config. intros H. inv_as H p P. inv_as H c1 C1.
  apply replace_cfg in H. cbn in H. rewrite H. exact C1.
Qed.
Lemma set_agree : forall j w1 w1' r1 w2 w2' r2,
  step w1 (SetConfig (Parsed j)) = Ok (w1', r1) -> step w2 (SetConfig (Parsed j)) = Ok (w2', r2) ->
  agree (wcfg w1') (wcfg w2').
Proof. intros. eapply config_agree; eapply set_apply; eassumption. Qed.
Lemma set_keeps : forall j w w' r,
  step w (SetConfig (Parsed j)) = Ok (w', r) -> keeps_rest (wcfg w) (wcfg w').
Proof. intros. eapply config_keeps; eapply set_apply; eassumption. Qed.

Lemma step_after w a b w1 rs : run w [a] = Ok (w1, rs) -> run w [a; b] = Died -> run w1 [b] = Died.
Proof.
  cbn [run]. destruct (step w a) as [[w2 r2]| | |]; cbn [bind]; try discriminate.
  intros E. assert (w2 = w1) by congruence. subst w2.
  destruct (step w1 b) as [[w3 r3]| | |]; cbn [bind]; congruence.
Qed.
End Leak.

(** ** Witnesses *)
Local Open Scope string_scope.
Definition bnn_doc : @json toy := ana_doc "BNN_III" 2 3 4 4 [] 5 30.
Definition fin_doc (res : Z) : @json toy :=
  puts (@ana_doc toy "BNN_VI" 2 2 4 4 [] 5 30) [("adc_type", JStr "SYM_RANGE_ADC"); ("resolution", JInt res)].
Definition rd_doc (freq : Z) : @json toy :=
  puts (@ana_doc toy "BNN_VI" 2 2 4 4 [] 5 30)
    [("read_disturb", JBool true); ("V_read", JInt (-1)); ("t_read", JInt 1); ("read_disturb_update_freq", JInt freq)].
Definition par_doc (r : Z) : @json toy :=
  puts bnn_doc [("parasitics", JBool true); ("V_read", JInt (-1)); ("w_res", JInt r)].
Definition prof_doc : @json toy := puts (fin_doc 8) [("adc_profile", JBool true)].
Definition inf_doc : @json toy := ana_doc "BNN_VI" 2 2 4 4 [] 5 30.
Definition dig2_doc : @json toy := dig_doc "BNN_VI" 2 2 4 4 [].
Definition use22 : list (@call toy) := [CpyMtrx [1; -1; 1; 1] 2 2; ExeMvm [0; 0] [1; -1] [] 2 2 ""].
Definition use23 : list (@call toy) := [CpyMtrx [1; -1; 1; 1; 1; -1] 2 3; ExeMvm [0; 0] [1; -1; 1] [] 2 3 ""].
Definition put1 (k : string) (v : @json toy) : @call toy := UpdateConfig (UJson (JObj [(k, v)])).

Lemma ex13 : code (run world0 [SetConfig (Parsed (rd_doc 3))]) = 0 /\
  code (run world0 [SetConfig (Parsed (puts (rd_doc 3) [("V_read", JInt 1)]))]) = 8 /\
  code (run world0 [SetConfig (Parsed (rd_doc 3)); put1 "m_mode" (JStr "I_TC_W_DIFF")]) = 8.
Proof. vm_compute. auto. Qed.

Lemma ex18 : code (run world0 [SetConfig (Parsed (fin_doc (-1)))]) = 0 /\
  code (run world0 [SetConfig (Parsed (fin_doc 8))]) = 0 /\
  code (run world0 [SetConfig (Parsed (fin_doc (-1))); SetConfig (Parsed (fin_doc 8))]) = 8.
Proof. vm_compute. auto. Qed.

Lemma refuted18 : exists w rs w8 rs8,
  run world0 [SetConfig (Parsed (fin_doc (-1)))] = Ok (w, rs) /\
  run world0 [SetConfig (Parsed (fin_doc 8))] = Ok (w8, rs8) /\
  run w [SetConfig (Parsed (fin_doc 8))] = Died.
Proof.
  destruct ex18 as (H1 & H2 & H3). 
  destruct (code_ok _ H1) as [[w rs] E1]. destruct (code_ok _ H2) as [[w8 rs8] E2].
  exists w, rs, w8, rs8. refine (conj E1 (conj E2 _)). apply code_died in H3.
  exact (step_after _ _ _ _ _ E1 H3).
Qed.

Lemma ex19 : runs_settled (SetConfig (Parsed (par_doc 1)) :: use23) = true /\
  code (run world0 (SetConfig (Parsed (par_doc 1)) :: use23 ++ [put1 "w_res" (JInt 7)] ++ use23)%list) = 0.
Proof. vm_compute. auto. Qed.
Definition w19 : @world toy := after (SetConfig (Parsed (par_doc 1)) :: use23).
Lemma hyps19 : reach w19 /\ wx w19 <> None /\ digital_only (wcfg w19) = false /\ parasitics (wcfg w19) = true /\
  feq (f_of_Z 7) (f0 : @F toy) = false /\ ~ same_value (wdata w19) ("w_res", JInt 7) /\
  exists w' r, step w19 (put1 "w_res" (JInt 7)) = Ok (w', r).
Proof.
  assert (A : reach w19) by (apply after_reach_b; vm_compute; reflexivity).
  assert (B : wx w19 <> None) by (apply has_xbar_some; vm_compute; reflexivity).
  assert (C : code (step w19 (put1 "w_res" (JInt 7))) = 0) by (vm_compute; reflexivity).
  destruct (code_ok _ C) as [[w' r] E].
  refine (conj A (conj B (conj _ (conj _ (conj _ (conj _ (ex_intro _ w' (ex_intro _ r E)))))))).
  1-3: vm_compute; reflexivity.
  unfold same_value. intros H. revert H. cbn [fst snd].
  assert (X : (match jat (wdata w19) "w_res" with Some cur => jeqb cur (JInt 7) | None => true end) = false)
    by (vm_compute; reflexivity).
  destruct (jat (wdata w19) "w_res"); [congruence|discriminate].
Qed.

Lemma null19 : exists w rs, run world0 [SetConfig (Parsed (par_doc 0)); put1 "w_res" (JInt 7)] = Ok (w, rs) /\
  step w (ExeMvm [0; 0] [1; -1; 1] [] 2 3 "") = UB NullDeref.
Proof.
  assert (C : code (run world0 [SetConfig (Parsed (par_doc 0)); put1 "w_res" (JInt 7)]) = 0) by (vm_compute; reflexivity).
  destruct (code_ok _ C) as [[w rs] E]. exists w, rs. split; [exact E|]. apply code_null.
  replace w with (after [SetConfig (Parsed (par_doc 0)); put1 "w_res" (JInt 7)]) by (unfold after; rewrite E; reflexivity).
  vm_compute. reflexivity.
Qed.

Lemma leak_rd : exists w rs, run world0 [SetConfig (Parsed (rd_doc 1)); SetConfig (Parsed dig2_doc); GetOob] = Ok (w, rs) /\
  run world0 [SetConfig (Parsed dig2_doc); GetOob] = Died /\ digital_only (wcfg w) = true /\ read_disturb (wcfg w) = true.
Proof.
  assert (C : code (run world0 [SetConfig (Parsed (rd_doc 1)); SetConfig (Parsed dig2_doc); GetOob]) = 0) by (vm_compute; reflexivity).
  destruct (code_ok _ C) as [[w rs] E]. exists w, rs. split; [exact E|].
  replace w with (after [SetConfig (Parsed (rd_doc 1)); SetConfig (Parsed dig2_doc); GetOob]) by (unfold after; rewrite E; reflexivity).
  refine (conj _ (conj _ _)); [apply code_died|..]; vm_compute; reflexivity.
Qed.
Lemma leak_profile : exists w rs, run world0 (SetConfig (Parsed inf_doc) :: use22) = Ok (w, rs) /\
  run world0 (SetConfig (Parsed prof_doc) :: SetConfig (Parsed inf_doc) :: use22) = UB FloatToInt.
Proof.
  assert (C : code (run world0 (SetConfig (Parsed inf_doc) :: use22)) = 0) by (vm_compute; reflexivity).
  destruct (code_ok _ C) as [[w rs] E]. exists w, rs. split; [exact E|]. apply code_f2i. vm_compute. reflexivity.
Qed.

Lemma ex57 : code (run world0 (SetConfig (Parsed (rd_doc 0)) :: use22)) = 6 /\
  code (run world0 (SetConfig (Parsed (rd_doc 1)) :: use22)) = 0 /\
  update_freq (wcfg (after [SetConfig (Parsed (rd_doc 0))])) = 0 /\
  read_disturb (wcfg (after [SetConfig (Parsed (rd_doc 0))])) = true /\
  digital_only (wcfg (after [SetConfig (Parsed (rd_doc 0))])) = false.
Proof. vm_compute. auto. Qed.

Definition upd60 : @call toy := UpdateConfig (UJson (JObj [("M", JInt 4); ("m_mode", JStr "I_TC_W_DIFF");
  ("parasitics", JBool true); ("V_read", JInt (-1)); ("w_res", JInt 1)])).
Definition h60 : list (@call toy) := [SetConfig (Parsed (ana_doc "I_DIFF_W_DIFF_1XB" 2 2 4 4 [2; 2] 5 30)); upd60].
Definition thrown {MC : Machine} (rs : list result) : bool := match rs with [_; RExc] => true | _ => false end.
Lemma thrown_run {MC : Machine} h : (match run world0 h with Ok (_, rs) => thrown rs | _ => false end) = true ->
  exists rs, run world0 h = Ok (after h, rs) /\ thrown rs = true.
Proof. unfold after. destruct (run world0 h) as [[w rs]| | |]; try discriminate. eauto. Qed.
Lemma refuted60 : exists w rs, run world0 h60 = Ok (w, rs) /\ thrown rs = true /\ M (wcfg w) = 4 /\ N (wcfg w) = 2 /\
  step w (CpyMtrx [1; 1; 1; 1; 1; 1; 1; 1] 4 2) = UB OutOfBounds.
Proof.
  assert (C : (match run world0 h60 with Ok (_, rs) => thrown rs | _ => false end) = true) by (vm_compute; reflexivity).
  destruct (@thrown_run toy h60 C) as (rs & E & T). exists (after h60), rs.
  refine (conj E (conj T (conj _ (conj _ _)))); [| |apply code_oob]; vm_compute; reflexivity.
Qed.
