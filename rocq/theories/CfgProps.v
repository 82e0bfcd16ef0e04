(** What a configuration load accepts, determines and leaves alone. *)
From Coq Require Import List ZArith Bool Arith Lia ZifyBool String.
From RecordUpdate Require Import RecordSet.
From Verif Require Import Base Lib Machine Json Config Histogram Adc ReadDisturb Parasitics Mapper
  Crossbar Api Shape ConfigProofs Reach Spec.
Import ListNotations RecordSetNotations.
Local Open Scope Z_scope.
Local Open Scope out_scope.

Section CfgProps.
Context {MC : Machine}.

Lemma die_if_ok b u : die_if b = Ok u -> b = false.
Proof. unfold die_if. destruct b; congruence. Qed.

(** ** Supported configurations (C13) *)
Lemma named_in {A} (l : list (string * A)) s a : named l s = Ok a -> In (s, a) l.
Proof.
  unfold named. induction l as [|[k v] l IH]; cbn; [discriminate|].
  destruct (String.eqb s k) eqn:E; auto. apply String.eqb_eq in E. subst k. intros H. left. congruence.
Qed.

(** Values of a block in terms of the document. *)
Lemma analog_inv j a b : apply_analog j a = Ok b ->
  exists h l at_ a1 hn ln dv cv rd pa v1 r1,
    need as_float j "HRS" = Ok h /\ need as_float j "LRS" = Ok l /\ fle h f0 = false /\ fle l f0 = false /\
    (exists an, need as_string j "adc_type" = Ok an /\ named adc_names an = Ok at_) /\
    apply_adc j (a <| HRS := h |> <| LRS := l |> <| adc_type := at_ |>) = Ok a1 /\
    adc_ok (m_mode a1) (adc_type a1) = true /\
    need as_float j "HRS_NOISE" = Ok hn /\ need as_float j "LRS_NOISE" = Ok ln /\
    opt as_bool j "d2d_var" true = Ok dv /\ opt as_bool j "c2c_var" false = Ok cv /\
    is_int (m_mode a1) && (dv && cv) = false /\
    opt as_bool j "read_disturb" false = Ok rd /\ opt as_bool j "parasitics" false = Ok pa /\
    (if pa || rd then need as_float j "V_read" = Ok v1 /\ fle f0 v1 = false else v1 = V_read a1) /\
    apply_rd j (a1 <| HRS_NOISE := hn |> <| LRS_NOISE := ln |> <| d2d_var := dv |> <| c2c_var := cv |>
       <| read_disturb := rd |> <| parasitics := pa |> <| V_read := v1 |>) = Ok r1 /\
    apply_par j r1 = Ok b.
Proof.
  intros A1. unfold apply_analog in A1.
  inv_as A1 h E0. inv_as A1 l E1. inv_as A1 an E2. inv_as A1 at_ E3. inv_as A1 u1 U1.
  inv_as A1 y E4. inv_as A1 u2 U2. inv_as A1 hn E5. inv_as A1 ln E6. inv_as A1 dv E7. inv_as A1 cv E8. inv_as A1 u3 U3.
  inv_as A1 rd E9. inv_as A1 pa E10. inv_as A1 z E12. inv_as A1 zz E13.
  apply die_if_ok in U1, U2, U3. apply orb_false_iff in U1. destruct U1 as [U1 U1'].
  apply negb_false_iff in U2.
  assert (Hv : exists v, z = y <| HRS_NOISE := hn |> <| LRS_NOISE := ln |> <| d2d_var := dv |>
    <| c2c_var := cv |> <| read_disturb := rd |> <| parasitics := pa |> <| V_read := v |> /\
    (if pa || rd then need as_float j "V_read" = Ok v /\ fle f0 v = false else v = V_read y)).
  { destruct (pa || rd).
    - inv_as E12 q Q. inv_as E12 q' Q'. apply die_if_ok in Q'. inversion E12. eauto.
    - inversion E12. exists (V_read y). destruct y; split; reflexivity. }
  destruct Hv as (v & -> & Hv).
  exists h, l, at_, y, hn, ln, dv, cv, rd, pa, v, zz.
  refine (conj E0 (conj E1 (conj U1 (conj U1' (conj _ (conj E4 (conj U2 (conj E5 (conj E6 (conj E7 (conj E8
    (conj U3 (conj E9 (conj E10 (conj Hv (conj E13 A1)))))))))))))))).
  eauto.
Qed.

Lemma rd_inv j a b : apply_rd j a = Ok b -> 
  (read_disturb a = false /\ b = a) \/
  (read_disturb a = true /\ is_int (m_mode a) = false /\
   exists t u ms mt, need as_float j "t_read" = Ok t /\ opt as_u32 j "read_disturb_update_freq" 1 = Ok u /\
     opt as_string j "read_disturb_mitigation_strategy" "OFF"%string = Ok ms /\ named mitig_names ms = Ok mt /\
     match mt with
     | SOFTWARE => exists fp, need as_float j "read_disturb_mitigation_fp" = Ok fp /\ flt fp (f_of_Z 1) = false /\
         b = a <| t_read := t |> <| update_freq := u |> <| mitigation := mt |> <| mitigation_fp := fp |>
     | CELL_BASED => exists tol, need as_float j "read_disturb_update_tolerance" = Ok tol /\
         flt tol f0 = false /\ flt (f_of_Z 1) tol = false /\
         b = a <| t_read := t |> <| update_freq := u |> <| mitigation := mt |> <| tolerance := tol |>
     | MIT_OFF => b = a <| t_read := t |> <| update_freq := u |> <| mitigation := mt |>
     end).
Proof.
  unfold apply_rd. destruct (read_disturb a) eqn:E; cbn [negb].
  - intros H. right. split; [reflexivity|]. inv_as H u0 U0. apply die_if_ok in U0. split; [exact U0|].
    inv_as H t T. inv_as H u U. inv_as H ms Ms. inv_as H mt Mt. exists t, u, ms, mt.
    refine (conj T (conj U (conj Ms (conj Mt _)))). destruct mt.
    + inv_as H fp Fp. inv_as H z Zz. apply die_if_ok in Zz. inversion H. eauto.
    + inv_as H fp Fp. inv_as H z Zz. apply die_if_ok in Zz. apply orb_false_iff in Zz. inversion H. exists fp. tauto.
    + now inversion H.
  - intros H. inversion H. left. auto.
Qed.

Lemma par_inv j a b : apply_par j a = Ok b ->
  (parasitics a = false /\ b = a) \/
  (parasitics a = true /\ exists w, need as_float j "w_res" = Ok w /\
     b = a <| w_res := w |> <| parasitics := negb (feq w f0) |>).
Proof.
  unfold apply_par. destruct (parasitics a) eqn:E; cbn [negb].
  - intros H. right. split; [reflexivity|]. inv_as H w W. exists w. split; [exact W|].
    destruct (feq w f0); inversion H; [reflexivity|]. destruct a; cbn in E; subst. reflexivity.
  - intros H. inversion H. left. auto.
Qed.

Lemma bits_inv j a b : apply_bits j a = Ok b ->
  match m_mode a with
  | TNN_IV | TNN_V => b = a <| W_BIT := 2 |> <| SPLIT := [1; 1] |>
  | _ => if is_int (m_mode a) then
           exists w i s, need as_u32 j "W_BIT" = Ok w /\ need as_u32 j "I_BIT" = Ok i /\
             need as_u32s j "SPLIT" = Ok s /\ 1 <= w /\ 1 <= i /\ b = a <| W_BIT := w |> <| I_BIT := i |> <| SPLIT := s |>
         else b = a <| SPLIT := [0] |>
  end.
Proof.
  unfold apply_bits.
  assert (Haux : forall (s : list Z) (c1 c2 : config),
    (match s with [1; 1] => Ok c1 | _ => Died end) = Ok c2 -> c2 = c1 /\ s = [1; 1]).
  { intros s0 c1 c2 E. repeat match type of E with context [match ?s with _ => _ end] => destruct s; try discriminate E end.
    inversion E; auto. }
  destruct (m_mode a); cbn [is_int]; intros H; try (now inversion H);
    try (inv_as H w W; inv_as H i I; inv_as H s S; inv_as H u U; apply die_if_ok in U; apply orb_false_iff in U;
         inversion H; exists w, i, s; refine (conj W (conj I (conj S _))); split; [lia|split; [lia|reflexivity]]);
    inv_as H w W; inv_as H s S; inv_as H u U; apply die_if_ok in U; apply Haux in H; destruct H as [-> ->];
    replace w with 2 by lia; reflexivity.
Qed.

Lemma config_inv j a b : apply_config j a = Ok b ->
  exists m n mm dig a1 b1 v,
    need as_u32 j "M" = Ok m /\ need as_u32 j "N" = Ok n /\ 1 <= m /\ 1 <= n /\
    (exists mn, need as_string j "m_mode" = Ok mn /\ named mode_names mn = Ok mm) /\
    need as_bool j "digital_only" = Ok dig /\
    (if dig then a1 = a <| M := m |> <| N := n |> <| m_mode := mm |> <| digital_only := dig |>
     else apply_analog j (a <| M := m |> <| N := n |> <| m_mode := mm |> <| digital_only := dig |>) = Ok a1) /\
    apply_bits j a1 = Ok b1 /\ need as_bool j "verbose" = Ok v /\ b = b1 <| verbose := v |>.
Proof.
  intros H. unfold apply_config in H.
  inv_as H x Hx. inv_as H x0 Hx0. inv_as H u1 U1. inv_as H x1 Hx1. inv_as H x2 Hx2. inv_as H x3 Hx3.
  inv_as H a1 A1. inv_as H b1 B1. inv_as H x4 Hx4. inversion H as [Hc]. clear H. apply die_if_ok in U1.
  apply orb_false_iff in U1. exists x, x0, x2, x3, a1, b1, x4.
  refine (conj Hx (conj Hx0 (conj _ (conj _ (conj _ (conj Hx3 (conj _ (conj B1 (conj Hx4 eq_refl))))))))).
  - lia.
  - lia.
  - eauto.
  - destruct x3; [now inversion A1|exact A1].
Qed.

Lemma adc_ok_spec m a : adc_ok m a = true ->
  (a = SYM_RANGE_ADC -> ~ In m single_ended) /\ (a = POS_RANGE_ONLY_ADC -> In m single_ended).
Proof.
  unfold single_ended. intros H. split; intros ->; destruct m; try discriminate H; cbn; try tauto;
    intros Hi; repeat (destruct Hi as [Hi|Hi]; [discriminate Hi|]); exact Hi.
Qed.

Lemma apply_supported j a b : apply_config j a = Ok b -> supported b.
Proof.
  intros H. apply config_inv in H.
  destruct H as (m & n & mm & dig & a1 & b1 & v & Hm & Hn & Hm1 & Hn1 & _ & Hdig & Ha & Hb & Hv & ->).
  assert (Ha1 : M a1 = m /\ N a1 = n /\ m_mode a1 = mm /\ digital_only a1 = dig /\
    (dig = false -> fle (HRS a1) f0 = false /\ fle (LRS a1) f0 = false /\
     (adc_type a1 = SYM_RANGE_ADC -> ~ In (m_mode a1) single_ended) /\
     (adc_type a1 = POS_RANGE_ONLY_ADC -> In (m_mode a1) single_ended) /\
     (is_int (m_mode a1) = true -> d2d_var a1 && c2c_var a1 = false) /\
     (read_disturb a1 = true -> is_int (m_mode a1) = false /\ fle f0 (V_read a1) = false /\
        (mitigation a1 = SOFTWARE -> flt (mitigation_fp a1) (f_of_Z 1) = false) /\
        (mitigation a1 = CELL_BASED -> flt (tolerance a1) f0 = false /\ flt (f_of_Z 1) (tolerance a1) = false)) /\
     (parasitics a1 = true -> fle f0 (V_read a1) = false /\ feq (w_res a1) f0 = false))).
  { destruct dig.
    - subst a1. repeat split; try discriminate; auto.
    - apply analog_inv in Ha.
      destruct Ha as (h & l & at_ & y & hn & ln & dv & cv & rd & pa & v1 & r1 & _ & _ & Hh & Hl & _ & Ea & Hok & _ & _ & _ & _ & Hvar & _ & _ & Hvr & Er & Ep).
      apply adc_frame in Ea. destruct Ea as (k1 & k2 & k3 & k4 & k5 & Ey).
      assert (Ey' : HRS y = h /\ LRS y = l /\ m_mode y = mm /\ M y = m /\ N y = n /\ digital_only y = false).
      { subst y. destruct a; vm_compute; tauto. } clear Ey.
      destruct Ey' as (Y1 & Y2 & Y3 & Y4 & Y5 & Y6).
      set (z := y <| HRS_NOISE := hn |> <| LRS_NOISE := ln |> <| d2d_var := dv |> <| c2c_var := cv |>
       <| read_disturb := rd |> <| parasitics := pa |> <| V_read := v1 |>) in *.
      assert (Z : HRS z = h /\ LRS z = l /\ m_mode z = mm /\ M z = m /\ N z = n /\ digital_only z = false /\
        adc_type z = adc_type y /\ d2d_var z = dv /\ c2c_var z = cv /\ read_disturb z = rd /\ parasitics z = pa /\ V_read z = v1).
      { subst z. destruct y; cbn in *; subst; repeat apply conj; reflexivity. }
      destruct Z as (Z1 & Z2 & Z3 & Z4 & Z5 & Z6 & Z7 & Z8 & Z9 & Z10 & Z11 & Z12). clearbody z.
      assert (R : HRS r1 = h /\ LRS r1 = l /\ m_mode r1 = mm /\ M r1 = m /\ N r1 = n /\ digital_only r1 = false /\
        adc_type r1 = adc_type y /\ d2d_var r1 = dv /\ c2c_var r1 = cv /\ read_disturb r1 = rd /\ parasitics r1 = pa /\ V_read r1 = v1 /\
        (rd = true -> is_int mm = false /\ 
        (mitigation r1 = SOFTWARE -> flt (mitigation_fp r1) (f_of_Z 1) = false) /\
        (mitigation r1 = CELL_BASED -> flt (tolerance r1) f0 = false /\ flt (f_of_Z 1) (tolerance r1) = false))).
      { apply rd_inv in Er. destruct Er as [[Hr ->]|(Hr & Hi & t & u & ms & mt & _ & _ & _ & _ & Hmt)].
        - refine (conj Z1 (conj Z2 (conj Z3 (conj Z4 (conj Z5 (conj Z6 (conj Z7 (conj Z8 (conj Z9 (conj Z10 (conj Z11 (conj Z12 _)))))))))))). congruence.
        - rewrite Z3 in Hi. destruct mt.
          + destruct Hmt as (fp & _ & Hfp & ->). destruct z; cbn in *; subst. repeat split; auto; discriminate.
          + destruct Hmt as (fp & _ & Hfp & Hfp' & ->). destruct z; cbn in *; subst. repeat split; auto; discriminate.
          + subst r1. destruct z; cbn in *; subst. repeat split; auto; discriminate. }
      clear Z1 Z2 Z3 Z4 Z5 Z6 Z7 Z8 Z9 Z10 Z11 Z12 Er z.
      destruct R as (Z1 & Z2 & Z3 & Z4 & Z5 & Z6 & Z7 & Z8 & Z9 & Z10 & Z11 & Z12 & Z13).
      destruct (adc_ok_spec _ _ Hok) as [O1 O2]. rewrite Y3 in *.
      assert (Hvr' : rd = true \/ pa = true -> fle f0 v1 = false).
      { intros Hor. destruct (pa || rd) eqn:E; [apply Hvr|]. apply orb_false_iff in E. destruct E, Hor; congruence. }
      apply par_inv in Ep. destruct Ep as [[Hp ->]|(Hp & w & _ & ->)].
      + rewrite Z1, Z2, Z3, Z4, Z5, Z6, Z7, Z8, Z9, Z10, Z12.
        refine (conj eq_refl (conj eq_refl (conj eq_refl (conj eq_refl (fun _ => conj Hh (conj Hl (conj O1 (conj O2 (conj _ (conj _ _)))))))))).
        * intros Hi. now rewrite Hi in Hvar.
        * intros Hrd. destruct (Z13 Hrd) as (Q1 & Q2 & Q3). split; [exact Q1|]. split; [apply Hvr'; auto|]. split; [exact Q2|exact Q3].
        * congruence.
      + destruct r1; cbn in *. subst.
        refine (conj eq_refl (conj eq_refl (conj eq_refl (conj eq_refl (fun _ => conj Hh (conj Hl (conj O1 (conj O2 (conj _ (conj _ _)))))))))).
        * intros Hi. now rewrite Hi in Hvar.
        * intros Hrd. destruct (Z13 Hrd) as (Q1 & Q2 & Q3). split; [exact Q1|]. split; [apply Hvr'; auto|]. split; [exact Q2|exact Q3].
        * intros Hf. apply negb_true_iff in Hf. split; [apply Hvr'; auto|exact Hf]. }
  destruct Ha1 as (A1 & A2 & A3 & A4 & A5). clear Ha.
  apply bits_inv in Hb.
  assert (Hbb : exists wb ib sp, b1 = a1 <| W_BIT := wb |> <| I_BIT := ib |> <| SPLIT := sp |> /\
     (is_int (m_mode a1) = true -> 1 <= wb /\ 1 <= ib) /\ (m_mode a1 = TNN_IV \/ m_mode a1 = TNN_V -> wb = 2 /\ sp = [1; 1])).
  { destruct (m_mode a1) eqn:Em; cbn [is_int] in Hb;
    try (destruct Hb as (w & i & sp & _ & _ & _ & Hw & Hi & ->); exists w, i, sp; split; [destruct a1; reflexivity|]; split; [auto|intros [?|?]; discriminate]);
    try (subst b1; exists (W_BIT a1), (I_BIT a1), [0]; split; [destruct a1; reflexivity|]; split; [discriminate|intros [?|?]; discriminate]);
    subst b1; exists 2, (I_BIT a1), [1; 1]; (split; [destruct a1; reflexivity|]; split; [discriminate|auto]). }
  destruct Hbb as (wb & ib & sp & -> & B1 & B2). clear Hb.
  unfold supported.
  destruct a1; cbn in *. subst. split; [lia|split; [lia|split; [exact B1|split; [exact B2|exact A5]]]].
Qed.

Lemma update_cfg_cases upds j c j' c' b r : update_cfg upds j c = Ok (j', c', b, r) ->
  c' = c \/ apply_config j' c = Ok c'.
Proof.
  unfold update_cfg. intros H. inv_as H q Q. destruct q as [[j1 md] rc]. destruct md.
  - inv_as H x E. inversion H; subst. auto.
  - inversion H; auto.
Qed.

Lemma replace_cfg w r w' r' : replace_xbar w r = Ok (w', r') -> wcfg w' = wcfg w.
Proof.
  unfold replace_xbar. destruct (xbar_new _); try discriminate.
  - intros H. inv_as H u U. now inversion H.
  - intros H. now inversion H.
Qed.

Lemma step_cfg w a w' r : step w a = Ok (w', r) ->
  wcfg w' = wcfg w \/ exists j, apply_config j (wcfg w) = Ok (wcfg w').
Proof.
  destruct a; cbn [step].
  - unfold set_config. intros H. inv_as H u U. destruct s.
    + apply replace_cfg in H. auto.
    + discriminate.
    + inversion H; auto.
    + inv_as H c C. apply replace_cfg in H. right. exists j. rewrite H. exact C.
  - unfold update_config. destruct (wx w); [|intros H; inversion H; auto].
    destruct u; try discriminate; [intros H; inversion H; auto|].
    intros H. inv_as H q Q. destruct q as [[[j1 c1] up] rc]. apply update_cfg_cases in Q.
    assert (E : wcfg w' = c1). { destruct (up && rc); [apply replace_cfg in H; exact H|now inversion H]. }
    rewrite E. destruct Q; eauto.
  - unfold cpy_mtrx. destruct (wx w); [|intros H; inversion H; auto].
    destruct (too_big _ _ _); [intros H; inversion H; auto|]. intros H. inv_as H q Q. destruct q.
    inv_as H q Q1. destruct q. inversion H; auto.
  - unfold exe_mvm. destruct (wx w); [|intros H; inversion H; auto].
    destruct (too_big _ _ _); [intros H; inversion H; auto|]. intros H. inv_as H q Q. destruct q.
    inv_as H q Q1. destruct q as [[??]?]. inversion H; auto.
  - unfold py_mvm. intros H. inv_as H q0 Q0. inv_as H q Q. destruct q.
    inv_as H q Q1. destruct q as [[??]?]. inversion H; auto.
  - intros H. inv_as H z0 Z0. inv_as H z1 Z1. inversion H; auto.
  - intros H. inv_as H z0 Z0. inversion H; auto.
  - intros H. inv_as H z0 Z0. inversion H; auto.
  - intros H. inv_as H z0 Z0. inv_as H z1 Z1. inversion H; auto.
  - intros H. inversion H; auto.
Qed.

Lemma run_supported h : forall w w' rs, run w h = Ok (w', rs) -> wcfg w = config0 \/ supported (wcfg w) ->
  wcfg w' = config0 \/ supported (wcfg w').
Proof.
  induction h as [|a h IH]; cbn [run]; intros w w' rs H Hw.
  - now inversion H; subst.
  - inv_as H q Q. destruct q as [w1 r]. inv_as H q1 Q1. destruct q1 as [w2 rs1]. inversion H; subst.
    eapply IH; [exact Q1|]. apply step_cfg in Q. destruct Q as [E|[j E]]; [now rewrite E|].
    right. now apply apply_supported in E.
Qed.

Lemma history_supported : forall h w rs, run world0 h = Ok (w, rs) -> wcfg w = config0 \/ supported (wcfg w).
Proof. intros h w rs H. eapply run_supported; [exact H|]. now left. Qed.

Lemma set_supported : forall w j w' r, step w (SetConfig (Parsed j)) = Ok (w', r) -> supported (wcfg w').
Proof.
  intros w j w' r H. cbn [step set_config] in H. inv_as H u U. inv_as H c C.
  apply replace_cfg in H. rewrite H. cbn. now apply apply_supported in C.
Qed.

(** ** What a load determines (C19, C20) *)
Definition eqx (j j' : json) : Prop := forall k, k <> "w_res"%string -> jat j' k = jat j k.
Lemma eqx_refl j : eqx j j.
Proof. easy. Qed.

Ltac same E E' :=
  match type of E with
  | need _ ?j ?k = Ok ?x => match type of E' with need _ ?j' ?k = Ok ?y =>
      rewrite (need_same _ j j') in E' by (first [reflexivity | match goal with Hx : eqx j j' |- _ => apply Hx; discriminate end]);
      assert (y = x) by congruence; subst y; clear E' end
  | opt _ ?j ?k ?d = Ok ?x => match type of E' with opt _ ?j' ?k ?d = Ok ?y =>
      rewrite (opt_same _ j j') in E' by (first [reflexivity | match goal with Hx : eqx j j' |- _ => apply Hx; discriminate end]);
      assert (y = x) by congruence; subst y; clear E' end
  end.

Definition adc_agree (a b b' : config) : Prop :=
  resolution b' = resolution b /\ adc_calib_mode b' = adc_calib_mode b /\ adc_profile b' = adc_profile b /\
  (adc_calib_mode b = CAL_CALIB -> adc_calib_dict b' = adc_calib_dict b) /\
  (adc_profile b = true -> bin_size b' = bin_size b).

Lemma adc_inv j a b : apply_adc j a = Ok b ->
  (adc_type a = INF_ADC /\ b = a) \/
  (adc_type a <> INF_ADC /\ resolution a <> -1 /\ exists r cm p m d bs,
     need as_i32 j "resolution" = Ok r /\ opt as_string j "adc_calib_mode" "MAX"%string = Ok cm /\
     opt as_bool j "adc_profile" false = Ok p /\
     (if String.eqb cm "MAX" then m = CAL_MAX /\ d = adc_calib_dict a
      else m = CAL_CALIB /\ need as_dict j "adc_calib_dict" = Ok d) /\
     (if p then opt as_i32 j "adc_profile_bin_size" 10 = Ok bs else bs = bin_size a) /\
     b = a <| resolution := r |> <| adc_calib_mode := m |> <| adc_calib_dict := d |>
           <| adc_profile := p |> <| bin_size := bs |>).
Proof.
  unfold apply_adc. intros H. destruct (adc_eqb (adc_type a) INF_ADC) eqn:E.
  - left. inversion H; subst b. split; [|reflexivity]. destruct (adc_type a); try discriminate; reflexivity.
  - right. split; [intros X; rewrite X in E; discriminate|].
    inv_as H u U. apply die_if_ok in U. split; [lia|].
    inv_as H r R. inv_as H cm C. inv_as H c1 C1. inv_as H p P.
    assert (Hc1 : exists m d, c1 = a <| resolution := r |> <| adc_calib_mode := m |> <| adc_calib_dict := d |> /\
      (if String.eqb cm "MAX" then m = CAL_MAX /\ d = adc_calib_dict a
      else m = CAL_CALIB /\ need as_dict j "adc_calib_dict" = Ok d)).
    { destruct (String.eqb cm "MAX").
      - inversion C1. exists CAL_MAX, (adc_calib_dict a). split; [|auto]. destruct a; reflexivity.
      - destruct (String.eqb cm "CALIB"); [|discriminate]. inv_as C1 d D. destruct d; [discriminate|].
        inversion C1. do 2 eexists. split; [reflexivity|]. auto. }
    destruct Hc1 as (m & d & -> & Hmd). destruct p.
    + inv_as H bs B. exists r, cm, true, m, d, bs. inversion H.
      refine (conj R (conj C (conj P (conj Hmd (conj B _))))). destruct a; reflexivity.
    + exists r, cm, false, m, d, (bin_size a). inversion H.
      refine (conj R (conj C (conj P (conj Hmd (conj eq_refl _))))). destruct a; reflexivity.
Qed.

(** Settings before the analog block is left. *)
Definition ana_agree (c c' : config) : Prop :=
     HRS c' = HRS c /\ LRS c' = LRS c /\ adc_type c' = adc_type c /\
     HRS_NOISE c' = HRS_NOISE c /\ LRS_NOISE c' = LRS_NOISE c /\
     d2d_var c' = d2d_var c /\ c2c_var c' = c2c_var c /\
     read_disturb c' = read_disturb c /\
     (adc_type c <> INF_ADC ->
        resolution c' = resolution c /\ adc_calib_mode c' = adc_calib_mode c /\ adc_profile c' = adc_profile c /\
        (adc_calib_mode c = CAL_CALIB -> adc_calib_dict c' = adc_calib_dict c) /\
        (adc_profile c = true -> bin_size c' = bin_size c)) /\
     (read_disturb c = true \/ parasitics c = true -> V_read c' = V_read c) /\
     (read_disturb c = true ->
        t_read c' = t_read c /\ update_freq c' = update_freq c /\ mitigation c' = mitigation c /\
        (mitigation c = SOFTWARE -> mitigation_fp c' = mitigation_fp c) /\
        (mitigation c = CELL_BASED -> tolerance c' = tolerance c)).

Lemma analog_det j j' a b a' b' : eqx j j' -> apply_analog j a = Ok b -> apply_analog j' a' = Ok b' ->
  ana_agree b b' /\ 
  (jat j' "w_res" = jat j "w_res" -> parasitics b' = parasitics b /\ (parasitics b = true -> w_res b' = w_res b)).
Proof.
  intros Hx H H'. apply analog_inv in H, H'.
  destruct H as (h & l & at_ & y & hn & ln & dv & cv & rd & pa & v1 & r1 & Eh & El & _ & _ & (an & Ean & Eat) & Ea & _ & Ehn & Eln & Edv & Ecv & _ & Erd & Epa & Hv & Er & Ep).
  destruct H' as (h' & l' & at_' & y' & hn' & ln' & dv' & cv' & rd' & pa' & v1' & r1' & Eh' & El' & _ & _ & (an' & Ean' & Eat') & Ea' & _ & Ehn' & Eln' & Edv' & Ecv' & _ & Erd' & Epa' & Hv' & Er' & Ep').
  same Eh Eh'. same El El'. same Ean Ean'. same Ehn Ehn'. same Eln Eln'. same Edv Edv'. same Ecv Ecv'. same Erd Erd'. same Epa Epa'.
  assert (at_' = at_) by congruence. subst at_'. clear Eat Eat' Ean an Eh El Ehn Eln Edv Ecv Erd Epa.
  assert (Hvv : pa || rd = true -> v1' = v1).
  { intros E. rewrite E in Hv, Hv'. destruct Hv as [Hv _], Hv' as [Hv' _]. same Hv Hv'. reflexivity. }
  set (z := y <| HRS_NOISE := hn |> <| LRS_NOISE := ln |> <| d2d_var := dv |> <| c2c_var := cv |>
       <| read_disturb := rd |> <| parasitics := pa |> <| V_read := v1 |>) in *.
  set (z' := y' <| HRS_NOISE := hn |> <| LRS_NOISE := ln |> <| d2d_var := dv |> <| c2c_var := cv |>
       <| read_disturb := rd |> <| parasitics := pa |> <| V_read := v1' |>) in *.
  assert (Y : HRS y = h /\ LRS y = l /\ adc_type y = at_ /\ HRS y' = h /\ LRS y' = l /\ adc_type y' = at_ /\
    (at_ <> INF_ADC -> resolution y' = resolution y /\ adc_calib_mode y' = adc_calib_mode y /\ adc_profile y' = adc_profile y /\
        (adc_calib_mode y = CAL_CALIB -> adc_calib_dict y' = adc_calib_dict y) /\
        (adc_profile y = true -> bin_size y' = bin_size y))).
  { apply adc_inv in Ea, Ea'.
    destruct Ea as [[Ea ->]|(Ea & _ & r & cm & p & m & d & bs & E1 & E2 & E3 & E4 & E5 & ->)];
      destruct Ea' as [[Ea' ->]|(Ea' & _ & r' & cm' & p' & m' & d' & bs' & E1' & E2' & E3' & E4' & E5' & ->)];
      cbn in Ea, Ea'; try congruence.
    - refine (conj eq_refl (conj eq_refl (conj eq_refl (conj eq_refl (conj eq_refl (conj eq_refl _)))))). intros X; congruence.
    - same E1 E1'. same E2 E2'. same E3 E3'.
      refine (conj eq_refl (conj eq_refl (conj eq_refl (conj eq_refl (conj eq_refl (conj eq_refl _)))))). intros _.
      clear z z' Er Er'. destruct a, a'; cbn.
      assert (Hm : m' = m /\ (m = CAL_CALIB -> d' = d)).
      { destruct (String.eqb cm "MAX").
        - destruct E4 as [-> ->], E4' as [-> ->]. split; [reflexivity|discriminate].
        - destruct E4 as [-> E4], E4' as [-> E4']. split; [reflexivity|]. intros _. same E4 E4'. reflexivity. }
      destruct Hm as [-> Hd]. refine (conj eq_refl (conj eq_refl (conj eq_refl (conj Hd _)))).
      intros ->. same E5 E5'. reflexivity. }
  destruct Y as (Y1 & Y2 & Y3 & Y1' & Y2' & Y3' & YA).
  assert (Z : HRS z' = HRS z /\ LRS z' = LRS z /\ adc_type z' = adc_type z /\ HRS_NOISE z' = HRS_NOISE z /\
     LRS_NOISE z' = LRS_NOISE z /\ d2d_var z' = d2d_var z /\ c2c_var z' = c2c_var z /\
     read_disturb z' = read_disturb z /\
     (adc_type z <> INF_ADC -> resolution z' = resolution z /\ adc_calib_mode z' = adc_calib_mode z /\ adc_profile z' = adc_profile z /\
        (adc_calib_mode z = CAL_CALIB -> adc_calib_dict z' = adc_calib_dict z) /\
        (adc_profile z = true -> bin_size z' = bin_size z)) /\
     parasitics z' = parasitics z /\ (read_disturb z = true \/ parasitics z = true -> V_read z' = V_read z)).
  { subst z z'. destruct y, y'; cbn in *; subst.
    refine (conj eq_refl (conj eq_refl (conj eq_refl (conj eq_refl (conj eq_refl (conj eq_refl (conj eq_refl (conj eq_refl (conj YA (conj eq_refl _)))))))))).
    intros O. apply Hvv. destruct O as [->| ->]; [apply orb_true_r|reflexivity]. }
  clearbody z z'. clear YA Hvv Y1 Y2 Y3 Y1' Y2' Y3' Ea Ea' Hv Hv' y y'.
  destruct Z as (Z1 & Z2 & Z3 & Z4 & Z5 & Z6 & Z7 & Z8 & Z9 & Z10 & Z11).
  assert (R : HRS r1' = HRS r1 /\ LRS r1' = LRS r1 /\ adc_type r1' = adc_type r1 /\ HRS_NOISE r1' = HRS_NOISE r1 /\
     LRS_NOISE r1' = LRS_NOISE r1 /\ d2d_var r1' = d2d_var r1 /\ c2c_var r1' = c2c_var r1 /\
     read_disturb r1' = read_disturb r1 /\
     (adc_type r1 <> INF_ADC -> resolution r1' = resolution r1 /\ adc_calib_mode r1' = adc_calib_mode r1 /\ adc_profile r1' = adc_profile r1 /\
        (adc_calib_mode r1 = CAL_CALIB -> adc_calib_dict r1' = adc_calib_dict r1) /\
        (adc_profile r1 = true -> bin_size r1' = bin_size r1)) /\
     parasitics r1' = parasitics r1 /\ (read_disturb r1 = true \/ parasitics r1 = true -> V_read r1' = V_read r1) /\
     (read_disturb r1 = true ->
        t_read r1' = t_read r1 /\ update_freq r1' = update_freq r1 /\ mitigation r1' = mitigation r1 /\
        (mitigation r1 = SOFTWARE -> mitigation_fp r1' = mitigation_fp r1) /\
        (mitigation r1 = CELL_BASED -> tolerance r1' = tolerance r1))).
  { apply rd_inv in Er, Er'.
    destruct Er as [[Hr ->]|(Hr & _ & t & u & ms & mt & E1 & E2 & E3 & E4 & E5)];
      destruct Er' as [[Hr' ->]|(Hr' & _ & t' & u' & ms' & mt' & E1' & E2' & E3' & E4' & E5')]; try congruence.
    - refine (conj Z1 (conj Z2 (conj Z3 (conj Z4 (conj Z5 (conj Z6 (conj Z7 (conj Z8 (conj Z9 (conj Z10 (conj Z11 _))))))))))).
      congruence.
    - same E1 E1'. same E2 E2'. same E3 E3'. assert (mt' = mt) by congruence. subst mt'.
      assert (Hfin : forall fp tol fp' tol', (mt = SOFTWARE -> fp' = fp) -> (mt = CELL_BASED -> tol' = tol) ->
        r1 = z <| t_read := t |> <| update_freq := u |> <| mitigation := mt |> <| mitigation_fp := fp |> <| tolerance := tol |> ->
        r1' = z' <| t_read := t |> <| update_freq := u |> <| mitigation := mt |> <| mitigation_fp := fp' |> <| tolerance := tol' |> ->
        ana_agree r1 r1' /\ parasitics r1' = parasitics r1).
      { intros fp tol fp' tol' F1 F2 -> ->. unfold ana_agree. clear E1 E2 E3 E4 E5 E5' Ep Ep'. destruct z, z'; cbn in *.
        subst. refine (conj (conj eq_refl (conj eq_refl (conj eq_refl (conj eq_refl (conj eq_refl (conj eq_refl (conj eq_refl (conj eq_refl (conj Z9 (conj _ _)))))))))) eq_refl).
        - exact Z11.
        - intros _. refine (conj eq_refl (conj eq_refl (conj eq_refl (conj F1 F2)))). }
      assert (HR : ana_agree r1 r1' /\ parasitics r1' = parasitics r1).
      { destruct mt.
        - destruct E5 as (fp & F & _ & E5), E5' as (fp' & F' & _ & E5'). same F F'.
          refine (Hfin fp (tolerance z) fp (tolerance z') (fun _ => eq_refl) _ _ _); [discriminate|rewrite E5; now destruct z|rewrite E5'; now destruct z'].
        - destruct E5 as (fp & F & _ & _ & E5), E5' as (fp' & F' & _ & _ & E5'). same F F'.
          refine (Hfin (mitigation_fp z) fp (mitigation_fp z') fp _ (fun _ => eq_refl) _ _); [discriminate|rewrite E5; now destruct z|rewrite E5'; now destruct z'].
        - refine (Hfin (mitigation_fp z) (tolerance z) (mitigation_fp z') (tolerance z') _ _ _ _); [discriminate|discriminate|rewrite E5; now destruct z|rewrite E5'; now destruct z']. }
      destruct HR as ((G1 & G2 & G3 & G4 & G5 & G6 & G7 & G8 & G9 & G10 & G11) & G12).
      refine (conj G1 (conj G2 (conj G3 (conj G4 (conj G5 (conj G6 (conj G7 (conj G8 (conj G9 (conj G12 (conj G10 G11))))))))))). }
  clear Z1 Z2 Z3 Z4 Z5 Z6 Z7 Z8 Z9 Z10 Z11 Er Er' z z'.
  destruct R as (G1 & G2 & G3 & G4 & G5 & G6 & G7 & G8 & G9 & G10 & G11 & G12).
  apply par_inv in Ep, Ep'.
  destruct Ep as [[Hp ->]|(Hp & w & E1 & ->)]; destruct Ep' as [[Hp' ->]|(Hp' & w' & E1' & ->)]; try congruence.
  - split.
    + refine (conj G1 (conj G2 (conj G3 (conj G4 (conj G5 (conj G6 (conj G7 (conj G8 (conj G9 (conj G11 G12)))))))))).
    + intros _. split; [exact G10|congruence].
  - split.
    + destruct r1, r1'; cbn in *. subst. 
      refine (conj eq_refl (conj eq_refl (conj eq_refl (conj eq_refl (conj eq_refl (conj eq_refl (conj eq_refl (conj eq_refl (conj G9 (conj _ G12)))))))))).
      intros O. apply G11. tauto.
    + intros Ew. rewrite (need_same _ j j') in E1' by exact Ew. assert (w' = w) by congruence. subst w'.
      destruct r1, r1'; cbn. auto.
Qed.

Lemma config_det j j' a b a' b' : eqx j j' -> apply_config j a = Ok b -> apply_config j' a' = Ok b' ->
  M b' = M b /\ N b' = N b /\ m_mode b' = m_mode b /\ digital_only b' = digital_only b /\
  verbose b' = verbose b /\ SPLIT b' = SPLIT b /\
  (is_int (m_mode b) = true -> W_BIT b' = W_BIT b /\ I_BIT b' = I_BIT b) /\
  (m_mode b = TNN_IV \/ m_mode b = TNN_V -> W_BIT b' = W_BIT b) /\
  (digital_only b = false -> ana_agree b b' /\
  (jat j' "w_res" = jat j "w_res" -> parasitics b' = parasitics b /\ (parasitics b = true -> w_res b' = w_res b))).
Proof.
  intros Hx H H'. pose proof (apply_supported _ _ _ H) as S. pose proof (apply_supported _ _ _ H') as S'.
  apply config_inv in H, H'.
  destruct H as (m & n & mm & dig & a1 & b1 & v & Hm & Hn & _ & _ & (mn & Emn & Emm) & Hdig & Ha & Hb & Hv & ->).
  destruct H' as (m' & n' & mm' & dig' & a1' & b1' & v' & Hm' & Hn' & _ & _ & (mn' & Emn' & Emm') & Hdig' & Ha' & Hb' & Hv' & ->).
  same Hm Hm'. same Hn Hn'. same Emn Emn'. same Hdig Hdig'. same Hv Hv'. assert (mm' = mm) by congruence. subst mm'.
  assert (E1 : M a1 = m /\ N a1 = n /\ m_mode a1 = mm /\ digital_only a1 = dig /\
     M a1' = m /\ N a1' = n /\ m_mode a1' = mm /\ digital_only a1' = dig /\
    (dig = false -> ana_agree a1 a1' /\
       (jat j' "w_res" = jat j "w_res" -> parasitics a1' = parasitics a1 /\ (parasitics a1 = true -> w_res a1' = w_res a1)))).
  { destruct dig.
    - subst a1 a1'. refine (conj eq_refl (conj eq_refl (conj eq_refl (conj eq_refl (conj eq_refl (conj eq_refl (conj eq_refl (conj eq_refl _)))))))).
      discriminate.
    - pose proof (analog_det _ _ _ _ _ _ Hx Ha Ha') as D.
      assert (Hfr : forall j a b, apply_analog j a = Ok b -> digital_only b = digital_only a).
      { clear. intros j a b H. apply analog_inv in H.
        destruct H as (h & l & at_ & y & hn & ln & dv & cv & rd & pa & v1 & r1 & _ & _ & _ & _ & _ & Ea & _ & _ & _ & _ & _ & _ & _ & _ & _ & Er & Ep).
        apply adc_frame in Ea. destruct Ea as (? & ? & ? & ? & ? & ->).
        apply rd_frame in Er. destruct Er as (? & ? & ? & ? & ? & ->).
        apply par_frame in Ep. destruct Ep as (? & ? & ->). reflexivity. }
      pose proof (Hfr _ _ _ Ha) as F1. pose proof (Hfr _ _ _ Ha') as F2.
      apply apply_analog_M in Ha, Ha'. destruct Ha as (A1 & A2 & A3), Ha' as (A1' & A2' & A3').
      refine (conj A1 (conj A2 (conj A3 (conj F1 (conj A1' (conj A2' (conj A3' (conj F2 (fun _ => D)))))))))
      . }
  destruct E1 as (A1 & A2 & A3 & A4 & A5 & A6 & A7 & A8 & A9). clear Ha Ha'.
  apply bits_inv in Hb, Hb'. rewrite A3 in Hb. rewrite A7 in Hb'.
  assert (B : exists wb ib sp wb' ib', b1 = a1 <| W_BIT := wb |> <| I_BIT := ib |> <| SPLIT := sp |> /\
     b1' = a1' <| W_BIT := wb' |> <| I_BIT := ib' |> <| SPLIT := sp |> /\
     (is_int mm = true -> wb' = wb /\ ib' = ib) /\ (mm = TNN_IV \/ mm = TNN_V -> wb' = wb)).
  { destruct mm; cbn [is_int] in Hb, Hb' |- *;
    try (destruct Hb as (w & i & sp & W & I & SP & _ & _ & ->); destruct Hb' as (w' & i' & sp' & W' & I' & SP' & _ & _ & ->);
         same W W'; same I I'; same SP SP'; exists w, i, sp, w, i; 
         refine (conj eq_refl (conj eq_refl (conj _ _))); auto);
    try (subst b1 b1'; exists (W_BIT a1), (I_BIT a1), [0], (W_BIT a1'), (I_BIT a1'); 
         split; [destruct a1; reflexivity|split; [destruct a1'; reflexivity|split; [discriminate|intros [?|?]; discriminate]]]);
    (subst b1 b1'; exists 2, (I_BIT a1), [1; 1], 2, (I_BIT a1'); 
         split; [destruct a1; reflexivity|split; [destruct a1'; reflexivity|split; [discriminate|reflexivity]]]). }
  destruct B as (wb & ib & sp & wb' & ib' & -> & -> & B1 & B2). clear Hb Hb' S S'.
  cbn. rewrite A1, A2, A3, A4, A5, A6, A7, A8.
  refine (conj eq_refl (conj eq_refl (conj eq_refl (conj eq_refl (conj eq_refl (conj eq_refl (conj B1 (conj B2 _)))))))).
  exact A9.
Qed.

Lemma config_agree j a b a' b' : apply_config j a = Ok b -> apply_config j a' = Ok b' -> agree b b'.
Proof.
  intros H H'. destruct (config_det _ _ _ _ _ _ (eqx_refl j) H H') as (D1 & D2 & D3 & D4 & D5 & D6 & D7 & D8 & D9).
  unfold agree. refine (conj D1 (conj D2 (conj D3 (conj D4 (conj D5 (conj D6 (conj D7 (conj D8 _)))))))). intros Hd.
  destruct (D9 Hd) as ((G1 & G2 & G3 & G4 & G5 & G6 & G7 & G8 & G9 & G10 & G11) & Hp).
  destruct (Hp eq_refl) as [P1 P2].
  exact (conj G1 (conj G2 (conj G3 (conj G4 (conj G5 (conj G6 (conj G7 (conj G8 (conj P1 (conj G9 (conj G10 (conj G11 P2)))))))))))).
Qed.

Lemma config_keeps j a b : apply_config j a = Ok b -> keeps_rest a b.
Proof.
  intros H. apply config_inv in H.
  destruct H as (m & n & mm & dig & a1 & b1 & v & Hm & Hn & _ & _ & _ & Hdig & Ha & Hb & Hv & ->).
  set (a0 := a <| M := m |> <| N := n |> <| m_mode := mm |> <| digital_only := dig |>) in *.
  assert (K : digital_only a1 = dig /\ m_mode a1 = mm /\ I_BIT a1 = I_BIT a /\ keeps_rest a a1).
  { destruct dig.
    - subst a1 a0. unfold keeps_rest. destruct a; cbn. tauto.
    - apply analog_inv in Ha.
      destruct Ha as (h & l & at_ & y & hn & ln & dv & cv & rd & pa & v1 & r1 & _ & _ & _ & _ & _ & Ea & _ & _ & _ & _ & _ & _ & _ & _ & _ & Er & Ep).
      apply adc_inv in Ea. apply rd_inv in Er. apply par_inv in Ep.
      assert (Y : exists r m' d p bs, y = a0 <| HRS := h |> <| LRS := l |> <| adc_type := at_ |> <| resolution := r |>
          <| adc_calib_mode := m' |> <| adc_calib_dict := d |> <| adc_profile := p |> <| bin_size := bs |> /\
          (at_ = INF_ADC -> r = resolution a /\ m' = adc_calib_mode a /\ p = adc_profile a) /\
          (at_ = INF_ADC \/ m' = CAL_MAX -> d = adc_calib_dict a) /\
          (at_ = INF_ADC \/ p = false -> bs = bin_size a)).
      { destruct Ea as [[Ea ->]|(Ea & _ & r & cm & p & m' & d & bs & E1 & E2 & E3 & E4 & E5 & ->)]; cbn in Ea.
        - exists (resolution a), (adc_calib_mode a), (adc_calib_dict a), (adc_profile a), (bin_size a).
          split; [subst a0; destruct a; reflexivity|tauto].
        - exists r, m', d, p, bs. split; [reflexivity|].
          split; [congruence|]. split.
          + intros [?|Hm']; [congruence|]. destruct (String.eqb cm "MAX").
            * destruct E4 as [_ ->]. subst a0. reflexivity.
            * destruct E4 as [E4 _]. congruence.
          + intros [?|Hp]; [congruence|]. subst p. rewrite E5. subst a0. reflexivity. }
      destruct Y as (r & m' & d & p & bs & -> & Y1 & Y2 & Y3). clear Ea.
      set (z := a0 <| HRS := h |> <| LRS := l |> <| adc_type := at_ |> <| resolution := r |>
          <| adc_calib_mode := m' |> <| adc_calib_dict := d |> <| adc_profile := p |> <| bin_size := bs |>
          <| HRS_NOISE := hn |> <| LRS_NOISE := ln |> <| d2d_var := dv |> <| c2c_var := cv |>
          <| read_disturb := rd |> <| parasitics := pa |> <| V_read := v1 |>) in *.
      assert (Rr : exists t u mt fp tol, r1 = z <| t_read := t |> <| update_freq := u |> <| mitigation := mt |>
          <| mitigation_fp := fp |> <| tolerance := tol |> /\
          (rd = false -> t = t_read a /\ u = update_freq a /\ mt = mitigation a) /\
          (rd = false \/ mt <> SOFTWARE -> fp = mitigation_fp a) /\
          (rd = false \/ mt <> CELL_BASED -> tol = tolerance a)).
      { destruct Er as [[Hr ->]|(Hr & _ & t & u & ms & mt & E1 & E2 & E3 & E4 & E5)]; cbn in Hr.
        - exists (t_read a), (update_freq a), (mitigation a), (mitigation_fp a), (tolerance a).
          split; [subst z a0; destruct a; reflexivity|tauto].
        - destruct mt.
          + destruct E5 as (fp & _ & _ & ->). exists t, u, SOFTWARE, fp, (tolerance a).
            split; [subst z a0; destruct a; reflexivity|]. split; [congruence|]. split; [intros [?|?]; congruence|reflexivity].
          + destruct E5 as (fp & _ & _ & _ & ->). exists t, u, CELL_BASED, (mitigation_fp a), fp.
            split; [subst z a0; destruct a; reflexivity|]. split; [congruence|]. split; [reflexivity|intros [?|?]; congruence].
          + subst r1. exists t, u, MIT_OFF, (mitigation_fp a), (tolerance a).
            split; [subst z a0; destruct a; reflexivity|]. split; [congruence|]. split; reflexivity. }
      destruct Rr as (t & u & mt & fp & tol & -> & R1 & R2 & R3). clear Er.
      assert (P : exists ww pp, a1 = z <| t_read := t |> <| update_freq := u |> <| mitigation := mt |>
          <| mitigation_fp := fp |> <| tolerance := tol |> <| w_res := ww |> <| parasitics := pp |>).
      { destruct Ep as [[_ ->]|(_ & w & _ & ->)].
        - exists (w_res z), (parasitics z). subst z a0. destruct a; vm_compute; reflexivity.
        - exists w, (negb (feq w f0)). reflexivity. }
      destruct P as (ww & pp & ->). clear Ep. subst z a0. unfold keeps_rest.
      destruct a; cbn in *.
      refine (conj eq_refl (conj eq_refl (conj eq_refl _))).
      refine (conj (fun _ => eq_refl) (conj _ (conj _ (conj _ (conj _ (conj _ (conj _ (conj _ _)))))))); try discriminate.
      + intros [?|?]; [discriminate|auto].
      + intros [?|?]; [discriminate|auto].
      + intros [?|?]; [discriminate|auto].
      + intros [?|?]; [discriminate|auto].
      + intros [?|?]; [discriminate|auto].
      + intros [?|?]; [discriminate|auto]. }
  destruct K as (K1 & K2 & K3 & K4). apply bits_inv in Hb.
  assert (B : exists wb ib sp, b1 = a1 <| W_BIT := wb |> <| I_BIT := ib |> <| SPLIT := sp |> /\
     (is_int (m_mode a1) = false -> ib = I_BIT a1)).
  { destruct (m_mode a1); cbn [is_int] in Hb |- *;
    try (destruct Hb as (w & i & s & _ & _ & _ & _ & _ & ->); exists w, i, s; split; [reflexivity|discriminate]);
    try (subst b1; exists (W_BIT a1), (I_BIT a1), [0]; split; [destruct a1; reflexivity|reflexivity]);
    (subst b1; exists 2, (I_BIT a1), [1; 1]; split; [destruct a1; reflexivity|reflexivity]). }
  destruct B as (wb & ib & sp & -> & B1). clear Hb Ha a0 Hdig. unfold keeps_rest in *.
  destruct K4 as (_ & Q). split; [|exact Q]. cbn. intros Hi. rewrite (B1 Hi). exact K3.
Qed.
End CfgProps.
