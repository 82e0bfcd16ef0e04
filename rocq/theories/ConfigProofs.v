(** What a configuration load determines, and which fields an update without recreation
    can change. *)
From Coq Require Import List ZArith Bool Arith Lia ZifyBool String.
From RecordUpdate Require Import RecordSet.
From Verif Require Import Base Lib Machine Json Config Histogram Adc ReadDisturb Parasitics Mapper Shape.
Import ListNotations RecordSetNotations.
Local Open Scope Z_scope.
Local Open Scope out_scope.

Ltac inv_bind H :=
  let x := fresh "x" in let E := fresh "E" in
  apply bind_Ok in H; destruct H as (x & E & H).

Tactic Notation "inv_as" hyp(H) ident(x) ident(E) :=
  apply bind_Ok in H; destruct H as (x & E & H).
Ltac rsimp := lazy.

Section CP.
Context {MC : Machine}.

(** ** JSON data *)
Lemma assoc_jput l k v k' :
  assoc k' (jput l k v) = if String.eqb k' k then Some v else assoc k' l.
Proof.
  induction l as [|[k1 v1] l IH]; cbn; auto.
  destruct (String.eqb k k1) eqn:E1.
  - apply String.eqb_eq in E1. subst k1. cbn. now destruct (String.eqb k' k).
  - destruct (String.ltb k k1); cbn.
    + now destruct (String.eqb k' k).
    + rewrite IH. destruct (String.eqb k' k1) eqn:E2; auto.
      destruct (String.eqb k' k) eqn:E3; auto.
      apply String.eqb_eq in E2, E3. subst. now rewrite String.eqb_refl in E1.
Qed.
Lemma jat_jset j k v j' k' : jset j k v = Some j' ->
  jat j' k' = if String.eqb k' k then Some v else jat j k'.
Proof.
  destruct j; cbn; intros H; inversion H; subst; cbn; auto.
  apply assoc_jput.
Qed.

Definition same_keys (j j' : json) : Prop :=
  forall k, In k recreation_keys -> jat j' k = jat j k.
Lemma same_keys_refl j : same_keys j j.
Proof. easy. Qed.

Lemma existsb_key k : existsb (String.eqb k) recreation_keys = true <-> In k recreation_keys.
Proof.
  rewrite existsb_exists. split.
  - intros (x & Hx & E). apply String.eqb_eq in E. now subst.
  - intros H. exists k. split; auto. apply String.eqb_refl.
Qed.

Lemma update_keys_spec kvs j md rc j' md' rc' :
  update_keys kvs j md rc = Ok (j', md', rc') ->
  (md' = false -> md = false /\ j' = j) /\
  (rc' = false -> rc = false /\ same_keys j j') /\
  (forall k, existsb (fun kv => String.eqb k (fst kv)) kvs = false -> jat j' k = jat j k) /\
  (md = true -> md' = true) /\ (rc = true -> rc' = true).
Proof.
  revert j md rc. induction kvs as [|[k v] r IH]; intros j md rc; cbn [update_keys existsb fst].
  - intros H; inversion H; subst. repeat split; auto.
  - destruct (negb (jcontains j k) && is_null v).
    + intros H. apply IH in H. destruct H as (H1 & H2 & H3 & H4).
      split; [exact H1|split; [exact H2|split; [|exact H4]]].
      intros k' Hk'. apply H3. apply orb_false_iff in Hk'. tauto.
    + destruct (match jat j k with Some cur => _ | None => _ end).
      * destruct (jset j k v) as [j1|] eqn:Ej; [|discriminate]. intros H. apply IH in H.
        destruct H as (H1 & H2 & H3 & H4 & H5). repeat split.
        -- exfalso. specialize (H4 eq_refl). congruence.
        -- exfalso. specialize (H4 eq_refl). congruence.
        -- destruct (H2 H) as [H6 _]. now apply orb_false_iff in H6.
        -- intros q Hq. destruct (H2 H) as [H6 H7]. rewrite (H7 q Hq).
           rewrite (jat_jset _ _ _ _ q Ej). destruct (String.eqb q k) eqn:Eq; auto.
           apply String.eqb_eq in Eq. subst q. apply orb_false_iff in H6. destruct H6 as [_ H6].
           apply existsb_key in Hq. congruence.
        -- intros q Hq. apply orb_false_iff in Hq. destruct Hq as [Hq1 Hq2]. cbn in Hq1.
           rewrite (H3 q Hq2), (jat_jset _ _ _ _ q Ej). now rewrite Hq1.
        -- intros _. now apply H4.
        -- intros ->. now apply H5.
      * intros H. apply IH in H. destruct H as (H1 & H2 & H3 & H4).
        split; [exact H1|split; [exact H2|split; [|exact H4]]].
        intros k' Hk'. apply H3. apply orb_false_iff in Hk'. tauto.
Qed.

Lemma need_same {A} (cv : json -> conv A) j j' k : jat j' k = jat j k -> need cv j' k = need cv j k.
Proof. unfold need. now intros ->. Qed.
Lemma opt_same {A} (cv : json -> conv A) j j' k d : jat j' k = jat j k -> opt cv j' k d = opt cv j k d.
Proof. unfold opt. now intros ->. Qed.

(** ** Which fields each block writes *)
Lemma adc_frame j a b : apply_adc j a = Ok b ->
  exists r m d p bs, b = a <| resolution := r |> <| adc_calib_mode := m |> <| adc_calib_dict := d |>
                          <| adc_profile := p |> <| bin_size := bs |>.
Proof.
  unfold apply_adc. destruct (adc_eqb _ _).
  - intros H; inversion H; subst. destruct b; do 5 eexists; rsimp; reflexivity.
  - intros H. inv_bind H. inv_bind H. inv_bind H. inv_bind H. inv_bind H.
    assert (Hm : exists m d, x2 = a <| resolution := x0 |> <| adc_calib_mode := m |> <| adc_calib_dict := d |>).
    { destruct (String.eqb x1 _). { inversion E2; subst x2. destruct a; do 2 eexists; rsimp; reflexivity. }
      destruct (String.eqb x1 _); [|discriminate]. inv_bind E2.
      destruct x4; [discriminate|]. inversion E2; subst x2. destruct a; do 2 eexists; rsimp; reflexivity. }
    destruct Hm as (m & d & ->). destruct x3.
    + inv_bind H. inversion H; subst b. destruct a; do 5 eexists; rsimp; reflexivity.
    + inversion H; subst b. destruct a; do 5 eexists; rsimp; reflexivity.
Qed.

Lemma rd_frame j a b : apply_rd j a = Ok b ->
  exists t u m fp tol, b = a <| t_read := t |> <| update_freq := u |> <| mitigation := m |>
                            <| mitigation_fp := fp |> <| tolerance := tol |>.
Proof.
  unfold apply_rd. destruct (negb _).
  - intros H; inversion H; subst. destruct b; do 5 eexists; rsimp; reflexivity.
  - intros H. repeat inv_bind H. destruct x3; repeat inv_bind H; inversion H; subst b; destruct a; do 5 eexists; rsimp; reflexivity.
Qed.

Lemma par_frame j a b : apply_par j a = Ok b ->
  exists w p, b = a <| w_res := w |> <| parasitics := p |>.
Proof.
  unfold apply_par. destruct (negb _).
  - intros H; inversion H; subst. destruct b; do 2 eexists; rsimp; reflexivity.
  - intros H. inv_bind H. destruct (feq _ _); inversion H; subst b; destruct a; do 2 eexists; rsimp; reflexivity.
Qed.

Lemma bits_frame j a b : apply_bits j a = Ok b ->
  exists w i s, b = a <| W_BIT := w |> <| I_BIT := i |> <| SPLIT := s |>.
Proof.
  unfold apply_bits. destruct (is_int _).
  - intros H. repeat inv_bind H. inversion H. do 3 eexists; rsimp; reflexivity.
  - destruct (m_mode a); intros H; try (inversion H; subst b; destruct a; do 3 eexists; rsimp; reflexivity);
      repeat inv_bind H; repeat match type of H with context [match ?s with _ => _ end] => destruct s; try discriminate H end;
      inversion H; subst b; destruct a; do 3 eexists; rsimp; reflexivity.
Qed.

(** The fields read or written by each block. *)
Lemma adc_again j j' a b a' b' : same_keys j j' -> apply_adc j a = Ok b -> apply_adc j' a' = Ok b' ->
  adc_type a' = adc_type a -> resolution a' = resolution b -> adc_calib_mode a' = adc_calib_mode b ->
  adc_calib_dict a' = adc_calib_dict b -> adc_profile a' = adc_profile b ->
  exists bs, b' = a' <| bin_size := bs |>.
Proof.
  intros HK H H' Ht Hr Hm Hd Hp. unfold apply_adc in *. rewrite Ht in H'.
  destruct (adc_eqb _ _).
  - inversion H'. exists (bin_size b'). destruct b'; reflexivity.
  - inv_as H u U. inv_as H' u' U'. clear U U'. inv_as H r R. inv_as H' r' R'.
    rewrite (need_same _ j j') in R' by (apply HK; cbn; tauto). rewrite R in R'. inversion R'; subst r'; clear R'.
    inv_as H cm C. inv_as H' cm' C'.
    rewrite (opt_same _ j j') in C' by (apply HK; cbn; tauto). rewrite C in C'. inversion C'; subst cm'; clear C'.
    inv_as H d D. inv_as H' d' D'. inv_as H p P. inv_as H' p' P'.
    rewrite (opt_same _ j j') in P' by (apply HK; cbn; tauto). rewrite P in P'. inversion P'; subst p'; clear P'.
    rewrite (need_same _ j j') in D' by (apply HK; cbn; tauto).
    assert (Hx2 : resolution d = r).
    { destruct (String.eqb cm _). { now inversion D. }
      destruct (String.eqb cm _); [|discriminate]. inv_as D q Q. destruct q; now inversion D. }
    assert (Hb : resolution b = resolution d /\ adc_calib_mode b = adc_calib_mode d /\
                 adc_calib_dict b = adc_calib_dict d /\ adc_profile b = p).
    { destruct p; [inv_as H q Q|]; inversion H; cbn; tauto. }
    destruct Hb as (B1 & B2 & B3 & B4).
    assert (Hx5 : d' = a').
    { destruct (String.eqb cm _).
      { inversion D; subst d. inversion D'; subst d'. cbn in B2, B3.
        replace r with (resolution a') by congruence.
        replace CAL_MAX with (adc_calib_mode a') by congruence. now destruct a'. }
      destruct (String.eqb cm _); [|discriminate]. inv_as D q Q. inv_as D' q' Q'.
      rewrite Q in Q'. inversion Q'; subst q'. destruct q; [discriminate|].
      inversion D; subst d. inversion D'; subst d'. cbn in B2, B3.
      replace r with (resolution a') by congruence.
      replace CAL_CALIB with (adc_calib_mode a') by congruence.
      rewrite <- B3, <- Hd. now destruct a'. }
    subst d'. destruct p.
    + inv_as H' q Q. inversion H'. exists q. rewrite <- B4, <- Hp. now destruct a'.
    + inversion H'. exists (bin_size a'). rewrite <- B4, <- Hp. now destruct a'.
Qed.

Lemma rd_again j j' a b a' b' : same_keys j j' -> apply_rd j a = Ok b -> apply_rd j' a' = Ok b' ->
  read_disturb a' = read_disturb a -> t_read a' = t_read b -> update_freq a' = update_freq b ->
  mitigation a' = mitigation b -> mitigation_fp a' = mitigation_fp b -> tolerance a' = tolerance b ->
  b' = a'.
Proof.
  intros HK H H' Hrd Ht Hu Hm Hf Htol. unfold apply_rd in *. rewrite Hrd in H'.
  destruct (negb _); [now inversion H'|].
  inv_as H q Q. inv_as H' q' Q'. clear q Q q' Q'. inv_as H t T. inv_as H' t' T'.
  rewrite (need_same _ j j') in T' by (apply HK; cbn; tauto). rewrite T in T'. inversion T'; subst t'; clear T'.
  inv_as H u U. inv_as H' u' U'.
  rewrite (opt_same _ j j') in U' by (apply HK; cbn; tauto). rewrite U in U'. inversion U'; subst u'; clear U'.
  inv_as H q Q. inv_as H' q' Q'.
  rewrite (opt_same _ j j') in Q' by (apply HK; cbn; tauto). rewrite Q in Q'. inversion Q'; subst q'; clear Q'.
  inv_as H k K. inv_as H' k' K'. rewrite K in K'. inversion K'; subst k'; clear K'.
  destruct k.
  - inv_as H w W. inv_as H' w' W'.
    rewrite (need_same _ j j') in W' by (apply HK; cbn; tauto). rewrite W in W'. inversion W'; subst w'; clear W'.
    inv_as H z Z. inv_as H' z' Z'. inversion H; subst b. inversion H'. cbn in Ht, Hu, Hm, Hf.
    rewrite <- Ht, <- Hu, <- Hm, <- Hf. now destruct a'.
  - inv_as H w W. inv_as H' w' W'.
    rewrite (need_same _ j j') in W' by (apply HK; cbn; tauto). rewrite W in W'. inversion W'; subst w'; clear W'.
    inv_as H z Z. inv_as H' z' Z'. inversion H; subst b. inversion H'. cbn in Ht, Hu, Hm, Htol.
    rewrite <- Ht, <- Hu, <- Hm, <- Htol. now destruct a'.
  - inversion H; subst b. inversion H'. cbn in Ht, Hu, Hm. rewrite <- Ht, <- Hu, <- Hm. now destruct a'.
Qed.

Lemma bits_again j j' a b a' b' : same_keys j j' -> apply_bits j a = Ok b -> apply_bits j' a' = Ok b' ->
  m_mode a' = m_mode a -> W_BIT a' = W_BIT b -> SPLIT a' = SPLIT b ->
  exists i, b' = a' <| I_BIT := i |>.
Proof.
  intros HK H H' Hm Hw Hs. unfold apply_bits in *. rewrite Hm in H'.
  assert (Haux : forall (s : list Z) (c1 c2 : config),
     (match s with [1; 1] => Ok c1 | _ => Died end) = Ok c2 -> c2 = c1 /\ s = [1; 1]).
  { intros s c1 c2 E. repeat match type of E with context [match ?s with _ => _ end] => destruct s; try discriminate E end.
    inversion E; auto. }
  destruct (is_int _).
  - inv_as H w W. inv_as H' w' W'.
    rewrite (need_same _ j j') in W' by (apply HK; cbn; tauto). rewrite W in W'. inversion W'; subst w'; clear W'.
    inv_as H i I. inv_as H' i' I'. inv_as H q Q. inv_as H' q' Q'.
    rewrite (need_same _ j j') in Q' by (apply HK; cbn; tauto). rewrite Q in Q'. inversion Q'; subst q'; clear Q'.
    inv_as H z Z. inv_as H' z' Z'. inversion H; subst b. inversion H'. cbn in Hw, Hs.
    exists i'. rewrite <- Hw, <- Hs. now destruct a'.
  - assert (Hdef : Ok (a <| SPLIT := [0] |>) = Ok b -> Ok (a' <| SPLIT := [0] |>) = Ok b' ->
      exists i, b' = a' <| I_BIT := i |>).
    { intros G G'. inversion G; subst b. inversion G'. cbn in Hs. exists (I_BIT a').
      rewrite <- Hs. now destruct a'. }
    assert (Htc : forall k k', need as_u32 j "W_BIT" = Ok k -> need as_u32 j' "W_BIT" = Ok k' ->
       forall (F1 : bind (need as_u32s j "SPLIT") (fun s => bind (die_if (negb (k =? 2))) (fun _ =>
           match s with [1; 1] => Ok (a <| W_BIT := k |> <| SPLIT := s |>) | _ => Died end)) = Ok b)
       (F2 : bind (need as_u32s j' "SPLIT") (fun s => bind (die_if (negb (k' =? 2))) (fun _ =>
           match s with [1; 1] => Ok (a' <| W_BIT := k' |> <| SPLIT := s |>) | _ => Died end)) = Ok b'),
       exists i, b' = a' <| I_BIT := i |>).
    { intros k k' K1 K2 F1 F2.
      rewrite (need_same _ j j') in K2 by (apply HK; cbn; tauto). rewrite K1 in K2. inversion K2; subst k'; clear K2.
      inv_as F1 q Q. inv_as F2 q' Q'.
      rewrite (need_same _ j j') in Q' by (apply HK; cbn; tauto). rewrite Q in Q'. inversion Q'; subst q'; clear Q'.
      inv_as F1 z Z. inv_as F2 z' Z'. apply Haux in F1, F2. destruct F1 as [F1 Eq], F2 as [F2 _].
      subst b b'. cbn in Hw, Hs. exists (I_BIT a'). rewrite <- Hw, <- Hs. now destruct a'. }
    destruct (m_mode a); try (now apply Hdef); inv_as H k K; inv_as H' k' K'; eapply Htc; eauto.
Qed.

(** Everything except I_BIT, verbose, d2d_var, c2c_var, adc_profile_bin_size, w_res and
    (through w_res) parasitics. *)
Definition core (c c' : config) : Prop :=
  exists i v d2 c2 bs w p, c' = c <| I_BIT := i |> <| verbose := v |> <| d2d_var := d2 |>
    <| c2c_var := c2 |> <| bin_size := bs |> <| w_res := w |> <| parasitics := p |>.
Lemma core_refl c : core c c.
Proof. destruct c; do 7 eexists; rsimp; reflexivity. Qed.

(** Explicit form of a successful load. *)
Lemma analog_again j j' c0 c d c' :
  same_keys j j' -> apply_analog j c0 = Ok c -> apply_analog j' d = Ok c' ->
  m_mode d = m_mode c0 ->
  (exists w i s v, d = c <| W_BIT := w |> <| I_BIT := i |> <| SPLIT := s |> <| verbose := v |>) ->
  exists d2 c2 bs w p, c' = d <| d2d_var := d2 |> <| c2c_var := c2 |> <| bin_size := bs |>
     <| w_res := w |> <| parasitics := p |>.
Proof.
  intros HK H H' Hmm (fw & fi & fs & fv & Hd). unfold apply_analog in *.
  inv_as H h Hh. inv_as H' h' Hh'.
  rewrite (need_same _ j j') in Hh' by (apply HK; cbn; tauto). rewrite Hh in Hh'. inversion Hh'; subst h'; clear Hh'.
  inv_as H l Hl. inv_as H' l' Hl'.
  rewrite (need_same _ j j') in Hl' by (apply HK; cbn; tauto). rewrite Hl in Hl'. inversion Hl'; subst l'; clear Hl'.
  inv_as H an Han. inv_as H' an' Han'.
  rewrite (need_same _ j j') in Han' by (apply HK; cbn; tauto). rewrite Han in Han'. inversion Han'; subst an'; clear Han'.
  inv_as H at_ Hat. inv_as H' at_' Hat'. rewrite Hat in Hat'. inversion Hat'; subst at_'; clear Hat'.
  inv_as H u1 U1. inv_as H' u1' U1'. clear u1 U1 u1' U1'.
  inv_as H a1 A1. inv_as H' a2 A2.
  inv_as H u1 U1. inv_as H' u1' U1'. clear u1 U1 u1' U1'.
  inv_as H hn Hhn. inv_as H' hn' Hhn'.
  rewrite (need_same _ j j') in Hhn' by (apply HK; cbn; tauto). rewrite Hhn in Hhn'. inversion Hhn'; subst hn'; clear Hhn'.
  inv_as H ln Hln. inv_as H' ln' Hln'.
  rewrite (need_same _ j j') in Hln' by (apply HK; cbn; tauto). rewrite Hln in Hln'. inversion Hln'; subst ln'; clear Hln'.
  inv_as H dv Hdv. inv_as H' dv' Hdv'. inv_as H cv Hcv. inv_as H' cv' Hcv'.
  inv_as H u1 U1. inv_as H' u1' U1'. clear u1 U1 u1' U1'.
  inv_as H rd Hrd. inv_as H' rd' Hrd'.
  rewrite (opt_same _ j j') in Hrd' by (apply HK; cbn; tauto). rewrite Hrd in Hrd'. inversion Hrd'; subst rd'; clear Hrd'.
  inv_as H pa Hpa. inv_as H' pa' Hpa'.
  rewrite (opt_same _ j j') in Hpa' by (apply HK; cbn; tauto). rewrite Hpa in Hpa'. inversion Hpa'; subst pa'; clear Hpa'.
  inv_as H v1 V1. inv_as H' v2 V2. inv_as H r1 R1. inv_as H' r2 R2.
  rename H into P1, H' into P2.
  pose proof (adc_frame _ _ _ A1) as (k1 & k2 & k3 & k4 & k5 & Ea1).
  assert (Ev1 : exists v, v1 = a1 <| HRS_NOISE := hn |> <| LRS_NOISE := ln |> <| d2d_var := dv |>
      <| c2c_var := cv |> <| read_disturb := rd |> <| parasitics := pa |> <| V_read := v |> /\
      (pa || rd = true -> need as_float j "V_read" = Ok v)).
  { destruct (pa || rd) eqn:Eor.
    - inv_as V1 q Q. inv_as V1 q' Q'. inversion V1; subst v1. eauto.
    - inversion V1. exists (V_read a1). split; [destruct a1; vm_compute; reflexivity|discriminate]. }
  destruct Ev1 as (v & Ev1 & Hv).
  pose proof (rd_frame _ _ _ R1) as (k6 & k7 & k8 & k9 & k10 & Er1).
  pose proof (par_frame _ _ _ P1) as (k11 & k12 & Ep1).
  (* second run, stage by stage *)
  assert (A3 : exists bs, a2 = d <| bin_size := bs |>).
  { eapply adc_again in A2; [|exact HK|exact A1|..].
    - destruct A2 as (bs & ->). exists bs. subst d c r1 v1 a1. destruct c0; vm_compute; reflexivity.
    - reflexivity.
    - subst d c r1 v1. destruct a1; vm_compute; reflexivity.
    - subst d c r1 v1. destruct a1; vm_compute; reflexivity.
    - subst d c r1 v1. destruct a1; vm_compute; reflexivity.
    - subst d c r1 v1. destruct a1; vm_compute; reflexivity. }
  destruct A3 as (bs & Ea2).
  assert (V3 : v2 = a2 <| d2d_var := dv' |> <| c2c_var := cv' |> <| parasitics := pa |>).
  { destruct (pa || rd) eqn:Eor.
    - inv_as V2 q Q. inv_as V2 q' Q'.
      rewrite (need_same _ j j'), (Hv eq_refl) in Q by (apply HK; cbn; tauto). inversion Q; subst q.
      inversion V2; subst v2. subst a2 d c r1 v1 a1. destruct c0; vm_compute; reflexivity.
    - inversion V2; subst v2. subst a2 d c r1 v1 a1. destruct c0; vm_compute; reflexivity. }
  assert (R3 : r2 = v2).
  { eapply rd_again in R2; [exact R2|exact HK|exact R1|..]; subst v2 a2 d c r1 v1 a1; destruct c0; vm_compute; reflexivity. }
  pose proof (par_frame _ _ _ P2) as (k13 & k14 & Ep2).
  exists dv', cv', bs, k13, k14. subst c' r2 v2 a2 d. destruct c; vm_compute; reflexivity.
Qed.

Lemma apply_again j j' c0 c c' : same_keys j j' ->
  apply_config j c0 = Ok c -> apply_config j' c = Ok c' -> core c c'.
Proof.
  intros HK H H'. unfold apply_config in *.
  inv_as H x Hx. inv_as H' x' Hx'.
  rewrite (need_same _ j j') in Hx' by (apply HK; cbn; tauto). rewrite Hx in Hx'. inversion Hx'; subst x'; clear Hx'.
  inv_as H x0 Hx0. inv_as H' x' Hx'.
  rewrite (need_same _ j j') in Hx' by (apply HK; cbn; tauto). rewrite Hx0 in Hx'. inversion Hx'; subst x'; clear Hx'.
  inv_as H u1 U1. inv_as H' u1' U1'. clear u1 U1 u1' U1'.
  inv_as H x1 Hx1. inv_as H' x' Hx'.
  rewrite (need_same _ j j') in Hx' by (apply HK; cbn; tauto). rewrite Hx1 in Hx'. inversion Hx'; subst x'; clear Hx'.
  inv_as H x2 Hx2. inv_as H' x' Hx'. rewrite Hx2 in Hx'. inversion Hx'; subst x'; clear Hx'.
  inv_as H x3 Hx3. inv_as H' x' Hx'.
  rewrite (need_same _ j j') in Hx' by (apply HK; cbn; tauto). rewrite Hx3 in Hx'. inversion Hx'; subst x'; clear Hx'.
  inv_as H a1 A1. inv_as H' a2 A2. inv_as H b1 B1. inv_as H' b2 B2.
  inv_as H x4 Hx4. inv_as H' x5 Hx5. inversion H as [Hc]. inversion H' as [Hc']. clear H H'.
  pose proof (bits_frame _ _ _ B1) as (w & i & s & Eb1).
  assert (Hfix : c <| M := x |> <| N := x0 |> <| m_mode := x2 |> <| digital_only := x3 |> = c /\
                 m_mode c = x2 /\ m_mode a1 = x2).
  { destruct x3.
    - inversion A1; subst a1. subst c b1. destruct c0; vm_compute; auto.
    - assert (HF : exists h l at_ r m dd p bs hn ln d2 c2 rd vr t u mt fp tol ww pp,
        a1 = c0 <| M := x |> <| N := x0 |> <| m_mode := x2 |> <| digital_only := false |>
             <| HRS := h |> <| LRS := l |> <| adc_type := at_ |> <| resolution := r |>
             <| adc_calib_mode := m |> <| adc_calib_dict := dd |> <| adc_profile := p |> <| bin_size := bs |>
             <| HRS_NOISE := hn |> <| LRS_NOISE := ln |> <| d2d_var := d2 |> <| c2c_var := c2 |>
             <| read_disturb := rd |> <| V_read := vr |> <| t_read := t |> <| update_freq := u |>
             <| mitigation := mt |> <| mitigation_fp := fp |> <| tolerance := tol |>
             <| w_res := ww |> <| parasitics := pp |>).
      { clear - A1. unfold apply_analog in A1.
        inv_as A1 h E0. inv_as A1 l E1. inv_as A1 an E2. inv_as A1 at_ E3. inv_as A1 u1 U1.
        inv_as A1 y E4. apply adc_frame in E4. destruct E4 as (k1 & k2 & k3 & k4 & k5 & Ea).
        inv_as A1 u2 U2. inv_as A1 hn E5. inv_as A1 ln E6. inv_as A1 dv E7. inv_as A1 cv E8. inv_as A1 u3 U3.
        inv_as A1 rd E9. inv_as A1 pa E10. inv_as A1 z E12. inv_as A1 zz E13.
        assert (Hv : exists v, z = y <| HRS_NOISE := hn |> <| LRS_NOISE := ln |> <| d2d_var := dv |>
          <| c2c_var := cv |> <| read_disturb := rd |> <| parasitics := pa |> <| V_read := v |>).
        { destruct (pa || rd).
          - inv_as E12 q Q. inv_as E12 q' Q'. inversion E12. eauto.
          - inversion E12. exists (V_read y). destruct y; reflexivity. }
        destruct Hv as (v & Hv). apply rd_frame in E13.
        destruct E13 as (q1 & q2 & q3 & q4 & q5 & Er). apply par_frame in A1. destruct A1 as (q6 & q7 & Ep).
        subst a1 zz z y. destruct c0; do 21 eexists; rsimp; reflexivity. }
      do 21 (destruct HF as [? HF]). subst c b1 a1. destruct c0; vm_compute; auto. }
  destruct Hfix as (Hfix & Hm & Hm1). rewrite Hfix in A2.
  assert (A3 : exists d2 c2 bs ww p, a2 = c <| d2d_var := d2 |> <| c2c_var := c2 |> <| bin_size := bs |>
     <| w_res := ww |> <| parasitics := p |>).
  { destruct x3.
    - inversion A2; subst a2. destruct c; do 5 eexists; rsimp; reflexivity.
    - eapply analog_again; [exact HK|exact A1|exact A2| |].
      + rewrite Hm. reflexivity.
      + exists w, i, s, x4. rewrite <- Hc, Eb1. reflexivity. }
  destruct A3 as (d2 & c2 & bs & ww & p & Ea2).
  eapply bits_again in B2; [|exact HK|exact B1|..].
  - destruct B2 as (i' & Eb2). exists i', x5, d2, c2, bs, ww, p.
    subst b2 a2 c' c. clear. destruct b1; vm_compute; reflexivity.
  - subst a2. rewrite Hm1, <- Hm. reflexivity.
  - subst a2. rewrite <- Hc; destruct b1; vm_compute; reflexivity.
  - subst a2. rewrite <- Hc; destruct b1; vm_compute; reflexivity.
Qed.
End CP.
