(** Several writes into an analog crossbar with ideal cells, then a product of any size. *)
From Coq Require Import String List ZArith Reals Lra Bool Arith Lia ZifyBool ZifyNat.
From RecordUpdate Require Import RecordSet.
From Flocq Require Import Core.
From Verif Require Import Base Lib Hoare Machine Json Config Histogram Adc ReadDisturb Parasitics
  Mapper IntMappers BnnMappers TnnMappers Crossbar Api WriteProofs Shape MvmShape DigMvm DigModes
  DigWrite AnaShape ConfigProofs Reach Cells Spec DigApi Invar StepFacts StoreProps CfgProps RMachine RSpec AdcProps
  AnaReal AnaXnn AnaInt AnaWrite AnaSpec AnaApi AnaMvm AnaProps MemSpec MemProps AnaMemSpec.
Import ListNotations RecordSetNotations.
Local Open Scope Z_scope.
Local Open Scope out_scope.

Ltac Zify.zify_post_hook ::= idtac.

Section A.
Context {MC : Machine}.
Notation len := List.length.
Notation MM c := (Z.to_nat (M c)).
Notation at_f := (at2 f0).
Notation at_z := (at2 0).
Notation nominal c g := (level g (fsub (LRS c) (HRS c)) (HRS c)).

Record aholding (c : config) (x : xbar) (mem : nat -> nat -> option Z) (s : nat -> Z) : Prop := {
  ah_h : holding c (xm x) mem s;
  ah_b : built c x;
  ah_par : is_int (m_mode c) = true -> par (xm x) = None;
  ah_top : is_int (m_mode c) = true -> forall i q j, (i < MM c)%nat -> (q < nsplit c)%nat -> (j < colsN c)%nat ->
    at_z (gd_p (xm x)) (i * nsplit c + q) j <= 2 ^ nth q (SPLIT c) 0 - 1 /\
    at_z (gd_m (xm x)) (i * nsplit c + q) j <= 2 ^ nth q (SPLIT c) 0 - 1;
  ah_int : is_int (m_mode c) = true -> forall i q j, (i < MM c)%nat -> (q < nsplit c)%nat -> (j < colsN c)%nat ->
    at_f (ia_p (xm x)) (i * nsplit c + q) j = level (at_z (gd_p (xm x)) (i * nsplit c + q) j) (stepq c q) (HRS c) /\
    (one_array (m_mode c) = false ->
     at_f (ia_m (xm x)) (i * nsplit c + q) j = level (at_z (gd_m (xm x)) (i * nsplit c + q) j) (stepq c q) (HRS c));
  ah_xnn : is_int (m_mode c) = false -> forall i j, (i < MM c)%nat -> (j < colsN c)%nat ->
    (at_f (ia_p (xm x)) i j = nominal c (at_z (gd_p (xm x)) i j) /\
     at_f (ia_p0 (xm x)) i j = nominal c (at_z (gd_p (xm x)) i j)) /\
    (one_array (m_mode c) = false ->
     at_f (ia_m (xm x)) i j = nominal c (at_z (gd_m (xm x)) i j) /\
     at_f (ia_m0 (xm x)) i j = nominal c (at_z (gd_m (xm x)) i j))
}.

(** New cells are at HRS, the level of the value 0. *)
Lemma ah_new c x : (forall st h, level 0 st h = h) -> cfg_wf c -> Forall (fun b => 0 <= b) (SPLIT c) ->
  (is_int (m_mode c) = true -> 0 <= W_BIT c) -> xbar_new c = Ok x -> built c x ->
  (is_int (m_mode c) = true -> par (xm x) = None) -> aholding c x (fun _ _ => None) (fun _ => 0).
Proof.
  intros Hl Hw Hnn HW H Hb Hp. pose proof (holding_new c x Hw HW H) as HH.
  assert (Hz : forall r k, (r < rowsN c)%nat -> (k < colsN c)%nat ->
    at_z (gd_p (xm x)) r k = 0 /\ at_z (gd_m (xm x)) r k = 0 /\
    at_f (ia_p (xm x)) r k = HRS c /\ at_f (ia_p0 (xm x)) r k = HRS c /\
    at_f (ia_m (xm x)) r k = HRS c /\ at_f (ia_m0 (xm x)) r k = HRS c).
  { intros r k Hr Hk. unfold xbar_new in H. inv_as H mp A. injection H as <-. cbn [xm].
    unfold mapper_new in A. cbv zeta in A. inv_as A a1 A1. inv_as A a2 A2. inv_as A a3 A3. inv_as A a4 A4. injection A as <-.
    cbn [gd_p gd_m ia_p ia_m ia_p0 ia_m0].
    rewrite !at2_mat2 by assumption. repeat split. }
  assert (Hz' : forall i t j, (i < MM c)%nat -> (t < rpw c)%nat -> (j < colsN c)%nat ->
    at_z (gd_p (xm x)) (i * rpw c + t) j = 0 /\ at_z (gd_m (xm x)) (i * rpw c + t) j = 0 /\
    at_f (ia_p (xm x)) (i * rpw c + t) j = HRS c /\ at_f (ia_p0 (xm x)) (i * rpw c + t) j = HRS c /\
    at_f (ia_m (xm x)) (i * rpw c + t) j = HRS c /\ at_f (ia_m0 (xm x)) (i * rpw c + t) j = HRS c).
  { intros i t j H1 H2 H3. apply Hz; auto. pose proof (rpw_rows c (MM c) Hw ltac:(lia)). nia. }
  constructor; auto.
  - intros Hi i q j H1 H2 H3. assert (Er : rpw c = nsplit c) by (unfold rpw; now rewrite Hi). rewrite Er in Hz'.
    destruct (Hz' i q j H1 H2 H3) as (-> & -> & _).
    assert (0 <= nth q (SPLIT c) 0) by (apply (proj1 (Forall_forall _ _) Hnn), nth_In; exact H2).
    assert (0 < 2 ^ nth q (SPLIT c) 0) by (apply Z.pow_pos_nonneg; lia). lia.
  - intros Hi i q j H1 H2 H3. assert (Er : rpw c = nsplit c) by (unfold rpw; now rewrite Hi). rewrite Er in Hz'.
    destruct (Hz' i q j H1 H2 H3) as (-> & -> & -> & _ & -> & _). rewrite !Hl. auto.
  - intros Hi i j H1 H2. assert (Er : rpw c = 1%nat) by (unfold rpw; now rewrite Hi). rewrite Er in Hz'.
    specialize (Hz' i O j H1 ltac:(lia) H2). rewrite Nat.add_0_r, Nat.mul_1_r in Hz'.
    destruct Hz' as (-> & -> & -> & -> & -> & ->). rewrite !Hl. auto.
Qed.

Lemma ah_ext c x mem s mem' s' : (forall i j, mem i j = mem' i j) -> (forall i, s i = s' i) ->
  aholding c x mem s -> aholding c x mem' s'.
Proof.
  intros E1 E2 [A1 A2 A3 A4 A5 A6]. constructor; auto.
  - eapply holding_ext; eauto.
Qed.
Lemma ah_core c c' x mem s : core c c' -> aholding c x mem s -> aholding c' x mem s.
Proof.
  intros Hc [A1 A2 A3 A4 A5 A6].
  assert (B1 : holding c' (xm x) mem s) by (eapply holding_core; [exact Hc|apply sd_refl|exact A1]).
  destruct Hc as (i & v & d2 & c2 & bs & wr & p & ->). constructor; assumption.
Qed.

Lemma look_ah c x c' x' mem s : cfg_wf c -> xok c x -> look c x c' x' ->
  digital_only c = false -> read_disturb c = false -> c2c_var c = false ->
  aholding c x mem s -> aholding c' x' mem s.
Proof.
  intros Hw Hx HL Hd Hrd Hc2 HR. destruct HL as [c' HC|res vec mat' m' n' l e r x' e' H].
  - eapply ah_core; eauto.
  - destruct (xmvm_split _ _ _ _ _ _ _ _ _ _ _ _ Hw Hx Hd H) as (mp & e1 & S & D1 & D2 & D3 & P0 & M0 & PP & V & T).
    cbv zeta in T. rewrite Hrd in T. destruct T as [T _].
    pose proof (xmvm_consts _ _ _ _ _ _ _ _ _ _ _ _ Hx Hw H) as (C1 & C2 & C3).
    assert (EM : xm x' = mp) by now rewrite T. destruct HR as [A1 A2 A3 A4 A5 A6].
    rewrite Hc2 in V. cbn [andb] in V.
    constructor; rewrite ?EM, ?D1, ?D2, ?PP; auto.
    + eapply holding_core; [apply core_refl| |exact A1]. repeat split; auto.
    + destruct A2 as (B1 & B2 & B3). unfold built. rewrite C1, C2, C3. auto.
    + intros Hi i q j H1 H2 H3. destruct (V (i * nsplit c + q)%nat j) as [-> ->]. now apply A5.
    + intros Hi i j H1 H2. destruct (V i j) as [-> ->]. rewrite P0, M0. now apply A6.
Qed.

(** What a write leaves alone. *)
Lemma a_write_frame c mp m n e mp' e' st : shape c mp -> a_write c mp m n e = Ok (mp', e') -> parasitics c = false ->
  (m <= MM c)%nat -> (n <= colsN c)%nat ->
  (is_int (m_mode c) = true -> (1 <= nsplit c)%nat /\ forall q, (q < nsplit c)%nat -> nth q (i_step mp) None = Some (st q)) ->
  forall i j, inside (m * rpw c) n i j = false ->
    at_f (ia_p mp') i j = at_f (ia_p mp) i j /\ at_f (ia_m mp') i j = at_f (ia_m mp) i j /\
    (is_int (m_mode c) = false -> at_f (ia_p0 mp') i j = at_f (ia_p0 mp) i j /\ at_f (ia_m0 mp') i j = at_f (ia_m0 mp) i j).
Proof.
  intros Hs H Hpa Hm Hn Hst i j Hij. unfold rpw in Hij. destruct (is_int (m_mode c)) eqn:Hi.
  - destruct (Hst eq_refl) as [H1s Hst']. unfold a_write in H. rewrite (sh_mode _ _ Hs), Hpa, Hi in H. cbv zeta in H.
    destruct (a_write_int_ok c (match m_mode c with I_UINT_W_OFFS | BNN_III | BNN_IV => false | _ => true end)
      mp m n st Hs Hi Hm Hn H1s Hst') as (mp2 & E2 & _ & _ & V2).
    rewrite E2 in H. cbn [bind] in H. injection H as <- _. destruct (V2 i j Hij) as [V3 V4]. repeat split; auto; discriminate.
  - destruct (a_write_cells c mp m n e mp' e' Hs H) as (_ & _ & _ & _ & VX & _). specialize (VX Hi i j).
    rewrite Nat.mul_1_r in Hij. rewrite Hij in VX. destruct VX as (V1 & V2 & V3 & V4). auto.
Qed.

Lemma cpy_ah w x mem s mat m n : reach w -> wx w = Some x -> digital_only (wcfg w) = false ->
  read_disturb (wcfg w) = false -> parasitics (wcfg w) = false ->
  fle (HRS_NOISE (wcfg w)) f0 = true -> fle (LRS_NOISE (wcfg w)) f0 = true ->
  split_covers (wcfg w) -> dims_in (wcfg w) m n -> all_entries (weight_in (wcfg w)) mat m n ->
  Z.of_nat (colsN (wcfg w)) * row_bound (wcfg w) <= int_max -> aholding (wcfg w) x mem s ->
  exists w1 x1, step w (CpyMtrx mat m n) = Ok (w1, RCode 0) /\ wcfg w1 = wcfg w /\ wx w1 = Some x1 /\
    aholding (wcfg w) x1
      (fun i j => if (i <? Z.to_nat m)%nat && (j <? Z.to_nat n)%nat then Some (entry mat (Z.to_nat n) i j) else mem i j)
      (fun i => if (i <? Z.to_nat m)%nat then sum (Z.to_nat n) (entry mat (Z.to_nat n) i) else s i).
Proof.
  intros Hr Hx Hd Hrd Hpa Hn1 Hn2 Hcov Hdim Hent HN HA.
  pose proof (reach_good _ Hr) as Hg. destruct (guard_ok w m n Hg Hdim) as (G1 & G2 & Hm & Hn).
  pose proof (g_x _ Hg x Hx) as Hxo. pose proof (good_wf w Hg) as Hwf. pose proof (split_nonneg w Hg) as Hnn.
  pose proof (row_bound_pos (wcfg w)) as Hrp.
  assert (HN1 : n * row_bound (wcfg w) <= int32_max).
  { destruct Hdim. unfold int_max in HN. unfold int32_max. assert (n <= Z.of_nat (colsN (wcfg w))) by lia. nia. }
  destruct (cpy_ready w x mat m n Hr Hx Hd Hrd Hpa (ah_par _ _ _ _ HA) Hn1 Hn2 Hcov Hdim Hent HN1)
    as (w1 & x1 & E1 & Gd1 & C1 & X1 & R1).
  exists w1, x1. split; [exact E1|]. split; [exact C1|]. split; [exact X1|].
  cbn [step] in E1. unfold cpy_mtrx in E1. rewrite Hx, G1, G2 in E1. cbn [bind] in E1. inv_as E1 y Hy.
  destruct y as [x1' e1]. injection E1 as E1. subst w1. cbn in X1. injection X1 as ->. clear Gd1 C1.
  set (c := wcfg w) in *. set (mN := Z.to_nat m) in *. set (nN := Z.to_nat n) in *.
  destruct (xwrite_parts _ _ _ _ _ _ _ _ Hxo Hwf Hy) as (mp1 & D & S1 & SB & EA). rewrite Hd in EA.
  destruct Hent as [Hl Hent].
  destruct (holding_write c (xm x) mem s mat mN nN) as (mp' & E & _ & Fr & S2); auto.
  { apply Hxo. }
  { unfold mN, nN. destruct Hdim. nia. }
  { apply HA. }
  rewrite D in E. injection E as <-.
  destruct (a_write_cells c mp1 mN nN (wenv w) _ e1 S1 EA) as (D1 & D2 & _).
  assert (SW : sum_w (xm x1) = sum_w mp1).
  { destruct (proj1 (tri_any _ _) (a_write_tri anyfail harmless_any c mp1 mN nN (wenv w) Hwf S1 (or_introl (fun _ => I))) _ EA)
      as (_ & SA & _). destruct SA as (z1 & z2 & z3 & z4 & z5 & ->). reflexivity. }
  pose proof (ah_b _ _ _ _ HA) as HB.
  assert (Hst : is_int (m_mode c) = true -> (1 <= nsplit c)%nat /\
    forall q, (q < nsplit c)%nat -> nth q (i_step mp1) None = Some (stepq c q)).
  { intros Hi. destruct (Hcov Hi) as [T1 T2]. split; [unfold nsplit; destruct (SPLIT c); cbn in *; lia|].
    destruct (sc_digital _ _ SB) as (C1 & C2 & C3). rewrite C2. apply steps_nth; auto.
    destruct HB as (_ & B2 & _). rewrite Hd in B2. apply B2. unfold uses_shift. now rewrite Hi. }
  pose proof (a_write_frame c mp1 mN nN _ _ _ _ S1 EA Hpa Hm Hn Hst) as FA.
  assert (Eia : ia_p mp1 = ia_p (xm x) /\ ia_m mp1 = ia_m (xm x) /\ ia_p0 mp1 = ia_p0 (xm x) /\ ia_m0 mp1 = ia_m0 (xm x)).
  { destruct SB as (z1 & z2 & z3 & ->). repeat split. }
  destruct Eia as (I1 & I2 & I3 & I4). rewrite I1, I2, I3, I4 in FA.
  assert (Fout : forall i t j, (i < MM c)%nat -> (t < rpw c)%nat -> (j < colsN c)%nat ->
    (i <? mN)%nat && (j <? nN)%nat = false ->
    at_z (gd_p (xm x1)) (i * rpw c + t) j = at_z (gd_p (xm x)) (i * rpw c + t) j /\
    at_z (gd_m (xm x1)) (i * rpw c + t) j = at_z (gd_m (xm x)) (i * rpw c + t) j /\
    inside (mN * rpw c) nN (i * rpw c + t) j = false).
  { intros i t j H1 H2 H3 H4. pose proof (rpw_rows c (MM c) Hwf ltac:(lia)) as H5.
    assert (Hij : rect (rpw c) mN nN (i * rpw c + t) j = false).
    { unfold rect. apply andb_false_iff in H4. apply andb_false_iff. destruct H4 as [H4|H4]; [left|right; exact H4].
      apply Nat.ltb_ge in H4. apply Nat.ltb_ge. nia. }
    rewrite D1, D2. destruct (Fr (i * rpw c + t)%nat j ltac:(nia) H3 Hij) as [-> ->]. repeat split. exact Hij. }
  constructor.
  - eapply holding_core; [apply core_refl| |exact S2]. repeat split; auto.
  - exact (re_b _ _ _ _ _ R1).
  - exact (re_par _ _ _ _ _ R1).
  - intros Hi i q j H1 H2 H3. destruct ((i <? mN)%nat && (j <? nN)%nat) eqn:Eij.
    + apply (re_top _ _ _ _ _ R1 Hi); lia.
    + assert (Er : rpw c = nsplit c) by (unfold rpw; now rewrite Hi). rewrite Er in Fout.
      destruct (Fout i q j H1 H2 H3 Eij) as (-> & -> & _). now apply (ah_top _ _ _ _ HA).
  - intros Hi i q j H1 H2 H3. destruct ((i <? mN)%nat && (j <? nN)%nat) eqn:Eij.
    + apply (re_int _ _ _ _ _ R1 Hi); lia.
    + assert (Er : rpw c = nsplit c) by (unfold rpw; now rewrite Hi). rewrite Er in Fout, FA.
      destruct (Fout i q j H1 H2 H3 Eij) as (-> & -> & Hin). destruct (FA _ _ Hin) as (-> & -> & _).
      now apply (ah_int _ _ _ _ HA).
  - intros Hi i j H1 H2. destruct ((i <? mN)%nat && (j <? nN)%nat) eqn:Eij.
    + apply (re_xnn _ _ _ _ _ R1 Hi); lia.
    + assert (Er : rpw c = 1%nat) by (unfold rpw; now rewrite Hi). rewrite Er in Fout, FA.
      destruct (Fout i O j H1 ltac:(lia) H2 Eij) as (F1 & F2 & Hin). rewrite Nat.add_0_r, !Nat.mul_1_r in F1, F2. rewrite Nat.add_0_r, !Nat.mul_1_r in Hin. rewrite Nat.mul_1_r in FA.
      destruct (FA _ _ Hin) as (F3 & F4 & F5). destruct (F5 Hi) as [F6 F7]. rewrite F1, F2, F3, F4, F6, F7.
      now apply (ah_xnn _ _ _ _ HA).
Qed.

(** ** Histories *)
Lemma ah_run h : forall w x mem s w' rs,
  reach w -> wx w = Some x -> digital_only (wcfg w) = false -> read_disturb (wcfg w) = false ->
  fle (HRS_NOISE (wcfg w)) f0 = true -> fle (LRS_NOISE (wcfg w)) f0 = true -> split_covers (wcfg w) ->
  Z.of_nat (colsN (wcfg w)) * row_bound (wcfg w) <= int_max -> always no_variation w h ->
  Forall (usual (wcfg w)) h -> aholding (wcfg w) x mem s -> run w h = Ok (w', rs) ->
  reach w' /\ core (wcfg w) (wcfg w') /\ exists x', wx w' = Some x' /\
    aholding (wcfg w') x' (fold_left (remember (wcfg w)) h mem) (fold_left (resum (wcfg w)) h s).
Proof.
  induction h as [|a h IH]; cbn [run]; intros w x mem s w' rs Hr Hx Hd Hrd Hn1 Hn2 Hcov HN HA Hu HH H.
  - injection H as <- _. split; [exact Hr|]. split; [apply core_refl|]. exists x. auto.
  - inv_as H t Ht. destruct t as [w1 r]. inv_as H t2 Ht2. destruct t2 as [w2 rs2]. injection H as <- _.
    inversion Hu as [|? ? U1 U2]; subst. pose proof (reach_good _ Hr) as Hg.
    destruct (always_here _ _ _ HA) as [Hc2 Hpa].
    assert (HS : r <> RExc /\ exists x1, wx w1 = Some x1 /\
      aholding (wcfg w1) x1 (remember (wcfg w) mem a) (resum (wcfg w) s a)).
    { assert (Hq : quiet a -> r <> RExc /\ exists x1, wx w1 = Some x1 /\ aholding (wcfg w1) x1 mem s).
      { intros Hq. destruct (quiet_look _ _ _ _ _ Hg Hq Hx Ht) as (Hg1 & Hne & x1 & X1 & L). split; [exact Hne|].
        exists x1. split; [exact X1|].
        exact (look_ah _ _ _ _ mem s (good_wf _ Hg) (g_x _ Hg _ Hx) L Hd Hrd Hc2 HH). }
      destruct a as [| | | |mat m n| | | | |]; auto. clear Hq. destruct U1 as (Um & Un & Ue). cbn [remember resum].
      destruct (accepted (wcfg w) m n) eqn:Ea.
      - unfold accepted in Ea. specialize (Ue eq_refl). assert (Hdim : dims_in (wcfg w) m n) by (split; lia).
        destruct (cpy_ah w x mem s mat m n) as (w1' & x1 & E1 & C1 & X1 & A1); auto.
        rewrite E1 in Ht. injection Ht as <- <-. split; [discriminate|]. exists x1. split; [exact X1|]. rewrite C1.
        eapply ah_ext; [| |exact A1].
        + intros i j. cbv beta. cbn [andb]. replace ((i <? Z.to_nat m)%nat) with (Z.of_nat i <? m) by lia.
          replace ((j <? Z.to_nat n)%nat) with (Z.of_nat j <? n) by lia. reflexivity.
        + intros i. cbv beta. cbn [andb]. replace ((i <? Z.to_nat m)%nat) with (Z.of_nat i <? m) by lia. reflexivity.
      - assert (Hb : too_big (wcfg w) m n = true).
        { unfold accepted in Ea. unfold too_big, u32. rewrite !Z.mod_small by lia. lia. }
        cbn [step] in Ht. unfold cpy_mtrx in Ht. rewrite Hx, Hb in Ht. injection Ht as <- <-. split; [discriminate|].
        exists x. split; [exact Hx|]. exact HH. }
    destruct HS as (Hne & x1 & X1 & H1). destruct (usual_core _ _ _ _ Hg U1 Ht) as (Hg1 & Hc1).
    pose proof (reach_step _ _ _ _ Hr Ht Hne) as Hr1.
    assert (Hk : digital_only (wcfg w1) = false /\ read_disturb (wcfg w1) = false /\
      fle (HRS_NOISE (wcfg w1)) f0 = true /\ fle (LRS_NOISE (wcfg w1)) f0 = true).
    { clear - Hc1 Hd Hrd Hn1 Hn2. destruct Hc1 as (i & v & d2 & c2 & bs & wr & p & ->). repeat split; assumption. }
    destruct Hk as (K1 & K2 & K3 & K4). destruct (core_domains _ _ Hc1) as (W1 & W2 & W3 & W4 & W5).
    pose proof (core_eqs _ _ Hc1) as (EM & EN & Em & Es & Ew & _).
    destruct (IH _ _ _ _ _ _ Hr1 X1 K1 K2 K3 K4 ltac:(now apply W2)
      ltac:(unfold colsN, row_bound in *; now rewrite EN, Em, Ew) (always_next _ _ _ _ _ _ Ht HA)
      ltac:(eapply Forall_impl; [|exact U2]; intros; eapply usual_same; eauto) H1 Ht2) as (R2 & C2 & x2 & X2 & HH2).
    split; [exact R2|]. split; [eapply core_trans; eauto|]. exists x2. split; [exact X2|]. cbn [fold_left].
    destruct (fold_core _ _ h Hc1 (remember (wcfg w) mem a) (resum (wcfg w) s a)) as [-> ->]. exact HH2.
Qed.
End A.

Section AR.
Local Open Scope R_scope.
Context (nz : bool -> nat -> R) (s : bool).
#[local] Hint Extern 0 Machine => exact (R_machine nz s) : typeclass_instances.
Notation len := List.length.
Notation RM := (R_machine nz s).
Notation MM c := (Z.to_nat (M c)).

(** ** One MVM *)
Notation okrange c ok nN :=
  ((forall y, ok y) \/
     (0 <= @HRS RM c /\ 0 < @LRS RM c - @HRS RM c /\ m_mode c <> TNN_IV /\ m_mode c <> TNN_V /\
      (is_diff (m_mode c) = true -> forall y, Rabs y <= INR nN * (@LRS RM c - @HRS RM c) -> ok y) /\
      (is_diff (m_mode c) = false -> forall y, 0 <= y <= INR nN * @LRS RM c -> ok y))).

(** A product never exceeds the room for twice the columns. *)
Lemma mem_dres (c : @config RM) mp mem sums vec mN nN i :
  Forall (fun b => 0 <= b)%Z (SPLIT c) -> split_covers c -> widths_fit c -> (mN <= MM c)%nat -> (nN <= colsN c)%nat ->
  (nN <= len vec)%nat -> (forall j, (j < nN)%nat -> input_in c (nth j vec 0%Z)) ->
  (2 * Z.of_nat (colsN c) * term_bound c <= int_max)%Z -> holding c mp mem sums -> (i < mN)%nat ->
  (Z.abs (dres c mp vec nN i 0) <= 2 * Z.of_nat (colsN c) * term_bound c)%Z.
Proof.
  intros Hnn Hcov Hwid Hm Hn Hvec Hin HN HH Hi. set (K := (int_max - 2 * Z.of_nat (colsN c) * term_bound c)%Z).
  assert (Tb : (0 <= term_bound c)%Z).
  { unfold term_bound. destruct (is_int (m_mode c)); [apply Z.pow_nonneg|]; lia. }
  assert (P : forall k, Z.abs k = K -> (Z.abs (k + dres c mp vec nN i 0) <= int_max)%Z).
  { intros k Hk. assert (Nk : forall t, (t < mN)%nat -> nth t (repeat k mN) 0%Z = k).
    { intros t Ht. rewrite <- (nth_indep _ k 0%Z) by now rewrite repeat_length. apply nth_repeat. }
    destruct (holding_facts c mp mem sums (repeat k mN) vec mN nN Hnn Hcov Hwid Hm Hn
      ltac:(rewrite repeat_length; lia) Hvec Hin HN) as (_ & _ & _ & _ & F5 & _); [|exact HH|].
    - intros t Ht. rewrite Nk by exact Ht. unfold K in Hk. lia.
    - specialize (F5 i Hi). rewrite Nk in F5 by exact Hi.
      replace (k + dres c mp vec nN i 0)%Z with (dres c mp vec nN i k) by (unfold dres; lia). exact F5. }
  assert (0 <= K)%Z by (unfold K; lia). pose proof (P K ltac:(lia)). pose proof (P (- K)%Z ltac:(lia)). unfold K in *. lia.
Qed.

Lemma mem_mvm (c : @config RM) x mem sums res vec mat' mN nN l e cv ok fit eps hf E :
  cfg_wf c -> shape c (xm x) -> Forall (fun b => 0 <= b)%Z (SPLIT c) -> (mN <= MM c)%nat -> (nN <= colsN c)%nat ->
  aholding c x mem sums -> digital_only c = false -> parasitics c = false ->
  (is_int (m_mode c) = false -> adc_profile c = false) ->
  @LRS RM c - @HRS RM c <> 0 -> split_covers c -> widths_fit c -> slices_wide c ->
  (m_mode c = I_OFFS_W_DIFF -> s = false) ->
  (forall y sc off, @adc1 RM c (mp_adc (xm x)) l y sc off = Ok (cv y sc off)) ->
  conv cv ok fit eps (@LRS RM c - @HRS RM c) ->
  (forall y, fit y) \/ ((forall X, fit (IZR X)) /\ partial_sums (m_mode c) = false) ->
  0 <= hf -> (forall x sc off, cv x sc off = (x + off) * sc) \/ 1 / 2 <= hf ->
  okrange c ok nN ->
  (if is_int (m_mode c) then ierr nz s c eps hf else xerr nz s c eps) <= E -> 0 <= E ->
  (forall j, (j < nN)%nat -> input_in c (nth j vec 0%Z)) -> (mN <= len res)%nat -> (nN <= len vec)%nat ->
  (2 * Z.of_nat (colsN c) * term_bound c <= int_max)%Z ->
  (forall i, (i < mN)%nat -> IZR (Z.abs (nth i res 0%Z) + 2 * Z.of_nat (colsN c) * term_bound c) + E <= IZR int_max) ->
  exists mp' r, @a_mvm RM c (xm x) res vec mat' mN nN l e = Ok (r, mp', e) /\
    near E r (memory_product c res vec mem sums mN nN) mN.
Proof.
  intros Hwf Hs Hnn Hm Hn HR Hd Hpa Hprof Hdl Hcov Hwid Hsw Hst Hcv HC Hfit Hhf Hhalf Hok HE HE0 Hin Hres Hvec HN HB0.
  pose proof (term_span nz s c Hcov Hwid) as Hsp. pose proof HR as [R1 R2 R3 R4 R5 R6].
  assert (HB1 : forall i, (i < mN)%nat -> (Z.abs (nth i res 0) + 2 * Z.of_nat (colsN c) * term_bound c <= int_max)%Z).
  { intros i Hi. apply le_IZR. specialize (HB0 i Hi). lra. }
  destruct (holding_facts c (xm x) mem sums res vec mN nN Hnn Hcov Hwid Hm Hn Hres Hvec Hin HN HB1 R1)
    as (Hb & F2 & F3 & F4 & F5 & F6).
  assert (Tb : (0 <= term_bound c)%Z).
  { unfold term_bound. destruct (is_int (m_mode c)); [apply Z.pow_nonneg|]; lia. }
  assert (HG : agoal nz s c (xm x) res vec mat' mN nN l e E).
  { assert (HB : forall i, (i < mN)%nat -> IZR (Z.abs (nth i res 0%Z) + Z.of_nat nN * span c) + E <= IZR int_max).
    { intros i Hi. eapply Rle_trans; [|exact (HB0 i Hi)]. apply Rplus_le_compat_r, IZR_le. rewrite <- Hsp. nia. }
    assert (HF : forall i, (i < mN)%nat -> IZR (Z.abs (dres c (xm x) vec nN i (nth i res 0%Z))) + E <= IZR int_max).
    { intros i Hi. eapply Rle_trans; [|exact (HB0 i Hi)]. apply Rplus_le_compat_r, IZR_le.
      pose proof (mem_dres c (xm x) mem sums vec mN nN i Hnn Hcov Hwid Hm Hn Hvec Hin HN R1 Hi) as D.
      replace (dres c (xm x) vec nN i (nth i res 0%Z)) with (nth i res 0 + dres c (xm x) vec nN i 0)%Z by (unfold dres; lia). lia. }
    destruct (is_int (m_mode c)) eqn:Hi.
    - assert (Hns : (1 <= nsplit c)%nat).
      { destruct (Hcov Hi) as [T1 T2]. unfold nsplit. destruct (SPLIT c); cbn in *; lia. }
      destruct R2 as (B1 & B2 & B3). rewrite Hd in *.
      change (@fsub RM (@LRS RM c) (@HRS RM c)) with (@LRS RM c - @HRS RM c) in *.
      apply (ana_int nz s c (xm x) res vec mat' mN nN l e cv ok fit eps hf E); auto.
      + destruct Hok as [H|(K1 & K2 & _ & _ & K3)]; [now left|right; auto].
      + intros q Hq. unfold top. pose proof (proj1 (Forall_forall _ _) (Hsw Hi) (nth q (SPLIT c) 0%Z) (nth_In _ _ Hq)) as K.
        cbv beta in K. assert (2 ^ 1 <= 2 ^ nth q (SPLIT c) 0)%Z by (apply Z.pow_le_mono_r; lia). lia.
      + apply (steps_nth c _ _ Hnn Hcov Hi). apply B2. unfold uses_shift. now rewrite Hi.
      + intros i j H1 H2. apply (hm_ok _ _ _ _ R1); lia.
      + intros i q j H1 H2 H3. apply (R4 eq_refl i q j); auto; lia.
      + intros i q j H1 H2 H3. destruct (R5 eq_refl i q j) as [K _]; auto; lia.
      + intros H2a i q j H1 H2 H3. destruct (R5 eq_refl i q j) as [_ K]; auto; try lia. apply K. now destruct (m_mode c).
      + intros Em. apply (delta_eq nz s c); auto.
    - destruct R2 as (B1 & _). rewrite Hd in B1.
      apply (ana_xnn nz s c (xm x) res vec mat' mN nN l e cv ok fit eps E); auto.
      + intros i j H1 H2. apply (hm_ok _ _ _ _ R1); lia.
      + intros i j H1 H2. destruct (R6 eq_refl i j) as [[K _] _]; auto; try lia. etransitivity; [exact K|]. unfold level. cbn. ring.
      + intros H2a i j H1 H2. destruct (R6 eq_refl i j) as [_ K]; auto; try lia.
        assert (Ho : one_array (m_mode c) = false) by now destruct (m_mode c).
        destruct (K Ho) as [K1 _]. etransitivity; [exact K1|]. unfold level. cbn. ring.
      + unfold span in F2. rewrite Hi in F2. exact F2.
      + unfold span in HB. rewrite Hi in HB. exact HB. }
  destruct HG as (mp' & d & EA & HD). exists mp', (upto mN (fun i x => (x + d i)%Z) res). split; [exact EA|].
  rewrite <- F6. split; [now rewrite !upto_length|]. intros i. split; intros Hi.
  - rewrite !nth_upto_lt by lia. specialize (HD i Hi).
    replace (dres c (xm x) vec nN i (nth i res 0%Z)) with (nth i res 0 + dres c (xm x) vec nN i 0)%Z by (unfold dres; lia).
    rewrite !plus_IZR. replace (IZR (nth i res 0%Z) + IZR (d i) - _) with (IZR (d i) - IZR (dres c (xm x) vec nN i 0)) by ring.
    exact HD.
  - destruct (Nat.lt_ge_cases i (len res)).
    + rewrite !nth_upto by auto. now replace (i <? mN)%nat with false by lia.
    + rewrite !nth_overflow; rewrite ?upto_length; auto.
Qed.

Lemma near_0 r t m : near 0 r t m -> r = t.
Proof.
  intros [L H]. apply (nth_ext _ _ 0%Z 0%Z); [exact L|]. intros i _. destruct (H i) as [H1 H2].
  destruct (Nat.lt_ge_cases i m) as [Hi|Hi]; [|now apply H2]. specialize (H1 Hi). apply eq_IZR.
  destruct (Req_dec (IZR (nth i r 0%Z) - IZR (nth i t 0%Z)) 0) as [E|E]; [lra|]. pose proof (Rabs_pos_lt _ E). lra.
Qed.

(** ** Load, history, product *)
Lemma mem_end (w0 : @world RM) src w1 x1 h w2 rs :
  reach w0 -> step w0 (SetConfig src) = Ok (w1, RUnit) -> wx w1 = Some x1 -> ideal_cells (wcfg w1) x1 ->
  Forall (usual (wcfg w1)) h -> run w1 h = Ok (w2, rs) -> always no_variation w1 h ->
  split_covers (wcfg w1) -> widths_fit (wcfg w2) -> (0 <= N (wcfg w2))%Z ->
  (2 * N (wcfg w2) * term_bound (wcfg w2) <= int32_max)%Z ->
  good w2 /\ core (wcfg w1) (wcfg w2) /\ no_variation (wcfg w2) /\ exists x2, wx w2 = Some x2 /\
    aholding (wcfg w2) x2 (memory (wcfg w1) h) (row_sums (wcfg w1) h).
Proof.
  intros Hr Hset X1 (I1 & I2 & I3 & I4 & I5 & I6 & I7) Hu Hrun Hal Hcov Hwid HNN HN.
  pose proof (reach_step _ _ _ _ Hr Hset ltac:(discriminate)) as Hr'.
  destruct (set_holding _ _ _ (reach_good _ Hr) Hset) as (G1 & x1' & X1' & E1). rewrite X1 in X1'. injection X1' as <-.
  destruct (usual_run_core h _ _ _ G1 Hu Hrun) as (_ & Hc).
  destruct (core_domains _ _ Hc) as (W1 & W2 & W3 & W4 & W5).
  pose proof (core_eqs _ _ Hc) as (EM & EN & Em & Es & Ew & _).
  assert (Hcov2 : split_covers (wcfg w2)) by now apply W2.
  assert (Erb : row_bound (wcfg w2) = row_bound (wcfg w1)) by (unfold row_bound; now rewrite Em, Ew).
  assert (EC1 : Z.of_nat (colsN (wcfg w1)) = N (wcfg w2)) by (unfold colsN; rewrite <- EN, Z2Nat.id; lia).
  pose proof (row_term _ Hwid Hcov2) as Hrt. pose proof (row_bound_pos (wcfg w2)) as Hrp.
  destruct (ah_run h w1 x1 (fun _ _ => None) (fun _ => 0%Z) w2 rs) as (Hr2' & _ & x2 & X2 & HH); auto.
  { rewrite EC1, <- Erb. unfold int32_max in HN. unfold int_max. nia. }
  { apply ah_new; auto; [intros; unfold level; cbn; ring|now apply good_wf|now apply split_nonneg| |now apply reach_built]. intros Hi. destruct (Hcov Hi). lia. }
  split; [now apply reach_good|]. split; [exact Hc|]. split; [|exists x2; auto].
  apply (Hal h [] w2 rs); [now rewrite app_nil_r|exact Hrun].
Qed.

Lemma mem_step (w2 : @world RM) x2 mem sums res vec mat' m n l cv ok fit eps hf E :
  good w2 -> wx w2 = Some x2 -> aholding (wcfg w2) x2 mem sums -> no_variation (wcfg w2) ->
  digital_only (wcfg w2) = false -> read_disturb (wcfg w2) = false ->
  (is_int (m_mode (wcfg w2)) = false -> adc_profile (wcfg w2) = false) ->
  @LRS RM (wcfg w2) - @HRS RM (wcfg w2) <> 0 -> split_covers (wcfg w2) -> widths_fit (wcfg w2) -> slices_wide (wcfg w2) ->
  (m_mode (wcfg w2) = I_OFFS_W_DIFF -> s = false) -> dims_in (wcfg w2) m n -> all_first (input_in (wcfg w2)) vec n ->
  (forall y sc off, @adc1 RM (wcfg w2) (mp_adc (xm x2)) l y sc off = Ok (cv y sc off)) ->
  conv cv ok fit eps (@LRS RM (wcfg w2) - @HRS RM (wcfg w2)) ->
  (forall y, fit y) \/ ((forall X, fit (IZR X)) /\ partial_sums (m_mode (wcfg w2)) = false) ->
  0 <= hf -> (forall x sc off, cv x sc off = (x + off) * sc) \/ 1 / 2 <= hf ->
  okrange (wcfg w2) ok (Z.to_nat n) -> room_for E (wcfg w2) res m (2 * N (wcfg w2)) ->
  (if is_int (m_mode (wcfg w2)) then ierr nz s (wcfg w2) eps hf else xerr nz s (wcfg w2) eps) <= E -> 0 <= E ->
  exists w3 r, step w2 (ExeMvm res vec mat' m n l) = Ok (w3, RRes 0 r) /\
    near E r (memory_product (wcfg w2) res vec mem sums (Z.to_nat m) (Z.to_nat n)) (Z.to_nat m).
Proof.
  intros G2 X2 HH [V1 V2] I1 I2 I7 Hdl Hcov Hwid Hsw Hst Hdim [Hv1 Hv2] Hcv HC Hfit Hhf Hhalf Hok [HN [Hr1 Hr2]] HE HE0.
  assert (HNN : (0 <= N (wcfg w2))%Z) by (destruct Hdim; lia).
  assert (EC : Z.of_nat (colsN (wcfg w2)) = N (wcfg w2)) by (unfold colsN; rewrite Z2Nat.id; lia).
  destruct (guard_ok w2 m n G2 Hdim) as (T1 & T2 & M2 & N2).
  pose proof (g_x _ G2 x2 X2) as Hxo. destruct Hdim as [Dm Dn].
  assert (A3 : (Z.to_nat m <= len res)%nat) by lia. assert (A4 : (Z.to_nat n <= len vec)%nat) by lia.
  assert (A5 : (2 * Z.of_nat (colsN (wcfg w2)) * term_bound (wcfg w2) <= int_max)%Z) by (rewrite EC; exact HN).
  assert (A6 : forall i, (i < Z.to_nat m)%nat ->
    IZR (Z.abs (nth i res 0%Z) + 2 * Z.of_nat (colsN (wcfg w2)) * term_bound (wcfg w2)) + E <= IZR int_max) by (rewrite EC; exact Hr2).
  destruct (mem_mvm (wcfg w2) x2 mem sums res vec mat' (Z.to_nat m) (Z.to_nat n) l (wenv w2) cv ok fit eps hf E
    (good_wf _ G2) (xo_shape _ _ Hxo) (split_nonneg _ G2) M2 N2 HH I1 V2 I7 Hdl Hcov Hwid Hsw Hst Hcv HC Hfit Hhf Hhalf Hok HE HE0
    Hv2 A3 A4 A5 A6) as (mp' & r & EA & HNr).
  eexists. exists r. split; [|exact HNr]. cbn [step]. unfold exe_mvm. rewrite X2, T1, T2. cbn [bind]. unfold xmvm. cbv zeta.
  rewrite I1, V1. cbn [bind].
  change (xm (x2 <| n_mvm := (n_mvm x2 + 1)%Z |> <| n_read := (n_read x2 + 1)%Z |>)) with (xm x2). rewrite EA. cbn [bind].
  rewrite I2. cbn [bind]. reflexivity.
Qed.

(** C82. *)
Lemma analog_memory (w0 : @world RM) src w1 x1 h w2 rs res vec mat' m n l :
  reach w0 -> step w0 (SetConfig src) = Ok (w1, RUnit) -> wx w1 = Some x1 -> ideal_cells (wcfg w1) x1 ->
  adc_type (wcfg w1) = INF_ADC -> @HRS RM (wcfg w1) <> @LRS RM (wcfg w1) ->
  (m_mode (wcfg w1) = I_OFFS_W_DIFF -> s = false) ->
  Forall (usual (wcfg w1)) h -> run w1 h = Ok (w2, rs) -> always no_variation w1 h ->
  split_covers (wcfg w1) -> slices_wide (wcfg w1) -> widths_fit (wcfg w2) -> dims_in (wcfg w2) m n ->
  all_first (input_in (wcfg w2)) vec n -> room (wcfg w2) res m (2 * N (wcfg w2)) ->
  exists w3, step w2 (ExeMvm res vec mat' m n l) =
    Ok (w3, RRes 0 (memory_product (wcfg w2) res vec (memory (wcfg w1) h) (row_sums (wcfg w1) h)
                      (Z.to_nat m) (Z.to_nat n))).
Proof.
  intros Hr Hset X1 HI Hadc Hdl Hst Hu Hrun Hal Hcov Hsw Hwid Hdim Hin Hroom.
  destruct (mem_end w0 src w1 x1 h w2 rs Hr Hset X1 HI Hu Hrun Hal Hcov Hwid ltac:(destruct Hdim; lia) (proj1 Hroom))
    as (G2 & Hc & HV & x2 & X2 & HH).
  destruct (core_domains _ _ Hc) as (W1 & W2 & W3 & W4 & W5).
  destruct (core_keeps nz s _ _ Hc) as (F1 & F2 & F3 & F4 & F5 & F6 & F7 & F8 & F9 & F10 & F11 & F12 & F13).
  destruct HI as (I1 & I2 & I3 & I4 & I5 & I6 & I7). assert (Hcov2 : split_covers (wcfg w2)) by now apply W2.
  rewrite <- F1 in I1. rewrite <- F2 in I2. rewrite <- F3, <- F4 in I7. rewrite <- F9, <- F10 in Hdl. rewrite <- F4 in Hst.
  rewrite <- F11 in Hadc.
  destruct (mem_step w2 x2 (memory (wcfg w1) h) (row_sums (wcfg w1) h) res vec mat' m n l (fun x sc off => (x + off) * sc)
    (fun _ => True) (fun _ => True) (fun _ => 0) 0 0) as (w3 & r & E3 & W); auto.
  - intros E. apply Hdl. lra.
  - unfold slices_wide. now rewrite F4, F5.
  - intros y sc off. pose proof (sh_adc _ _ (xo_shape _ _ (g_x _ G2 x2 X2))) as SA. rewrite Hadc in SA.
    unfold adc_new in SA. destruct (d_trunc _); [|discriminate]. destruct (in32 _); [|discriminate]. inversion SA. reflexivity.
  - apply conv_inf.
  - lra.
  - now apply room_0.
  - rewrite errs_eq; [|now apply split_nonneg|exact Hcov2].
    assert (Z : forall l, total_eps (fun _ => 0) l = 0) by (unfold total_eps; induction l0; cbn; lra).
    rewrite Z. destruct (m_mode (wcfg w2)); lra.
  - lra.
  - exists w3. rewrite E3. do 3 f_equal. now apply near_0 in W.
Qed.

(** C83. *)
Lemma finite_memory (w0 : @world RM) src w1 x1 h w2 rs res vec mat' m n l :
  reach w0 -> step w0 (SetConfig src) = Ok (w1, RUnit) -> wx w1 = Some x1 -> ideal_cells (wcfg w1) x1 ->
  adc_type (wcfg w1) <> INF_ADC -> adc_calib_mode (wcfg w1) = CAL_MAX ->
  (2 <= n_levels (adc_type (wcfg w1)) (resolution (wcfg w1)))%Z -> (resolution (wcfg w1) <= 30)%Z ->
  m_mode (wcfg w1) <> TNN_IV -> m_mode (wcfg w1) <> TNN_V ->
  0 < @HRS RM (wcfg w1) < @LRS RM (wcfg w1) -> (m_mode (wcfg w1) = I_OFFS_W_DIFF -> s = false) ->
  Forall (usual (wcfg w1)) h -> run w1 h = Ok (w2, rs) -> always no_variation w1 h ->
  split_covers (wcfg w1) -> slices_wide (wcfg w1) -> widths_fit (wcfg w2) -> dims_in (wcfg w2) m n ->
  all_first (input_in (wcfg w2)) vec n ->
  let t := memory_product (wcfg w2) res vec (memory (wcfg w1) h) (row_sums (wcfg w1) h) (Z.to_nat m) (Z.to_nat n) in
  (room_for (accuracy (wcfg w2)) (wcfg w2) res m (2 * N (wcfg w2)) ->
   exists w3 r, step w2 (ExeMvm res vec mat' m n l) = Ok (w3, RRes 0 r) /\ near (accuracy (wcfg w2)) r t (Z.to_nat m)) /\
  (~ In (m_mode (wcfg w2)) [I_UINT_W_OFFS; BNN_III; BNN_IV] ->
   Forall (fun g => IZR g * half_step (wcfg w2) < / 2) (gains (wcfg w2)) -> room (wcfg w2) res m (2 * N (wcfg w2)) ->
   exists w3, step w2 (ExeMvm res vec mat' m n l) = Ok (w3, RRes 0 t)).
Proof.
  intros Hr Hset X1 HI Hadc Hcal Hk Hres Hm4 Hm5 Hdl Hst Hu Hrun Hal Hcov Hsw Hwid Hdim Hin t.
  assert (P : (2 * N (wcfg w2) * term_bound (wcfg w2) <= int32_max)%Z ->
    good w2 /\ core (wcfg w1) (wcfg w2) /\ no_variation (wcfg w2) /\ exists x2, wx w2 = Some x2 /\
    aholding (wcfg w2) x2 (memory (wcfg w1) h) (row_sums (wcfg w1) h)).
  { intros HN. eapply mem_end; eauto. destruct Hdim; lia. }
  assert (Q : (2 * N (wcfg w2) * term_bound (wcfg w2) <= int32_max)%Z -> forall eps hf E fit,
    0 <= hf -> 1 / 2 <= hf -> 0 <= E -> room_for E (wcfg w2) res m (2 * N (wcfg w2)) ->
    (forall k mn mx, (2 <= k)%Z -> mn < mx -> ratio k mn mx (@LRS RM (wcfg w2) - @HRS RM (wcfg w2)) = half_step (wcfg w2) ->
       conv (fun x sc off : R => round_away (pick k mn mx (x + off) * sc)) (fun y => mn <= y <= mx) fit eps (@LRS RM (wcfg w2) - @HRS RM (wcfg w2))) ->
    (forall y, fit y) \/ ((forall X, fit (IZR X)) /\ partial_sums (m_mode (wcfg w2)) = false) ->
    total_eps eps (gains (wcfg w2)) + match m_mode (wcfg w2) with I_UINT_W_OFFS => hf | _ => 0 end <= E ->
    exists w3 r, step w2 (ExeMvm res vec mat' m n l) = Ok (w3, RRes 0 r) /\ near E r t (Z.to_nat m)).
  { intros HN eps hf E fit Hh1 Hh2 HE0 Hroom HC Hfit HE. destruct (P HN) as (G2 & Hc & HV & x2 & X2 & HH). clear P.
    destruct (core_domains _ _ Hc) as (W1 & W2 & W3 & W4 & W5).
    destruct (core_keeps nz s _ _ Hc) as (F1 & F2 & F3 & F4 & F5 & F6 & F7 & F8 & F9 & F10 & F11 & F12 & F13).
    destruct HI as (I1 & I2 & I3 & I4 & I5 & I6 & I7). assert (Hcov2 : split_covers (wcfg w2)) by now apply W2.
    rewrite <- F11 in Hadc, Hk. rewrite <- F12 in Hk, Hres. rewrite <- F13 in Hcal. rewrite <- F9, <- F10 in Hdl. rewrite <- F4 in Hm4, Hm5, Hst, I7.
    rewrite <- F1 in I1. rewrite <- F2 in I2. rewrite <- F3 in I7.
    assert (D0 : 0 <= @HRS RM (wcfg w2)) by lra. assert (D1 : @HRS RM (wcfg w2) < @LRS RM (wcfg w2)) by lra.
    assert (D2 : 0 < @LRS RM (wcfg w2) - @HRS RM (wcfg w2)) by lra.
    pose proof (fin_range nz s w2 G2 Hadc D0 D1) as HR.
    pose proof (fin_ratio nz s w2 Hadc Hk D1) as HQ.
    eapply (mem_step w2 x2 _ _ res vec mat' m n l _ _ fit eps hf E G2 X2 HH HV I1 I2 I7); auto.
    - lra.
    - unfold slices_wide. now rewrite F4, F5.
    - intros y sc off. apply (fin_adc nz s w2 x2 l G2 X2 Hadc Hcal Hk Hres).
    - exact (HC _ _ _ Hk HR HQ).
    - right. apply (fin_ok nz s w2 m n G2 I1 Hadc D0 D1 Hdim Hm4 Hm5).
    - rewrite errs_eq; [exact HE|now apply split_nonneg|exact Hcov2]. }
  assert (GN : (2 * N (wcfg w2) * term_bound (wcfg w2) <= int32_max)%Z ->
    Forall (fun g => 0 <= g)%Z (gains (wcfg w2)) /\ 0 < @LRS RM (wcfg w2) - @HRS RM (wcfg w2) /\ m_mode (wcfg w2) <> TNN_IV /\ m_mode (wcfg w2) <> TNN_V /\ 0 <= half_step (wcfg w2)).
  { intros HN. destruct (P HN) as (G2 & Hc & _). destruct (core_domains _ _ Hc) as (_ & W2 & _).
    destruct (core_keeps nz s _ _ Hc) as (_ & _ & _ & F4 & _ & _ & _ & _ & F9 & F10 & F11 & F12 & _).
    split; [apply (gains_nonneg nz s); [now apply split_nonneg|now apply W2]|]. rewrite F4. split; [rewrite F9, F10; lra|].
    split; [exact Hm4|]. split; [exact Hm5|].
    rewrite <- F11 in Hadc, Hk. rewrite <- F12 in Hk. rewrite <- F9, <- F10 in Hdl.
    rewrite <- (fin_ratio nz s w2 Hadc Hk (proj2 Hdl)).
    left. apply (ratio_pos nz s); [exact Hk| |lra]. apply (fin_range nz s w2 G2 Hadc); lra. }
  split.
  - intros Hroom. pose proof (proj1 Hroom) as HN. destruct (GN HN) as (GP & D2 & _ & _ & HS).
    apply (Q HN (fun g => Rabs g * half_step (wcfg w2) + / 2) (/ 2) (accuracy (wcfg w2)) (fun _ => True)); auto; try lra.
    + unfold accuracy.
      assert (T : 0 <= fold_right Rplus 0 (map (fun g => IZR g * half_step (wcfg w2) + / 2) (gains (wcfg w2)))).
      { clear - GP HS. revert GP. induction (gains (wcfg w2)) as [|g gs IH]; cbn [map fold_right]; intros GP; [lra|].
        inversion GP as [|? ? P1 P2]; subst. specialize (IH P2). apply (IZR_le 0) in P1.
        assert (0 <= IZR g * half_step (wcfg w2)) by (apply Rmult_le_pos; assumption). lra. }
      destruct (m_mode (wcfg w2)); lra.
    + intros k mn mx K1 K2 K3. rewrite <- K3. now apply conv_fin.
    + unfold accuracy. apply Rplus_le_compat_r. apply (eps_le _ (fun g => g * half_step (wcfg w2) + / 2)).
      intros z Hz. pose proof (proj1 (Forall_forall _ _) GP z Hz) as P1.
      rewrite Rabs_pos_eq by (apply (IZR_le 0); exact P1). lra.
  - intros Hmode Hfine Hroom. pose proof (proj1 Hroom) as HN. destruct (GN HN) as (GP & D2 & M4 & M5 & _).
    destruct (Q HN (fun g => if Rlt_dec (Rabs g * half_step (wcfg w2)) (/ 2) then 0 else Rabs g * half_step (wcfg w2) + / 2)
      (/ 2) 0 (fun y => exists X, y = IZR X)) as (w3 & r & E3 & W); auto; try lra.
    + now apply room_0.
    + intros k mn mx K1 K2 K3. rewrite <- K3. now apply conv_sharp.
    + right. split; [eauto|]. unfold partial_sums. destruct (m_mode (wcfg w2)); cbn in Hmode; try reflexivity; tauto.
    + assert (X0 : match m_mode (wcfg w2) with I_UINT_W_OFFS => / 2 | _ => 0 end = 0).
      { destruct (m_mode (wcfg w2)); try reflexivity. exfalso. apply Hmode. cbn. tauto. }
      rewrite X0. match goal with |- total_eps ?f ?q + 0 <= 0 => assert (H : total_eps f q <= total_eps (fun _ => 0) q) end.
      { apply eps_le. intros z Hz. pose proof (proj1 (Forall_forall _ _) GP z Hz) as P1.
        rewrite Rabs_pos_eq by (apply (IZR_le 0); exact P1).
        pose proof (proj1 (Forall_forall _ _) Hfine z Hz) as Q1. cbv beta in Q1. destruct (Rlt_dec _ _); lra. }
      assert (Z : forall l, total_eps (fun _ => 0) l = 0) by (unfold total_eps; induction l0; cbn; lra).
      rewrite Z in H. lra.
    + exists w3. rewrite E3. do 3 f_equal. now apply near_0 in W.
Qed.
End AR.
