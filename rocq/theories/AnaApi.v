(** Analog crossbars with ideal cells over histories of API calls. *)
From Coq Require Import String List ZArith Bool Arith Lia ZifyBool ZifyNat.
From RecordUpdate Require Import RecordSet.
From Verif Require Import Base Lib Hoare Machine Json Config Histogram Adc ReadDisturb Parasitics
  Mapper IntMappers BnnMappers TnnMappers Crossbar Api WriteProofs Shape MvmShape DigMvm DigModes
  DigWrite AnaShape ConfigProofs Reach Cells Spec DigApi Invar StepFacts StoreProps AnaWrite AnaSpec.
Import ListNotations RecordSetNotations.
Local Open Scope Z_scope.
Local Open Scope out_scope.

Section A.
Context {MC : Machine}.
Notation len := List.length.
Notation MM c := (Z.to_nat (M c)).
Notation at_f := (at2 f0).
Notation at_z := (at2 0).
Notation nominal c g := (level g (fsub (LRS c) (HRS c)) (HRS c)).

(** Distance of two levels of slice [q]. *)
Definition stepq (c : config) (q : nat) : F :=
  fdiv (fsub (LRS c) (HRS c)) (f_of_Z (2 ^ nth q (SPLIT c) 0 - 1)).

Record ready (c : config) (x : xbar) (mat : list Z) (m n : nat) : Prop := {
  re_st : stored c (xm x) mat m n;
  re_b : built c x;
  re_par : is_int (m_mode c) = true -> par (xm x) = None;
  re_top : is_int (m_mode c) = true -> forall i q j, (i < m)%nat -> (q < nsplit c)%nat -> (j < n)%nat ->
    at_z (gd_p (xm x)) (i * nsplit c + q) j <= 2 ^ nth q (SPLIT c) 0 - 1 /\
    at_z (gd_m (xm x)) (i * nsplit c + q) j <= 2 ^ nth q (SPLIT c) 0 - 1;
  re_int : is_int (m_mode c) = true -> forall i q j, (i < m)%nat -> (q < nsplit c)%nat -> (j < n)%nat ->
    at_f (ia_p (xm x)) (i * nsplit c + q) j = level (at_z (gd_p (xm x)) (i * nsplit c + q) j) (stepq c q) (HRS c) /\
    (one_array (m_mode c) = false ->
     at_f (ia_m (xm x)) (i * nsplit c + q) j = level (at_z (gd_m (xm x)) (i * nsplit c + q) j) (stepq c q) (HRS c));
  re_xnn : is_int (m_mode c) = false -> forall i j, (i < m)%nat -> (j < n)%nat ->
    (at_f (ia_p (xm x)) i j = nominal c (at_z (gd_p (xm x)) i j) /\
     at_f (ia_p0 (xm x)) i j = nominal c (at_z (gd_p (xm x)) i j)) /\
    (one_array (m_mode c) = false ->
     at_f (ia_m (xm x)) i j = nominal c (at_z (gd_m (xm x)) i j) /\
     at_f (ia_m0 (xm x)) i j = nominal c (at_z (gd_m (xm x)) i j))
}.

Lemma steps_nth c imm st : Forall (fun s => 0 <= s) (SPLIT c) -> split_covers c -> is_int (m_mode c) = true ->
  step_sizes c (Some imm) = Ok st -> forall q, (q < nsplit c)%nat ->
  nth q st None = Some (fdiv imm (f_of_Z (2 ^ nth q (SPLIT c) 0 - 1))).
Proof.
  intros Hnn Hcov Hi H. destruct (Hcov Hi) as [E1 E2].
  assert (HS : Forall (fun s => 0 <= s <= 30) (SPLIT c)).
  { assert (forall l, Forall (fun s => 0 <= s) l -> Forall (fun s => 0 <= s <= total l) l).
    { clear. induction l as [|a l IH]; [constructor|]. intros H. inversion H; subst. specialize (IH H3).
      assert (0 <= total l). { clear -H3. induction H3 as [|b k]; [cbn; lia|]. change (total (b :: k)) with (b + total k). lia. }
      change (total (a :: l)) with (a + total l).
      constructor; [lia|]. eapply Forall_impl; [|exact IH]. cbv beta. intros; lia. }
    eapply Forall_impl; [|apply H0; exact Hnn]. cbv beta. intros; lia. }
  unfold nsplit. unfold step_sizes in H. clear -H HS. revert st H.
  induction (SPLIT c) as [|a l IH]; cbn [mapM len]; intros st H q Hq; [lia|].
  inversion HS; subst. rewrite ones_ok in H by lia. cbn [bind] in H. inv_as H r Rr. inversion H; subst.
  destruct q as [|q]; cbn [nth]; [reflexivity|]. apply IH; auto. lia.
Qed.

(** ** Writing *)
Lemma cpy_ready w x mat m n : reach w -> wx w = Some x -> digital_only (wcfg w) = false ->
  read_disturb (wcfg w) = false -> parasitics (wcfg w) = false ->
  (is_int (m_mode (wcfg w)) = true -> par (xm x) = None) ->
  fle (HRS_NOISE (wcfg w)) f0 = true -> fle (LRS_NOISE (wcfg w)) f0 = true ->
  split_covers (wcfg w) -> dims_in (wcfg w) m n -> all_entries (weight_in (wcfg w)) mat m n ->
  n * row_bound (wcfg w) <= int32_max ->
  exists w1 x1, step w (CpyMtrx mat m n) = Ok (w1, RCode 0) /\ good w1 /\ wcfg w1 = wcfg w /\ wx w1 = Some x1 /\
    ready (wcfg w) x1 mat (Z.to_nat m) (Z.to_nat n).
Proof.
  intros Hr Hx Hd Hrd Hpa Hpn Hn1 Hn2 Hcov Hdim Hent HN. pose proof (reach_good _ Hr) as Hg.
  destruct (guard_ok w m n Hg Hdim) as (G1 & G2 & Hm & Hn).
  pose proof (g_x _ Hg x Hx) as Hxo. pose proof (good_wf w Hg) as Hwf.
  pose proof (split_nonneg w Hg) as Hnn. pose proof (reach_built w x Hr Hx) as Hb.
  set (c := wcfg w) in *. set (mN := Z.to_nat m) in *. set (nN := Z.to_nat n) in *.
  assert (HL : (mN * nN <= len mat)%nat) by (unfold mN, nN; destruct Hent, Hdim; nia).
  destruct (d_write_stored c (xm x) mat mN nN) as (mp1 & E & S1 & SB & S2); auto.
  { apply Hxo. }
  { apply Hent. }
  { unfold nN. destruct Hdim. rewrite Z2Nat.id by lia. exact HN. }
  pose proof (sh_mode _ _ S1) as Em.
  assert (Hc1 : same_consts (xm x) mp1) by (apply sc_digital; exact SB). destruct Hc1 as (C1 & C2 & C3).
  assert (P1 : is_int (m_mode c) = true -> par mp1 = None) by (destruct SB as (gp & gm & sw & ->); exact Hpn).
  (* the analog write succeeds *)
  assert (HA : exists mp2 e2, a_write c mp1 mN nN (wenv w) = Ok (mp2, e2) /\ (is_int (m_mode c) = true -> par mp2 = None) /\
    (is_int (m_mode c) = true -> forall i q j, (i < mN)%nat -> (q < nsplit c)%nat -> (j < nN)%nat ->
      at_f (ia_p mp2) (i * nsplit c + q) j = level (at_z (gd_p mp1) (i * nsplit c + q) j) (stepq c q) (HRS c) /\
      (one_array (m_mode c) = false ->
       at_f (ia_m mp2) (i * nsplit c + q) j = level (at_z (gd_m mp1) (i * nsplit c + q) j) (stepq c q) (HRS c)))).
  { unfold a_write. rewrite Em, Hpa. cbv zeta. destruct (is_int (m_mode c)) eqn:Hi.
    - destruct Hb as (B1 & B2 & _). rewrite Hd in *. 
      assert (Hst : forall q, (q < nsplit c)%nat -> nth q (i_step mp1) None = Some (stepq c q)).
      { rewrite C2. apply steps_nth; auto. apply B2. unfold uses_shift. now rewrite Hi. }
      assert (H1s : (1 <= nsplit c)%nat).
      { destruct (Hcov Hi) as [T1 T2]. unfold nsplit. destruct (SPLIT c); cbn in *; lia. }
      destruct (a_write_int_ok c (match m_mode c with I_UINT_W_OFFS | BNN_III | BNN_IV => false | _ => true end)
        mp1 mN nN (stepq c) S1 Hi Hm Hn H1s Hst) as (mp2 & E2 & (ip & im & F2) & V2 & _).
      rewrite E2. cbn [bind]. exists mp2, (wenv w). split; [reflexivity|]. split; [rewrite F2; exact P1|].
      intros _ i q j H1 H2 H3.
      destruct (V2 (i * nsplit c + q)%nat j ltac:(nia) H3) as [V3 V4].
      assert (Eq : ((i * nsplit c + q) mod nsplit c)%nat = q) by (rewrite Nat.add_comm, Nat.mod_add, Nat.mod_small; lia).
      rewrite Eq in *. split; [exact V3|]. intros Ho. apply V4. now destruct (m_mode c).
    - destruct (a_write_xnn_ok c (match m_mode c with I_UINT_W_OFFS | BNN_III | BNN_IV => false | _ => true end)
        mp1 mN nN (wenv w) S1) as ([mp2 e2] & E2); auto.
      { pose proof (wf_ns c Hwf Hi). unfold rowsN. nia. }
      { intros i j H1 H2. pose proof (st_ok _ _ _ _ _ S2 i j H1 H2) as K. unfold cellok in K. now rewrite Hi in K. }
      rewrite E2. cbn [bind]. exists mp2, e2. split; [reflexivity|]. split; [|discriminate].
      unfold a_write_xnn in E2. inv_as E2 t T. destruct t as [[[[a b] d] f] k]. inversion E2; subst. discriminate. }
  destruct HA as (mp2 & e2 & EA & P2 & VI).
  destruct (a_write_cells c mp1 mN nN (wenv w) mp2 e2 S1 EA) as (D1 & D2 & _ & _ & VX & _).
  pose proof (a_write_consts _ _ _ _ _ _ _ Hwf S1 EA) as (C4 & C5 & C6).
  assert (SW : sum_w mp2 = sum_w mp1).
  { destruct (proj1 (tri_any _ _) (a_write_tri anyfail harmless_any c mp1 mN nN (wenv w) Hwf S1 (or_introl (fun _ => I))) _ EA)
      as (_ & SA & _). destruct SA as (x1 & x2 & x3 & x4 & x5 & ->). reflexivity. }
  set (x1 := x <| n_write := n_write x + 1 |> <| n_read := 0 |> <| xm := mp1 |> <| xm := mp2 |>).
  assert (EX : xwrite c x mat mN nN (wenv w) = Ok (x1, e2)).
  { unfold xwrite. cbv zeta. change (xm (x <|n_write := n_write x + 1|> <|n_read := 0|>)) with (xm x).
    rewrite Hrd, E. cbn [bind]. rewrite Hd.
    change (xm (x <|n_write := n_write x + 1|> <|n_read := 0|> <| xm := mp1 |>)) with mp1. rewrite EA. reflexivity. }
  assert (Est : step w (CpyMtrx mat m n) = Ok (w <| wx := Some x1 |> <| wenv := e2 |>, RCode 0)).
  { cbn [step]. unfold cpy_mtrx. fold c. rewrite Hx, G1, G2. cbn [bind]. fold mN nN. rewrite EX. reflexivity. }
  exists (w <| wx := Some x1 |> <| wenv := e2 |>), x1. split; [exact Est|].
  split; [eapply step_good; [exact Hg|exact Est|discriminate]|]. split; [reflexivity|]. split; [reflexivity|].
  assert (EM : xm x1 = mp2) by reflexivity.
  constructor; rewrite ?EM, ?D1, ?D2.
  - eapply (stored_core c c mp1); [apply core_refl| |exact S2]. repeat split; auto.
  - destruct Hb as (B1 & B2 & B3). unfold built. rewrite EM, C4, C5, C6, C1, C2, C3. auto.
  - exact P2.
  - intros Hi i q j H1 H2 H3. destruct (Hcov Hi) as [T1 T2].
    assert (HN' : n * 2 ^ W_BIT c <= int32_max) by (unfold row_bound in HN; now rewrite Hi in HN).
    pose proof (write_decodes w mat m n _ (gd_p mp2) (gd_m mp2) Hr Hi ltac:(fold c; lia) T2 Hdim Hent HN' Est
       eq_refl eq_refl) as D.
    destruct (D i j H1 H3) as [_ D']. destruct (D' q H2) as (A1 & A2 & _). rewrite <- D1, <- D2.
    change (cell (gd_p mp2) (i * nsplit c + q) j <= 2 ^ nth q (SPLIT c) 0 - 1 /\ cell (gd_m mp2) (i * nsplit c + q) j <= 2 ^ nth q (SPLIT c) 0 - 1).
    change (nsplit c) with (len (SPLIT (wcfg w))). change (SPLIT c) with (SPLIT (wcfg w)). lia.
  - exact VI.
  - intros Hi i j H1 H2. specialize (VX Hi i j).
    replace (inside mN nN i j) with true in VX by (unfold inside; lia). rewrite D1, D2 in VX.
    destruct VX as ((V1 & V2) & V3). apply noisy_quiet in V2; auto. split; [split; congruence|].
    intros Ho. rewrite Ho in V3. destruct V3 as (V3 & V4). apply noisy_quiet in V4; auto. split; congruence.
Qed.

(** ** Quiet histories *)
Lemma ready_core c c' x mat m n : core c c' -> ready c x mat m n -> ready c' x mat m n.
Proof.
  intros Hc [A1 A2 A3 A4 A5 A6].
  assert (B1 : stored c' (xm x) mat m n) by (eapply stored_core; [exact Hc|apply sd_refl|exact A1]).
  destruct Hc as (i & v & d2 & c2 & bs & wr & p & ->). constructor; assumption.
Qed.
Lemma look_ready c x c' x' mat m n : cfg_wf c -> xok c x -> look c x c' x' ->
  digital_only c = false -> read_disturb c = false -> (is_int (m_mode c) = true -> c2c_var c = false) ->
  ready c x mat m n -> ready c' x' mat m n.
Proof.
  intros Hw Hx HL Hd Hrd Hc2 HR. destruct HL as [c' HC|res vec mat' m' n' l e r x' e' H].
  - eapply ready_core; eauto.
  - destruct (xmvm_split _ _ _ _ _ _ _ _ _ _ _ _ Hw Hx Hd H) as (mp & e1 & S & D1 & D2 & D3 & P0 & M0 & PP & V & T).
    cbv zeta in T. rewrite Hrd in T. destruct T as [T _].
    pose proof (xmvm_consts _ _ _ _ _ _ _ _ _ _ _ _ Hx Hw H) as (C1 & C2 & C3).
    assert (EM : xm x' = mp) by now rewrite T. destruct HR as [A1 A2 A3 A4 A5 A6].
    constructor; rewrite ?EM, ?D1, ?D2, ?PP; auto.
    + eapply stored_core; [apply core_refl| |exact A1]. repeat split; auto.
    + destruct A2 as (B1 & B2 & B3). unfold built. rewrite C1, C2, C3. auto.
    + intros Hi i q j H1 H2 H3. specialize (V (i * nsplit c + q)%nat j). rewrite (Hc2 Hi) in V. cbn [andb] in V.
      destruct V as [-> ->]. now apply A5.
    + intros Hi i j H1 H2. specialize (V i j). rewrite P0, M0. destruct (A6 Hi i j H1 H2) as [[K1 K2] K3].
      destruct (c2c_var c && inside m' n' i j); destruct V as [V1 V2]; rewrite V1, V2.
      * split; [auto|]. intros Ho. now destruct (K3 Ho).
      * auto.
Qed.

Lemma always_here P w h : always P w h -> P (wcfg w).
Proof. intros H. exact (H [] h w [] eq_refl eq_refl). Qed.
Lemma always_next P w a h w1 r : step w a = Ok (w1, r) -> always P w (a :: h) -> always P w1 h.
Proof.
  intros E H h1 h2 w' rs -> R. eapply (H (a :: h1) h2 w'); [reflexivity|]. cbn [run]. rewrite E. cbn [bind]. rewrite R. reflexivity.
Qed.
Lemma run_ready h mat m n : forall w w' rs x, good w -> wx w = Some x -> Forall quiet h -> run w h = Ok (w', rs) ->
  digital_only (wcfg w) = false -> read_disturb (wcfg w) = false ->
  always (fun c => is_int (m_mode c) = true -> c2c_var c = false) w h ->
  ready (wcfg w) x mat m n ->
  good w' /\ core (wcfg w) (wcfg w') /\ exists x', wx w' = Some x' /\ ready (wcfg w') x' mat m n.
Proof.
  induction h as [|a h IH]; cbn; intros w w' rs x Hg Hx HF H Hd Hrd HA HR.
  - inversion H; subst. split; [auto|]. split; [apply core_refl|]. eauto.
  - inv_as H t Ht. destruct t as [w1 r]. inv_as H t2 Ht2. destruct t2 as [w2 rs2]. inversion H; subst.
    inversion HF; subst. destruct (quiet_look _ _ _ _ _ Hg H2 Hx Ht) as (Hg1 & _ & x1 & X1 & L).
    pose proof (look_ready _ _ _ _ mat m n (good_wf _ Hg) (g_x _ Hg _ Hx) L Hd Hrd (always_here _ _ _ HA) HR) as R1.
    assert (HC : core (wcfg w) (wcfg w1)) by (destruct L; [assumption|apply core_refl]).
    assert (E : digital_only (wcfg w1) = false /\ read_disturb (wcfg w1) = false).
    { destruct HC as (i & v & d2 & c2 & bs & wr & p & ->). split; assumption. }
    destruct E as [E1 E2].
    destruct (IH _ _ _ _ Hg1 X1 H3 Ht2 E1 E2 (always_next _ _ _ _ _ _ Ht HA) R1) as (G2 & C2 & X2).
    split; [exact G2|]. split; [eapply core_trans; eauto|exact X2].
Qed.
End A.
