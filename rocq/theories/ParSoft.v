(** C85: mitigation SOFTWARE with wire resistance: which modes survive a refresh. *)
From Coq Require Import String List ZArith Bool Arith Lia ZifyBool ZifyNat.
From RecordUpdate Require Import RecordSet.
From Verif Require Import Base Lib Hoare Machine Json Config Histogram Adc ReadDisturb Parasitics
  Mapper IntMappers BnnMappers TnnMappers Crossbar Api ParSpec ParCode Shape MvmShape DigMvm DigModes DigWrite AnaShape ConfigProofs
  Reach Cells Spec DigApi Invar StepFacts StoreProps SafeProps ValidProps CfgProps NoiseProps AnaWrite AnaSpec AnaApi Twin KinSpec Kin KinProps
  RdRefresh ParMvm ParProps.
Import ListNotations RecordSetNotations.
Local Open Scope Z_scope.
Local Open Scope out_scope.
Ltac Zify.zify_post_hook ::= idtac.

Section PS.
Context {MC : Machine}.
Notation len := List.length.
Notation MM c := (Z.to_nat (M c)).

(** An MVM hands the solver either nothing or, at a refresh, the whole arrays. *)
Lemma xmvm_par c x res vec mat m n l e r x' e' : xok c x -> cfg_wf c -> digital_only c = false ->
  xmvm c x res vec mat m n l e = Ok (r, x', e') ->
  (par (xm x') = par (xm x) /\ n_refresh x' = n_refresh x) \/
  (exists mp0 e0 mp1 e1, shape c mp0 /\ par mp0 = par (xm x) /\ a_write c mp0 (MM c) (colsN c) e0 = Ok (mp1, e1) /\
     par (xm x') = par mp1).
Proof.
  intros Hx Hw Hd H. pose proof (xo_shape _ _ Hx) as Hs. unfold xmvm in H. cbv zeta in H.
  set (x0 := x <|n_mvm := n_mvm x + 1|> <|n_read := n_read x + 1|>) in H. change (xm x0) with (xm x) in H. rewrite Hd in H.
  inv_as H t T. destruct t as [mp1 e1].
  assert (A1 : shape c mp1 /\ par mp1 = par (xm x)).
  { destruct (c2c_var c).
    - pose proof (proj1 (tri_any _ _) (add_c2c_tri anyfail harmless_any c (xm x) m n e Hs (or_introl (fun _ => I))) _ T) as (S1 & _ & S2).
      auto.
    - inversion T; subst. auto. }
  destruct A1 as (S1 & C1). inv_as H u U. destruct u as [[r1 mp2] e2].
  pose proof (proj1 (tri_any _ _) (a_mvm_tri anyfail harmless_any c mp1 res vec mat m n l e1 S1 (or_introl (fun _ => I))) _ U) as (S2 & K2 & _).
  inv_as H mp3 V.
  assert (A3 : shape c mp3 /\ par mp3 = par mp2).
  { destruct (c2c_var c).
    - pose proof (proj1 (tri_any _ _) (remove_c2c_tri anyfail c mp2 m n S2 (or_introl (fun _ => I))) _ V) as (S3 & _ & S4). auto.
    - inversion V; subst. auto. }
  destruct A3 as [S3 P3].
  inv_as H q Q. destruct q as [x4 e4]. inversion H; subst r1 x4 e4; clear H.
  assert (C4 : par mp3 = par (xm x)) by (destruct K2; congruence).
  destruct (read_disturb c) eqn:Er; [|inversion Q; subst; left; cbn; auto].
  set (y := x0 <| xm := mp3 |>) in Q.
  assert (Hy : xok c y) by (constructor; [exact S3|cbn; apply Hx|cbn; apply Hx]).
  destruct (mitigation c) eqn:Em.
  - apply rd_step_soft in Q; [|exact Em]. destruct Q as [_ Q]. split_if Q; [|destruct Q as [-> _]; left; cbn; auto].
    destruct Q as (rr & mp4 & r4 & R4 & HU & Q). cbv zeta in Q.
    pose proof (proj1 (tri_any _ _) (rd_update_tri anyfail c (fun _ _ => Ok (n_read y)) (fun _ _ => Ok (n_read y)) (xm y) rr (xo_shape _ _ Hy) (xo_rd _ _ Hy _ R4)
        ltac:(intros; exact I) ltac:(intros; exact I)) _ HU) as HU2.
    pose proof (rd_update_par _ _ _ _ _ _ _ HU) as PU. split_if Q; [|destruct Q as [-> _]; left; cbn; split; [rewrite PU; exact C4|reflexivity]].
    right. unfold soft_refresh in Q. inv_as Q t1 T1. destruct t1 as [up k]. inv_as Q t2 T2. destruct t2 as [um k2].
    inv_as Q r2 T3. inv_as Q t4 T4. destruct t4 as [mp5 e5]. inversion Q; subst; clear Q. cbn in T4.
    exists mp4, e2, mp5, e'. destruct HU2 as (SU & _). split; [exact SU|]. split; [rewrite PU; exact C4|]. split; [exact T4|reflexivity].
  - apply rd_step_cell in Q; [|exact Em]. destruct Q as (rr & r1' & R1 & HU & _ & Q). left. split_if Q.
    + destruct Q as (mp5 & r2 & mp6 & r3 & cnt & U1 & U2 & ->). cbn.
      apply rd_update_par in U1. apply cell_refresh_par in U2. split; [|reflexivity]. rewrite U2, U1. exact C4.
    + destruct Q as [-> _]. cbn. auto.
  - apply rd_step_off in Q; [|exact Em]. destruct Q as (_ & _ & Q). left. split_if Q; [|subst; cbn; auto].
    destruct Q as (rr & mp5 & r5 & R1 & HU & ->). apply rd_update_par in HU. cbn. split; [rewrite HU; exact C4|reflexivity].
Qed.

(** ** Modes with two rows per input never get through a refresh *)
Lemma full_write_fails c mp e mp' e' : shape c mp -> cfg_wf c -> parasitics c = true -> two_rows (m_mode c) = true ->
  (1 <= MM c)%nat -> (1 <= colsN c)%nat -> a_write c mp (MM c) (colsN c) e = Ok (mp', e') -> False.
Proof.
  intros Hs Hw Hp H2 HM HN H. rewrite two_rows_ienc in H2.
  assert (Hi : is_int (m_mode c) = false) by (destruct (m_mode c); easy).
  assert (Ew : exists we, wenc_of (m_mode c) = Some we) by (destruct (m_mode c); try discriminate H2; cbn; eauto).
  destruct Ew as [we Ew].
  destruct (a_write_par c mp (MM c) (colsN c) e mp' e' we Hs Hw Hp Ew) as (_ & _ & _ & _ & _ & _ & K); auto.
  { now apply wf_ns. }
  destruct (K H2); lia.
Qed.
Lemma refresh_kept w x a w' ans : reach w -> wx w = Some x -> digital_only (wcfg w) = false -> parasitics (wcfg w) = true ->
  two_rows (m_mode (wcfg w)) = true -> step w a = Ok (w', ans) -> multiplied a ans = true ->
  exists x', wx w' = Some x' /\ n_refresh x' = n_refresh x.
Proof.
  intros Hr Hx Hd Hp H2 H Hm. destruct (supp_dims _ (par_supported w Hr Hp)) as [M1 N1].
  destruct (mvm_inv _ _ _ _ H Hm) as (y & x' & res & vec & mat & m & n & l & res' & Y & Hx' & Ec & _ & _ & _ & HX).
  assert (y = x) by congruence. subst y. exists x'. split; [exact Hx'|]. apply reach_good in Hr.
  destruct (xmvm_par _ _ _ _ _ _ _ _ _ _ _ _ (g_x _ Hr x Hx) (good_wf w Hr) Hd HX) as [[_ K]|(mp0 & e0 & mp1 & e1 & S & _ & W & _)]; [exact K|].
  exfalso. exact (full_write_fails _ _ _ _ _ S (good_wf w Hr) Hp H2 M1 N1 W).
Qed.
Lemma refresh_never w x a w' ans : reach w -> wx w = Some x -> digital_only (wcfg w) = false -> parasitics (wcfg w) = true ->
  two_rows (m_mode (wcfg w)) = true -> read_disturb (wcfg w) = true -> mitigation (wcfg w) = SOFTWARE ->
  refreshes (wcfg w) x = true -> step w a = Ok (w', ans) -> multiplied a ans = false.
Proof.
  intros Hr Hx Hd Hp H2 Hrd Em Hdue H. destruct (multiplied a ans) eqn:Hm; [exfalso|reflexivity].
  destruct (refresh_kept _ _ _ _ _ Hr Hx Hd Hp H2 H Hm) as (x' & Hx' & K).
  assert (HR : exists r, xrd x = Some r).
  { pose proof (xo_some _ _ (g_x _ (reach_good _ Hr) x Hx) Hrd) as N. destruct (xrd x); [eauto|easy]. }
  destruct HR as [r HR].
  destruct (soft_step w x r a w' ans Hr Hx HR Hd Em H Hm) as (y & r' & Hy & _ & _ & HS). rewrite Hdue in HS.
  assert (y = x') by congruence. subst y. destruct HS as (_ & HS & _). lia.
Qed.

(** ** The others keep a solver that is large enough *)
Definition rows_armed (c : config) (mp : mapper) (m0 : nat) : Prop :=
  exists p we k, par mp = Some p /\ wenc_of (m_mode c) = Some we /\ (m0 <= k)%nat /\
    wf2 (colsN c) (wcols we (rows_of c k)) (ps_ga p) /\ ps_wire p = repeat (wire_of p) (wcols we (rows_of c k)).
Lemma mvm_armed c x res vec mat m n l e r x' e' m0 : xok c x -> cfg_wf c -> digital_only c = false -> parasitics c = true ->
  (1 <= nsplit c)%nat -> (1 <= MM c)%nat -> (1 <= colsN c)%nat -> (m0 <= MM c)%nat ->
  xmvm c x res vec mat m n l e = Ok (r, x', e') -> rows_armed c (xm x) m0 -> rows_armed c (xm x') m0.
Proof.
  intros Hx Hw Hd Hp Hs HM HN Hm0 H (p & we & k & E1 & E2 & E3 & E4 & E5).
  destruct (xmvm_par _ _ _ _ _ _ _ _ _ _ _ _ Hx Hw Hd H) as [[K _]|(mp0 & e0 & mp1 & e1 & S & P0 & W & P1)].
  - exists p, we, k. rewrite K. auto.
  - destruct (a_write_par c mp0 (MM c) (colsN c) e0 mp1 e1 we S Hw Hp E2) as (q & q' & Q1 & Q2 & _ & (Hga & Hwire & _) & _); auto.
    exists q', we, (MM c). rewrite P1. auto.
Qed.
Lemma asking_armed h : forall w x w' rs m0, good w -> wx w = Some x -> digital_only (wcfg w) = false -> parasitics (wcfg w) = true ->
  (1 <= nsplit (wcfg w))%nat -> (1 <= MM (wcfg w))%nat -> (1 <= colsN (wcfg w))%nat -> (m0 <= MM (wcfg w))%nat ->
  Forall asking h -> run w h = Ok (w', rs) -> rows_armed (wcfg w) (xm x) m0 ->
  good w' /\ wcfg w' = wcfg w /\ exists x', wx w' = Some x' /\ rows_armed (wcfg w) (xm x') m0.
Proof.
  induction h as [|a h IH]; intros w x w' rs m0 Hg Hx Hd Hp Hs HM HN Hm0 HF H HA.
  - cbn in H. inversion H; subst. eauto.
  - cbn [run] in H. inv_as H t T. destruct t as [w1 r]. inv_as H q Q. destruct q as [w2 rs2]. inversion H; subst; clear H.
    inversion HF as [|? ? Ha HF']; subst.
    assert (K : good w1 /\ wcfg w1 = wcfg w /\ exists x1, wx w1 = Some x1 /\ rows_armed (wcfg w) (xm x1) m0).
    { assert (Hnc : no_create a) by (destruct a; easy).
      assert (G1 : good w1) by exact (proj1 (no_create_step w a w1 r x Hg Hnc Hx T)). split; [exact G1|].
      destruct (multiplied a r) eqn:Hm.
      - destruct (mvm_inv _ _ _ _ T Hm) as (y & x' & res & vec & mat & m & n & l & res' & Y & Hx' & Ec & _ & _ & _ & HX).
        assert (y = x) by congruence. subst y. split; [exact Ec|]. exists x'. split; [exact Hx'|].
        eapply mvm_armed; eauto; [exact (g_x _ Hg x Hx)|exact (good_wf w Hg)].
      - assert (E : w1 = w).
        { destruct a; try easy; cbn [step] in T.
          - unfold exe_mvm in T. rewrite Hx in T. destruct (too_big _ _ _); [now inversion T|].
            inv_as T d D. destruct d as [m' n']. inv_as T t T'. destruct t as [[r' x'] e']. inversion T; subst. discriminate Hm.
          - unfold py_mvm in T. rewrite Hx in T. cbn [deref bind] in T.
            inv_as T d D. destruct d as [m' n']. inv_as T t T'. destruct t as [[r' x'] e']. inversion T; subst. discriminate Hm.
          - inv_as T y Y. inv_as T g G. now inversion T.
          - inv_as T y Y. now inversion T.
          - inv_as T y Y. now inversion T.
          - inv_as T y Y. inv_as T g G. now inversion T.
          - now inversion T. }
        subst w1. split; [reflexivity|]. eauto. }
    destruct K as (G1 & C1 & x1 & X1 & A1). rewrite <- C1 in *.
    destruct (IH w1 x1 w' rs2 m0 G1 X1 Hd Hp Hs HM HN Hm0 HF' Q A1) as (G2 & C2 & x2 & X2 & A2). eauto.
Qed.

Lemma armed_safe w1 x1 m0 h w2 rs res vec mat m n l :
  good w1 -> wx w1 = Some x1 -> digital_only (wcfg w1) = false -> parasitics (wcfg w1) = true -> SPLIT (wcfg w1) <> [] ->
  1 <= M (wcfg w1) -> 1 <= N (wcfg w1) -> m0 <= M (wcfg w1) ->
  two_rows (m_mode (wcfg w1)) = false -> adc_profile (wcfg w1) = false -> rows_armed (wcfg w1) (xm x1) (Z.to_nat m0) ->
  Forall asking h -> run w1 h = Ok (w2, rs) ->
  dims_in (wcfg w1) m n -> Z.of_nat (len res) >= m -> Z.of_nat (len vec) >= n ->
  m <= m0 -> solver_fits (wcfg w1) m n ->
  memory_safe (step w2 (ExeMvm res vec mat m n l)).
Proof.
  intros Hg1 X1 Hd Hp Hsp M1 N1 Hm0 H2 Ha HA Hh H1 Hdim L1 L2 Hm HF.
  pose proof (some_split _ Hsp) as Hs1.
  destruct (asking_armed h w1 x1 w2 rs (Z.to_nat m0) Hg1 X1) as (Hg2 & C2 & x2 & X2 & (q & we2 & k & E1 & E2 & E3 & E4 & E5)); auto;
    [unfold colsN; lia..|].
  rewrite <- C2 in *.
  destruct (guard_ok w2 m n Hg2 Hdim) as (G1 & G2 & Hm' & Hn').
  pose proof (g_x _ Hg2 x2 X2) as Hxo. pose proof (good_wf w2 Hg2) as Hwf. destruct Hdim as [Dm Dn].
  apply fits_iff in HF; try lia. destruct HF as [F1 F2].
  destruct (sh_par _ _ (xo_shape _ _ Hxo) _ E1) as (S1 & S2 & S3).
  cbn [step]. unfold exe_mvm. rewrite X2, G1, G2. cbn [bind].
  apply safe_bind; [|intros [[? ?] ?] _; apply safe_Ok].
  assert (M1' : (1 <= MM (wcfg w2))%nat) by lia. assert (N1' : (1 <= colsN (wcfg w2))%nat) by (unfold colsN; lia).
  eapply tri_nomem. apply (xmvm_tri nomem harmless_nomem); auto.
  right. refine (conj Hm' (conj Hn' (conj _ (conj _ _)))); [lia|lia|]. right. split; [exact Hs1|].
  split; [|split; [exact Ha|]].
  - right. split; [exact Hp|]. exists q, (wcols we2 (rows_of (wcfg w2) k)). split; [exact E1|].
    split. { split; [now rewrite S2|]. eexists; exact E5. }
    split; [exact N1'|]. split; [exact F1|]. split; [|exact F2].
    apply outs_cols; auto. lia.
  - intros _ _. right. split; [congruence|]. split.
    { intros Em. rewrite Em in E2. discriminate E2. }
    split; [exact M1'|]. split; [exact N1'|]. rewrite <- two_rows_ienc, H2. discriminate.
Qed.

Lemma safe_soft_mvm w x mat0 m0 n0 w1 h w2 rs res vec mat m n l :
  reach w -> wx w = Some x -> digital_only (wcfg w) = false -> parasitics (wcfg w) = true -> SPLIT (wcfg w) <> [] ->
  two_rows (m_mode (wcfg w)) = false -> adc_profile (wcfg w) = false ->
  dims_in (wcfg w) m0 n0 -> step w (CpyMtrx mat0 m0 n0) = Ok (w1, RCode 0) ->
  Forall asking h -> run w1 h = Ok (w2, rs) ->
  dims_in (wcfg w) m n -> Z.of_nat (len res) >= m -> Z.of_nat (len vec) >= n ->
  m <= m0 -> solver_fits (wcfg w) m n ->
  memory_safe (step w2 (ExeMvm res vec mat m n l)).
Proof.
  intros Hr Hx Hd Hp Hsp H2 Ha Hdim0 H0 Hh H1 Hdim L1 L2 Hm HF.
  destruct (supp_dims _ (par_supported w Hr Hp)) as [M1 N1].
  destruct (write_loaded _ _ _ _ _ _ Hr Hx Hd Hp Hsp Hdim0 H0) as (C1 & Hg1 & x1 & p & we & X1 & P1 & Ew & _ & _ & (Hga & Hwire & _) & _).
  assert (HA : rows_armed (wcfg w1) (xm x1) (Z.to_nat m0)).
  { rewrite C1. exists p, we, (Z.to_nat m0). auto. }
  unfold colsN in N1. destruct Hdim0 as [D0 _]. rewrite <- C1 in *.
  eapply (armed_safe w1 x1 m0); eauto; lia.
Qed.

(** A refresh loads all M rows, whatever was written last. *)
Lemma refresh_rearms w x a w1 ans h w2 rs res vec mat m n l :
  reach w -> wx w = Some x -> digital_only (wcfg w) = false -> parasitics (wcfg w) = true -> SPLIT (wcfg w) <> [] ->
  read_disturb (wcfg w) = true -> mitigation (wcfg w) = SOFTWARE ->
  two_rows (m_mode (wcfg w)) = false -> adc_profile (wcfg w) = false ->
  refreshes (wcfg w) x = true -> step w a = Ok (w1, ans) -> multiplied a ans = true ->
  Forall asking h -> run w1 h = Ok (w2, rs) ->
  dims_in (wcfg w) m n -> Z.of_nat (len res) >= m -> Z.of_nat (len vec) >= n -> solver_fits (wcfg w) m n ->
  memory_safe (step w2 (ExeMvm res vec mat m n l)).
Proof.
  intros Hr Hx Hd Hp Hsp Hrd Em H2 Ha Hdue H Hm Hh H1 Hdim L1 L2 HF.
  destruct (supp_dims _ (par_supported w Hr Hp)) as [M1 N1].
  assert (HR : exists r, xrd x = Some r).
  { pose proof (xo_some _ _ (g_x _ (reach_good _ Hr) x Hx) Hrd) as K. destruct (xrd x); [eauto|easy]. }
  destruct HR as [r HR].
  destruct (soft_step w x r a w1 ans Hr Hx HR Hd Em H Hm) as (x1 & r' & X1 & _ & _ & HS). rewrite Hdue in HS.
  destruct HS as (_ & HS & _).
  pose proof (reach_good _ Hr) as Hg.
  assert (Hnc : no_create a) by (destruct a; try discriminate Hm; exact I).
  assert (G1 : good w1) by exact (proj1 (no_create_step w a w1 ans x Hg Hnc Hx H)).
  destruct (mvm_inv _ _ _ _ H Hm) as (y & x' & res1 & vec1 & mat1 & m1 & n1 & l1 & res1' & Y & Hx' & C1 & _ & _ & _ & HX).
  assert (y = x) by congruence. subst y. assert (x' = x1) by congruence. subst x'.
  pose proof (good_wf w Hg) as Hwf. pose proof (some_split _ Hsp) as Hs1.
  destruct (xmvm_par _ _ _ _ _ _ _ _ _ _ _ _ (g_x _ Hg x Hx) Hwf Hd HX) as [[_ K]|(mp0 & e0 & mp1 & e1 & S & _ & W & P)]; [lia|].
  assert (Ew : exists we, wenc_of (m_mode (wcfg w)) = Some we).
  { destruct (par_supported w Hr Hp) as (_ & _ & _ & _ & K). destruct (K Hd) as (_ & _ & _ & _ & _ & K1 & _).
    destruct (K1 Hrd) as [Hi _]. destruct (m_mode (wcfg w)); try discriminate Hi; cbn; eauto. }
  destruct Ew as [we Ew].
  destruct (a_write_par _ mp0 (MM (wcfg w)) (colsN (wcfg w)) e0 mp1 e1 we S Hwf Hp Ew) as (q & q' & _ & Q2 & _ & (Hga & Hwire & _) & _); auto.
  assert (HA : rows_armed (wcfg w1) (xm x1) (MM (wcfg w))).
  { rewrite C1. exists q', we, (MM (wcfg w)). rewrite P. auto. }
  unfold colsN in N1. destruct Hdim as [Dm Dn]. rewrite <- C1 in *.
  eapply (armed_safe w1 x1 (M (wcfg w1))); eauto; try lia. split; auto.
Qed.
End PS.
