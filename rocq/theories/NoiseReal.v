(** C31 in exact arithmetic and C34, first half: an MVM with bad masks terminates the process. *)
From Coq Require Import String List ZArith Reals Bool Arith Lia Lra ZifyBool ZifyNat.
From RecordUpdate Require Import RecordSet.
From Verif Require Import Base Lib Hoare Machine Json Config Histogram Adc ReadDisturb Parasitics
  Mapper IntMappers BnnMappers TnnMappers Crossbar Api RMachine WriteProofs Shape MvmShape AnaShape ConfigProofs
  Reach Spec DigApi CfgProps Cells Invar StepFacts NoiseProps.
Import ListNotations RecordSetNotations.
Local Open Scope Z_scope.
Local Open Scope out_scope.

Ltac split_if H := match type of H with (if ?b then _ else _) => destruct b end.

Section G.
Context {MC : Machine}.
Notation at_f := (at2 f0).
Notation at_z := (at2 0).
Notation nominal c g := (level g (fsub (LRS c) (HRS c)) (HRS c)).

Lemma at2_mat2_or {A} R C (x d : A) i j : at2 d (mat2 R C x) i j = x \/ at2 d (mat2 R C x) i j = d.
Proof.
  unfold at2, mat2. destruct (Nat.lt_ge_cases i R) as [Hi|Hi].
  - rewrite (nth_indep _ [] (repeat x C)) by now rewrite repeat_length. rewrite nth_repeat.
    destruct (Nat.lt_ge_cases j C) as [Hj|Hj].
    + left. rewrite (nth_indep _ d x) by now rewrite repeat_length. apply nth_repeat.
    + right. apply nth_overflow. now rewrite repeat_length.
  - right. rewrite (nth_overflow _ []) by now rewrite repeat_length. now destruct j.
Qed.

(** ** Predicates on currents that every call keeps *)
Definition all_currents (P : F -> Prop) (x : xbar) : Prop := forall i j,
  P (at_f (ia_p (xm x)) i j) /\ P (at_f (ia_m (xm x)) i j) /\
  P (at_f (ia_p0 (xm x)) i j) /\ P (at_f (ia_m0 (xm x)) i j).

Section P.
Context (P : F -> Prop) (c : config).
Context (Pn : forall g y, noisy c (nominal c g) g y -> P y).
Context (Pl : forall y, noisy c (LRS c) 1 y -> P y).
Context (Pd : forall r k cy, P (fmul (LRS c) (fst (g0_factor c r k cy)))).

Definition allm (mp : mapper) : Prop := forall i j,
  P (at_f (ia_p mp) i j) /\ P (at_f (ia_m mp) i j) /\ P (at_f (ia_p0 mp) i j) /\ P (at_f (ia_m0 mp) i j).

Lemma programmed_all mp mp' m n : programmed c mp mp' m n -> allm mp -> allm mp'.
Proof.
  intros H HA i j. specialize (H i j). destruct (HA i j) as (A1 & A2 & A3 & A4).
  destruct (inside m n i j).
  - destruct H as ((E1 & N1) & H). rewrite E1. apply Pn in N1.
    destruct (one_array (m_mode c)).
    + destruct H as (-> & ->). auto.
    + destruct H as (-> & N2). apply Pn in N2. auto.
  - destruct H as (-> & -> & -> & ->). auto.
Qed.
Lemma rd_update_all rp rm mp r mp' r' : shape c mp -> rdshape c r -> rd_update c rp rm mp r = Ok (mp', r') ->
  allm mp -> allm mp'.
Proof.
  intros Hs Hr H HA i j. destruct (rd_update_cells _ _ _ _ _ _ _ Hs Hr H) as ((ip & im & E) & _ & _ & HP & HM & _).
  destruct (HA i j) as (A1 & A2 & A3 & A4). specialize (HP i j).
  assert (B1 : P (at_f (ia_p mp') i j)).
  { split_if HP; [destruct HP as (k & _ & ->); apply Pd|now rewrite HP]. }
  assert (B2 : P (at_f (ia_m mp') i j)).
  { destruct (mp_diff mp); [specialize (HM i j); split_if HM; [destruct HM as (k & _ & ->); apply Pd|now rewrite HM]|now rewrite HM]. }
  subst mp'. cbn in *. auto.
Qed.
Lemma mvm_all x res vec mat m n l e r x' e' : cfg_wf c -> xok c x -> digital_only c = false -> is_int (m_mode c) = false ->
  xmvm c x res vec mat m n l e = Ok (r, x', e') -> all_currents P x -> all_currents P x'.
Proof.
  intros Hw Hx Hd Hi H HA.
  destruct (xmvm_split _ _ _ _ _ _ _ _ _ _ _ _ Hw Hx Hd H)
    as (mp & e1 & Hs & E1 & E2 & _ & E3 & E4 & _ & HC & HR). cbv zeta in HR.
  assert (HM : allm mp).
  { intros i j. specialize (HC i j). destruct (HA i j) as (A1 & A2 & A3 & A4). rewrite E3, E4.
    destruct (_ && _); destruct HC as [-> ->]; auto. }
  clear H. set (x1 := x <| n_mvm := n_mvm x + 1 |> <| n_read := n_read x + 1 |> <| xm := mp |>) in *.
  destruct (read_disturb c) eqn:Er; [|destruct HR as [-> _]; exact HM].
    assert (HS : forall rr, xrd x1 = Some rr -> rdshape c rr).
  { intros rr. change (xrd x1) with (xrd x). apply (xo_rd _ _ Hx). }
  destruct (mitigation c) eqn:Em.
  - apply rd_step_soft in HR; [|exact Em]. destruct HR as [_ HR]. destruct (_ =? 0).
    + destruct HR as (rr & mp1 & r1 & Er1 & HU & HR). cbv zeta in HR.
      change (xm x1) with mp in HU.
      destruct (rd_update_cells _ _ _ _ _ _ _ Hs (HS _ Er1) HU) as (_ & Hs1 & (b & Eb) & _).
      pose proof (rd_update_all _ _ _ _ _ _ Hs (HS _ Er1) HU HM) as HM1.
      destruct (due _ _ _ _); [|destruct HR as [-> _]; exact HM1].
      assert (Hrs : rdshape c (r1 <| rd_oob := rd_oob r1 || worn (n_write x1 + n_refresh x1) |>)).
      { subst r1. specialize (HS _ Er1). destruct HS. constructor; assumption. }
      set (x2 := x1 <| xm := mp1 |> <| xrd := Some (r1 <| rd_oob := rd_oob r1 || worn (n_write x1 + n_refresh x1) |>) |>) in HR.
      assert (E5 : xm x2 = mp1) by reflexivity. clearbody x2. rewrite <- E5 in Hs1, HM1.
      destruct (soft_refresh_cells _ _ _ _ _ _ Hs1 Hrs HR)
        as (r' & _ & _ & _ & _ & _ & _ & _ & _ & _ & _ & _ & _ & _ & _ & _ & HP).
      exact (programmed_all _ _ _ _ (HP Hi) HM1).
    + destruct HR as [-> _]. exact HM.
  - apply rd_step_cell in HR; [|exact Em]. destruct HR as (rr & r1 & Er1 & HU & _ & HR).
    destruct (update_consecutive_cells _ _ _ _ _ (HS _ Er1) HU) as (_ & Hrs & _).
    destruct (_ =? 0); [|destruct HR as [-> _]; exact HM].
    destruct HR as (mp1 & r2 & mp2 & r3 & cnt & HU2 & HF & ->). change (xm x1) with mp in HU2.
    destruct (rd_update_cells _ _ _ _ _ _ _ Hs Hrs HU2) as (_ & Hs1 & (b & Eb) & _).
    pose proof (rd_update_all _ _ _ _ _ _ Hs Hrs HU2 HM) as HM1.
    assert (Hr2 : rdshape c r2) by (subst r2; destruct Hrs; constructor; assumption).
    destruct (cell_refresh_cells _ _ _ _ _ _ _ _ Hs1 Hr2 HF) as ((ip & im & E) & _ & _ & _ & _ & HP & HQ & _).
    intros i j. cbn.
    destruct (HM1 i j) as (A1 & A2 & A3 & A4). specialize (HP i j).
    assert (B1 : P (at_f (ia_p mp2) i j)).
    { split_if HP; [destruct HP as (N & _); now apply Pl|destruct HP as (-> & _); auto]. }
    assert (B2 : P (at_f (ia_m mp2) i j)).
    { destruct (mp_diff mp1); [specialize (HQ i j); split_if HQ; [destruct HQ as (N & _); now apply Pl|destruct HQ as (-> & _); auto]|].
      destruct HQ as (-> & _). exact A2. }
    subst mp2. cbn in *. auto.
  - apply rd_step_off in HR; [|exact Em]. destruct HR as (_ & _ & HR). destruct (_ =? 0); [|subst x'; exact HM].
    destruct HR as (rr & mp1 & r1 & Er1 & HU & ->).
    exact (rd_update_all _ _ _ _ _ _ Hs (HS _ Er1) HU HM).
Qed.
Lemma write_all x mat m n e x' e' : cfg_wf c -> xok c x -> digital_only c = false -> is_int (m_mode c) = false ->
  xwrite c x mat m n e = Ok (x', e') -> all_currents P x -> all_currents P x'.
Proof.
  intros Hw Hx Hd Hi H HA. pose proof (xwrite_written _ _ _ _ _ _ _ _ Hw Hx H) as W.
  exact (programmed_all _ _ _ _ (wr_xnn _ _ _ _ _ _ _ W Hd Hi) HA).
Qed.
End P.

(** ** C34: bad masks terminate the process *)
Definition onlydied (o : out False) : Prop := o = Died.
Lemma add_c2c_died c mp m n e : shape c mp -> (m <= rowsN c)%nat -> (n <= colsN c)%nat ->
  tri onlydied (fun _ => True) (add_c2c c mp m n e).
Proof.
  intros Hs Hm Hn. unfold add_c2c.
  assert (HN : forall x g k, tri onlydied (fun _ => True) (add_noise c x g k)).
  { intros. unfold add_noise. destruct (g =? 0); [now destruct (fle _ _)|]. destruct (g =? 1); [now destruct (fle _ _)|reflexivity]. }
  apply (tri_bind onlydied (fun '(a, b, _) => wf2 (rowsN c) (colsN c) a /\ wf2 (rowsN c) (colsN c) b)).
  2:{ intros [[a b] k] _. exact I. }
  apply tri_loop. { split; apply Hs. } intros i st Hi' Hst.
  apply tri_loop; auto. intros j [[a b] k] Hj [Ha Hb].
  assert (HB : onlydied (UB OutOfBounds) \/ ((i < rowsN c)%nat /\ (j < colsN c)%nat)) by (right; lia).
  apply (tri_bind onlydied (fun _ => True)). { eapply tri_get2; [apply Hs|auto|now intros]. } intros x _.
  apply (tri_bind onlydied (fun _ => True)). { eapply tri_get2; [apply Hs|auto|now intros]. } intros g _.
  apply (tri_bind onlydied (fun _ => True)). { apply HN. } intros [x1 k1] _.
  apply (tri_bind onlydied (wf2 (rowsN c) (colsN c))). { now apply tri_set2. } intros a' Ha'.
  apply (tri_bind onlydied (fun _ => True)). { eapply tri_get2; [apply Hs|auto|now intros]. } intros y _.
  apply (tri_bind onlydied (fun _ => True)). { eapply tri_get2; [apply Hs|auto|now intros]. } intros h _.
  apply (tri_bind onlydied (fun _ => True)). { apply HN. } intros [y1 k2] _.
  apply (tri_bind onlydied (wf2 (rowsN c) (colsN c))). { now apply tri_set2. } intros b' Hb'. now cbn.
Qed.

Lemma bad_mask_died w res vec mat m n l x i j :
  reach w -> wx w = Some x -> digital_only (wcfg w) = false -> c2c_var (wcfg w) = true -> SPLIT (wcfg w) <> [] ->
  dims_in (wcfg w) m n ->
  covers (ExeMvm res vec mat m n l) i j = true ->
  (cell (gd_p (xm x)) i j <> 0 /\ cell (gd_p (xm x)) i j <> 1) \/
  (cell (gd_m (xm x)) i j <> 0 /\ cell (gd_m (xm x)) i j <> 1) ->
  step w (ExeMvm res vec mat m n l) = Died.
Proof.
  intros Hr Hx Hd Hc Hsp Hin Hij Hbad. apply reach_good in Hr. pose proof (xo_shape _ _ (g_x _ Hr _ Hx)) as Hs.
  cbn [step]. unfold exe_mvm. rewrite Hx. destruct (guard_ok _ _ _ Hr Hin) as (-> & -> & Hm & Hn). cbn [bind].
  unfold xmvm. rewrite Hd, Hc. cbv zeta.
  change (xm (x <| n_mvm := n_mvm x + 1 |> <| n_read := n_read x + 1 |>)) with (xm x).
  assert (HS : (1 <= nsplit (wcfg w))%nat) by (unfold nsplit; destruct (SPLIT (wcfg w)); cbn; [congruence|lia]).
  pose proof (add_c2c_died (wcfg w) (xm x) (Z.to_nat m) (Z.to_nat n) (wenv w) Hs ltac:(unfold rowsN in *; nia) Hn) as HT.
  destruct (add_c2c _ _ _ _ _) as [[mp e1]| | |] eqn:T; cbn in HT; try discriminate; [|reflexivity].
  exfalso. destruct (add_c2c_cells _ _ _ _ _ _ _ Hs T) as (_ & _ & _ & _ & HC).
  specialize (HC i j). replace (inside (Z.to_nat m) (Z.to_nat n) i j) with true in HC by (unfold inside; cbn in Hij; lia).
  destruct HC as [C1 C2]. apply noisy_mask in C1, C2. unfold cell, at2 in *. lia.
Qed.
End G.

(** ** C31 over the reals *)
Section R.
Context (nz : bool -> nat -> R) (s : bool).
#[local] Hint Extern 0 Machine => exact (R_machine nz s) : typeclass_instances.
Local Open Scope R_scope.

Lemma rleb_false x y : rleb x y = false -> y < x.
Proof. unfold rleb. destruct (Rle_dec x y); [discriminate|lra]. Qed.
Lemma rpow_nonneg x y : 0 <= rpow x y.
Proof.
  unfold rpow. destruct (Rlt_dec 0 x); [left; apply exp_pos|]. destruct (Req_EM_T y 0); lra.
Qed.

Lemma noisy_R (c : @config (R_machine nz s)) x g y : 0 <= x -> noisy c x g y -> 0 <= y.
Proof.
  intros Hx (k & k' & H). unfold add_noise in H.
  assert (HM : forall z : R, 0 <= @fmax (R_machine nz s) z 0).
  { intros z. unfold fmax. cbn. unfold rltb. destruct (Rlt_dec z 0); lra. }
  destruct (g =? 0)%Z; [|destruct (g =? 1)%Z; [|discriminate]];
    (destruct (fle _ _); inversion H; subst; [exact Hx|apply HM]).
Qed.
Lemma nominal_R (c : @config (R_machine nz s)) :
  level 0 (fsub (LRS c) (HRS c)) (HRS c) = HRS c /\ level 1 (fsub (LRS c) (HRS c)) (HRS c) = LRS c.
Proof. unfold level. cbn. split; ring. Qed.

Lemma positive_levels (c : @config (R_machine nz s)) : origin c -> digital_only c = false -> 0 <= HRS c /\ 0 <= LRS c.
Proof.
  intros [(j & c0 & E)|E] Hd.
  - destruct (apply_supported _ _ _ E) as (_ & _ & _ & _ & HS). destruct (HS Hd) as (H1 & H2 & _).
    apply rleb_false in H1, H2. cbn in H1, H2. lra.
  - subst c. cbn. lra.
Qed.

Definition nonneg (x : R) : Prop := 0 <= x.
Lemma nonneg_facts (c : @config (R_machine nz s)) : origin c -> digital_only c = false ->
  (forall g y, noisy c (level g (fsub (LRS c) (HRS c)) (HRS c)) g y -> nonneg y) /\
  (forall y, noisy c (LRS c) 1 y -> nonneg y) /\
  (forall r k cy, nonneg (fmul (LRS c) (fst (g0_factor c r k cy)))).
Proof.
  intros Ho Hd. destruct (positive_levels c Ho Hd) as [Hh Hl]. destruct (nominal_R c) as [E0 E1]. repeat apply conj.
  - intros g y H. pose proof (noisy_mask _ _ _ _ H) as [-> | ->]; (eapply noisy_R; [|exact H]);
      [rewrite E0|rewrite E1]; lra.
  - intros y H. eapply noisy_R; [|exact H]. lra.
  - intros r k cy. unfold nonneg. cbn. apply Rmult_le_pos; [lra|]. unfold g0_factor.
    destruct (trans_time r cy) as [tt b]. destruct (flt _ _); cbn; [lra|apply rpow_nonneg].
Qed.

Definition all_nonneg (c : @config (R_machine nz s)) (y : @xbar (R_machine nz s)) : Prop :=
  digital_only c = false -> is_int (m_mode c) = false -> @all_currents (R_machine nz s) nonneg y.
Lemma reach_nonneg (w : @world (R_machine nz s)) x : reach w -> wx w = Some x -> digital_only (wcfg w) = false ->
  is_int (m_mode (wcfg w)) = false ->
  forall i j, 0 <= current (ia_p (xm x)) i j /\ 0 <= current (ia_m (xm x)) i j.
Proof.
  intros Hr Hx.
  assert (HQ : all_nonneg (wcfg w) x).
  { revert Hr Hx. apply (@reach_Q (R_machine nz s) all_nonneg).
    - intros c y Ho _ H Hd Hi i j. destruct (positive_levels c Ho Hd) as [Hh _].
      destruct (xbar_new_ia _ _ H) as (-> & -> & -> & -> & _).
      assert (nonneg (at2 f0 (mat2 (rowsN c) (colsN c) (HRS c)) i j)); [|auto].
      unfold nonneg. destruct (at2_mat2_or (rowsN c) (colsN c) (HRS c) f0 i j) as [-> | ->]; cbn; lra.
    - intros c c' y _ _ HC _ HQ Hd Hi. apply core_mode in HC as (E1 & _ & E2 & _). apply HQ; congruence.
    - intros c y mat m n e y' e' Ho Hw Hy _ HQ H Hd Hi. destruct (nonneg_facts c Ho Hd) as (N1 & N2 & N3).
      eapply write_all; eauto.
    - intros c y res vec mat m n l e r y' e' Ho Hw Hy _ HQ H Hd Hi. destruct (nonneg_facts c Ho Hd) as (N1 & N2 & N3).
      eapply mvm_all; eauto. }
  intros Hd Hi i j. destruct (HQ Hd Hi i j) as (H1 & H2 & _). auto.
Qed.

(** Without noise a write programs exactly HRS and LRS. *)
Lemma write_exact (w : @world (R_machine nz s)) a w' r x' :
  reach w -> digital_only (wcfg w) = false -> is_int (m_mode (wcfg w)) = false ->
  step w a = Ok (w', r) -> wrote a r = true -> wx w' = Some x' ->
  HRS_NOISE (wcfg w) <= 0 -> LRS_NOISE (wcfg w) <= 0 ->
  wenv w' = wenv w /\
  forall i j, covers a i j = true ->
    current (ia_p (xm x')) i j = (if (cell (gd_p (xm x')) i j =? 1)%Z then LRS (wcfg w) else HRS (wcfg w)) /\
    (m_mode (wcfg w) <> BNN_III -> m_mode (wcfg w) <> BNN_IV ->
     current (ia_m (xm x')) i j = (if (cell (gd_m (xm x')) i j =? 1)%Z then LRS (wcfg w) else HRS (wcfg w))).
Proof.
  intros Hr Hd Hi H Hw Hx' Hh Hl.
  assert (L : forall t : R, t <= 0 -> rleb t 0 = true) by (intros t Ht; unfold rleb; destruct (Rle_dec t 0); auto; lra).
  destruct (write_quiet w a w' r x' Hr Hd Hi H Hw Hx' (L _ Hh) (L _ Hl)) as [HE HC]. split; [exact HE|].
  intros i j Hij. destruct (HC i j Hij) as (H1 & H2).
  destruct (write_binary w a w' r x' Hr Hd Hi H Hw Hx' i j Hij) as [B1 B2].
  destruct (nominal_R (wcfg w)) as [E0 E1]. split.
  - rewrite H1. destruct B1 as [-> | ->]; [exact E0|exact E1].
  - intros N3 N4. rewrite (H2 N3 N4). destruct (B2 N3 N4) as [-> | ->]; [exact E0|exact E1].
Qed.
End R.
