(** Digital products with weights out of range (C77). *)
From Coq Require Import List ZArith Bool Arith Lia ZifyBool ZifyNat String.
From RecordUpdate Require Import RecordSet.
From Verif Require Import Base Lib Hoare Machine Json Config Histogram Adc ReadDisturb Parasitics
  Mapper IntMappers BnnMappers TnnMappers Crossbar Api WriteProofs Shape MvmShape DigMvm DigModes
  DigWrite AnaShape ConfigProofs Reach Spec DigApi Invar WideSpec.
Import ListNotations RecordSetNotations.
Local Open Scope Z_scope.
Local Open Scope out_scope.

Section Wide.
Context {MC : Machine}.
Notation len := List.length.

Lemma top_keep c v : 0 <= total (SPLIT c) <= W_BIT c -> top_bits c v = keep_bits c v.
Proof.
  intros H. unfold top_bits, keep_bits. change (sumL (SPLIT c)) with (total (SPLIT c)). cbv zeta.
  set (k := W_BIT c - total (SPLIT c)).
  assert (0 < 2 ^ W_BIT c) by (apply Z.pow_pos_nonneg; lia).
  assert (0 < 2 ^ k) by (apply Z.pow_pos_nonneg; lia).
  assert (E : (v mod 2 ^ W_BIT c) mod 2 ^ k = v mod 2 ^ k).
  { symmetry. apply Znumtheory.Zmod_div_mod; [lia|lia|].
    exists (2 ^ total (SPLIT c)). rewrite <- Z.pow_add_r by lia. f_equal. lia. }
  pose proof (Z_div_mod_eq_full (v mod 2 ^ W_BIT c) (2 ^ k)). rewrite <- E. lia.
Qed.

Lemma kept_decoded c w : is_int (m_mode c) = true -> 0 <= total (SPLIT c) <= W_BIT c -> decoded c w = kept c w.
Proof.
  intros Hi H. unfold decoded, kept. destruct (m_mode c); try discriminate Hi; now rewrite top_keep.
Qed.

Lemma kept_small c w : is_int (m_mode c) = true -> 0 <= total (SPLIT c) <= W_BIT c -> 1 <= W_BIT c ->
  Z.abs (kept c w) <= 2 ^ W_BIT c /\ (m_mode c <> I_UINT_W_OFFS -> Z.abs (w - kept c w) <= Z.abs w).
Proof.
  intros Hi H HW. assert (R : forall v, 0 <= top_bits c v < 2 ^ W_BIT c).
  { intros v. rewrite top_keep by lia. apply keep_bits_range. exact H. }
  assert (L : forall v, 0 <= v -> top_bits c v <= v).
  { intros v Hv. unfold top_bits. cbv zeta. set (k := W_BIT c - total (SPLIT c)).
    assert (0 < 2 ^ W_BIT c) by (apply Z.pow_pos_nonneg; lia).
    assert (0 < 2 ^ k) by (apply Z.pow_pos_nonneg; lia).
    pose proof (Z.mod_le v (2 ^ W_BIT c) Hv ltac:(lia)).
    pose proof (Z.mul_div_le (v mod 2 ^ W_BIT c) (2 ^ k) ltac:(lia)). lia. }
  assert (E : 2 ^ W_BIT c = 2 * 2 ^ (W_BIT c - 1)).
  { replace (W_BIT c) with (Z.succ (W_BIT c - 1)) at 1 by lia. rewrite Z.pow_succ_r by lia. ring. }
  specialize (L (Z.abs w) (Z.abs_nonneg w)). pose proof (R (Z.abs w)). pose proof (R (w + 2 ^ (W_BIT c - 1))).
  assert (D : Z.abs (Z.sgn w * top_bits c (Z.abs w)) <= 2 ^ W_BIT c /\
              Z.abs (w - Z.sgn w * top_bits c (Z.abs w)) <= Z.abs w).
  { destruct (Z.lt_trichotomy w 0) as [Hw|[Hw|Hw]].
    - rewrite Z.sgn_neg by lia. lia.
    - subst w. cbn [Z.sgn]. lia.
    - rewrite Z.sgn_pos by lia. lia. }
  unfold kept. destruct (m_mode c); try discriminate Hi; try (split; [apply D|intros _; apply D]).
  split; [lia|congruence].
Qed.

Lemma writable_wok c w : is_int (m_mode c) = true -> writable c w -> wok c w.
Proof.
  intros Hi H. unfold writable, wok in *. unfold int_min, int_max.
  destruct (m_mode c); try discriminate Hi; lia.
Qed.

Lemma sumZ_sub n f g : sumZ n (fun j => f j - g j) = sumZ n f - sumZ n g.
Proof. induction n as [|n IH]; cbn [sumZ]; [reflexivity|]. rewrite IH. ring. Qed.

Lemma wide_upto c res mat vec m n :
  upto m (fun i x => x + (sumZ n (fun j => kept c (entry mat n i j) * nth j vec 0)
            - offset c * (sumZ n (entry mat n i) - sumZ n (fun j => kept c (entry mat n i j))))) res =
  wide_product c res mat vec m n.
Proof.
  unfold wide_product. apply (nth_ext _ _ 0 0).
  - now rewrite upto_length, map_length, seq_length.
  - intros k Hk. rewrite upto_length in Hk. rewrite nth_upto by auto.
    match goal with |- _ = nth k (map ?f _) 0 => set (g := f) end.
    rewrite (nth_indep (map g (seq 0 (len res))) 0 (g O)) by now rewrite map_length, seq_length.
    rewrite map_nth, seq_nth by auto. unfold g. cbn [plus]. rewrite !sum_sumZ, sumZ_sub.
    destruct (k <? m)%nat; [reflexivity|lia].
Qed.

Lemma wide_mvm : strict_shl = false ->
  forall w x mat vec res mat' m n l,
  reach w -> wx w = Some x -> digital_only (wcfg w) = true -> is_int (m_mode (wcfg w)) = true ->
  total (SPLIT (wcfg w)) <= W_BIT (wcfg w) -> widths_fit (wcfg w) -> dims_in (wcfg w) m n ->
  all_entries (writable (wcfg w)) mat m n -> all_first (input_in (wcfg w)) vec n ->
  wide_room (wcfg w) mat res m n ->
  exists w1 w2,
    step w (CpyMtrx mat m n) = Ok (w1, RCode 0) /\
    step w1 (ExeMvm res vec mat' m n l) =
      Ok (w2, RRes 0 (wide_product (wcfg w) res mat vec (Z.to_nat m) (Z.to_nat n))).
Proof.
  intros Hst w x mat vec res mat' m n l Hr Hx Hd Hi Htot Hwid Hdim [Hl Hent] [Hv1 Hv2] (HN & Hr1 & HR).
  apply reach_good in Hr. rename Hr into Hg.
  destruct (guard_ok w m n Hg Hdim) as (G1 & G2 & Hm & Hn).
  assert (HW1 : 1 <= W_BIT (wcfg w)).
  { destruct (good_loaded w Hg) as [H|H]; [pose proof (proj1 (ld_bits _ H Hi)); lia|].
    rewrite H in Hd. discriminate Hd. }
  destruct (Hwid Hi) as [HI HWI].
  pose proof (g_x _ Hg x Hx) as Hxo. pose proof (good_wf w Hg) as Hwf. pose proof (split_nonneg w Hg) as Hnn.
  set (c := wcfg w) in *. set (m' := Z.to_nat m) in *. set (n' := Z.to_nat n) in *.
  assert (En : Z.of_nat n' = n) by (subst n'; destruct Hdim; lia).
  assert (Ht0 : 0 <= total (SPLIT c)) by (apply sumL_nonneg; exact Hnn).
  assert (Hf : fits c) by (intros _; repeat split; auto; change (sumL (SPLIT c)) with (total (SPLIT c)); lia).
  assert (Hks : keeps_sums (m_mode c) = true -> m_mode c <> I_UINT_W_OFFS) by (intros E X; rewrite X in E; discriminate).
  destruct (d_write_ok c (xm x) mat m' n') as (mp' & E & S1 & SB & P1 & P2 & Esw); auto.
  { apply Hxo. } { destruct Hdim. subst m' n'. nia. }
  { intros i j A B. apply writable_wok; [exact Hi|]. exact (Hent i j A B). }
  { intros Ek i A. destruct (HR i A) as [B _]. specialize (B (Hks Ek)). unfold row_abs in B. rewrite sum_sumZ in B. exact B. }
  assert (HH : holds c mp' mat m' n').
  { apply (written c (xm x) mp' mat m' n'); auto.
    - intros i j A B. apply writable_wok; [exact Hi|]. exact (Hent i j A B).
    - intros Ht. now apply (sh_gm0 _ _ (xo_shape _ _ Hxo)). }
  destruct (xwrite_digital c x mat m' n' (wenv w) mp' Hd Hxo S1 E) as (x' & Ex & Exm).
  assert (Est : step w (CpyMtrx mat m n) = Ok (w <| wx := Some x' |> <| wenv := wenv w |>, RCode 0)).
  { cbn. unfold cpy_mtrx. fold c. rewrite Hx. rewrite G1, G2. cbn [bind]. fold m' n'. rewrite Ex. reflexivity. }
  assert (Hg1 : good (w <| wx := Some x' |> <| wenv := wenv w |>)).
  { eapply step_good; [exact Hg|exact Est|discriminate]. }
  (* the product *)
  assert (V : forall i j, (i < m')%nat -> (j < n')%nat -> cellv c mp' i j = kept c (entry mat n' i j)).
  { intros i j A B. destruct (HH i j A B) as (_ & -> & _). apply kept_decoded; auto. }
  assert (K : forall i, (i < m')%nat -> kap c * (nth i (sum_w mp') 0 - sumZ n' (fun j => cellv c mp' i j)) =
    offset c * (sumZ n' (entry mat n' i) - sumZ n' (fun j => kept c (entry mat n' i j)))).
  { intros i A. unfold kap, offset in *. destruct (m_mode c) eqn:Em; try discriminate Hi; try reflexivity.
    rewrite Esw. cbn [keeps_sums]. rewrite nth_upto_lt by (rewrite ?(sh_sw _ _ (xo_shape _ _ Hxo)); subst m'; lia).
    rewrite (sumZ_ext n' (fun j => cellv c mp' i j) (fun j => kept c (entry mat n' i j))); [reflexivity|].
    intros j B. now apply V. }
  assert (D : forall i y, (i < m')%nat -> dres c mp' vec n' i y =
    y + (sumZ n' (fun j => kept c (entry mat n' i j) * nth j vec 0)
         - offset c * (sumZ n' (entry mat n' i) - sumZ n' (fun j => kept c (entry mat n' i j))))).
  { intros i y A. unfold dres. rewrite (K i A).
    rewrite (sumZ_ext n' _ (fun j => kept c (entry mat n' i j) * nth j vec 0)).
    - ring.
    - intros j B. destruct (HH i j A B) as (_ & _ & ->). rewrite (V i j A B). ring. }
  assert (Espan : term_bound c = span c).
  { unfold term_bound, span. rewrite Hi. apply Z.pow_add_r; lia. }
  assert (Hvb : forall j, (j < n')%nat -> Z.abs (nth j vec 0) <= 2 ^ I_BIT c).
  { intros j B. specialize (Hv2 j B). unfold input_in in Hv2. fold c in Hv2.
    assert (2 ^ I_BIT c = 2 * 2 ^ (I_BIT c - 1)).
    { replace (I_BIT c) with (Z.succ (I_BIT c - 1)) at 1 by lia. rewrite Z.pow_succ_r by lia. ring. }
    destruct (m_mode c); try discriminate Hi; lia. }
  assert (Hoff : 0 <= offset c) by (unfold offset; destruct (m_mode c); try lia; apply Z.pow_nonneg; lia).
  assert (Hrow : forall i, Z.abs (sumZ n' (entry mat n' i)) <= row_abs mat n' i).
  { intros i. unfold row_abs. rewrite sum_sumZ. apply sumZ_abs. }
  destruct (go_all c mp' res vec mat' m' n') as (mp'' & E2).
  - exact Hwf.
  - exact S1.
  - assert (Hs2 : sumL (SPLIT c) <= W_BIT c) by exact Htot.
    intros _. repeat split; try lia; rewrite ?shifts_eq by lia; apply shifts_from_range; auto; lia.
  - exact Hm.
  - exact Hn.
  - subst m'. destruct Hdim. lia.
  - subst n'. destruct Hdim. lia.
  - intros i j A B. now apply HH.
  - intros j B. exact (Hv2 j B).
  - intros i A. destruct (HR i A) as [_ B]. rewrite <- Espan, En.
    assert (0 <= offset c * row_abs mat n' i). { apply Z.mul_nonneg_nonneg; [exact Hoff|]. pose proof (Hrow i). lia. }
    unfold int32_max, int_max in *. lia.
  - rewrite <- Espan, En. exact HN.
  - intros i A. unfold kap. destruct (m_mode c) eqn:Em; try discriminate Hi; try (cbn; unfold int_max; lia).
    rewrite Esw. cbn [keeps_sums]. rewrite nth_upto_lt by (rewrite ?(sh_sw _ _ (xo_shape _ _ Hxo)); subst m'; lia).
    destruct (HR i A) as [_ B]. unfold offset in B. rewrite Em in B. fold (entry mat n' i). rewrite Z.abs_mul.
    specialize (Hrow i). unfold rowsum. change (sumZ n' (fun j => nth (n' * i + j) mat 0)) with (sumZ n' (entry mat n' i)).
    assert (0 < 2 ^ (I_BIT c - 1)) by (apply Z.pow_pos_nonneg; lia).
    rewrite (Z.abs_eq (2 ^ _)) by lia.
    assert (0 <= n * term_bound c). { apply Z.mul_nonneg_nonneg; [lia|]. unfold term_bound. rewrite Em. cbn [is_int]. apply Z.pow_nonneg. lia. }
    unfold int32_max, int_max in *. nia.
  - intros i A. rewrite D by exact A. destruct (HR i A) as [_ B].
    assert (B1 : Z.abs (sumZ n' (fun j => kept c (entry mat n' i j) * nth j vec 0)) <= n * term_bound c).
    { rewrite <- En. apply sumZ_bound. intros j Hj. rewrite Z.abs_mul, Espan. unfold span. rewrite Hi.
      apply Z.mul_le_mono_nonneg; try apply Z.abs_nonneg; [|now apply Hvb]. apply kept_small; auto. }
    assert (B2 : offset c * Z.abs (sumZ n' (entry mat n' i) - sumZ n' (fun j => kept c (entry mat n' i j)))
                 <= offset c * row_abs mat n' i).
    { destruct (Z.eq_dec (offset c) 0) as [->|H0]; [lia|]. apply Z.mul_le_mono_nonneg_l; [exact Hoff|].
      rewrite <- sumZ_sub. unfold row_abs. rewrite sum_sumZ. etransitivity; [apply sumZ_abs|]. apply sumZ_le.
      intros j Hj. apply kept_small; auto. intros X. apply H0. unfold offset. now rewrite X. }
    pose proof (Z.abs_triangle (nth i res 0) (sumZ n' (fun j => kept c (entry mat n' i j) * nth j vec 0) -
      offset c * (sumZ n' (entry mat n' i) - sumZ n' (fun j => kept c (entry mat n' i j))))).
    assert (B3 : Z.abs (offset c * (sumZ n' (entry mat n' i) - sumZ n' (fun j => kept c (entry mat n' i j))))
       <= offset c * row_abs mat n' i) by (rewrite Z.abs_mul, (Z.abs_eq (offset c)) by exact Hoff; exact B2).
    unfold int32_max, int_max in *. clear - B B1 B3 H. lia.
  - congruence.
  - assert (Hd1 : digital_only c = true) by exact Hd.
    rewrite <- Exm in E2. destruct (xmvm_digital c x' res vec mat' m' n' l (wenv w) _ _ Hd1 E2) as (x'' & Ex2).
    do 2 eexists. split; [exact Est|].
    cbn [step]. unfold exe_mvm.
    change (wx (w <| wx := Some x' |> <| wenv := wenv w |>)) with (Some x').
    change (wcfg (w <| wx := Some x' |> <| wenv := wenv w |>)) with c.
    change (wenv (w <| wx := Some x' |> <| wenv := wenv w |>)) with (wenv w).
    rewrite G1, G2. cbn [bind]. fold m' n'. rewrite Ex2. cbn [bind].
    rewrite <- wide_upto. rewrite (upto_ext m' (dres c (xm x') vec n')
      (fun i y => y + (sumZ n' (fun j => kept c (entry mat n' i j) * nth j vec 0)
         - offset c * (sumZ n' (entry mat n' i) - sumZ n' (fun j => kept c (entry mat n' i j))))) res 0).
    + reflexivity.
    + intros i A _. rewrite Exm. now apply D.
Qed.
End Wide.
