(** Shifts of negative row sums with offset inputs, digital and analog: C53. *)
From Coq Require Import List ZArith Bool Arith Lia ZifyBool ZifyNat String.
From RecordUpdate Require Import RecordSet.
From Verif Require Import Base Lib Hoare Machine Json Config Histogram Adc ReadDisturb Parasitics
  Mapper IntMappers BnnMappers TnnMappers Crossbar Api WriteProofs Shape DigMvm DigModes DigWrite
  ConfigProofs Reach Spec DigApi AnaShape AnaSpec DigProps StoreProps PyProps Demo.
Import ListNotations RecordSetNotations.
Local Open Scope Z_scope.
Local Open Scope out_scope.

Ltac Zify.zify_post_hook ::= idtac.

Section Ana.
Context {MC : Machine} (Hstr : strict_shl = true).

Lemma shl_neg x s y : x < 0 -> shl32 strict_shl x s <> Ok y.
Proof. intros H E. unfold shl32 in E. rewrite Hstr in E. replace (x <? 0) with true in E by lia. destruct (_ && _); discriminate E. Qed.

Lemma ii_d_neg c mp res vec mat m n k r : (k < m)%nat -> nth k (sum_w mp) 0 < 0 -> int_ii_d c mp res vec mat m n <> Ok r.
Proof.
  intros Hk Hn E. unfold int_ii_d in E. cbv zeta in E. inv_as E vp Hvp. inv_as E t Ht. inv_as E r1 Hr.
  destruct (forN_each _ _ _ _ k Hr Hk) as (a & b & Eb). inv_as Eb a1 Ha. inv_as Eb sw Hsw. inv_as Eb y Hy.
  apply (get_inv _ _ _ 0) in Hsw. destruct Hsw as [_ ->]. exact (shl_neg _ _ _ Hn Hy).
Qed.
Lemma ii_a_neg c mp res vec mat m n l k r : (k < m)%nat -> nth k (sum_w mp) 0 < 0 -> int_ii_a c mp res vec mat m n l <> Ok r.
Proof.
  intros Hk Hn E. unfold int_ii_a in E. cbv zeta in E. inv_as E vp Hvp. inv_as E t Ht. destruct t as [[r0 t] vds]. inv_as E r1 Hr.
  destruct (forN_each _ _ _ _ k Hr Hk) as (a & b & Eb). inv_as Eb sw Hsw. inv_as Eb y Hy.
  apply (get_inv _ _ _ 0) in Hsw. destruct Hsw as [_ ->]. exact (shl_neg _ _ _ Hn Hy).
Qed.

Lemma c2c_sums c mp m n e mp' e' : add_c2c c mp m n e = Ok (mp', e') -> sum_w mp' = sum_w mp /\ mp_mode mp' = mp_mode mp.
Proof. intros H. unfold add_c2c in H. inv_as H q Hq. destruct q as [[ip im] q]. inversion H; subst. split; reflexivity. Qed.

Lemma xmvm_neg c x res vec mat m n l e k r : mp_mode (xm x) = I_OFFS_W_DIFF -> (k < m)%nat -> nth k (sum_w (xm x)) 0 < 0 ->
  xmvm c x res vec mat m n l e <> Ok r.
Proof.
  intros Hm Hk Hn E. unfold xmvm in E. cbv zeta in E.
  change (xm (x <|n_mvm := n_mvm x + 1|> <|n_read := n_read x + 1|>)) with (xm x) in E.
  destruct (digital_only c).
  - inv_as E q Hq. unfold d_mvm in Hq. rewrite Hm in Hq. exact (ii_d_neg _ _ _ _ _ _ _ k _ Hk Hn Hq).
  - inv_as E q Hq. destruct q as [mp1 e1]. inv_as E q2 Hq2.
    assert (S1 : sum_w mp1 = sum_w (xm x) /\ mp_mode mp1 = mp_mode (xm x)).
    { destruct (c2c_var c); [exact (c2c_sums _ _ _ _ _ _ _ Hq)|]. inversion Hq; subst. split; reflexivity. }
    destruct S1 as [S1 S2]. unfold a_mvm in Hq2. cbv zeta in Hq2. rewrite S2, Hm in Hq2. inv_as Hq2 q3 Hq3.
    rewrite <- S1 in Hn. exact (ii_a_neg _ _ _ _ _ _ _ _ k _ Hk Hn Hq3).
Qed.
End Ana.

Lemma offset_row {MC : Machine} : strict_shl = true ->
  forall (w w1 : world) (mat vec res mat' : list Z) (m n : Z) (l : string) (k : nat) (r : world * result),
  reach w -> m_mode (wcfg w) = I_OFFS_W_DIFF -> split_covers (wcfg w) -> dims_in (wcfg w) m n ->
  all_entries (weight_in (wcfg w)) mat m n -> sums_fit (wcfg w) n ->
  (k < Z.to_nat m)%nat -> sum (Z.to_nat n) (entry mat (Z.to_nat n) k) < 0 ->
  step w (CpyMtrx mat m n) = Ok (w1, RCode 0) ->
  step w1 (ExeMvm res vec mat' m n l) <> Ok r.
Proof.
  intros Hstr w w1 mat vec res mat' m n l k r Hr Hmd Hcov Hdim Hmat HN Hk Hneg E1 E2.
  apply reach_good in Hr. destruct (guard_ok w m n Hr Hdim) as (G1 & G2 & Hm & Hn). destruct Hdim as [Dm Dn], Hmat as [Hl Hent].
  assert (Hg1 : good w1) by (eapply step_good; [exact Hr|exact E1|discriminate]).
  cbn in E1, E2. unfold cpy_mtrx in E1. destruct (wx w) as [x|] eqn:Ex; [|discriminate E1].
  rewrite G1, G2 in E1. cbn [bind] in E1. inv_as E1 q Hq. destruct q as [x1 e1]. injection E1 as <-.
  destruct (xwrite_d _ _ _ _ _ _ _ _ Hq) as (mp1 & Ed & SD).
  pose proof (g_x _ Hr x Ex) as Hxo. pose proof (good_wf w Hr) as Hwf.
  assert (L : (Z.to_nat m * Z.to_nat n <= List.length mat)%nat) by (clear -Hl Dm Dn; nia).
  assert (B : Z.of_nat (Z.to_nat n) * row_bound (wcfg w) <= int_max) by (rewrite Z2Nat.id by (clear -Dn; lia); exact HN).
  destruct (d_write_stored (wcfg w) (xm x) mat (Z.to_nat m) (Z.to_nat n) Hwf (xo_shape _ _ Hxo) (split_nonneg w Hr) Hcov Hm Hn L Hent B)
    as (mp' & E & S1 & _ & S2).
  rewrite E in Ed. injection Ed as <-.
  assert (Hsw : nth k (sum_w (xm x1)) 0 < 0).
  { destruct SD as (_ & _ & ->). rewrite (st_sum _ _ _ _ _ S2); [now rewrite <- sum_sumZ|now rewrite Hmd|exact Hk]. }
  unfold exe_mvm in E2. cbn in E2. rewrite G1, G2 in E2. cbn [bind] in E2. inv_as E2 q Hq2.
  refine (xmvm_neg Hstr (wcfg w) x1 res vec mat' _ _ l e1 k _ _ Hk Hsw Hq2).
  pose proof (g_x _ Hg1 x1 eq_refl) as Hxo1. rewrite (sh_mode _ _ (xo_shape _ _ Hxo1)). exact Hmd.
Qed.

(** An analog crossbar on a strict machine; weights [1 1; 1 -3], inputs [1 1]. *)
Definition ex_offs : @world strict := after [SetConfig (Parsed (@ana_doc strict "I_OFFS_W_DIFF" 3 4 4 4 [1; 2; 1] 1 8))].
Definition offs_case (w : @world strict) : Prop :=
  @strict_shl strict = true /\ reach w /\ m_mode (wcfg w) = I_OFFS_W_DIFF /\ digital_only (wcfg w) = false /\
  split_covers (wcfg w) /\ dims_in (wcfg w) 2 2 /\ all_entries (weight_in (wcfg w)) [1; 1; 1; -3] 2 2 /\
  sums_fit (wcfg w) 2 /\ sum 2 (entry [1; 1; 1; -3] 2 1) < 0 /\
  match step w (CpyMtrx [1; 1; 1; -3] 2 2) with
  | Ok (w1, RCode 0) => is_bad_shift (step w1 (ExeMvm [5; 7] [1; 1] [] 2 2 ""%string))
  | _ => false
  end = true.
Lemma offs_case_of (w : @world strict) : reach w -> m_mode (wcfg w) = I_OFFS_W_DIFF -> digital_only (wcfg w) = false ->
  total (SPLIT (wcfg w)) = 4 -> W_BIT (wcfg w) = 4 -> M (wcfg w) = 3 -> N (wcfg w) = 4 ->
  match step w (CpyMtrx [1; 1; 1; -3] 2 2) with
  | Ok (w1, RCode 0) => is_bad_shift (step w1 (ExeMvm [5; 7] [1; 1] [] 2 2 ""%string))
  | _ => false
  end = true -> offs_case w.
Proof.
  intros Hr Hm Hd E1 E2 E3 E4 Hs. unfold offs_case.
  assert (W : forall v, -8 <= v < 8 -> weight_in (wcfg w) v).
  { intros v Hv. unfold weight_in. rewrite Hm, E2. exact Hv || (cbn; lia). }
  pose proof (W 1 ltac:(lia)) as W1. pose proof (W (-3) ltac:(lia)) as W3.
  split; [reflexivity|]. split; [exact Hr|]. split; [exact Hm|]. split; [exact Hd|].
  split; [intros _; lia|]. split; [unfold dims_in; lia|].
  split; [split; [cbn; lia|change (Z.to_nat 2) with 2%nat; intros [|[|i]] [|[|j]] H1 H2; try exact W1; try exact W3; exfalso; lia]|].
  split; [unfold sums_fit; rewrite Hm, E2; vm_compute; discriminate|]. split; [reflexivity|]. exact Hs.
Qed.
Lemma offs_ex : offs_case ex_offs.
Proof.
  apply offs_case_of; [apply after_reach_b; vm_compute; reflexivity|vm_compute; reflexivity..].
Qed.
