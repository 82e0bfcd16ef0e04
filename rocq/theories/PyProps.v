(** The Python entry point (C54) and the strict reading of left shifts (C53). *)
From Coq Require Import List ZArith Bool Arith Lia ZifyBool ZifyNat String.
From RecordUpdate Require Import RecordSet.
From Verif Require Import Base Lib Hoare Machine Json Config Histogram Adc ReadDisturb Parasitics
  Mapper IntMappers BnnMappers TnnMappers Crossbar Api Shape MvmShape DigMvm DigModes DigWrite
  AnaShape ConfigProofs Reach Spec DigApi Demo DigProps ApiProps NoDie StoreProps SafeProps.
Import ListNotations RecordSetNotations.
Local Open Scope Z_scope.
Local Open Scope out_scope.
Notation len := List.length.

Section S.
Context {MC : Machine}.

Lemma acc2_each r c term a a' t k : acc2 r c term a = Ok a' -> (t < r)%nat -> (k < c)%nat -> exists e, term t k = Ok e.
Proof.
  intros H Ht Hk. unfold acc2 in H. destruct (forN_each _ _ _ _ t H Ht) as (x & y & E).
  destruct (forN_each _ _ _ _ k E Hk) as (x' & y' & E'). inv_as E' e He. eauto.
Qed.

Lemma d_mvm_fits c mp res vec mat m n y : shape c mp -> cfg_wf c ->
  (1 <= m)%nat -> (1 <= n)%nat -> (is_int (m_mode c) = true -> SPLIT c <> []) ->
  d_mvm c mp res vec mat m n = Ok y -> (m * Z.to_nat (rows_per_weight c) <= rowsN c)%nat /\ (n <= colsN c)%nat.
Proof.
  intros Hs Hw Hm Hn Hsp H. unfold d_mvm in H. rewrite (sh_mode _ _ Hs) in H.
  pose proof (sh_gp _ _ Hs) as Hp. pose proof (sh_gm _ _ Hs) as Hg.
  assert (HD : forall v t k e, dterm (gd_p mp) (gd_m mp) v t k = Ok e -> (t < rowsN c)%nat /\ (k < colsN c)%nat).
  { intros v t k e E. unfold dterm in E. inv_as E x Hx. apply (get2_inv 0 _ _ _ _ _ _ Hp) in Hx. tauto. }
  assert (HDm : forall v t k e, dterm (gd_m mp) (gd_p mp) v t k = Ok e -> (t < rowsN c)%nat /\ (k < colsN c)%nat).
  { intros v t k e E. unfold dterm in E. inv_as E x Hx. apply (get2_inv 0 _ _ _ _ _ _ Hg) in Hx. tauto. }
  assert (H1 : forall v t k e, dterm1 (gd_p mp) v t k = Ok e -> (t < rowsN c)%nat /\ (k < colsN c)%nat).
  { intros v t k e E. unfold dterm1 in E. inv_as E x Hx. apply (get2_inv 0 _ _ _ _ _ _ Hp) in Hx. tauto. }
  set (K := Z.to_nat (rows_per_weight c)).
  assert (HK : (1 <= K)%nat).
  { unfold K, rows_per_weight. destruct (is_int (m_mode c)) eqn:Hi; [|lia].
    specialize (Hsp eq_refl). destruct (SPLIT c); [congruence|]. cbn [List.length]. lia. }
  assert (Fin : (m * K - 1 < rowsN c)%nat /\ (n - 1 < colsN c)%nat -> (m * K <= rowsN c)%nat /\ (n <= colsN c)%nat) by lia.
  apply Fin. clear Fin.
  assert (HKi : is_int (m_mode c) = true -> K = nsplit c).
  { intros Hi. unfold K, rows_per_weight, nsplit. rewrite Hi. apply Nat2Z.id. }
  assert (HKx : is_int (m_mode c) = false -> K = 1%nat).
  { intros Hi. unfold K, rows_per_weight. now rewrite Hi. }
  assert (L1 : (m * K - 1 < m * K)%nat) by nia. assert (L2 : (n - 1 < n)%nat) by lia.
  assert (L3 : K = 1%nat -> (m * K - 1 < m)%nat) by lia.
  destruct (m_mode c) eqn:Em; cbn [is_int] in HKi, HKx; try (specialize (HKi eq_refl)); try (specialize (HKx eq_refl));
    try (specialize (L3 HKx)).
  - unfold int_i_d in H. cbv zeta in H. inv_as H q Hq. destruct q. inv_as H t1 T1. rewrite <- HKi in T1.
    destruct (acc2_each _ _ _ _ _ _ _ T1 L1 L2) as [e E]. eauto.
  - unfold int_i_d in H. cbv zeta in H. inv_as H q Hq. destruct q. inv_as H t1 T1. rewrite <- HKi in T1.
    destruct (acc2_each _ _ _ _ _ _ _ T1 L1 L2) as [e E]. eauto.
  - unfold int_ii_d in H. cbv zeta in H. inv_as H q Hq. inv_as H t1 T1. rewrite <- HKi in T1.
    destruct (acc2_each _ _ _ _ _ _ _ T1 L1 L2) as [e E]. eauto.
  - unfold int_iii_d in H. cbv zeta in H. inv_as H mk Hk. inv_as H q Hq. inv_as H t1 T1. rewrite <- HKi in T1.
    destruct (acc2_each _ _ _ _ _ _ _ T1 L1 L2) as [e E]. eauto.
  - unfold int_iv_d in H. cbv zeta in H. inv_as H t1 T1. rewrite <- HKi in T1.
    destruct (acc2_each _ _ _ _ _ _ _ T1 L1 L2) as [e E]. eauto.
  - unfold int_v_d in H. cbv zeta in H. inv_as H q Hq. inv_as H t1 T1. rewrite <- HKi in T1.
    destruct (acc2_each _ _ _ _ _ _ _ T1 L1 L2) as [e E]. eauto.
  - unfold bnn_i_d in H. inv_as H q Hq. inv_as H t1 T1.
    destruct (acc2_each _ _ _ _ _ _ _ T1 L3 L2) as [e E]. unfold dsel in E. inv_as E x Hx. eauto.
  - unfold bnn_ii_d in H. inv_as H q Hq. inv_as H t1 T1.
    destruct (acc2_each _ _ _ _ _ _ _ T1 L3 L2) as [e E]. unfold dsel in E. inv_as E x Hx. eauto.
  - unfold bnn_iii_d in H. inv_as H q Hq. destruct q as [[? ?] ?]. inv_as H t1 T1.
    destruct (forN_each _ _ _ _ _ T1 L3) as (x0 & y0 & E). inv_as E r1 R1.
    destruct (forN_each _ _ _ _ _ E L2) as (x' & y' & E'). inv_as E' d Hd. unfold dsel2 in Hd. inv_as Hd x2 Hx2. eauto.
  - unfold bnn_iv_d in H. inv_as H q Hq. destruct q as [[? ?] ?]. inv_as H t1 T1.
    destruct (forN_each _ _ _ _ _ T1 L3) as (x0 & y0 & E). inv_as E r1 R1.
    destruct (forN_each _ _ _ _ _ E L2) as (x' & y' & E'). inv_as E' d Hd. unfold dsel2 in Hd. inv_as Hd x2 Hx2. eauto.
  - unfold bnn_v_d in H. inv_as H q Hq. destruct q as [? ?]. inv_as H t1 T1.
    destruct (forN_each _ _ _ _ _ T1 L3) as (x0 & y0 & E). inv_as E r1 R1.
    destruct (forN_each _ _ _ _ _ E L2) as (x' & y' & E'). inv_as E' d Hd. eauto.
  - unfold quad_d in H. inv_as H q Hq. destruct q as [? ?]. inv_as H t1 T1.
    destruct (acc2_each _ _ _ _ _ _ _ T1 L3 L2) as [e E]. unfold dquad in E. inv_as E x Hx. eauto.
  - unfold quad_d in H. inv_as H q Hq. destruct q as [? ?]. inv_as H t1 T1.
    destruct (acc2_each _ _ _ _ _ _ _ T1 L3 L2) as [e E]. unfold dquad in E. inv_as E x Hx. eauto.
  - unfold tnn_ii_d in H. inv_as H q Hq. inv_as H t1 T1.
    destruct (acc2_each _ _ _ _ _ _ _ T1 L3 L2) as [e E]. eauto.
  - unfold tnn_iii_d in H. inv_as H q Hq. inv_as H t1 T1.
    destruct (acc2_each _ _ _ _ _ _ _ T1 L3 L2) as [e E]. eauto.
  - unfold tnn_iv_d in H. destruct (split11 _); [|discriminate]. inv_as H q Hq. destruct q. inv_as H t1 T1.
    destruct (acc2_each _ _ _ _ _ _ _ T1 L3 L2) as [e E]. unfold dtc in E.
    inv_as E x1 X1. inv_as E x2 X2. inv_as E x3 X3. inv_as E x4 X4. apply (get2_inv 0 _ _ _ _ _ _ Hp) in X4. tauto.
  - unfold tnn_v_d in H. destruct (split11 _); [|discriminate]. inv_as H q0 Hq0. inv_as H q Hq. destruct q. inv_as H t1 T1.
    destruct (forN_each _ _ _ _ _ T1 L3) as (x0 & y0 & E). inv_as E r1 R1.
    destruct (forN_each _ _ _ _ _ R1 L2) as (x' & y' & E'). inv_as E' d Hd. unfold dtc in Hd.
    inv_as Hd x1 X1. inv_as Hd x2 X2. inv_as Hd x3 X3. inv_as Hd x4 X4. apply (get2_inv 0 _ _ _ _ _ _ Hp) in X4. tauto.
Qed.

Lemma py_no_xbar : forall w res vec mat m n, wx w = None -> step w (PyMvm res vec mat m n) = UB NullDeref.
Proof. intros. cbn [step]. unfold py_mvm. now rewrite H. Qed.

Lemma py_guarded : forall w res vec mat m n, reach w -> wx w <> None -> dims_in (wcfg w) m n ->
  step w (PyMvm res vec mat m n) = step w (ExeMvm res vec mat m n "Unknown").
Proof.
  intros w res vec mat m n Hr Hx Hd. apply reach_good in Hr. destruct (guard_ok w m n Hr Hd) as (G1 & G2 & _).
  cbn [step]. unfold py_mvm, exe_mvm. destruct (wx w); [|congruence]. cbn [deref bind]. now rewrite G1.
Qed.

(** Rows of weights that the cell arrays have space for. *)
Lemma py_outside : forall w res vec mat m n,
  reach w -> wx w <> None -> digital_only (wcfg w) = true ->
  (is_int (m_mode (wcfg w)) = true -> SPLIT (wcfg w) <> []) ->
  1 <= m -> 1 <= n -> all_first (input_in (wcfg w)) vec n ->
  (N (wcfg w) < n \/ M (wcfg w) * Z.of_nat (len (SPLIT (wcfg w))) < m * rows_per_weight (wcfg w)) ->
  exists f, step w (PyMvm res vec mat m n) = UB f.
Proof.
  intros w res vec mat m n Hr Hx Hd Hsp Hm Hn [Hl Hv] Ho. apply reach_good in Hr.
  destruct (wx w) as [x|] eqn:Ex; [|congruence].
  pose proof (g_x _ Hr x Ex) as Hxo. pose proof (good_wf w Hr) as Hwf.
  cbn [step]. unfold py_mvm. rewrite Ex. cbn [deref bind]. unfold dims.
  destruct ((m <? 0) || (n <? 0)) eqn:Eneg; [lia|]. cbn [bind].
  assert (ND : nd (d_mvm (wcfg w) (xm x) res vec mat (Z.to_nat m) (Z.to_nat n))).
  { apply nd_d_mvm; auto; [apply Hxo|]. intros Hi j Hj. now apply input_rail, Hv. }
  unfold xmvm. cbv zeta. rewrite Hd.
  change (xm (x <|n_mvm := n_mvm x + 1|> <|n_read := n_read x + 1|>)) with (xm x).
  destruct (nd_cases _ ND) as [[y E]|[f E]]; [|rewrite E; cbn; eauto]. exfalso.
  apply d_mvm_fits in E; auto; try lia; [|apply Hxo]. destruct E as [E1 E2]. unfold rowsN, colsN, nsplit in *.
  assert (0 <= rows_per_weight (wcfg w)) by (unfold rows_per_weight; destruct (is_int _); lia).
  destruct Ho as [Ho|Ho]; [lia|].
  assert (m * rows_per_weight (wcfg w) <= Z.of_nat (Z.to_nat (M (wcfg w)) * len (SPLIT (wcfg w)))).
  { etransitivity; [|apply inj_le; exact E1]. rewrite Nat2Z.inj_mul, !Z2Nat.id by lia. lia. }
  assert (HR : 1 <= rows_per_weight (wcfg w)).
  { unfold rows_per_weight. destruct (is_int _); [|lia]. specialize (Hsp eq_refl). destruct (SPLIT _); [congruence|].
    cbn [List.length]. lia. }
  destruct (Z_le_gt_dec 0 (M (wcfg w))) as [HM|HM].
  - rewrite Nat2Z.inj_mul, Z2Nat.id in H0 by lia. lia.
  - replace (Z.to_nat (M (wcfg w))) with 0%nat in H0 by lia. cbn in H0. nia.
Qed.

(** C53, modes that never shift a negative number. *)
Lemma strict_exact : forall w x mat vec res mat' m n l,
  no_neg_shift (m_mode (wcfg w)) = true ->
  reach w -> wx w = Some x -> digital_only (wcfg w) = true ->
  split_covers (wcfg w) -> widths_fit (wcfg w) -> dims_in (wcfg w) m n ->
  all_entries (weight_in (wcfg w)) mat m n -> all_first (input_in (wcfg w)) vec n ->
  room (wcfg w) res m n ->
  exists w1 w2,
    step w (CpyMtrx mat m n) = Ok (w1, RCode 0) /\
    step w1 (ExeMvm res vec mat' m n l) =
      Ok (w2, RRes 0 (plus_product res mat vec (Z.to_nat m) (Z.to_nat n))).
Proof. intros. eapply write_then_mvm_api; eauto. Qed.
End S.

(** ** Witnesses *)
Definition strict : Machine := toy_with true.
Definition is_bad_shift {A} (o : out A) : bool := match o with UB BadShift => true | _ => false end.
Lemma is_bad_shift_eq {A} (o : out A) : is_bad_shift o = true -> o = UB BadShift.
Proof. destruct o as [|[]| |]; cbn; congruence. Qed.

Definition ex_strict (mode : string) : @world strict :=
  after [SetConfig (Parsed (dig_doc mode 3 4 4 4 [1; 2; 1]))].
Definition ex_strict_tc (mode : string) : @world strict :=
  after [SetConfig (Parsed (dig_doc mode 3 4 2 4 [1; 1]))].
Definition shift_ub (w : @world strict) (wt v : Z) : Prop :=
  reach w /\ wx w <> None /\ digital_only (wcfg w) = true /\ split_covers (wcfg w) /\ widths_fit (wcfg w) /\
  weight_in (wcfg w) wt /\ input_in (wcfg w) v /\ dims_in (wcfg w) 1 1 /\ room (wcfg w) [0] 1 1 /\
  exists w1, step w (CpyMtrx [wt] 1 1) = Ok (w1, RCode 0) /\
    step w1 (ExeMvm [0] [v] [] 1 1 ""%string) = UB BadShift.

Definition cpy_code (w : @world strict) (wt : Z) : Z :=
  match step w (CpyMtrx [wt] 1 1) with Ok (_, RCode k) => k | _ => 99 end.
Definition mvm_bad (w : @world strict) (wt v : Z) : bool :=
  match step w (CpyMtrx [wt] 1 1) with
  | Ok (w1, RCode 0) => is_bad_shift (step w1 (ExeMvm [0] [v] [] 1 1 ""%string))
  | _ => false
  end.
Lemma mvm_bad_ex w wt v : mvm_bad w wt v = true -> exists w1, step w (CpyMtrx [wt] 1 1) = Ok (w1, RCode 0) /\
    step w1 (ExeMvm [0] [v] [] 1 1 ""%string) = UB BadShift.
Proof.
  unfold mvm_bad. destruct (step w (CpyMtrx [wt] 1 1)) as [[w1 [|k| | | | | | |]]| | |]; try discriminate.
  destruct k; try discriminate. intros H. exists w1. split; [reflexivity|]. now apply is_bad_shift_eq.
Qed.
Lemma room_small (w : @world strict) : term_bound (wcfg w) <= 1000 -> room (wcfg w) [0] 1 1.
Proof.
  intros H. unfold room, all_first, int32_max. split; [lia|]. split; [cbn; lia|].
  intros [|j] Hj; cbn [nth]; [lia|]. cbn in Hj. lia.
Qed.

Lemma shift_ub_int mode wt v : runs_settled [SetConfig (Parsed (@dig_doc strict mode 3 4 4 4 [1; 2; 1]))] = true ->
  let w := ex_strict mode in
  has_xbar w = true -> digital_only (wcfg w) = true -> total (SPLIT (wcfg w)) = 4 -> W_BIT (wcfg w) = 4 ->
  I_BIT (wcfg w) = 4 -> M (wcfg w) = 3 -> N (wcfg w) = 4 -> term_bound (wcfg w) <= 1000 ->
  weight_in (wcfg w) wt -> input_in (wcfg w) v -> mvm_bad w wt v = true -> shift_ub w wt v.
Proof.
  intros Hs w Hx Hd E1 E2 E3 E4 E5 Ht Hw Hi Hb. unfold shift_ub.
  split; [now apply after_reach_b|]. split; [now apply has_xbar_some|]. split; [exact Hd|].
  split; [intros _; lia|]. split; [intros _; lia|]. split; [exact Hw|]. split; [exact Hi|].
  split; [unfold dims_in; lia|]. split; [now apply room_small|]. now apply mvm_bad_ex.
Qed.
Lemma shift_ub_tc mode wt v : runs_settled [SetConfig (Parsed (@dig_doc strict mode 3 4 2 4 [1; 1]))] = true ->
  let w := ex_strict_tc mode in
  has_xbar w = true -> digital_only (wcfg w) = true -> is_int (m_mode (wcfg w)) = false ->
  M (wcfg w) = 3 -> N (wcfg w) = 4 -> term_bound (wcfg w) <= 1000 ->
  weight_in (wcfg w) wt -> input_in (wcfg w) v -> mvm_bad w wt v = true -> shift_ub w wt v.
Proof.
  intros Hs w Hx Hd E1 E4 E5 Ht Hw Hi Hb. unfold shift_ub.
  split; [now apply after_reach_b|]. split; [now apply has_xbar_some|]. split; [exact Hd|].
  split; [intros H; congruence|]. split; [intros H; congruence|]. split; [exact Hw|]. split; [exact Hi|].
  split; [unfold dims_in; lia|]. split; [now apply room_small|]. now apply mvm_bad_ex.
Qed.
Lemma shift_ub_all :
  shift_ub (ex_strict "I_DIFF_W_DIFF_1XB") (-1) 1 /\ shift_ub (ex_strict "I_DIFF_W_DIFF_2XB") (-1) 1 /\
  shift_ub (ex_strict "I_OFFS_W_DIFF") (-1) 1 /\ shift_ub (ex_strict "I_TC_W_DIFF") (-1) 1 /\
  shift_ub (ex_strict "I_UINT_W_DIFF") (-1) 1 /\
  shift_ub (ex_strict_tc "TNN_II") (-1) (-1) /\ shift_ub (ex_strict_tc "TNN_III") (-1) 1 /\
  shift_ub (ex_strict_tc "TNN_IV") (-1) (-1) /\ shift_ub (ex_strict_tc "TNN_V") 1 (-1).
Proof.
  Ltac cmp := match goal with
    | |- _ /\ _ => split
    | |- _ = _ => vm_compute; reflexivity
    | |- term_bound _ <= _ => vm_compute; discriminate
    | |- weight_in _ _ => vm_compute; intuition (try reflexivity; try discriminate)
    | |- input_in _ _ => vm_compute; intuition (try reflexivity; try discriminate) end.
  refine (conj _ (conj _ (conj _ (conj _ (conj _ (conj _ (conj _ (conj _ _))))))));
    [apply shift_ub_int; cmp|apply shift_ub_int; cmp|apply shift_ub_int; cmp|apply shift_ub_int; cmp|apply shift_ub_int; cmp|apply shift_ub_tc; cmp|apply shift_ub_tc; cmp|apply shift_ub_tc; cmp|apply shift_ub_tc; cmp].
Qed.
