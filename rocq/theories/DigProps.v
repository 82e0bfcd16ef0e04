(** Proofs of the property theorems of P_Digital.v. *)
From Coq Require Import List ZArith Bool String Lia.
From Coq Require Import ZifyBool ZifyNat ZifyN.
From Verif Require Import Base Machine Json Config Crossbar Api Lib Reach Spec DigApi Demo.
Import ListNotations.
Local Open Scope Z_scope.

Section P.
Context {MC : Machine}.

Lemma cpy_core w mat m n w1 r : step w (CpyMtrx mat m n) = Ok (w1, r) -> wcfg w1 = wcfg w.
Proof.
  cbn [step]. unfold cpy_mtrx. intros H.
  destruct (wx w); [|inversion H; subst; reflexivity].
  destruct (too_big _ _ _); [inversion H; subst; reflexivity|].
  destruct (dims m n) as [[a b]| | |]; try discriminate. cbn [bind] in H.
  destruct (xwrite _ _ _ _ _ _) as [[x' e']| | |]; try discriminate. now inversion H.
Qed.

Lemma write_then_mvm_api w x mat vec res mat' m n l :
  (strict_shl = true -> DigModes.no_neg_shift (m_mode (wcfg w)) = true) ->
  reach w -> wx w = Some x -> digital_only (wcfg w) = true ->
  split_covers (wcfg w) -> widths_fit (wcfg w) -> dims_in (wcfg w) m n ->
  all_entries (weight_in (wcfg w)) mat m n -> all_first (input_in (wcfg w)) vec n ->
  room (wcfg w) res m n ->
  exists w1 w2,
    step w (CpyMtrx mat m n) = Ok (w1, RCode 0) /\
    step w1 (ExeMvm res vec mat' m n l) =
      Ok (w2, RRes 0 (plus_product res mat vec (Z.to_nat m) (Z.to_nat n))).
Proof.
  intros Hs Hr Hx Hd Hsp Hw Hdim Hm Hv Hrm. pose proof (reach_good _ Hr) as Hg.
  assert (Hb : n * row_bound (wcfg w) <= int32_max).
  { destruct Hrm as [Hrm _]. pose proof (row_term _ Hw Hsp). destruct Hdim as [_ [? _]].
    eapply Z.le_trans; [|exact Hrm]. now apply Z.mul_le_mono_nonneg_l. }
  destruct (write_quiet_mvm w x mat m n [] res vec mat' l Hg Hx Hd Hs Hsp Hdim Hm Hb (Forall_nil _)) as (w1 & E1 & HQ).
  pose proof (cpy_core w mat m n w1 _ E1) as C1.
  destruct (HQ w1 [] eq_refl) as (w2 & E2); try rewrite C1; auto.
  exists w1, w2. auto.
Qed.

Lemma digital_int_exact : strict_shl = false ->
  forall w x mat vec res mat' m n l,
  reach w -> wx w = Some x ->
  digital_only (wcfg w) = true -> is_int (m_mode (wcfg w)) = true ->
  split_covers (wcfg w) -> widths_fit (wcfg w) -> dims_in (wcfg w) m n ->
  all_entries (weight_in (wcfg w)) mat m n -> all_first (input_in (wcfg w)) vec n ->
  room (wcfg w) res m n ->
  exists w1 w2,
    step w (CpyMtrx mat m n) = Ok (w1, RCode 0) /\
    step w1 (ExeMvm res vec mat' m n l) =
      Ok (w2, RRes 0 (plus_product res mat vec (Z.to_nat m) (Z.to_nat n))).
Proof. intros Hs w x; intros. eapply write_then_mvm_api; eauto. congruence. Qed.

Lemma all_first_mono (P Q : Z -> Prop) l n : (forall v, P v -> Q v) -> all_first P l n -> all_first Q l n.
Proof. intros H [H1 H2]. split; auto. Qed.
Lemma all_entries_mono (P Q : Z -> Prop) l m n : (forall v, P v -> Q v) -> all_entries P l m n -> all_entries Q l m n.
Proof. intros H [H1 H2]. split; auto. Qed.

Lemma bnn_not_int md : is_bnn md = true -> is_int md = false.
Proof. now destruct md. Qed.
Lemma tnn_not_int md : is_tnn md = true -> is_int md = false.
Proof. now destruct md. Qed.

Lemma digital_bnn_exact : forall w x mat vec res mat' m n l,
  reach w -> wx w = Some x -> digital_only (wcfg w) = true -> is_bnn (m_mode (wcfg w)) = true ->
  dims_in (wcfg w) m n ->
  all_entries (fun v => v = 1 \/ v = -1) mat m n -> all_first (fun v => v = 1 \/ v = -1) vec n ->
  n * 3 <= int32_max -> all_first (fun r => Z.abs r + n * 3 <= int32_max) res m ->
  exists w1 w2,
    step w (CpyMtrx mat m n) = Ok (w1, RCode 0) /\
    step w1 (ExeMvm res vec mat' m n l) =
      Ok (w2, RRes 0 (plus_product res mat vec (Z.to_nat m) (Z.to_nat n))).
Proof.
  intros w x mat vec res mat' m n l Hr Hx Hd Hb Hdim Hm Hv Hn1 Hn2. pose proof (bnn_not_int _ Hb) as Hi.
  refine (write_then_mvm_api w x mat vec res mat' m n l _ Hr Hx Hd _ _ Hdim _ _ _).
  - intros _. now destruct (m_mode (wcfg w)).
  - intros H; congruence.
  - intros H; congruence.
  - revert Hm. apply all_entries_mono. intros v. unfold weight_in. now destruct (m_mode (wcfg w)).
  - revert Hv. apply all_first_mono. intros v. unfold input_in. now destruct (m_mode (wcfg w)).
  - unfold room, term_bound. rewrite Hi. split; [exact Hn1|exact Hn2].
Qed.

Lemma digital_tnn_exact : strict_shl = false -> forall w x mat vec res mat' m n l,
  reach w -> wx w = Some x -> digital_only (wcfg w) = true -> is_tnn (m_mode (wcfg w)) = true ->
  dims_in (wcfg w) m n ->
  all_entries (fun v => v = 1 \/ v = -1 \/ v = 0) mat m n ->
  all_first (fun v => v = 1 \/ v = -1 \/ v = 0) vec n ->
  n * 3 <= int32_max -> all_first (fun r => Z.abs r + n * 3 <= int32_max) res m ->
  exists w1 w2,
    step w (CpyMtrx mat m n) = Ok (w1, RCode 0) /\
    step w1 (ExeMvm res vec mat' m n l) =
      Ok (w2, RRes 0 (plus_product res mat vec (Z.to_nat m) (Z.to_nat n))).
Proof.
  intros Hs w x mat vec res mat' m n l Hr Hx Hd Hb Hdim Hm Hv Hn1 Hn2. pose proof (tnn_not_int _ Hb) as Hi.
  refine (write_then_mvm_api w x mat vec res mat' m n l _ Hr Hx Hd _ _ Hdim _ _ _).
  - congruence.
  - intros H; congruence.
  - intros H; congruence.
  - revert Hm. apply all_entries_mono. intros v. unfold weight_in. now destruct (m_mode (wcfg w)).
  - revert Hv. apply all_first_mono. intros v. unfold input_in. now destruct (m_mode (wcfg w)).
  - unfold room, term_bound. rewrite Hi. split; [exact Hn1|exact Hn2].
Qed.

Lemma mode_invisible : strict_shl = false ->
  forall wa wb xa xb mat vec res mata matb m n la lb,
  reach wa -> reach wb -> wx wa = Some xa -> wx wb = Some xb ->
  digital_only (wcfg wa) = true -> digital_only (wcfg wb) = true ->
  split_covers (wcfg wa) -> widths_fit (wcfg wa) -> split_covers (wcfg wb) -> widths_fit (wcfg wb) ->
  dims_in (wcfg wa) m n -> dims_in (wcfg wb) m n ->
  all_entries (fun v => weight_in (wcfg wa) v /\ weight_in (wcfg wb) v) mat m n ->
  all_first (fun v => input_in (wcfg wa) v /\ input_in (wcfg wb) v) vec n ->
  room (wcfg wa) res m n -> room (wcfg wb) res m n ->
  exists wa1 wa2 wb1 wb2 r,
    step wa (CpyMtrx mat m n) = Ok (wa1, RCode 0) /\ step wa1 (ExeMvm res vec mata m n la) = Ok (wa2, RRes 0 r) /\
    step wb (CpyMtrx mat m n) = Ok (wb1, RCode 0) /\ step wb1 (ExeMvm res vec matb m n lb) = Ok (wb2, RRes 0 r).
Proof.
  intros Hs wa wb xa xb mat vec res mata matb m n la lb Ra Rb Xa Xb Da Db Sa Wa Sb Wb Ma Mb He Hv Oa Ob.
  destruct (write_then_mvm_api wa xa mat vec res mata m n la) as (wa1 & wa2 & A1 & A2); auto.
  { congruence. } { revert He. apply all_entries_mono. tauto. } { revert Hv. apply all_first_mono. tauto. }
  destruct (write_then_mvm_api wb xb mat vec res matb m n lb) as (wb1 & wb2 & B1 & B2); auto.
  { congruence. } { revert He. apply all_entries_mono. tauto. } { revert Hv. apply all_first_mono. tauto. }
  do 5 eexists. eauto.
Qed.

Lemma last_write_only : strict_shl = false ->
  forall w x mat m n h,
  reach w -> wx w = Some x -> digital_only (wcfg w) = true -> split_covers (wcfg w) ->
  dims_in (wcfg w) m n -> all_entries (weight_in (wcfg w)) mat m n ->
  n * (if is_int (m_mode (wcfg w)) then 2 ^ W_BIT (wcfg w) else 1) <= int32_max ->
  Forall quiet h ->
  exists w1, step w (CpyMtrx mat m n) = Ok (w1, RCode 0) /\
    forall w2 rs res vec mat' l,
      run w1 h = Ok (w2, rs) ->
      widths_fit (wcfg w2) -> all_first (input_in (wcfg w2)) vec n -> room (wcfg w2) res m n ->
      exists w3, step w2 (ExeMvm res vec mat' m n l) =
        Ok (w3, RRes 0 (plus_product res mat vec (Z.to_nat m) (Z.to_nat n))).
Proof.
  intros Hs w x mat m n h Hr Hx Hd Hsp Hdim Hm Hb Hq. pose proof (reach_good _ Hr) as Hg.
  destruct (write_quiet_mvm w x mat m n h [] [] [] ""%string Hg Hx Hd ltac:(congruence) Hsp Hdim Hm Hb Hq) as (w1 & E1 & _).
  exists w1. split; [exact E1|]. intros w2 rs res vec mat' l Hrun Hwf Hv Hro.
  destruct (write_quiet_mvm w x mat m n h res vec mat' l Hg Hx Hd ltac:(congruence) Hsp Hdim Hm Hb Hq) as (w1' & E1' & HQ).
  rewrite E1 in E1'. inversion E1'; subst w1'. eapply HQ; eauto.
Qed.
End P.

(** The hypotheses of the property theorems can be met. *)
Ltac all_small := intros; repeat match goal with
  | H : (?i < Z.to_nat ?m)%nat |- _ =>
      let k := eval vm_compute in (Z.to_nat m) in change (Z.to_nat m) with k in H end;
  repeat match goal with
  | H : (?i < ?k)%nat |- _ => is_var i; destruct i; [clear H|apply PeanoNat.Nat.succ_lt_mono in H; try (exfalso; lia)] end.

Ltac allfst := split; [vm_compute; discriminate|]; all_small; vm_compute; intuition congruence.
Ltac facts := cbv beta zeta; repeat match goal with |- _ /\ _ => split end;
  match goal with
  | |- reach _ => apply after_reach_b; vm_compute; reflexivity
  | |- wx _ <> None => apply has_xbar_some; vm_compute; reflexivity
  | |- split_covers _ => vm_compute; intuition congruence
  | |- widths_fit _ => vm_compute; intuition congruence
  | |- dims_in _ _ _ => vm_compute; intuition congruence
  | |- all_entries _ _ _ _ => allfst
  | |- all_first _ _ _ => allfst
  | |- room _ _ _ _ => split; [vm_compute; discriminate|allfst]
  | |- _ = _ => vm_compute; reflexivity
  | |- _ <> _ => vm_compute; discriminate
  end.

Lemma C01_hyps :
  Forall (fun mode => reach (ex01 mode) /\ wx (ex01 mode) <> None /\
    digital_only (wcfg (ex01 mode)) = true /\ is_int (m_mode (wcfg (ex01 mode))) = true /\
    split_covers (wcfg (ex01 mode)) /\ widths_fit (wcfg (ex01 mode)) /\ dims_in (wcfg (ex01 mode)) 2 3 /\
    all_entries (weight_in (wcfg (ex01 mode))) [7; -8; 3; 0; -1; 5] 2 3 /\
    all_first (input_in (wcfg (ex01 mode))) [7; 0; 6] 3 /\ room (wcfg (ex01 mode)) [100; -100; 9] 2 3)
  ["I_DIFF_W_DIFF_1XB"; "I_DIFF_W_DIFF_2XB"; "I_OFFS_W_DIFF"; "I_TC_W_DIFF"; "I_UINT_W_DIFF";
   "I_UINT_W_OFFS"]%string.
Proof. repeat apply Forall_cons; try apply Forall_nil; facts. Qed.

Lemma C02_C03_hyps :
  Forall (fun mode => reach (ex_xnn mode) /\ wx (ex_xnn mode) <> None /\
    digital_only (wcfg (ex_xnn mode)) = true /\ is_bnn (m_mode (wcfg (ex_xnn mode))) = true /\
    dims_in (wcfg (ex_xnn mode)) 2 3)
  ["BNN_I"; "BNN_II"; "BNN_III"; "BNN_IV"; "BNN_V"; "BNN_VI"]%string /\
  Forall (fun mode => reach (ex_xnn mode) /\ wx (ex_xnn mode) <> None /\
    digital_only (wcfg (ex_xnn mode)) = true /\ is_tnn (m_mode (wcfg (ex_xnn mode))) = true /\
    dims_in (wcfg (ex_xnn mode)) 2 3)
  ["TNN_I"; "TNN_II"; "TNN_III"; "TNN_IV"; "TNN_V"]%string.
Proof. split; repeat apply Forall_cons; try apply Forall_nil; facts. Qed.

Lemma C04_hyps :
  let wa := ex_xnn "BNN_III" in let wb := ex01 "I_TC_W_DIFF" in
  reach wa /\ reach wb /\ m_mode (wcfg wa) <> m_mode (wcfg wb) /\
  split_covers (wcfg wa) /\ widths_fit (wcfg wa) /\ split_covers (wcfg wb) /\ widths_fit (wcfg wb) /\
  all_entries (fun v => weight_in (wcfg wa) v /\ weight_in (wcfg wb) v) [1; -1; -1; 1; 1; 1] 2 3 /\
  all_first (fun v => input_in (wcfg wa) v /\ input_in (wcfg wb) v) [1; -1; 1] 3 /\
  room (wcfg wa) [5; 6] 2 3 /\ room (wcfg wb) [5; 6] 2 3.
Proof. facts. Qed.

Lemma C07_hyps :
  Forall quiet ex07_quiet /\
  (let w1 := next (ex01 "I_OFFS_W_DIFF") [CpyMtrx [7; -8; 3; 0; -1; 5] 2 3] in
   let w2 := next w1 ex07_quiet in
   answers (ex01 "I_OFFS_W_DIFF") [CpyMtrx [7; -8; 3; 0; -1; 5] 2 3] = Some [[0]] /\
   (exists rs, run w1 ex07_quiet = Ok (w2, rs)) /\ I_BIT (wcfg w2) = 3 /\ widths_fit (wcfg w2) /\
   all_first (input_in (wcfg w2)) [3; -4; 1] 3 /\ room (wcfg w2) [1; 2] 2 3).
Proof.
  split.
  - repeat apply Forall_cons; try apply Forall_nil; try exact I.
    intros k H. cbn in *. intuition (subst; discriminate).
  - cbv zeta. split; [vm_compute; reflexivity|]. split; [|facts].
    edestruct @answers_run as (rs & E & _); [|exists rs; exact E]. vm_compute. reflexivity.
Qed.
