(** Which digital operations can never terminate the process or throw. *)
From Coq Require Import List ZArith Bool Arith Lia ZifyBool ZifyNat String.
From RecordUpdate Require Import RecordSet.
From Verif Require Import Base Lib Hoare Machine Json Config Histogram Adc ReadDisturb Parasitics
  Mapper IntMappers BnnMappers TnnMappers Shape DigMvm DigModes.
Import ListNotations RecordSetNotations.
Local Open Scope Z_scope.
Local Open Scope out_scope.

(** Normal return or undefined behaviour. *)
Definition nd {A} (x : out A) : Prop := x <> Died /\ x <> Threw.

Lemma nd_cases {A} (x : out A) : nd x -> (exists a, x = Ok a) \/ (exists f, x = UB f).
Proof. destruct x; intros [? ?]; eauto; congruence. Qed.
Lemma nd_Ok {A} (a : A) : nd (Ok a).
Proof. split; discriminate. Qed.
Lemma nd_UB {A} f : nd (@UB A f).
Proof. split; discriminate. Qed.
Lemma nd_bind {A B} (x : out A) (k : A -> out B) : nd x -> (forall a, x = Ok a -> nd (k a)) -> nd (bind x k).
Proof. destruct x; cbn; intros [? ?] HK; try (now split; congruence). now apply HK. Qed.
Lemma nd_forN {S} n (body : nat -> S -> out S) s : (forall k s, (k < n)%nat -> nd (body k s)) -> nd (forN n body s).
Proof. intros H. induction n; cbn; [apply nd_Ok|]. apply nd_bind; auto. Qed.
Lemma nd_chk32 x : nd (chk32 x).
Proof. unfold chk32. destruct (in32 x); split; discriminate. Qed.
Lemma nd_chk64 x : nd (chk64 x).
Proof. unfold chk64. destruct (in64 x); split; discriminate. Qed.
Lemma nd_shl32 st x s : nd (shl32 st x s).
Proof. unfold shl32. repeat match goal with |- context[if ?b then _ else _] => destruct b end; split; discriminate. Qed.
Lemma nd_shl64 st x s : nd (shl64 st x s).
Proof. unfold shl64. repeat match goal with |- context[if ?b then _ else _] => destruct b end; split; discriminate. Qed.
Lemma nd_shr32 x s : nd (shr32 x s).
Proof. unfold shr32. destruct (_ && _); split; discriminate. Qed.
Lemma nd_get {A} (l : list A) i : nd (get l i).
Proof. unfold get. destruct (nth_error l i); split; discriminate. Qed.
Lemma nd_set {A} (l : list A) i x : nd (set l i x).
Proof. unfold set. destruct (_ <? _)%nat; split; discriminate. Qed.
Lemma nd_get2 {A} (l : list (list A)) i j : nd (get2 l i j).
Proof. unfold get2. apply nd_bind; intros; apply nd_get. Qed.
Lemma nd_set2 {A} (l : list (list A)) i j x : nd (set2 l i j x).
Proof. unfold set2. apply nd_bind; [apply nd_get|intros]. apply nd_bind; intros; apply nd_set. Qed.
Lemma nd_addto l i e : nd (addto l i e).
Proof. unfold addto. apply nd_bind; [apply nd_get|intros]. apply nd_bind; [apply nd_chk32|intros; apply nd_set]. Qed.
Lemma nd_subto l i e : nd (subto l i e).
Proof. unfold subto. apply nd_bind; [apply nd_get|intros]. apply nd_bind; [apply nd_chk32|intros; apply nd_set]. Qed.
Lemma nd_subto64 l i e : nd (subto64 l i e).
Proof. unfold subto64. apply nd_bind; [apply nd_get|intros]. apply nd_bind; [apply nd_chk64|intros; apply nd_set]. Qed.
Lemma nd_acc2 r c term arr : (forall i j, (i < r)%nat -> (j < c)%nat -> nd (term i j)) -> nd (acc2 r c term arr).
Proof. intros H. unfold acc2. do 2 (apply nd_forN; intros). apply nd_bind; [auto|intros; apply nd_addto]. Qed.
Lemma nd_dec2 r c term arr : (forall i j, (i < r)%nat -> (j < c)%nat -> nd (term i j)) -> nd (dec2 r c term arr).
Proof. intros H. unfold dec2. do 2 (apply nd_forN; intros). apply nd_bind; [auto|intros; apply nd_subto]. Qed.
Lemma nd_mapM {A B} (f : A -> out B) l : (forall x, nd (f x)) -> nd (mapM f l).
Proof. intros H. induction l; cbn; [apply nd_Ok|]. apply nd_bind; auto. intros. apply nd_bind; auto. intros. apply nd_Ok. Qed.
Lemma nd_ones {MC : Machine} k : nd (ones k).
Proof. unfold ones. apply nd_bind; [apply nd_shl32|intros; apply nd_chk32]. Qed.

Create HintDb nd.
#[export] Hint Resolve nd_Ok nd_UB nd_chk32 nd_chk64 nd_shl32 nd_shl64 nd_shr32 nd_get nd_set nd_get2 nd_set2 nd_addto nd_subto
  nd_subto64 nd_ones : nd.

Ltac nd1 :=
  match goal with
  | |- nd (bind _ _) => apply nd_bind; [|intros ? ?]
  | |- nd (forN _ _ _) => apply nd_forN; intros ? ? ?
  | |- nd (acc2 _ _ _ _) => apply nd_acc2; intros ? ? ? ?
  | |- nd (dec2 _ _ _ _) => apply nd_dec2; intros ? ? ? ?
  | |- nd (mapM _ _) => apply nd_mapM; intros ?
  | |- nd (add32 _ _) => apply nd_chk32
  | |- nd (sub32 _ _) => apply nd_chk32
  | |- nd (mul32 _ _) => apply nd_chk32
  | |- nd (neg32 _) => apply nd_chk32
  | |- nd (let '(_, _) := ?x in _) => destruct x
  | |- nd (if ?b then _ else _) => destruct b eqn:?
  | |- nd _ => solve [eauto with nd]
  end.
Ltac nd_auto := repeat nd1.

Section ND.
Context {MC : Machine}.
Notation len := List.length.

Lemma nd_write_sum put mat m n st : (forall i j g, (i < m)%nat -> (j < n)%nat -> forall v, get mat (n * i + j) = Ok v -> nd (put i j v g)) ->
  nd (write_sum put mat m n st).
Proof.
  intros H. unfold write_sum. apply nd_forN. intros i [[a b] s] Hi. apply nd_bind.
  - apply nd_forN. intros j [[a' b'] s'] Hj. apply nd_bind; [apply nd_get|intros v Hv].
    apply nd_bind; [apply nd_chk32|intros ? _]. apply nd_bind; [now apply H|intros [? ?] _; apply nd_Ok].
  - intros [[? ?] ?] _. nd_auto.
Qed.
Lemma nd_write_plain put mat m n st : (forall i j g, (i < m)%nat -> (j < n)%nat -> forall v, get mat (n * i + j) = Ok v -> nd (put i j v g)) ->
  nd (write_plain put mat m n st).
Proof.
  intros H. unfold write_plain. apply nd_forN. intros i st' Hi. apply nd_forN. intros j [[a b] s] Hj.
  apply nd_bind; [apply nd_get|intros v Hv]. apply nd_bind; [now apply H|intros [? ?] _; apply nd_Ok].
Qed.
Lemma nd_put_diff split shs i j v g : nd (put_diff split shs i j v g).
Proof. unfold put_diff. apply nd_forN. intros s [a b] _. cbv zeta. nd_auto. Qed.
Lemma nd_put_offs split shs wb i j v g : nd (put_offs split shs wb i j v g).
Proof. unfold put_offs. destruct g. nd_auto. Qed.
Lemma nd_put_tc o i j v g : nd (put_tc o i j v g).
Proof. unfold put_tc. destruct g, o; nd_auto. Qed.
Lemma nd_put_single o i j v g : nd (put_single o i j v g).
Proof. unfold put_single. destruct g, o; nd_auto. Qed.
Lemma nd_put_xnn tern i j v g : v = 1 \/ v = -1 \/ (tern = true /\ v = 0) -> nd (put_xnn tern i j v g).
Proof.
  intros H. unfold put_xnn. destruct g. destruct (v =? 1) eqn:E1; [nd_auto|]. destruct (v =? -1) eqn:E2; [nd_auto|].
  destruct H as [|[|[-> ->]]]; [lia|lia|]. cbn. nd_auto.
Qed.
Lemma nd_load vec n f vd : (forall v, nd (f v)) -> nd (load vec n f vd).
Proof. intros H. unfold load. nd_auto. Qed.
Lemma nd_split_pm vec n vp vm : nd (split_pm vec n vp vm).
Proof. unfold split_pm. apply nd_forN. intros j [a b] _. nd_auto. Qed.
Lemma nd_sum64 vec n : nd (sum64 vec n).
Proof. unfold sum64. nd_auto. Qed.
Lemma nd_dterm a b v t n : nd (dterm a b v t n).
Proof. unfold dterm. nd_auto. Qed.
Lemma nd_dterm1 a v t n : nd (dterm1 a v t n).
Proof. unfold dterm1. nd_auto. Qed.
Lemma nd_shift_add ns m shs t res : nd (shift_add ns m shs t res).
Proof. unfold shift_add. nd_auto. Qed.
#[local] Hint Resolve nd_split_pm nd_sum64 nd_dterm nd_dterm1 nd_shift_add : nd.

Definition railok (tern : bool) (v : Z) : Prop := v = 1 \/ v = -1 \/ (tern = true /\ v = 0).
Lemma nd_two_rail tern vec n vp vm : (forall j, (j < n)%nat -> railok tern (nth j vec 0)) -> nd (two_rail tern vec n vp vm).
Proof.
  intros H. unfold two_rail. apply nd_forN. intros j [a b] Hj. apply nd_bind; [apply nd_get|intros v Hv].
  apply (get_inv _ _ _ 0) in Hv. destruct Hv as [_ ->]. specialize (H j Hj). set (v := nth j vec 0) in *.
  destruct (v =? 1) eqn:E1; [nd_auto|]. destruct (v =? -1) eqn:E2; [nd_auto|].
  destruct H as [?|[?|[-> ->]]]; [lia|lia|]. cbn. nd_auto.
Qed.
Lemma nd_two_rail_sum vec n vp vm : (forall j, (j < n)%nat -> railok false (nth j vec 0)) -> nd (two_rail_sum vec n vp vm).
Proof.
  intros H. unfold two_rail_sum. apply nd_forN. intros j [[a b] s] Hj. apply nd_bind; [apply nd_get|intros v Hv].
  apply (get_inv _ _ _ 0) in Hv. destruct Hv as [_ ->]. specialize (H j Hj). set (v := nth j vec 0) in *.
  apply nd_bind; [apply nd_chk32|intros ? _].
  destruct (v =? 1) eqn:E1; [nd_auto|]. destruct (v =? -1) eqn:E2; [nd_auto|].
  destruct H as [?|[?|[? ?]]]; [lia|lia|discriminate].
Qed.

Lemma nd_d_write c mp mat m n : shape c mp -> cfg_wf c ->
  (is_int (m_mode c) = false -> forall i j, (i < m)%nat -> (j < n)%nat ->
     railok (is_tnn (m_mode c)) (nth (n * i + j) mat 0)) ->
  nd (d_write c mp mat m n).
Proof.
  intros Hs Hw Hd. unfold d_write. rewrite (sh_mode _ _ Hs). apply nd_bind; [|intros [[? ?] ?] _; apply nd_Ok].
  assert (HX : forall tern st, (forall i j, (i < m)%nat -> (j < n)%nat -> railok tern (nth (n * i + j) mat 0)) ->
    nd (d_write_diff_xnn tern mat m n st)).
  { intros tern st H. apply nd_write_sum. intros i j g Hi Hj v Hv. apply nd_put_xnn.
    apply (get_inv _ _ _ 0) in Hv. destruct Hv as [_ ->]. now apply H. }
  unfold cfg_wf in Hw. destruct (m_mode c) eqn:Em; cbn [is_int is_tnn] in Hd.
  1-5: apply nd_write_sum; intros; apply nd_put_diff.
  1: apply nd_write_plain; intros; apply nd_put_offs.
  all: try (apply HX; now apply Hd).
  all: try (apply nd_write_plain; intros; apply nd_put_single).
  all: unfold d_write_tc; rewrite Hw; change (split11 [1; 1]) with true; cbn iota;
    apply nd_write_plain; intros; apply nd_put_tc.
Qed.

Lemma nd_d_mvm c mp res vec mat m n : shape c mp -> cfg_wf c ->
  (is_int (m_mode c) = false -> forall j, (j < n)%nat -> railok (is_tnn (m_mode c)) (nth j vec 0)) ->
  nd (d_mvm c mp res vec mat m n).
Proof.
  intros Hs Hw Hd. unfold d_mvm. rewrite (sh_mode _ _ Hs). unfold cfg_wf in Hw.
  assert (HL : forall f vd, (forall v, nd (f v)) -> nd (load vec n f vd)) by (intros; now apply nd_load).
  destruct (m_mode c) eqn:Em; cbn [is_int is_tnn] in Hd; try (specialize (Hd eq_refl)).
  - unfold int_i_d. cbv zeta. apply nd_bind; [nd_auto|]. intros [vp vm] _. nd_auto.
  - unfold int_i_d. cbv zeta. apply nd_bind; [nd_auto|]. intros [vp vm] _. nd_auto.
  - unfold int_ii_d. cbv zeta. apply nd_bind; [apply HL; intros; nd_auto|]. intros vp _. nd_auto.
  - unfold int_iii_d. cbv zeta. apply nd_bind; [nd_auto|]. intros mk _. apply nd_bind; [apply HL; intros; nd_auto|]. intros v1 _.
    do 2 (apply nd_bind; [nd_auto|intros ? _]). apply nd_bind; [apply HL; intros; nd_auto|]. intros v2 _. nd_auto.
  - unfold int_iv_d. cbv zeta. nd_auto.
  - unfold int_v_d. cbv zeta. nd_auto.
  - unfold bnn_i_d, dsel, enc_i. apply nd_bind; [apply HL; intros; nd_auto|]. intros vp _. nd_auto.
  - unfold bnn_ii_d, dsel, enc_ii. apply nd_bind; [apply HL; intros; nd_auto|]. intros vp _. nd_auto.
  - unfold bnn_iii_d, dsel2. apply nd_bind; [now apply nd_two_rail_sum|]. intros [[a b] s] _. nd_auto.
  - unfold bnn_iv_d, dsel2. apply nd_bind; [now apply nd_two_rail_sum|]. intros [[a b] s] _. nd_auto.
  - unfold bnn_v_d. apply nd_bind; [now apply nd_two_rail|]. intros [a b] _. nd_auto.
  - unfold quad_d, dquad. apply nd_bind; [now apply nd_two_rail|]. intros [a b] _. nd_auto.
  - unfold quad_d, dquad. apply nd_bind; [now apply nd_two_rail|]. intros [a b] _. nd_auto.
  - unfold tnn_ii_d, dshl1, bit0_ii, bit1_ii. apply nd_bind; [apply HL; intros; nd_auto|]. intros v0 _.
    apply nd_bind; [nd_auto|intros ? _]. apply nd_bind; [apply HL; intros; nd_auto|]. intros v1 _. nd_auto.
  - unfold tnn_iii_d, dshl1, bit0_iii, bit1_iii. apply nd_bind; [apply HL; intros; nd_auto|]. intros v0 _.
    apply nd_bind; [nd_auto|intros ? _]. apply nd_bind; [apply HL; intros; nd_auto|]. intros v1 _. nd_auto.
  - unfold tnn_iv_d, dtc. rewrite Hw. change (split11 [1; 1]) with true. cbn iota.
    apply nd_bind; [now apply nd_two_rail|]. intros [a b] _. nd_auto.
  - unfold tnn_v_d, dtc. rewrite Hw. change (split11 [1; 1]) with true. cbn iota. apply nd_bind; [nd_auto|intros isum _].
    apply nd_bind; [now apply nd_two_rail|]. intros [a b] _. nd_auto.
Qed.
End ND.
