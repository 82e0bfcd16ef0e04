(** Currents of the solver against the sums of the cell currents, in exact arithmetic. *)
From Coq Require Import String List ZArith Reals Bool Arith Lia Lra ZifyBool ZifyNat.
From RecordUpdate Require Import RecordSet.
From Verif Require Import Base Lib Hoare Machine Json Config Histogram Adc ReadDisturb Parasitics
  Mapper IntMappers BnnMappers TnnMappers Crossbar Api RMachine ParSpec ParCode Shape MvmShape AnaShape ConfigProofs
  Reach Spec DigMvm DigApi StepFacts NoDie ValidProps CfgProps NoiseReal AnaReal Ladder AnaWrite ParProps ParReal AnaSpec WireSpec.
Import ListNotations RecordSetNotations.
Local Open Scope R_scope.
Ltac Zify.zify_post_hook ::= idtac.

(** ** Sums over the physical rows *)
Lemma sumR_cut n N (f : nat -> R) : (n <= N)%nat -> (forall r, (n <= r < N)%nat -> f r = 0) -> sumR N f = sumR n f.
Proof.
  intros H. induction N; intros Hf.
  - now replace n with 0%nat by lia.
  - destruct (Nat.eq_dec n (S N)) as [->|E]; [reflexivity|]. cbn [sumR]. rewrite IHN, Hf by (try lia; intros; apply Hf; lia). lra.
Qed.
Lemma sumR_pairs n (f : nat -> R) : sumR (2 * n) f = sumR n (fun j => f (2 * j)%nat + f (2 * j + 1)%nat).
Proof.
  induction n; [reflexivity|]. replace (2 * S n)%nat with (S (S (2 * n))) by lia. cbn [sumR]. rewrite IHn.
  replace (S (2 * n)) with (2 * n + 1)%nat by lia. lra.
Qed.

Definition bits01 (v : list Z) (n : nat) : Prop := forall j, (j < n)%nat -> (nth j v 0 = 0 \/ nth j v 0 = 1)%Z.

(** The current that reaches output i without wire resistance, cell by cell. *)
Definition tval (md : mode) (ip im : nat -> nat -> R) (vp vm : list Z) (minus : bool) (i j : nat) : R :=
  let a := IZR (nth j vp 0%Z) in let b := IZR (nth j vm 0%Z) in
  match md with
  | BNN_V => ip i j * a + im i j * b
  | BNN_VI | TNN_I => if minus then im i j * a + ip i j * b else ip i j * a + im i j * b
  | TNN_IV | TNN_V => (if Nat.even i then ip else im) (i / 2)%nat j * a
  | BNN_II => (if minus then ip else im) i j * a
  | _ => (if minus then im else ip) i j * a
  end.
Definition ideal_out (md : mode) (ip im : nat -> nat -> R) (vp vm : list Z) (n i : nat) : R :=
  sumR n (tval md ip im vp vm false i) - (if one_column md then 0 else sumR n (tval md ip im vp vm true i)).

Lemma col_sum md ip im vp vm n N minus i : (n <= N)%nat -> (two_rows md = true -> 2 * n <= N)%nat ->
  bits01 vp n -> (two_rows md = true -> bits01 vm n) ->
  sumR N (fun r => if driven md vp vm n r then cell_at md ip im n minus i r else 0) = sumR n (tval md ip im vp vm minus i).
Proof.
  intros Hn H2 Hp Hm.
  assert (Hb : forall v j, (j < n)%nat -> bits01 v n -> forall y, (if negb (nth j v 0 =? 0)%Z then y else 0) = y * IZR (nth j v 0%Z)).
  { intros v j Hj Hv y. destruct (Hv j Hj) as [-> | ->]; cbn; lra. }
  destruct (two_rows md) eqn:E2.
  - specialize (H2 eq_refl). specialize (Hm eq_refl). rewrite (sumR_cut (2 * n) N); [|exact H2|].
    2: { intros r Hr. unfold driven, input_of. rewrite E2. replace (r / 2 <? n)%nat with false; [reflexivity|].
         symmetry. apply Nat.ltb_ge. apply Nat.div_le_lower_bound; lia. }
    rewrite sumR_pairs. apply sumR_ext. intros j Hj.
    assert (A1 : (2 * j / 2 = j)%nat) by (rewrite Nat.mul_comm; now apply Nat.div_mul).
    assert (A2 : ((2 * j + 1) / 2 = j)%nat) by (rewrite Nat.mul_comm, Nat.div_add_l by lia; change (1 / 2)%nat with 0%nat; lia).
    unfold driven, cell_at, input_of. rewrite E2, A1, A2. replace (j <? n)%nat with true by lia. cbn [andb].
    unfold Nat.odd. rewrite even2, even21. cbn [negb]. rewrite !Hb by auto.
    unfold tval. destruct md; try discriminate E2; destruct minus; cbn [Bool.eqb]; lra.
  - rewrite (sumR_cut n N); [|exact Hn|].
    2: { intros r Hr. unfold driven, input_of. rewrite E2. now replace (r <? n)%nat with false by lia. }
    apply sumR_ext. intros j Hj. unfold driven, cell_at, input_of. rewrite E2. cbn [andb]. replace (j <? n)%nat with true by lia. cbn [andb].
    rewrite Hb by auto. unfold tval. destruct md; try discriminate E2; reflexivity.
Qed.

(** ** One column *)
Lemma column_loss V W N g I S C : 0 < V -> 0 < W -> (forall k, (k < N)%nat -> 0 <= g k) -> column_current V W g N I ->
  S = sumR N g * V -> S <= C -> 0 <= I <= S /\ S - I <= INR N * (C * C) / (V * W).
Proof.
  intros HV HW Hg H ES HC. pose proof (current_range V W N g I ltac:(lra) HW Hg H) as R. pose proof (current_close V W g N I ltac:(lra) HW Hg H) as K.
  rewrite !ideal_eq in *. rewrite <- ES in *. split; [exact R|].
  apply (Rmult_le_reg_r W); [exact HW|]. eapply Rle_trans; [exact K|].
  assert (E : sumR N g * 1 = S / V) by (rewrite ES; field; lra). rewrite E.
  replace (INR N * (C * C) / (V * W) * W) with (INR N * (C * C / V)) by (field; lra).
  apply Rmult_le_compat_l; [apply pos_INR|]. unfold Rdiv. rewrite <- Rmult_assoc. apply Rmult_le_compat_r; [left; now apply Rinv_0_lt_compat|].
  apply Rmult_le_compat; lra.
Qed.

Section RR.
Context (nz : bool -> nat -> R) (s : bool).
#[local] Hint Extern 0 Machine => exact (R_machine nz s) : typeclass_instances.
Notation RM := (R_machine nz s).
Notation len := List.length.

(** What an MVM gets from the solver. *)
Definition near_solver (c : @config RM) (mp : @mapper RM) (m n : nat) (D C : R) : Prop :=
  forall vp vm, len vp = colsN c -> (two_rows (m_mode c) = true -> len vm = colsN c) ->
  bits01 vp n -> (two_rows (m_mode c) = true -> bits01 vm n /\ forall j, (j < n)%nat -> (nth j vp 0 + nth j vm 0 <= 1)%Z) ->
  exists t : list R, @compute_currents RM (@par RM mp) vp vm (outputs c m) n = Ok t /\ (outputs c m <= len t)%nat /\
  forall i, (i < outputs c m)%nat ->
    Rabs (nth i t 0 - ideal_out (m_mode c) (current (@ia_p RM mp)) (current (@ia_m RM mp)) vp vm n i) <= D /\ Rabs (nth i t 0) <= C /\
    Rabs (ideal_out (m_mode c) (current (@ia_p RM mp)) (current (@ia_m RM mp)) vp vm n i) <= C.

Lemma solver_near (c : @config RM) (mp : @mapper RM) (p : @psolver RM) we m n :
  shape c mp -> @par RM mp = Some p -> @wenc_of (m_mode c) = Some we -> @loaded_with RM c mp p we m n -> (1 <= nsplit c)%nat ->
  (1 <= colsN c)%nat -> @ps_v RM p = V_read c -> V_read c < 0 -> 0 < @ps_w RM p -> 0 <= @LRS RM c ->
  (forall i j, (i < rows_of c m)%nat -> (j < n)%nat -> 0 <= current (@ia_p RM mp) i j <= @LRS RM c /\
     (one_array (m_mode c) = false -> 0 <= current (@ia_m RM mp) i j <= @LRS RM c)) ->
  (n <= colsN c)%nat -> (two_rows (m_mode c) = true -> 2 * n <= colsN c)%nat -> (outputs c m <= Z.to_nat (M c))%nat ->
  near_solver c mp m n (wire_loss c (@ps_w RM p) (Z.of_nat n)) (INR n * @LRS RM c).
Proof.
  intros Hs Hp Ew HL Hns HN Ev HV Hw HLRS Hc Hn H2n Hout vp vm Lp Lm Bp Bm. rewrite Hp.
  destruct (computed nz s c mp p we m n vp vm (outputs c m) n) as (t & E & Lt & Ht); auto; try lia.
  { intros i j H1 H2. destruct (Hc i j H1 H2) as [K1 K2]. split; [lra|]. intros Ho. specialize (K2 Ho). lra. }
  { intros H2. specialize (Lm H2). specialize (H2n H2). split; [intros ->; cbn in Lm; lia|]. split; [rewrite Lm; exact Hn|exact H2n]. }
  exists t. split; [exact E|]. split; [exact (eq_ind_r (fun k => outputs c m <= k)%nat Hout Lt)|]. intros i Hi. specialize (Ht i Hi). cbv zeta in Ht.
  set (V := - V_read c) in *. assert (HV' : 0 < V) by (unfold V; lra).
  set (W := 1000000 / @ps_w RM p) in *. assert (HW : 0 < W) by (unfold W; apply Rdiv_lt_0_compat; lra).
  set (ip := current (@ia_p RM mp)) in *. set (im := current (@ia_m RM mp)) in *. set (C := INR n * @LRS RM c).
  assert (EL : wire_loss c (@ps_w RM p) (Z.of_nat n) = INR (colsN c) * (C * C) / (V * W)).
  { unfold wire_loss, C, W. fold V. rewrite (INR_IZR_INZ (colsN c)), (INR_IZR_INZ n). unfold colsN. rewrite Z2Nat.id by (unfold colsN in HN; lia).
    change (@LRS (R_machine nz s) c) with (@LRS RM c). field. split; lra. }
  rewrite EL.
  assert (Hcell : forall minus j, (one_column (m_mode c) = true -> minus = false) -> (j < n)%nat ->
    0 <= tval (m_mode c) ip im vp vm minus i j <= @LRS RM c).
  { intros minus j Hone Hj. unfold outputs, rows_of in *. change (List.length (SPLIT c)) with (nsplit c) in *.
    assert (Hi2 : (i / 2 < m \/ 2 * m <= i)%nat) by (destruct (Nat.lt_ge_cases i (2 * m)); [left; apply Nat.div_lt_upper_bound; lia|right; lia]).
    assert (B : forall y v, 0 <= y <= @LRS RM c -> (v = 0 \/ v = 1)%Z -> 0 <= y * IZR v <= @LRS RM c) by (intros y v Hy [-> | ->]; lra).
    assert (B2 : forall y z v u, 0 <= y <= @LRS RM c -> 0 <= z <= @LRS RM c -> (v = 0 \/ v = 1)%Z -> (u = 0 \/ u = 1)%Z -> (v + u <= 1)%Z ->
      0 <= y * IZR v + z * IZR u <= @LRS RM c) by (intros y z v u Hy Hz [-> | ->] [-> | ->] Hvu; try lia; lra).
    specialize (Bp j Hj). unfold tval.
    assert (Bm' : two_rows (m_mode c) = true -> (nth j vm 0 = 0 \/ nth j vm 0 = 1)%Z /\ (nth j vp 0 + nth j vm 0 <= 1)%Z).
    { intros H2. destruct (Bm H2) as [K1 K2]. auto. }
    clear Hs Hp HL E Bm.
    destruct (m_mode c); cbn [is_int one_column one_array two_rows] in *;
      repeat match goal with |- context [if ?b then _ else _] => destruct b end;
      solve [apply B; auto; apply Hc; (lia || auto) | apply B2; auto; try (apply Bm'; reflexivity); apply Hc; (lia || auto) | discriminate (Hone eq_refl)]. }
  assert (Hsum : forall minus, (one_column (m_mode c) = true -> minus = false) ->
     0 <= sumR n (tval (m_mode c) ip im vp vm minus i) <= C).
  { intros minus Hone. split; [apply sumR_nonneg; intros j Hj; now apply Hcell|].
    unfold C. rewrite <- sumR_const. apply sumR_le. intros j Hj. now apply Hcell. }
  assert (Hcol : forall minus I, (one_column (m_mode c) = true -> minus = false) ->
    (forall r, 0 <= (if driven (m_mode c) vp vm n r then cell_at (m_mode c) ip im n minus i r / V else 0)) ->
    column_current V W (fun r => if driven (m_mode c) vp vm n r then cell_at (m_mode c) ip im n minus i r / V else 0) (colsN c) I ->
    0 <= I <= sumR n (tval (m_mode c) ip im vp vm minus i) /\
    sumR n (tval (m_mode c) ip im vp vm minus i) - I <= INR (colsN c) * (C * C) / (V * W)).
  { intros minus I Hone Hg HI. apply (column_loss V W (colsN c) _ I (sumR n (tval (m_mode c) ip im vp vm minus i)) C HV' HW (fun r _ => Hg r) HI); [|now apply Hsum].
    rewrite <- sumR_mul_r, <- (col_sum (m_mode c) ip im vp vm n (colsN c) minus i Hn H2n Bp (fun H2 => proj1 (Bm H2))).
    apply sumR_ext. intros r Hr. destruct (driven _ _ _ _ _); [field; lra|lra]. }
  destruct Ht as (G1 & G2 & Ip & HIp & Hres).
  destruct (Hcol false Ip ltac:(auto) G1 HIp) as (P1 & P2). pose proof (Hsum false ltac:(auto)) as P3.
  unfold ideal_out. destruct (one_column (m_mode c)) eqn:E1.
  - assert (Er : @nth R i t 0 = Ip) by exact Hres. rewrite Er. split; [|split]; apply Rabs_le; lra.
  - destruct Hres as (Im & HIm & Hres). destruct (Hcol true Im ltac:(discriminate) (G2 eq_refl) HIm) as (Q1 & Q2).
    pose proof (Hsum true ltac:(discriminate)) as Q3. assert (Er : @nth R i t 0 = Ip - Im) by exact Hres. rewrite Er. split; [|split]; apply Rabs_le; lra.
Qed.
End RR.
