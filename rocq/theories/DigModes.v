(** The digital MVM of every mode, in terms of the value of each stored cell. *)
From Coq Require Import List ZArith Bool Arith Lia ZifyBool ZifyNat String.
From RecordUpdate Require Import RecordSet.
From Verif Require Import Base Lib Hoare Machine Json Config Histogram Adc ReadDisturb Parasitics
  Mapper IntMappers BnnMappers TnnMappers WriteProofs Shape MvmShape DigMvm.
Import ListNotations RecordSetNotations.
Local Open Scope Z_scope.
Local Open Scope out_scope.

Ltac Zify.zify_post_hook ::= idtac.

Section Modes.
Context {MC : Machine}.
Notation len := List.length.
Notation MM c := (Z.to_nat (M c)).

Notation gp mp r j := (at2 0 (gd_p mp) r j).
Notation gm mp r j := (at2 0 (gd_m mp) r j).

(** Weighted sum over the segments of weight (i, j). *)
Definition segs (c : config) (f : nat -> Z) : Z :=
  sumZ (nsplit c) (fun s => f s * 2 ^ nth s (shifts c) 0).

(** Factor that a stored cell (i, j) contributes per unit of input. *)
Definition cellv (c : config) (mp : mapper) (i j : nat) : Z :=
  match m_mode c with
  | I_DIFF_W_DIFF_1XB | I_DIFF_W_DIFF_2XB | I_OFFS_W_DIFF | I_TC_W_DIFF | I_UINT_W_DIFF =>
      segs c (fun s => gp mp (i * nsplit c + s) j - gm mp (i * nsplit c + s) j)
  | I_UINT_W_OFFS => segs c (fun s => gp mp (i * nsplit c + s) j) - 2 ^ (W_BIT c - 1)
  | BNN_I | BNN_II | BNN_V | BNN_VI | TNN_I | TNN_II | TNN_III => gp mp i j - gm mp i j
  | BNN_III => 2 * gp mp i j - 1
  | BNN_IV => 1 - 2 * gp mp i j
  | TNN_IV => gp mp i j - 2 * gm mp i j
  | TNN_V => gp mp i j + 2 * gm mp i j - 1
  end.
(** Constant contribution of a cell (only BNN_V cells that hold no weight have one). *)
Definition cellb (c : config) (mp : mapper) (i j : nat) : Z :=
  match m_mode c with BNN_V => gp mp i j + gm mp i j - 1 | _ => 0 end.

(** Magnitude limits on the cells. *)
Definition cellok (c : config) (mp : mapper) (i j : nat) : Prop :=
  if is_int (m_mode c) then
    (forall s, (s < nsplit c)%nat -> 0 <= gp mp (i * nsplit c + s) j /\ 0 <= gm mp (i * nsplit c + s) j) /\
    segs c (fun s => gp mp (i * nsplit c + s) j + gm mp (i * nsplit c + s) j) <= 2 ^ W_BIT c
  else 0 <= gp mp i j <= 1 /\ 0 <= gm mp i j <= 1.

(** Input domain of a mode. *)
Definition vok (c : config) (v : Z) : Prop :=
  match m_mode c with
  | I_DIFF_W_DIFF_1XB | I_DIFF_W_DIFF_2XB | I_OFFS_W_DIFF | I_TC_W_DIFF =>
      - 2 ^ (I_BIT c - 1) <= v < 2 ^ (I_BIT c - 1)
  | I_UINT_W_DIFF | I_UINT_W_OFFS => 0 <= v < 2 ^ I_BIT c
  | BNN_I | BNN_II | BNN_III | BNN_IV | BNN_V | BNN_VI => bin v
  | _ => ter v
  end.

(** Factor of the stored row sum in the result. *)
Definition kap (c : config) : Z :=
  match m_mode c with
  | BNN_I | TNN_III => 1
  | BNN_II => -1
  | I_OFFS_W_DIFF => 2 ^ (I_BIT c - 1)
  | _ => 0
  end.

Definition span (c : config) : Z := if is_int (m_mode c) then 2 ^ W_BIT c * 2 ^ I_BIT c else 3.

Definition bits_ok (c : config) : Prop :=
  is_int (m_mode c) = true ->
  1 <= W_BIT c /\ 1 <= I_BIT c /\ W_BIT c + I_BIT c <= 30 /\
  forall s, (s < nsplit c)%nat -> 0 <= nth s (shifts c) 0 <= 31.

(** Result entry. *)
Definition dres (c : config) (mp : mapper) (vec : list Z) (n i : nat) (x : Z) : Z :=
  x + sumZ n (fun j => cellv c mp i j * nth j vec 0 + cellb c mp i j)
    - kap c * (nth i (sum_w mp) 0 - sumZ n (fun j => cellv c mp i j)).

Section S.
Context (c : config) (mp : mapper) (res vec mat : list Z) (m n : nat)
  (Hw : cfg_wf c) (Hs : shape c mp) (Hb : bits_ok c)
  (Hm : (m <= MM c)%nat) (Hn : (n <= colsN c)%nat)
  (Hres : (m <= len res)%nat) (Hvec : (n <= len vec)%nat)
  (Hc : forall i j, (i < m)%nat -> (j < n)%nat -> cellok c mp i j)
  (Hv : forall j, (j < n)%nat -> vok c (nth j vec 0))
  (HB : forall i, (i < m)%nat -> Z.abs (nth i res 0) + Z.of_nat n * span c <= int_max)
  (HN : Z.of_nat n * span c <= int_max)
  (HK : forall i, (i < m)%nat -> Z.abs (kap c * nth i (sum_w mp) 0) <= int_max)
  (HF : forall i, (i < m)%nat -> Z.abs (dres c mp vec n i (nth i res 0)) <= int_max).

Definition goal : Prop :=
  exists mp', d_mvm c mp res vec mat m n = Ok (upto m (dres c mp vec n) res, mp').

(** *** Integer modes *)
Section Int.
Context (Hi : is_int (m_mode c) = true).

Let Dd (r j : nat) : Z := gp mp r j - gm mp r j.
Let Wm := 2 ^ W_BIT c.
Let V := 2 ^ I_BIT c.

Lemma span_int : span c = Wm * V.
Proof. unfold span. now rewrite Hi. Qed.
Lemma shift_int : shift mp = shifts c.
Proof. rewrite (sh_shift _ _ Hs). unfold uses_shift. now rewrite Hi. Qed.
Lemma cell_int i j : (i < m)%nat -> (j < n)%nat ->
  (forall s, (s < nsplit c)%nat -> 0 <= gp mp (i * nsplit c + s) j /\ 0 <= gm mp (i * nsplit c + s) j) /\
  segs c (fun s => gp mp (i * nsplit c + s) j + gm mp (i * nsplit c + s) j) <= Wm.
Proof. intros H1 H2. specialize (Hc i j H1 H2). unfold cellok in Hc. now rewrite Hi in Hc. Qed.
Lemma pow_pos_int : 0 < Wm /\ 0 < V /\ 1 <= W_BIT c /\ 1 <= I_BIT c /\ W_BIT c + I_BIT c <= 30.
Proof.
  destruct (Hb Hi) as (?&?&?&?). unfold Wm, V.
  repeat split; try lia; apply Z.pow_pos_nonneg; lia.
Qed.
Lemma V_half : V = 2 * 2 ^ (I_BIT c - 1).
Proof.
  pose proof pow_pos_int. unfold V. replace (I_BIT c) with (Z.succ (I_BIT c - 1)) at 1 by lia.
  rewrite Z.pow_succ_r by lia. ring.
Qed.
Lemma W_half : Wm = 2 * 2 ^ (W_BIT c - 1).
Proof.
  pose proof pow_pos_int. unfold Wm. replace (W_BIT c) with (Z.succ (W_BIT c - 1)) at 1 by lia.
  rewrite Z.pow_succ_r by lia. ring.
Qed.
Lemma V_max : V <= 2 ^ 29 /\ Wm <= 2 ^ 29 /\ Wm * V <= 2 ^ 30.
Proof.
  pose proof pow_pos_int. unfold Wm, V. repeat split.
  - apply Z.pow_le_mono_r; lia.
  - apply Z.pow_le_mono_r; lia.
  - rewrite <- Z.pow_add_r by lia. apply Z.pow_le_mono_r; lia.
Qed.
Lemma seg_len : len (shifts c) = nsplit c.
Proof. apply shifts_length. Qed.
Lemma seg_rng s : (s < nsplit c)%nat -> 0 <= nth s (shifts c) 0 <= 31.
Proof. destruct (Hb Hi) as (?&?&?&H). apply H. Qed.
Lemma span_le : (0 < m)%nat -> Z.of_nat n * (Wm * V) <= int_max.
Proof. intros Hm0. specialize (HB O Hm0). rewrite span_int in HB. lia. Qed.

Lemma HW_diff i j : (i < m)%nat -> (j < n)%nat ->
  sumZ (nsplit c) (fun s => Z.abs (Dd (i * nsplit c + s)%nat j) * 2 ^ nth s (shifts c) 0) <= Wm.
Proof.
  intros H1 H2. destruct (cell_int i j H1 H2) as [Hp Hsum]. etransitivity; [|exact Hsum].
  unfold segs. apply sumZ_le. intros s Hsn. apply Z.mul_le_mono_nonneg_r.
  - apply Z.pow_nonneg; lia.
  - destruct (Hp s Hsn). unfold Dd. lia.
Qed.
Lemma HW_diff_opp i j : (i < m)%nat -> (j < n)%nat ->
  sumZ (nsplit c) (fun s => Z.abs (- Dd (i * nsplit c + s)%nat j) * 2 ^ nth s (shifts c) 0) <= Wm.
Proof.
  intros H1 H2. etransitivity; [|exact (HW_diff i j H1 H2)]. apply sumZ_le.
  intros s _. now rewrite Z.abs_opp.
Qed.
Lemma HW_one i j : (i < m)%nat -> (j < n)%nat ->
  sumZ (nsplit c) (fun s => Z.abs (gp mp (i * nsplit c + s)%nat j) * 2 ^ nth s (shifts c) 0) <= Wm.
Proof.
  intros H1 H2. destruct (cell_int i j H1 H2) as [Hp Hsum]. etransitivity; [|exact Hsum].
  unfold segs. apply sumZ_le. intros s Hsn. apply Z.mul_le_mono_nonneg_r.
  - apply Z.pow_nonneg; lia.
  - destruct (Hp s Hsn). lia.
Qed.

Lemma row_in r : (r < m * nsplit c)%nat -> (r < rowsN c)%nat.
Proof. unfold rowsN. nia. Qed.

(** The digital partial sums of a differential mode with input [u]. *)
Lemma partial_diff (u : list Z) : (n <= len u)%nat ->
  (forall j, (j < n)%nat -> Z.abs (nth j u 0) <= V) ->
  forall tm, len tm = rowsN c -> (0 < m)%nat ->
  exists t, acc2 (m * nsplit c) n (dterm (gd_p mp) (gd_m mp) u) (fill tm 0) = Ok t /\
    len t = rowsN c /\
    forall r, (r < m * nsplit c)%nat -> nth r t 0 = sumZ n (fun j => Dd r j * nth j u 0).
Proof.
  intros Hu HV tm Htm Hm0.
  destruct (acc_fill (m * nsplit c) n (dterm (gd_p mp) (gd_m mp) u) (fun r j => Dd r j * nth j u 0) tm)
    as (t & E & L & T).
  - rewrite Htm. unfold rowsN. nia.
  - intros r j Hr Hj.
    destruct (core_term (nsplit c) m n (shifts c) Dd (fun j => nth j u 0) Wm V seg_len seg_rng HV HW_diff r j Hr Hj) as [B1 B2].
    pose proof pow_pos_int. pose proof V_max.
    apply (dterm_ok (rowsN c) (colsN c)); try apply Hs; auto using row_in; try lia;
      unfold Dd in *; unfold int_min, int_max; lia.
  - intros r Hr. apply (core_row (nsplit c) m n (shifts c) Dd (fun j => nth j u 0) Wm V); auto using seg_len, seg_rng, HW_diff, span_le.
  - exists t. rewrite L. auto.
Qed.
Lemma partial_diff_opp (u : list Z) : (n <= len u)%nat ->
  (forall j, (j < n)%nat -> Z.abs (nth j u 0) <= V) ->
  forall tm, len tm = rowsN c -> (0 < m)%nat ->
  exists t, acc2 (m * nsplit c) n (dterm (gd_m mp) (gd_p mp) u) (fill tm 0) = Ok t /\
    len t = rowsN c /\
    forall r, (r < m * nsplit c)%nat -> nth r t 0 = sumZ n (fun j => - Dd r j * nth j u 0).
Proof.
  intros Hu HV tm Htm Hm0.
  destruct (acc_fill (m * nsplit c) n (dterm (gd_m mp) (gd_p mp) u) (fun r j => - Dd r j * nth j u 0) tm)
    as (t & E & L & T).
  - rewrite Htm. unfold rowsN. nia.
  - intros r j Hr Hj.
    destruct (core_term (nsplit c) m n (shifts c) (fun r j => - Dd r j) (fun j => nth j u 0) Wm V seg_len seg_rng HV HW_diff_opp r j Hr Hj) as [B1 B2].
    pose proof pow_pos_int. pose proof V_max.
    replace (- Dd r j) with (gm mp r j - gp mp r j) in * by (unfold Dd; ring).
    apply (dterm_ok (rowsN c) (colsN c)); try apply Hs; auto using row_in; try lia;
      unfold int_min, int_max; lia.
  - intros r Hr. apply (core_row (nsplit c) m n (shifts c) (fun r j => - Dd r j) (fun j => nth j u 0) Wm V);
      auto using seg_len, seg_rng, HW_diff_opp, span_le.
  - exists t. rewrite L. auto.
Qed.

Lemma val_diff i j : (match m_mode c with I_UINT_W_OFFS => False | _ => True end) ->
  val (nsplit c) (shifts c) Dd i j = cellv c mp i j.
Proof.
  intros H. unfold cellv, val, segs, Dd.
  destruct (m_mode c); try discriminate Hi; try reflexivity. destruct H.
Qed.
Lemma val_opp i j : val (nsplit c) (shifts c) (fun r j => - Dd r j) i j =
  - val (nsplit c) (shifts c) Dd i j.
Proof. unfold val. rewrite <- sumZ_opp. apply sumZ_ext. intros; ring. Qed.

Lemma cellb_int i j : cellb c mp i j = 0.
Proof. unfold cellb. destruct (m_mode c); auto; discriminate. Qed.
Lemma dres_int i x : kap c = 0 ->
  dres c mp vec n i x = x + sumZ n (fun j => cellv c mp i j * nth j vec 0).
Proof.
  intros E. unfold dres. rewrite E, Z.mul_0_l, Z.sub_0_r. f_equal.
  apply sumZ_ext. intros j _. rewrite cellb_int. ring.
Qed.

Lemma vec_signed j : (j < n)%nat ->
  match m_mode c with I_DIFF_W_DIFF_1XB | I_DIFF_W_DIFF_2XB | I_OFFS_W_DIFF | I_TC_W_DIFF => True | _ => False end ->
  - 2 ^ (I_BIT c - 1) <= nth j vec 0 < 2 ^ (I_BIT c - 1).
Proof. intros Hj H. specialize (Hv j Hj). unfold vok in Hv. now destruct (m_mode c). Qed.

Lemma nth_up (f : Z -> Z) (l : list Z) j : len l = colsN c -> (j < n)%nat ->
  nth j (upto n (fun j _ => f (nth j vec 0)) l) 0 = f (nth j vec 0).
Proof. intros Hl Hj. rewrite nth_upto_lt by lia. reflexivity. Qed.
End Int.

Lemma m_zero : m = O -> is_int (m_mode c) = true -> True.
Proof. auto. Qed.

(** The empty case of the loops. *)
Lemma bB i : (i < m)%nat -> is_int (m_mode c) = true ->
  Z.abs (nth i res 0) + Z.of_nat n * (2 ^ W_BIT c * 2 ^ I_BIT c) <= int_max.
Proof. intros Hi' Hi. specialize (HB i Hi'). now rewrite span_int in HB. Qed.

Lemma go_int_i : strict_shl = false -> m_mode c = I_DIFF_W_DIFF_1XB \/ m_mode c = I_DIFF_W_DIFF_2XB ->
  exists mp', int_i_d c mp res vec mat m n = Ok (upto m (dres c mp vec n) res, mp').
Proof.
  intros Hst Hmode.
  assert (Hi : is_int (m_mode c) = true) by (destruct Hmode as [E|E]; now rewrite E).
  assert (Hvm : has_vdm (m_mode c) = true) by (destruct Hmode as [E|E]; now rewrite E).
  assert (Hno : match m_mode c with I_UINT_W_OFFS => False | _ => True end)
    by (destruct Hmode as [E|E]; now rewrite E).
  assert (Hk : kap c = 0) by (unfold kap; destruct Hmode as [E|E]; now rewrite E).
  assert (Hsg : forall j, (j < n)%nat -> - 2 ^ (I_BIT c - 1) <= nth j vec 0 < 2 ^ (I_BIT c - 1)).
  { intros j Hj. apply vec_signed; auto. destruct Hmode as [E|E]; now rewrite E. }
  pose proof (pow_pos_int Hi). pose proof (V_half Hi) as HVh. pose proof (V_max Hi).
  unfold int_i_d.
  rewrite split_pm_ok; auto; [|rewrite (sh_vdp _ _ Hs); auto|rewrite (sh_vdm _ _ Hs Hvm); auto|].
  2: { intros j Hj. specialize (Hsg j Hj). unfold int_max. lia. }
  cbn [bind].
  destruct (Nat.eq_dec m 0) as [E0|E0].
  { rewrite E0. cbn [Nat.mul acc2 forN bind shift_add]. eexists. now rewrite upto_0. }
  assert (Hm0 : (0 < m)%nat) by lia.
  assert (HVp : forall j, (j < n)%nat ->
    Z.abs (nth j (upto n (fun j _ => posp (nth j vec 0)) (vd_p mp)) 0) <= 2 ^ I_BIT c).
  { intros j Hj. rewrite nth_up by (auto; apply Hs). specialize (Hsg j Hj). unfold posp. lia. }
  assert (HVm : forall j, (j < n)%nat ->
    Z.abs (nth j (upto n (fun j _ => negp (nth j vec 0)) (vd_m mp)) 0) <= 2 ^ I_BIT c).
  { intros j Hj. rewrite nth_up by (auto; now apply Hs). specialize (Hsg j Hj). unfold negp. lia. }
  destruct (partial_diff Hi (upto n (fun j _ => posp (nth j vec 0)) (vd_p mp))
    ltac:(rewrite upto_length, (sh_vdp _ _ Hs); auto) HVp (tmp_int mp) (sh_ti _ _ Hs Hi) Hm0)
    as (t1 & E1 & L1 & T1).
  rewrite E1. cbn [bind]. rewrite (shift_int Hi).
  rewrite (core_shift_add (nsplit c) m n (shifts c) (fun r j => gp mp r j - gm mp r j)
    (fun j => nth j (upto n (fun j _ => posp (nth j vec 0)) (vd_p mp)) 0) (2 ^ W_BIT c) (2 ^ I_BIT c)
    seg_len (seg_rng Hi) HVp (HW_diff Hi) (span_le Hi Hm0) t1);
    [|rewrite L1; unfold rowsN; nia|exact T1|congruence|auto|intros; now apply bB].
  cbn [bind].
  destruct (partial_diff_opp Hi (upto n (fun j _ => negp (nth j vec 0)) (vd_m mp))
    ltac:(rewrite upto_length, (sh_vdm _ _ Hs Hvm); auto) HVm t1 L1 Hm0) as (t2 & E2 & L2 & T2).
  rewrite E2. cbn [bind].
  rewrite (core_shift_add (nsplit c) m n (shifts c) (fun r j => - (gp mp r j - gm mp r j))
    (fun j => nth j (upto n (fun j _ => negp (nth j vec 0)) (vd_m mp)) 0) (2 ^ W_BIT c) (2 ^ (I_BIT c - 1))
    seg_len (seg_rng Hi)).
  - cbn [bind]. eexists. rewrite upto_upto. do 2 f_equal.
    apply (upto_ext m _ _ res 0). intros i Hi' _. rewrite (dres_int Hi) by auto.
    rewrite <- Z.add_assoc. f_equal. rewrite <- sumZ_add. apply sumZ_ext. intros j Hj.
    rewrite !nth_up by (auto; now apply Hs).
    rewrite val_opp, !(val_diff Hi _ _ Hno).
    rewrite <- (pos_neg (nth j vec 0)) at 3. ring.
  - intros j Hj. rewrite nth_up by (auto; now apply Hs). specialize (Hsg j Hj). unfold negp. lia.
  - apply (HW_diff_opp Hi).
  - pose proof (span_le Hi Hm0). nia.
  - rewrite L2. unfold rowsN; nia.
  - exact T2.
  - congruence.
  - now rewrite upto_length.
  - intros i Hi'. rewrite nth_upto_lt by (auto; lia).
    pose proof (bB i Hi' Hi) as HBi. rewrite HVh in *.
    assert (Hps : Z.abs (sumZ n (fun j => val (nsplit c) (shifts c) (fun r j0 => gp mp r j0 - gm mp r j0) i j *
       nth j (upto n (fun j0 _ => posp (nth j0 vec 0)) (vd_p mp)) 0)) <= Z.of_nat n * (2 ^ W_BIT c * 2 ^ (I_BIT c - 1))).
    { apply sumZ_bound. intros j Hj. rewrite nth_up by (auto; apply Hs). rewrite Z.abs_mul.
      apply Z.mul_le_mono_nonneg; try lia.
      - unfold val. etransitivity; [apply sumZ_abs|].
        etransitivity; [|exact (HW_diff Hi i j Hi' Hj)]. apply sumZ_le. intros s _.
        rewrite Z.abs_mul, (Z.abs_eq (2 ^ _)) by (apply Z.pow_nonneg; lia). lia.
      - specialize (Hsg j Hj). unfold posp. lia. }
    lia.
Qed.

Lemma u32_pred x : 1 <= x <= 32 -> u32 (x - 1) = x - 1.
Proof. intros H. apply u32_id. lia. Qed.

Lemma vec_half (Hi : is_int (m_mode c) = true) : 0 < 2 ^ (I_BIT c - 1) <= 2 ^ 28.
Proof.
  pose proof (pow_pos_int Hi). split; [apply Z.pow_pos_nonneg; lia|apply Z.pow_le_mono_r; lia].
Qed.

Lemma go_int_ii : strict_shl = false -> m_mode c = I_OFFS_W_DIFF ->
  exists mp', int_ii_d c mp res vec mat m n = Ok (upto m (dres c mp vec n) res, mp').
Proof.
  intros Hst Hmode.
  assert (Hi : is_int (m_mode c) = true) by now rewrite Hmode.
  assert (Hno : match m_mode c with I_UINT_W_OFFS => False | _ => True end) by now rewrite Hmode.
  assert (Hk : kap c = 2 ^ (I_BIT c - 1)) by (unfold kap; now rewrite Hmode).
  assert (Hsg : forall j, (j < n)%nat -> - 2 ^ (I_BIT c - 1) <= nth j vec 0 < 2 ^ (I_BIT c - 1)).
  { intros j Hj. apply vec_signed; auto. now rewrite Hmode. }
  pose proof (pow_pos_int Hi). pose proof (V_half Hi) as HVh. pose proof (vec_half Hi) as Hvh.
  unfold int_ii_d. rewrite u32_pred by lia.
  rewrite (load_ok vec n _ (fun v => 2 ^ (I_BIT c - 1) + v)); auto; [|rewrite (sh_vdp _ _ Hs); auto|].
  2: { intros j Hj. specialize (Hsg j Hj). rewrite shl32_ok by (unfold int_min, int_max; lia).
       cbn [bind]. rewrite Z.mul_1_l. apply add32_ok. unfold int_min, int_max; lia. }
  cbn [bind]. set (u := upto n (fun j _ => 2 ^ (I_BIT c - 1) + nth j vec 0) (vd_p mp)).
  destruct (Nat.eq_dec m 0) as [E0|E0].
  { rewrite E0. cbn [Nat.mul acc2 forN bind]. eexists. now rewrite upto_0. }
  assert (Hm0 : (0 < m)%nat) by lia.
  assert (Hu : forall j, (j < n)%nat -> nth j u 0 = 2 ^ (I_BIT c - 1) + nth j vec 0).
  { intros j Hj. unfold u. rewrite (nth_up (fun v => 2 ^ (I_BIT c - 1) + v)) by (auto; apply Hs). reflexivity. }
  assert (HVu : forall j, (j < n)%nat -> Z.abs (nth j u 0) <= 2 ^ I_BIT c).
  { intros j Hj. rewrite Hu by auto. specialize (Hsg j Hj). lia. }
  destruct (partial_diff Hi u ltac:(unfold u; rewrite upto_length, (sh_vdp _ _ Hs); auto) HVu
    (tmp_int mp) (sh_ti _ _ Hs Hi) Hm0) as (t1 & E1 & L1 & T1).
  rewrite E1. cbn [bind]. rewrite (shift_int Hi).
  assert (ED : forall i x, x + sumZ n (fun j => val (nsplit c) (shifts c) (fun r j => gp mp r j - gm mp r j) i j * nth j u 0)
     + - (nth i (sum_w mp) 0 * 2 ^ (I_BIT c - 1)) = dres c mp vec n i x).
  { intros i x. unfold dres. rewrite Hk.
    replace (sumZ n (fun j => cellv c mp i j * nth j vec 0 + cellb c mp i j))
      with (sumZ n (fun j => val (nsplit c) (shifts c) (fun r j => gp mp r j - gm mp r j) i j * nth j u 0)
            - 2 ^ (I_BIT c - 1) * sumZ n (fun j => cellv c mp i j)); [ring|].
    rewrite <- sumZ_mul_l, <- sumZ_sub. apply sumZ_ext. intros j Hj.
    rewrite (cellb_int Hi), (val_diff Hi _ _ Hno), Hu by auto. ring. }
  rewrite (core_shift_corr (nsplit c) m n (shifts c) (fun r j => gp mp r j - gm mp r j)
    (fun j => nth j u 0) (2 ^ W_BIT c) (2 ^ I_BIT c)
    seg_len (seg_rng Hi) HVu (HW_diff Hi) (span_le Hi Hm0) t1
    ltac:(rewrite L1; unfold rowsN; nia) T1 ltac:(congruence)
    (fun i res => sw <- get (sum_w mp) i ;; y <- shl32 strict_shl sw (I_BIT c - 1) ;; subto res i y)
    (fun i => - (nth i (sum_w mp) 0 * 2 ^ (I_BIT c - 1)))); [|auto|intros; now apply bB|].
  - cbn [bind]. eexists. do 2 f_equal. apply (upto_ext m _ _ res 0). intros i Hi' _. apply ED.
  - intros i a Hi' La Ea. specialize (HF i Hi'). specialize (HK i Hi'). rewrite Hk in HK.
    rewrite (get_ok _ i 0) by (rewrite (sh_sw _ _ Hs); lia). cbn [bind].
    rewrite shl32_ok by (try congruence; unfold int_min, int_max in *; lia). cbn [bind].
    rewrite <- ED in HF.
    rewrite (subto_ok _ _ _ 0); [reflexivity|lia|].
    rewrite Ea. unfold int_min, int_max in *. lia.
Qed.

Lemma land_mask k v : 0 <= k <= 30 -> - 2 ^ 31 <= v < 2 ^ 31 ->
  wrap32 (Z.land (u32 (2 ^ k - 1)) (u32 v)) = v mod 2 ^ k.
Proof.
  intros Hk Hv'. assert (0 < 2 ^ k <= 2 ^ 30) by (split; [lia|apply Z.pow_le_mono_r; lia]).
  rewrite u32_id by lia. rewrite Z.land_comm.
  replace (2 ^ k - 1) with (Z.ones k) by (rewrite Z.ones_equiv; lia).
  rewrite Z.land_ones by lia. unfold u32.
  assert (E : (v mod 2 ^ 32) mod 2 ^ k = v mod 2 ^ k).
  { symmetry. apply Znumtheory.Zmod_div_mod; [lia|lia|].
    exists (2 ^ (32 - k)). rewrite <- Z.pow_add_r by lia. f_equal. lia. }
  rewrite E. pose proof (Z.mod_pos_bound v (2 ^ k) ltac:(lia)).
  apply wrap32_id. unfold int_min, int_max. lia.
Qed.
Lemma land_sign k v : 0 <= k <= 30 -> - 2 ^ k <= v < 2 ^ k ->
  wrap32 (Z.land (u32 (2 ^ k)) (u32 v)) = if v <? 0 then 2 ^ k else 0.
Proof.
  intros Hk Hv'. assert (H : 0 < 2 ^ k <= 2 ^ 30) by (split; [lia|apply Z.pow_le_mono_r; lia]).
  rewrite (u32_id (2 ^ k)) by lia.
  assert (E : Z.land (2 ^ k) (u32 v) = if v <? 0 then 2 ^ k else 0).
  { assert (T : Z.testbit (u32 v) k = (v <? 0)).
    { rewrite Z.testbit_odd, Z.shiftr_div_pow2 by lia. destruct (v <? 0) eqn:E.
      - assert (U : u32 v = v + 2 ^ 32).
        { unfold u32. symmetry. apply (Z.mod_unique _ _ (-1)); lia. }
        rewrite U. assert (P : 2 ^ 32 = 2 ^ (32 - k) * 2 ^ k).
        { rewrite <- Z.pow_add_r by lia. f_equal. lia. }
        rewrite P, Z.div_add by lia.
        replace (v / 2 ^ k) with (-1) by (apply (Z.div_unique _ _ _ (v + 2 ^ k)); lia).
        replace (32 - k) with (Z.succ (31 - k)) by lia. rewrite Z.pow_succ_r by lia.
        rewrite Z.odd_add, Z.odd_mul. reflexivity.
      - rewrite u32_id by lia. rewrite Z.div_small by lia. reflexivity. }
    apply Z.bits_inj'. intros i Hi. rewrite Z.land_spec, Z.pow2_bits_eqb by lia.
    destruct (k =? i) eqn:Ek.
    - replace i with k by lia. rewrite T. destruct (v <? 0); cbn [andb].
      + now rewrite Z.pow2_bits_true by lia.
      + now rewrite Z.bits_0.
    - cbn [andb]. destruct (v <? 0).
      + rewrite Z.pow2_bits_false by lia. reflexivity.
      + now rewrite Z.bits_0. }
  rewrite E. apply wrap32_id. destruct (v <? 0); unfold int_min, int_max; lia.
Qed.

Lemma go_int_iii : strict_shl = false -> m_mode c = I_TC_W_DIFF ->
  exists mp', int_iii_d c mp res vec mat m n = Ok (upto m (dres c mp vec n) res, mp').
Proof.
  intros Hst Hmode.
  assert (Hi : is_int (m_mode c) = true) by now rewrite Hmode.
  assert (Hno : match m_mode c with I_UINT_W_OFFS => False | _ => True end) by now rewrite Hmode.
  assert (Hk : kap c = 0) by (unfold kap; now rewrite Hmode).
  assert (Hsg : forall j, (j < n)%nat -> - 2 ^ (I_BIT c - 1) <= nth j vec 0 < 2 ^ (I_BIT c - 1)).
  { intros j Hj. apply vec_signed; auto. now rewrite Hmode. }
  pose proof (pow_pos_int Hi). pose proof (V_half Hi) as HVh. pose proof (vec_half Hi) as Hvh.
  unfold int_iii_d. rewrite u32_pred by lia.
  rewrite WriteProofs.ones_ok by lia. cbn [bind].
  rewrite (load_ok vec n _ (fun v => v mod 2 ^ (I_BIT c - 1))); auto; [|rewrite (sh_vdp _ _ Hs); auto|].
  2: { intros j Hj. specialize (Hsg j Hj). f_equal. apply land_mask; lia. }
  cbn [bind]. set (u1 := upto n (fun j _ => nth j vec 0 mod 2 ^ (I_BIT c - 1)) (vd_p mp)).
  assert (Hu1 : forall j, (j < n)%nat -> nth j u1 0 = nth j vec 0 mod 2 ^ (I_BIT c - 1)).
  { intros j Hj. unfold u1. rewrite (nth_up (fun v => v mod 2 ^ (I_BIT c - 1))) by (auto; apply Hs). reflexivity. }
  assert (Lu1 : len u1 = colsN c) by (unfold u1; rewrite upto_length; apply Hs).
  rewrite (shl32_ok strict_shl 1) by (unfold int_min, int_max; lia).
  rewrite Z.mul_1_l.
  assert (EL : load vec n (fun v => Ok (wrap32 (Z.land (u32 (2 ^ (I_BIT c - 1))) (u32 v)))) u1 =
               Ok (upto n (fun j _ => if nth j vec 0 <? 0 then 2 ^ (I_BIT c - 1) else 0) u1)).
  { apply (load_ok vec n _ (fun v => if v <? 0 then 2 ^ (I_BIT c - 1) else 0)); auto; [lia|].
    intros j Hj. specialize (Hsg j Hj). f_equal. apply land_sign; lia. }
  set (u2 := upto n (fun j _ => if nth j vec 0 <? 0 then 2 ^ (I_BIT c - 1) else 0) u1) in *.
  assert (Hu2 : forall j, (j < n)%nat -> nth j u2 0 = if nth j vec 0 <? 0 then 2 ^ (I_BIT c - 1) else 0).
  { intros j Hj. unfold u2. rewrite nth_upto_lt by lia. reflexivity. }
  assert (Lu2 : len u2 = colsN c) by (unfold u2; rewrite upto_length; auto).
  destruct (Nat.eq_dec m 0) as [E0|E0].
  { rewrite E0. cbn [Nat.mul acc2 dec2 forN bind]. rewrite EL. cbn [bind]. eexists. now rewrite upto_0. }
  assert (Hm0 : (0 < m)%nat) by lia.
  assert (H12 : forall j, (j < n)%nat -> 0 <= nth j u1 0 /\ 0 <= nth j u2 0 /\
     nth j u1 0 - nth j u2 0 = nth j vec 0 /\ nth j u1 0 + nth j u2 0 <= 2 ^ I_BIT c).
  { intros j Hj. rewrite Hu1, Hu2 by auto. specialize (Hsg j Hj).
    pose proof (Z.mod_pos_bound (nth j vec 0) (2 ^ (I_BIT c - 1)) ltac:(lia)).
    destruct (nth j vec 0 <? 0) eqn:E.
    - assert (nth j vec 0 mod 2 ^ (I_BIT c - 1) = nth j vec 0 + 2 ^ (I_BIT c - 1)).
      { symmetry. apply (Z.mod_unique _ _ (-1)); lia. }
      lia.
    - rewrite Z.mod_small in * by lia. lia. }
  assert (HV1 : forall j, (j < n)%nat -> Z.abs (nth j u1 0) <= 2 ^ I_BIT c).
  { intros j Hj. specialize (H12 j Hj). lia. }
  assert (HV2 : forall j, (j < n)%nat -> Z.abs (nth j u2 0) <= 2 ^ I_BIT c).
  { intros j Hj. specialize (H12 j Hj). lia. }
  assert (HV3 : forall j, (j < n)%nat -> Z.abs (nth j vec 0) <= 2 ^ I_BIT c).
  { intros j Hj. specialize (H12 j Hj). lia. }
  destruct (partial_diff Hi u1 ltac:(lia) HV1 (tmp_int mp) (sh_ti _ _ Hs Hi) Hm0) as (t1 & E1 & L1 & T1).
  rewrite E1. cbn [bind]. rewrite EL. cbn [bind].
  rewrite (dec2_eq _ _ _ (fun r j => (gp mp r j - gm mp r j) * nth j u2 0)).
  - cbn [bind]. rewrite (shift_int Hi).
    rewrite (core_shift_add (nsplit c) m n (shifts c) (fun r j => gp mp r j - gm mp r j)
      (fun j => nth j vec 0) (2 ^ W_BIT c) (2 ^ I_BIT c)
      seg_len (seg_rng Hi) HV3 (HW_diff Hi) (span_le Hi Hm0));
      [|rewrite upto_length, L1; unfold rowsN; nia| |congruence|auto|intros; now apply bB].
    + cbn [bind]. eexists. do 2 f_equal. apply (upto_ext m _ _ res 0). intros i Hi' _.
      rewrite (dres_int Hi) by auto. f_equal. apply sumZ_ext. intros j _. now rewrite (val_diff Hi _ _ Hno).
    + intros r Hr. rewrite nth_upto_lt by (rewrite ?L1; unfold rowsN; nia). rewrite T1 by auto.
      rewrite <- sumZ_sub. apply sumZ_ext. intros j Hj. destruct (H12 j Hj) as (?&?&E&?).
      rewrite <- E. ring.
  - rewrite L1. unfold rowsN. nia.
  - intros r j Hr Hj.
    destruct (core_term (nsplit c) m n (shifts c) (fun r j => gp mp r j - gm mp r j) (fun j => nth j u2 0)
      (2 ^ W_BIT c) (2 ^ I_BIT c) seg_len (seg_rng Hi) HV2 (HW_diff Hi) r j Hr Hj) as [B1 B2].
    pose proof (V_max Hi).
    apply (dterm_ok (rowsN c) (colsN c)); try apply Hs; try (apply row_in; auto; fail); try lia;
      unfold int_min, int_max; lia.
  - intros r Hr. rewrite T1 by auto. etransitivity; [|exact (span_le Hi Hm0)].
    etransitivity; [apply Z.add_le_mono_r, sumZ_abs|].
    rewrite <- sumZ_add, <- sumZ_const. apply sumZ_le. intros j Hj.
    destruct (core_term (nsplit c) m n (shifts c) (fun r j => gp mp r j - gm mp r j) (fun j => nth j u2 0)
      (2 ^ W_BIT c) (2 ^ I_BIT c) seg_len (seg_rng Hi) HV2 (HW_diff Hi) r j Hr Hj) as [B1 B2].
    destruct (H12 j Hj) as (?&?&?&?). rewrite !Z.abs_mul, (Z.abs_eq (nth j u1 0)), (Z.abs_eq (nth j u2 0)) by auto.
    rewrite <- Z.mul_add_distr_l. apply Z.mul_le_mono_nonneg; lia.
Qed.

Lemma go_int_iv : strict_shl = false -> m_mode c = I_UINT_W_DIFF ->
  exists mp', int_iv_d c mp res vec mat m n = Ok (upto m (dres c mp vec n) res, mp').
Proof.
  intros Hst Hmode.
  assert (Hi : is_int (m_mode c) = true) by now rewrite Hmode.
  assert (Hno : match m_mode c with I_UINT_W_OFFS => False | _ => True end) by now rewrite Hmode.
  assert (Hk : kap c = 0) by (unfold kap; now rewrite Hmode).
  assert (HVu : forall j, (j < n)%nat -> Z.abs (nth j vec 0) <= 2 ^ I_BIT c).
  { intros j Hj. specialize (Hv j Hj). unfold vok in Hv. rewrite Hmode in Hv. lia. }
  unfold int_iv_d.
  destruct (Nat.eq_dec m 0) as [E0|E0].
  { rewrite E0. cbn [Nat.mul acc2 forN bind shift_add]. eexists. now rewrite upto_0. }
  assert (Hm0 : (0 < m)%nat) by lia.
  destruct (partial_diff Hi vec Hvec HVu (tmp_int mp) (sh_ti _ _ Hs Hi) Hm0) as (t1 & E1 & L1 & T1).
  rewrite E1. cbn [bind]. rewrite (shift_int Hi).
  rewrite (core_shift_add (nsplit c) m n (shifts c) (fun r j => gp mp r j - gm mp r j)
    (fun j => nth j vec 0) (2 ^ W_BIT c) (2 ^ I_BIT c)
    seg_len (seg_rng Hi) HVu (HW_diff Hi) (span_le Hi Hm0));
    [|rewrite L1; unfold rowsN; nia|exact T1|congruence|auto|intros; now apply bB].
  cbn [bind]. eexists. do 2 f_equal. apply (upto_ext m _ _ res 0). intros i Hi' _.
  rewrite (dres_int Hi) by auto. f_equal. apply sumZ_ext. intros j _. now rewrite (val_diff Hi _ _ Hno).
Qed.

Lemma go_int_v : m_mode c = I_UINT_W_OFFS ->
  exists mp', int_v_d c mp res vec mat m n = Ok (upto m (dres c mp vec n) res, mp').
Proof.
  intros Hmode.
  assert (Hi : is_int (m_mode c) = true) by now rewrite Hmode.
  assert (Hk : kap c = 0) by (unfold kap; now rewrite Hmode).
  assert (HVs : forall j, (j < n)%nat -> 0 <= nth j vec 0 < 2 ^ I_BIT c).
  { intros j Hj. specialize (Hv j Hj). unfold vok in Hv. now rewrite Hmode in Hv. }
  assert (HVu : forall j, (j < n)%nat -> Z.abs (nth j vec 0) <= 2 ^ I_BIT c).
  { intros j Hj. specialize (HVs j Hj). lia. }
  destruct (pow_pos_int Hi) as (PW & PV & ?&?&?). pose proof (W_half Hi) as HWh.
  destruct (V_max Hi) as (MV & MW & MVW).
  pose proof HN as Hsp. rewrite (span_int Hi) in Hsp.
  assert (HnV : Z.of_nat n * 2 ^ I_BIT c <= int_max).
  { etransitivity; [|exact Hsp]. apply Z.mul_le_mono_nonneg_l; [lia|]. nia. }
  unfold int_v_d.
  rewrite (sum64_ok vec n (2 ^ I_BIT c)) by (auto; unfold int_max in *; lia). cbn [bind].
  set (isum := sumZ n (fun j => nth j vec 0)).
  assert (Hisum : 0 <= isum <= Z.of_nat n * 2 ^ I_BIT c).
  { split.
    - apply sumZ_nonneg. intros j Hj. specialize (HVs j Hj). lia.
    - unfold isum. rewrite <- sumZ_const. apply sumZ_le. intros j Hj. specialize (HVs j Hj). lia. }
  assert (Hwh : 0 < 2 ^ (W_BIT c - 1)) by (apply Z.pow_pos_nonneg; lia).
  assert (HsW : isum * 2 ^ (W_BIT c - 1) <= int_max).
  { etransitivity; [|exact Hsp]. transitivity (Z.of_nat n * 2 ^ I_BIT c * 2 ^ (W_BIT c - 1)); [nia|].
    rewrite (Z.mul_comm (2 ^ W_BIT c)), Z.mul_assoc. apply Z.mul_le_mono_nonneg_l; nia. }
  set (D := fun r j => gp mp r j).
  destruct (acc_fill (m * nsplit c) n (dterm1 (gd_p mp) vec) (fun r j => D r j * nth j vec 0) (tmp_int mp))
    as (t1 & E1 & L1 & T1).
  { rewrite (sh_ti _ _ Hs Hi). unfold rowsN. nia. }
  { intros r j Hr Hj.
    destruct (core_term (nsplit c) m n (shifts c) D (fun j => nth j vec 0)
      (2 ^ W_BIT c) (2 ^ I_BIT c) seg_len (seg_rng Hi) HVu (HW_one Hi) r j Hr Hj) as [B1 B2].
    apply (dterm1_ok (rowsN c) (colsN c)); try apply Hs; try (apply row_in; auto; fail); try lia.
    unfold D in *; unfold int_min, int_max; lia. }
  { intros r Hr. apply (core_row (nsplit c) m n (shifts c) D (fun j => nth j vec 0)
      (2 ^ W_BIT c) (2 ^ I_BIT c) seg_len (seg_rng Hi) HVu (HW_one Hi) Hsp r Hr). }
  rewrite E1. cbn [bind]. rewrite (shift_int Hi).
  assert (ED : forall i x, x + sumZ n (fun j => val (nsplit c) (shifts c) D i j * nth j vec 0)
     + - (isum * 2 ^ (W_BIT c - 1)) = dres c mp vec n i x).
  { intros i x. rewrite (dres_int Hi) by auto. unfold isum. rewrite <- sumZ_mul_r.
    rewrite <- Z.add_assoc. f_equal. rewrite Z.add_opp_r, <- sumZ_sub. apply sumZ_ext. intros j Hj.
    unfold cellv. rewrite Hmode. unfold segs, val, D. ring. }
  rewrite (core_shift_corr (nsplit c) m n (shifts c) D
    (fun j => nth j vec 0) (2 ^ W_BIT c) (2 ^ I_BIT c)
    seg_len (seg_rng Hi) HVu (HW_one Hi) Hsp t1
    ltac:(rewrite L1, (sh_ti _ _ Hs Hi); unfold rowsN; nia) T1)
    with (corr := fun i res => y <- shl64 strict_shl isum (u32 (W_BIT c - 1)) ;; subto64 res i y)
         (cv := fun i => - (isum * 2 ^ (W_BIT c - 1))).
  - cbn [bind]. eexists. do 2 f_equal. apply (upto_ext m _ _ res 0). intros i Hi' _. apply ED.
  - intros _ r j Hr Hj. specialize (HVs j Hj).
    apply Z.mul_nonneg_nonneg; [|lia].
    assert (nsplit c <> 0)%nat by (destruct (nsplit c); [lia|discriminate]).
    pose proof (Nat.div_mod r (nsplit c) ltac:(auto)) as E.
    assert (Hi' : (r / nsplit c < m)%nat) by (apply Nat.div_lt_upper_bound; lia).
    pose proof (Nat.mod_upper_bound r (nsplit c) ltac:(auto)) as Hs'.
    destruct (cell_int Hi (r / nsplit c) j Hi' Hj) as [Hp _]. destruct (Hp _ Hs') as [Hp' _].
    replace (r / nsplit c * nsplit c + r mod nsplit c)%nat with r in Hp' by lia. exact Hp'.
  - auto.
  - intros; now apply bB.
  - intros i a Hi' La Ea. rewrite u32_pred by lia. specialize (HF i Hi').
    rewrite shl64_ok by (unfold int_max in *; lia). cbn [bind].
    rewrite <- ED in HF.
    rewrite (subto64_ok _ _ _ 0); [reflexivity|lia|].
    rewrite Ea. unfold int_min, int_max in *. lia.
Qed.

(** *** Binary and ternary modes *)
Section Xnn.
Context (Hx : is_int (m_mode c) = false).

Lemma span_xnn : span c = 3.
Proof. unfold span. now rewrite Hx. Qed.
Lemma row_x i : (i < m)%nat -> (i < rowsN c)%nat.
Proof. intros H. pose proof (wf_ns c Hw Hx). unfold rowsN. nia. Qed.
Lemma cell_x i j : (i < m)%nat -> (j < n)%nat -> 0 <= gp mp i j <= 1 /\ 0 <= gm mp i j <= 1.
Proof. intros H1 H2. specialize (Hc i j H1 H2). unfold cellok in Hc. now rewrite Hx in Hc. Qed.
Lemma gp_get i j : (i < m)%nat -> (j < n)%nat -> get2 (gd_p mp) i j = Ok (gp mp i j).
Proof. intros H1 H2. apply (get2_ok 0 (rowsN c) (colsN c)); [apply Hs|now apply row_x|lia]. Qed.
Lemma bound3 (f : nat -> Z) i b : (i < m)%nat -> b <= 3 ->
  (forall j, (j < n)%nat -> Z.abs (f j) <= b) ->
  Z.abs (nth i res 0) + sumZ n (fun j => Z.abs (f j)) <= int_max.
Proof.
  intros H1 Hb3 H. specialize (HB i H1). rewrite span_xnn in HB.
  assert (sumZ n (fun j => Z.abs (f j)) <= Z.of_nat n * b); [|nia].
  rewrite <- sumZ_const. now apply sumZ_le.
Qed.
Lemma dterm_x (swap : bool) v i j : (i < m)%nat -> (j < n)%nat -> (n <= len v)%nat ->
  Z.abs (nth j v 0) <= 1 ->
  dterm (if swap then gd_m mp else gd_p mp) (if swap then gd_p mp else gd_m mp) v i j =
  Ok ((if swap then -1 else 1) * (gp mp i j - gm mp i j) * nth j v 0) /\
  Z.abs ((if swap then -1 else 1) * (gp mp i j - gm mp i j) * nth j v 0) <= 1.
Proof.
  intros H1 H2 H3 H4. pose proof (cell_x i j H1 H2). pose proof (row_x i H1).
  assert (B : Z.abs ((if swap then -1 else 1) * (gp mp i j - gm mp i j) * nth j v 0) <= 1).
  { rewrite !Z.abs_mul. destruct swap; nia. }
  split; [|exact B].
  destruct swap; rewrite (dterm_ok (rowsN c) (colsN c)); try apply Hs; auto; try lia;
    unfold int_min, int_max; try lia; f_equal; ring.
Qed.
Lemma dterm1_x (second : bool) v i j : (i < m)%nat -> (j < n)%nat -> (n <= len v)%nat ->
  Z.abs (nth j v 0) <= 1 ->
  dterm1 (if second then gd_m mp else gd_p mp) v i j =
  Ok ((if second then gm mp i j else gp mp i j) * nth j v 0) /\
  Z.abs ((if second then gm mp i j else gp mp i j) * nth j v 0) <= 1.
Proof.
  intros H1 H2 H3 H4. pose proof (cell_x i j H1 H2). pose proof (row_x i H1).
  assert (B : Z.abs ((if second then gm mp i j else gp mp i j) * nth j v 0) <= 1).
  { rewrite !Z.abs_mul. destruct second; nia. }
  split; [|exact B].
  destruct second; rewrite (dterm1_ok (rowsN c) (colsN c)); try apply Hs; auto; try lia;
    unfold int_min, int_max; lia.
Qed.

Lemma vdp_len : (n <= len (vd_p mp))%nat.
Proof. rewrite (sh_vdp _ _ Hs). exact Hn. Qed.

(** The final row correction with the stored row sums. *)
Lemma row_corr (op : list Z -> nat -> Z -> out (list Z)) (k : Z) (y : nat -> Z -> Z) :
  (forall a i e, (i < len a)%nat -> int_min <= nth i a 0 - k * e <= int_max ->
     op a i e = Ok (upd a i (nth i a 0 - k * e))) ->
  (forall i, (i < m)%nat -> y i (nth i res 0) - k * nth i (sum_w mp) 0 = dres c mp vec n i (nth i res 0)) ->
  forN m (fun i res => sw <- get (sum_w mp) i ;; op res i sw) (upto m y res) =
  Ok (upto m (dres c mp vec n) res).
Proof.
  intros Hop E. rewrite (rows_eq m _ (fun i x => x - k * nth i (sum_w mp) 0) _ 0).
  - f_equal. rewrite upto_upto. apply (upto_ext m _ _ res 0). intros i Hi Hi2. now apply E.
  - now rewrite upto_length.
  - intros i a Hi La Ea. rewrite (get_ok _ i 0) by (rewrite (sh_sw _ _ Hs); lia). cbn [bind].
    apply Hop; [rewrite La, upto_length; lia|].
    rewrite Ea, nth_upto_lt by lia. rewrite E by auto. specialize (HF i Hi).
    unfold int_min, int_max in *. lia.
Qed.
Lemma op_sub a i e : (i < len a)%nat -> int_min <= nth i a 0 - 1 * e <= int_max ->
  subto a i e = Ok (upd a i (nth i a 0 - 1 * e)).
Proof. rewrite Z.mul_1_l. apply subto_ok. Qed.
Lemma op_add a i e : (i < len a)%nat -> int_min <= nth i a 0 - (-1) * e <= int_max ->
  addto a i e = Ok (upd a i (nth i a 0 - (-1) * e)).
Proof. replace (nth i a 0 - -1 * e) with (nth i a 0 + e) by ring. apply addto_ok. Qed.

Lemma sumZ_lin n0 (f g h : nat -> Z) k : (forall j, (j < n0)%nat -> f j = g j + k * h j) ->
  sumZ n0 f = sumZ n0 g + k * sumZ n0 h.
Proof. intros H. rewrite <- sumZ_mul_l, <- sumZ_add. now apply sumZ_ext. Qed.

Lemma go_bnn_i : m_mode c = BNN_I ->
  exists mp', bnn_i_d c mp res vec mat m n = Ok (upto m (dres c mp vec n) res, mp').
Proof.
  intros Hmode.
  assert (Hvb : forall j, (j < n)%nat -> bin (nth j vec 0)).
  { intros j Hj. specialize (Hv j Hj). unfold vok in Hv. now rewrite Hmode in Hv. }
  unfold bnn_i_d. pose proof vdp_len as Hvl.
  rewrite (load_ok vec n _ posp); auto.
  2: { intros j Hj. destruct (Hvb j Hj) as [-> | ->]; reflexivity. }
  cbn [bind]. set (u := upto n _ _).
  assert (Hu : forall j, (j < n)%nat -> nth j u 0 = posp (nth j vec 0)).
  { intros j Hj. unfold u. now rewrite nth_upto_lt by lia. }
  assert (Lu : (n <= len u)%nat) by (unfold u; rewrite upto_length; auto).
  assert (Hu1 : forall j, (j < n)%nat -> Z.abs (nth j u 0) <= 1).
  { intros j Hj. rewrite Hu by auto. destruct (Hvb j Hj) as [-> | ->]; cbn; lia. }
  rewrite (acc2_eq m n _ (fun i j => (gp mp i j - gm mp i j) * nth j u 0 * 2)); auto.
  - cbn [bind]. rewrite (row_corr subto 1 _ op_sub); [cbn [bind]; eauto|].
    intros i Hi. unfold dres, kap, cellb, cellv. rewrite Hmode.
    rewrite (sumZ_lin n (fun j => (gp mp i j - gm mp i j) * nth j u 0 * 2)
      (fun j => (gp mp i j - gm mp i j) * nth j vec 0 + 0) (fun j => gp mp i j - gm mp i j) 1); [ring|].
    intros j Hj. rewrite Hu by auto. destruct (Hvb j Hj) as [-> | ->]; unfold posp; cbn [Z.max Z.compare]; ring.
  - intros i j Hi Hj. unfold dsel. destruct (dterm_x false u i j Hi Hj Lu (Hu1 j Hj)) as [E B].
    rewrite E. cbn [bind]. rewrite Z.mul_1_l in B |- *. apply mul32_ok. unfold int_min, int_max. lia.
  - intros i Hi. apply (bound3 _ i 2); [auto|lia|]. intros j Hj.
    destruct (dterm_x false u i j Hi Hj Lu (Hu1 j Hj)) as [E B]. lia.
Qed.

Lemma go_bnn_ii : m_mode c = BNN_II ->
  exists mp', bnn_ii_d c mp res vec mat m n = Ok (upto m (dres c mp vec n) res, mp').
Proof.
  intros Hmode.
  assert (Hvb : forall j, (j < n)%nat -> bin (nth j vec 0)).
  { intros j Hj. specialize (Hv j Hj). unfold vok in Hv. now rewrite Hmode in Hv. }
  unfold bnn_ii_d. pose proof vdp_len as Hvl.
  rewrite (load_ok vec n _ negp); auto.
  2: { intros j Hj. destruct (Hvb j Hj) as [-> | ->]; reflexivity. }
  cbn [bind]. set (u := upto n _ _).
  assert (Hu : forall j, (j < n)%nat -> nth j u 0 = negp (nth j vec 0)).
  { intros j Hj. unfold u. now rewrite nth_upto_lt by lia. }
  assert (Lu : (n <= len u)%nat) by (unfold u; rewrite upto_length; auto).
  assert (Hu1 : forall j, (j < n)%nat -> Z.abs (nth j u 0) <= 1).
  { intros j Hj. rewrite Hu by auto. destruct (Hvb j Hj) as [-> | ->]; cbn; lia. }
  rewrite (acc2_eq m n _ (fun i j => -1 * (gp mp i j - gm mp i j) * nth j u 0 * 2)); auto.
  - cbn [bind]. rewrite (row_corr addto (-1) _ op_add); [cbn [bind]; eauto|].
    intros i Hi. unfold dres, kap, cellb, cellv. rewrite Hmode.
    rewrite (sumZ_lin n (fun j => -1 * (gp mp i j - gm mp i j) * nth j u 0 * 2)
      (fun j => (gp mp i j - gm mp i j) * nth j vec 0 + 0) (fun j => gp mp i j - gm mp i j) (-1)); [ring|].
    intros j Hj. rewrite Hu by auto. destruct (Hvb j Hj) as [-> | ->]; unfold negp; cbn [Z.opp Z.max Z.compare]; ring.
  - intros i j Hi Hj. unfold dsel. destruct (dterm_x true u i j Hi Hj Lu (Hu1 j Hj)) as [E B].
    cbn [negb] in E. rewrite E. cbn [bind]. apply mul32_ok. unfold int_min, int_max. lia.
  - intros i Hi. apply (bound3 _ i 2); [auto|lia|]. intros j Hj.
    destruct (dterm_x true u i j Hi Hj Lu (Hu1 j Hj)) as [E B]. lia.
Qed.

(** Inputs split over two rails. *)
Lemma rails (tern : bool) : has_vdm (m_mode c) = true ->
  (forall j, (j < n)%nat -> (if tern then ter else bin) (nth j vec 0)) ->
  exists vp vm, (vp = upto n (fun j _ => posp (nth j vec 0)) (vd_p mp)) /\
    (vm = upto n (fun j _ => negp (nth j vec 0)) (vd_m mp)) /\
    (n <= len (vd_m mp))%nat /\ (n <= len vp)%nat /\ (n <= len vm)%nat /\
    (forall j, (j < n)%nat -> nth j vp 0 = posp (nth j vec 0) /\ nth j vm 0 = negp (nth j vec 0) /\
       Z.abs (nth j vp 0) <= 1 /\ Z.abs (nth j vm 0) <= 1).
Proof.
  intros Hvm Hvt. eexists _, _. split; [reflexivity|]. split; [reflexivity|].
  pose proof vdp_len. assert (n <= len (vd_m mp))%nat by (rewrite (sh_vdm _ _ Hs Hvm); exact Hn).
  rewrite !upto_length. repeat split; auto;
    rewrite nth_upto_lt by lia; auto;
    specialize (Hvt j H1); destruct tern; unfold ter, bin in Hvt; unfold posp, negp; lia.
Qed.

Lemma go_bnn_iii (Hmode : m_mode c = BNN_III) :
  exists mp', bnn_iii_d c mp res vec mat m n = Ok (upto m (dres c mp vec n) res, mp').
Proof.
  assert (Hvb : forall j, (j < n)%nat -> bin (nth j vec 0)).
  { intros j Hj. specialize (Hv j Hj). unfold vok in Hv. now rewrite Hmode in Hv. }
  destruct (rails false) as (vp & vm & Ep & Em & Lm & Lp' & Lm' & Hpm); [now rewrite Hmode|auto|].
  pose proof HN as HN'. rewrite span_xnn in HN'.
  unfold bnn_iii_d. rewrite two_rail_sum_ok by (auto using vdp_len; lia). cbn [bind].
  rewrite <- Ep, <- Em. set (sm := sumZ n _).
  assert (Hsm : Z.abs sm <= Z.of_nat n * 1).
  { apply sumZ_bound. intros j Hj. destruct (Hvb j Hj) as [-> | ->]; lia. }
  rewrite (rows_eq m _ (dres c mp vec n) res 0); [cbn [bind]; eauto|auto|].
  intros i a Hi La Ea. pose proof (HB i Hi) as HBi. rewrite span_xnn in HBi.
  rewrite (subto_ok _ _ _ 0) by (try lia; rewrite Ea; unfold int_min, int_max in *; lia). cbn [bind].
  rewrite (acc_entry n (dsel2 (gd_p mp) vp vm i) (fun j => 2 * (gp mp i j * nth j vec 0))).
  - rewrite upd_upd, nth_upd, Nat.eqb_refl by lia. do 2 f_equal. unfold dres, kap, cellb, cellv. rewrite Hmode.
    unfold sm. rewrite (sumZ_lin n (fun j => 2 * (gp mp i j * nth j vec 0))
      (fun j => (2 * gp mp i j - 1) * nth j vec 0 + 0) (fun j => nth j vec 0) 1); [ring|]. intros; ring.
  - rewrite upd_length. lia.
  - intros j Hj. unfold dsel2. destruct (Hpm j Hj) as (E1 & E2 & B1 & B2).
    destruct (dterm1_x false vp i j Hi Hj Lp' B1) as [T1 U1]. rewrite T1. cbn [bind].
    destruct (dterm1_x false vm i j Hi Hj Lm' B2) as [T2 U2]. rewrite T2. cbn [bind].
    rewrite sub32_ok by (unfold int_min, int_max; lia). cbn [bind].
    rewrite mul32_ok by (unfold int_min, int_max; lia). rewrite E1, E2, <- Z.mul_sub_distr_l, pos_neg. reflexivity.
  - rewrite nth_upd, Nat.eqb_refl by lia. rewrite Ea.
    assert (sumZ n (fun j => Z.abs (2 * (gp mp i j * nth j vec 0))) <= Z.of_nat n * 2).
    { rewrite <- sumZ_const. apply sumZ_le. intros j Hj. pose proof (cell_x i j Hi Hj).
      destruct (Hvb j Hj) as [-> | ->]; lia. }
    unfold int_max in *. lia.
Qed.

Lemma go_bnn_iv (Hmode : m_mode c = BNN_IV) :
  exists mp', bnn_iv_d c mp res vec mat m n = Ok (upto m (dres c mp vec n) res, mp').
Proof.
  assert (Hvb : forall j, (j < n)%nat -> bin (nth j vec 0)).
  { intros j Hj. specialize (Hv j Hj). unfold vok in Hv. now rewrite Hmode in Hv. }
  destruct (rails false) as (vp & vm & Ep & Em & Lm & Lp' & Lm' & Hpm); [now rewrite Hmode|auto|].
  pose proof HN as HN'. rewrite span_xnn in HN'.
  unfold bnn_iv_d. rewrite two_rail_sum_ok by (auto using vdp_len; lia). cbn [bind].
  rewrite <- Ep, <- Em. set (sm := sumZ n _).
  assert (Hsm : Z.abs sm <= Z.of_nat n * 1).
  { apply sumZ_bound. intros j Hj. destruct (Hvb j Hj) as [-> | ->]; lia. }
  rewrite (rows_eq m _ (dres c mp vec n) res 0); [cbn [bind]; eauto|auto|].
  intros i a Hi La Ea. pose proof (HB i Hi) as HBi. rewrite span_xnn in HBi.
  rewrite (addto_ok _ _ _ 0) by (try lia; rewrite Ea; unfold int_min, int_max in *; lia). cbn [bind].
  rewrite (acc_entry n (dsel2 (gd_p mp) vm vp i) (fun j => -2 * (gp mp i j * nth j vec 0))).
  - rewrite upd_upd, nth_upd, Nat.eqb_refl by lia. do 2 f_equal. unfold dres, kap, cellb, cellv. rewrite Hmode.
    unfold sm. rewrite (sumZ_lin n (fun j => -2 * (gp mp i j * nth j vec 0))
      (fun j => (1 - 2 * gp mp i j) * nth j vec 0 + 0) (fun j => nth j vec 0) (-1)); [ring|]. intros; ring.
  - rewrite upd_length. lia.
  - intros j Hj. unfold dsel2. destruct (Hpm j Hj) as (E1 & E2 & B1 & B2).
    destruct (dterm1_x false vm i j Hi Hj Lm' B2) as [T2 U2]. rewrite T2. cbn [bind].
    destruct (dterm1_x false vp i j Hi Hj Lp' B1) as [T1 U1]. rewrite T1. cbn [bind].
    rewrite sub32_ok by (unfold int_min, int_max; lia). cbn [bind].
    rewrite mul32_ok by (unfold int_min, int_max; lia). rewrite E1, E2, <- Z.mul_sub_distr_l.
    replace (negp (nth j vec 0) - posp (nth j vec 0)) with (- nth j vec 0) by (rewrite <- (pos_neg (nth j vec 0)) at 1; ring).
    f_equal. ring.
  - rewrite nth_upd, Nat.eqb_refl by lia. rewrite Ea.
    assert (sumZ n (fun j => Z.abs (-2 * (gp mp i j * nth j vec 0))) <= Z.of_nat n * 2).
    { rewrite <- sumZ_const. apply sumZ_le. intros j Hj. pose proof (cell_x i j Hi Hj).
      destruct (Hvb j Hj) as [-> | ->]; lia. }
    unfold int_max in *. lia.
Qed.

Lemma go_bnn_v (Hmode : m_mode c = BNN_V) :
  exists mp', bnn_v_d c mp res vec mat m n = Ok (upto m (dres c mp vec n) res, mp').
Proof.
  assert (Hvb : forall j, (j < n)%nat -> bin (nth j vec 0)).
  { intros j Hj. specialize (Hv j Hj). unfold vok in Hv. now rewrite Hmode in Hv. }
  destruct (rails false) as (vp & vm & Ep & Em & Lm & Lp' & Lm' & Hpm); [now rewrite Hmode|auto|].
  pose proof HN as HN'. rewrite span_xnn in HN'.
  unfold bnn_v_d. rewrite two_rail_ok by auto using vdp_len. cbn [bind].
  rewrite <- Ep, <- Em.
  rewrite (rows_eq m _ (dres c mp vec n) res 0); [cbn [bind]; eauto|auto|].
  intros i a Hi La Ea. pose proof (HB i Hi) as HBi. rewrite span_xnn in HBi.
  rewrite (subto_ok _ _ _ 0) by (try lia; rewrite Ea; unfold int_min, int_max in *; lia). cbn [bind].
  set (term := fun j => x <- dterm1 (gd_p mp) vp i j ;; y <- dterm1 (gd_m mp) vm i j ;;
     s <- add32 x y ;; shl32 strict_shl s 1).
  rewrite (forN_ext n _ (fun j b => e <- term j ;; addto b i e)).
  2: { intros j b Hj. unfold term. destruct (Hpm j Hj) as (E1 & E2 & B1 & B2).
       destruct (dterm1_x false vp i j Hi Hj Lp' B1) as [T1 U1]. rewrite T1. cbn [bind].
       destruct (dterm1_x true vm i j Hi Hj Lm' B2) as [T2 U2]. rewrite T2. cbn [bind].
       now rewrite add32_ok by (unfold int_min, int_max; lia). }
  rewrite (acc_entry n term (fun j => 2 * (gp mp i j * posp (nth j vec 0) + gm mp i j * negp (nth j vec 0)))).
  - rewrite upd_upd, nth_upd, Nat.eqb_refl by lia. do 2 f_equal. unfold dres, kap, cellb, cellv. rewrite Hmode.
    rewrite (sumZ_lin n (fun j => 2 * (gp mp i j * posp (nth j vec 0) + gm mp i j * negp (nth j vec 0)))
      (fun j => (gp mp i j - gm mp i j) * nth j vec 0 + (gp mp i j + gm mp i j - 1)) (fun j => 1) 1).
    { rewrite sumZ_const. ring. }
    intros j Hj. unfold posp, negp. destruct (Hvb j Hj) as [-> | ->]; cbn [Z.opp Z.max Z.compare]; ring.
  - rewrite upd_length. lia.
  - intros j Hj. unfold term. destruct (Hpm j Hj) as (E1 & E2 & B1 & B2).
    destruct (dterm1_x false vp i j Hi Hj Lp' B1) as [T1 U1]. rewrite T1. cbn [bind].
    destruct (dterm1_x true vm i j Hi Hj Lm' B2) as [T2 U2]. rewrite T2. cbn [bind].
    rewrite add32_ok by (unfold int_min, int_max; lia). cbn [bind]. cbn beta iota in *.
    pose proof (cell_x i j Hi Hj) as [C1 C2].
    rewrite shl32_ok.
    + f_equal. rewrite E1, E2. change (2 ^ 1) with 2. ring.
    + lia.
    + intros _. rewrite E1, E2. unfold posp, negp. apply Z.add_nonneg_nonneg; apply Z.mul_nonneg_nonneg; lia.
    + change (2 ^ 1) with 2. unfold int_min, int_max. lia.
  - rewrite nth_upd, Nat.eqb_refl by lia. rewrite Ea.
    assert (sumZ n (fun j => Z.abs (2 * (gp mp i j * posp (nth j vec 0) + gm mp i j * negp (nth j vec 0)))) <= Z.of_nat n * 2).
    { rewrite <- sumZ_const. apply sumZ_le. intros j Hj. pose proof (cell_x i j Hi Hj).
      unfold posp, negp. destruct (Hvb j Hj) as [-> | ->]; cbn [Z.opp Z.max Z.compare]; lia. }
    unfold int_max in *. lia.
Qed.

Lemma go_quad (tern : bool) : m_mode c = BNN_VI \/ m_mode c = TNN_I ->
  (forall j, (j < n)%nat -> (if tern then ter else bin) (nth j vec 0)) ->
  exists mp', quad_d tern c mp res vec mat m n = Ok (upto m (dres c mp vec n) res, mp').
Proof.
  intros Hmode Hvb.
  destruct (rails tern) as (vp & vm & Ep & Em & Lm & Lp' & Lm' & Hpm); [now destruct Hmode as [-> | ->]|auto|].
  unfold quad_d. rewrite two_rail_ok by auto using vdp_len. cbn [bind]. rewrite <- Ep, <- Em.
  assert (Hvt : forall j, (j < n)%nat -> ter (nth j vec 0)).
  { intros j Hj. specialize (Hvb j Hj). destruct tern; auto. now apply bin_ter. }
  rewrite (acc2_eq m n _ (fun i j => (gp mp i j - gm mp i j) * nth j vec 0)); auto.
  - cbn [bind]. eexists. do 2 f_equal. apply (upto_ext m _ _ res 0). intros i Hi _.
    unfold dres, kap, cellb, cellv. destruct Hmode as [-> | ->];
      rewrite (sumZ_ext n (fun j => (gp mp i j - gm mp i j) * nth j vec 0)
        (fun j => (gp mp i j - gm mp i j) * nth j vec 0 + 0)); try ring; intros; ring.
  - intros i j Hi Hj. unfold dquad. destruct (Hpm j Hj) as (E1 & E2 & B1 & B2).
    destruct (dterm1_x false vp i j Hi Hj Lp' B1) as [T1 U1]. rewrite T1. cbn [bind].
    destruct (dterm1_x true vm i j Hi Hj Lm' B2) as [T2 U2]. rewrite T2. cbn [bind].
    destruct (dterm1_x true vp i j Hi Hj Lp' B1) as [T3 U3]. rewrite T3. cbn [bind].
    destruct (dterm1_x false vm i j Hi Hj Lm' B2) as [T4 U4]. rewrite T4. cbn [bind].
    rewrite add32_ok by (unfold int_min, int_max; lia). cbn [bind].
    rewrite sub32_ok by (unfold int_min, int_max; lia). cbn [bind].
    rewrite sub32_ok by (unfold int_min, int_max; lia). f_equal.
    rewrite E1, E2. rewrite <- (pos_neg (nth j vec 0)) at 5. ring.
  - intros i Hi. apply (bound3 _ i 1); [auto|lia|]. intros j Hj. pose proof (cell_x i j Hi Hj).
    destruct (Hvt j Hj) as [-> |[-> | ->]]; lia.
Qed.

(** The two passes of TNN_II and TNN_III. *)
Lemma dshl1_x v i j : strict_shl = false -> (i < m)%nat -> (j < n)%nat -> (n <= len v)%nat ->
  Z.abs (nth j v 0) <= 1 ->
  dshl1 (gd_p mp) (gd_m mp) v i j = Ok (2 * ((gp mp i j - gm mp i j) * nth j v 0)) /\
  Z.abs (2 * ((gp mp i j - gm mp i j) * nth j v 0)) <= 2.
Proof.
  intros Hst Hi Hj Hl Hb1. unfold dshl1. destruct (dterm_x false v i j Hi Hj Hl Hb1) as [E B].
  rewrite E. cbn [bind]. rewrite Z.mul_1_l in B |- *. split; [|lia].
  rewrite shl32_ok by (try congruence; change (2 ^ 1) with 2; unfold int_min, int_max; lia).
  f_equal. change (2 ^ 1) with 2. ring.
Qed.

Lemma go_tnn_ii (Hst : strict_shl = false) (Hmode : m_mode c = TNN_II) :
  exists mp', tnn_ii_d c mp res vec mat m n = Ok (upto m (dres c mp vec n) res, mp').
Proof.
  assert (Hvb : forall j, (j < n)%nat -> ter (nth j vec 0)).
  { intros j Hj. specialize (Hv j Hj). unfold vok in Hv. now rewrite Hmode in Hv. }
  unfold tnn_ii_d. pose proof vdp_len as Hvl.
  rewrite (load_ok vec n bit0_ii (fun v => if v =? 0 then 0 else 1)) by auto. cbn [bind].
  set (u := upto n _ _).
  assert (Lu : (n <= len u)%nat) by (unfold u; rewrite upto_length; auto).
  assert (Hu : forall j, (j < n)%nat -> nth j u 0 = (if nth j vec 0 =? 0 then 0 else 1)).
  { intros j Hj. unfold u. now rewrite nth_upto_lt by lia. }
  assert (Hu1 : forall j, (j < n)%nat -> Z.abs (nth j u 0) <= 1).
  { intros j Hj. rewrite Hu by auto. destruct (_ =? _); lia. }
  rewrite (acc2_eq m n _ (fun i j => (gp mp i j - gm mp i j) * nth j u 0)); auto.
  2: { intros i j Hi Hj. destruct (dterm_x false u i j Hi Hj Lu (Hu1 j Hj)) as [E B].
       rewrite E. f_equal. ring. }
  2: { intros i Hi. apply (bound3 _ i 1); [auto|lia|]. intros j Hj.
       destruct (dterm_x false u i j Hi Hj Lu (Hu1 j Hj)) as [E B]. lia. }
  cbn [bind].
  rewrite (load_ok vec n bit1_ii (fun v => if v =? -1 then 1 else 0)) by auto. cbn [bind].
  set (w := upto n (fun j _ => if nth j vec 0 =? -1 then 1 else 0) u).
  assert (Lw : (n <= len w)%nat) by (unfold w; rewrite upto_length; auto).
  assert (Hwv : forall j, (j < n)%nat -> nth j w 0 = (if nth j vec 0 =? -1 then 1 else 0)).
  { intros j Hj. unfold w. now rewrite nth_upto_lt by lia. }
  assert (Hw1 : forall j, (j < n)%nat -> Z.abs (nth j w 0) <= 1).
  { intros j Hj. rewrite Hwv by auto. destruct (_ =? _); lia. }
  rewrite (dec2_eq m n _ (fun i j => 2 * ((gp mp i j - gm mp i j) * nth j w 0))).
  - cbn [bind]. eexists. do 2 f_equal. rewrite upto_upto. apply (upto_ext m _ _ res 0). intros i Hi _.
    unfold dres, kap, cellb, cellv. rewrite Hmode.
    rewrite (sumZ_lin n (fun j => (gp mp i j - gm mp i j) * nth j vec 0 + 0)
      (fun j => (gp mp i j - gm mp i j) * nth j u 0)
      (fun j => 2 * ((gp mp i j - gm mp i j) * nth j w 0)) (-1)); [ring|].
    intros j Hj. rewrite Hu, Hwv by auto. destruct (Hvb j Hj) as [-> |[-> | ->]]; cbn [Z.eqb Pos.eqb]; ring.
  - rewrite upto_length; auto.
  - intros i j Hi Hj. now apply dshl1_x; auto.
  - intros i Hi. rewrite nth_upto_lt by lia.
    pose proof (HB i Hi) as HBi. rewrite span_xnn in HBi.
    assert (Z.abs (sumZ n (fun j => (gp mp i j - gm mp i j) * nth j u 0)) <= Z.of_nat n * 1).
    { apply sumZ_bound. intros j Hj. destruct (dterm_x false u i j Hi Hj Lu (Hu1 j Hj)) as [E B]. lia. }
    assert (sumZ n (fun j => Z.abs (2 * ((gp mp i j - gm mp i j) * nth j w 0))) <= Z.of_nat n * 2).
    { rewrite <- sumZ_const. apply sumZ_le. intros j Hj. now apply dshl1_x; auto. }
    lia.
Qed.

Lemma go_tnn_iii (Hst : strict_shl = false) (Hmode : m_mode c = TNN_III) :
  exists mp', tnn_iii_d c mp res vec mat m n = Ok (upto m (dres c mp vec n) res, mp').
Proof.
  assert (Hvb : forall j, (j < n)%nat -> ter (nth j vec 0)).
  { intros j Hj. specialize (Hv j Hj). unfold vok in Hv. now rewrite Hmode in Hv. }
  unfold tnn_iii_d. pose proof vdp_len as Hvl.
  rewrite (load_ok vec n bit0_iii (fun v => if v =? 0 then 1 else 0)); auto.
  2: { intros j Hj. destruct (Hvb j Hj) as [-> |[-> | ->]]; reflexivity. }
  cbn [bind].
  set (u := upto n _ _).
  assert (Lu : (n <= len u)%nat) by (unfold u; rewrite upto_length; auto).
  assert (Hu : forall j, (j < n)%nat -> nth j u 0 = (if nth j vec 0 =? 0 then 1 else 0)).
  { intros j Hj. unfold u. now rewrite nth_upto_lt by lia. }
  assert (Hu1 : forall j, (j < n)%nat -> Z.abs (nth j u 0) <= 1).
  { intros j Hj. rewrite Hu by auto. destruct (_ =? _); lia. }
  rewrite (acc2_eq m n _ (fun i j => (gp mp i j - gm mp i j) * nth j u 0)); auto.
  2: { intros i j Hi Hj. destruct (dterm_x false u i j Hi Hj Lu (Hu1 j Hj)) as [E B].
       rewrite E. f_equal. ring. }
  2: { intros i Hi. apply (bound3 _ i 1); [auto|lia|]. intros j Hj.
       destruct (dterm_x false u i j Hi Hj Lu (Hu1 j Hj)) as [E B]. lia. }
  cbn [bind].
  rewrite (load_ok vec n bit1_iii (fun v => if v =? 1 then 1 else 0)); auto.
  2: { intros j Hj. destruct (Hvb j Hj) as [-> |[-> | ->]]; reflexivity. }
  cbn [bind].
  set (w := upto n (fun j _ => if nth j vec 0 =? 1 then 1 else 0) u).
  assert (Lw : (n <= len w)%nat) by (unfold w; rewrite upto_length; auto).
  assert (Hwv : forall j, (j < n)%nat -> nth j w 0 = (if nth j vec 0 =? 1 then 1 else 0)).
  { intros j Hj. unfold w. now rewrite nth_upto_lt by lia. }
  assert (Hw1 : forall j, (j < n)%nat -> Z.abs (nth j w 0) <= 1).
  { intros j Hj. rewrite Hwv by auto. destruct (_ =? _); lia. }
  rewrite (acc2_eq m n _ (fun i j => 2 * ((gp mp i j - gm mp i j) * nth j w 0))).
  - cbn [bind]. rewrite upto_upto. rewrite (row_corr subto 1 _ op_sub); [cbn [bind]; eauto|].
    intros i Hi. unfold dres, kap, cellb, cellv. rewrite Hmode.
    rewrite (sumZ_lin n (fun j => (gp mp i j - gm mp i j) * nth j vec 0 + 0)
      (fun j => (gp mp i j - gm mp i j) * nth j u 0 + 2 * ((gp mp i j - gm mp i j) * nth j w 0))
      (fun j => gp mp i j - gm mp i j) (-1)); [rewrite sumZ_add; ring|].
    intros j Hj. rewrite Hu, Hwv by auto. destruct (Hvb j Hj) as [-> |[-> | ->]]; cbn [Z.eqb Pos.eqb]; ring.
  - rewrite upto_length; auto.
  - intros i j Hi Hj. now apply dshl1_x; auto.
  - intros i Hi. rewrite nth_upto_lt by lia.
    pose proof (HB i Hi) as HBi. rewrite span_xnn in HBi.
    assert (Z.abs (sumZ n (fun j => (gp mp i j - gm mp i j) * nth j u 0)) <= Z.of_nat n * 1).
    { apply sumZ_bound. intros j Hj. destruct (dterm_x false u i j Hi Hj Lu (Hu1 j Hj)) as [E B]. lia. }
    assert (sumZ n (fun j => Z.abs (2 * ((gp mp i j - gm mp i j) * nth j w 0))) <= Z.of_nat n * 2).
    { rewrite <- sumZ_const. apply sumZ_le. intros j Hj. now apply dshl1_x; auto. }
    lia.
Qed.

Lemma dtc_x (plus : bool) vp vm i j : strict_shl = false -> (i < m)%nat -> (j < n)%nat ->
  (n <= len vp)%nat -> (n <= len vm)%nat ->
  nth j vp 0 = posp (nth j vec 0) -> nth j vm 0 = negp (nth j vec 0) -> ter (nth j vec 0) ->
  dtc plus (gd_p mp) (gd_m mp) vp vm i j =
    Ok ((gp mp i j + (if plus then 2 else -2) * gm mp i j) * nth j vec 0) /\
  Z.abs ((gp mp i j + (if plus then 2 else -2) * gm mp i j) * nth j vec 0) <= 3.
Proof.
  intros Hst Hi Hj Lp Lm E1 E2 Ht. pose proof (cell_x i j Hi Hj) as [C1 C2].
  split; [|destruct plus, Ht as [-> |[-> | ->]]; lia].
  unfold dtc. rewrite (get_ok vp j 0) by lia. cbn [bind]. rewrite (get_ok vm j 0) by lia. cbn [bind].
  rewrite E1, E2, sub32_ok, pos_neg by (rewrite pos_neg; destruct Ht as [-> |[-> | ->]]; unfold int_min, int_max; lia).
  cbn [bind]. rewrite gp_get by auto. cbn [bind].
  rewrite mul32_ok by (destruct Ht as [-> |[-> | ->]]; unfold int_min, int_max; lia). cbn [bind].
  rewrite (get2_ok 0 (rowsN c) (colsN c)) by (try apply Hs; try lia; now apply row_x). cbn [bind].
  rewrite mul32_ok by (destruct Ht as [-> |[-> | ->]]; unfold int_min, int_max; lia). cbn [bind].
  rewrite shl32_ok by (try congruence; change (2 ^ 1) with 2;
    destruct Ht as [Et|[Et|Et]]; rewrite ?Et; unfold int_min, int_max; lia).
  cbn [bind]. change (2 ^ 1) with 2. destruct plus.
  - rewrite add32_ok by (destruct Ht as [-> |[-> | ->]]; unfold int_min, int_max; lia). f_equal. ring.
  - rewrite sub32_ok by (destruct Ht as [-> |[-> | ->]]; unfold int_min, int_max; lia). f_equal. ring.
Qed.

Lemma go_tnn_iv (Hst : strict_shl = false) (Hmode : m_mode c = TNN_IV) :
  exists mp', tnn_iv_d c mp res vec mat m n = Ok (upto m (dres c mp vec n) res, mp').
Proof.
  assert (Hvb : forall j, (j < n)%nat -> ter (nth j vec 0)).
  { intros j Hj. specialize (Hv j Hj). unfold vok in Hv. now rewrite Hmode in Hv. }
  destruct (rails true) as (vp & vm & Ep & Em & Lm & Lp' & Lm' & Hpm); [now rewrite Hmode|auto|].
  unfold tnn_iv_d. assert (HS : SPLIT c = [1; 1]) by (unfold cfg_wf in Hw; now rewrite Hmode in Hw).
  rewrite HS. change (split11 [1; 1]) with true. cbn iota. rewrite two_rail_ok by auto using vdp_len. cbn [bind]. rewrite <- Ep, <- Em.
  rewrite (acc2_eq m n _ (fun i j => (gp mp i j + (-2) * gm mp i j) * nth j vec 0)); auto.
  - cbn [bind]. eexists. do 2 f_equal. apply (upto_ext m _ _ res 0). intros i Hi _.
    unfold dres, kap, cellb, cellv. rewrite Hmode.
    rewrite (sumZ_ext n (fun j => (gp mp i j + -2 * gm mp i j) * nth j vec 0)
        (fun j => (gp mp i j - 2 * gm mp i j) * nth j vec 0 + 0)); [ring|]. intros; ring.
  - intros i j Hi Hj. destruct (Hpm j Hj) as (E1 & E2 & B1 & B2). now apply (dtc_x false); auto.
  - intros i Hi. apply (bound3 _ i 3); [auto|lia|]. intros j Hj.
    destruct (Hpm j Hj) as (E1 & E2 & B1 & B2). now apply (dtc_x false vp vm); auto.
Qed.

Lemma go_tnn_v (Hst : strict_shl = false) (Hmode : m_mode c = TNN_V) :
  exists mp', tnn_v_d c mp res vec mat m n = Ok (upto m (dres c mp vec n) res, mp').
Proof.
  assert (Hvb : forall j, (j < n)%nat -> ter (nth j vec 0)).
  { intros j Hj. specialize (Hv j Hj). unfold vok in Hv. now rewrite Hmode in Hv. }
  destruct (rails true) as (vp & vm & Ep & Em & Lm & Lp' & Lm' & Hpm); [now rewrite Hmode|auto|].
  pose proof HN as HN'. rewrite span_xnn in HN'.
  unfold tnn_v_d. assert (HS : SPLIT c = [1; 1]) by (unfold cfg_wf in Hw; now rewrite Hmode in Hw).
  rewrite HS. change (split11 [1; 1]) with true. cbn iota.
  rewrite (sum64_ok vec n 1); auto; [|unfold int_max in *; lia|].
  2: { intros j Hj. destruct (Hvb j Hj) as [-> |[-> | ->]]; lia. }
  cbn [bind]. rewrite two_rail_ok by auto using vdp_len. cbn [bind]. rewrite <- Ep, <- Em.
  rewrite (rows_eq m _ (dres c mp vec n) res 0); [cbn [bind]; eauto|auto|].
  intros i a Hi La Ea.
  rewrite (acc_entry n _ (fun j => (gp mp i j + 2 * gm mp i j) * nth j vec 0)).
  - cbn [bind].
    assert (E : nth i a 0 + sumZ n (fun j => (gp mp i j + 2 * gm mp i j) * nth j vec 0)
       - sumZ n (fun j => nth j vec 0) = dres c mp vec n i (nth i a 0)).
    { unfold dres, kap, cellb, cellv. rewrite Hmode.
      rewrite (sumZ_lin n (fun j => (gp mp i j + 2 * gm mp i j) * nth j vec 0)
        (fun j => (gp mp i j + 2 * gm mp i j - 1) * nth j vec 0 + 0) (fun j => nth j vec 0) 1); [ring|].
      intros; ring. }
    rewrite (subto64_ok _ _ _ 0).
    + rewrite upd_upd, nth_upd, Nat.eqb_refl by lia. now rewrite E.
    + rewrite upd_length. lia.
    + rewrite nth_upd, Nat.eqb_refl by lia. rewrite E, Ea. specialize (HF i Hi).
      unfold int_min, int_max in *. lia.
  - lia.
  - intros j Hj. destruct (Hpm j Hj) as (E1 & E2 & B1 & B2). now apply (dtc_x true); auto.
  - rewrite Ea. apply (bound3 _ i 3); [auto|lia|]. intros j Hj.
    destruct (Hpm j Hj) as (E1 & E2 & B1 & B2). now apply (dtc_x true vp vm); auto.
Qed.
End Xnn.

(** Modes whose digital MVM contains no left shift of a possibly negative number. *)
Definition no_neg_shift (m : mode) : bool :=
  match m with
  | I_UINT_W_OFFS | BNN_I | BNN_II | BNN_III | BNN_IV | BNN_V | BNN_VI | TNN_I => true
  | _ => false
  end.

Theorem go_all : (strict_shl = true -> no_neg_shift (m_mode c) = true) -> goal.
Proof.
  intros Hst. unfold goal, d_mvm. rewrite (sh_mode _ _ Hs).
  assert (Hst' : no_neg_shift (m_mode c) = false -> strict_shl = false).
  { intros E. destruct strict_shl; [|auto]. rewrite Hst in E by auto. discriminate. }
  pose proof Hv as Hv0. unfold vok in Hv0.
  destruct (m_mode c) eqn:Hmode.
  - apply go_int_i; auto.
  - apply go_int_i; auto.
  - apply go_int_ii; auto.
  - apply go_int_iii; auto.
  - apply go_int_iv; auto.
  - apply go_int_v; auto.
  - apply go_bnn_i; auto; now rewrite Hmode.
  - apply go_bnn_ii; auto; now rewrite Hmode.
  - apply go_bnn_iii; auto; now rewrite Hmode.
  - apply go_bnn_iv; auto; now rewrite Hmode.
  - apply go_bnn_v; auto; now rewrite Hmode.
  - apply go_quad; auto; now rewrite Hmode.
  - apply go_quad; auto; now rewrite Hmode.
  - apply go_tnn_ii; auto; now rewrite Hmode.
  - apply go_tnn_iii; auto; now rewrite Hmode.
  - apply go_tnn_iv; auto; now rewrite Hmode.
  - apply go_tnn_v; auto; now rewrite Hmode.
Qed.
End S.
End Modes.
