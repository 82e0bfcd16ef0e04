(** What a digital write stores, and the weight value each stored cell decodes to. *)
From Coq Require Import List ZArith Bool Arith Lia ZifyBool ZifyNat String.
From RecordUpdate Require Import RecordSet.
From Verif Require Import Base Lib Hoare Machine Json Config Histogram Adc ReadDisturb Parasitics
  Mapper IntMappers BnnMappers TnnMappers WriteProofs Shape MvmShape DigMvm DigModes.
Import ListNotations RecordSetNotations.
Local Open Scope Z_scope.
Local Open Scope out_scope.

Ltac Zify.zify_post_hook ::= idtac.

Definition sumL (l : list Z) : Z := fold_right Z.add 0 l.
Lemma sumL_nonneg l : Forall (fun s => 0 <= s) l -> 0 <= sumL l.
Proof. unfold sumL. induction 1; cbn [fold_right]; lia. Qed.

(** ** Bit slices of a weight *)
Lemma slice_mod sh sp v : 0 <= sh -> 0 <= sp ->
  slice sh sp v * 2 ^ sh = v mod 2 ^ (sh + sp) - v mod 2 ^ sh.
Proof.
  intros H1 H2. unfold slice.
  replace (2 ^ sp - 1) with (Z.ones sp) by (rewrite Z.ones_equiv; lia).
  rewrite Z.land_ones, Z.shiftr_div_pow2, Z.pow_add_r by lia.
  assert (0 < 2 ^ sh) by (apply Z.pow_pos_nonneg; lia).
  assert (0 < 2 ^ sp) by (apply Z.pow_pos_nonneg; lia).
  rewrite Z.rem_mul_r by lia. ring.
Qed.
Lemma slice_nonneg sh sp v : 0 <= sp -> 0 <= slice sh sp v < 2 ^ sp.
Proof.
  intros H. unfold slice. replace (2 ^ sp - 1) with (Z.ones sp) by (rewrite Z.ones_equiv; lia).
  rewrite Z.land_ones by lia. apply Z.mod_pos_bound. apply Z.pow_pos_nonneg; lia.
Qed.

Lemma shifts_from_cons cur s l : 0 <= s -> s <= cur <= 31 ->
  shifts_from cur (s :: l) = (cur - s) :: shifts_from (cur - s) l.
Proof.
  intros H1 H2. cbn [shifts_from]. rewrite u32_id by lia.
  rewrite wrap32_id by (unfold int_min, int_max; lia). reflexivity.
Qed.
Lemma shifts_from_range l : forall cur, Forall (fun s => 0 <= s) l -> sumL l <= cur <= 31 ->
  forall s, (s < List.length l)%nat -> 0 <= nth s (shifts_from cur l) 0 <= 31.
Proof.
  induction l as [|a l IH]; intros cur HF Hc s Hs; [cbn in Hs; lia|].
  inversion HF as [|? ? Ha HF']; subst. pose proof (sumL_nonneg l HF').
  cbn [sumL fold_right] in Hc. change (fold_right Z.add 0 l) with (sumL l) in Hc.
  rewrite shifts_from_cons by lia. destruct s as [|s]; cbn [nth]; [lia|].
  apply IH; auto; [lia|cbn in Hs; lia].
Qed.
Lemma recombine v l : forall cur, Forall (fun s => 0 <= s) l -> sumL l <= cur <= 31 ->
  sumZ (List.length l) (fun s => slice (nth s (shifts_from cur l) 0) (nth s l 0) v
                                 * 2 ^ nth s (shifts_from cur l) 0) =
  v mod 2 ^ cur - v mod 2 ^ (cur - sumL l).
Proof.
  induction l as [|a l IH]; intros cur HF Hc.
  - cbn [List.length sumZ sumL fold_right]. rewrite Z.sub_0_r. lia.
  - inversion HF as [|? ? Ha HF']; subst. pose proof (sumL_nonneg l HF').
    cbn [sumL fold_right] in Hc |- *. change (fold_right Z.add 0 l) with (sumL l) in *.
    change (List.length (a :: l)) with (1 + List.length l)%nat. rewrite sumZ_split.
    rewrite shifts_from_cons by lia. cbn [sumZ nth Nat.add].
    rewrite IH by (auto; lia). rewrite slice_mod by lia.
    replace (cur - a + a) with cur by lia. replace (cur - a - sumL l) with (cur - (a + sumL l)) by lia. lia.
Qed.

Section W.
Context {MC : Machine}.
Notation len := List.length.
Notation MM c := (Z.to_nat (M c)).
Notation gp mp r j := (at2 0 (gd_p mp) r j).
Notation gm mp r j := (at2 0 (gd_m mp) r j).

(** Weight splits that stay inside W_BIT. *)
Definition fits (c : config) : Prop :=
  is_int (m_mode c) = true ->
  Forall (fun s => 0 <= s) (SPLIT c) /\ sumL (SPLIT c) <= W_BIT c /\ 1 <= W_BIT c <= 30.

Lemma shifts_eq c : -2147483648 <= W_BIT c <= 2147483647 -> shifts c = shifts_from (W_BIT c) (SPLIT c).
Proof. intros H. unfold shifts. now rewrite wrap32_id by (unfold int_min, int_max; lia). Qed.

Lemma fits_split_ok c : is_int (m_mode c) = true -> fits c -> split_ok (SPLIT c) (shifts c).
Proof.
  intros Hi Hf. destruct (Hf Hi) as (H1 & H2 & H3). rewrite shifts_eq by lia. split; [|split].
  - apply shifts_from_length.
  - intros s Hs.
    assert (0 <= nth s (SPLIT c) 0).
    { rewrite Forall_forall in H1. apply H1. now apply nth_In. }
    split; [auto|]. assert (nth s (SPLIT c) 0 <= sumL (SPLIT c)); [|lia].
    clear - H1 Hs. revert s Hs. induction H1 as [|a l Ha HF IH]; intros s Hs; [cbn in Hs; lia|].
    pose proof (sumL_nonneg l HF). cbn [sumL fold_right]. change (fold_right Z.add 0 l) with (sumL l).
    destruct s; cbn [nth]; [lia|]. specialize (IH s ltac:(cbn in Hs; lia)). lia.
  - intros s Hs. apply shifts_from_range; auto. lia.
Qed.

(** Weights a mode can store without faulting. *)
Definition wok (c : config) (w : Z) : Prop :=
  match m_mode c with
  | I_DIFF_W_DIFF_1XB | I_DIFF_W_DIFF_2XB | I_OFFS_W_DIFF | I_TC_W_DIFF | I_UINT_W_DIFF =>
      - int_max <= w <= int_max
  | I_UINT_W_OFFS => int_min <= w <= int_max - 2 ^ (W_BIT c - 1)
  | BNN_I | BNN_II | BNN_III | BNN_IV | BNN_V | BNN_VI => bin w
  | _ => ter w
  end.

(** Cells stored for weight [w], segment [s]. *)
Definition stp (c : config) (w : Z) (s : nat) : Z :=
  match m_mode c with
  | I_DIFF_W_DIFF_1XB | I_DIFF_W_DIFF_2XB | I_OFFS_W_DIFF | I_TC_W_DIFF | I_UINT_W_DIFF =>
      diff_p (SPLIT c) (shifts c) w s
  | I_UINT_W_OFFS => offs_p (SPLIT c) (shifts c) (W_BIT c) w s
  | BNN_III => single_p false w
  | BNN_IV => single_p true w
  | TNN_IV => tc_p false w
  | TNN_V => tc_p true w
  | _ => xnn_p w
  end.
Definition stm (c : config) (w : Z) (s : nat) : Z :=
  match m_mode c with
  | I_DIFF_W_DIFF_1XB | I_DIFF_W_DIFF_2XB | I_OFFS_W_DIFF | I_TC_W_DIFF | I_UINT_W_DIFF =>
      diff_m (SPLIT c) (shifts c) w s
  | I_UINT_W_OFFS | BNN_III | BNN_IV => 0
  | TNN_IV => tc_m false w
  | TNN_V => tc_m true w
  | _ => xnn_m w
  end.
(** Modes that store the row sums of the weights. *)
Definition keeps_sums (m : mode) : bool :=
  match m with I_UINT_W_OFFS | BNN_III | BNN_IV | TNN_IV | TNN_V => false | _ => true end.
(** Rows per weight. *)
Definition rpw (c : config) : nat := if is_int (m_mode c) then nsplit c else 1%nat.

Definition wcell (c : config) (mat : list Z) (n r k : nat) : Z := nth (n * (r / rpw c) + k) mat 0.

Lemma rpw_rows c m : cfg_wf c -> (m <= MM c)%nat -> (m * rpw c <= rowsN c)%nat.
Proof.
  intros Hw Hm. unfold rpw, rowsN. destruct (is_int (m_mode c)) eqn:Hi; [nia|].
  pose proof (wf_ns c Hw Hi). nia.
Qed.

(** Numbers that can be written; more than weights in the modes that do not check them. *)
Definition wput (c : config) (w : Z) : Prop :=
  match m_mode c with
  | BNN_III | BNN_IV => int_min < w < int_max
  | TNN_IV | TNN_V => int_min <= w < int_max
  | _ => wok c w
  end.
Lemma wok_wput c w : wok c w -> wput c w.
Proof. unfold wput, wok, bin, ter, int_min, int_max. destruct (m_mode c); auto; lia. Qed.

Theorem d_write_put c mp mat m n :
  cfg_wf c -> shape c mp -> fits c ->
  (m <= MM c)%nat -> (n <= colsN c)%nat -> (m * n <= len mat)%nat ->
  (forall i j, (i < m)%nat -> (j < n)%nat -> wput c (nth (n * i + j) mat 0)) ->
  (keeps_sums (m_mode c) = true ->
   forall i, (i < m)%nat -> sumZ n (fun j => Z.abs (nth (n * i + j) mat 0)) <= int_max) ->
  exists mp', d_write c mp mat m n = Ok mp' /\
    shape c mp' /\ same_but_digital mp mp' /\
    patched (rowsN c) (colsN c) (rect (rpw c) m n)
      (fun r k => stp c (wcell c mat n r k) (r mod rpw c)) (gd_p mp) (gd_p mp') /\
    patched (rowsN c) (colsN c) (fun r k => two_arrays (m_mode c) && rect (rpw c) m n r k)
      (fun r k => stm c (wcell c mat n r k) (r mod rpw c)) (gd_m mp) (gd_m mp') /\
    sum_w mp' = if keeps_sums (m_mode c) then upto m (fun i _ => rowsum mat n i) (sum_w mp) else sum_w mp.
Proof.
  intros Hw Hs Hf Hm Hn Hl Hd Hsum.
  assert (HR : (m * rpw c <= rowsN c)%nat) by now apply rpw_rows.
  assert (H : exists mp', d_write c mp mat m n = Ok mp' /\ same_but_digital mp mp' /\
    patched (rowsN c) (colsN c) (rect (rpw c) m n)
      (fun r k => stp c (wcell c mat n r k) (r mod rpw c)) (gd_p mp) (gd_p mp') /\
    patched (rowsN c) (colsN c) (fun r k => two_arrays (m_mode c) && rect (rpw c) m n r k)
      (fun r k => stm c (wcell c mat n r k) (r mod rpw c)) (gd_m mp) (gd_m mp') /\
    sum_w mp' = if keeps_sums (m_mode c) then upto m (fun i _ => rowsum mat n i) (sum_w mp) else sum_w mp).
  2: { destruct H as (mp' & E & S1 & P). exists mp'. split; [exact E|]. split; [|auto].
       pose proof (d_write_tri anyfail harmless_any c mp mat m n Hw Hs) as HT.
       refine (proj1 (proj1 (tri_any _ _) (HT _) _ E)). right. auto. }
  assert (Hmsw : (m <= len (sum_w mp))%nat) by (rewrite (sh_sw _ _ Hs); auto).
  assert (Wp := sh_gp _ _ Hs). assert (Wm := sh_gm _ _ Hs).
  unfold d_write. rewrite (sh_mode _ _ Hs).
  (* plain writes *)
  assert (HP : forall put,
    (forall i j, (i < m)%nat -> (j < n)%nat ->
      put_spec (rowsN c) (colsN c) (rpw c) (two_arrays (m_mode c)) put
        (fun r k => stp c (wcell c mat n r k) (r mod rpw c))
        (fun r k => stm c (wcell c mat n r k) (r mod rpw c)) i j (nth (n * i + j) mat 0)) ->
    keeps_sums (m_mode c) = false ->
    exists mp', ('(gp, gm, sw) <- write_plain put mat m n (gd_p mp, gd_m mp, sum_w mp);;
       Ok (mp <| gd_p := gp |> <| gd_m := gm |> <| sum_w := sw |>)) = Ok mp' /\ same_but_digital mp mp' /\
    patched (rowsN c) (colsN c) (rect (rpw c) m n)
      (fun r k => stp c (wcell c mat n r k) (r mod rpw c)) (gd_p mp) (gd_p mp') /\
    patched (rowsN c) (colsN c) (fun r k => two_arrays (m_mode c) && rect (rpw c) m n r k)
      (fun r k => stm c (wcell c mat n r k) (r mod rpw c)) (gd_m mp) (gd_m mp') /\
    sum_w mp' = if keeps_sums (m_mode c) then upto m (fun i _ => rowsum mat n i) (sum_w mp) else sum_w mp).
  { intros put Hput Hk.
    destruct (write_plain_ok (rowsN c) (colsN c) (rpw c) (two_arrays (m_mode c)) put _ _ mat m n
      (gd_p mp) (gd_m mp) (sum_w mp) Wp Wm Hl Hput) as (g1 & g2 & E & P1 & P2).
    rewrite E. cbn [bind]. eexists. split; [reflexivity|]. split; [now exists g1, g2, (sum_w mp)|].
    cbn. rewrite Hk. auto. }
  assert (HS : forall put,
    (forall i j, (i < m)%nat -> (j < n)%nat ->
      put_spec (rowsN c) (colsN c) (rpw c) true put
        (fun r k => stp c (wcell c mat n r k) (r mod rpw c))
        (fun r k => stm c (wcell c mat n r k) (r mod rpw c)) i j (nth (n * i + j) mat 0)) ->
    keeps_sums (m_mode c) = true -> two_arrays (m_mode c) = true ->
    exists mp', ('(gp, gm, sw) <- write_sum put mat m n (gd_p mp, gd_m mp, sum_w mp);;
       Ok (mp <| gd_p := gp |> <| gd_m := gm |> <| sum_w := sw |>)) = Ok mp' /\ same_but_digital mp mp' /\
    patched (rowsN c) (colsN c) (rect (rpw c) m n)
      (fun r k => stp c (wcell c mat n r k) (r mod rpw c)) (gd_p mp) (gd_p mp') /\
    patched (rowsN c) (colsN c) (fun r k => two_arrays (m_mode c) && rect (rpw c) m n r k)
      (fun r k => stm c (wcell c mat n r k) (r mod rpw c)) (gd_m mp) (gd_m mp') /\
    sum_w mp' = if keeps_sums (m_mode c) then upto m (fun i _ => rowsum mat n i) (sum_w mp) else sum_w mp).
  { intros put Hput Hk Ht.
    destruct (write_sum_ok (rowsN c) (colsN c) (rpw c) put _ _ mat m n
      (gd_p mp) (gd_m mp) (sum_w mp) Wp Wm Hl Hmsw Hput (Hsum Hk)) as (g1 & g2 & E & P1 & P2).
    rewrite E. cbn [bind]. eexists. split; [reflexivity|]. split; [eexists _, _, _; reflexivity|].
    cbn. rewrite Hk, Ht. auto. }
  pose proof (wf_ns c Hw) as Hns. pose proof (fits_split_ok c) as Hsp.
  assert (Hr1 : is_int (m_mode c) = false -> forall i, (i < m)%nat -> (i < rowsN c)%nat).
  { intros Hi i Hlt. specialize (Hns Hi). unfold rowsN. nia. }
  assert (Hrs : is_int (m_mode c) = true -> forall i, (i < m)%nat -> (i * nsplit c + nsplit c <= rowsN c)%nat).
  { intros Hi i Hlt. unfold rowsN. nia. }
  assert (Hsh : is_int (m_mode c) = true -> shift mp = shifts c).
  { intros Hi. rewrite (sh_shift _ _ Hs). unfold uses_shift. now rewrite Hi. }
  unfold wput, wok in Hd. unfold wcell, stp, stm, rpw, nsplit in *.
  destruct (m_mode c) eqn:Em; cbn [is_int two_arrays keeps_sums] in *;
    try (rewrite (Hsh eq_refl));
    unfold d_write_diff, d_write_diff_xnn, d_write_offs, d_write_single, d_write_tc.
  1-5: apply HS; auto; intros i j Hi Hj; apply put_diff_ok; auto; lia.
  1: apply HP; auto; intros i j Hi Hj; apply put_offs_ok; auto; [lia|destruct (Hf ltac:(now rewrite Em)); lia].
  all: assert (Hps : forall R C bm put vp vm vp' vm' i j w, (forall r k, vp r k = vp' r k) ->
      (forall r k, vm r k = vm' r k) -> put_spec R C 1 bm put vp vm i j w -> put_spec R C 1 bm put vp' vm' i j w).
  all: try (intros R C bm put vp vm vp' vm' i j w E1 E2 H g1 g2 W1 W2;
    destruct (H g1 g2 W1 W2) as (g3 & g4 & E & P1 & P2); exists g3, g4; split; [exact E|]; split;
    [eapply patched_ext; [| |exact P1]; auto|eapply patched_ext; [| |exact P2]; auto]; fail).
  all: assert (Hd1 : forall a, (a / 1 = a)%nat) by (intros; apply Nat.div_1_r).
  all: try (unfold cfg_wf in Hw; rewrite Em in Hw; rewrite Hw; change (split11 [1; 1]) with true; cbn iota).
  all: try (apply HS; auto; intros i j Hi Hj; eapply Hps; [| |apply put_xnn_ok; auto; try lia];
    [intros; cbn beta; now rewrite Hd1|intros; cbn beta; now rewrite Hd1|];
    specialize (Hd i j Hi Hj); unfold bin, ter in Hd; cbn zeta; tauto).
  all: try (apply HP; auto; intros i j Hi Hj; eapply Hps;
    [| |apply put_single_ok; auto; try lia; specialize (Hd i j Hi Hj); unfold bin, ter in Hd; unfold int_min, int_max in *; lia];
    [intros; cbn beta; now rewrite Hd1|intros; cbn beta; reflexivity]).
  all: try (apply HP; auto; intros i j Hi Hj; eapply Hps;
    [| |apply put_tc_ok; auto; try lia; specialize (Hd i j Hi Hj); unfold bin, ter in Hd; unfold int_min, int_max in *; lia];
    [intros; cbn beta; now rewrite Hd1|intros; cbn beta; now rewrite Hd1]).
Qed.

Theorem d_write_ok c mp mat m n :
  cfg_wf c -> shape c mp -> fits c ->
  (m <= MM c)%nat -> (n <= colsN c)%nat -> (m * n <= len mat)%nat ->
  (forall i j, (i < m)%nat -> (j < n)%nat -> wok c (nth (n * i + j) mat 0)) ->
  (keeps_sums (m_mode c) = true ->
   forall i, (i < m)%nat -> sumZ n (fun j => Z.abs (nth (n * i + j) mat 0)) <= int_max) ->
  exists mp', d_write c mp mat m n = Ok mp' /\
    shape c mp' /\ same_but_digital mp mp' /\
    patched (rowsN c) (colsN c) (rect (rpw c) m n)
      (fun r k => stp c (wcell c mat n r k) (r mod rpw c)) (gd_p mp) (gd_p mp') /\
    patched (rowsN c) (colsN c) (fun r k => two_arrays (m_mode c) && rect (rpw c) m n r k)
      (fun r k => stm c (wcell c mat n r k) (r mod rpw c)) (gd_m mp) (gd_m mp') /\
    sum_w mp' = if keeps_sums (m_mode c) then upto m (fun i _ => rowsum mat n i) (sum_w mp) else sum_w mp.
Proof. intros. apply d_write_put; auto. intros. apply wok_wput; auto. Qed.

(** ** Decoding *)

(** The weight a stored cell stands for. *)
Definition keep_bits (c : config) (v : Z) : Z :=
  v mod 2 ^ W_BIT c - v mod 2 ^ (W_BIT c - sumL (SPLIT c)).
Definition decoded (c : config) (w : Z) : Z :=
  match m_mode c with
  | I_DIFF_W_DIFF_1XB | I_DIFF_W_DIFF_2XB | I_OFFS_W_DIFF | I_TC_W_DIFF | I_UINT_W_DIFF =>
      Z.sgn w * keep_bits c (Z.abs w)
  | I_UINT_W_OFFS => keep_bits c (w + 2 ^ (W_BIT c - 1)) - 2 ^ (W_BIT c - 1)
  | _ => w
  end.

Lemma keep_bits_range c v : 0 <= sumL (SPLIT c) <= W_BIT c -> 0 <= keep_bits c v < 2 ^ W_BIT c.
Proof.
  intros H. unfold keep_bits.
  assert (0 < 2 ^ W_BIT c) by (apply Z.pow_pos_nonneg; lia).
  assert (0 < 2 ^ (W_BIT c - sumL (SPLIT c))) by (apply Z.pow_pos_nonneg; lia).
  pose proof (Z.mod_pos_bound v (2 ^ W_BIT c) ltac:(lia)).
  pose proof (Z.mod_pos_bound v (2 ^ (W_BIT c - sumL (SPLIT c))) ltac:(lia)).
  split; [|lia].
  assert (E : (v mod 2 ^ W_BIT c) mod 2 ^ (W_BIT c - sumL (SPLIT c)) = v mod 2 ^ (W_BIT c - sumL (SPLIT c))).
  { symmetry. apply Znumtheory.Zmod_div_mod; [lia|lia|].
    exists (2 ^ sumL (SPLIT c)). rewrite <- Z.pow_add_r by lia. f_equal. lia. }
  rewrite <- E.
  pose proof (Z.mod_le (v mod 2 ^ W_BIT c) (2 ^ (W_BIT c - sumL (SPLIT c)))). lia.
Qed.

Lemma recombine_c c v : is_int (m_mode c) = true -> fits c ->
  segs c (fun s => slice (nth s (shifts c) 0) (nth s (SPLIT c) 0) v) = keep_bits c v.
Proof.
  intros Hi Hf. destruct (Hf Hi) as (H1 & H2 & H3). unfold segs, nsplit, keep_bits.
  rewrite shifts_eq by lia. apply recombine; auto. lia.
Qed.

Lemma segs_ext c f g : (forall s, (s < nsplit c)%nat -> f s = g s) -> segs c f = segs c g.
Proof. intros H. unfold segs. apply sumZ_ext. intros s Hs. now rewrite H. Qed.
Lemma segs_0 c : segs c (fun _ => 0) = 0.
Proof. unfold segs. apply sumZ_zero. intros; ring. Qed.
Lemma segs_opp c f : segs c (fun s => - f s) = - segs c f.
Proof. unfold segs. rewrite <- sumZ_opp. apply sumZ_ext. intros; ring. Qed.

Lemma diff_cases c w s : (0 <= w /\ diff_p (SPLIT c) (shifts c) w s = slice (nth s (shifts c) 0) (nth s (SPLIT c) 0) (Z.abs w)
      /\ diff_m (SPLIT c) (shifts c) w s = 0) \/
  (w < 0 /\ diff_p (SPLIT c) (shifts c) w s = 0 /\
   diff_m (SPLIT c) (shifts c) w s = slice (nth s (shifts c) 0) (nth s (SPLIT c) 0) (Z.abs w)).
Proof.
  unfold diff_p, diff_m. destruct (0 <=? w) eqn:E.
  - left. rewrite Z.abs_eq by lia. repeat split; auto. lia.
  - right. rewrite Z.abs_neq by lia. repeat split; auto. lia.
Qed.

Lemma diff_val c w : is_int (m_mode c) = true -> fits c ->
  segs c (fun s => diff_p (SPLIT c) (shifts c) w s - diff_m (SPLIT c) (shifts c) w s) =
    Z.sgn w * keep_bits c (Z.abs w) /\
  segs c (fun s => diff_p (SPLIT c) (shifts c) w s + diff_m (SPLIT c) (shifts c) w s) = keep_bits c (Z.abs w).
Proof.
  intros Hi Hf.
  assert (Hk0 : keep_bits c 0 = 0) by (unfold keep_bits; rewrite !Z.mod_0_l; try lia; apply Z.pow_nonzero; try lia; destruct (Hf Hi) as (?&?&?); lia).
  rewrite <- (recombine_c c (Z.abs w) Hi Hf) in *. rewrite <- (recombine_c c 0 Hi Hf) in Hk0.
  destruct (Z.lt_trichotomy w 0) as [Hw|[Hw|Hw]].
  - rewrite Z.sgn_neg by lia. split.
    + replace (-1 * segs c _) with (- segs c (fun s => slice (nth s (shifts c) 0) (nth s (SPLIT c) 0) (Z.abs w))) by ring.
      rewrite <- segs_opp. apply segs_ext. intros s _. destruct (diff_cases c w s) as [[? _]|(_ & -> & ->)]; lia.
    + apply segs_ext. intros s _. destruct (diff_cases c w s) as [[? _]|(_ & -> & ->)]; lia.
  - subst w. cbn [Z.abs Z.sgn] in *. split.
    + rewrite Z.mul_0_l. etransitivity; [|exact Hk0]. apply segs_ext. intros s _.
      destruct (diff_cases c 0 s) as [(_ & -> & ->)|[? _]]; cbn [Z.abs]; lia.
    + apply segs_ext. intros s _. destruct (diff_cases c 0 s) as [(_ & -> & ->)|[? _]]; cbn [Z.abs]; lia.
  - rewrite Z.sgn_pos by lia. rewrite Z.mul_1_l. split.
    + apply segs_ext. intros s _. destruct (diff_cases c w s) as [(_ & -> & ->)|[? _]]; lia.
    + apply segs_ext. intros s _. destruct (diff_cases c w s) as [(_ & -> & ->)|[? _]]; lia.
Qed.

(** Cells written by [d_write] decode to the weight, and are within the limits the MVM needs. *)
Definition holds (c : config) (mp : mapper) (mat : list Z) (m n : nat) : Prop :=
  forall i j, (i < m)%nat -> (j < n)%nat ->
    cellok c mp i j /\ cellv c mp i j = decoded c (nth (n * i + j) mat 0) /\ cellb c mp i j = 0.

Lemma written c mp mp' mat m n : cfg_wf c -> fits c -> (m <= MM c)%nat -> (n <= colsN c)%nat ->
  (forall i j, (i < m)%nat -> (j < n)%nat -> wok c (nth (n * i + j) mat 0)) ->
  (two_arrays (m_mode c) = false -> gd_m mp = mat2 (rowsN c) (colsN c) 0) ->
  patched (rowsN c) (colsN c) (rect (rpw c) m n)
      (fun r k => stp c (wcell c mat n r k) (r mod rpw c)) (gd_p mp) (gd_p mp') ->
  patched (rowsN c) (colsN c) (fun r k => two_arrays (m_mode c) && rect (rpw c) m n r k)
      (fun r k => stm c (wcell c mat n r k) (r mod rpw c)) (gd_m mp) (gd_m mp') ->
  holds c mp' mat m n.
Proof.
  intros Hw Hf Hm Hn Hd Hz [_ Pp] [_ Pm] i j Hi Hj.
  set (w := nth (n * i + j) mat 0) in *.
  assert (HR : (m * rpw c <= rowsN c)%nat) by now apply rpw_rows.
  destruct (is_int (m_mode c)) eqn:Hint.
  - assert (Erp : rpw c = nsplit c) by (unfold rpw; now rewrite Hint). rewrite Erp in *.
    assert (Gp : forall s, (s < nsplit c)%nat -> gp mp' (i * nsplit c + s) j = stp c w s).
    { intros s Hs. rewrite Pp by (try lia; nia). unfold rect.
      replace (_ && _) with true by nia. unfold wcell. rewrite Erp.
      destruct (blk_div (nsplit c) i s Hs) as [-> ->]. reflexivity. }
    assert (Gm : forall s, (s < nsplit c)%nat -> gm mp' (i * nsplit c + s) j = if two_arrays (m_mode c) then stm c w s else 0).
    { intros s Hs. rewrite Pm by (try lia; nia). unfold rect.
      replace ((_ <? _)%nat && (j <? n)%nat) with true by nia. rewrite andb_true_r. unfold wcell. rewrite Erp.
      destruct (blk_div (nsplit c) i s Hs) as [-> ->].
      destruct (two_arrays (m_mode c)) eqn:Et; [reflexivity|]. rewrite (Hz eq_refl). apply at2_mat2; [nia|lia]. }
    destruct (Hf Hint) as (F1 & F2 & F3). pose proof (sumL_nonneg _ F1).
    assert (Hspn : forall s, (s < nsplit c)%nat -> 0 <= nth s (SPLIT c) 0).
    { intros s Hs. rewrite Forall_forall in F1. apply F1. now apply nth_In. }
    assert (HW : 0 < 2 ^ W_BIT c) by (apply Z.pow_pos_nonneg; lia).
    assert (Hb0 : cellb c mp' i j = 0) by (unfold cellb; destruct (m_mode c); try discriminate Hint; reflexivity).
    unfold cellok. rewrite Hint.
    assert (Hdiff : two_arrays (m_mode c) = true ->
      (forall s, stp c w s = diff_p (SPLIT c) (shifts c) w s) ->
      (forall s, stm c w s = diff_m (SPLIT c) (shifts c) w s) ->
      ((forall s, (s < nsplit c)%nat -> 0 <= gp mp' (i * nsplit c + s) j /\ 0 <= gm mp' (i * nsplit c + s) j) /\
       segs c (fun s => gp mp' (i * nsplit c + s) j + gm mp' (i * nsplit c + s) j) <= 2 ^ W_BIT c) /\
      segs c (fun s => gp mp' (i * nsplit c + s) j - gm mp' (i * nsplit c + s) j) = Z.sgn w * keep_bits c (Z.abs w)).
    { intros Ht E1 E2. rewrite Ht in Gm.
      destruct (diff_val c w Hint Hf) as [V1 V2].
      pose proof (keep_bits_range c (Z.abs w) ltac:(lia)).
      split; [split|].
      - intros s Hs. rewrite Gp, Gm, E1, E2 by auto. specialize (Hspn s Hs).
        pose proof (slice_nonneg (nth s (shifts c) 0) (nth s (SPLIT c) 0) (Z.abs w) Hspn).
        destruct (diff_cases c w s) as [(_ & -> & ->)|(_ & -> & ->)]; lia.
      - rewrite (segs_ext c _ (fun s => diff_p (SPLIT c) (shifts c) w s + diff_m (SPLIT c) (shifts c) w s)); [lia|].
        intros s Hs. rewrite Gp, Gm, E1, E2 by auto. reflexivity.
      - rewrite <- V1. apply segs_ext. intros s Hs. rewrite Gp, Gm, E1, E2 by auto. reflexivity. }
    unfold cellv, decoded. unfold stp, stm in *.
    destruct (m_mode c) eqn:Em; try discriminate Hint;
      try (destruct Hdiff as [D1 D2]; [reflexivity|reflexivity|reflexivity|]; auto; fail).
    (* offset *)
    cbn [two_arrays] in *.
    assert (V : segs c (fun s => gp mp' (i * nsplit c + s) j) = keep_bits c (w + 2 ^ (W_BIT c - 1))).
    { rewrite <- recombine_c by (auto; now rewrite Em). apply segs_ext. intros s Hs. rewrite Gp by auto. reflexivity. }
    pose proof (keep_bits_range c (w + 2 ^ (W_BIT c - 1)) ltac:(lia)).
    split; [|split]; [split| |exact Hb0].
    + intros s Hs. rewrite Gp, Gm by auto. specialize (Hspn s Hs).
      pose proof (slice_nonneg (nth s (shifts c) 0) (nth s (SPLIT c) 0) (w + 2 ^ (W_BIT c - 1)) Hspn).
      unfold offs_p. lia.
    + rewrite (segs_ext c _ (fun s => gp mp' (i * nsplit c + s) j)); [lia|].
      intros s Hs. rewrite Gm by auto. lia.
    + rewrite V. reflexivity.
  - assert (Erp : rpw c = 1%nat) by (unfold rpw; now rewrite Hint). rewrite Erp in *.
    specialize (Hd i j Hi Hj). fold w in Hd.
    assert (Gp : gp mp' i j = stp c w 0).
    { rewrite Pp by lia. unfold rect. replace (_ && _) with true by lia.
      unfold wcell. now rewrite Erp, Nat.div_1_r, Nat.mod_1_r. }
    assert (Gm : gm mp' i j = if two_arrays (m_mode c) then stm c w 0 else 0).
    { rewrite Pm by lia. unfold rect. replace ((_ <? _)%nat && (j <? n)%nat) with true by lia.
      rewrite andb_true_r. unfold wcell. rewrite Erp, Nat.div_1_r, Nat.mod_1_r.
      destruct (two_arrays (m_mode c)) eqn:Et; [reflexivity|]. rewrite (Hz eq_refl). apply at2_mat2; [nia|lia]. }
    unfold cellok, cellv, cellb, decoded, wok, stp, stm in *. rewrite Hint.
    destruct (m_mode c) eqn:Em; try discriminate Hint; cbn [two_arrays] in Gm; rewrite Gp, Gm; clear Gp Gm;
      unfold bin, ter in Hd; fold w;
      repeat match type of Hd with
      | _ \/ _ => destruct Hd as [-> | Hd]
      | _ => rewrite Hd; clear Hd
      end; cbn; lia.
Qed.

(** ** Write, then multiply *)

(** Every weight bit is stored. *)
Definition exact_bits (c : config) : Prop :=
  is_int (m_mode c) = true ->
  Forall (fun s => 0 <= s) (SPLIT c) /\ sumL (SPLIT c) = W_BIT c /\
  1 <= W_BIT c /\ 1 <= I_BIT c /\ W_BIT c + I_BIT c <= 30.

(** Weights the mode represents exactly. *)
Definition wdom (c : config) (w : Z) : Prop :=
  match m_mode c with
  | I_DIFF_W_DIFF_1XB | I_DIFF_W_DIFF_2XB | I_OFFS_W_DIFF | I_TC_W_DIFF | I_UINT_W_DIFF =>
      - 2 ^ W_BIT c < w < 2 ^ W_BIT c
  | I_UINT_W_OFFS => - 2 ^ (W_BIT c - 1) <= w < 2 ^ (W_BIT c - 1)
  | BNN_I | BNN_II | BNN_III | BNN_IV | BNN_V | BNN_VI => bin w
  | _ => ter w
  end.

Lemma exact_fits c : exact_bits c -> fits c.
Proof. intros H Hi. destruct (H Hi) as (?&?&?&?&?). repeat split; auto; lia. Qed.
Lemma exact_bits_ok c : exact_bits c -> bits_ok c.
Proof.
  intros H Hi. destruct (H Hi) as (?&?&?&?&?).
  repeat split; auto; rewrite ?shifts_eq by lia; apply shifts_from_range; auto; lia.
Qed.
Lemma wdom_bound c w : exact_bits c -> wdom c w ->
  Z.abs w <= (if is_int (m_mode c) then 2 ^ W_BIT c else 1) /\ wok c w /\ decoded c w = w.
Proof.
  intros He Hd. unfold wdom, wok, decoded in *.
  destruct (is_int (m_mode c)) eqn:Hi.
  - destruct (He Hi) as (F1 & F2 & F3 & F4 & F5).
    assert (Hp : 0 < 2 ^ W_BIT c <= 2 ^ 29) by (split; [apply Z.pow_pos_nonneg|apply Z.pow_le_mono_r]; lia).
    assert (HW : 2 ^ W_BIT c = 2 * 2 ^ (W_BIT c - 1)).
    { replace (W_BIT c) with (Z.succ (W_BIT c - 1)) at 1 by lia. rewrite Z.pow_succ_r by lia. ring. }
    assert (K : forall v, 0 <= v < 2 ^ W_BIT c -> keep_bits c v = v).
    { intros v Hv. unfold keep_bits. rewrite F2, Z.sub_diag, Z.pow_0_r, Z.mod_1_r, Z.mod_small by lia. lia. }
    destruct (m_mode c); try discriminate Hi; unfold int_min, int_max.
    1-5: split; [lia|split; [lia|]]; rewrite K by lia; rewrite Z.mul_comm; apply Z.abs_sgn.
    split; [lia|split; [lia|]]. rewrite K by lia. ring.
  - destruct (m_mode c); try discriminate Hi; unfold bin, ter in *; split; try lia; auto.
Qed.

Theorem write_then_mvm c mp mat res vec mat' m n :
  (strict_shl = true -> no_neg_shift (m_mode c) = true) ->
  cfg_wf c -> shape c mp -> exact_bits c ->
  (m <= MM c)%nat -> (n <= colsN c)%nat ->
  (m * n <= len mat)%nat -> (m <= len res)%nat -> (n <= len vec)%nat ->
  (forall i j, (i < m)%nat -> (j < n)%nat -> wdom c (nth (n * i + j) mat 0)) ->
  (forall j, (j < n)%nat -> vok c (nth j vec 0)) ->
  Z.of_nat n * span c <= int_max ->
  (forall i, (i < m)%nat -> Z.abs (nth i res 0) + Z.of_nat n * span c <= int_max) ->
  exists mp' mp'', d_write c mp mat m n = Ok mp' /\ shape c mp' /\ same_but_digital mp mp' /\
    d_mvm c mp' res vec mat' m n =
      Ok (upto m (fun i x => x + sumZ n (fun j => nth (n * i + j) mat 0 * nth j vec 0)) res, mp'').
Proof.
  intros Hst Hw Hs He Hm Hn Hl Hr Hv Hd Hvd HN HB.
  pose proof (exact_fits c He) as Hf. pose proof (exact_bits_ok c He) as Hb.
  assert (Hspan : (if is_int (m_mode c) then 2 ^ W_BIT c else 1) <= span c /\
     Z.abs (kap c) * (if is_int (m_mode c) then 2 ^ W_BIT c else 1) <= span c /\ 0 <= (if is_int (m_mode c) then 2 ^ W_BIT c else 1)).
  { unfold span, kap. destruct (is_int (m_mode c)) eqn:Hi.
    - destruct (He Hi) as (F1 & F2 & F3 & F4 & F5).
      assert (0 < 2 ^ W_BIT c) by (apply Z.pow_pos_nonneg; lia).
      assert (0 < 2 ^ (I_BIT c - 1)) by (apply Z.pow_pos_nonneg; lia).
      assert (2 ^ I_BIT c = 2 * 2 ^ (I_BIT c - 1)).
      { replace (I_BIT c) with (Z.succ (I_BIT c - 1)) at 1 by lia. rewrite Z.pow_succ_r by lia. ring. }
      destruct (m_mode c); try discriminate Hi; repeat split; nia.
    - destruct (m_mode c); try discriminate Hi; cbn; lia. }
  destruct Hspan as (Hs1 & Hs2 & Hs3).
  assert (Hsum : forall i, (i < m)%nat ->
     sumZ n (fun j => Z.abs (nth (n * i + j) mat 0)) <= Z.of_nat n * (if is_int (m_mode c) then 2 ^ W_BIT c else 1)).
  { intros i Hi. rewrite <- sumZ_const. apply sumZ_le. intros j Hj. now apply wdom_bound; auto. }
  destruct (d_write_ok c mp mat m n) as (mp' & E & S' & SB & P1 & P2 & Esw); auto.
  { intros i j Hi Hj. now apply wdom_bound; auto. }
  { intros _ i Hi. specialize (Hsum i Hi). nia. }
  assert (HH : holds c mp' mat m n).
  { apply (written c mp mp' mat m n); auto.
    - intros i j Hi Hj. now apply wdom_bound; auto.
    - intros Ht. now apply (sh_gm0 _ _ Hs). }
  assert (Hdres : forall i x, (i < m)%nat ->
    dres c mp' vec n i x = x + sumZ n (fun j => nth (n * i + j) mat 0 * nth j vec 0)).
  { intros i x Hi. unfold dres.
    rewrite (sumZ_ext n (fun j => cellv c mp' i j * nth j vec 0 + cellb c mp' i j)
              (fun j => nth (n * i + j) mat 0 * nth j vec 0)).
    2: { intros j Hj. destruct (HH i j Hi Hj) as (_ & -> & ->).
         destruct (wdom_bound c _ He (Hd i j Hi Hj)) as (_ & _ & ->). ring. }
    rewrite (sumZ_ext n (fun j => cellv c mp' i j) (fun j => nth (n * i + j) mat 0)).
    2: { intros j Hj. destruct (HH i j Hi Hj) as (_ & -> & _).
         destruct (wdom_bound c _ He (Hd i j Hi Hj)) as (_ & _ & ->). reflexivity. }
    assert (Hz : kap c * (nth i (sum_w mp') 0 - sumZ n (fun j => nth (n * i + j) mat 0)) = 0); [|lia].
    rewrite Esw. destruct (keeps_sums (m_mode c)) eqn:Ek.
    - rewrite nth_upto_lt by (rewrite ?(sh_sw _ _ Hs); lia). unfold rowsum. lia.
    - unfold kap. destruct (m_mode c); try discriminate Ek; lia. }
  destruct (go_all c mp' res vec mat' m n) as (mp'' & E2); auto.
  - intros i j Hi Hj. now apply HH.
  - intros i Hi. rewrite Esw. destruct (keeps_sums (m_mode c)) eqn:Ek.
    + rewrite nth_upto_lt by (rewrite ?(sh_sw _ _ Hs); lia). rewrite Z.abs_mul.
      pose proof (sumZ_abs n (fun j => nth (n * i + j) mat 0)). specialize (Hsum i Hi). unfold rowsum.
      etransitivity; [|exact HN]. 
      transitivity (Z.abs (kap c) * (Z.of_nat n * (if is_int (m_mode c) then 2 ^ W_BIT c else 1))).
      * apply Z.mul_le_mono_nonneg_l; [apply Z.abs_nonneg|]. etransitivity; [|exact Hsum]. assumption.
      * nia.
    + unfold kap. destruct (m_mode c); try discriminate Ek; cbn; unfold int_max; lia.
  - intros i Hi. rewrite Hdres by auto. specialize (HB i Hi).
    assert (HV : forall j, (j < n)%nat -> Z.abs (nth (n * i + j) mat 0 * nth j vec 0) <= span c).
    { intros j Hj. destruct (wdom_bound c _ He (Hd i j Hi Hj)) as (B & _ & _).
      specialize (Hvd j Hj). rewrite Z.abs_mul. unfold span, vok in *.
      destruct (is_int (m_mode c)) eqn:Hii.
      - assert (Z.abs (nth j vec 0) <= 2 ^ I_BIT c).
        { destruct (He Hii) as (F1 & F2 & F3 & F4 & F5).
          assert (2 ^ I_BIT c = 2 * 2 ^ (I_BIT c - 1)).
          { replace (I_BIT c) with (Z.succ (I_BIT c - 1)) at 1 by lia. rewrite Z.pow_succ_r by lia. ring. }
          destruct (m_mode c); try discriminate Hii; lia. }
        apply Z.mul_le_mono_nonneg; lia.
      - assert (Z.abs (nth j vec 0) <= 1).
        { destruct (m_mode c); try discriminate Hii; unfold bin, ter in Hvd; lia. }
        nia. }
    pose proof (sumZ_bound n (fun j => nth (n * i + j) mat 0 * nth j vec 0) (span c) HV). lia.
  - exists mp', mp''. split; [exact E|]. split; [exact S'|]. split; [exact SB|].
    rewrite E2. do 2 f_equal. apply (upto_ext m _ _ res 0). intros i Hi _. now apply Hdres.
Qed.
End W.
