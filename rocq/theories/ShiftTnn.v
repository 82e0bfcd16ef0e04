(** Shifts of negative products in the ternary modes on a machine where they are undefined: C53. *)
From Coq Require Import List ZArith Bool Arith Lia ZifyBool ZifyNat String.
From RecordUpdate Require Import RecordSet.
From Verif Require Import Base Lib Hoare Machine Json Config Histogram Adc ReadDisturb Parasitics
  Mapper IntMappers BnnMappers TnnMappers Crossbar Api WriteProofs Shape MvmShape DigMvm DigModes DigWrite
  AnaShape ConfigProofs Reach Spec DigApi ShiftUb.
Import ListNotations RecordSetNotations.
Local Open Scope Z_scope.
Local Open Scope out_scope.

Ltac Zify.zify_post_hook ::= idtac.
Notation len := List.length.

Lemma loop2_bad (op : list Z -> nat -> Z -> out (list Z)) m n (term : nat -> nat -> out Z) corr res B k q :
  op = addto \/ op = subto -> 0 <= B -> (m <= len res)%nat ->
  (forall i, (i < m)%nat -> Z.abs (nth i res 0) + Z.of_nat n * B <= int_max) ->
  (forall i j, (i < m)%nat -> (j < n)%nat -> (exists e, term i j = Ok e /\ Z.abs e <= B) \/ term i j = UB BadShift) ->
  (forall i a, (i < m)%nat -> len a = len res -> Z.abs (nth i a 0) <= int_max ->
     exists b, corr i a = Ok b /\ len b = len a /\ forall r, r <> i -> nth r b 0 = nth r a 0) ->
  (k < m)%nat -> (q < n)%nat -> term k q = UB BadShift ->
  forN m (fun i a => b <- forN n (fun j a' => e <- term i j ;; op a' i e) a ;; corr i b) res = UB BadShift.
Proof.
  intros Hop HB0 Lr HB Ht Hc Hk Hq Hbad.
  assert (Hstep : forall i j a s e, (s < n)%nat -> (i < len a)%nat -> Z.abs (nth i a 0) <= Z.abs (nth i res 0) + Z.of_nat s * B ->
    Z.abs (nth i res 0) + Z.of_nat n * B <= int_max -> Z.abs e <= B -> (j = s)%nat ->
    exists y, op a i e = Ok (upd a i y) /\ Z.abs y <= Z.abs (nth i res 0) + Z.of_nat (s + 1) * B).
  { intros i j a s e Hs La Ha Hi He _.
    assert (Z.of_nat (s + 1) * B <= Z.of_nat n * B) by (apply Z.mul_le_mono_nonneg_r; lia).
    destruct Hop as [-> | ->].
    - rewrite (addto_ok _ _ _ 0) by (unfold int_min, int_max in *; lia). eexists. split; [reflexivity|lia].
    - rewrite (subto_ok _ _ _ 0) by (unfold int_min, int_max in *; lia). eexists. split; [reflexivity|lia]. }
  assert (Hinv : forall i a, (i < m)%nat -> len a = len res -> nth i a 0 = nth i res 0 -> forall j b, (j < n)%nat ->
    (len b = len a /\ (forall r, r <> i -> nth r b 0 = nth r a 0) /\ Z.abs (nth i b 0) <= Z.abs (nth i res 0) + Z.of_nat j * B) ->
    (exists b', (e <- term i j ;; op b i e) = Ok b' /\ (len b' = len a /\ (forall r, r <> i -> nth r b' 0 = nth r a 0) /\
       Z.abs (nth i b' 0) <= Z.abs (nth i res 0) + Z.of_nat (j + 1) * B)) \/ (e <- term i j ;; op b i e) = UB BadShift).
  { intros i a Hi La Va j b Hj (Lb & Fb & Bb). destruct (Ht i j Hi Hj) as [(e & -> & He)| ->]; [|now right]. cbn [bind].
    destruct (Hstep i j b j e Hj ltac:(lia) Bb (HB i Hi) He eq_refl) as (y & -> & Hy). left. eexists. split; [reflexivity|].
    rewrite upd_length. split; [exact Lb|]. split.
    - intros r Hr. rewrite nth_upd by lia. replace (r =? i)%nat with false by lia. now apply Fb.
    - rewrite nth_upd, Nat.eqb_refl by lia. exact Hy. }
  assert (Hrow : forall i a, (i < m)%nat -> len a = len res -> nth i a 0 = nth i res 0 ->
    (exists b, forN n (fun j a' => e <- term i j ;; op a' i e) a = Ok b /\ len b = len a /\ (forall r, r <> i -> nth r b 0 = nth r a 0) /\
       Z.abs (nth i b 0) <= Z.abs (nth i res 0) + Z.of_nat n * B) \/
    forN n (fun j a' => e <- term i j ;; op a' i e) a = UB BadShift).
  { intros i a Hi La Va.
    assert (G : forall s, (s <= n)%nat ->
      (exists b, forN s (fun j a' => e <- term i j ;; op a' i e) a = Ok b /\ (len b = len a /\ (forall r, r <> i -> nth r b 0 = nth r a 0) /\
       Z.abs (nth i b 0) <= Z.abs (nth i res 0) + Z.of_nat s * B)) \/
      forN s (fun j a' => e <- term i j ;; op a' i e) a = UB BadShift).
    { induction s as [|s IH]; intros Hs.
      - left. exists a. split; [reflexivity|]. split; [reflexivity|]. split; [auto|]. rewrite Va. lia.
      - cbn [forN]. destruct (IH ltac:(lia)) as [(b & -> & Ib)| ->]; [|now right]. cbn [bind].
        destruct (Hinv i a Hi La Va s b ltac:(lia) Ib) as [(b' & -> & Ib')| ->]; [|now right].
        left. exists b'. split; [reflexivity|]. now rewrite Nat.add_1_r in Ib'. }
    exact (G n (le_n n)). }
  apply (forN_reach (fun i a => len a = len res /\ forall r, (i <= r < m)%nat -> nth r a 0 = nth r res 0) m _ res BadShift k);
    [split; [reflexivity|auto]| |exact Hk|].
  - intros i a Hi [La Va]. destruct (Hrow i a Hi La (Va i ltac:(lia))) as [(b & -> & Lb & Fb & Bb)| ->]; [|now right]. cbn [bind].
    pose proof (HB i Hi). destruct (Hc i b Hi ltac:(lia) ltac:(lia)) as (d & -> & Ld & Fd). left. exists d. split; [reflexivity|]. split; [lia|].
    intros r Hr. rewrite Fd, Fb by lia. apply Va. lia.
  - intros a [La Va]. pose proof (Va k ltac:(lia)) as Vk.
    rewrite (forN_reach (fun j b => len b = len a /\ (forall r, r <> k -> nth r b 0 = nth r a 0) /\
       Z.abs (nth k b 0) <= Z.abs (nth k res 0) + Z.of_nat j * B) n _ a BadShift q); [reflexivity| | |exact Hq|].
    + split; [reflexivity|]. split; [auto|]. rewrite Vk. lia.
    + intros j b Hj Ib. exact (Hinv k a Hk La Vk j b Hj Ib).
    + intros b _. now rewrite Hbad.
Qed.

Lemma plain2_bad (op : list Z -> nat -> Z -> out (list Z)) m n term res B k q :
  op = addto \/ op = subto -> 0 <= B -> (m <= len res)%nat ->
  (forall i, (i < m)%nat -> Z.abs (nth i res 0) + Z.of_nat n * B <= int_max) ->
  (forall i j, (i < m)%nat -> (j < n)%nat -> (exists e, term i j = Ok e /\ Z.abs e <= B) \/ term i j = UB BadShift) ->
  (k < m)%nat -> (q < n)%nat -> term k q = UB BadShift ->
  forN m (fun i a => forN n (fun j a' => e <- term i j ;; op a' i e) a) res = UB BadShift.
Proof.
  intros Hop HB0 Lr HB Ht Hk Hq Hbad.
  rewrite <- (loop2_bad op m n term (fun _ a => Ok a) res B k q Hop HB0 Lr HB Ht); auto.
  - apply forN_ext. intros i a _. destruct (forN n _ a); reflexivity.
  - intros i a _ _ _. exists a. auto.
Qed.

Section Tnn.
Context {MC : Machine} (Hstr : strict_shl = true).
Notation MM c := (Z.to_nat (M c)).
Notation gp mp r j := (at2 0 (gd_p mp) r j).
Notation gm mp r j := (at2 0 (gd_m mp) r j).
Context (c : config) (mp : mapper) (res vec mat : list Z) (m n : nat)
  (Hw : cfg_wf c) (Hs : shape c mp)
  (Hm : (m <= MM c)%nat) (Hn : (n <= colsN c)%nat)
  (Hres : (m <= len res)%nat) (Hvec : (n <= len vec)%nat)
  (Hc : forall i j, (i < m)%nat -> (j < n)%nat -> cellok c mp i j)
  (Hv : forall j, (j < n)%nat -> vok c (nth j vec 0))
  (HB : forall i, (i < m)%nat -> Z.abs (nth i res 0) + Z.of_nat n * span c <= int_max)
  (HK : forall i, (i < m)%nat -> Z.abs (kap c * nth i (sum_w mp) 0) <= int_max)
  (HF : forall i, (i < m)%nat -> Z.abs (dres c mp vec n i (nth i res 0)) <= int_max)
  (Hx : is_int (m_mode c) = false)
  (k q : nat) (Hk : (k < m)%nat) (Hq : (q < n)%nat).
Notation DX := (dterm_x c mp res vec m n Hw Hs Hm Hn Hres Hvec Hc Hv HB HK HF Hx).
Notation CX := (cell_x c mp m n Hc Hx).
Notation GP := (gp_get c mp res vec m n Hw Hs Hm Hn Hres Hvec Hc Hv HB HK HF Hx).
Notation RX := (row_x c mp res vec m n Hw Hm Hn Hres Hvec Hc Hv HB HK HF Hx).
Notation B3 := (bound3 c mp res vec m n Hm Hn Hres Hvec Hc Hv HB HK HF Hx).
Notation vdpl := (vdp_len c mp n Hs Hn).

Lemma shl1 x : 0 <= x <= 1 -> shl32 strict_shl x 1 = Ok (2 * x).
Proof. intros H. rewrite shl32_ok by (change (2 ^ 1) with 2; unfold int_min, int_max; lia). change (2 ^ 1) with 2. f_equal. ring. Qed.
Lemma shl1_neg x : x < 0 -> shl32 strict_shl x 1 = UB BadShift.
Proof. intros H. unfold shl32. rewrite Hstr. now replace (x <? 0) with true by lia. Qed.

Lemma dshl1_cases v i j : (i < m)%nat -> (j < n)%nat -> (n <= len v)%nat -> Z.abs (nth j v 0) <= 1 ->
  (exists e, dshl1 (gd_p mp) (gd_m mp) v i j = Ok e /\ Z.abs e <= 2) \/ dshl1 (gd_p mp) (gd_m mp) v i j = UB BadShift.
Proof.
  intros Hi Hj Hl Hb1. unfold dshl1. destruct (DX false v i j Hi Hj Hl Hb1) as [E B].
  rewrite E. cbn [bind]. destruct (Z_lt_ge_dec (1 * (gp mp i j - gm mp i j) * nth j v 0) 0) as [L|L].
  - right. now apply shl1_neg.
  - left. rewrite shl1 by lia. eexists. split; [reflexivity|lia].
Qed.
Lemma dshl1_bad v i j : (i < m)%nat -> (j < n)%nat -> (n <= len v)%nat -> Z.abs (nth j v 0) <= 1 ->
  (gp mp i j - gm mp i j) * nth j v 0 < 0 -> dshl1 (gd_p mp) (gd_m mp) v i j = UB BadShift.
Proof.
  intros Hi Hj Hl Hb1 L. unfold dshl1. destruct (DX false v i j Hi Hj Hl Hb1) as [E B].
  rewrite E. cbn [bind]. apply shl1_neg. lia.
Qed.

Lemma second_room u i : (forall j, (j < n)%nat -> Z.abs (nth j u 0) <= 1) -> (n <= len u)%nat -> (i < m)%nat ->
  Z.abs (nth i (upto m (fun i x => x + sumZ n (fun j => (gp mp i j - gm mp i j) * nth j u 0)) res) 0) + Z.of_nat n * 2 <= int_max.
Proof.
  intros Hu1 Lu Hi. rewrite nth_upto_lt by lia. pose proof (HB i Hi) as HBi. rewrite (span_xnn c Hx) in HBi.
  assert (Z.abs (sumZ n (fun j => (gp mp i j - gm mp i j) * nth j u 0)) <= Z.of_nat n * 1); [|lia].
  apply sumZ_bound. intros j Hj. destruct (DX false u i j Hi Hj Lu (Hu1 j Hj)) as [E B]. lia.
Qed.

Lemma bad_tnn_ii : m_mode c = TNN_II -> cellv c mp k q = -1 -> nth q vec 0 = -1 ->
  tnn_ii_d c mp res vec mat m n = UB BadShift.
Proof.
  intros Hmode Hcv Hvq. unfold tnn_ii_d. pose proof vdpl as Hvl.
  rewrite (load_ok vec n bit0_ii (fun v => if v =? 0 then 0 else 1)) by auto. cbn [bind].
  set (u := upto n _ _).
  assert (Lu : (n <= len u)%nat) by (unfold u; rewrite upto_length; auto).
  assert (Hu1 : forall j, (j < n)%nat -> Z.abs (nth j u 0) <= 1).
  { intros j Hj. unfold u. rewrite nth_upto_lt by lia. destruct (_ =? _); lia. }
  rewrite (acc2_eq m n _ (fun i j => (gp mp i j - gm mp i j) * nth j u 0)); auto.
  2: { intros i j Hi Hj. destruct (DX false u i j Hi Hj Lu (Hu1 j Hj)) as [E B]. rewrite E. f_equal. ring. }
  2: { intros i Hi. apply (B3 _ i 1); [auto|lia|]. intros j Hj.
       destruct (DX false u i j Hi Hj Lu (Hu1 j Hj)) as [E B]. lia. }
  cbn [bind].
  rewrite (load_ok vec n bit1_ii (fun v => if v =? -1 then 1 else 0)) by auto. cbn [bind].
  set (w := upto n (fun j _ => if nth j vec 0 =? -1 then 1 else 0) u).
  assert (Lw : (n <= len w)%nat) by (unfold w; rewrite upto_length; auto).
  assert (Hwv : forall j, (j < n)%nat -> nth j w 0 = (if nth j vec 0 =? -1 then 1 else 0)).
  { intros j Hj. unfold w. now rewrite nth_upto_lt by lia. }
  assert (Hw1 : forall j, (j < n)%nat -> Z.abs (nth j w 0) <= 1).
  { intros j Hj. rewrite Hwv by auto. destruct (_ =? _); lia. }
  unfold dec2. rewrite (plain2_bad subto m n _ _ 2 k q); auto.
  - lia.
  - now rewrite upto_length.
  - intros i Hi. apply second_room; auto.
  - intros i j Hi Hj. apply dshl1_cases; auto.
  - apply dshl1_bad; auto. unfold cellv in Hcv. rewrite Hmode in Hcv. rewrite Hwv, Hvq by auto. cbn [Z.eqb Pos.eqb]. lia.
Qed.

Lemma bad_tnn_iii : m_mode c = TNN_III -> cellv c mp k q = -1 -> nth q vec 0 = 1 ->
  tnn_iii_d c mp res vec mat m n = UB BadShift.
Proof.
  intros Hmode Hcv Hvq.
  assert (Hvb : forall j, (j < n)%nat -> ter (nth j vec 0)).
  { intros j Hj. pose proof (Hv j Hj) as Hvj. unfold vok in Hvj. now rewrite Hmode in Hvj. }
  unfold tnn_iii_d. pose proof vdpl as Hvl.
  rewrite (load_ok vec n bit0_iii (fun v => if v =? 0 then 1 else 0)); auto.
  2: { intros j Hj. destruct (Hvb j Hj) as [-> |[-> | ->]]; reflexivity. }
  cbn [bind]. set (u := upto n _ _).
  assert (Lu : (n <= len u)%nat) by (unfold u; rewrite upto_length; auto).
  assert (Hu1 : forall j, (j < n)%nat -> Z.abs (nth j u 0) <= 1).
  { intros j Hj. unfold u. rewrite nth_upto_lt by lia. destruct (_ =? _); lia. }
  rewrite (acc2_eq m n _ (fun i j => (gp mp i j - gm mp i j) * nth j u 0)); auto.
  2: { intros i j Hi Hj. destruct (DX false u i j Hi Hj Lu (Hu1 j Hj)) as [E B]. rewrite E. f_equal. ring. }
  2: { intros i Hi. apply (B3 _ i 1); [auto|lia|]. intros j Hj.
       destruct (DX false u i j Hi Hj Lu (Hu1 j Hj)) as [E B]. lia. }
  cbn [bind].
  rewrite (load_ok vec n bit1_iii (fun v => if v =? 1 then 1 else 0)); auto.
  2: { intros j Hj. destruct (Hvb j Hj) as [-> |[-> | ->]]; reflexivity. }
  cbn [bind]. set (w := upto n (fun j _ => if nth j vec 0 =? 1 then 1 else 0) u).
  assert (Lw : (n <= len w)%nat) by (unfold w; rewrite upto_length; auto).
  assert (Hwv : forall j, (j < n)%nat -> nth j w 0 = (if nth j vec 0 =? 1 then 1 else 0)).
  { intros j Hj. unfold w. now rewrite nth_upto_lt by lia. }
  assert (Hw1 : forall j, (j < n)%nat -> Z.abs (nth j w 0) <= 1).
  { intros j Hj. rewrite Hwv by auto. destruct (_ =? _); lia. }
  unfold acc2. rewrite (plain2_bad addto m n _ _ 2 k q); auto.
  - lia.
  - now rewrite upto_length.
  - intros i Hi. apply second_room; auto.
  - intros i j Hi Hj. apply dshl1_cases; auto.
  - apply dshl1_bad; auto. unfold cellv in Hcv. rewrite Hmode in Hcv. rewrite Hwv, Hvq by auto. cbn [Z.eqb Pos.eqb]. lia.
Qed.

Lemma dtc_any (plus : bool) vp vm i j : (i < m)%nat -> (j < n)%nat ->
  (n <= len vp)%nat -> (n <= len vm)%nat ->
  nth j vp 0 = posp (nth j vec 0) -> nth j vm 0 = negp (nth j vec 0) -> ter (nth j vec 0) ->
  dtc plus (gd_p mp) (gd_m mp) vp vm i j =
    if gm mp i j * nth j vec 0 <? 0 then UB BadShift
    else Ok ((gp mp i j + (if plus then 2 else -2) * gm mp i j) * nth j vec 0).
Proof.
  intros Hi Hj Lp Lm E1 E2 Ht. pose proof (CX i j Hi Hj) as [C1 C2].
  unfold dtc. rewrite (get_ok vp j 0) by lia. cbn [bind]. rewrite (get_ok vm j 0) by lia. cbn [bind].
  rewrite E1, E2, sub32_ok, pos_neg by (rewrite pos_neg; destruct Ht as [-> |[-> | ->]]; unfold int_min, int_max; lia).
  cbn [bind]. rewrite GP by auto. cbn [bind].
  rewrite mul32_ok by (destruct Ht as [-> |[-> | ->]]; unfold int_min, int_max; lia). cbn [bind].
  rewrite (get2_ok 0 (rowsN c) (colsN c)) by (try apply Hs; try lia; now apply RX). cbn [bind].
  rewrite mul32_ok by (destruct Ht as [-> |[-> | ->]]; unfold int_min, int_max; lia). cbn [bind].
  destruct (gm mp i j * nth j vec 0 <? 0) eqn:Es; [now rewrite shl1_neg by lia|].
  rewrite shl1 by (destruct Ht as [Et|[Et|Et]]; rewrite ?Et in *; lia). cbn [bind]. destruct plus.
  - rewrite add32_ok by (destruct Ht as [-> |[-> | ->]]; unfold int_min, int_max; lia). f_equal. ring.
  - rewrite sub32_ok by (destruct Ht as [-> |[-> | ->]]; unfold int_min, int_max; lia). f_equal. ring.
Qed.
Lemma dtc_cases (plus : bool) vp vm i j : (i < m)%nat -> (j < n)%nat ->
  (n <= len vp)%nat -> (n <= len vm)%nat ->
  nth j vp 0 = posp (nth j vec 0) -> nth j vm 0 = negp (nth j vec 0) -> ter (nth j vec 0) ->
  (exists e, dtc plus (gd_p mp) (gd_m mp) vp vm i j = Ok e /\ Z.abs e <= 3) \/
  dtc plus (gd_p mp) (gd_m mp) vp vm i j = UB BadShift.
Proof.
  intros Hi Hj Lp Lm E1 E2 Ht. rewrite dtc_any by auto. destruct (_ <? 0); [now right|]. left.
  eexists. split; [reflexivity|]. pose proof (CX i j Hi Hj) as [C1 C2]. destruct plus, Ht as [-> |[-> | ->]]; lia.
Qed.

Lemma bad_tnn_iv : m_mode c = TNN_IV -> cellv c mp k q = -1 -> nth q vec 0 = -1 ->
  tnn_iv_d c mp res vec mat m n = UB BadShift.
Proof.
  intros Hmode Hcv Hvq.
  assert (Hvb : forall j, (j < n)%nat -> ter (nth j vec 0)).
  { intros j Hj. pose proof (Hv j Hj) as Hvj. unfold vok in Hvj. now rewrite Hmode in Hvj. }
  destruct (rails c mp res vec m n Hs Hm Hn Hres Hvec Hc Hv HB HK HF true) as (vp & vm & Ep & Em & Lm & Lp' & Lm' & Hpm); [now rewrite Hmode|auto|].
  unfold tnn_iv_d. assert (HS : SPLIT c = [1; 1]) by (unfold cfg_wf in Hw; now rewrite Hmode in Hw).
  rewrite HS. change (split11 [1; 1]) with true. cbn iota. rewrite two_rail_ok by (auto; exact vdpl). cbn [bind]. rewrite <- Ep, <- Em.
  unfold acc2. rewrite (plain2_bad addto m n _ _ 3 k q); auto.
  - lia.
  - intros i Hi. pose proof (HB i Hi) as HBi. now rewrite (span_xnn c Hx) in HBi.
  - intros i j Hi Hj. destruct (Hpm j Hj) as (E1 & E2 & _). apply dtc_cases; auto.
  - destruct (Hpm q Hq) as (E1 & E2 & _). rewrite dtc_any by auto.
    pose proof (CX k q Hk Hq) as [C1 C2]. unfold cellv in Hcv. rewrite Hmode in Hcv.
    rewrite Hvq. now replace (gm mp k q * -1 <? 0) with true by lia.
Qed.

Lemma bad_tnn_v : m_mode c = TNN_V -> cellv c mp k q = 1 -> nth q vec 0 = -1 ->
  tnn_v_d c mp res vec mat m n = UB BadShift.
Proof.
  intros Hmode Hcv Hvq.
  assert (Hvb : forall j, (j < n)%nat -> ter (nth j vec 0)).
  { intros j Hj. pose proof (Hv j Hj) as Hvj. unfold vok in Hvj. now rewrite Hmode in Hvj. }
  destruct (rails c mp res vec m n Hs Hm Hn Hres Hvec Hc Hv HB HK HF true) as (vp & vm & Ep & Em & Lm & Lp' & Lm' & Hpm); [now rewrite Hmode|auto|].
  assert (HN : Z.of_nat n * 3 <= int_max).
  { pose proof (HB k Hk) as HBi. rewrite (span_xnn c Hx) in HBi. lia. }
  unfold tnn_v_d. assert (HS : SPLIT c = [1; 1]) by (unfold cfg_wf in Hw; now rewrite Hmode in Hw).
  rewrite HS. change (split11 [1; 1]) with true. cbn iota.
  assert (Hv1 : forall j, (j < n)%nat -> Z.abs (nth j vec 0) <= 1).
  { intros j Hj. destruct (Hvb j Hj) as [-> |[-> | ->]]; lia. }
  rewrite (sum64_ok vec n 1); auto; [|unfold int_max in *; lia].
  pose proof (sumZ_bound n (fun j => nth j vec 0) 1 Hv1) as Hsum.
  cbn [bind]. rewrite two_rail_ok by (auto; exact vdpl). cbn [bind]. rewrite <- Ep, <- Em.
  rewrite (loop2_bad addto m n _ (fun i a => subto64 a i (sumZ n (fun j => nth j vec 0))) _ 3 k q); auto.
  - lia.
  - intros i Hi. pose proof (HB i Hi) as HBi. now rewrite (span_xnn c Hx) in HBi.
  - intros i j Hi Hj. destruct (Hpm j Hj) as (E1 & E2 & _). apply dtc_cases; auto.
  - intros i a Hi La Ba. unfold subto64. rewrite (get_ok a i 0) by lia. cbn [bind].
    rewrite chk64_ok by (unfold int_max in *; lia). cbn [bind]. rewrite set_ok by lia. eexists. split; [reflexivity|].
    rewrite upd_length. split; [reflexivity|]. intros r Hr. rewrite nth_upd by lia. now replace (r =? i)%nat with false by lia.
  - destruct (Hpm q Hq) as (E1 & E2 & _). rewrite dtc_any by auto.
    pose proof (CX k q Hk Hq) as [C1 C2]. unfold cellv in Hcv. rewrite Hmode in Hcv.
    rewrite Hvq. now replace (gm mp k q * -1 <? 0) with true by lia.
Qed.
End Tnn.

(** A pair of weight and input that makes a ternary mode shift a negative number. *)
Lemma d_mvm_neg_tnn {MC : Machine} c mp mat res vec mat' m n : strict_shl = true ->
  cfg_wf c -> shape c mp -> Forall (fun s => 0 <= s) (SPLIT c) -> split_covers c -> widths_fit c ->
  (m <= Z.to_nat (M c))%nat -> (n <= colsN c)%nat -> (m <= len res)%nat -> (n <= len vec)%nat ->
  (forall i j, (i < m)%nat -> (j < n)%nat -> weight_in c (entry mat n i j)) ->
  (forall j, (j < n)%nat -> input_in c (nth j vec 0)) ->
  Z.of_nat n * term_bound c <= int_max ->
  (forall i, (i < m)%nat -> Z.abs (nth i res 0) + Z.of_nat n * term_bound c <= int_max) ->
  stored c mp mat m n ->
  (exists k q, (k < m)%nat /\ (q < n)%nat /\
    In (m_mode c, entry mat n k q, nth q vec 0) [(TNN_II, -1, -1); (TNN_III, -1, 1); (TNN_IV, -1, -1); (TNN_V, 1, -1)]) ->
  d_mvm c mp res vec mat' m n = UB BadShift.
Proof.
  intros Hstr Hw Hs Hnn Hcov Hwid Hm Hn Hr Hv Hd Hvd HN HB HS Hin.
  assert (Espan : term_bound c = span c).
  { unfold term_bound, span. destruct (is_int (m_mode c)) eqn:Hi; auto.
    destruct (Hcov Hi), (Hwid Hi). apply Z.pow_add_r; lia. }
  rewrite Espan in *.
  assert (Hb : bits_ok c).
  { intros Hi. destruct (Hcov Hi) as [E1 E2], (Hwid Hi) as [E3 E4]. unfold total in E1. fold (sumL (SPLIT c)) in E1.
    repeat split; try lia; rewrite ?shifts_eq by lia; apply shifts_from_range; auto; lia. }
  assert (Hspan : row_bound c <= span c /\ Z.abs (kap c) * row_bound c <= span c).
  { unfold span, kap, row_bound. destruct (is_int (m_mode c)) eqn:Hi.
    - destruct (Hcov Hi) as [F1 F2], (Hwid Hi) as [F3 F4].
      assert (0 < 2 ^ W_BIT c) by (apply Z.pow_pos_nonneg; lia).
      assert (0 < 2 ^ (I_BIT c - 1)) by (apply Z.pow_pos_nonneg; lia).
      assert (2 ^ I_BIT c = 2 * 2 ^ (I_BIT c - 1)).
      { replace (I_BIT c) with (Z.succ (I_BIT c - 1)) at 1 by lia. rewrite Z.pow_succ_r by lia. ring. }
      destruct (m_mode c); try discriminate Hi; repeat split; nia.
    - destruct (m_mode c); try discriminate Hi; cbn; lia. }
  destruct Hspan as (Hs1 & Hs2). pose proof (row_bound_pos c) as Hs3.
  assert (Hsum : forall i, (i < m)%nat ->
     sumZ n (fun j => Z.abs (entry mat n i j)) <= Z.of_nat n * row_bound c).
  { intros i Hi. rewrite <- sumZ_const. apply sumZ_le. intros j Hj. now apply (weight_facts c _ Hcov (Hd i j Hi Hj)). }
  assert (Hdres : forall i x, (i < m)%nat ->
    dres c mp vec n i x = x + sumZ n (fun j => nth (n * i + j) mat 0 * nth j vec 0)).
  { intros i x Hi. unfold dres.
    rewrite (sumZ_ext n (fun j => cellv c mp i j * nth j vec 0 + cellb c mp i j)
              (fun j => nth (n * i + j) mat 0 * nth j vec 0)).
    2: { intros j Hj. rewrite (st_v _ _ _ _ _ HS i j Hi Hj), (st_b _ _ _ _ _ HS i j Hi Hj). unfold entry. ring. }
    rewrite (sumZ_ext n (fun j => cellv c mp i j) (entry mat n i)).
    2: { intros j Hj. apply (st_v _ _ _ _ _ HS i j Hi Hj). }
    assert (Hz : kap c * (nth i (sum_w mp) 0 - sumZ n (entry mat n i)) = 0); [|lia].
    destruct (keeps_sums (m_mode c)) eqn:Ek.
    - rewrite (st_sum _ _ _ _ _ HS Ek i Hi). lia.
    - unfold kap. destruct (m_mode c); try discriminate Ek; lia. }
  assert (Hok : forall i j, (i < m)%nat -> (j < n)%nat -> cellok c mp i j).
  { intros i j Hi Hj. now apply (st_ok _ _ _ _ _ HS). }
  assert (HK : forall i, (i < m)%nat -> Z.abs (kap c * nth i (sum_w mp) 0) <= int_max).
  { intros i Hi. destruct (keeps_sums (m_mode c)) eqn:Ek.
    + rewrite (st_sum _ _ _ _ _ HS Ek i Hi). rewrite Z.abs_mul.
      pose proof (sumZ_abs n (entry mat n i)). specialize (Hsum i Hi).
      etransitivity; [|exact HN].
      transitivity (Z.abs (kap c) * (Z.of_nat n * row_bound c)).
      * apply Z.mul_le_mono_nonneg_l; [apply Z.abs_nonneg|]. etransitivity; [|exact Hsum]. assumption.
      * nia.
    + unfold kap. destruct (m_mode c); try discriminate Ek; cbn; unfold int_max; lia. }
  assert (HF : forall i, (i < m)%nat -> Z.abs (dres c mp vec n i (nth i res 0)) <= int_max).
  { intros i Hi. rewrite Hdres by auto. specialize (HB i Hi).
    assert (HV : forall j, (j < n)%nat -> Z.abs (nth (n * i + j) mat 0 * nth j vec 0) <= span c).
    { intros j Hj. destruct (weight_facts c _ Hcov (Hd i j Hi Hj)) as (B & _ & _).
      specialize (Hvd j Hj). unfold entry in B. rewrite Z.abs_mul. unfold span, input_in, row_bound in *.
      destruct (is_int (m_mode c)) eqn:Hii.
      - assert (Z.abs (nth j vec 0) <= 2 ^ I_BIT c).
        { destruct (Hcov Hii) as [F1 F2], (Hwid Hii) as [F3 F4].
          assert (2 ^ I_BIT c = 2 * 2 ^ (I_BIT c - 1)).
          { replace (I_BIT c) with (Z.succ (I_BIT c - 1)) at 1 by lia. rewrite Z.pow_succ_r by lia. ring. }
          destruct (m_mode c); try discriminate Hii; lia. }
        apply Z.mul_le_mono_nonneg; lia.
      - assert (Z.abs (nth j vec 0) <= 1).
        { destruct (m_mode c); try discriminate Hii; lia. }
        nia. }
    pose proof (sumZ_bound n (fun j => nth (n * i + j) mat 0 * nth j vec 0) (span c) HV). lia. }
  destruct Hin as (k & q & Hk & Hq & Hcase). rewrite <- (st_v _ _ _ _ _ HS k q Hk Hq) in Hcase.
  assert (Hvo : forall j, (j < n)%nat -> vok c (nth j vec 0)) by exact Hvd.
  assert (Hx : is_int (m_mode c) = false).
  { cbn [In] in Hcase. destruct Hcase as [H|[H|[H|[H|[]]]]]; injection H as E _ _; now rewrite <- E. }
  cbn [In] in Hcase. unfold d_mvm. rewrite (sh_mode _ _ Hs).
  destruct Hcase as [H|[H|[H|[H|[]]]]]; injection H as E1 E2 E3; symmetry in E1, E2, E3; rewrite E1.
  - eapply bad_tnn_ii with (k := k) (q := q); eauto.
  - eapply bad_tnn_iii with (k := k) (q := q); eauto.
  - eapply bad_tnn_iv with (k := k) (q := q); eauto.
  - eapply bad_tnn_v with (k := k) (q := q); eauto.
Qed.

Lemma negative_pair {MC : Machine} : strict_shl = true ->
  forall (w : world) (mat vec res mat' : list Z) (m n : Z) (l : string) (k q : nat),
  reach w -> wx w <> None -> digital_only (wcfg w) = true ->
  split_covers (wcfg w) -> widths_fit (wcfg w) -> dims_in (wcfg w) m n ->
  all_entries (weight_in (wcfg w)) mat m n -> all_first (input_in (wcfg w)) vec n ->
  room (wcfg w) res m n -> (k < Z.to_nat m)%nat -> (q < Z.to_nat n)%nat ->
  In (m_mode (wcfg w), entry mat (Z.to_nat n) k q, nth q vec 0)
    [(TNN_II, -1, -1); (TNN_III, -1, 1); (TNN_IV, -1, -1); (TNN_V, 1, -1)] ->
  exists w1, step w (CpyMtrx mat m n) = Ok (w1, RCode 0) /\
    step w1 (ExeMvm res vec mat' m n l) = UB BadShift.
Proof.
  intros Hstr w mat vec res mat' m n l k q Hr Hx Hd Hcov Hwid Hdim Hmat Hvec Hroom Hk Hq Hcase.
  apply reach_good in Hr. destruct (wx w) as [x|] eqn:Ex; [|easy].
  assert (HN : n * row_bound (wcfg w) <= int32_max).
  { destruct Hroom as [HN _], Hdim as [_ Dn]. pose proof (row_term _ Hwid Hcov). nia. }
  destruct (cpy_stored w x mat m n Hr Ex Hd Hcov Hdim Hmat HN) as (w1 & E1 & Hg & Ec & _ & x1 & Ex1 & HS).
  exists w1. split; [exact E1|].
  destruct Hmat as [Hl Hent], Hvec as [Hv1 Hv2], Hroom as [HN' [Hr1 Hr2]].
  rewrite <- Ec in Hd, Hcov, Hwid, Hdim, Hent, Hv2, HN', Hr2, Hcase. clear HN E1. destruct (guard_ok w1 m n Hg Hdim) as (G1 & G2 & Hm & Hn).
  destruct Hdim as [Dm Dn]. pose proof (g_x _ Hg x1 Ex1) as Hxo. pose proof (good_wf w1 Hg) as Hwf.
  assert (ED : d_mvm (wcfg w1) (xm x1) res vec mat' (Z.to_nat m) (Z.to_nat n) = UB BadShift).
  { assert (L1 : (Z.to_nat m <= len res)%nat) by (clear -Hr1; lia).
    assert (L2 : (Z.to_nat n <= len vec)%nat) by (clear -Hv1; lia).
    assert (B1 : Z.of_nat (Z.to_nat n) * term_bound (wcfg w1) <= int_max) by (rewrite Z2Nat.id by (clear -Dn; lia); exact HN').
    assert (B2 : forall i, (i < Z.to_nat m)%nat ->
      Z.abs (nth i res 0) + Z.of_nat (Z.to_nat n) * term_bound (wcfg w1) <= int_max)
      by (intros i Hi; rewrite Z2Nat.id by (clear -Dn; lia); exact (Hr2 i Hi)).
    refine (d_mvm_neg_tnn (wcfg w1) (xm x1) mat res vec mat' (Z.to_nat m) (Z.to_nat n) Hstr Hwf
      (xo_shape _ _ Hxo) (split_nonneg w1 Hg) Hcov Hwid Hm Hn L1 L2 Hent Hv2 B1 B2 HS _).
    exists k, q. auto. }
  cbn. unfold exe_mvm. rewrite Ex1, G1, G2. cbn [bind]. unfold xmvm. cbv zeta.
  change (xm (x1 <|n_mvm := n_mvm x1 + 1|> <|n_read := n_read x1 + 1|>)) with (xm x1).
  rewrite Hd, ED. reflexivity.
Qed.
