(** Shifts of negative sums in the integer modes on a machine where they are undefined: C53. *)
From Coq Require Import List ZArith Bool Arith Lia ZifyBool ZifyNat String.
From RecordUpdate Require Import RecordSet.
From Verif Require Import Base Lib Hoare Machine Json Config Histogram Adc ReadDisturb Parasitics
  Mapper IntMappers BnnMappers TnnMappers Crossbar Api WriteProofs Shape MvmShape DigMvm DigModes DigWrite
  ConfigProofs Reach Spec DigApi AnaShape.
Import ListNotations RecordSetNotations.
Local Open Scope Z_scope.
Local Open Scope out_scope.

Ltac Zify.zify_post_hook ::= idtac.
Notation len := List.length.

Lemma forN_reach {S} (I : nat -> S -> Prop) n (body : nat -> S -> out S) s f k : I O s ->
  (forall i a, (i < n)%nat -> I i a -> (exists b, body i a = Ok b /\ I (i + 1)%nat b) \/ body i a = UB f) ->
  (k < n)%nat -> (forall a, I k a -> body k a = UB f) -> forN n body s = UB f.
Proof.
  intros H0 Hb. revert k.
  assert (G : forall q, (q <= n)%nat -> (exists b, forN q body s = Ok b /\ I q b) \/ forN q body s = UB f).
  { induction q as [|q IH].
    { intros _. left. exists s. auto. }
    intros Hq. cbn [forN].
    destruct (IH ltac:(lia)) as [(b & -> & Hbq)| ->]; [|now right]. cbn [bind].
    destruct (Hb q b ltac:(lia) Hbq) as [(b' & -> & H)| ->]; [|now right]. left. exists b'.
    split; [reflexivity|]. now rewrite Nat.add_1_r in H. }
  assert (G2 : forall q, (q <= n)%nat -> forall k, (k < q)%nat -> (forall a, I k a -> body k a = UB f) -> forN q body s = UB f).
  { induction q as [|q IH].
    { lia. }
    intros Hq k Hk Hbad. cbn [forN]. destruct (Nat.eq_dec k q) as [->|N].
    - destruct (G q ltac:(lia)) as [(b & -> & H)| ->]; [|reflexivity]. cbn [bind]. now apply Hbad.
    - now rewrite (IH ltac:(lia) k ltac:(lia) Hbad). }
  intros k Hk Hbad. exact (G2 n (le_n n) k Hk Hbad).
Qed.

Lemma neg_dec m ns (f : nat -> nat -> Z) :
  (forall i s, (i < m)%nat -> (s < ns)%nat -> 0 <= f i s) \/ exists i s, (i < m)%nat /\ (s < ns)%nat /\ f i s < 0.
Proof.
  assert (R : forall i q, (forall s, (s < q)%nat -> 0 <= f i s) \/ exists s, (s < q)%nat /\ f i s < 0).
  { intros i. induction q as [|q [IH|(s & H1 & H2)]]; [left; lia| |right; exists s; split; [lia|exact H2]].
    destruct (Z_lt_ge_dec (f i q) 0) as [L|L]; [right; exists q; lia|]. left. intros s Hs.
    destruct (Nat.eq_dec s q) as [->|]; [lia|]. apply IH. lia. }
  induction m as [|k [IH|(i & s & H1 & H2 & H3)]]; [left; lia| |right; exists i, s; repeat split; auto; lia].
  destruct (R k ns) as [L|(s & H1 & H2)]; [|right; exists k, s; repeat split; auto; lia].
  left. intros i s Hi Hs. destruct (Nat.eq_dec i k) as [->|]; [now apply L|]. apply IH; auto; lia.
Qed.

Section Core.
Context {MC : Machine} (Hstr : strict_shl = true).
Context (ns m n : nat) (shs : list Z) (D : nat -> nat -> Z) (v : nat -> Z) (Wm V : Z).
Notation sh s := (nth s shs 0).
Context (Hlen : len shs = ns)
  (Hsh : forall s, (s < ns)%nat -> 0 <= sh s <= 31)
  (HV : forall j, (j < n)%nat -> Z.abs (v j) <= V)
  (HW : forall i j, (i < m)%nat -> (j < n)%nat ->
     sumZ ns (fun s => Z.abs (D (i * ns + s)%nat j) * 2 ^ sh s) <= Wm)
  (Hn : Z.of_nat n * (Wm * V) <= int_max)
  (t : list Z) (Ht : (m * ns <= len t)%nat)
  (Htv : forall r, (r < m * ns)%nat -> nth r t 0 = sumZ n (fun j => D r j * v j)).
Notation val := (val ns shs D).

Definition sl (i s : nat) : Z := sumZ n (fun j => D (i * ns + s)%nat j * v j).

Lemma sl_bound i q : (i < m)%nat -> (q <= ns)%nat -> sumZ q (fun s => Z.abs (sl i s * 2 ^ sh s)) <= Z.of_nat n * (Wm * V).
Proof.
  intros Hi Hq. etransitivity; [|exact (core_sum ns m n shs D v Wm V Hlen Hsh HV HW i Hi)].
  apply sumZ_mono; [intros; lia|exact Hq].
Qed.
Lemma term_cases i s : (i < m)%nat -> (s < ns)%nat ->
  (x <- get t (i * ns + s) ;; sh <- get shs s ;; shl32 strict_shl x sh) =
  if sl i s <? 0 then UB BadShift else Ok (sl i s * 2 ^ sh s).
Proof.
  intros Hi Hs. rewrite (get_ok t _ 0) by nia. cbn [bind]. rewrite (get_ok shs _ 0) by lia. cbn [bind].
  rewrite Htv by nia. change (sumZ n (fun j => D (i * ns + s)%nat j * v j)) with (sl i s). pose proof (Hsh s Hs) as Hshs.
  destruct (sl i s <? 0) eqn:E.
  - unfold shl32. rewrite Hstr. replace (_ && _) with true by lia. now rewrite E.
  - apply shl32_ok; [exact Hshs|lia|]. pose proof (sl_bound i (s + 1) Hi ltac:(lia)) as B. rewrite Nat.add_1_r in B. cbn [sumZ] in B.
    pose proof (sumZ_nonneg s (fun s => Z.abs (sl i s * 2 ^ sh s)) ltac:(intros; lia)). unfold int_min, int_max in *. lia.
Qed.

Notation row i a := (forN ns (fun s b => e <- (x <- get t (i * ns + s) ;; sh <- get shs s ;; shl32 strict_shl x sh) ;; addto b i e) a).

Lemma row_bad i a : (i < m)%nat -> (i < len a)%nat -> Z.abs (nth i a 0) + Z.of_nat n * (Wm * V) <= int_max ->
  (exists s, (s < ns)%nat /\ sl i s < 0) -> row i a = UB BadShift.
Proof.
  intros Hi La Ba (s & Hs & Hneg).
  apply (forN_reach (fun q b => len b = len a /\ Z.abs (nth i b 0) <= Z.abs (nth i a 0) + sumZ q (fun s => Z.abs (sl i s * 2 ^ sh s)))
    ns _ a BadShift s); [cbn [sumZ]; split; [reflexivity|lia]| |exact Hs|].
  - intros q b Hq [Lb Bb]. rewrite term_cases by auto. destruct (sl i q <? 0); [now right|]. left. cbn [bind].
    pose proof (sl_bound i (q + 1) Hi ltac:(lia)) as B. rewrite Nat.add_1_r in *. cbn [sumZ] in *.
    rewrite (addto_ok _ _ _ 0) by (unfold int_min, int_max in *; lia). eexists. split; [reflexivity|].
    rewrite upd_length, nth_upd, Nat.eqb_refl by lia. split; [exact Lb|lia].
  - intros b _. rewrite term_cases by auto. now replace (sl i s <? 0) with true by lia.
Qed.
Lemma row_ok i a : (i < m)%nat -> (i < len a)%nat -> Z.abs (nth i a 0) + Z.of_nat n * (Wm * V) <= int_max ->
  (forall s, (s < ns)%nat -> 0 <= sl i s) -> row i a = Ok (upd a i (nth i a 0 + sumZ n (fun j => val i j * v j))).
Proof.
  intros Hi La Ba Hp. rewrite <- core_val. apply acc_entry; [exact La| |].
  - intros s Hs. rewrite term_cases by auto. specialize (Hp s Hs). now replace (sl i s <? 0) with false by lia.
  - pose proof (sl_bound i ns Hi ltac:(lia)). unfold sl in *. lia.
Qed.
Lemma row_cases i a : (i < m)%nat -> (i < len a)%nat -> Z.abs (nth i a 0) + Z.of_nat n * (Wm * V) <= int_max ->
  row i a = Ok (upd a i (nth i a 0 + sumZ n (fun j => val i j * v j))) \/ row i a = UB BadShift.
Proof.
  intros Hi La Ba. destruct (neg_dec 1 ns (fun _ s => sl i s)) as [H|(_ & s & _ & H1 & H2)].
  - left. apply row_ok; auto. intros s Hs. exact (H O s ltac:(lia) Hs).
  - right. apply row_bad; eauto.
Qed.

(** A negative row leaves a negative slice. *)
(** Rows with a correction [corr] that succeeds or shifts a negative number itself. *)
Lemma rows_bad (corr : nat -> list Z -> out (list Z)) (cv : nat -> Z) res k : (m <= len res)%nat ->
  (forall i, (i < m)%nat -> Z.abs (nth i res 0) + Z.of_nat n * (Wm * V) <= int_max) ->
  (forall i a, (i < m)%nat -> len a = len res -> nth i a 0 = nth i res 0 + sumZ n (fun j => val i j * v j) ->
     corr i a = Ok (upd a i (nth i a 0 + cv i)) \/ corr i a = UB BadShift) ->
  (k < m)%nat ->
  ((exists s, (s < ns)%nat /\ sl k s < 0) \/
   forall a, len a = len res -> nth k a 0 = nth k res 0 + sumZ n (fun j => val k j * v j) -> corr k a = UB BadShift) ->
  forN m (fun i a => b <- row i a ;; corr i b) res = UB BadShift.
Proof.
  intros Lr HB Hc Hk Hbad.
  apply (forN_reach (fun i a => len a = len res /\ forall q, (i <= q < m)%nat -> nth q a 0 = nth q res 0) m _ res BadShift k);
    [split; [reflexivity|auto]| |exact Hk|].
  - intros i a Hi [La Va]. pose proof (Va i ltac:(lia)) as Vi. pose proof (HB i Hi) as Bi. rewrite <- Vi in Bi.
    destruct (row_cases i a Hi ltac:(lia) Bi) as [-> | ->]; [|now right]. cbn [bind].
    destruct (Hc i (upd a i (nth i a 0 + sumZ n (fun j => val i j * v j))) Hi) as [-> | ->]; [| | |now right].
    + rewrite upd_length. exact La.
    + rewrite nth_upd, Nat.eqb_refl, Vi by lia. reflexivity.
    + left. eexists. split; [reflexivity|]. rewrite !upd_length. split; [exact La|]. intros q Hq.
      rewrite nth_upd by (rewrite upd_length; lia). replace (q =? i)%nat with false by lia.
      rewrite nth_upd by lia. replace (q =? i)%nat with false by lia. apply Va. lia.
  - intros a [La Va]. pose proof (Va k ltac:(lia)) as Vk. pose proof (HB k Hk) as Bk. rewrite <- Vk in Bk.
    destruct Hbad as [Hs|Hcb].
    + now rewrite row_bad by (auto; lia).
    + destruct (row_cases k a Hk ltac:(lia) Bk) as [-> | ->]; [|reflexivity]. cbn [bind]. apply Hcb.
      * now rewrite upd_length.
      * rewrite nth_upd, Nat.eqb_refl, Vk by lia. reflexivity.
Qed.
Lemma shift_bad res : (m <= len res)%nat ->
  (forall i, (i < m)%nat -> Z.abs (nth i res 0) + Z.of_nat n * (Wm * V) <= int_max) ->
  (exists i s, (i < m)%nat /\ (s < ns)%nat /\ sl i s < 0) -> shift_add ns m shs t res = UB BadShift.
Proof.
  intros Lr HB (i & s & Hi & Hs & Hneg). unfold shift_add, acc2.
  transitivity (forN m (fun i a => b <- row i a ;; (fun _ b => Ok b) i b) res).
  - apply forN_ext. intros q b _. destruct (row q b); reflexivity.
  - apply (rows_bad (fun _ b => Ok b) (fun _ => 0) res i); auto; [|left; eauto].
    intros q a Hq La _. left. rewrite Z.add_0_r, upd_same by lia. reflexivity.
Qed.
Lemma shift_good res : (m <= len res)%nat ->
  (forall i, (i < m)%nat -> Z.abs (nth i res 0) + Z.of_nat n * (Wm * V) <= int_max) ->
  (forall i s, (i < m)%nat -> (s < ns)%nat -> 0 <= sl i s) ->
  shift_add ns m shs t res = Ok (upto m (fun i x => x + sumZ n (fun j => val i j * v j)) res).
Proof.
  intros Lr HB Hp. unfold shift_add, acc2.
  apply (rows_eq m _ (fun i x => x + sumZ n (fun j => val i j * v j)) res 0 Lr).
  intros i a Hi La Va. apply row_ok; auto; [lia|]. rewrite Va. now apply HB.
Qed.
End Core.

Lemma neg_slice ns n shs D v i : sumZ n (fun j => val ns shs D i j * v j) < 0 ->
  exists s, (s < ns)%nat /\ sl ns n D v i s < 0.
Proof.
  intros Hneg. destruct (neg_dec 1 ns (fun _ s => sl ns n D v i s)) as [H|(_ & s & _ & H1 & H2)]; [|eauto].
  exfalso. rewrite <- core_val in Hneg.
  assert (0 <= sumZ ns (fun s => sumZ n (fun j => D (i * ns + s)%nat j * v j) * 2 ^ nth s shs 0)); [|lia].
  apply sumZ_nonneg. intros s Hs. apply Z.mul_nonneg_nonneg; [exact (H O s ltac:(lia) Hs)|apply Z.pow_nonneg; lia].
Qed.

Lemma pos_rest (a b : Z) : 0 <= a -> a + b < 0 -> b < 0.
Proof. lia. Qed.

Lemma u32_less x : 1 <= x <= 32 -> u32 (x - 1) = x - 1.
Proof. intros H. unfold u32. apply Z.mod_small. lia. Qed.

Section Modes.
Context {MC : Machine} (Hstr : strict_shl = true).
Notation MM c := (Z.to_nat (M c)).
Notation gp mp r j := (at2 0 (gd_p mp) r j).
Notation gm mp r j := (at2 0 (gd_m mp) r j).
Context (c : config) (mp : mapper) (res vec mat : list Z) (m n : nat)
  (Hw : cfg_wf c) (Hs : shape c mp) (Hb : bits_ok c)
  (Hm : (m <= MM c)%nat) (Hn : (n <= colsN c)%nat)
  (Hres : (m <= len res)%nat) (Hvec : (n <= len vec)%nat)
  (Hc : forall i j, (i < m)%nat -> (j < n)%nat -> cellok c mp i j)
  (Hv : forall j, (j < n)%nat -> vok c (nth j vec 0))
  (HB : forall i, (i < m)%nat -> Z.abs (nth i res 0) + Z.of_nat n * span c <= int_max)
  (HK : forall i, (i < m)%nat -> Z.abs (kap c * nth i (sum_w mp) 0) <= int_max)
  (HF : forall i, (i < m)%nat -> Z.abs (dres c mp vec n i (nth i res 0)) <= int_max)
  (Hi : is_int (m_mode c) = true)
  (Hno : match m_mode c with I_UINT_W_OFFS => False | _ => True end)
  (k : nat) (Hkm : (k < m)%nat).
Notation D := (fun r j => gp mp r j - gm mp r j).
Notation ns := (nsplit c).
Notation HWD := (HW_diff c mp res vec m n Hm Hn Hres Hvec Hc Hv HB HK HF Hi).
Notation HWO := (HW_diff_opp c mp res vec m n Hm Hn Hres Hvec Hc Hv HB HK HF Hi).
Notation SP := (span_le c mp res vec m n Hm Hn Hres Hvec Hc Hv HB HK HF Hi).
Notation SR := (seg_rng c Hb Hi).
Notation PD := (partial_diff c mp res vec m n Hs Hb Hm Hn Hres Hvec Hc Hv HB HK HF Hi).
Notation PO := (partial_diff_opp c mp res vec m n Hs Hb Hm Hn Hres Hvec Hc Hv HB HK HF Hi).
Notation BB := (fun i H => bB c res m n HB i H Hi).

Lemma m_pos : (0 < m)%nat. Proof. lia. Qed.
Lemma row_val u : sumZ n (fun j => val ns (shifts c) D k j * u j) = sumZ n (fun j => cellv c mp k j * u j).
Proof. apply sumZ_ext. intros j _. now rewrite (val_diff c mp Hi k j Hno). Qed.

Lemma bad_iv : m_mode c = I_UINT_W_DIFF -> sumZ n (fun j => cellv c mp k j * nth j vec 0) < 0 ->
  int_iv_d c mp res vec mat m n = UB BadShift.
Proof.
  intros Hmode Hneg.
  assert (HVu : forall j, (j < n)%nat -> Z.abs (nth j vec 0) <= 2 ^ I_BIT c).
  { intros j Hj. pose proof (Hv j Hj) as Hvj. unfold vok in Hvj. rewrite Hmode in Hvj. lia. }
  unfold int_iv_d. destruct (PD vec Hvec HVu (tmp_int mp) (sh_ti _ _ Hs Hi) m_pos) as (t1 & E1 & L1 & T1).
  rewrite E1. cbn [bind]. rewrite (shift_int c mp Hs Hi).
  assert (Lt : (m * ns <= len t1)%nat) by (rewrite L1; unfold rowsN; nia).
  rewrite (shift_bad Hstr ns m n (shifts c) D (fun j => nth j vec 0) (2 ^ W_BIT c) (2 ^ I_BIT c)
    (seg_len c) SR HVu HWD (SP m_pos) t1 Lt T1 res Hres BB); [reflexivity|].
  rewrite <- row_val in Hneg.
  destruct (neg_slice ns n (shifts c) D (fun j => nth j vec 0) k Hneg) as (s & H1 & H2). eauto.
Qed.

Lemma bad_i : m_mode c = I_DIFF_W_DIFF_1XB \/ m_mode c = I_DIFF_W_DIFF_2XB ->
  sumZ n (fun j => cellv c mp k j * nth j vec 0) < 0 -> int_i_d c mp res vec mat m n = UB BadShift.
Proof.
  intros Hmode Hneg. pose proof m_pos as Hm0.
  assert (Hvm : has_vdm (m_mode c) = true) by (destruct Hmode as [E|E]; now rewrite E).
  assert (Hsg : forall j, (j < n)%nat -> - 2 ^ (I_BIT c - 1) <= nth j vec 0 < 2 ^ (I_BIT c - 1)).
  { intros j Hj. apply (vec_signed c vec n Hv Hi j Hj). destruct Hmode as [E|E]; now rewrite E. }
  destruct (Hb Hi) as (W1 & I1 & WI & _).
  assert (HVh : 2 ^ I_BIT c = 2 * 2 ^ (I_BIT c - 1)).
  { replace (I_BIT c) with (Z.succ (I_BIT c - 1)) at 1 by lia. rewrite Z.pow_succ_r by lia. ring. }
  assert (HP : 0 < 2 ^ (I_BIT c - 1) <= 2 ^ 28) by (split; [apply Z.pow_pos_nonneg; lia|apply Z.pow_le_mono_r; lia]).
  assert (HWp : 0 < 2 ^ W_BIT c) by (apply Z.pow_pos_nonneg; lia).
  pose proof (sh_vdp _ _ Hs) as Lp. pose proof (sh_vdm _ _ Hs Hvm) as Lm.
  unfold int_i_d.
  rewrite split_pm_ok; [|lia|lia|lia|].
  2: { intros j Hj. specialize (Hsg j Hj). unfold int_max. lia. }
  cbn [bind]. set (up := upto n (fun j _ => posp (nth j vec 0)) (vd_p mp)).
  set (um := upto n (fun j _ => negp (nth j vec 0)) (vd_m mp)).
  assert (Np : forall j, (j < n)%nat -> nth j up 0 = posp (nth j vec 0)) by (intros; unfold up; now rewrite nth_upto_lt by lia).
  assert (Nm : forall j, (j < n)%nat -> nth j um 0 = negp (nth j vec 0)) by (intros; unfold um; now rewrite nth_upto_lt by lia).
  assert (HVp : forall j, (j < n)%nat -> Z.abs (nth j up 0) <= 2 ^ I_BIT c).
  { intros j Hj. rewrite Np by auto. specialize (Hsg j Hj). unfold posp. lia. }
  assert (HVm : forall j, (j < n)%nat -> Z.abs (nth j um 0) <= 2 ^ I_BIT c).
  { intros j Hj. rewrite Nm by auto. specialize (Hsg j Hj). unfold negp. lia. }
  destruct (PD up ltac:(unfold up; rewrite upto_length; lia) HVp (tmp_int mp) (sh_ti _ _ Hs Hi) Hm0) as (t1 & E1 & L1 & T1).
  rewrite E1. cbn [bind]. rewrite (shift_int c mp Hs Hi).
  assert (Lt : (m * ns <= len t1)%nat) by (rewrite L1; unfold rowsN; nia).
  destruct (neg_dec m ns (sl ns n D (fun j => nth j up 0))) as [Hpos|Hbad].
  2: { now rewrite (shift_bad Hstr ns m n (shifts c) D (fun j => nth j up 0) (2 ^ W_BIT c) (2 ^ I_BIT c)
         (seg_len c) SR HVp HWD (SP m_pos) t1 Lt T1 res Hres BB Hbad). }
  rewrite (shift_good Hstr ns m n (shifts c) D (fun j => nth j up 0) (2 ^ W_BIT c) (2 ^ I_BIT c)
         (seg_len c) SR HVp HWD (SP m_pos) t1 Lt T1 res Hres BB Hpos). cbn [bind].
  destruct (PO um ltac:(unfold um; rewrite upto_length; lia) HVm t1 L1 Hm0) as (t2 & E2 & L2 & T2).
  rewrite E2. cbn [bind].
  rewrite (shift_bad Hstr ns m n (shifts c) (fun r j => - (D r j)) (fun j => nth j um 0) (2 ^ W_BIT c) (2 ^ (I_BIT c - 1))
         (seg_len c) SR); [reflexivity| |exact HWO| | |exact T2| | |].
  - intros j Hj. rewrite Nm by auto. specialize (Hsg j Hj). unfold negp. lia.
  - pose proof (SP m_pos) as S0. nia.
  - rewrite L2. unfold rowsN. nia.
  - now rewrite upto_length.
  - intros i Hi'. rewrite nth_upto_lt by lia.
    pose proof (bB c res m n HB i Hi' Hi) as HBi. rewrite HVh in HBi.
    assert (Hps : Z.abs (sumZ n (fun j => val ns (shifts c) D i j * nth j up 0)) <= Z.of_nat n * (2 ^ W_BIT c * 2 ^ (I_BIT c - 1))).
    { apply sumZ_bound. intros j Hj. rewrite Np by auto. rewrite Z.abs_mul.
      apply Z.mul_le_mono_nonneg; try lia.
      - unfold val. etransitivity; [apply sumZ_abs|].
        etransitivity; [|exact (HWD i j Hi' Hj)]. apply sumZ_le. intros s _.
        rewrite Z.abs_mul, (Z.abs_eq (2 ^ _)) by (apply Z.pow_nonneg; lia). lia.
      - specialize (Hsg j Hj). unfold posp. lia. }
    lia.
  - assert (HN : sumZ n (fun j => val ns (shifts c) (fun r j => - (D r j)) k j * nth j um 0) < 0).
    { assert (0 <= sumZ n (fun j => val ns (shifts c) D k j * nth j up 0)) as P1.
      { rewrite <- core_val. apply sumZ_nonneg. intros s Hs'. apply Z.mul_nonneg_nonneg; [exact (Hpos k s Hkm Hs')|apply Z.pow_nonneg; lia]. }
      rewrite <- row_val in Hneg.
      assert (EQ : sumZ n (fun j => val ns (shifts c) D k j * nth j vec 0) = sumZ n (fun j => val ns (shifts c) D k j * nth j up 0) +
        sumZ n (fun j => val ns (shifts c) (fun r j => - (D r j)) k j * nth j um 0)); [|rewrite EQ in Hneg; exact (pos_rest _ _ P1 Hneg)].
      rewrite <- sumZ_add. apply sumZ_ext. intros j Hj. rewrite (val_opp c mp), Np, Nm by auto.
      rewrite <- (pos_neg (nth j vec 0)) at 1. ring. }
    destruct (neg_slice ns n (shifts c) _ (fun j => nth j um 0) k HN) as (s & H1 & H2). eauto.
Qed.

Lemma bad_ii : m_mode c = I_OFFS_W_DIFF -> nth k (sum_w mp) 0 < 0 -> int_ii_d c mp res vec mat m n = UB BadShift.
Proof.
  intros Hmode Hneg. pose proof m_pos as Hm0.
  assert (Hk' : kap c = 2 ^ (I_BIT c - 1)) by (unfold kap; now rewrite Hmode).
  assert (Hsg : forall j, (j < n)%nat -> - 2 ^ (I_BIT c - 1) <= nth j vec 0 < 2 ^ (I_BIT c - 1)).
  { intros j Hj. apply (vec_signed c vec n Hv Hi j Hj). now rewrite Hmode. }
  destruct (Hb Hi) as (W1 & I1 & WI & _).
  assert (HVh : 2 ^ I_BIT c = 2 * 2 ^ (I_BIT c - 1)).
  { replace (I_BIT c) with (Z.succ (I_BIT c - 1)) at 1 by lia. rewrite Z.pow_succ_r by lia. ring. }
  assert (HP : 0 < 2 ^ (I_BIT c - 1) <= 2 ^ 28) by (split; [apply Z.pow_pos_nonneg; lia|apply Z.pow_le_mono_r; lia]).
  pose proof (sh_vdp _ _ Hs) as Lp.
  unfold int_ii_d. rewrite u32_less by lia.
  rewrite (load_ok vec n _ (fun v => 2 ^ (I_BIT c - 1) + v)); [|lia|lia|].
  2: { intros j Hj. specialize (Hsg j Hj). rewrite shl32_ok by (unfold int_min, int_max; lia).
       cbn [bind]. rewrite Z.mul_1_l. apply add32_ok. unfold int_min, int_max; lia. }
  cbn [bind]. set (u := upto n (fun j _ => 2 ^ (I_BIT c - 1) + nth j vec 0) (vd_p mp)).
  assert (Hu : forall j, (j < n)%nat -> nth j u 0 = 2 ^ (I_BIT c - 1) + nth j vec 0) by (intros; unfold u; now rewrite nth_upto_lt by lia).
  assert (HVu : forall j, (j < n)%nat -> Z.abs (nth j u 0) <= 2 ^ I_BIT c).
  { intros j Hj. rewrite Hu by auto. specialize (Hsg j Hj). lia. }
  destruct (PD u ltac:(unfold u; rewrite upto_length; lia) HVu (tmp_int mp) (sh_ti _ _ Hs Hi) Hm0) as (t1 & E1 & L1 & T1).
  rewrite E1. cbn [bind]. rewrite (shift_int c mp Hs Hi).
  assert (Lt : (m * ns <= len t1)%nat) by (rewrite L1; unfold rowsN; nia).
  set (corr := fun i res => sw <- get (sum_w mp) i ;; y <- shl32 strict_shl sw (I_BIT c - 1) ;; subto res i y).
  pose proof (rows_bad Hstr ns m n (shifts c) D (fun j => nth j u 0) (2 ^ W_BIT c) (2 ^ I_BIT c)
    (seg_len c) SR HVu HWD (SP m_pos) t1 Lt T1 corr (fun i => - (nth i (sum_w mp) 0 * 2 ^ (I_BIT c - 1))) res k Hres BB) as RB.
  match goal with |- bind ?x _ = _ => assert (EB : x = UB BadShift); [|now rewrite EB] end.
  etransitivity; [|apply RB; [|exact Hkm|right]].
  - apply forN_ext. intros i a _. unfold corr.
    assert (EF : forall q b, (q < ns)%nat ->
      (x <- get t1 (i * ns + q) ;; sh <- get (shifts c) q ;; y <- shl32 strict_shl x sh ;; addto b i y) =
      (e <- (x <- get t1 (i * ns + q) ;; sh <- get (shifts c) q ;; shl32 strict_shl x sh) ;; addto b i e)).
    { intros q b _. destruct (get t1 (i * ns + q)); cbn [bind]; [destruct (get (shifts c) q)| | |]; reflexivity. }
    now rewrite (forN_ext _ _ _ a EF).
  - intros i a Hi' La Ea. unfold corr. rewrite (get_ok _ i 0) by (rewrite (sh_sw _ _ Hs); lia). cbn [bind].
    destruct (Z_lt_ge_dec (nth i (sum_w mp) 0) 0) as [L|L].
    + right. unfold shl32. rewrite Hstr. replace (_ && _) with true by lia. now replace (nth i (sum_w mp) 0 <? 0) with true by lia.
    + left. pose proof (HK i Hi') as HKi. rewrite Hk' in HKi.
      rewrite shl32_ok by (unfold int_min, int_max in *; lia). cbn [bind].
      rewrite (subto_ok _ _ _ 0); [reflexivity|lia|].
      pose proof (HF i Hi') as HFi. unfold dres in HFi. rewrite Hk' in HFi.
      assert (EQ : sumZ n (fun j => cellv c mp i j * nth j vec 0 + cellb c mp i j) =
        sumZ n (fun j => val ns (shifts c) D i j * nth j u 0) - 2 ^ (I_BIT c - 1) * sumZ n (fun j => cellv c mp i j)).
      { rewrite <- sumZ_mul_l, <- sumZ_sub. apply sumZ_ext. intros j Hj.
        rewrite (cellb_int c mp Hi), (val_diff c mp Hi _ _ Hno), Hu by auto. ring. }
      rewrite EQ in HFi. rewrite Ea. unfold int_min, int_max in *. lia.
  - intros a La Ea. unfold corr. rewrite (get_ok _ k 0) by (rewrite (sh_sw _ _ Hs); lia). cbn [bind].
    unfold shl32. rewrite Hstr. replace (_ && _) with true by lia. now replace (nth k (sum_w mp) 0 <? 0) with true by lia.
Qed.

Lemma bad_iii : m_mode c = I_TC_W_DIFF -> sumZ n (fun j => cellv c mp k j * nth j vec 0) < 0 ->
  int_iii_d c mp res vec mat m n = UB BadShift.
Proof.
  intros Hmode Hneg. pose proof m_pos as Hm0.
  assert (Hsg : forall j, (j < n)%nat -> - 2 ^ (I_BIT c - 1) <= nth j vec 0 < 2 ^ (I_BIT c - 1)).
  { intros j Hj. apply (vec_signed c vec n Hv Hi j Hj). now rewrite Hmode. }
  destruct (Hb Hi) as (W1 & I1 & WI & _).
  assert (HVh : 2 ^ I_BIT c = 2 * 2 ^ (I_BIT c - 1)).
  { replace (I_BIT c) with (Z.succ (I_BIT c - 1)) at 1 by lia. rewrite Z.pow_succ_r by lia. ring. }
  assert (HP : 0 < 2 ^ (I_BIT c - 1) <= 2 ^ 28) by (split; [apply Z.pow_pos_nonneg; lia|apply Z.pow_le_mono_r; lia]).
  pose proof (sh_vdp _ _ Hs) as Lp.
  unfold int_iii_d. rewrite u32_less by lia. rewrite WriteProofs.ones_ok by lia. cbn [bind].
  rewrite (load_ok vec n _ (fun v => v mod 2 ^ (I_BIT c - 1))); [|lia|lia|].
  2: { intros j Hj. specialize (Hsg j Hj). f_equal. apply (land_mask c mp res vec m n); auto; lia. }
  cbn [bind]. set (u1 := upto n (fun j _ => nth j vec 0 mod 2 ^ (I_BIT c - 1)) (vd_p mp)).
  assert (Hu1 : forall j, (j < n)%nat -> nth j u1 0 = nth j vec 0 mod 2 ^ (I_BIT c - 1)) by (intros; unfold u1; now rewrite nth_upto_lt by lia).
  assert (Lu1 : len u1 = colsN c) by (unfold u1; now rewrite upto_length).
  rewrite (shl32_ok strict_shl 1) by (unfold int_min, int_max; lia). rewrite Z.mul_1_l.
  assert (EL : load vec n (fun v => Ok (wrap32 (Z.land (u32 (2 ^ (I_BIT c - 1))) (u32 v)))) u1 =
               Ok (upto n (fun j _ => if nth j vec 0 <? 0 then 2 ^ (I_BIT c - 1) else 0) u1)).
  { apply (load_ok vec n _ (fun v => if v <? 0 then 2 ^ (I_BIT c - 1) else 0)); [lia|lia|].
    intros j Hj. specialize (Hsg j Hj). f_equal. apply (land_sign c mp res vec m n); auto; lia. }
  set (u2 := upto n (fun j _ => if nth j vec 0 <? 0 then 2 ^ (I_BIT c - 1) else 0) u1) in *.
  assert (Hu2 : forall j, (j < n)%nat -> nth j u2 0 = if nth j vec 0 <? 0 then 2 ^ (I_BIT c - 1) else 0) by (intros; unfold u2; now rewrite nth_upto_lt by lia).
  assert (Lu2 : len u2 = colsN c) by (unfold u2; now rewrite upto_length).
  assert (H12 : forall j, (j < n)%nat -> 0 <= nth j u1 0 /\ 0 <= nth j u2 0 /\
     nth j u1 0 - nth j u2 0 = nth j vec 0 /\ nth j u1 0 + nth j u2 0 <= 2 ^ I_BIT c).
  { intros j Hj. rewrite Hu1, Hu2 by auto. specialize (Hsg j Hj).
    pose proof (Z.mod_pos_bound (nth j vec 0) (2 ^ (I_BIT c - 1)) ltac:(lia)).
    destruct (nth j vec 0 <? 0) eqn:E.
    - assert (nth j vec 0 mod 2 ^ (I_BIT c - 1) = nth j vec 0 + 2 ^ (I_BIT c - 1)).
      { symmetry. apply (Z.mod_unique _ _ (-1)); lia. }
      lia.
    - rewrite Z.mod_small in * by lia. lia. }
  assert (HV1 : forall j, (j < n)%nat -> Z.abs (nth j u1 0) <= 2 ^ I_BIT c) by (intros j Hj; specialize (H12 j Hj); lia).
  assert (HV2 : forall j, (j < n)%nat -> Z.abs (nth j u2 0) <= 2 ^ I_BIT c) by (intros j Hj; specialize (H12 j Hj); lia).
  assert (HV3 : forall j, (j < n)%nat -> Z.abs (nth j vec 0) <= 2 ^ I_BIT c) by (intros j Hj; specialize (H12 j Hj); lia).
  destruct (PD u1 ltac:(lia) HV1 (tmp_int mp) (sh_ti _ _ Hs Hi) Hm0) as (t1 & E1 & L1 & T1).
  rewrite E1. cbn [bind]. rewrite EL. cbn [bind].
  rewrite (dec2_eq _ _ _ (fun r j => (gp mp r j - gm mp r j) * nth j u2 0)).
  - cbn [bind]. rewrite (shift_int c mp Hs Hi). set (t2 := upto (m * ns) _ t1).
    assert (Lt : (m * ns <= len t2)%nat) by (unfold t2; rewrite upto_length, L1; unfold rowsN; nia).
    assert (T2 : forall r, (r < m * ns)%nat -> nth r t2 0 = sumZ n (fun j => D r j * nth j vec 0)).
    { intros r Hr. unfold t2. rewrite nth_upto_lt by (rewrite ?L1; unfold rowsN; nia). rewrite T1 by auto.
      rewrite <- sumZ_sub. apply sumZ_ext. intros j Hj. destruct (H12 j Hj) as (?&?&E&?). rewrite <- E. ring. }
    rewrite (shift_bad Hstr ns m n (shifts c) D (fun j => nth j vec 0) (2 ^ W_BIT c) (2 ^ I_BIT c)
      (seg_len c) SR HV3 HWD (SP m_pos) t2 Lt T2 res Hres BB); [reflexivity|].
    rewrite <- row_val in Hneg.
    destruct (neg_slice ns n (shifts c) D (fun j => nth j vec 0) k Hneg) as (s & H1 & H2). eauto.
  - rewrite L1. unfold rowsN. nia.
  - intros r j Hr Hj.
    destruct (core_term ns m n (shifts c) D (fun j => nth j u2 0) (2 ^ W_BIT c) (2 ^ I_BIT c) (seg_len c) SR HV2 HWD r j Hr Hj) as [B1 B2].
    pose proof (V_max c mp res vec m n Hb Hm Hn Hres Hvec Hc Hv HB HK HF Hi).
    assert (Hrow : (r < rowsN c)%nat) by (unfold rowsN; nia).
    apply (dterm_ok (rowsN c) (colsN c)); try apply Hs; try exact Hrow; try lia; unfold int_min, int_max; lia.
  - intros r Hr. rewrite T1 by auto. etransitivity; [|exact (SP m_pos)].
    etransitivity; [apply Z.add_le_mono_r, sumZ_abs|].
    rewrite <- sumZ_add, <- sumZ_const. apply sumZ_le. intros j Hj.
    destruct (core_term ns m n (shifts c) D (fun j => nth j u2 0) (2 ^ W_BIT c) (2 ^ I_BIT c) (seg_len c) SR HV2 HWD r j Hr Hj) as [B1 B2].
    destruct (H12 j Hj) as (?&?&?&?). rewrite !Z.abs_mul, (Z.abs_eq (nth j u1 0)), (Z.abs_eq (nth j u2 0)) by auto.
    rewrite <- Z.mul_add_distr_l. apply Z.mul_le_mono_nonneg; lia.
Qed.
End Modes.

(** A row that makes the differential integer modes shift a negative number. *)
Lemma d_mvm_neg {MC : Machine} c mp mat res vec mat' m n : strict_shl = true ->
  cfg_wf c -> shape c mp -> Forall (fun s => 0 <= s) (SPLIT c) -> split_covers c -> widths_fit c ->
  (m <= Z.to_nat (M c))%nat -> (n <= colsN c)%nat -> (m <= len res)%nat -> (n <= len vec)%nat ->
  (forall i j, (i < m)%nat -> (j < n)%nat -> weight_in c (entry mat n i j)) ->
  (forall j, (j < n)%nat -> input_in c (nth j vec 0)) ->
  Z.of_nat n * term_bound c <= int_max ->
  (forall i, (i < m)%nat -> Z.abs (nth i res 0) + Z.of_nat n * term_bound c <= int_max) ->
  stored c mp mat m n ->
  (exists k, (k < m)%nat /\
    (In (m_mode c) [I_DIFF_W_DIFF_1XB; I_DIFF_W_DIFF_2XB; I_TC_W_DIFF; I_UINT_W_DIFF] /\
       sumZ n (fun j => entry mat n k j * nth j vec 0) < 0 \/
     m_mode c = I_OFFS_W_DIFF /\ sumZ n (fun j => entry mat n k j) < 0)) ->
  d_mvm c mp res vec mat' m n = UB BadShift.
Proof.
  intros Hstr Hw Hs Hnn Hcov Hwid Hm Hn Hr Hv Hd Hvd HN HB HS Hin.
  assert (Espan : term_bound c = span c).
  { unfold term_bound, span. destruct (is_int (m_mode c)) eqn:Hi; auto.
    destruct (Hcov Hi), (Hwid Hi). apply Z.pow_add_r; lia. }
  rewrite Espan in *.
  assert (Hb : bits_ok c).
  { intros Hi. destruct (Hcov Hi) as [E1 E2], (Hwid Hi) as [E3 E4]. unfold total in E1. fold (sumL (SPLIT c)) in E1.
    repeat split; try lia; rewrite ?shifts_eq by lia; apply shifts_from_range; auto; lia. }
  assert (Hspan : row_bound c <= span c /\ Z.abs (kap c) * row_bound c <= span c).
  { unfold span, kap, row_bound. destruct (is_int (m_mode c)) eqn:Hi.
    - destruct (Hcov Hi) as [F1 F2], (Hwid Hi) as [F3 F4].
      assert (0 < 2 ^ W_BIT c) by (apply Z.pow_pos_nonneg; lia).
      assert (0 < 2 ^ (I_BIT c - 1)) by (apply Z.pow_pos_nonneg; lia).
      assert (2 ^ I_BIT c = 2 * 2 ^ (I_BIT c - 1)).
      { replace (I_BIT c) with (Z.succ (I_BIT c - 1)) at 1 by lia. rewrite Z.pow_succ_r by lia. ring. }
      destruct (m_mode c); try discriminate Hi; repeat split; nia.
    - destruct (m_mode c); try discriminate Hi; cbn; lia. }
  destruct Hspan as (Hs1 & Hs2). pose proof (row_bound_pos c) as Hs3.
  assert (Hsum : forall i, (i < m)%nat ->
     sumZ n (fun j => Z.abs (entry mat n i j)) <= Z.of_nat n * row_bound c).
  { intros i Hi. rewrite <- sumZ_const. apply sumZ_le. intros j Hj. now apply (weight_facts c _ Hcov (Hd i j Hi Hj)). }
  assert (Hdres : forall i x, (i < m)%nat ->
    dres c mp vec n i x = x + sumZ n (fun j => nth (n * i + j) mat 0 * nth j vec 0)).
  { intros i x Hi. unfold dres.
    rewrite (sumZ_ext n (fun j => cellv c mp i j * nth j vec 0 + cellb c mp i j)
              (fun j => nth (n * i + j) mat 0 * nth j vec 0)).
    2: { intros j Hj. rewrite (st_v _ _ _ _ _ HS i j Hi Hj), (st_b _ _ _ _ _ HS i j Hi Hj). unfold entry. ring. }
    rewrite (sumZ_ext n (fun j => cellv c mp i j) (entry mat n i)).
    2: { intros j Hj. apply (st_v _ _ _ _ _ HS i j Hi Hj). }
    assert (Hz : kap c * (nth i (sum_w mp) 0 - sumZ n (entry mat n i)) = 0); [|lia].
    destruct (keeps_sums (m_mode c)) eqn:Ek.
    - rewrite (st_sum _ _ _ _ _ HS Ek i Hi). lia.
    - unfold kap. destruct (m_mode c); try discriminate Ek; lia. }
  assert (Hok : forall i j, (i < m)%nat -> (j < n)%nat -> cellok c mp i j).
  { intros i j Hi Hj. now apply (st_ok _ _ _ _ _ HS). }
  assert (HK : forall i, (i < m)%nat -> Z.abs (kap c * nth i (sum_w mp) 0) <= int_max).
  { intros i Hi. destruct (keeps_sums (m_mode c)) eqn:Ek.
    + rewrite (st_sum _ _ _ _ _ HS Ek i Hi). rewrite Z.abs_mul.
      pose proof (sumZ_abs n (entry mat n i)). specialize (Hsum i Hi).
      etransitivity; [|exact HN].
      transitivity (Z.abs (kap c) * (Z.of_nat n * row_bound c)).
      * apply Z.mul_le_mono_nonneg_l; [apply Z.abs_nonneg|]. etransitivity; [|exact Hsum]. assumption.
      * nia.
    + unfold kap. destruct (m_mode c); try discriminate Ek; cbn; unfold int_max; lia. }
  assert (HF : forall i, (i < m)%nat -> Z.abs (dres c mp vec n i (nth i res 0)) <= int_max).
  { intros i Hi. rewrite Hdres by auto. specialize (HB i Hi).
    assert (HV : forall j, (j < n)%nat -> Z.abs (nth (n * i + j) mat 0 * nth j vec 0) <= span c).
    { intros j Hj. destruct (weight_facts c _ Hcov (Hd i j Hi Hj)) as (B & _ & _).
      specialize (Hvd j Hj). unfold entry in B. rewrite Z.abs_mul. unfold span, input_in, row_bound in *.
      destruct (is_int (m_mode c)) eqn:Hii.
      - assert (Z.abs (nth j vec 0) <= 2 ^ I_BIT c).
        { destruct (Hcov Hii) as [F1 F2], (Hwid Hii) as [F3 F4].
          assert (2 ^ I_BIT c = 2 * 2 ^ (I_BIT c - 1)).
          { replace (I_BIT c) with (Z.succ (I_BIT c - 1)) at 1 by lia. rewrite Z.pow_succ_r by lia. ring. }
          destruct (m_mode c); try discriminate Hii; lia. }
        apply Z.mul_le_mono_nonneg; lia.
      - assert (Z.abs (nth j vec 0) <= 1).
        { destruct (m_mode c); try discriminate Hii; lia. }
        nia. }
    pose proof (sumZ_bound n (fun j => nth (n * i + j) mat 0 * nth j vec 0) (span c) HV). lia. }
  destruct Hin as (k & Hk & Hcase).
  assert (Ecv : sumZ n (fun j => cellv c mp k j * nth j vec 0) = sumZ n (fun j => entry mat n k j * nth j vec 0)).
  { apply sumZ_ext. intros j Hj. now rewrite (st_v _ _ _ _ _ HS k j Hk Hj). }
  assert (Hvo : forall j, (j < n)%nat -> vok c (nth j vec 0)) by exact Hvd.
  assert (Hi : is_int (m_mode c) = true).
  { destruct Hcase as [[H _]| [-> _]]; [|reflexivity]. cbn in H. destruct H as [<-|[<-|[<-|[<-|[]]]]]; reflexivity. }
  assert (Hno : match m_mode c with I_UINT_W_OFFS => False | _ => True end).
  { destruct Hcase as [[H _]| [-> _]]; [|exact I]. cbn in H. destruct H as [<-|[<-|[<-|[<-|[]]]]]; exact I. }
  destruct Hcase as [[H Hneg]| [H Hneg]].
  - rewrite <- Ecv in Hneg. cbn in H. destruct H as [H|[H|[H|[H|[]]]]]; symmetry in H; unfold d_mvm; rewrite (sh_mode _ _ Hs), H.
    + eapply bad_i; eauto.
    + eapply bad_i; eauto.
    + eapply bad_iii; eauto.
    + eapply bad_iv; eauto.
  - unfold d_mvm. rewrite (sh_mode _ _ Hs), H. eapply bad_ii; eauto.
    rewrite (st_sum _ _ _ _ _ HS); auto. now rewrite H.
Qed.

Lemma negative_row {MC : Machine} : strict_shl = true ->
  forall (w : world) (mat vec res mat' : list Z) (m n : Z) (l : string) (k : nat),
  reach w -> wx w <> None -> digital_only (wcfg w) = true ->
  split_covers (wcfg w) -> widths_fit (wcfg w) -> dims_in (wcfg w) m n ->
  all_entries (weight_in (wcfg w)) mat m n -> all_first (input_in (wcfg w)) vec n ->
  room (wcfg w) res m n -> (k < Z.to_nat m)%nat ->
  (In (m_mode (wcfg w)) [I_DIFF_W_DIFF_1XB; I_DIFF_W_DIFF_2XB; I_TC_W_DIFF; I_UINT_W_DIFF] /\
     product mat vec (Z.to_nat n) k < 0 \/
   m_mode (wcfg w) = I_OFFS_W_DIFF /\ sum (Z.to_nat n) (entry mat (Z.to_nat n) k) < 0) ->
  exists w1, step w (CpyMtrx mat m n) = Ok (w1, RCode 0) /\
    step w1 (ExeMvm res vec mat' m n l) = UB BadShift.
Proof.
  intros Hstr w mat vec res mat' m n l k Hr Hx Hd Hcov Hwid Hdim Hmat Hvec Hroom Hk Hcase.
  apply reach_good in Hr. destruct (wx w) as [x|] eqn:Ex; [|easy].
  assert (HN : n * row_bound (wcfg w) <= int32_max).
  { destruct Hroom as [HN _], Hdim as [_ Dn]. pose proof (row_term _ Hwid Hcov). nia. }
  destruct (cpy_stored w x mat m n Hr Ex Hd Hcov Hdim Hmat HN) as (w1 & E1 & Hg & Ec & _ & x1 & Ex1 & HS).
  exists w1. split; [exact E1|].
  destruct Hmat as [Hl Hent], Hvec as [Hv1 Hv2], Hroom as [HN' [Hr1 Hr2]].
  rewrite <- Ec in Hd, Hcov, Hwid, Hdim, Hent, Hv2, HN', Hr2, Hcase. clear HN E1. destruct (guard_ok w1 m n Hg Hdim) as (G1 & G2 & Hm & Hn).
  destruct Hdim as [Dm Dn]. pose proof (g_x _ Hg x1 Ex1) as Hxo. pose proof (good_wf w1 Hg) as Hwf.
  assert (ED : d_mvm (wcfg w1) (xm x1) res vec mat' (Z.to_nat m) (Z.to_nat n) = UB BadShift).
  { assert (L1 : (Z.to_nat m <= len res)%nat) by (clear -Hr1; lia).
    assert (L2 : (Z.to_nat n <= len vec)%nat) by (clear -Hv1; lia).
    assert (B1 : Z.of_nat (Z.to_nat n) * term_bound (wcfg w1) <= int_max) by (rewrite Z2Nat.id by (clear -Dn; lia); exact HN').
    assert (B2 : forall i, (i < Z.to_nat m)%nat ->
      Z.abs (nth i res 0) + Z.of_nat (Z.to_nat n) * term_bound (wcfg w1) <= int_max)
      by (intros i Hi; rewrite Z2Nat.id by (clear -Dn; lia); exact (Hr2 i Hi)).
    refine (d_mvm_neg (wcfg w1) (xm x1) mat res vec mat' (Z.to_nat m) (Z.to_nat n) Hstr Hwf
      (xo_shape _ _ Hxo) (split_nonneg w1 Hg) Hcov Hwid Hm Hn L1 L2 Hent Hv2 B1 B2 HS _).
    exists k. split; [exact Hk|]. unfold product in Hcase. rewrite !sum_sumZ in Hcase. exact Hcase. }
  cbn. unfold exe_mvm. rewrite Ex1, G1, G2. cbn [bind]. unfold xmvm. cbv zeta.
  change (xm (x1 <|n_mvm := n_mvm x1 + 1|> <|n_read := n_read x1 + 1|>)) with (xm x1).
  rewrite Hd, ED. reflexivity.
Qed.
