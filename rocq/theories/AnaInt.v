(** The analog MVMs of the integer modes in exact real arithmetic. *)
From Coq Require Import List ZArith Reals Lra Bool Arith Lia ZifyBool ZifyNat String.
From RecordUpdate Require Import RecordSet.
From Flocq Require Import Core.
From Verif Require Import Base Lib Hoare Machine Json Config Histogram Adc ReadDisturb Parasitics
  Mapper IntMappers BnnMappers TnnMappers WriteProofs Shape MvmShape DigMvm DigModes Spec DigApi EmuProps RMachine AnaReal.
Import ListNotations RecordSetNotations.
Local Open Scope R_scope.
Local Open Scope out_scope.

Ltac Zify.zify_post_hook ::= idtac.

(** Recombination of bits and segments. *)
Lemma bits_segs (n ns B : nat) (G : nat -> nat -> Z) (sh : nat -> Z) (u : nat -> Z) :
  (sumZ B (fun b => sumZ ns (fun s => 2 ^ Z.of_nat b * (2 ^ sh s * sumZ n (fun j => G s j * bit_of (u j) (Z.of_nat b))))) =
  sumZ n (fun j => sumZ ns (fun s => G s j * 2 ^ sh s) * (u j mod 2 ^ Z.of_nat B)))%Z.
Proof.
  transitivity (sumZ B (fun b => sumZ ns (fun s => sumZ n (fun j => (G s j * 2 ^ sh s) * (2 ^ Z.of_nat b * bit_of (u j) (Z.of_nat b)))))%Z).
  { apply sumZ_ext. intros b _. apply sumZ_ext. intros s _. rewrite <- !sumZ_mul_l. apply sumZ_ext. intros j _. ring. }
  rewrite sumZ_swap.
  transitivity (sumZ ns (fun s => sumZ n (fun j => (G s j * 2 ^ sh s) * (u j mod 2 ^ Z.of_nat B)))%Z).
  { apply sumZ_ext. intros s _. rewrite sumZ_swap. apply sumZ_ext. intros j _.
    rewrite sumZ_mul_l. f_equal. rewrite <- sum_sumZ. apply bits_low. }
  rewrite sumZ_swap. apply sumZ_ext. intros j _. now rewrite sumZ_mul_r.
Qed.
Lemma bit_01 v b : (0 <= bit_of v b <= 1)%Z.
Proof. unfold bit_of. pose proof (Z.mod_pos_bound (v / 2 ^ b) 2 ltac:(lia)). lia. Qed.

Section AR.
Context (nz : bool -> nat -> R) (s : bool).
#[local] Hint Extern 0 Machine => exact (R_machine nz s) : typeclass_instances.
Notation len := List.length.
Notation RM := (R_machine nz s).

(** Several integral reals added to one entry. *)
Lemma sum_near k (z T : nat -> Z) (er : nat -> R) :
  (forall q, (q < k)%nat -> Rabs (IZR (z q) - IZR (T q)) <= er q) ->
  Rabs (IZR (sumZ k z) - IZR (sumZ k T)) <= sumR k er.
Proof. intros H. rewrite <- !sumR_IZR. now apply sumR_close. Qed.

Lemma entry_steps ns (body : nat -> list Z -> out (list Z)) i (a : list Z) (w : nat -> R) (T : nat -> Z) (er : nat -> R) :
  (i < len a)%nat ->
  (forall q, (q < ns)%nat -> exists z, w q = IZR z /\ Rabs (IZR z - IZR (T q)) <= er q) ->
  IZR (Z.abs (nth i a 0%Z) + sumZ ns (fun q => Z.abs (T q))) + sumR ns er <= IZR int_max ->
  (forall q b, (q < ns)%nat -> len b = len a -> body q b = @res_fadd RM b i (w q)) ->
  forN ns body a = Ok (upd a i (nth i a 0 + sumZ ns (fun q => Ztrunc (w q)))%Z).
Proof.
  intros Hi Hz HB Hb.
  assert (HT : forall q, (q < ns)%nat -> w q = IZR (Ztrunc (w q)) /\ Rabs (IZR (Ztrunc (w q)) - IZR (T q)) <= er q).
  { intros q Hq. destruct (Hz q Hq) as (z & -> & H). now rewrite Ztrunc_IZR. }
  assert (Her : forall q, (q < ns)%nat -> 0 <= er q).
  { intros q Hq. destruct (HT q Hq) as (_ & H). pose proof (Rabs_pos (IZR (Ztrunc (w q)) - IZR (T q))). lra. }
  apply (entry_eq ns body (fun q x => x + Ztrunc (w q))%Z i a 0%Z
    (fun k => nth i a 0 + sumZ k (fun q => Ztrunc (w q)))%Z); auto.
  - cbn. lia.
  - intros. cbn [sumZ]. lia.
  - intros q b Hq Lb Vb. rewrite Hb by auto. destruct (HT q Hq) as (E1 & E2).
    apply res_fadd_eq; auto; [lia|]. rewrite Vb.
    set (Z1 := sumZ (S q) (fun q => Ztrunc (w q))).
    replace (nth i a 0 + sumZ q (fun q => Ztrunc (w q)) + Ztrunc (w q))%Z with (nth i a 0 + Z1)%Z
      by (unfold Z1; cbn [sumZ]; ring).
    assert (N : Rabs (IZR Z1 - IZR (sumZ (S q) T)) <= sumR (S q) er).
    { apply sum_near. intros q' Hq'. apply HT. lia. }
    assert (M : sumR (S q) er <= sumR ns er).
    { clear -Her Hq. induction ns as [|k IH]; [lia|]. cbn [sumR]. pose proof (Her k ltac:(lia)).
      destruct (Nat.eq_dec q k) as [->|]; [cbn [sumR]; lra|].
      assert (sumR (S q) er <= sumR k er) by (apply IH; [intros; apply Her; lia|lia]). cbn [sumR] in *. lra. }
    assert (AT : (Z.abs (sumZ (S q) T) <= sumZ ns (fun q => Z.abs (T q)))%Z).
    { etransitivity; [apply sumZ_abs|]. apply sumZ_mono; [intros; lia|lia]. }
    apply (fits_int nz s _ _ (sumZ (S q) T) (sumR (S q) er) (sumZ ns (fun q => Z.abs (T q)))); auto. lra.
Qed.

Lemma rows_steps m ns (body : nat -> nat -> list Z -> out (list Z)) (res : list Z) (w : nat -> nat -> R) (T : nat -> nat -> Z) (er : nat -> R) :
  (m <= len res)%nat ->
  (forall i q, (i < m)%nat -> (q < ns)%nat -> exists z, w i q = IZR z /\ Rabs (IZR z - IZR (T i q)) <= er q) ->
  (forall i, (i < m)%nat -> IZR (Z.abs (nth i res 0%Z) + sumZ ns (fun q => Z.abs (T i q))) + sumR ns er <= IZR int_max) ->
  (forall i q b, (i < m)%nat -> (q < ns)%nat -> len b = len res -> body i q b = @res_fadd RM b i (w i q)) ->
  exists d, forN m (fun i a => forN ns (body i) a) res = Ok (upto m (fun i x => (x + d i)%Z) res) /\
    forall i, (i < m)%nat -> Rabs (IZR (d i) - IZR (sumZ ns (T i))) <= sumR ns er.
Proof.
  intros Hr Hz HB Hb. exists (fun i => sumZ ns (fun q => Ztrunc (w i q))). split.
  - apply (rows_eq m _ (fun i x => x + sumZ ns (fun q => Ztrunc (w i q)))%Z res 0%Z Hr).
    intros i a Hi La Va. apply (entry_steps ns (body i) i a (w i) (T i) er); auto; [lia| |].
    + rewrite Va. auto.
    + intros q b Hq Lb. apply Hb; auto; lia.
  - intros i Hi. apply sum_near. intros q Hq. destruct (Hz i q Hi Hq) as (z & -> & H). now rewrite Ztrunc_IZR.
Qed.

Section M.
Context (c : @config RM) (mp : @mapper RM) (res vec mat : list Z) (m n : nat) (l : string) (e : @env RM)
  (cv : R -> R -> R -> R) (ok fit : R -> Prop) (eps : R -> R) (hf E : R).
Notation MM := (Z.to_nat (M c)).
Notation hrs := (@HRS RM c).
Notation lrs := (@LRS RM c).
Notation dl := (lrs - hrs).
Notation gp r j := (at2 0%Z (gd_p mp) r j).
Notation gm r j := (at2 0%Z (gd_m mp) r j).
Notation ip r j := (at2 0 (@ia_p RM mp) r j).
Notation im r j := (at2 0 (@ia_m RM mp) r j).
Notation vv j := (nth j vec 0%Z).
Notation ns := (nsplit c).
Notation sh q := (nth q (shifts c) 0%Z).

(** Largest code of a cell of segment [q]. *)
Definition top (q : nat) : Z := (2 ^ nth q (SPLIT c) 0 - 1)%Z.

Context (Hw : cfg_wf c) (Hs : shape c mp) (Hpn : par mp = None)
  (Hm : (m <= MM)%nat) (Hn : (n <= colsN c)%nat)
  (Hres : (m <= len res)%nat) (Hvec : (n <= len vec)%nat)
  (Hpar : parasitics c = false)
  (Hcv : forall x sc off, @adc1 RM c (mp_adc mp) l x sc off = Ok (cv x sc off))
  (HC : conv cv ok fit eps dl)
  (Hfit : (forall y, fit y) \/ ((forall X, fit (IZR X)) /\ partial_sums (m_mode c) = false))
  (Hhf : 0 <= hf) (Hhalf : (forall x sc off, cv x sc off = (x + off) * sc) \/ 1 / 2 <= hf)
  (Himm : @i_mm RM mp = Some dl) (Hdl : dl <> 0)
  (Hv : forall j, (j < n)%nat -> vok c (vv j))
  (Hok : (forall y, ok y) \/
     (0 <= hrs /\ 0 < dl /\
      (is_diff (m_mode c) = true -> forall y, Rabs y <= INR n * dl -> ok y) /\
      (is_diff (m_mode c) = false -> forall y, 0 <= y <= INR n * lrs -> ok y)))
  (Hi : is_int (m_mode c) = true) (Hb : bits_ok c)
  (Htop : forall q, (q < ns)%nat -> (1 <= top q)%Z)
  (Hstep : forall q, (q < ns)%nat -> nth q (@i_step RM mp) None = Some (dl / IZR (top q)))
  (Hc : forall i j, (i < m)%nat -> (j < n)%nat -> cellok c mp i j)
  (Hg : forall i q j, (i < m)%nat -> (q < ns)%nat -> (j < n)%nat ->
     (gp (i * ns + q) j <= top q /\ gm (i * ns + q) j <= top q)%Z)
  (Hip : forall i q j, (i < m)%nat -> (q < ns)%nat -> (j < n)%nat ->
     ip (i * ns + q) j = IZR (gp (i * ns + q) j) * (dl / IZR (top q)) + hrs)
  (Him : two_arrays (m_mode c) = true -> forall i q j, (i < m)%nat -> (q < ns)%nat -> (j < n)%nat ->
     im (i * ns + q) j = IZR (gm (i * ns + q) j) * (dl / IZR (top q)) + hrs)
  (HN : (Z.of_nat n * span c <= int_max)%Z)
  (HB : forall i, (i < m)%nat -> IZR (Z.abs (nth i res 0%Z) + Z.of_nat n * span c) + E <= IZR int_max)
  (HF : forall i, (i < m)%nat -> IZR (Z.abs (dres c mp vec n i (nth i res 0%Z))) + E <= IZR int_max)
  (HKs : forall i, (i < m)%nat -> (Z.abs (kap c * nth i (sum_w mp) 0) <= int_max)%Z)
  (Hst : m_mode c = I_OFFS_W_DIFF -> s = false)
  (Hn1 : (1 <= nsplit c)%nat)
  (Hdelta : m_mode c = I_UINT_W_OFFS ->
     @delta RM mp = Some (hrs / dl * IZR (sumZ (nsplit c) (fun q => 2 ^ nth q (shifts c) 0%Z * top q)%Z))).

Definition igoal : Prop :=
  exists mp' d, @a_mvm RM c mp res vec mat m n l e = Ok (upto m (fun i x => (x + d i)%Z) res, mp', e) /\
    forall i, (i < m)%nat -> Rabs (IZR (d i) - IZR (dres c mp vec n i 0%Z)) <= E.

Lemma cells i q j : (i < m)%nat -> (q < ns)%nat -> (j < n)%nat ->
  (0 <= gp (i * ns + q) j <= top q /\ 0 <= gm (i * ns + q) j <= top q)%Z.
Proof.
  intros H1 H2 H3. destruct (cell_int c mp m n Hc Hi i j H1 H3) as (P & _). specialize (P q H2).
  specialize (Hg i q j H1 H2 H3). lia.
Qed.
Lemma seg_of r : (r < m * ns)%nat -> exists i q, r = (i * ns + q)%nat /\ (i < m)%nat /\ (q < ns)%nat.
Proof.
  intros Hr. assert (ns <> 0)%nat by (destruct ns; [lia|discriminate]).
  exists (r / ns)%nat, (r mod ns)%nat. rewrite (Nat.mul_comm _ ns). rewrite <- Nat.div_mod by auto.
  split; [reflexivity|]. split; [apply Nat.div_lt_upper_bound; lia|now apply Nat.mod_upper_bound].
Qed.
Lemma shift_eq : shift mp = shifts c.
Proof. rewrite (sh_shift _ _ Hs). unfold uses_shift. now rewrite Hi. Qed.
Lemma row_lt r : (r < m * ns)%nat -> (r < rowsN c)%nat.
Proof. intros H. unfold rowsN. nia. Qed.
Lemma top_R q : (q < ns)%nat -> 0 < IZR (top q).
Proof. intros H. specialize (Htop q H). apply (IZR_lt 0). lia. Qed.

(** The scale of one conversion. *)
Lemma pow2_R k : (0 <= k)%Z -> @dpow2 RM k = IZR (2 ^ k).
Proof. intros Hk. change (bpow radix2 k = IZR (2 ^ k)). rewrite <- IZR_Zpower by auto. reflexivity. Qed.
Lemma scale_eq q b x : (q < ns)%nat -> (0 <= b)%Z ->
  @bit_scale RM (sh q) b x = IZR (2 ^ b * 2 ^ sh q) / x.
Proof.
  intros Hq Hb0. destruct (seg_rng c Hb Hi q Hq) as (H1 & _).
  unfold bit_scale. change (@dpow2 RM (sh q) * @dpow2 RM b / x = IZR (2 ^ b * 2 ^ sh q) / x).
  rewrite !pow2_R by auto. rewrite mult_IZR. f_equal. ring.
Qed.
(** Gain and error of one conversion. *)
Definition gain (q : nat) (b : Z) : Z := (2 ^ b * 2 ^ sh q * top q)%Z.
Definition eb (b : nat) : R := sumR ns (fun q => eps (IZR (gain q (Z.of_nat b)))).

Lemma gain_eq q b (sg : bool) : (q < ns)%nat -> (0 <= b)%Z ->
  Rabs (IZR (2 ^ b * 2 ^ sh q) / (if sg then - (dl / IZR (top q)) else dl / IZR (top q)) * dl) = IZR (gain q b).
Proof.
  intros Hq Hb0. pose proof (top_R q Hq) as P. destruct (seg_rng c Hb Hi q Hq) as (H1 & _).
  assert (Q : 0 <= IZR (gain q b)).
  { apply (IZR_le 0). unfold gain. specialize (Htop q Hq).
    assert (0 < 2 ^ b)%Z by (apply Z.pow_pos_nonneg; lia). assert (0 < 2 ^ sh q)%Z by (apply Z.pow_pos_nonneg; lia). nia. }
  destruct sg.
  - replace (_ / _ * dl) with (- IZR (gain q b)) by (unfold gain; rewrite (mult_IZR (2 ^ b * 2 ^ sh q)); field; split; [lra|exact Hdl]).
    rewrite Rabs_Ropp. now apply Rabs_pos_eq.
  - replace (_ / _ * dl) with (IZR (gain q b)) by (unfold gain; rewrite (mult_IZR (2 ^ b * 2 ^ sh q)); field; split; [lra|exact Hdl]).
    now apply Rabs_pos_eq.
Qed.

Lemma dres_shift i x : dres c mp vec n i x = (x + dres c mp vec n i 0)%Z.
Proof. unfold dres. ring. Qed.
Lemma span_eq : span c = (2 ^ W_BIT c * 2 ^ I_BIT c)%Z.
Proof. unfold span. now rewrite Hi. Qed.
Lemma facts : (1 <= W_BIT c /\ 1 <= I_BIT c /\ W_BIT c + I_BIT c <= 30 /\
  0 < 2 ^ W_BIT c /\ 0 < 2 ^ (I_BIT c - 1) <= 2 ^ 28 /\ 2 ^ I_BIT c = 2 * 2 ^ (I_BIT c - 1))%Z.
Proof.
  destruct (Hb Hi) as (A & B & C & _). repeat apply conj; auto.
  - apply Z.pow_pos_nonneg; lia.
  - apply Z.pow_pos_nonneg; lia.
  - apply Z.pow_le_mono_r; lia.
  - replace (I_BIT c) with (Z.succ (I_BIT c - 1)) at 1 by lia. now rewrite Z.pow_succ_r by lia.
Qed.
Lemma dres_plain i : kap c = 0%Z -> dres c mp vec n i 0 = sumZ n (fun j => cellv c mp i j * vv j)%Z.
Proof. intros K. rewrite (dres_int c mp vec n Hi) by auto. lia. Qed.
Lemma fp_len : len (@tmp_fp RM mp) = rowsN c.
Proof. now apply (sh_tfp _ _ Hs). Qed.
Lemma zeros_fp r : (r < m * ns)%nat -> nth r (@fill R (@tmp_fp RM mp) 0) 0 = 0.
Proof. intros Hr. apply nth_fill. pose proof fp_len as L. change (@F RM) with R in L. rewrite L. unfold rowsN. nia. Qed.

Lemma eb_nonneg b : 0 <= eb b.
Proof. apply sumR_nonneg. intros. apply (cv_eps _ _ _ _ _ HC). Qed.

(** Partial sum of row [r] for one bit of the input. *)
Definition X (u : list Z) (b : nat) (r : nat) : Z :=
  sumZ n (fun j => (gp r j - gm r j) * bit_of (nth j u 0) (Z.of_nat b))%Z.

(** *** Conversion and accumulation of one slice (differential modes) *)
Section Diff.
Context (Hd : is_diff (m_mode c) = true) (H2 : two_arrays (m_mode c) = true).

Lemma ok_slice u b i q : (i < m)%nat -> (q < ns)%nat -> ok (IZR (X u b (i * ns + q)) * (dl / IZR (top q))).
Proof.
  intros H1 Hq. destruct Hok as [H|(_ & P & H & _)]; [apply H|]. apply H; auto.
  pose proof (top_R q Hq) as PT. rewrite Rabs_mult, abs_Z.
  assert (PD : 0 <= dl / IZR (top q)) by (apply Rmult_le_pos; [lra|left; now apply Rinv_0_lt_compat]).
  rewrite (Rabs_pos_eq (dl / _)) by auto.
  assert (B : (Z.abs (X u b (i * ns + q)) <= Z.of_nat n * top q)%Z).
  { apply sumZ_bound. intros j Hj. pose proof (cells i q j H1 Hq Hj). pose proof (bit_01 (nth j u 0%Z) (Z.of_nat b)).
    set (t := bit_of _ _) in *. assert (t = 0 \/ t = 1)%Z as [-> | ->] by lia; lia. }
  apply IZR_le in B. rewrite mult_IZR, <- INR_IZR_INZ in B.
  apply Rle_trans with (INR n * IZR (top q) * (dl / IZR (top q))).
  - now apply Rmult_le_compat_r.
  - right. field. lra.
Qed.

Lemma near_slice u b i q (neg sub : bool) : (i < m)%nat -> (q < ns)%nat -> neg && sub = false ->
  exists z, (if sub then -1 else 1) *
     cv (IZR (X u b (i * ns + q)) * (dl / IZR (top q)))
       (IZR (2 ^ Z.of_nat b * 2 ^ sh q) / (if neg then - (dl / IZR (top q)) else dl / IZR (top q))) 0 = IZR z /\
    Rabs (IZR z - IZR ((if neg || sub then -1 else 1) * (2 ^ Z.of_nat b * (2 ^ sh q * X u b (i * ns + q))))%Z)
      <= eps (IZR (gain q (Z.of_nat b))).
Proof.
  intros H1 Hq Hns. set (x := X u b (i * ns + q)). pose proof (top_R q Hq) as PT.
  set (sc := IZR (2 ^ Z.of_nat b * 2 ^ sh q) / (if neg then - (dl / IZR (top q)) else dl / IZR (top q))).
  set (G := (2 ^ Z.of_nat b * (2 ^ sh q * x))%Z).
  assert (EX : (IZR x * (dl / IZR (top q)) + 0) * sc = IZR ((if neg then -1 else 1) * G)%Z).
  { unfold sc, G. rewrite !mult_IZR. destruct neg; field; split; lra. }
  pose proof (cv_acc _ _ _ _ _ HC (IZR x * (dl / IZR (top q))) sc 0 ltac:(rewrite Rplus_0_r; now apply ok_slice)
    ltac:(rewrite EX; destruct Hfit as [HF0|[HF0 _]]; apply HF0)) as A.
  rewrite EX in A. unfold sc at 2 in A. rewrite gain_eq in A by (auto; lia).
  pose proof (cv_int cv ok fit eps dl _ _ _ _ HC EX) as I. set (y := cv _ sc 0) in *.
  exists (if sub then - Ztrunc y else Ztrunc y)%Z. destruct sub.
  - assert (neg = false) as -> by (destruct neg; auto; discriminate Hns). cbn [orb].
    split; [rewrite opp_IZR, <- I; ring|]. rewrite opp_IZR, <- I. rewrite Z.mul_1_l in A.
    replace (-1 * G)%Z with (- G)%Z by ring. rewrite opp_IZR.
    replace (- y - - IZR G) with (- (y - IZR G)) by ring. now rewrite Rabs_Ropp.
  - split; [rewrite <- I; ring|]. rewrite orb_false_r, <- I. exact A.
Qed.

Lemma bit_add_eq u b (neg sub : bool) (t : list R) (res0 : list Z) : neg && sub = false ->
  (m * ns <= len t)%nat -> (m <= len res0)%nat ->
  (forall i q, (i < m)%nat -> (q < ns)%nat -> nth (i * ns + q) t 0 = IZR (X u b (i * ns + q)) * (dl / IZR (top q))) ->
  (forall i, (i < m)%nat -> IZR (Z.abs (nth i res0 0%Z) +
      sumZ ns (fun q => 2 ^ Z.of_nat b * (2 ^ sh q * Z.abs (X u b (i * ns + q)))))%Z + eb b <= IZR int_max) ->
  exists d, @bit_add RM c mp l m (Z.of_nat b) neg sub t res0 = Ok (upto m (fun i x => (x + d i)%Z) res0) /\
    forall i, (i < m)%nat ->
      Rabs (IZR (d i) - IZR (sumZ ns (fun q => (if neg || sub then -1 else 1) * (2 ^ Z.of_nat b * (2 ^ sh q * X u b (i * ns + q)))))%Z) <= eb b.
Proof.
  intros Hns Lt Lr Ht HBd. unfold bit_add.
  apply (rows_steps m ns _ res0
    (fun i q => (if sub then -1 else 1) *
     cv (IZR (X u b (i * ns + q)) * (dl / IZR (top q)))
       (IZR (2 ^ Z.of_nat b * 2 ^ sh q) / (if neg then - (dl / IZR (top q)) else dl / IZR (top q))) 0)
    (fun i q => (if neg || sub then -1 else 1) * (2 ^ Z.of_nat b * (2 ^ sh q * X u b (i * ns + q))))%Z
    (fun q => eps (IZR (gain q (Z.of_nat b))))); auto.
  - intros i q H1 Hq. now apply near_slice.
  - intros i H1. specialize (HBd i H1). unfold eb in HBd.
    rewrite (sumZ_ext ns (fun q => Z.abs _) (fun q => 2 ^ Z.of_nat b * (2 ^ sh q * Z.abs (X u b (i * ns + q))))%Z); [exact HBd|].
    intros q Hq. rewrite !Z.abs_mul. rewrite (Z.abs_eq (2 ^ Z.of_nat b)), (Z.abs_eq (2 ^ sh q)) by (apply Z.pow_nonneg; lia).
    destruct (neg || sub); lia.
  - intros i q b0 H1 Hq Lb. change (@F RM) with R.
    rewrite (get_ok t (i * ns + q) 0) by nia. cbn [bind].
    rewrite (get_ok (shift mp) q 0%Z) by (rewrite shift_eq, shifts_length; auto). cbn [bind].
    pose proof (sh_step _ _ Hs) as Ls. change (@F RM) with R in *.
    rewrite (get_ok (@i_step RM mp : list (option R)) q None) by (rewrite Ls; auto). cbn [bind].
    rewrite Hstep by auto. cbn [use bind]. rewrite shift_eq, Ht by auto.
    rewrite (scale_eq q (Z.of_nat b)) by (auto; lia). rewrite Hcv. cbn [bind].
    change (@f0 RM) with 0.
    change (@fneg RM (dl / IZR (top q))) with (- (dl / IZR (top q))).
    set (y := cv _ _ _). destruct sub; [|now rewrite Rmult_1_l].
    replace (-1 * y) with (- y) by ring. reflexivity.
Qed.

(** *** The loop over the input bits *)
Lemma currents_eq u b (t0 : list R) vds0 : len t0 = rowsN c -> len vds0 = colsN c ->
  (forall r, (r < m * ns)%nat -> nth r t0 0 = 0) ->
  exists t : list R,
    @slice_currents RM c mp (@fterm RM (ia_p mp) (ia_m mp) (upto n (fun j _ => bit_of (nth j u 0) (Z.of_nat b))%Z vds0))
      (upto n (fun j _ => bit_of (nth j u 0) (Z.of_nat b))%Z vds0) (m * ns) n t0 = Ok t /\ len t = rowsN c /\
    forall i q, (i < m)%nat -> (q < ns)%nat -> nth (i * ns + q) t 0 = IZR (X u b (i * ns + q)) * (dl / IZR (top q)).
Proof.
  intros Lt Lv Z0. unfold slice_currents. rewrite Hpar.
  assert (Lr : (m * ns <= rowsN c)%nat) by (unfold rowsN; nia).
  rewrite (facc2_eq nz s (m * ns) n _ (fun r j => (ip r j - im r j) * IZR (bit_of (nth j u 0%Z) (Z.of_nat b)))) by
    (try (change (@F RM) with R; lia);
     intros r j Hr Hj; rewrite (fterm_eq nz s (rowsN c) (colsN c)); try apply Hs; try (rewrite upto_length); try lia;
     rewrite nth_upto_lt by lia; reflexivity).
  eexists. split; [reflexivity|]. split; [change (@F RM) with R; now rewrite upto_length|].
  intros i q H1 Hq. change (@F RM) with R. rewrite nth_upto_lt by nia. rewrite Z0 by nia. rewrite Rplus_0_l.
  unfold X. rewrite <- sumR_IZR, <- sumR_mul_r. apply sumR_ext. intros j Hj.
  rewrite Hip, Him by auto. rewrite mult_IZR, minus_IZR. ring.
Qed.

(** Largest value the accumulator can reach through the conversions of the first [B] bits. *)
Definition peak (u : list Z) (B i : nat) : Z :=
  sumZ B (fun b => sumZ ns (fun q => 2 ^ Z.of_nat b * (2 ^ sh q * Z.abs (X u b (i * ns + q)))))%Z.
(** Exact contribution of the first [B] bits. *)
Definition part (u : list Z) (B i : nat) : Z :=
  sumZ B (fun b => sumZ ns (fun q => 2 ^ Z.of_nat b * (2 ^ sh q * X u b (i * ns + q))))%Z.

Lemma abs_part u B i : (Z.abs (part u B i) <= peak u B i)%Z.
Proof.
  unfold part, peak. etransitivity; [apply sumZ_abs|]. apply sumZ_le. intros b _.
  etransitivity; [apply sumZ_abs|]. apply sumZ_le. intros q _.
  rewrite !Z.abs_mul, (Z.abs_eq (2 ^ Z.of_nat b)), (Z.abs_eq (2 ^ sh q)) by (apply Z.pow_nonneg; lia). lia.
Qed.
Lemma bit_loop_ok u B (neg : bool) (res0 : list Z) (t0 : list R) vds0 : (B <= 32)%nat -> (n <= len u)%nat ->
  len t0 = rowsN c -> len vds0 = colsN c -> (m <= len res0)%nat ->
  (forall r, (r < m * ns)%nat -> nth r t0 0 = 0) ->
  (forall i, (i < m)%nat -> IZR (Z.abs (nth i res0 0%Z) + peak u B i) + sumR B eb <= IZR int_max) ->
  exists d (t : list R) vds, @bit_loop RM c mp l u m n (Z.of_nat B) neg (res0, t0, vds0) =
      Ok (upto m (fun i x => (x + d i)%Z) res0, t, vds) /\
    len t = rowsN c /\ len vds = colsN c /\ (forall r, (r < m * ns)%nat -> nth r t 0 = 0) /\
    forall i, (i < m)%nat -> Rabs (IZR (d i) - IZR ((if neg then -1 else 1) * part u B i)%Z) <= sumR B eb.
Proof.
  intros HB32 Lu Lt Lv Lr Z0 HBd. unfold bit_loop. rewrite Nat2Z.id.
  destruct (forN_inv (fun b (st : list Z * list R * list Z) =>
    let '(r, t, vds) := st in exists d, r = upto m (fun i x => (x + d i)%Z) res0 /\
      len t = rowsN c /\ len vds = colsN c /\ (forall r, (r < m * ns)%nat -> nth r t 0 = 0) /\
      forall i, (i < m)%nat -> Rabs (IZR (d i) - IZR ((if neg then -1 else 1) * part u b i)%Z) <= sumR b eb)
    B (fun b (st : list Z * list R * list Z) => let '(res, t, vds) := st in
    vds <- slice_vd u vds n (Z.of_nat b) ;;
    t <- @slice_currents RM c mp (@fterm RM (ia_p mp) (ia_m mp) vds) vds (m * nsplit c) n t ;;
    res <- @bit_add RM c mp l m (Z.of_nat b) neg false t res ;;
    Ok (res, @fill R t 0, vds)) (res0, t0, vds0)) as (st & ES & PS).
  - exists (fun _ => 0%Z). repeat apply conj; auto.
    + rewrite (upto_ext m (fun i x => x + 0)%Z (fun _ x => x) res0 0%Z) by (intros; lia). symmetry. unfold upto. rewrite imap_id; [reflexivity|]. intros i x _ _. now destruct (i <? m)%nat.
    + intros i _. cbn [part sumZ sumR]. unfold part. cbn [sumZ]. rewrite Z.mul_0_r, Rminus_diag_eq by reflexivity. rewrite Rabs_R0. lra.
  - intros b [[r t] vds] Hb' (d & -> & Lt' & Lv' & Z1 & Hd1).
    rewrite slice_eq by lia. cbn [bind].
    destruct (currents_eq u b t vds Lt' Lv' Z1) as (t' & Et & Lt2 & Vt). rewrite Et. cbn [bind].
    destruct (bit_add_eq u b neg false t' (upto m (fun i x => (x + d i)%Z) res0)) as (d2 & Ed & Hd2); auto.
    + now destruct neg.
    + rewrite Lt2. unfold rowsN. nia.
    + now rewrite upto_length.
    + intros i H1. rewrite nth_upto_lt by lia. specialize (HBd i H1). specialize (Hd1 i H1).
      set (now := sumZ ns _).
      assert (PK : (peak u b i + now <= peak u B i)%Z).
      { change (peak u (S b) i <= peak u B i)%Z. unfold peak. apply sumZ_mono; [|lia]. intros.
        apply sumZ_nonneg. intros q _. assert (0 <= 2 ^ Z.of_nat i0)%Z by (apply Z.pow_nonneg; lia).
        assert (0 <= 2 ^ sh q)%Z by (apply Z.pow_nonneg; lia). apply Z.mul_nonneg_nonneg; [lia|]. apply Z.mul_nonneg_nonneg; lia. }
      assert (EK : sumR b eb + eb b <= sumR B eb).
      { change (sumR (S b) eb <= sumR B eb). clear -Hb' HC. induction B as [|k IH]; [lia|].
        destruct (Nat.eq_dec b k) as [->|]; [lra|]. assert (sumR (S b) eb <= sumR k eb) by (apply IH; lia).
        pose proof (eb_nonneg k). cbn [sumR] in *. lra. }
      apply near_bound in Hd1. pose proof (abs_part u b i) as AP.
      assert (AP' : (Z.abs ((if neg then -1 else 1) * part u b i) <= peak u b i)%Z) by (destruct neg; lia).
      apply IZR_le in AP'. apply IZR_le in PK. rewrite plus_IZR in PK.
      assert (T : (Z.abs (nth i res0 0 + d i) + now <= Z.abs (nth i res0 0) + (Z.abs (d i) + now))%Z) by lia.
      apply IZR_le in T. rewrite !plus_IZR in T. rewrite plus_IZR in HBd. rewrite plus_IZR. lra.
    + rewrite Ed. cbn [bind]. eexists. split; [reflexivity|]. cbn beta iota.
      exists (fun i => (d i + d2 i)%Z). rewrite upto_upto. repeat apply conj.
      * apply (upto_ext m _ _ res0 0%Z). intros. ring.
      * now rewrite fill_length.
      * now rewrite upto_length.
      * intros r Hr. apply nth_fill. rewrite Lt2. unfold rowsN. nia.
      * intros i H1. specialize (Hd1 i H1). specialize (Hd2 i H1). rewrite orb_false_r in Hd2.
        rewrite sumZ_mul_l in Hd2. unfold part. cbn [sumZ sumR]. fold (part u b i).
        set (y := sumZ ns _) in Hd2 |- *. rewrite Z.mul_add_distr_l. rewrite !plus_IZR.
        replace (IZR (d i) + IZR (d2 i) - _) with ((IZR (d i) - IZR ((if neg then -1 else 1) * part u b i)) + (IZR (d2 i) - IZR ((if neg then -1 else 1) * y))) by ring.
        eapply Rle_trans; [apply Rabs_triang|]. lra.
  - destruct st as [[r t] vds]. destruct PS as (d & -> & ?). exists d, t, vds. split; [exact ES|]. exact H.
Qed.

(** The parts in terms of the stored weights. *)
Lemma part_eq u B i : is_diff (m_mode c) = true -> (i < m)%nat ->
  part u B i = sumZ n (fun j => cellv c mp i j * (nth j u 0 mod 2 ^ Z.of_nat B))%Z.
Proof.
  intros _ H1. unfold part, X.
  rewrite (bits_segs n ns B (fun q j => gp (i * ns + q) j - gm (i * ns + q) j)%Z (fun q => sh q) (fun j => nth j u 0%Z)).
  apply sumZ_ext. intros j Hj. f_equal. symmetry. pose proof Hi as Hi'. pose proof Hd as Hd'. unfold cellv, segs. destruct (m_mode c); try discriminate Hi'; try discriminate Hd'; reflexivity.
Qed.
Lemma peak_le u B i : (i < m)%nat ->
  (peak u B i <= sumZ n (fun j => 2 ^ W_BIT c * (nth j u 0 mod 2 ^ Z.of_nat B)))%Z.
Proof.
  intros H1. unfold peak.
  transitivity (sumZ B (fun b => sumZ ns (fun q => 2 ^ Z.of_nat b * (2 ^ sh q *
    sumZ n (fun j => Z.abs (gp (i * ns + q) j - gm (i * ns + q) j) * bit_of (nth j u 0) (Z.of_nat b))))))%Z.
  - apply sumZ_le. intros b _. apply sumZ_le. intros q _.
    apply Z.mul_le_mono_nonneg_l; [apply Z.pow_nonneg; lia|]. apply Z.mul_le_mono_nonneg_l; [apply Z.pow_nonneg; lia|].
    unfold X. etransitivity; [apply sumZ_abs|]. apply sumZ_le. intros j _.
    rewrite Z.abs_mul. pose proof (bit_01 (nth j u 0%Z) (Z.of_nat b)). rewrite (Z.abs_eq (bit_of _ _)) by lia. lia.
  - rewrite (bits_segs n ns B (fun q j => Z.abs (gp (i * ns + q) j - gm (i * ns + q) j))%Z (fun q => sh q) (fun j => nth j u 0%Z)).
    apply sumZ_le. intros j Hj. assert (0 < 2 ^ Z.of_nat B)%Z by (apply Z.pow_pos_nonneg; lia).
    pose proof (Z.mod_pos_bound (nth j u 0%Z) (2 ^ Z.of_nat B) ltac:(lia)).
    apply Z.mul_le_mono_nonneg_r; [lia|].
    destruct (cell_int c mp m n Hc Hi i j H1 Hj) as (P & Q). etransitivity; [|exact Q].
    unfold segs. apply sumZ_le. intros q Hq. specialize (P q Hq).
    apply Z.mul_le_mono_nonneg_r; [apply Z.pow_nonneg; lia|lia].
Qed.

(** Bound of the peak in terms of the input. *)
Lemma peak_span u B i (f : nat -> Z) : (i < m)%nat -> (forall j, (j < n)%nat -> nth j u 0 mod 2 ^ Z.of_nat B = f j)%Z ->
  (forall j, (j < n)%nat -> f j <= 2 ^ I_BIT c)%Z ->
  (peak u B i <= Z.of_nat n * span c)%Z.
Proof.
  intros H1 Hf Hle. etransitivity; [now apply peak_le|]. rewrite span_eq, <- sumZ_const. apply sumZ_le. intros j Hj.
  rewrite Hf by auto. apply Z.mul_le_mono_nonneg_l; [|auto]. pose proof facts. lia.
Qed.
Lemma bound_R i B (p : Z) : (i < m)%nat -> (p <= Z.of_nat n * span c)%Z -> B <= E ->
  IZR (Z.abs (nth i res 0%Z) + p) + B <= IZR int_max.
Proof.
  intros H1 Hp HE. specialize (HB i H1). apply IZR_le in Hp. rewrite plus_IZR in *. lra.
Qed.

Lemma ana_int_iv : m_mode c = I_UINT_W_DIFF -> sumR (Z.to_nat (I_BIT c)) eb <= E -> igoal.
Proof.
  intros Hmode HE. unfold igoal, a_mvm. rewrite (sh_mode _ _ Hs), Hmode. unfold int_iv_a. cbv beta iota zeta.
  pose proof facts as (F1 & F2 & F3 & F4 & F5 & F6).
  assert (Hvu : forall j, (j < n)%nat -> (0 <= vv j < 2 ^ I_BIT c)%Z).
  { intros j Hj. specialize (Hv j Hj). unfold vok in Hv. now rewrite Hmode in Hv. }
  rewrite (load_ok vec n _ (fun v => v)); auto; [|rewrite (sh_vdp _ _ Hs); auto]. cbn [bind].
  set (u := upto n (fun j _ => nth j vec 0%Z) (vd_p mp)).
  assert (Lu : len u = colsN c) by (unfold u; rewrite upto_length; apply Hs).
  assert (Hu : forall j, (j < n)%nat -> nth j u 0%Z = vv j).
  { intros j Hj. unfold u. rewrite nth_upto_lt; auto. rewrite (sh_vdp _ _ Hs). lia. }
  set (B := Z.to_nat (I_BIT c)). assert (EB : I_BIT c = Z.of_nat B) by (unfold B; lia).
  assert (Hmod : forall j, (j < n)%nat -> (nth j u 0 mod 2 ^ Z.of_nat B = vv j)%Z).
  { intros j Hj. rewrite Hu, <- EB by auto. apply Z.mod_small. auto. }
  destruct (bit_loop_ok u B false res (@fill R (@tmp_fp RM mp) 0) (vd_slice mp)) as (d & t & vds & El & _ & _ & _ & Hd'); auto.
  - lia.
  - lia.
  - change (@F RM) with R. rewrite fill_length. apply fp_len.
  - now apply (sh_vds _ _ Hs).
  - apply zeros_fp.
  - intros i H1. apply bound_R; auto. apply (peak_span u B i (fun j => vv j)); auto. intros j Hj. specialize (Hvu j Hj). lia.
  - rewrite EB. change (@f0 RM) with 0. change (@F RM) with R. rewrite El. cbn [bind].
    eexists _, d. split; [reflexivity|]. intros i H1. specialize (Hd' i H1).
    rewrite Z.mul_1_l, part_eq in Hd' by auto.
    rewrite dres_plain by (unfold kap; now rewrite Hmode).
    rewrite (sumZ_ext n _ (fun j => cellv c mp i j * vv j)%Z) in Hd' by (intros j Hj; now rewrite Hmod).
    eapply Rle_trans; [exact Hd'|exact HE].
Qed.

Lemma ana_int_i : m_mode c = I_DIFF_W_DIFF_1XB \/ m_mode c = I_DIFF_W_DIFF_2XB ->
  sumR (Z.to_nat (I_BIT c - 1)) eb + sumR (Z.to_nat (I_BIT c)) eb <= E -> igoal.
Proof.
  intros Hmode HE. unfold igoal, a_mvm. rewrite (sh_mode _ _ Hs).
  assert (G : exists mp' d, @int_i_a RM c mp res vec mat m n l = Ok (upto m (fun i x => (x + d i)%Z) res, mp') /\
    forall i, (i < m)%nat -> Rabs (IZR (d i) - IZR (dres c mp vec n i 0%Z)) <= E).
  2: { destruct G as (mp' & d & G1 & G2). exists mp', d. split; [|exact G2]. destruct Hmode as [-> | ->]; rewrite G1; reflexivity. }
  unfold int_i_a. cbv beta iota zeta.
  pose proof facts as (F1 & F2 & F3 & F4 & F5 & F6).
  assert (Hvu : forall j, (j < n)%nat -> (- 2 ^ (I_BIT c - 1) <= vv j < 2 ^ (I_BIT c - 1))%Z).
  { intros j Hj. specialize (Hv j Hj). unfold vok in Hv. destruct Hmode as [Hm' | Hm']; now rewrite Hm' in Hv. }
  assert (Lvm : len (vd_m mp) = colsN c) by (apply (sh_vdm _ _ Hs); destruct Hmode as [-> | ->]; reflexivity).
  rewrite split_pm_ok; auto; [|rewrite (sh_vdp _ _ Hs); auto|rewrite Lvm; auto|].
  2: { intros j Hj. specialize (Hvu j Hj). unfold int_max. lia. }
  cbn [bind].
  set (up := upto n (fun j _ => posp (nth j vec 0%Z)) (vd_p mp)).
  set (um := upto n (fun j _ => negp (nth j vec 0%Z)) (vd_m mp)).
  assert (Lp : len up = colsN c) by (unfold up; rewrite upto_length; apply Hs).
  assert (Lm : len um = colsN c) by (unfold um; now rewrite upto_length).
  assert (Hup : forall j, (j < n)%nat -> nth j up 0%Z = posp (vv j)).
  { intros j Hj. unfold up. rewrite nth_upto_lt; auto. rewrite (sh_vdp _ _ Hs). lia. }
  assert (Hum : forall j, (j < n)%nat -> nth j um 0%Z = negp (vv j)).
  { intros j Hj. unfold um. rewrite nth_upto_lt; auto. lia. }
  rewrite (u32_id (I_BIT c - 1)) by lia.
  set (B := Z.to_nat (I_BIT c)) in *. set (B1 := Z.to_nat (I_BIT c - 1)) in *.
  assert (EB : I_BIT c = Z.of_nat B) by (unfold B; lia). assert (EB1 : (I_BIT c - 1)%Z = Z.of_nat B1) by (unfold B1; lia).
  assert (Mp : forall j, (j < n)%nat -> (nth j up 0 mod 2 ^ Z.of_nat B1 = posp (vv j))%Z).
  { intros j Hj. rewrite Hup, <- EB1 by auto. apply Z.mod_small. unfold posp. specialize (Hvu j Hj). lia. }
  assert (Mm : forall j, (j < n)%nat -> (nth j um 0 mod 2 ^ Z.of_nat B = negp (vv j))%Z).
  { intros j Hj. rewrite Hum, <- EB by auto. apply Z.mod_small. unfold negp. specialize (Hvu j Hj). lia. }
  assert (PK : forall i, (i < m)%nat -> (peak up B1 i + peak um B i <= Z.of_nat n * span c)%Z).
  { intros i H1. pose proof (peak_le up B1 i H1) as P1. pose proof (peak_le um B i H1) as P2.
    etransitivity; [exact (Z.add_le_mono _ _ _ _ P1 P2)|]. rewrite <- sumZ_add, span_eq, <- sumZ_const. apply sumZ_le. intros j Hj.
    rewrite Mp, Mm by auto. rewrite <- Z.mul_add_distr_l. apply Z.mul_le_mono_nonneg_l; [lia|]. specialize (Hvu j Hj).
    unfold posp, negp. lia. }
  assert (PP : forall u k i, (0 <= peak u k i)%Z).
  { intros u k i. pose proof (abs_part u k i). lia. }
  assert (EP : 0 <= sumR B eb /\ 0 <= sumR B1 eb) by (split; apply sumR_nonneg; intros; apply eb_nonneg).
  destruct (bit_loop_ok up B1 false res (@fill R (@tmp_fp RM mp) 0) (vd_slice mp)) as (d & t & vds & El & Lt & Lv & Zt & Hd'); auto.
  - lia.
  - lia.
  - change (@F RM) with R. rewrite fill_length. apply fp_len.
  - now apply (sh_vds _ _ Hs).
  - apply zeros_fp.
  - intros i H1. apply bound_R; auto; [|lra]. specialize (PK i H1). specialize (PP um B i). lia.
  - rewrite EB1. change (@f0 RM) with 0. change (@F RM) with R. rewrite El. cbn [bind].
    destruct (bit_loop_ok um B true (upto m (fun i x => (x + d i)%Z) res) t vds) as (d2 & t2 & vds2 & El2 & Lt2 & Lv2 & Zt2 & Hd2); auto.
    + lia.
    + lia.
    + now rewrite upto_length.
    + intros i H1. rewrite nth_upto_lt by lia. specialize (Hd' i H1). rewrite Z.mul_1_l in Hd'. apply near_bound in Hd'.
      pose proof (abs_part up B1 i) as AP. apply IZR_le in AP. specialize (PK i H1). apply IZR_le in PK. rewrite plus_IZR in PK.
      specialize (HB i H1). rewrite plus_IZR in *.
      assert (T : (Z.abs (nth i res 0 + d i) <= Z.abs (nth i res 0) + Z.abs (d i))%Z) by lia.
      apply IZR_le in T. rewrite plus_IZR in T. lra.
    + rewrite EB, El2. cbn [bind]. rewrite upto_upto. eexists _, (fun i => (d i + d2 i)%Z). split.
      { do 2 f_equal. apply (upto_ext m _ _ res 0%Z). intros. ring. }
      intros i H1. specialize (Hd' i H1). specialize (Hd2 i H1).
      rewrite part_eq in Hd', Hd2 by auto. rewrite dres_plain by (unfold kap; destruct Hmode as [-> | ->]; reflexivity).
      rewrite Z.mul_1_l in Hd'.
      rewrite (sumZ_ext n _ (fun j => cellv c mp i j * posp (vv j))%Z) in Hd' by (intros j Hj; now rewrite Mp).
      rewrite (sumZ_ext n _ (fun j => cellv c mp i j * negp (vv j))%Z) in Hd2 by (intros j Hj; now rewrite Mm).
      replace (sumZ n (fun j => cellv c mp i j * vv j))%Z with
        (sumZ n (fun j => cellv c mp i j * posp (vv j)) + -1 * sumZ n (fun j => cellv c mp i j * negp (vv j)))%Z.
      2: { rewrite <- sumZ_mul_l, <- sumZ_add. apply sumZ_ext. intros j _. rewrite <- (pos_neg (vv j)) at 3. ring. }
      rewrite !plus_IZR. match goal with |- Rabs (?a + ?b - (?x + ?y)) <= _ => replace (a + b - (x + y)) with ((a - x) + (b - y)) by ring end.
      eapply Rle_trans; [apply Rabs_triang|]. lra.
Qed.

Lemma ana_int_ii : m_mode c = I_OFFS_W_DIFF -> sumR (Z.to_nat (I_BIT c + 1)) eb <= E -> igoal.
Proof.
  intros Hmode HE. unfold igoal, a_mvm. rewrite (sh_mode _ _ Hs), Hmode. unfold int_ii_a. cbv beta iota zeta.
  pose proof facts as (F1 & F2 & F3 & F4 & F5 & F6).
  assert (Hvu : forall j, (j < n)%nat -> (- 2 ^ (I_BIT c - 1) <= vv j < 2 ^ (I_BIT c - 1))%Z).
  { intros j Hj. specialize (Hv j Hj). unfold vok in Hv. now rewrite Hmode in Hv. }
  assert (Hk : kap c = (2 ^ (I_BIT c - 1))%Z) by (unfold kap; now rewrite Hmode).
  rewrite (u32_id (I_BIT c - 1)) by lia. rewrite (u32_id (I_BIT c + 1)) by lia.
  rewrite (load_ok vec n _ (fun v => 2 ^ (I_BIT c - 1) + v)%Z); auto; [|rewrite (sh_vdp _ _ Hs); auto|].
  2: { intros j Hj. specialize (Hvu j Hj). rewrite shl32_ok by (unfold int_min, int_max; lia).
       cbn [bind]. rewrite Z.mul_1_l. apply add32_ok. unfold int_min, int_max; lia. }
  cbn [bind]. set (u := upto n (fun j _ => (2 ^ (I_BIT c - 1) + nth j vec 0)%Z) (vd_p mp)).
  assert (Lu : len u = colsN c) by (unfold u; rewrite upto_length; apply Hs).
  assert (Hu : forall j, (j < n)%nat -> nth j u 0%Z = (2 ^ (I_BIT c - 1) + vv j)%Z).
  { intros j Hj. unfold u. rewrite nth_upto_lt; auto. rewrite (sh_vdp _ _ Hs). lia. }
  set (B := Z.to_nat (I_BIT c + 1)) in *. assert (EB : (I_BIT c + 1)%Z = Z.of_nat B) by (unfold B; lia).
  assert (Hmod : forall j, (j < n)%nat -> (nth j u 0 mod 2 ^ Z.of_nat B = 2 ^ (I_BIT c - 1) + vv j)%Z).
  { intros j Hj. rewrite Hu, <- EB by auto. apply Z.mod_small. specialize (Hvu j Hj).
    rewrite Z.pow_add_r by lia. change (2 ^ 1)%Z with 2%Z. lia. }
  destruct (bit_loop_ok u B false res (@fill R (@tmp_fp RM mp) 0) (vd_slice mp)) as (d & t & vds & El & _ & _ & _ & Hd'); auto.
  - lia.
  - lia.
  - change (@F RM) with R. rewrite fill_length. apply fp_len.
  - now apply (sh_vds _ _ Hs).
  - apply zeros_fp.
  - intros i H1. apply bound_R; auto. apply (peak_span u B i (fun j => 2 ^ (I_BIT c - 1) + vv j)%Z); auto. intros j Hj. specialize (Hvu j Hj). lia.
  - rewrite EB. change (@f0 RM) with 0. change (@F RM) with R. rewrite El. cbn [bind].
    assert (ND : forall i, (i < m)%nat ->
      Rabs (IZR (d i - nth i (sum_w mp) 0 * 2 ^ (I_BIT c - 1))%Z - IZR (dres c mp vec n i 0%Z)) <= E).
    { intros i H1. specialize (Hd' i H1). rewrite Z.mul_1_l, part_eq in Hd' by auto.
      rewrite (sumZ_ext n _ (fun j => cellv c mp i j * (2 ^ (I_BIT c - 1) + vv j))%Z) in Hd' by (intros j Hj; now rewrite Hmod).
      assert (ED : dres c mp vec n i 0 = (sumZ n (fun j => cellv c mp i j * (2 ^ (I_BIT c - 1) + vv j)) - nth i (sum_w mp) 0 * 2 ^ (I_BIT c - 1))%Z).
      { unfold dres. rewrite Hk. 
        rewrite (sumZ_ext n (fun j => cellv c mp i j * (2 ^ (I_BIT c - 1) + vv j))%Z (fun j => 2 ^ (I_BIT c - 1) * cellv c mp i j + (cellv c mp i j * vv j + cellb c mp i j))%Z).
        2: { intros j _. assert (cellb c mp i j = 0%Z) as -> by (unfold cellb; now rewrite Hmode). ring. }
        rewrite (sumZ_add n (fun j => 2 ^ (I_BIT c - 1) * cellv c mp i j)%Z (fun j => cellv c mp i j * vv j + cellb c mp i j)%Z).
        rewrite (sumZ_mul_l n (2 ^ (I_BIT c - 1))%Z (fun j => cellv c mp i j)). ring. }
      rewrite ED, !minus_IZR. match goal with |- Rabs (?a - ?b - (?x - ?y)) <= _ => replace (a - b - (x - y)) with (a - x) by ring end. lra. }
    rewrite (rows_eq m _ (fun i x => x - nth i (sum_w mp) 0 * 2 ^ (I_BIT c - 1))%Z (upto m (fun i x => (x + d i)%Z) res) 0%Z).
    + cbn [bind]. rewrite upto_upto.
      eexists _, (fun i => (d i - nth i (sum_w mp) 0 * 2 ^ (I_BIT c - 1))%Z). split; [|exact ND].
      do 2 f_equal. f_equal. apply (upto_ext m _ _ res 0%Z). intros. ring.
    + now rewrite upto_length.
    + intros i a H1 La Va. rewrite upto_length in La. rewrite nth_upto_lt in Va by lia.
      rewrite (get_ok _ i 0%Z) by (rewrite (sh_sw _ _ Hs); lia). cbn [bind].
      specialize (HKs i H1). rewrite Hk in HKs.
      rewrite shl32_ok by (try (intros X1; rewrite (Hst Hmode) in X1; discriminate X1); unfold int_min, int_max in *; lia). cbn [bind].
      rewrite (subto_ok _ _ _ 0%Z); [reflexivity|lia|]. rewrite Va.
      specialize (ND i H1). specialize (HF i H1). rewrite dres_shift in HF.
      set (y := (d i - nth i (sum_w mp) 0 * 2 ^ (I_BIT c - 1))%Z) in *. set (x := nth i res 0%Z) in *.
      assert (N : Rabs (IZR (x + y) - IZR (x + dres c mp vec n i 0)) <= E).
      { rewrite !plus_IZR. match goal with |- Rabs (?a + ?b - (?a + ?y)) <= _ => replace (a + b - (a + y)) with (b - y) by ring end. exact ND. }
      apply near_bound in N. assert (Z.abs (x + y) <= int_max)%Z by (apply le_IZR; lra).
      unfold y, int_min, int_max in *. lia.
Qed.

Lemma ana_int_iii : m_mode c = I_TC_W_DIFF -> sumR (Z.to_nat (I_BIT c)) eb <= E -> igoal.
Proof.
  intros Hmode HE. unfold igoal, a_mvm. rewrite (sh_mode _ _ Hs), Hmode. unfold int_iii_a. cbv beta iota zeta.
  pose proof facts as (F1 & F2 & F3 & F4 & F5 & F6).
  assert (Hvu : forall j, (j < n)%nat -> (- 2 ^ (I_BIT c - 1) <= vv j < 2 ^ (I_BIT c - 1))%Z).
  { intros j Hj. specialize (Hv j Hj). unfold vok in Hv. now rewrite Hmode in Hv. }
  rewrite (u32_id (I_BIT c - 1)) by lia.
  rewrite (load_ok vec n _ (fun v => v)); auto; [|rewrite (sh_vdp _ _ Hs); auto]. cbn [bind].
  set (u := upto n (fun j _ => nth j vec 0%Z) (vd_p mp)).
  assert (Lu : len u = colsN c) by (unfold u; rewrite upto_length; apply Hs).
  assert (Hu : forall j, (j < n)%nat -> nth j u 0%Z = vv j).
  { intros j Hj. unfold u. rewrite nth_upto_lt; auto. rewrite (sh_vdp _ _ Hs). lia. }
  set (B := Z.to_nat (I_BIT c)) in *. set (B1 := Z.to_nat (I_BIT c - 1)) in *.
  assert (EB : I_BIT c = Z.of_nat B) by (unfold B; lia). assert (EB1 : (I_BIT c - 1)%Z = Z.of_nat B1) by (unfold B1; lia).
  assert (BB : B = S B1) by lia.
  assert (PK : forall i, (i < m)%nat -> (peak u B i <= Z.of_nat n * span c)%Z).
  { intros i H1. apply (peak_span u B i (fun j => nth j u 0 mod 2 ^ Z.of_nat B)%Z); auto. intros j Hj. rewrite EB.
    pose proof (Z.mod_pos_bound (nth j u 0%Z) (2 ^ Z.of_nat B) ltac:(lia)). lia. }
  assert (PE : forall i, peak u B i = (peak u B1 i + sumZ ns (fun q => 2 ^ Z.of_nat B1 * (2 ^ sh q * Z.abs (X u B1 (i * ns + q)))))%Z).
  { intros i. rewrite BB. reflexivity. }
  assert (PN : forall i, (0 <= sumZ ns (fun q => 2 ^ Z.of_nat B1 * (2 ^ sh q * Z.abs (X u B1 (i * ns + q)))))%Z).
  { intros i. apply sumZ_nonneg. intros q _. apply Z.mul_nonneg_nonneg; [apply Z.pow_nonneg; lia|]. apply Z.mul_nonneg_nonneg; [apply Z.pow_nonneg; lia|lia]. }
  assert (EE : sumR B eb = sumR B1 eb + eb B1) by (rewrite BB; reflexivity).
  pose proof (eb_nonneg B1) as EN.
  destruct (bit_loop_ok u B1 false res (@fill R (@tmp_fp RM mp) 0) (vd_slice mp)) as (d & t & vds & El & Lt & Lv & Zt & Hd'); auto.
  - lia.
  - lia.
  - change (@F RM) with R. rewrite fill_length. apply fp_len.
  - now apply (sh_vds _ _ Hs).
  - apply zeros_fp.
  - intros i H1. apply bound_R; auto; [|lra]. specialize (PK i H1). specialize (PN i). rewrite PE in PK. lia.
  - rewrite EB1. change (@f0 RM) with 0. change (@F RM) with R. rewrite El. cbn [bind].
    rewrite slice_eq by lia. cbn [bind].
    destruct (currents_eq u B1 t vds Lt Lv Zt) as (t' & Et & Lt2 & Vt). rewrite Et. cbn [bind].
    destruct (bit_add_eq u B1 false true t' (upto m (fun i x => (x + d i)%Z) res)) as (d2 & Ed & Hd2); auto.
    + rewrite Lt2. unfold rowsN. nia.
    + now rewrite upto_length.
    + intros i H1. rewrite nth_upto_lt by lia. specialize (Hd' i H1). rewrite Z.mul_1_l in Hd'. apply near_bound in Hd'.
      pose proof (abs_part u B1 i) as AP. apply IZR_le in AP. specialize (PK i H1). rewrite PE in PK. apply IZR_le in PK. rewrite plus_IZR in PK.
      specialize (HB i H1). rewrite plus_IZR in *.
      assert (T : (Z.abs (nth i res 0 + d i) <= Z.abs (nth i res 0) + Z.abs (d i))%Z) by lia.
      apply IZR_le in T. rewrite plus_IZR in T. lra.
    + rewrite Ed. cbn [bind]. rewrite upto_upto. eexists _, (fun i => (d i + d2 i)%Z). split.
      { do 2 f_equal. f_equal. apply (upto_ext m _ _ res 0%Z). intros. ring. }
      intros i H1. specialize (Hd' i H1). specialize (Hd2 i H1). cbn [orb] in Hd2.
      rewrite Z.mul_1_l, part_eq in Hd' by auto. rewrite dres_plain by (unfold kap; now rewrite Hmode).
      rewrite sumZ_mul_l in Hd2. set (last := sumZ ns _) in Hd2.
      assert (EL : last = sumZ n (fun j => cellv c mp i j * (2 ^ Z.of_nat B1 * bit_of (nth j u 0) (Z.of_nat B1)))%Z).
      { assert (P1 : part u B i = (part u B1 i + last)%Z) by (rewrite BB; reflexivity).
        assert (last = (part u B i - part u B1 i)%Z) as -> by lia. rewrite !part_eq by auto. rewrite <- sumZ_sub. apply sumZ_ext. intros j Hj.
        rewrite <- Z.mul_sub_distr_l. f_equal. rewrite BB. rewrite <- !bits_low, !sum_sumZ. cbn [sumZ]. ring. }
      rewrite EL in Hd2.
      replace (sumZ n (fun j => cellv c mp i j * vv j))%Z with
        (sumZ n (fun j => cellv c mp i j * (nth j u 0 mod 2 ^ Z.of_nat B1)) +
         -1 * sumZ n (fun j => cellv c mp i j * (2 ^ Z.of_nat B1 * bit_of (nth j u 0) (Z.of_nat B1))))%Z.
      2: { rewrite <- sumZ_mul_l, <- sumZ_add. apply sumZ_ext. intros j Hj.
           rewrite <- Hu by auto. rewrite <- (bits_signed (nth j u 0%Z) B1) at 3 by (rewrite Hu, <- EB1 by auto; auto).
           rewrite bits_low. ring. }
      rewrite !plus_IZR. match goal with |- Rabs (?a + ?b - (?x + ?y)) <= _ => replace (a + b - (x + y)) with ((a - x) + (b - y)) by ring end.
      eapply Rle_trans; [apply Rabs_triang|]. lra.
Qed.
End Diff.

(** *** Offset weights, accumulation in floating point *)
Section Offs.
Context (Hmode : m_mode c = I_UINT_W_OFFS).

(** Partial sum of row [r] and number of active columns for one bit. *)
Definition X1 (u : list Z) (b r : nat) : Z := sumZ n (fun j => gp r j * bit_of (nth j u 0) (Z.of_nat b))%Z.
Definition on (u : list Z) (b : nat) : Z := sumZ n (fun j => bit_of (nth j u 0) (Z.of_nat b))%Z.
Definition cur (u : list Z) (b i q : nat) : R :=
  IZR (X1 u b (i * ns + q)) * (dl / IZR (top q)) + hrs * IZR (on u b).

Lemma ok_cur u b i q : (i < m)%nat -> (q < ns)%nat -> ok (cur u b i q).
Proof.
  intros H1 Hq. destruct Hok as [H|(Hh & P & _ & H)]; [apply H|]. apply H; [now rewrite Hmode|].
  pose proof (top_R q Hq) as PT. unfold cur, X1, on. rewrite <- !sumR_IZR, <- sumR_mul_r, <- sumR_mul_l, <- sumR_add.
  assert (T : forall j, (j < n)%nat -> 0 <= IZR (gp (i * ns + q) j * bit_of (nth j u 0%Z) (Z.of_nat b)) * (dl / IZR (top q)) +
     hrs * IZR (bit_of (nth j u 0%Z) (Z.of_nat b)) <= lrs).
  { intros j Hj. pose proof (cells i q j H1 Hq Hj) as (C & _). pose proof (bit_01 (nth j u 0%Z) (Z.of_nat b)).
    set (t := bit_of _ _) in *.
    assert (0 <= IZR (gp (i * ns + q) j) * (dl / IZR (top q)) <= dl).
    { destruct C as (C1 & C2). apply IZR_le in C1. apply IZR_le in C2.
      assert (0 <= dl / IZR (top q)) by (apply Rmult_le_pos; [lra|left; now apply Rinv_0_lt_compat]).
      split; [now apply Rmult_le_pos|].
      apply Rle_trans with (IZR (top q) * (dl / IZR (top q))); [now apply Rmult_le_compat_r|right; field; lra]. }
    assert (t = 0 \/ t = 1)%Z as [-> | ->] by lia; rewrite ?Z.mul_0_r, ?Z.mul_1_r; lra. }
  split.
  - apply sumR_nonneg. intros j Hj. now apply T.
  - rewrite <- sumR_const. apply sumR_le. intros j Hj. now apply T.
Qed.

(** Value of one conversion and its error. *)
Definition yv (u : list Z) (b i q : nat) : R :=
  cv (cur u b i q) (IZR (2 ^ Z.of_nat b * 2 ^ sh q) / (dl / IZR (top q))) 0.
Definition yt (u : list Z) (b i q : nat) : R :=
  IZR (2 ^ Z.of_nat b * (2 ^ sh q * X1 u b (i * ns + q))) +
  hrs / dl * (IZR (2 ^ sh q * top q) * IZR (2 ^ Z.of_nat b * on u b)).
Lemma y_scale u b i q : (q < ns)%nat ->
  (cur u b i q + 0) * (IZR (2 ^ Z.of_nat b * 2 ^ sh q) / (dl / IZR (top q))) = yt u b i q.
Proof.
  intros Hq. pose proof (top_R q Hq) as PT. unfold cur, yt. rewrite !mult_IZR. field. split; lra.
Qed.
Lemma y_near u b i q : (i < m)%nat -> (q < ns)%nat -> Rabs (yv u b i q - yt u b i q) <= eps (IZR (gain q (Z.of_nat b))).
Proof.
  intros H1 Hq. rewrite <- y_scale by auto. unfold yv.
  pose proof (cv_acc _ _ _ _ _ HC (cur u b i q) (IZR (2 ^ Z.of_nat b * 2 ^ sh q) / (dl / IZR (top q))) 0
    ltac:(rewrite Rplus_0_r; now apply ok_cur)
    ltac:(destruct Hfit as [HF0|[_ HF0]]; [apply HF0|rewrite Hmode in HF0; discriminate HF0])) as A.
  pose proof (gain_eq q (Z.of_nat b) false Hq ltac:(lia)) as G. cbv iota in G. rewrite G in A. exact A.
Qed.
Lemma y_exact u b i q : (forall x sc off, cv x sc off = (x + off) * sc) -> (q < ns)%nat -> yv u b i q = yt u b i q.
Proof. intros H Hq. rewrite <- y_scale by auto. apply H. Qed.

Lemma currents1_eq u b (t0 : list R) vds0 : len t0 = rowsN c -> len vds0 = colsN c ->
  (forall r, (r < m * ns)%nat -> nth r t0 0 = 0) ->
  exists t : list R,
    @slice_currents RM c mp (@fterm1 RM (ia_p mp) (upto n (fun j _ => bit_of (nth j u 0) (Z.of_nat b))%Z vds0))
      (upto n (fun j _ => bit_of (nth j u 0) (Z.of_nat b))%Z vds0) (m * ns) n t0 = Ok t /\ len t = rowsN c /\
    forall i q, (i < m)%nat -> (q < ns)%nat -> nth (i * ns + q) t 0 = cur u b i q.
Proof.
  intros Lt Lv Z0. unfold slice_currents. rewrite Hpar.
  assert (Lr : (m * ns <= rowsN c)%nat) by (unfold rowsN; nia).
  rewrite (facc2_eq nz s (m * ns) n _ (fun r j => ip r j * IZR (bit_of (nth j u 0%Z) (Z.of_nat b)))) by
    (try (change (@F RM) with R; lia);
     intros r j Hr Hj; rewrite (fterm1_eq nz s (rowsN c) (colsN c)); try apply Hs; try (rewrite upto_length); try lia;
     rewrite nth_upto_lt by lia; reflexivity).
  eexists. split; [reflexivity|]. split; [change (@F RM) with R; now rewrite upto_length|].
  intros i q H1 Hq. change (@F RM) with R. rewrite nth_upto_lt by nia. rewrite Z0 by nia. rewrite Rplus_0_l.
  unfold cur, X1, on. rewrite <- !sumR_IZR, <- sumR_mul_r, <- sumR_mul_l, <- sumR_add. apply sumR_ext. intros j Hj.
  rewrite Hip by auto. rewrite mult_IZR. ring.
Qed.

Lemma rf_rows u b (t rf : list R) (body : nat -> nat -> list R -> out (list R)) : (m <= len rf)%nat ->
  (forall i q a, (i < m)%nat -> (q < ns)%nat -> len a = len rf -> body i q a = @faddto RM a i (yv u b i q)) ->
  forN m (fun i a => forN ns (body i) a) rf = Ok (upto m (fun i x => x + sumR ns (yv u b i)) rf).
Proof.
  intros Lr Hbd. apply (rows_eq m _ (fun i x => x + sumR ns (yv u b i)) rf 0 Lr).
  intros i a H1 La _.
  apply (entry_eq ns (body i) (fun q x => x + yv u b i q) i a 0 (fun k => nth i a 0 + sumR k (yv u b i))); auto.
  - lia.
  - cbn. lra.
  - intros. cbn [sumR]. lra.
  - intros q a' Hq La' _. rewrite Hbd by (auto; lia). unfold faddto. change (@F RM) with R.
    rewrite (get_ok a' i 0) by lia. cbn [bind]. now rewrite set_ok by lia.
Qed.

Lemma sumR_swap a b (f : nat -> nat -> R) : sumR a (fun i => sumR b (fun j => f i j)) = sumR b (fun j => sumR a (fun i => f i j)).
Proof.
  induction a as [|a IH]; cbn [sumR].
  - rewrite sumR_const. ring.
  - rewrite IH, <- sumR_add. reflexivity.
Qed.

(** Total of the exact conversions. *)
Lemma yt_total u B i : (forall j, (j < n)%nat -> 0 <= nth j u 0 < 2 ^ Z.of_nat B)%Z ->
  sumR B (fun b => sumR ns (yt u b i)) =
  IZR (sumZ n (fun j => segs c (fun q => gp (i * ns + q) j) * nth j u 0)%Z) +
  hrs / dl * IZR (sumZ ns (fun q => 2 ^ sh q * top q)%Z) * IZR (sumZ n (fun j => nth j u 0%Z)).
Proof.
  intros Hu.
  transitivity (IZR (sumZ B (fun b => sumZ ns (fun q => 2 ^ Z.of_nat b * (2 ^ sh q * X1 u b (i * ns + q)))))%Z +
    hrs / dl * IZR (sumZ ns (fun q => 2 ^ sh q * top q)%Z) * IZR (sumZ B (fun b => 2 ^ Z.of_nat b * on u b)%Z)).
  - rewrite <- !sumR_IZR, <- sumR_mul_l, <- sumR_add. apply sumR_ext. intros b _.
    rewrite <- !sumR_IZR. rewrite Rmult_assoc, <- sumR_mul_r, <- sumR_mul_l, <- sumR_add. reflexivity.
  - f_equal.
    + f_equal. unfold X1.
      rewrite (bits_segs n ns B (fun q j => gp (i * ns + q) j) (fun q => sh q) (fun j => nth j u 0%Z)).
      apply sumZ_ext. intros j Hj. unfold segs. f_equal. apply Z.mod_small. auto.
    + f_equal. f_equal.
      transitivity (sumZ B (fun b => sumZ n (fun j => 2 ^ Z.of_nat b * bit_of (nth j u 0) (Z.of_nat b))))%Z.
      { apply sumZ_ext. intros b _. unfold on. now rewrite <- sumZ_mul_l. }
      rewrite sumZ_swap. apply sumZ_ext. intros j Hj. rewrite <- sum_sumZ. apply bits_unsigned. auto.
Qed.

Lemma ana_int_v : sumR (Z.to_nat (I_BIT c)) eb + hf <= E -> igoal.
Proof.
  intros HE. unfold igoal, a_mvm. rewrite (sh_mode _ _ Hs), Hmode. unfold int_v_a. cbv beta iota zeta.
  pose proof facts as (F1 & F2 & F3 & F4 & F5 & F6).
  assert (Hvu : forall j, (j < n)%nat -> (0 <= vv j < 2 ^ I_BIT c)%Z).
  { intros j Hj. specialize (Hv j Hj). unfold vok in Hv. now rewrite Hmode in Hv. }
  rewrite (load_ok vec n _ (fun v => v)); auto; [|rewrite (sh_vdp _ _ Hs); auto]. cbn [bind].
  set (u := upto n (fun j _ => nth j vec 0%Z) (vd_p mp)).
  assert (Lu : len u = colsN c) by (unfold u; rewrite upto_length; apply Hs).
  assert (Hu : forall j, (j < n)%nat -> nth j u 0%Z = vv j).
  { intros j Hj. unfold u. rewrite nth_upto_lt; auto. rewrite (sh_vdp _ _ Hs). lia. }
  set (B := Z.to_nat (I_BIT c)) in *. assert (EB : I_BIT c = Z.of_nat B) by (unfold B; lia).
  rewrite (sum64_ok vec n (span c)); auto.
  2: { etransitivity; [exact HN|]. unfold int_max. lia. }
  2: { intros j Hj. specialize (Hvu j Hj). rewrite span_eq. nia. }
  cbn [bind].
  assert (Lrf : len (@res_fp RM mp) = rowsN c) by (now apply (sh_rfp _ _ Hs)).
  assert (Lm : (m <= rowsN c)%nat) by (unfold rowsN; nia).
  change (@f0 RM) with 0. change (@F RM) with R in *.
  match goal with |- context [forN B ?body ?st0] =>
  destruct (forN_inv (fun b (st : list R * list R * list Z) =>
    let '(rf, t, vds) := st in len rf = rowsN c /\ len t = rowsN c /\ len vds = colsN c /\
      (forall r, (r < m * ns)%nat -> nth r t 0 = 0) /\
      forall i, (i < m)%nat -> nth i rf 0 = sumR b (fun b => sumR ns (yv u b i)))
    B body st0) as (st' & ES & PS) end.
  - repeat apply conj; try (rewrite fill_length); auto.
    + apply fp_len.
    + now apply (sh_vds _ _ Hs).
    + apply zeros_fp.
    + intros i H1. cbn [sumR]. apply nth_fill. rewrite Lrf. lia.
  - intros b [[rf t] vds] Hb' (L1 & L2 & L3 & Z1 & V1).
    rewrite slice_eq by lia. cbn [bind].
    destruct (currents1_eq u b t vds L2 L3 Z1) as (t' & Et & Lt2 & Vt). change (@F RM) with R in *. rewrite Et. cbn [bind].
    match goal with |- context [forN m ?body rf] => 
      assert (Er : forN m body rf = Ok (upto m (fun i x => x + sumR ns (yv u b i)) rf)) end.
    { apply (rf_rows u b t' rf); [lia|]. intros i q a H1 Hq La.
      rewrite (get_ok t' (i * ns + q) 0) by (rewrite Lt2; unfold rowsN; nia). cbn [bind].
      rewrite (get_ok (shift mp) q 0%Z) by (rewrite shift_eq, shifts_length; auto). cbn [bind].
      pose proof (sh_step _ _ Hs) as Ls. change (@F RM) with R in *.
      rewrite (get_ok (@i_step RM mp : list (option R)) q None) by (rewrite Ls; auto). cbn [bind].
      rewrite Hstep by auto. cbn [use bind]. rewrite shift_eq, Vt by auto.
      rewrite (scale_eq q (Z.of_nat b)) by (auto; lia). rewrite Hcv. cbn [bind]. reflexivity. }
    rewrite Er. cbn [bind]. eexists. split; [reflexivity|]. repeat apply conj.
    + now rewrite upto_length.
    + now rewrite fill_length.
    + now rewrite upto_length.
    + intros r Hr. apply nth_fill. rewrite Lt2. unfold rowsN. nia.
    + intros i H1. rewrite nth_upto_lt by lia. rewrite V1 by auto. reflexivity.
  - rewrite ES. destruct st' as [[rf t] vds]. destruct PS as (L1 & _ & _ & _ & V1). cbn [bind].
    set (isum := sumZ n (fun j => vv j)).
    set (dt := hrs / dl * IZR (sumZ ns (fun q => 2 ^ sh q * top q)%Z)).
    set (xv := fun i => sumR B (fun b => sumR ns (yv u b i)) - IZR isum * (dt + IZR (2 ^ (W_BIT c - 1)))).
    set (D := fun i => dres c mp vec n i 0%Z).
    assert (XT : forall i, (i < m)%nat -> sumR B (fun b => sumR ns (yt u b i)) - IZR isum * (dt + IZR (2 ^ (W_BIT c - 1))) = IZR (D i)).
    { intros i H1. rewrite yt_total by (intros j Hj; rewrite Hu, <- EB by auto; auto).
      rewrite (sumZ_ext n (fun j => nth j u 0%Z) (fun j => vv j)) by auto. fold isum.
      rewrite (sumZ_ext n (fun j => segs c (fun q => gp (i * ns + q) j) * nth j u 0)%Z (fun j => cellv c mp i j * vv j + 2 ^ (W_BIT c - 1) * vv j)%Z).
      2: { intros j Hj. rewrite Hu by auto. unfold cellv. rewrite Hmode. ring. }
      rewrite sumZ_add, (sumZ_mul_l n (2 ^ (W_BIT c - 1))%Z (fun j => vv j)). fold isum.
      unfold D. rewrite dres_plain by (unfold kap; now rewrite Hmode). fold dt. rewrite plus_IZR, mult_IZR. ring. }
    assert (XN : forall i, (i < m)%nat -> Rabs (IZR (ZnearestA (xv i)) - IZR (D i)) <= E).
    { intros i H1. destruct Hhalf as [Hex|Hhf2].
      - assert (xv i = IZR (D i)) as ->.
        { rewrite <- XT by auto. unfold xv. f_equal. apply sumR_ext. intros b _. apply sumR_ext. intros q Hq. now apply y_exact. }
        rewrite Zrnd_IZR by apply valid_rnd_N. rewrite Rminus_diag_eq by reflexivity. rewrite Rabs_R0.
        assert (0 <= sumR B eb) by (apply sumR_nonneg; intros; apply eb_nonneg). lra.
      - assert (A : Rabs (xv i - IZR (D i)) <= sumR B eb).
        { rewrite <- XT by auto. unfold xv.
          match goal with |- Rabs (?a - ?x - (?b - ?x)) <= _ => replace (a - x - (b - x)) with (a - b) by ring end.
          apply sumR_close. intros b _. apply sumR_close. intros q Hq. now apply y_near. }
        pose proof (Znearest_half (fun t => (0 <=? t)%Z) (xv i)) as Hh.
        replace (IZR (ZnearestA (xv i)) - IZR (D i)) with (- (xv i - IZR (ZnearestA (xv i))) + (xv i - IZR (D i))) by ring.
        eapply Rle_trans; [apply Rabs_triang|]. rewrite Rabs_Ropp. unfold ZnearestA in *. lra. }
    assert (DB : forall i, (i < m)%nat -> (Z.abs (D i) <= Z.of_nat n * span c)%Z).
    { intros i H1. unfold D. rewrite dres_plain by (unfold kap; now rewrite Hmode). apply sumZ_bound. intros j Hj.
      destruct (cell_int c mp m n Hc Hi i j H1 Hj) as (P & Q). specialize (Hvu j Hj).
      assert (C : (0 <= segs c (fun q => gp (i * ns + q) j) <= 2 ^ W_BIT c)%Z).
      { split.
        - apply sumZ_nonneg. intros q Hq. specialize (P q Hq). apply Z.mul_nonneg_nonneg; [lia|apply Z.pow_nonneg; lia].
        - etransitivity; [|exact Q]. apply sumZ_le. intros q Hq. specialize (P q Hq).
          apply Z.mul_le_mono_nonneg_r; [apply Z.pow_nonneg; lia|lia]. }
      assert (W2 : (2 ^ W_BIT c = 2 * 2 ^ (W_BIT c - 1))%Z).
      { replace (W_BIT c) with (Z.succ (W_BIT c - 1)) at 1 by lia. now rewrite Z.pow_succ_r by lia. }
      assert (0 < 2 ^ (W_BIT c - 1))%Z by (apply Z.pow_pos_nonneg; lia).
      unfold cellv. rewrite Hmode, span_eq, Z.abs_mul, (Z.abs_eq (vv j)) by lia.
      apply Z.mul_le_mono_nonneg; lia. }
    match goal with |- context [forN m ?body (res, rf)] =>
      assert (EF : forN m body (res, rf) = Ok (upto m (fun i x => (x + ZnearestA (xv i))%Z) res,
         upto m (fun i x => x - IZR isum * (dt + IZR (2 ^ (W_BIT c - 1)))) rf)) end.
    { rewrite <- (upto_0 (fun i x => (x + ZnearestA (xv i))%Z) res) at 1.
      rewrite <- (upto_0 (fun i x => x - IZR isum * (dt + IZR (2 ^ (W_BIT c - 1)))) rf) at 1.
      match goal with |- forN m ?body _ = _ => 
      apply (forN_eq (fun k => (upto k (fun i x => (x + ZnearestA (xv i))%Z) res,
         upto k (fun i x => x - IZR isum * (dt + IZR (2 ^ (W_BIT c - 1)))) rf)) m body) end.
      intros i H1. rewrite Hdelta by auto. cbn [use bind]. fold dt.
      rewrite (u32_id (W_BIT c - 1)) by lia.
      assert (0 < 2 ^ (W_BIT c - 1) <= 2 ^ 28)%Z by (split; [apply Z.pow_pos_nonneg; lia|apply Z.pow_le_mono_r; lia]).
      rewrite shl32_ok by (unfold int_min, int_max; lia). cbn [bind]. rewrite Z.mul_1_l.
      change (@fmul RM (@f_of_Z RM isum) (@fadd RM dt (@f_of_Z RM (2 ^ (W_BIT c - 1))))) with (IZR isum * (dt + IZR (2 ^ (W_BIT c - 1)))).
      unfold fsubto. change (@F RM) with R.
      rewrite (get_ok _ i 0) by (rewrite upto_length; lia). cbn [bind].
      rewrite set_ok by (rewrite upto_length; lia). cbn [bind].
      rewrite (get_ok _ i 0) by (rewrite upd_length, upto_length; lia). cbn [bind].
      rewrite nth_upd by (rewrite upto_length; lia); rewrite Nat.eqb_refl.
      rewrite (nth_upto i _ rf i 0) by lia. rewrite Nat.ltb_irrefl. rewrite V1 by auto.
      change (@fsub RM (sumR B (fun b => sumR ns (yv u b i))) (IZR isum * (dt + IZR (2 ^ (W_BIT c - 1))))) with (xv i).
      change (@fround RM (xv i)) with (IZR (ZnearestA (xv i))).
      specialize (XN i H1). pose proof (DB i H1) as DBi. pose proof (HB i H1) as HBi. pose proof (HF i H1) as HFi.
      rewrite dres_shift in HFi. fold (D i) in HFi.
      apply IZR_le in DBi. rewrite plus_IZR in HBi.
      assert (RA : 0 <= IZR (Z.abs (nth i res 0%Z))) by (apply (IZR_le 0); lia).
      pose proof (near_bound _ _ _ XN) as NB.
      assert (ZB : (Z.abs (ZnearestA (xv i)) <= int_max)%Z) by (apply le_IZR; lra).
      rewrite f2i_IZR by (unfold int_min, int_max in *; lia). cbn [bind].
      assert (N2 : Rabs (IZR (nth i res 0 + ZnearestA (xv i))%Z - IZR (nth i res 0 + D i)%Z) <= E).
      { rewrite !plus_IZR. match goal with |- Rabs (?a + ?b - (?a + ?y)) <= _ => replace (a + b - (a + y)) with (b - y) by ring end. exact XN. }
      apply near_bound in N2. assert (Z.abs (nth i res 0 + ZnearestA (xv i)) <= int_max)%Z by (apply le_IZR; lra).
      assert (NR : nth i (upto i (fun i x => (x + ZnearestA (xv i))%Z) res) 0%Z = nth i res 0%Z).
      { rewrite nth_upto by lia. now rewrite Nat.ltb_irrefl. }
      rewrite (addto_ok _ i _ 0%Z); [|rewrite upto_length; lia|rewrite NR; unfold int_min, int_max in *; lia]. cbn [bind]. rewrite NR.
      f_equal. f_equal.
      - symmetry. rewrite (upto_S i _ res 0%Z) by lia. reflexivity.
      - symmetry. rewrite (upto_S i _ rf 0) by lia. rewrite V1 by auto. reflexivity. }
    rewrite EF. cbn [bind]. eexists _, (fun i => ZnearestA (xv i)). split; [reflexivity|]. exact XN.
Qed.
End Offs.

(** Error of the result of a mode. *)
Definition ierr : R :=
  let bits k := sumR (Z.to_nat k) eb in
  match m_mode c with
  | I_DIFF_W_DIFF_1XB | I_DIFF_W_DIFF_2XB => bits (I_BIT c - 1)%Z + bits (I_BIT c)
  | I_OFFS_W_DIFF => bits (I_BIT c + 1)%Z
  | I_UINT_W_OFFS => bits (I_BIT c) + hf
  | _ => bits (I_BIT c)
  end.
Theorem ana_int : ierr <= E -> igoal.
Proof.
  assert (H : forall md, m_mode c = md -> ierr <= E -> igoal); [|exact (H _ eq_refl)].
  unfold ierr. intros md Hmode. rewrite Hmode.
  assert (D : is_diff md = true -> two_arrays md = true -> is_diff (m_mode c) = true /\ two_arrays (m_mode c) = true) by (rewrite Hmode; auto).
  destruct md; intros HE; try (exfalso; pose proof Hi as Hx'; rewrite Hmode in Hx'; discriminate Hx');
    try (destruct (D eq_refl eq_refl) as (D1 & D2)).
  - apply ana_int_i; auto.
  - apply ana_int_i; auto.
  - apply ana_int_ii; auto.
  - apply ana_int_iii; auto.
  - apply ana_int_iv; auto.
  - apply ana_int_v; auto.
Qed.
End M.
End AR.
