(** Analog MVMs of the integer modes with the solver, against the same MVMs without it. *)
From Coq Require Import String List ZArith Reals Bool Arith Lia Lra ZifyBool ZifyNat.
From RecordUpdate Require Import RecordSet.
From Flocq Require Import Core.
From Verif Require Import Base Lib Hoare Machine Json Config Histogram Adc ReadDisturb Parasitics
  Mapper IntMappers BnnMappers TnnMappers Crossbar Api RMachine ParSpec ParCode Shape MvmShape
  Spec DigMvm DigModes DigApi EmuProps StepFacts AnaReal AnaXnn AnaInt ParProps AnaSpec AnaProps WireSpec Wire Follow WireXnn.
Import ListNotations RecordSetNotations.
Local Open Scope R_scope.
Local Open Scope out_scope.
Ltac Zify.zify_post_hook ::= idtac.

Lemma sumR_mono k K (f : nat -> R) : (k <= K)%nat -> (forall q, (q < K)%nat -> 0 <= f q) -> sumR k f <= sumR K f.
Proof.
  intros H. induction H as [|K H IH]; intros Hf; [lra|]. cbn [sumR]. pose proof (Hf K ltac:(lia)).
  assert (sumR k f <= sumR K f) by (apply IH; intros; apply Hf; lia). lra.
Qed.
Lemma sumR_abs_le k (f g : nat -> R) : (forall q, (q < k)%nat -> Rabs (f q) <= g q) -> Rabs (sumR k f) <= sumR k g.
Proof. intros H. eapply Rle_trans; [apply sumR_abs|]. now apply sumR_le. Qed.
Lemma total_eps_lin (a b : R) l : total_eps (fun g => g * a + b) l = fold_right Rplus 0 (map IZR l) * a + INR (len l) * b.
Proof.
  unfold total_eps. induction l as [|x l IH]; [cbn; lra|]. cbn [map fold_right List.length]. rewrite IH, S_INR. ring.
Qed.
Lemma total_eps_mul (a : R) l : total_eps (fun g => g * a) l = fold_right Rplus 0 (map IZR l) * a.
Proof. unfold total_eps. induction l as [|x l IH]; [cbn; lra|]. cbn [map fold_right]. rewrite IH. ring. Qed.

Section RR.
Context (nz : bool -> nat -> R) (s : bool).
#[local] Hint Extern 0 Machine => exact (R_machine nz s) : typeclass_instances.
Notation RM := (R_machine nz s).

(** [res[i] += w i q] over rows and slices. *)
Lemma add_grid m ns (f g : nat -> nat -> list Z -> out (list Z)) (wA wB : nat -> nat -> R) e B (d bb : nat -> R) a b : cl e B m a b ->
  (forall i q x, (i < m)%nat -> (q < ns)%nat -> len x = len a -> f i q x = @res_fadd RM x i (wA i q)) ->
  (forall i q x, (i < m)%nat -> (q < ns)%nat -> len x = len a -> g i q x = @res_fadd RM x i (wB i q)) ->
  (forall i q, (i < m)%nat -> (q < ns)%nat -> Rabs (wA i q - wB i q) <= d q /\ Rabs (wA i q) <= bb q /\ Rabs (wB i q) <= bb q) ->
  (forall i, (i < m)%nat -> B i + sumR ns bb <= IZR int_max) ->
  fol (cl (e + sumR ns (fun q => d q + 1)) (fun i => B i + sumR ns bb) m)
    (forN m (fun i x => forN ns (f i) x) a) (forN m (fun i x => forN ns (g i) x) b).
Proof.
  intros HC Hf Hg Hw HB. apply (cl_rows m _ _ e B); [exact HC|]. intros i x y Hi Lx Ly H1 H2 H3. assert (Lm : (m <= len a)%nat) by apply HC.
  assert (Hbb : forall q, (q < ns)%nat -> 0 <= bb q).
  { intros q Hq. destruct (Hw i q Hi Hq) as (_ & W & _). pose proof (Rabs_pos (wA i q)). lra. }
  apply (fol_forN (fun k x' y' => exists u v, x' = upd x i u /\ y' = upd y i v /\
    Rabs (IZR u - IZR v) <= e + sumR k (fun q => d q + 1) /\ Rabs (IZR u) <= B i + sumR k bb /\ Rabs (IZR v) <= B i + sumR k bb)).
  - exists (nth i x 0%Z), (nth i y 0%Z). rewrite !upd_same. cbn [sumR]. split; [reflexivity|]. split; [reflexivity|]. split; [|split]; lra.
  - intros q x' y' Hq (u & v & -> & -> & D1 & D2 & D3). destruct (Hw i q Hi Hq) as (W1 & W2 & W3).
    rewrite Hf, Hg by (auto; now rewrite upd_length).
    assert (Hle : sumR (S q) bb <= sumR ns bb) by (apply sumR_mono; [lia|exact Hbb]). specialize (HB i Hi). cbn [sumR] in Hle |- *.
    eapply fol_impl; [|apply (fadd_fol nz s (upd x i u) (upd y i v) i (wA i q) (wB i q) (e + sumR q (fun q => d q + 1)) (B i + sumR q bb) (d q) (bb q))].
    + intros x' y' (u' & v' & -> & -> & K1 & K2 & K3). exists u', v'. rewrite !upd_upd. split; [reflexivity|]. split; [reflexivity|]. split; [|split]; lra.
    + rewrite upd_length. lia.
    + rewrite !nth_upd, !Nat.eqb_refl by lia. exact D1.
    + rewrite nth_upd, Nat.eqb_refl by lia. exact D2.
    + rewrite nth_upd, Nat.eqb_refl by lia. exact D3.
    + exact W1.
    + exact W2.
    + exact W3.
    + lra.
Qed.

Section M.
Context (c : @config RM) (mp : @mapper RM) (res vec mat : list Z) (m n : nat) (l : string) (e e' : @env RM)
  (D C : R) (fp : list (@F RM)).
Notation c' := (c <| parasitics := false |>).
Notation mB := (mp <| par := None |> <| tmp_fp := fp |>).
Notation MM := (Z.to_nat (M c)).
Notation hrs := (@HRS RM c).
Notation lrs := (@LRS RM c).
Notation dl := (lrs - hrs).
Notation ip r j := (at2 0 (@ia_p RM mp) r j).
Notation im r j := (at2 0 (@ia_m RM mp) r j).
Notation vv j := (nth j vec 0%Z).
Notation nR := (IZR (Z.of_nat n * term_bound c)).
Notation ns := (nsplit c).
Notation sh q := (nth q (shifts c) 0%Z).
Notation top := (top nz s c).
Notation gain := (gain nz s c).

Context (Hs : shape c mp) (Hm : (m <= MM)%nat) (Hn : (n <= colsN c)%nat)
  (Hres : (m <= len res)%nat) (Hvec : (n <= len vec)%nat)
  (Hpar : parasitics c = true) (Hinf : a_ty (mp_adc mp) = INF_ADC)
  (Hdl : 0 < dl) (Hhrs : 0 <= hrs) (HD : 0 <= D) (HC : INR n * hrs <= C)
  (Hv : forall j, (j < n)%nat -> vok c (vv j))
  (HS : near_solver nz s c mp m n D C)
  (Hsw : forall i, (i < m)%nat -> Rabs (IZR (kap c * nth i (sum_w mp) 0)%Z) <= nR)
  (HN : (Z.of_nat n * term_bound c <= int_max)%Z) (Hfp : (rows_of c m <= len fp)%nat)
  (HR : forall i, (i < m)%nat -> Rabs (IZR (nth i res 0%Z)) + nR + sum_gains c * (4 * C / dl) <= IZR int_max)
  (Hi : is_int (m_mode c) = true) (Htc : m_mode c <> I_TC_W_DIFF) (Hb : bits_ok c)
  (Hnn : Forall (fun k => 0 <= k)%Z (SPLIT c)) (Hcov : split_covers c)
  (Htop : forall q, (q < ns)%nat -> (1 <= top q)%Z)
  (Hstep : forall q, (q < ns)%nat -> nth q (@i_step RM mp) None = Some (dl / IZR (top q)))
  (Hst : m_mode c = I_OFFS_W_DIFF -> s = false)
  (Hdelta : m_mode c = I_UINT_W_OFFS ->
     @delta RM mp = Some (hrs / dl * IZR (sumZ (nsplit c) (fun q => 2 ^ nth q (shifts c) 0%Z * top q)%Z))).

Definition wgoal_int : Prop := wgoal nz s c mp res vec mat m n l e e' D C fp.

(** Error and size of the readings of one input bit. *)
Definition er (g : R) : R := g * (D / dl) + 1.
Definition sz (g : R) : R := g * (C / dl).
Notation ebe := (eb nz s c er).
Notation ebs := (eb nz s c sz).

Lemma KC_pos : 0 <= C / dl.
Proof. pose proof (pos_INR n). assert (0 <= C) by nra. apply Rmult_le_pos; [assumption|]. left. now apply Rinv_0_lt_compat. Qed.
Lemma KD_pos : 0 <= D / dl.
Proof. apply Rmult_le_pos; [assumption|]. left. now apply Rinv_0_lt_compat. Qed.
Lemma dl_nz : dl <> 0.
Proof. lra. Qed.
Lemma gain_pos q b : (q < ns)%nat -> (0 <= b)%Z -> 0 <= IZR (gain q b).
Proof.
  intros Hq Hb0. apply (IZR_le 0). unfold AnaInt.gain. specialize (Htop q Hq). destruct (seg_rng c Hb Hi q Hq) as (H1 & _).
  assert (0 < 2 ^ b)%Z by (apply Z.pow_pos_nonneg; lia). assert (0 < 2 ^ sh q)%Z by (apply Z.pow_pos_nonneg; lia). nia.
Qed.
Lemma sz_pos b : 0 <= ebs b.
Proof. apply sumR_nonneg. intros q Hq. unfold sz. apply Rmult_le_pos; [apply gain_pos; auto; lia|exact KC_pos]. Qed.
Lemma outs : outputs c m = (m * ns)%nat.
Proof. unfold outputs. now rewrite Hi. Qed.
Lemma rows_fp : (m * ns <= len fp)%nat.
Proof. unfold rows_of in Hfp. now rewrite Hi in Hfp. Qed.
Lemma rows_lt r : (r < m * ns)%nat -> (r < rowsN c)%nat.
Proof. intros H. unfold rowsN. nia. Qed.
Lemma shs : shift mp = shifts c.
Proof. now apply shift_eq. Qed.

(** The two runs' currents of one slice. *)
Lemma slice_near (termA termB : nat -> nat -> out R) (tv : nat -> nat -> R) vds (tA tB : list R) :
  len vds = colsN c -> bits01 vds n -> (m * ns <= len tB)%nat -> (forall r, (r < m * ns)%nat -> nth r tB 0 = 0) ->
  (forall i j, (i < m * ns)%nat -> (j < n)%nat -> termB i j = Ok (tv i j)) ->
  (forall i, (i < m * ns)%nat -> sumR n (tv i) =
     ideal_out (m_mode c) (current (@ia_p RM mp)) (current (@ia_m RM mp)) vds [] n i) ->
  fol (near (m * ns) D C) (@slice_currents RM c mp termA vds (m * ns) n tA)
    (@slice_currents RM c' mB termB vds (m * ns) n tB).
Proof.
  intros Lv Bv Lt Z0 Ht Hsum. unfold slice_currents. rewrite Hpar. change (parasitics c') with false. cbn iota.
  assert (H2 : two_rows (m_mode c) = true -> False) by (destruct (m_mode c); discriminate).
  destruct (HS vds [] Lv (fun H => match H2 H with end) Bv (fun H => match H2 H with end)) as (t & E & L & V). rewrite outs in E, L, V. rewrite E.
  rewrite (facc2_eq nz s (m * ns) n termB tv tB Lt Ht). apply fol_ok.
  split; [exact L|]. split; [now rewrite upto_length|]. intros i H1. change (@F RM) with R. rewrite nth_upto_lt by lia.
  rewrite Z0, Rplus_0_l, Hsum by auto. auto.
Qed.

Lemma scale_abs q b (neg : bool) : (q < ns)%nat -> (0 <= b)%Z ->
  Rabs (@bit_scale RM (sh q) b (if neg then @fneg RM (dl / IZR (top q)) else dl / IZR (top q))) = IZR (gain q b) / dl.
Proof.
  intros Hq Hb0. rewrite (scale_eq nz s c Hi Hb) by auto.
  change (if neg then @fneg RM (dl / IZR (top q)) else dl / IZR (top q)) with (if neg then - (dl / IZR (top q)) else dl / IZR (top q)).
  assert (PT : 0 < IZR (top q)) by (specialize (Htop q Hq); apply (IZR_lt 0); lia). pose proof (gain_pos q b Hq Hb0) as GP.
  assert (Q : 0 <= IZR (gain q b) / dl) by (apply Rmult_le_pos; [exact GP|]; left; now apply Rinv_0_lt_compat).
  destruct neg.
  - replace (_ / - _) with (- (IZR (gain q b) / dl)) by (unfold AnaInt.gain; rewrite (mult_IZR (2 ^ b * 2 ^ sh q)); field; lra).
    rewrite Rabs_Ropp. now apply Rabs_pos_eq.
  - replace (_ / _) with (IZR (gain q b) / dl) by (unfold AnaInt.gain; rewrite (mult_IZR (2 ^ b * 2 ^ sh q)); field; lra).
    now apply Rabs_pos_eq.
Qed.

Lemma bit_near b (neg : bool) (tA tB : list R) a0 b0 eN BN : near (m * ns) D C tA tB -> cl eN BN m a0 b0 ->
  (forall i, (i < m)%nat -> BN i + ebs b <= IZR int_max) ->
  fol (cl (eN + ebe b) (fun i => BN i + ebs b) m)
    (@bit_add RM c mp l m (Z.of_nat b) neg false tA a0) (@bit_add RM c' mB l m (Z.of_nat b) neg false tB b0).
Proof.
  intros (La & Lb & Hn2) Hc HB. unfold bit_add. change (nsplit c') with ns.
  set (sc := fun q => @bit_scale RM (sh q) (Z.of_nat b) (if neg then @fneg RM (dl / IZR (top q)) else dl / IZR (top q))).
  assert (GG : forall (k : @config RM) (a : list Z) (ad : adc) (t : list R) i q, (m * ns <= len t)%nat -> (i < m)%nat -> (q < ns)%nat -> a_ty ad = INF_ADC ->
    (x0 <- @get (@F RM) t (i * ns + q) ;; sh0 <- get (shift mp) q ;; o <- get (@i_step RM mp) q ;; stp <- use o ;;
     y <- @adc1 RM k ad l x0 (@bit_scale RM sh0 (Z.of_nat b) (if neg then @fneg RM stp else stp)) (@f0 RM) ;; @res_fadd RM a i y) =
    @res_fadd RM a i (nth (i * ns + q) t 0 * sc q)).
  { intros k a ad t i q Lt H1 Hq Ha. change (@F RM) with R.
    rewrite (get_ok t (i * ns + q) 0) by nia. cbn [bind].
    rewrite (get_ok (shift mp) q 0%Z) by (rewrite shs, shifts_length; auto). cbn [bind].
    pose proof (sh_step _ _ Hs) as Ls. change (@F RM) with R in *.
    rewrite (get_ok (@i_step RM mp : list (option R)) q None) by (rewrite Ls; auto). cbn [bind].
    rewrite Hstep by auto. cbn [use bind]. rewrite shs. unfold adc1. rewrite Ha. cbn [bind].
    change (@f0 RM) with 0. fold (sc q). change (@fmul RM (@fadd RM (nth (i * ns + q) t 0) 0) (sc q)) with ((nth (i * ns + q) t 0 + 0) * sc q).
    now rewrite Rplus_0_r. }
  apply (fol_impl (cl (eN + sumR ns (fun q => IZR (gain q (Z.of_nat b)) * (D / dl) + 1)) (fun i => BN i + sumR ns (fun q => IZR (gain q (Z.of_nat b)) * (C / dl))) m)); [auto|].
  apply (add_grid m ns _ _ (fun i q => nth (i * ns + q) tA 0 * sc q) (fun i q => nth (i * ns + q) tB 0 * sc q)); auto.
  - intros i q H1 Hq. destruct (Hn2 (i * ns + q)%nat ltac:(nia)) as (N1 & N2 & N3). pose proof (scale_abs q (Z.of_nat b) neg Hq ltac:(lia)) as SA. fold (sc q) in SA.
    pose proof (gain_pos q (Z.of_nat b) Hq ltac:(lia)) as GP. pose proof (Rabs_pos (sc q)) as SP.
    assert (MU : forall x y, Rabs x <= y -> Rabs (x * sc q) <= IZR (gain q (Z.of_nat b)) * (y / dl)).
    { intros x y Hxy. rewrite Rabs_mult. apply Rle_trans with (y * Rabs (sc q)); [now apply Rmult_le_compat_r|]. rewrite SA. right. field. exact dl_nz. }
    split; [|auto]. rewrite <- Rmult_minus_distr_r. auto.
Qed.

(** The loop over the input bits (differential modes). *)
Lemma loop_near u B (neg : bool) (tA tB : list R) vds0 a0 b0 eN BN : one_column (m_mode c) = false -> (B <= 32)%nat -> (n <= len u)%nat ->
  (m * ns <= len tB)%nat -> (forall r, (r < m * ns)%nat -> nth r tB 0 = 0) -> len vds0 = colsN c -> cl eN BN m a0 b0 ->
  (forall i, (i < m)%nat -> BN i + sumR B ebs <= IZR int_max) ->
  fol (fun p q => snd p = snd q /\ len (snd p) = colsN c /\ (m * ns <= len (snd (fst q)))%nat /\
        (forall r, (r < m * ns)%nat -> nth r (snd (fst q)) 0 = 0) /\
        cl (eN + sumR B ebe) (fun i => BN i + sumR B ebs) m (fst (fst p)) (fst (fst q)))
    (@bit_loop RM c mp l u m n (Z.of_nat B) neg (a0, tA, vds0)) (@bit_loop RM c' mB l u m n (Z.of_nat B) neg (b0, tB, vds0)).
Proof.
  intros H1c HB32 Lu Lt Z0 Lv Hc HB. unfold bit_loop. rewrite Nat2Z.id. change (nsplit c') with ns.
  change (@ia_p RM mB) with (@ia_p RM mp). change (@ia_m RM mB) with (@ia_m RM mp).
  apply (fol_forN (fun k (p q : list Z * list R * list Z) => snd p = snd q /\ len (snd p) = colsN c /\ (m * ns <= len (snd (fst q)))%nat /\
        (forall r, (r < m * ns)%nat -> nth r (snd (fst q)) 0 = 0) /\
        cl (eN + sumR k ebe) (fun i => BN i + sumR k ebs) m (fst (fst p)) (fst (fst q)))).
  - cbn [fst snd sumR]. split; [reflexivity|]. split; [exact Lv|]. split; [exact Lt|]. split; [exact Z0|].
    apply (cl_weak _ _ _ _ _ _ _ Hc); [lra|]. intros; lra.
  - intros b [[rA tA'] vA] [[rB tB'] vB] Hb' (Ev & Lv' & Lt' & Z1 & Hc'). cbn [fst snd] in *. subst vB.
    rewrite slice_eq by lia. cbn [bind]. set (vds := upto n _ vA).
    assert (Lvd : len vds = colsN c) by (unfold vds; now rewrite upto_length).
    assert (Bv : bits01 vds n).
    { intros j Hj. unfold vds. rewrite nth_upto_lt by lia. pose proof (bit_01 (nth j u 0%Z) (Z.of_nat b)). lia. }
    apply (fol_bind (near (m * ns) D C)).
    { apply (slice_near _ _ (fun r j => (ip r j - im r j) * IZR (nth j vds 0%Z))); auto.
      - intros r j Hr Hj. pose proof (rows_lt r Hr). apply (fterm_eq nz s (rowsN c) (colsN c)); try apply Hs; lia.
      - intros r Hr. unfold ideal_out. rewrite H1c. rewrite <- sumR_sub. apply sumR_ext. intros j Hj. unfold tval.
        change (current (@ia_p RM mp) r j) with (ip r j). change (current (@ia_m RM mp) r j) with (im r j).
        pose proof Hi as Hi'. destruct (m_mode c); try discriminate Hi'; ring. }
    intros t t' Hnt. apply (fol_bind (cl (eN + sumR b ebe + ebe b) (fun i => BN i + sumR b ebs + ebs b) m)).
    { apply bit_near; auto. intros i H1. specialize (HB i H1).
      assert (sumR (S b) ebs <= sumR B ebs) by (apply sumR_mono; [lia|intros; apply sz_pos]). cbn [sumR] in *. lra. }
    intros rA' rB' Hc2. apply fol_ok. cbn [fst snd sumR]. split; [reflexivity|]. split; [exact Lvd|].
    destruct Hnt as (_ & Lt2 & _). change (@F RM) with R. split; [now rewrite fill_length|]. split; [intros r Hr; apply nth_fill; lia|].
    apply (cl_weak _ _ _ _ _ _ _ Hc2); [lra|]. intros; lra.
Qed.

Lemma start_zero r : (r < m * ns)%nat -> nth r (@fill R fp 0%R) 0 = 0.
Proof. intros Hr. exact (nth_fill fp (0%R : @F RM) r 0 (Nat.lt_le_trans _ _ _ Hr rows_fp)). Qed.
Lemma start_len : (m * ns <= len (@fill R fp 0%R))%nat.
Proof. rewrite fill_length. exact rows_fp. Qed.
Lemma tot k : sumR (Z.to_nat k) ebe = fold_right Rplus 0 (map IZR (bit_gains c k)) * (D / dl) + INR (len (bit_gains c k)) /\
  sumR (Z.to_nat k) ebs = fold_right Rplus 0 (map IZR (bit_gains c k)) * (C / dl).
Proof.
  rewrite !(bit_gains_eq nz s c) by auto. unfold er, sz. rewrite total_eps_lin, total_eps_mul. split; ring.
Qed.
Lemma bits_pos k : 0 <= fold_right Rplus 0 (map IZR (bit_gains c k)).
Proof.
  assert (P := sumR_nonneg (Z.to_nat k) (eb nz s c (fun g => g * 1))). rewrite (bit_gains_eq nz s c) in P by auto. rewrite total_eps_mul, Rmult_1_r in P.
  apply P. intros b _. apply sumR_nonneg. intros q Hq. rewrite Rmult_1_r. apply gain_pos; auto; lia.
Qed.
Lemma foldR_app a b : fold_right Rplus 0 (map IZR (a ++ b)) = fold_right Rplus 0 (map IZR a) + fold_right Rplus 0 (map IZR b).
Proof. induction a; cbn; [lra|]. rewrite IHa. lra. Qed.


Lemma facts : (1 <= W_BIT c /\ 1 <= I_BIT c /\ W_BIT c + I_BIT c <= 30 /\
  0 < 2 ^ W_BIT c /\ 0 < 2 ^ (I_BIT c - 1) <= 2 ^ 28 /\ 2 ^ I_BIT c = 2 * 2 ^ (I_BIT c - 1))%Z.
Proof.
  destruct (Hb Hi) as (A & B & C0 & _). repeat apply conj; auto.
  - apply Z.pow_pos_nonneg; lia.
  - apply Z.pow_pos_nonneg; lia.
  - apply Z.pow_le_mono_r; lia.
  - replace (I_BIT c) with (Z.succ (I_BIT c - 1)) at 1 by lia. now rewrite Z.pow_succ_r by lia.
Qed.
Lemma nR_pos : 0 <= nR.
Proof. apply (IZR_le 0). unfold term_bound. rewrite Hi. apply Z.mul_nonneg_nonneg; [lia|apply Z.pow_nonneg; lia]. Qed.

Notation Eall := (INR (cuts c) + sum_gains c * (D / dl)).
Notation Ball := (fun i => Rabs (IZR (nth i res 0%Z)) + nR + sum_gains c * (4 * C / dl)).
Lemma wgoal_pure (x y : out (list Z * @mapper RM)) : fol (fun p q => cl Eall Ball m (fst p) (fst q)) x y ->
  fol (fun p q => snd p = e /\ cl Eall Ball m (fst (fst p)) (fst (fst q)))
    ('(r, mp') <- x ;; Ok (r, mp', e)) ('(r, mp') <- y ;; Ok (r, mp', e')).
Proof.
  intros H. apply (fol_bind _ _ _ _ _ _ H). intros [r1 m1] [r2 m2] Hc. apply fol_ok. cbn [fst snd] in *. auto.
Qed.

Ltac fields :=
  change (vd_p mB) with (vd_p mp); change (vd_m mB) with (vd_m mp); change (@tmp_fp RM mB) with fp; change (vd_slice mB) with (vd_slice mp);
  change (I_BIT c') with (I_BIT c); change (sum_w mB) with (sum_w mp).
Ltac startup :=
  unfold wgoal_int, wgoal, a_mvm; change (mp_mode mB) with (mp_mode mp); rewrite (sh_mode _ _ Hs).
Ltac loop u0 Bn ng ta tb vd a0 b0 :=
  match goal with H : cl ?e0 ?B0 m a0 b0 |- _ =>
    eapply fol_bind; [apply (loop_near u0 Bn ng ta tb vd a0 b0 e0 B0); auto|] end.

Lemma wire_int_iv : m_mode c = I_UINT_W_DIFF -> wgoal_int.
Proof.
  intros Hmode. startup. rewrite Hmode. apply wgoal_pure. unfold int_iv_a. fields. pose proof facts as (F1 & F2 & F3 & F4 & F5 & F6).
  rewrite (load_ok vec n _ (fun v => v)); auto; [|rewrite (sh_vdp _ _ Hs); auto]. cbn [bind].
  set (u := upto n (fun j _ => nth j vec 0%Z) (vd_p mp)).
  assert (Lu : len u = colsN c) by (unfold u; rewrite upto_length; apply Hs).
  destruct (tot (I_BIT c)) as (T1 & T2). pose proof (bits_pos (I_BIT c)) as P0. pose proof KC_pos as PC. pose proof KD_pos as PD. pose proof nR_pos as PN.
  assert (EG : sum_gains c = fold_right Rplus 0 (map IZR (bit_gains c (I_BIT c)))) by (unfold sum_gains, gains; now rewrite Hmode).
  assert (EC : INR (cuts c) = INR (len (bit_gains c (I_BIT c)))) by (unfold cuts, gains; now rewrite Hmode).
  set (G := fold_right Rplus 0 _) in *. set (B := Z.to_nat (I_BIT c)) in *.
  assert (EB : I_BIT c = Z.of_nat B) by (unfold B; lia).
  assert (PG : 0 <= G * (C / dl)) by now apply Rmult_le_pos.
  pose proof (cl_start res m Hres) as Hc0. rewrite EB.
  loop u B false (@fill R (@tmp_fp RM mp) 0%R) (@fill R fp 0%R) (vd_slice mp) res res.
  - now rewrite Hmode.
  - lia.
  - lia.
  - apply start_len.
  - apply start_zero.
  - now apply (sh_vds _ _ Hs).
  - intros i H1. specialize (HR i H1). cbv beta. rewrite T2. rewrite EG in HR. unfold Rdiv in *. lra.
  - intros [[r1 t1] v1] [[r2 t2] v2] (_ & _ & _ & _ & Hc). cbn [fst snd] in Hc. apply fol_ok. cbn [fst].
    apply (cl_weak _ _ _ _ _ _ _ Hc); [rewrite T1, EG, EC; lra|].
    intros i H1. cbv beta. rewrite T2, EG. unfold Rdiv in *. lra.
Qed.

Lemma wire_int_i : m_mode c = I_DIFF_W_DIFF_1XB \/ m_mode c = I_DIFF_W_DIFF_2XB -> wgoal_int.
Proof.
  intros Hmode. startup.
  assert (G0 : fol (fun p q => cl Eall Ball m (fst p) (fst q)) (@int_i_a RM c mp res vec mat m n l) (@int_i_a RM c' mB res vec mat m n l)).
  2: { destruct Hmode as [-> | ->]; now apply wgoal_pure. }
  unfold int_i_a. fields. pose proof facts as (F1 & F2 & F3 & F4 & F5 & F6).
  assert (Hvu : forall j, (j < n)%nat -> (- 2 ^ (I_BIT c - 1) <= vv j < 2 ^ (I_BIT c - 1))%Z).
  { intros j Hj. specialize (Hv j Hj). unfold vok in Hv. destruct Hmode as [Hm' | Hm']; now rewrite Hm' in Hv. }
  assert (Lvm : len (vd_m mp) = colsN c) by (apply (sh_vdm _ _ Hs); destruct Hmode as [-> | ->]; reflexivity).
  rewrite split_pm_ok; auto; [|rewrite (sh_vdp _ _ Hs); auto|rewrite Lvm; auto|].
  2: { intros j Hj. specialize (Hvu j Hj). unfold int_max. lia. }
  cbn [bind].
  set (up := upto n (fun j _ => posp (nth j vec 0%Z)) (vd_p mp)).
  set (um := upto n (fun j _ => negp (nth j vec 0%Z)) (vd_m mp)).
  assert (Lp : len up = colsN c) by (unfold up; rewrite upto_length; apply Hs).
  assert (Lm : len um = colsN c) by (unfold um; now rewrite upto_length).
  rewrite (u32_id (I_BIT c - 1)) by lia.
  destruct (tot (I_BIT c)) as (T1 & T2). pose proof (bits_pos (I_BIT c)) as P0. pose proof KC_pos as PC. pose proof KD_pos as PD. pose proof nR_pos as PN.
  destruct (tot (I_BIT c - 1)) as (T3 & T4). pose proof (bits_pos (I_BIT c - 1)) as P1.
  assert (EGC : gains c = (bit_gains c (I_BIT c - 1) ++ bit_gains c (I_BIT c))%list) by (unfold gains; destruct Hmode as [-> | ->]; reflexivity).
  assert (EG : sum_gains c = fold_right Rplus 0 (map IZR (bit_gains c (I_BIT c - 1))) + fold_right Rplus 0 (map IZR (bit_gains c (I_BIT c))))
    by (unfold sum_gains; rewrite EGC; apply foldR_app).
  assert (EC : INR (cuts c) = INR (len (bit_gains c (I_BIT c - 1))) + INR (len (bit_gains c (I_BIT c)))).
  { assert (Ec : cuts c = len (gains c)) by (unfold cuts; destruct Hmode as [-> | ->]; reflexivity). now rewrite Ec, EGC, app_length, plus_INR. }
  set (G := fold_right Rplus 0 (map IZR (bit_gains c (I_BIT c)))) in *. set (G1 := fold_right Rplus 0 (map IZR (bit_gains c (I_BIT c - 1)))) in *.
  set (B := Z.to_nat (I_BIT c)) in *. set (B1 := Z.to_nat (I_BIT c - 1)) in *.
  assert (EB : I_BIT c = Z.of_nat B) by (unfold B; lia). assert (EB1 : (I_BIT c - 1)%Z = Z.of_nat B1) by (unfold B1; lia).
  assert (PG : 0 <= G * (C / dl)) by now apply Rmult_le_pos. assert (PG1 : 0 <= G1 * (C / dl)) by now apply Rmult_le_pos.
  pose proof (cl_start res m Hres) as Hc0. rewrite EB1, EB.
  assert (H1c : one_column (m_mode c) = false) by (destruct Hmode as [-> | ->]; reflexivity).
  loop up B1 false (@fill R (@tmp_fp RM mp) 0%R) (@fill R fp 0%R) (vd_slice mp) res res.
  - lia.
  - lia.
  - apply start_len.
  - apply start_zero.
  - now apply (sh_vds _ _ Hs).
  - intros i H1. specialize (HR i H1). cbv beta. rewrite T4. rewrite EG in HR. unfold Rdiv in *. lra.
  - intros [[r1 t1] v1] [[r2 t2] v2] (Ev & Lv & Lt & Zt & Hc). cbn [fst snd] in *. subst v2.
    loop um B true t1 t2 v1 r1 r2.
    + lia.
    + lia.
    + intros i H1. specialize (HR i H1). cbv beta. rewrite T2, T4. rewrite EG in HR. unfold Rdiv in *. lra.
    + intros [[r3 t3] v3] [[r4 t4] v4] (_ & _ & _ & _ & Hc2). cbn [fst snd] in *. apply fol_ok. cbn [fst].
      apply (cl_weak _ _ _ _ _ _ _ Hc2); [rewrite T1, T3, EG, EC; lra|].
      intros i H1. cbv beta. rewrite T2, T4, EG. unfold Rdiv in *. lra.
Qed.

Lemma wire_int_ii : m_mode c = I_OFFS_W_DIFF -> wgoal_int.
Proof.
  intros Hmode. startup. rewrite Hmode. apply wgoal_pure. unfold int_ii_a. fields. pose proof facts as (F1 & F2 & F3 & F4 & F5 & F6).
  assert (Hvu : forall j, (j < n)%nat -> (- 2 ^ (I_BIT c - 1) <= vv j < 2 ^ (I_BIT c - 1))%Z).
  { intros j Hj. specialize (Hv j Hj). unfold vok in Hv. now rewrite Hmode in Hv. }
  assert (Hk : kap c = (2 ^ (I_BIT c - 1))%Z) by (unfold kap; now rewrite Hmode).
  rewrite (u32_id (I_BIT c - 1)) by lia. rewrite (u32_id (I_BIT c + 1)) by lia.
  rewrite (load_ok vec n _ (fun v => 2 ^ (I_BIT c - 1) + v)%Z); auto; [|rewrite (sh_vdp _ _ Hs); auto|].
  2: { intros j Hj. specialize (Hvu j Hj). rewrite shl32_ok by (unfold int_min, int_max; lia).
       cbn [bind]. rewrite Z.mul_1_l. apply add32_ok. unfold int_min, int_max; lia. }
  cbn [bind]. set (u := upto n (fun j _ => (2 ^ (I_BIT c - 1) + nth j vec 0)%Z) (vd_p mp)).
  assert (Lu : len u = colsN c) by (unfold u; rewrite upto_length; apply Hs).
  destruct (tot (I_BIT c + 1)) as (T1 & T2). pose proof (bits_pos (I_BIT c + 1)) as P0. pose proof KC_pos as PC. pose proof KD_pos as PD. pose proof nR_pos as PN.
  assert (EG : sum_gains c = fold_right Rplus 0 (map IZR (bit_gains c (I_BIT c + 1)))) by (unfold sum_gains, gains; now rewrite Hmode).
  assert (EC : INR (cuts c) = INR (len (bit_gains c (I_BIT c + 1)))) by (unfold cuts, gains; now rewrite Hmode).
  set (G := fold_right Rplus 0 _) in *. set (B := Z.to_nat (I_BIT c + 1)) in *.
  assert (EB : (I_BIT c + 1)%Z = Z.of_nat B) by (unfold B; lia).
  assert (PG : 0 <= G * (C / dl)) by now apply Rmult_le_pos.
  pose proof (cl_start res m Hres) as Hc0. rewrite EB.
  loop u B false (@fill R (@tmp_fp RM mp) 0%R) (@fill R fp 0%R) (vd_slice mp) res res.
  - now rewrite Hmode.
  - lia.
  - lia.
  - apply start_len.
  - apply start_zero.
  - now apply (sh_vds _ _ Hs).
  - intros i H1. specialize (HR i H1). cbv beta. rewrite T2. rewrite EG in HR. unfold Rdiv in *. lra.
  - intros [[r1 t1] v1] [[r2 t2] v2] (_ & _ & _ & _ & Hc). cbn [fst snd] in Hc.
    eapply fol_bind.
    { assert (BD : forall i, (i < m)%nat -> (Z.abs (nth i (sum_w mp) 0 * 2 ^ (I_BIT c - 1)) <= int_max)%Z).
      { intros i H1. specialize (Hsw i H1). rewrite Hk, abs_Z in Hsw. apply le_IZR in Hsw. rewrite Z.mul_comm. lia. }
      assert (FF : forall i x, (i < m)%nat -> (sw <- get (sum_w mp) i ;; y <- shl32 (@strict_shl RM) sw (I_BIT c - 1) ;; subto x i y) = subto x i (nth i (sum_w mp) 0 * 2 ^ (I_BIT c - 1))%Z).
      { intros i x H1. rewrite (get_ok _ i 0%Z) by (rewrite (sh_sw _ _ Hs); lia). cbn [bind]. specialize (BD i H1).
        rewrite shl32_ok by (try (intros X1; change (s = true) in X1; rewrite (Hst Hmode) in X1; discriminate X1); unfold int_min, int_max in *; lia). reflexivity. }
      apply (sub_rows nz s m _ _ (fun i => nth i (sum_w mp) 0 * 2 ^ (I_BIT c - 1))%Z _ _ (fun _ => nR) _ _ Hc).
      - intros i x H1 _. now apply FF.
      - intros i x H1 _. now apply FF.
      - intros i H1. split; [specialize (Hsw i H1); now rewrite Hk, Z.mul_comm in Hsw|]. specialize (HR i H1). cbv beta. rewrite T2. rewrite EG in HR. unfold Rdiv in *. lra. }
    intros r3 r4 Hc2. apply fol_ok. cbn [fst]. apply (cl_weak _ _ _ _ _ _ _ Hc2); [rewrite T1, EG, EC; lra|].
    intros i H1. cbv beta. rewrite T2, EG. unfold Rdiv in *. lra.
Qed.

(** *** I_UINT_W_OFFS *)
Lemma frows k (rf : list R) (w : nat -> nat -> R) (body : nat -> nat -> list R -> out (list R)) : (m <= len rf)%nat ->
  (forall i q a, (i < m)%nat -> (q < k)%nat -> len a = len rf -> body i q a = @faddto RM a i (w i q)) ->
  forN m (fun i a => forN k (body i) a) rf = Ok (upto m (fun i x => x + sumR k (w i)) rf).
Proof.
  intros Lr Hbd. apply (rows_eq m _ (fun i x => x + sumR k (w i)) rf 0 Lr).
  intros i a H1 La _.
  apply (entry_eq k (body i) (fun q x => x + w i q) i a 0 (fun k => nth i a 0 + sumR k (w i))); auto.
  - lia.
  - cbn. lra.
  - intros. cbn [sumR]. lra.
  - intros q a' Hq La' _. rewrite Hbd by (auto; lia). unfold faddto. change (@F RM) with R.
    rewrite (get_ok a' i 0) by lia. cbn [bind]. now rewrite set_ok by lia.
Qed.
Lemma pow_sum B : sumZ B (fun b => 2 ^ Z.of_nat b)%Z = (2 ^ Z.of_nat B - 1)%Z.
Proof.
  induction B as [|B IH]; [reflexivity|]. cbn [sumZ]. rewrite IH. replace (Z.of_nat (S B)) with (Z.succ (Z.of_nat B)) by lia.
  rewrite Z.pow_succ_r by lia. lia.
Qed.
Lemma last_rows (K : R) (Y : nat -> R) (rf : list R) (body : nat -> list Z * list R -> out (list Z * list R)) : (m <= len rf)%nat ->
  (forall i r a, (i < m)%nat -> body i (r, a) =
    (rf' <- @fsubto RM a i K ;; x <- @get (@F RM) rf' i ;; y <- @f2i RM (@fround RM x) ;; r' <- addto r i y ;; Ok (r', rf'))) ->
  (forall i, (i < m)%nat -> Rabs (IZR (ZnearestA (nth i rf 0 - K))) <= Y i /\ Rabs (IZR (nth i res 0%Z)) + Y i <= IZR int_max) ->
  forN m body (res, rf) = Ok (upto m (fun i x => (x + ZnearestA (nth i rf 0 - K)%R)%Z) res, upto m (fun _ x => x - K) rf).
Proof.
  intros Lf Hbd HY.
  rewrite <- (upto_0 (fun i x => (x + ZnearestA (nth i rf 0 - K)%R)%Z) res) at 1. rewrite <- (upto_0 (fun _ x => x - K) rf) at 1.
  apply (forN_eq (fun k => (upto k (fun i x => (x + ZnearestA (nth i rf 0 - K)%R)%Z) res, upto k (fun _ x => x - K) rf)) m body).
  intros i H1. rewrite Hbd by auto. unfold fsubto. change (@F RM) with R.
  rewrite (get_ok _ i 0) by (rewrite upto_length; lia). cbn [bind].
  rewrite set_ok by (rewrite upto_length; lia). cbn [bind].
  rewrite (get_ok _ i 0) by (rewrite upd_length, upto_length; lia). cbn [bind].
  rewrite nth_upd by (rewrite upto_length; lia); rewrite Nat.eqb_refl.
  rewrite (nth_upto i _ rf i 0) by lia. rewrite Nat.ltb_irrefl.
  change (@fsub RM (nth i rf 0) K) with (nth i rf 0 - K). set (x := nth i rf 0 - K) in *.
  change (@fround RM x) with (IZR (ZnearestA x)). destruct (HY i H1) as (Y1 & Y2). fold x in Y1. pose proof (Rabs_pos (IZR (nth i res 0%Z))) as AP.
  rewrite f2i_IZR by (apply (int_room nz s); lra). cbn [bind].
  assert (NR : nth i (upto i (fun i x => (x + ZnearestA (nth i rf 0 - K)%R)%Z) res) 0%Z = nth i res 0%Z).
  { rewrite nth_upto by lia. now rewrite Nat.ltb_irrefl. }
  rewrite (addto_ok _ i _ 0%Z); [|rewrite upto_length; lia|rewrite NR; apply (int_room nz s); rewrite plus_IZR; eapply Rle_trans; [apply Rabs_triang|lra]].
  cbn [bind]. rewrite NR. f_equal. f_equal.
  - symmetry. rewrite (upto_S i _ res 0%Z) by lia. reflexivity.
  - symmetry. rewrite (upto_S i _ rf 0) by lia. reflexivity.
Qed.

Lemma wire_int_v : m_mode c = I_UINT_W_OFFS -> wgoal_int.
Proof.
  intros Hmode. startup. rewrite Hmode. apply wgoal_pure. unfold int_v_a. fields. change (nsplit c') with ns.
  change (@ia_p RM mB) with (@ia_p RM mp). change (@res_fp RM mB) with (@res_fp RM mp). change (mp_adc mB) with (mp_adc mp).
  change (shift mB) with (shift mp). change (@i_step RM mB) with (@i_step RM mp). change (@delta RM mB) with (@delta RM mp). change (W_BIT c') with (W_BIT c).
  pose proof facts as (F1 & F2 & F3 & F4 & F5 & F6).
  assert (Hvu : forall j, (j < n)%nat -> (0 <= vv j < 2 ^ I_BIT c)%Z).
  { intros j Hj. specialize (Hv j Hj). unfold vok in Hv. now rewrite Hmode in Hv. }
  rewrite (load_ok vec n _ (fun v => v)); auto; [|rewrite (sh_vdp _ _ Hs); auto]. cbn [bind].
  set (u := upto n (fun j _ => nth j vec 0%Z) (vd_p mp)).
  assert (Lu : len u = colsN c) by (unfold u; rewrite upto_length; apply Hs).
  assert (TB : term_bound c = (2 ^ W_BIT c * 2 ^ I_BIT c)%Z) by (unfold term_bound; rewrite Hi; apply Z.pow_add_r; lia).
  rewrite (sum64_ok vec n (term_bound c)); auto.
  2: { etransitivity; [exact HN|]. unfold int_max. lia. }
  2: { intros j Hj. specialize (Hvu j Hj). rewrite TB. nia. }
  cbn [bind]. set (isum := sumZ n (fun j => vv j)).
  destruct (tot (I_BIT c)) as (_ & T2). pose proof (bits_pos (I_BIT c)) as P0. pose proof KC_pos as PC. pose proof KD_pos as PD. pose proof nR_pos as PN.
  assert (T1 : sumR (Z.to_nat (I_BIT c)) (eb nz s c (fun g => g * (D / dl))) = fold_right Rplus 0 (map IZR (bit_gains c (I_BIT c))) * (D / dl)).
  { rewrite (bit_gains_eq nz s c) by auto. apply total_eps_mul. }
  assert (T3 : fold_right Rplus 0 (map IZR (bit_gains c (I_BIT c))) = IZR ((2 ^ I_BIT c - 1) * sumZ ns (fun q => 2 ^ sh q * top q))%Z).
  { rewrite <- (Rmult_1_r (fold_right _ _ _)), <- total_eps_mul, <- (bit_gains_eq nz s c) by auto.
    replace (I_BIT c) with (Z.of_nat (Z.to_nat (I_BIT c))) at 2 by lia. rewrite <- pow_sum, <- sumZ_mul_r, <- sumR_IZR. apply sumR_ext. intros b _.
    unfold eb. rewrite <- sumZ_mul_l, <- sumR_IZR. apply sumR_ext. intros q _. rewrite Rmult_1_r. f_equal. unfold AnaInt.gain. ring. }
  assert (EG : sum_gains c = fold_right Rplus 0 (map IZR (bit_gains c (I_BIT c)))) by (unfold sum_gains, gains; now rewrite Hmode).
  assert (EC : INR (cuts c) = 1) by (unfold cuts; now rewrite Hmode).
  set (G := fold_right Rplus 0 _) in *. set (B := Z.to_nat (I_BIT c)) in *. set (S0 := sumZ ns _) in T3.
  assert (EB : I_BIT c = Z.of_nat B) by (unfold B; lia).
  assert (PG : 0 <= G * (C / dl)) by now apply Rmult_le_pos.
  set (dt := hrs / dl * IZR S0). set (K := IZR isum * (dt + IZR (2 ^ (W_BIT c - 1)))).
  assert (S0p : (0 <= S0)%Z).
  { apply sumZ_nonneg. intros q Hq. specialize (Htop q Hq). apply Z.mul_nonneg_nonneg; [apply Z.pow_nonneg; lia|lia]. }
  assert (Hdl' : 0 < / dl) by now apply Rinv_0_lt_compat.
  assert (HK : Rabs K <= G * (C / dl) + nR / 2).
  { assert (I1 : (0 <= isum <= Z.of_nat n * (2 ^ I_BIT c - 1))%Z).
    { split; [apply sumZ_nonneg; intros j Hj; specialize (Hvu j Hj); lia|]. rewrite <- sumZ_const. apply sumZ_le. intros j Hj. specialize (Hvu j Hj). lia. }
    assert (W2 : (2 ^ W_BIT c = 2 * 2 ^ (W_BIT c - 1))%Z).
    { replace (W_BIT c) with (Z.succ (W_BIT c - 1)) at 1 by lia. now rewrite Z.pow_succ_r by lia. }
    assert (W3 : (0 < 2 ^ (W_BIT c - 1))%Z) by (apply Z.pow_pos_nonneg; lia).
    assert (dt0 : 0 <= dt) by (unfold dt, Rdiv; apply Rmult_le_pos; [apply Rmult_le_pos; lra|apply (IZR_le 0); lia]).
    assert (K0 : 0 <= K).
    { unfold K. apply Rmult_le_pos; [apply (IZR_le 0); lia|]. assert (0 <= IZR (2 ^ (W_BIT c - 1))) by (apply (IZR_le 0); lia). lra. }
    rewrite Rabs_pos_eq by exact K0. unfold K. rewrite Rmult_plus_distr_l. apply Rplus_le_compat.
    - apply Rle_trans with (IZR (Z.of_nat n * (2 ^ I_BIT c - 1)) * dt); [apply Rmult_le_compat_r; [exact dt0|apply IZR_le; lia]|].
      unfold dt. rewrite T3, !mult_IZR, <- INR_IZR_INZ.
      replace (INR n * IZR (2 ^ I_BIT c - 1) * (hrs / dl * IZR S0)) with ((IZR (2 ^ I_BIT c - 1) * IZR S0) * ((INR n * hrs) * / dl)) by (unfold Rdiv; ring).
      apply Rmult_le_compat_l; [rewrite <- mult_IZR, <- T3; exact P0|]. unfold Rdiv. apply Rmult_le_compat_r; lra.
    - assert (Z2 : (2 * (isum * 2 ^ (W_BIT c - 1)) <= Z.of_nat n * term_bound c)%Z) by (rewrite TB; nia).
      apply IZR_le in Z2. rewrite mult_IZR in Z2. rewrite <- mult_IZR. lra. }
  assert (Lrf : len (@res_fp RM mp) = rowsN c) by (now apply (sh_rfp _ _ Hs)).
  assert (Lm : (m <= rowsN c)%nat).
  { destruct ns eqn:En; [|unfold rowsN; rewrite En; nia].
    exfalso. specialize (Hcov Hi). destruct Hcov as (Ht & Hw1 & _). unfold nsplit in En. apply length_zero_iff_nil in En. rewrite En in Ht. cbn in Ht. lia. }
  assert (Lg : forall (k : @config RM) (ad : adc) b (t : list R) rf, a_ty ad = INF_ADC -> (m * ns <= len t)%nat -> (m <= len rf)%nat ->
    forN m (fun i rf => forN ns (fun q rf => x <- @get (@F RM) t (i * ns + q) ;;
          sh0 <- get (shift mp) q ;; o <- get (@i_step RM mp) q ;; stp <- use o ;;
          y <- @adc1 RM k ad l x (@bit_scale RM sh0 (Z.of_nat b) stp) (@f0 RM) ;;
          @faddto RM rf i y) rf) rf =
    Ok (upto m (fun i x => x + sumR ns (fun q => nth (i * ns + q) t 0 * @bit_scale RM (sh q) (Z.of_nat b) (dl / IZR (top q)))) rf)).
  { intros k ad b t rf Ha Lt Lf. apply (frows ns rf (fun i q => nth (i * ns + q) t 0 * @bit_scale RM (sh q) (Z.of_nat b) (dl / IZR (top q)))); [exact Lf|].
    intros i q a H1 Hq _. change (@F RM) with R.
    rewrite (get_ok t (i * ns + q) 0) by nia. cbn [bind].
    rewrite (get_ok (shift mp) q 0%Z) by (rewrite shs, shifts_length; auto). cbn [bind].
    pose proof (sh_step _ _ Hs) as Ls. change (@F RM) with R in *.
    rewrite (get_ok (@i_step RM mp : list (option R)) q None) by (rewrite Ls; auto). cbn [bind].
    rewrite Hstep by auto. cbn [use bind]. rewrite shs. unfold adc1. rewrite Ha. cbn [bind].
    set (sc := bit_scale _ _ _). change (@fmul RM (@fadd RM (nth (i * ns + q) t 0) (@f0 RM)) sc) with ((nth (i * ns + q) t 0 + 0) * sc). now rewrite Rplus_0_r. }
  eapply fol_bind.
  { apply (fol_forN (fun k (p q : list R * list R * list Z) => snd p = snd q /\ len (snd p) = colsN c /\ (m * ns <= len (snd (fst q)))%nat /\
        (forall r, (r < m * ns)%nat -> nth r (snd (fst q)) 0 = 0) /\
        len (fst (fst p)) = rowsN c /\ len (fst (fst q)) = rowsN c /\
        forall i, (i < m)%nat -> Rabs (nth i (fst (fst p)) 0 - nth i (fst (fst q)) 0) <= sumR k (eb nz s c (fun g => g * (D / dl))) /\
          Rabs (nth i (fst (fst p)) 0) <= sumR k ebs /\ Rabs (nth i (fst (fst q)) 0) <= sumR k ebs)).
    - cbn [fst snd sumR]. split; [reflexivity|]. split; [now apply (sh_vds _ _ Hs)|]. split; [apply start_len|]. split; [apply start_zero|].
      change (@F RM) with R in *. change (@f0 RM) with 0. split; [now rewrite fill_length|]. split; [now rewrite fill_length|].
      intros i H1. rewrite !nth_fill by lia. rewrite Rminus_diag_eq, Rabs_R0 by reflexivity. lra.
    - intros b [[rA tA'] vA] [[rB tB'] vB] Hb' (Ev & Lv' & Lt' & Z1 & LA & LB & Hc'). cbn [fst snd] in *. subst vB.
      rewrite slice_eq by lia. cbn [bind]. set (vds := upto n _ vA).
      assert (Lvd : len vds = colsN c) by (unfold vds; now rewrite upto_length).
      assert (Bv : bits01 vds n).
      { intros j Hj. unfold vds. rewrite nth_upto_lt by lia. pose proof (bit_01 (nth j u 0%Z) (Z.of_nat b)). lia. }
      apply (fol_bind (near (m * ns) D C)).
      { apply (slice_near _ _ (fun r j => ip r j * IZR (nth j vds 0%Z))); auto.
        - intros r j Hr Hj. pose proof (rows_lt r Hr). apply (fterm1_eq nz s (rowsN c) (colsN c)); try apply Hs; lia.
        - intros r Hr. unfold ideal_out. rewrite Hmode. cbn [one_column]. rewrite Rminus_0_r. apply sumR_ext. intros j Hj. unfold tval.
          now change (current (@ia_p RM mp) r j) with (ip r j). }
      intros t t' (Lta & Ltb & Hnt). rewrite (Lg c (mp_adc mp) b t rA) by first [exact Hinf | exact Lta | exact (eq_ind_r (fun k => (m <= k)%nat) Lm LA)]. rewrite (Lg c' (mp_adc mp) b t' rB) by first [exact Hinf | exact Ltb | exact (eq_ind_r (fun k => (m <= k)%nat) Lm LB)]. cbn [bind].
      apply fol_ok. cbn [fst snd]. split; [reflexivity|]. split; [exact Lvd|]. change (@F RM) with R. split; [now rewrite fill_length|].
      split; [intros r Hr; apply nth_fill; lia|]. rewrite !upto_length. split; [exact LA|]. split; [exact LB|].
      intros i H1. rewrite !nth_upto_lt by lia. destruct (Hc' i H1) as (C1 & C2 & C3). cbn [sumR].
      assert (MU : forall q x y, (q < ns)%nat -> Rabs x <= y -> Rabs (x * @bit_scale RM (sh q) (Z.of_nat b) (dl / IZR (top q))) <= IZR (gain q (Z.of_nat b)) * (y / dl)).
      { intros q x y Hq Hxy. pose proof (scale_abs q (Z.of_nat b) false Hq ltac:(lia)) as SA. cbv iota in SA. set (sc := bit_scale _ _ _) in *.
        rewrite Rabs_mult. apply Rle_trans with (y * Rabs sc); [apply Rmult_le_compat_r; [apply Rabs_pos|exact Hxy]|]. rewrite SA. right. field. exact dl_nz. }
      split; [|split].
      + replace (_ - _) with ((nth i rA 0 - nth i rB 0) + (sumR ns (fun q => nth (i * ns + q) t 0 * @bit_scale RM (sh q) (Z.of_nat b) (dl / IZR (top q))) -
          sumR ns (fun q => nth (i * ns + q) t' 0 * @bit_scale RM (sh q) (Z.of_nat b) (dl / IZR (top q))))) by ring.
        apply abs_add_le; [exact C1|]. rewrite <- sumR_sub. unfold eb. apply sumR_abs_le. intros q Hq. rewrite <- Rmult_minus_distr_r. apply MU; auto.
        apply Hnt. nia.
      + apply abs_add_le; [exact C2|]. unfold eb. apply sumR_abs_le. intros q Hq. apply MU; auto. apply Hnt. nia.
      + apply abs_add_le; [exact C3|]. unfold eb. apply sumR_abs_le. intros q Hq. apply MU; auto. apply Hnt. nia. }
  intros [[rA tA'] vA] [[rB tB'] vB] (_ & _ & _ & _ & LA & LB & Hc'). cbn [fst snd] in *. fold B in Hc'. rewrite T1, T2 in Hc'.
  assert (Hbody : forall (rf : list R) , (m <= len rf)%nat -> (forall i, (i < m)%nat -> Rabs (nth i rf 0) <= G * (C / dl)) ->
    forN m (fun i '(res, rf) => d <- use (@delta RM mp) ;; o <- shl32 (@strict_shl RM) 1 (u32 (W_BIT c - 1)) ;;
      rf <- @fsubto RM rf i (@fmul RM (@f_of_Z RM isum) (@fadd RM d (@f_of_Z RM o))) ;; x <- @get (@F RM) rf i ;; y <- @f2i RM (@fround RM x) ;;
      res <- addto res i y ;; Ok (res, rf)) (res, rf) =
    Ok (upto m (fun i x => (x + ZnearestA (nth i rf 0 - K)%R)%Z) res, upto m (fun _ x => x - K) rf)).
  { intros rf Lf Hf. apply (last_rows K (fun _ => 4 * (G * (C / dl)) + nR)); [exact Lf| |].
    - intros i r a H1. rewrite Hdelta by auto. cbn [use bind]. rewrite (u32_id (W_BIT c - 1)) by lia.
      assert (0 < 2 ^ (W_BIT c - 1) <= 2 ^ 28)%Z by (split; [apply Z.pow_pos_nonneg; lia|apply Z.pow_le_mono_r; lia]).
      rewrite shl32_ok by (unfold int_min, int_max; lia). cbn [bind]. rewrite Z.mul_1_l. reflexivity.
    - intros i H1. specialize (Hf i H1). pose proof (abs_sub_le _ _ _ _ Hf HK) as Q. pose proof (nearest_small (nth i rf 0 - K)). split; [lra|].
      specialize (HR i H1). rewrite EG in HR. unfold Rdiv in *. lra. }
  change (@F RM) with R in *.
  pose proof (Hbody rA ltac:(lia) (fun i H1 => proj1 (proj2 (Hc' i H1)))) as EA. pose proof (Hbody rB ltac:(lia) (fun i H1 => proj2 (proj2 (Hc' i H1)))) as EB'.
  change (@F RM) with R in EA, EB'. rewrite EA, EB'. cbn [bind]. apply fol_ok. cbn [fst]. split; [now rewrite !upto_length|]. split; [now rewrite upto_length|]. split.
  - intros i H1. rewrite !nth_upto_lt by lia. destruct (Hc' i H1) as (C1 & C2 & C3).
    pose proof (nearest_near (nth i rA 0 - K) (nth i rB 0 - K)) as NN. replace (nth i rA 0 - K - (nth i rB 0 - K)) with (nth i rA 0 - nth i rB 0) in NN by ring.
    assert (SM : forall x, Rabs x <= G * (C / dl) -> Rabs (IZR (nth i res 0 + ZnearestA (x - K)%R)%Z) <= Rabs (IZR (nth i res 0%Z)) + nR + sum_gains c * (4 * C / dl)).
    { intros x Hx. pose proof (abs_sub_le _ _ _ _ Hx HK) as Q. pose proof (nearest_small (x - K)). rewrite plus_IZR. eapply Rle_trans; [apply Rabs_triang|].
      rewrite EG. unfold Rdiv in *. lra. }
    split; [|auto]. rewrite !plus_IZR. replace (_ - _) with (IZR (ZnearestA (nth i rA 0 - K)) - IZR (ZnearestA (nth i rB 0 - K))) by ring.
    rewrite EC, EG. lra.
  - intros i H1. destruct (Nat.lt_ge_cases i (len res)).
    + rewrite !nth_upto by lia. now replace (i <? m)%nat with false by lia.
    + rewrite !nth_overflow by (rewrite upto_length; lia). reflexivity.
Qed.

Lemma wire_int : wgoal_int.
Proof.
  assert (H : forall md, m_mode c = md -> wgoal_int); [|exact (H _ eq_refl)].
  intros md E. destruct md; try (exfalso; pose proof Hi as Hx; rewrite E in Hx; discriminate Hx).
  - apply wire_int_i. auto.
  - apply wire_int_i. auto.
  - now apply wire_int_ii.
  - now destruct Htc.
  - now apply wire_int_iv.
  - now apply wire_int_v.
Qed.
End M.
End RR.
