(** C42, C65 in exact arithmetic: the solver computes Kirchhoff's currents of the written cells. *)
From Coq Require Import String List ZArith Reals Bool Arith Lia Lra ZifyBool ZifyNat.
From RecordUpdate Require Import RecordSet.
From Verif Require Import Base Lib Hoare Machine Json Config Histogram Adc ReadDisturb Parasitics
  Mapper IntMappers BnnMappers TnnMappers Crossbar Api RMachine ParSpec ParCode Shape MvmShape AnaShape ConfigProofs
  Reach Spec DigApi StepFacts NoDie ValidProps CfgProps NoiseReal AnaReal Ladder AnaWrite ParProps.
Import ListNotations RecordSetNotations.
Local Open Scope R_scope.
Ltac Zify.zify_post_hook ::= idtac.

(** ** One column *)
Section Col.
Context (V W : R) (N : nat).
Lemma current_exists g : 0 < W -> (forall k, (k < N)%nat -> 0 <= g k) -> exists! I, column_current V W g N I.
Proof.
  intros HW Hg. exists (ladder W g N * V). split; [now apply current_iff|]. intros I HI. apply current_iff in HI; auto.
Qed.
Lemma current_range g I : 0 <= V -> 0 < W -> (forall k, (k < N)%nat -> 0 <= g k) -> column_current V W g N I ->
  0 <= I <= ideal_current V g N.
Proof.
  intros HV HW Hg H. apply current_iff in H; auto. subst I. rewrite ideal_eq. split.
  - apply Rmult_le_pos; [now apply ladder_nonneg|auto].
  - apply Rmult_le_compat_r; [auto|now apply ladder_le_sum].
Qed.
Lemma current_zero g I : 0 < W -> (forall k, (k < N)%nat -> g k = 0) -> column_current V W g N I -> I = 0.
Proof.
  intros HW Hg H. apply current_iff in H; auto. 2: { intros k Hk. rewrite Hg by auto. lra. }
  rewrite H, ladder_zero by auto. lra.
Qed.
Lemma current_mono g g' I I' : 0 <= V -> 0 < W -> (forall k, (k < N)%nat -> 0 <= g k <= g' k) ->
  column_current V W g N I -> column_current V W g' N I' -> I <= I'.
Proof.
  intros HV HW Hg H H'. apply current_iff in H; auto. 2: { intros k Hk. now apply Hg. }
  apply current_iff in H'; auto. 2: { intros k Hk. destruct (Hg k Hk). lra. }
  subst. apply Rmult_le_compat_r; [auto|now apply ladder_mono].
Qed.
End Col.
Lemma current_wire V W W' g N I I' : 0 <= V -> 0 < W <= W' -> (forall k, (k < N)%nat -> 0 <= g k) ->
  column_current V W g N I -> column_current V W' g N I' -> I <= I'.
Proof.
  intros HV HW Hg H H'. apply current_iff in H; auto; [|lra]. apply current_iff in H'; auto; [|lra].
  subst. apply Rmult_le_compat_r; [auto|now apply ladder_wire].
Qed.
Lemma current_close V W g N I : 0 <= V -> 0 < W -> (forall k, (k < N)%nat -> 0 <= g k) -> column_current V W g N I ->
  (ideal_current V g N - I) * W <= INR N * (ideal_current V g N * ideal_current 1 g N).
Proof.
  intros HV HW Hg H. apply current_iff in H; auto. subst I. rewrite !ideal_eq.
  pose proof (ladder_close W HW g N Hg) as C. set (s := sumR N g) in *. set (l := ladder W g N) in *.
  assert (D : (s - l) * W <= INR N * (s * s)).
  { apply (Rmult_le_compat_r W) in C; [|lra]. unfold Rdiv in C. rewrite (Rmult_assoc _ (/ W)), Rinv_l, Rmult_1_r in C by lra. exact C. }
  replace ((s * V - l * V) * W) with ((s - l) * W * V) by ring.
  replace (INR N * (s * V * (s * 1))) with (INR N * (s * s) * V) by ring. now apply Rmult_le_compat_r.
Qed.
Lemma current_limit V g N : 0 <= V -> (forall k, (k < N)%nat -> 0 <= g k) ->
  forall eps, 0 < eps -> exists W0, 0 < W0 /\ forall W I, W0 <= W -> column_current V W g N I -> Rabs (I - ideal_current V g N) < eps.
Proof.
  intros HV Hg eps He. set (B := INR N * (ideal_current V g N * ideal_current 1 g N)).
  assert (HS : 0 <= sumR N g).
  { apply Rle_trans with (ladder 1 g N); [apply ladder_nonneg; auto; lra|apply ladder_le_sum; auto; lra]. }
  assert (HB : 0 <= B).
  { unfold B. rewrite !ideal_eq. apply Rmult_le_pos; [apply pos_INR|]. repeat apply Rmult_le_pos; lra. }
  exists (B / eps + 1). assert (P : 0 <= B / eps) by (apply Rmult_le_pos; [auto|left; now apply Rinv_0_lt_compat]).
  split; [lra|]. intros W I HW H. assert (HW0 : 0 < W) by lra.
  pose proof (current_range V W N g I HV HW0 Hg H) as [R1 R2].
  pose proof (current_close V W g N I HV HW0 Hg H) as C. fold B in C.
  rewrite Rabs_minus_sym, Rabs_right by lra. apply (Rmult_lt_reg_r W); [lra|].
  apply Rle_lt_trans with B; [exact C|]. apply (Rmult_lt_reg_l (/ eps)); [now apply Rinv_0_lt_compat|].
  rewrite <- (Rmult_assoc (/ eps)), Rinv_l, Rmult_1_l by lra. unfold Rdiv in HW. lra.
Qed.

Lemma ten6 : powerRZ 10 6 = 1000000.
Proof. change (powerRZ 10 6) with (10 ^ 6)%R. ring. Qed.
Lemma wire_eq (w : R) : w <> 0 -> 1 / w * (1 * 1000000) = 1000000 / w.
Proof. intros. field. auto. Qed.

(** ** The solver *)
Section RR.
Context (nz : bool -> nat -> R) (s : bool).
#[local] Hint Extern 0 Machine => exact (R_machine nz s) : typeclass_instances.
Notation RM := (R_machine nz s).

Lemma column_ladder (ga : list (list R)) vd (w : R) k rows :
  @column RM ga vd w k rows = ladder w (fun r => if (vd r =? 0)%Z then 0 else at2 0 ga r k) rows.
Proof.
  induction rows; [reflexivity|]. cbn [column ladder]. rewrite IHrows. unfold col_step. cbn. reflexivity.
Qed.
Lemma drive_driven (p : @psolver RM) vp vm n r :
  negb (@drive RM p vp vm n r =? 0)%Z = driven (ps_mode p) vp vm n r.
Proof.
  unfold drive, driven, input_of. change (two_rows (ps_mode p)) with (ienc_double (ps_mode p)). destruct (ienc_double (ps_mode p)); cbn [andb].
  - destruct (r / 2 <? n)%nat; [|reflexivity]. unfold Nat.odd. cbn [andb]. now destruct (Nat.even r).
  - now destruct (r <? n)%nat.
Qed.

Lemma computed_ladder (c : @config RM) (mp : @mapper RM) (p : @psolver RM) we m0 n0 vp vm k n :
  shape c mp -> @par RM mp = Some p -> @wenc_of (m_mode c) = Some we -> @loaded_with RM c mp p we m0 n0 -> (1 <= nsplit c)%nat ->
  (1 <= colsN c)%nat ->
  @ps_v RM p = V_read c -> V_read c < 0 -> @ps_w RM p <> 0 ->
  (forall i j, (i < rows_of c m0)%nat -> (j < n0)%nat -> 0 <= current (@ia_p RM mp) i j /\ (one_array (m_mode c) = false -> 0 <= current (@ia_m RM mp) i j)) ->
  (n <= colsN c)%nat -> (n <= List.length vp)%nat ->
  (two_rows (m_mode c) = true -> vm <> [] /\ n <= List.length vm /\ 2 * n <= colsN c)%nat ->
  (k <= Z.to_nat (M c))%nat -> (k <= outputs c m0)%nat ->
  exists t, @compute_currents RM (Some p) vp vm k n = Ok t /\
  List.length t = Z.to_nat (M c) /\
  forall i, (i < k)%nat ->
  let V := - V_read c in
  let W := 1000000 / @ps_w RM p in
  let g minus r := if driven (m_mode c) vp vm n r
                   then cell_at (m_mode c) (current (@ia_p RM mp)) (current (@ia_m RM mp)) n0 minus i r / V else 0 in
  (forall r, 0 <= g false r) /\ (one_column (m_mode c) = false -> forall r, 0 <= g true r) /\
  nth i t 0 = if one_column (m_mode c) then ladder W (g false) (colsN c) * V
              else ladder W (g false) (colsN c) * V - ladder W (g true) (colsN c) * V.
Proof.
  intros Hs Hp Ew (Hga & Hwire & Hv) Hns HN Ev HV Hw Hpos Hnc Hnv Hvm HkM Hk.
  destruct (sh_par _ _ Hs p Hp) as (F1 & F2 & F3). set (KK := wcols we (rows_of c m0)) in *.
  assert (Eone : oenc_double (m_mode c) = negb (one_column (m_mode c))) by now destruct (m_mode c).
  assert (K1 : (outcols p k <= KK)%nat).
  { unfold outcols, KK, outputs, rows_of in *. rewrite F3. change (List.length (SPLIT c)) with (nsplit c) in Hk.
    destruct (m_mode c); cbn in Ew; inversion Ew; subst we; cbn [wcols oenc_double is_int] in *; lia. }
  destruct (compute_currents_ok p vp vm k n KK (wire_of p)) as (t & E & Lt & Ht); rewrite ?F1, ?F2, ?F3; auto.
  exists t. split; [exact E|]. rewrite F1 in Lt. split; [exact Lt|].
  intros i Hi V W g.
  assert (HW : wire_of p = W).
  { unfold W. change (wire_of p) with (IZR 1 / (@ps_w RM p : R) * (IZR 1 * powerRZ 10 6))%R.
    rewrite ten6. apply wire_eq. exact Hw. }
  assert (HVp : 0 < V) by (unfold V; lra).
  assert (Hcell : forall minus r, (one_column (m_mode c) = true -> minus = false) ->
    0 <= cell_at (m_mode c) (current (@ia_p RM mp)) (current (@ia_m RM mp)) n0 minus i r).
  { intros minus r Hone. unfold cell_at, input_of. unfold outputs, rows_of in *. change (List.length (SPLIT c)) with (nsplit c) in Hk.
    assert (Hi2 : (i / 2 < m0 \/ 2 * m0 <= i)%nat) by (destruct (Nat.lt_ge_cases i (2 * m0)); [left; apply Nat.div_lt_upper_bound; lia|right; lia]).
    change (two_rows (m_mode c)) with (ienc_double (m_mode c)).
    destruct (_ <? _)%nat eqn:Hj; [|lra]. apply Nat.ltb_lt in Hj.
    destruct (m_mode c); cbn [is_int ienc_double one_column one_array] in *;
      repeat match goal with |- context [if ?b then _ else _] => destruct b end;
      solve [apply Hpos; lia | discriminate (Hone eq_refl) | apply Hpos; [lia|assumption|reflexivity]]. }
  assert (Hg : forall minus r, (one_column (m_mode c) = true -> minus = false) -> 0 <= g minus r).
  { intros minus r Hone. unfold g. destruct (driven _ _ _ _ _); [|lra]. apply Rmult_le_pos; [now apply Hcell|left; now apply Rinv_0_lt_compat]. }
  split; [intros r; now apply Hg|]. split; [intros Ho r; apply Hg; congruence|].
  (* the physical column q is the column [minus] of output i *)
  assert (Hcol : forall (minus : bool) (q : nat), (q < KK)%nat -> q = (if one_column (m_mode c) then i else if minus then 2 * i + 1 else 2 * i)%nat ->
    (one_column (m_mode c) = true -> minus = false) ->
    @column RM (ps_ga p) (@drive RM p vp vm n) (wire_of p) q (colsN c) = ladder W (g minus) (colsN c)).
  { intros minus q Hq Eq Hone. rewrite column_ladder, HW. apply ladder_ext. intros r Hr. unfold g.
    rewrite <- F3, <- (drive_driven p vp vm n r). destruct (@drive RM p vp vm n r =? 0)%Z; cbn [negb]; [reflexivity|].
    change (at2 0 (@ps_ga RM p) r q) with (at2 (@f0 RM) (@ps_ga RM p) r q). rewrite (Hv r q Hr Hq). rewrite F3.
    unfold cell_at, input_of. rewrite two_rows_ienc.
    assert (Hown : fst (own we r q) = (match m_mode c with TNN_IV | TNN_V => i / 2 | _ => i end)%nat /\
      snd (own we r q) = (if ienc_double (m_mode c) then r / 2 else r)%nat /\
      from_p we r q = match m_mode c with BNN_V => Nat.even r | BNN_VI | TNN_I => Bool.eqb minus (Nat.odd r) | TNN_IV | TNN_V => Nat.even i
                      | I_UINT_W_OFFS | BNN_III | BNN_IV => true | _ => negb minus end).
    { assert (A1 : (2 * i / 2 = i)%nat) by (rewrite Nat.mul_comm; now apply Nat.div_mul).
      assert (A2 : ((2 * i + 1) / 2 = i)%nat) by (rewrite Nat.mul_comm, Nat.div_add_l by lia; change (1 / 2)%nat with 0%nat; lia).
      pose proof (even2 i) as A3. pose proof (even21 i) as A4. subst q.
      destruct (m_mode c); cbn in Ew; inversion Ew; subst we; cbn [own from_p fst snd ienc_double one_column];
        (split; [|split]); try reflexivity; destruct minus; cbn [negb]; rewrite ?A1, ?A2, ?A3, ?A4; try reflexivity;
        unfold Nat.odd; try (destruct (Nat.even r); reflexivity). }
    destruct Hown as (O1 & O2 & O3). rewrite O1, O2, O3.
    destruct (_ <? n0)%nat; [|unfold Rdiv; rewrite Rmult_0_l; reflexivity].
    assert (Hki : (match m_mode c with TNN_IV | TNN_V => i / 2 | _ => i end <? ps_m p)%nat = true).
    { apply Nat.ltb_lt. rewrite F1. assert (i / 2 <= i)%nat by (apply Nat.div_le_upper_bound; lia). destruct (m_mode c); lia. }
    unfold conductance. rewrite Hki, Ev. unfold plus_array, minus_array. change (at2 (@f0 RM)) with (@current RM).
    change (@fdiv RM) with Rdiv. change (@fneg RM) with Ropp. fold V.
    destruct (m_mode c); try (now cbn in Ew); cbn [ienc_double two_rows]; try (destruct minus; cbn [negb]; reflexivity);
      repeat match goal with |- context [if ?b then _ else _] => destruct b end; try reflexivity.
    all: specialize (Hone eq_refl); discriminate. }
  unfold outcols in K1. rewrite F3 in K1. specialize (Ht i Hi). rewrite F2, F3 in Ht.
  change (nth i t 0) with (nth i t (@f0 RM)). rewrite Ht.
  rewrite Eone in *. destruct (one_column (m_mode c)) eqn:E1; cbn [negb] in *.
  - rewrite (Hcol false i) by (auto; lia). rewrite Ev. reflexivity.
  - rewrite (Hcol false (2 * i)%nat), (Hcol true (2 * i + 1)%nat) by (auto; try lia; discriminate). rewrite Ev. cbn. unfold V. lra.
Qed.

Lemma computed (c : @config RM) (mp : @mapper RM) (p : @psolver RM) we m0 n0 vp vm k n :
  shape c mp -> @par RM mp = Some p -> @wenc_of (m_mode c) = Some we -> @loaded_with RM c mp p we m0 n0 -> (1 <= nsplit c)%nat ->
  (1 <= colsN c)%nat ->
  @ps_v RM p = V_read c -> V_read c < 0 -> 0 < @ps_w RM p ->
  (forall i j, (i < rows_of c m0)%nat -> (j < n0)%nat -> 0 <= current (@ia_p RM mp) i j /\ (one_array (m_mode c) = false -> 0 <= current (@ia_m RM mp) i j)) ->
  (n <= colsN c)%nat -> (n <= List.length vp)%nat ->
  (two_rows (m_mode c) = true -> vm <> [] /\ n <= List.length vm /\ 2 * n <= colsN c)%nat ->
  (k <= Z.to_nat (M c))%nat -> (k <= outputs c m0)%nat ->
  exists t, @compute_currents RM (Some p) vp vm k n = Ok t /\
  List.length t = Z.to_nat (M c) /\
  forall i, (i < k)%nat ->
  let V := - V_read c in
  let W := 1000000 / @ps_w RM p in
  let g minus r := if driven (m_mode c) vp vm n r
                   then cell_at (m_mode c) (current (@ia_p RM mp)) (current (@ia_m RM mp)) n0 minus i r / V else 0 in
  (forall r, 0 <= g false r) /\ (one_column (m_mode c) = false -> forall r, 0 <= g true r) /\
  exists Ip, column_current V W (g false) (colsN c) Ip /\
    if one_column (m_mode c) then nth i t 0 = Ip
    else exists Im, column_current V W (g true) (colsN c) Im /\ nth i t 0 = Ip - Im.
Proof.
  intros Hs Hp Ew HL Hns HN Ev HV Hw Hpos Hnc Hnv Hvm HkM Hk.
  destruct (computed_ladder c mp p we m0 n0 vp vm k n) as (t & E & Lt & Ht); auto; [lra|].
  exists t. split; [exact E|]. split; [exact Lt|]. intros i Hi V W g. destruct (Ht i Hi) as (G1 & G2 & HI). fold V W in G1, G2, HI. fold g in G1, G2, HI.
  assert (HWp : 0 < W) by (unfold W, Rdiv; apply Rmult_lt_0_compat; [lra|now apply Rinv_0_lt_compat]).
  split; [exact G1|]. split; [exact G2|]. rewrite HI. destruct (one_column (m_mode c)).
  - exists (ladder W (g false) (colsN c) * V). split; [apply current_iff; [exact HWp|intros ? _; apply G1|reflexivity]|reflexivity].
  - exists (ladder W (g false) (colsN c) * V). split; [apply current_iff; [exact HWp|intros ? _; apply G1|reflexivity]|].
    exists (ladder W (g true) (colsN c) * V). split; [apply current_iff; [exact HWp|intros ? _; now apply G2|reflexivity]|reflexivity].
Qed.

Lemma pos_level g t (lrs hrs : R) : (0 <= g <= t)%Z -> 0 <= hrs -> 0 <= lrs -> 0 <= IZR g * ((lrs - hrs) / IZR t) + hrs.
Proof.
  intros [G1 G2] Hh Hl. destruct (Z.eq_dec t 0) as [->|Ht].
  - replace g with 0%Z by lia. lra.
  - assert (H : (0 < t)%Z) by lia. apply IZR_le in G1, G2. apply IZR_lt in H.
    assert (Q : 0 <= IZR g / IZR t <= 1).
    { split; [apply Rle_mult_inv_pos; lra|]. apply (Rmult_le_reg_r (IZR t)); [lra|]. unfold Rdiv. rewrite Rmult_assoc, Rinv_l by lra. lra. }
    replace (IZR g * ((lrs - hrs) / IZR t) + hrs) with (IZR g / IZR t * lrs + (1 - IZR g / IZR t) * hrs) by (field; lra).
    apply Rplus_le_le_0_compat; apply Rmult_le_pos; lra.
Qed.

Lemma ladder_currents (w : @world RM) x p0 mat m0 n0 :
  reach w -> wx w = Some x -> digital_only (wcfg w) = false -> parasitics (wcfg w) = true ->
  @par RM (xm x) = Some p0 -> @ps_w RM p0 <> 0 -> split_covers (wcfg w) -> dims_in (wcfg w) m0 n0 ->
  all_entries (weight_in (wcfg w)) mat m0 n0 -> (n0 * row_bound (wcfg w) <= int32_max)%Z ->
  (two_rows (m_mode (wcfg w)) = true -> 2 * n0 <= N (wcfg w) \/ m0 = 0)%Z ->
  exists w1 x1 p, step w (CpyMtrx mat m0 n0) = Ok (w1, RCode 0) /\ wx w1 = Some x1 /\ @par RM (xm x1) = Some p /\ @ps_w RM p = @ps_w RM p0 /\
  forall vp vm k n,
  let c := wcfg w in
  (n <= Z.to_nat (N c))%nat -> (n <= List.length vp)%nat ->
  (two_rows (m_mode c) = true -> vm <> [] /\ n <= List.length vm /\ 2 * n <= Z.to_nat (N c))%nat ->
  (k <= Z.to_nat (M c))%nat -> (k <= outputs c (Z.to_nat m0))%nat ->
  exists t, @compute_currents RM (Some p) vp vm k n = Ok t /\
  List.length t = Z.to_nat (M c) /\
  forall i, (i < k)%nat ->
  let V := - V_read c in
  let W := 1000000 / @ps_w RM p in
  let g minus r := if driven (m_mode c) vp vm n r
                   then cell_at (m_mode c) (current (@ia_p RM (xm x1))) (current (@ia_m RM (xm x1))) (Z.to_nat n0) minus i r / V else 0 in
  (forall r, 0 <= g false r) /\ (one_column (m_mode c) = false -> forall r, 0 <= g true r) /\
  nth i t 0 = if one_column (m_mode c) then ladder W (g false) (Z.to_nat (N c)) * V
              else ladder W (g false) (Z.to_nat (N c)) * V - ladder W (g true) (Z.to_nat (N c)) * V.
Proof.
  intros Hr Hx Hd Hp Hpar Hw Hcov Hdim Hent HN H2. pose proof (par_supported w Hr Hp) as Hsup.
  destruct (ok_write w x m0 n0 mat) as (w1 & x1 & E & X1 & HI); auto. { rewrite Hpar. discriminate. }
  assert (Hsp : SPLIT (wcfg w) <> []).
  { pose proof (good_wf w (reach_good _ Hr)) as Hwf. destruct (is_int (m_mode (wcfg w))) eqn:Hi.
    - destruct (Hcov Hi) as [T1 T2]. intros E0. rewrite E0 in T1. cbn in T1. lia.
    - pose proof (wf_ns _ Hwf Hi) as T. unfold nsplit in T. intros E0. rewrite E0 in T. cbn in T. lia. }
  destruct (write_loaded _ _ _ _ _ _ Hr Hx Hd Hp Hsp Hdim E) as (C1 & Hg1 & x2 & p & we & X2 & P2 & Ew & Ev & Sh & HL & _).
  assert (x2 = x1) by congruence. subst x2.
  assert (EW : @ps_w RM p = @ps_w RM p0).
  { assert (K : kept (par (xm x)) (par (xm x1))).
    { pose proof (reach_good _ Hr) as Hg. destruct (guard_ok w m0 n0 Hg Hdim) as (G1 & G2 & _).
      cbn [step] in E. unfold cpy_mtrx in E. rewrite Hx, G1, G2 in E. cbn [bind] in E. inv_as E t T. destruct t as [x2 e2].
      inversion E; subst w1. cbn in X1. inversion X1; subst x2.
      eapply xwrite_kept; [apply (g_x _ Hg _ Hx)|apply (good_wf _ Hg)|exact T]. }
    rewrite Hpar, P2 in K. destruct K as (q & Eq & (_ & _ & S3 & _)). inversion Eq; subst. exact S3. }
  exists w1, x1, p. split; [exact E|]. split; [exact X1|]. split; [exact P2|]. split; [exact EW|].
  intros vp vm k n. cbv zeta. intros A1 A2 A3 A4 A5.
  destruct Hsup as (M1 & N1 & _ & _ & HA). destruct (HA Hd) as (B1 & B2 & _ & _ & _ & _ & B3). destruct (B3 Hp) as [B4 _].
  apply rleb_false in B1, B2, B4. cbn in B1, B2, B4.
  refine (computed_ladder (wcfg w) (xm x1) p we (Z.to_nat m0) (Z.to_nat n0) vp vm k n Sh P2 Ew HL (some_split _ Hsp) _ Ev B4 _ _ A1 A2 A3 A4 A5).
  - unfold colsN. lia.
  - rewrite EW. exact Hw.
  - intros i j Hi Hj. destruct (is_int (m_mode (wcfg w))) eqn:Ei.
    + unfold rows_of in Hi. rewrite Ei in Hi. destruct (HI eq_refl i j Hi Hj) as (g & h & Hg & Hh & V1 & V2). split.
      * rewrite V1. apply (pos_level g _ (LRS (wcfg w)) (HRS (wcfg w)) Hg); left; assumption.
      * intros Ho. rewrite (V2 Ho). apply (pos_level h _ (LRS (wcfg w)) (HRS (wcfg w)) Hh); left; assumption.
    + assert (Hr1 : reach w1) by (eapply reach_step; [exact Hr|exact E|discriminate]).
      destruct (reach_nonneg nz s w1 x1 Hr1 X1) with (i := i) (j := j) as [N2 N3]; [now rewrite C1|now rewrite C1|]. auto.
Qed.

Lemma kirchhoff_currents (w : @world RM) x p0 mat m0 n0 :
  reach w -> wx w = Some x -> digital_only (wcfg w) = false -> parasitics (wcfg w) = true ->
  @par RM (xm x) = Some p0 -> 0 < @ps_w RM p0 -> split_covers (wcfg w) -> dims_in (wcfg w) m0 n0 ->
  all_entries (weight_in (wcfg w)) mat m0 n0 -> (n0 * row_bound (wcfg w) <= int32_max)%Z ->
  (two_rows (m_mode (wcfg w)) = true -> 2 * n0 <= N (wcfg w) \/ m0 = 0)%Z ->
  exists w1 x1 p, step w (CpyMtrx mat m0 n0) = Ok (w1, RCode 0) /\ wx w1 = Some x1 /\ @par RM (xm x1) = Some p /\ @ps_w RM p = @ps_w RM p0 /\
  forall vp vm k n,
  let c := wcfg w in
  (n <= Z.to_nat (N c))%nat -> (n <= List.length vp)%nat ->
  (two_rows (m_mode c) = true -> vm <> [] /\ n <= List.length vm /\ 2 * n <= Z.to_nat (N c))%nat ->
  (k <= Z.to_nat (M c))%nat -> (k <= outputs c (Z.to_nat m0))%nat ->
  exists t, @compute_currents RM (Some p) vp vm k n = Ok t /\
  List.length t = Z.to_nat (M c) /\
  forall i, (i < k)%nat ->
  let V := - V_read c in
  let W := 1000000 / @ps_w RM p in
  let g minus r := if driven (m_mode c) vp vm n r
                   then cell_at (m_mode c) (current (@ia_p RM (xm x1))) (current (@ia_m RM (xm x1))) (Z.to_nat n0) minus i r / V else 0 in
  (forall r, 0 <= g false r) /\ (one_column (m_mode c) = false -> forall r, 0 <= g true r) /\
  exists Ip, column_current V W (g false) (Z.to_nat (N c)) Ip /\
    if one_column (m_mode c) then nth i t 0 = Ip
    else exists Im, column_current V W (g true) (Z.to_nat (N c)) Im /\ nth i t 0 = Ip - Im.
Proof.
  intros Hr Hx Hd Hp Hpar Hw Hcov Hdim Hent HN H2.
  destruct (ladder_currents w x p0 mat m0 n0) as (w1 & x1 & p & E & X1 & P1 & EW & HC); auto; [lra|].
  exists w1, x1, p. split; [exact E|]. split; [exact X1|]. split; [exact P1|]. split; [exact EW|].
  intros vp vm k n c A1 A2 A3 A4 A5. destruct (HC vp vm k n A1 A2 A3 A4 A5) as (t & Et & Lt & Ht). exists t. split; [exact Et|]. split; [exact Lt|].
  intros i Hi V W g. destruct (Ht i Hi) as (G1 & G2 & HI). fold c in G1, G2, HI. fold V W in G1, G2, HI. fold g in G1, G2, HI.
  assert (HWp : 0 < W) by (unfold W, Rdiv; rewrite EW; apply Rmult_lt_0_compat; [lra|now apply Rinv_0_lt_compat]).
  split; [exact G1|]. split; [exact G2|]. rewrite HI. destruct (one_column (m_mode c)).
  - exists (ladder W (g false) (Z.to_nat (N c)) * V). split; [apply current_iff; [exact HWp|intros ? _; apply G1|reflexivity]|reflexivity].
  - exists (ladder W (g false) (Z.to_nat (N c)) * V). split; [apply current_iff; [exact HWp|intros ? _; apply G1|reflexivity]|].
    exists (ladder W (g true) (Z.to_nat (N c)) * V). split; [apply current_iff; [exact HWp|intros ? _; now apply G2|reflexivity]|reflexivity].
Qed.

(** The solver of a new crossbar. *)
Lemma new_solver (w0 : @world RM) j w r x p : step w0 (SetConfig (Parsed j)) = Ok (w, r) -> wx w = Some x -> @par RM (xm x) = Some p ->
  @ps_w RM p = w_res (wcfg w).
Proof.
  intros H Ex P. cbn [step] in H. unfold set_config in H. inv_as H u U. inv_as H c C. unfold replace_xbar in H. cbn [wcfg set] in H.
  match type of H with context [xbar_new ?q] => change q with c in H end. destruct (xbar_new c) as [y| | |] eqn:V; try discriminate H.
  2: { inversion H; subst; discriminate. } inv_as H v W. inversion H; subst. cbn in Ex. inversion Ex; subst y. clear -V P.
  unfold xbar_new in V. inv_as V mp A. inversion V; subst; clear V. cbn in P. cbn.
  unfold mapper_new in A. cbv zeta in A. inv_as A a Ha. inv_as A ps Hps. inv_as A st Hst. inv_as A dl Hdl.
  inversion A; subst; clear A. cbn in P. subst ps. destruct (_ && _); [|discriminate]. inv_as Hps q Q. inversion Hps; subst.
  unfold par_new in Q. destruct (wenc_of (m_mode c)); [|discriminate]. now inversion Q; subst.
Qed.
End RR.
