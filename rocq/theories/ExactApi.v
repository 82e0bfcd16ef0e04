(** Single precision is exact for cell currents that differ by a power of two: C90. *)
From Coq Require Import String List ZArith Bool Arith Lia ZifyBool ZifyNat.
From RecordUpdate Require Import RecordSet.
From Flocq Require Import Core BinarySingleNaN.
From Verif Require Import Base Lib Hoare Machine Json Config Histogram Adc ReadDisturb Parasitics
  Mapper Crossbar Api WriteProofs Shape MvmShape DigMvm DigModes DigWrite AnaShape StepFacts ConfigProofs Reach
  Spec DigApi Invar StoreProps FloatMachine AnaWrite AnaSpec AnaApi Exact32 ExactMvm.
Import ListNotations RecordSetNotations.
Local Open Scope Z_scope.
Local Open Scope out_scope.

Ltac Zify.zify_post_hook ::= idtac.

(** Every sum of currents is an integer of at most 24 bits.  [h] is HRS and [h + 2^k] is LRS.  BNN_III,
    BNN_IV and BNN_V add up the currents themselves, TNN_IV and TNN_V twice and four times the currents and
    half the offset, the other modes differences of currents. *)
Definition small_currents (md : mode) (n h k : Z) : Prop :=
  0 <= h /\ 0 <= k /\ h + 2 ^ k < 2 ^ 24 /\ n * 2 ^ k < 2 ^ 24 /\
  (In md [BNN_III; BNN_IV; BNN_V] -> n * (h + 2 ^ k) < 2 ^ 24) /\
  (In md [TNN_IV; TNN_V] -> 6 * (n * (h + 2 ^ k)) < 2 ^ 24).

Section X.
Context (powf : b32 -> b32 -> b32) (pow : b64 -> b64 -> b64) (expf : b32 -> b32) (nz : bool -> nat -> b32) (strict : bool).
Notation FM := (F_machine powf pow expf nz strict).
#[local] Hint Extern 0 Machine => exact (F_machine powf pow expf nz strict) : typeclass_instances.
Notation len := List.length.
Notation MM c := (Z.to_nat (M c)).

Lemma stored_dres (c : @config FM) (mp : @mapper FM) mat vec m n i x : stored c mp mat m n -> (i < m)%nat ->
  dres c mp vec n i x = x + product mat vec n i.
Proof.
  intros HS Hi. unfold dres, product. rewrite sum_sumZ.
  rewrite (sumZ_ext n (fun j => cellv c mp i j * nth j vec 0 + cellb c mp i j)
            (fun j => entry mat n i j * nth j vec 0)).
  2: { intros j Hj. rewrite (st_v _ _ _ _ _ HS i j Hi Hj), (st_b _ _ _ _ _ HS i j Hi Hj). ring. }
  rewrite (sumZ_ext n (fun j => cellv c mp i j) (entry mat n i)).
  2: { intros j Hj. apply (st_v _ _ _ _ _ HS i j Hi Hj). }
  assert (Hz : kap c * (nth i (sum_w mp) 0 - sumZ n (entry mat n i)) = 0); [|lia].
  destruct (keeps_sums (m_mode c)) eqn:Ek.
  - rewrite (st_sum _ _ _ _ _ HS Ek i Hi). lia.
  - unfold kap. destruct (m_mode c); try discriminate Ek; lia.
Qed.

Lemma entry_x (c : @config FM) w : is_int (m_mode c) = false -> weight_in c w -> Z.abs w <= 1.
Proof. intros Hi H. unfold weight_in in H. destruct (m_mode c); try discriminate Hi; lia. Qed.
Lemma input_x (c : @config FM) v : is_int (m_mode c) = false -> input_in c v -> Z.abs v <= 1 /\ vok c v.
Proof.
  intros Hi H. unfold input_in in H. unfold vok, bin, ter. destruct (m_mode c); try discriminate Hi; lia.
Qed.

Lemma mvm_x (w : @world FM) x mat res vec mat' m n l h k :
  good w -> wx w = Some x -> ready (wcfg w) x mat (Z.to_nat m) (Z.to_nat n) ->
  digital_only (wcfg w) = false -> read_disturb (wcfg w) = false ->
  parasitics (wcfg w) = false -> c2c_var (wcfg w) = false -> adc_profile (wcfg w) = false -> adc_type (wcfg w) = INF_ADC ->
  is_int (m_mode (wcfg w)) = false ->
  @HRS FM (wcfg w) = @f_of_Z FM h -> @LRS FM (wcfg w) = @f_of_Z FM (h + 2 ^ k) -> small_currents (m_mode (wcfg w)) n h k ->
  dims_in (wcfg w) m n -> all_entries (weight_in (wcfg w)) mat m n -> all_first (input_in (wcfg w)) vec n ->
  all_first (fun r => Z.abs r + 3 * n < 2 ^ 24) res m ->
  exists w1, step w (ExeMvm res vec mat' m n l) = Ok (w1, RRes 0 (plus_product res mat vec (Z.to_nat m) (Z.to_nat n))).
Proof.
  intros Hg Hx HR Hd Hrd Hpa Hc2 Hprof Hadc Hni Hh Hl (S1 & S2 & S3 & S4 & S5 & S6) Hdim [_ Hent] [Hv1 Hin] [Hr1 Hr2].
  destruct (guard_ok w m n Hg Hdim) as (G1 & G2 & Hm & Hn).
  pose proof (g_x _ Hg x Hx) as Hxo. pose proof (good_wf w Hg) as Hwf.
  pose proof (xo_shape _ _ Hxo) as Hs. destruct Hdim as [Dm Dn].
  set (c := wcfg w) in *. set (mN := Z.to_nat m) in *. set (nN := Z.to_nat n) in *.
  assert (ZN : Z.of_nat nN = n) by (unfold nN; lia).
  pose proof HR as [R1 R2 R3 R4 R5 R6]. destruct R2 as (B1 & _ & _). rewrite Hd in B1. specialize (R6 Hni).
  assert (Hres : (mN <= len res)%nat) by (unfold mN; lia). assert (Hvec : (nN <= len vec)%nat) by (unfold nN; lia).
  assert (Pk : 0 < 2 ^ k) by (apply Z.pow_pos_nonneg; lia).
  assert (K24 : k <= 24).
  { destruct (Z_le_gt_dec k 24) as [L|L]; [exact L|]. assert (2 ^ 24 <= 2 ^ k) by (apply Z.pow_le_mono_r; lia). lia. }
  assert (BP : forall i, (i < mN)%nat -> Z.abs (product mat vec nN i) <= Z.of_nat nN).
  { intros i Hi. unfold product. rewrite sum_sumZ, <- (Z.mul_1_r (Z.of_nat nN)). apply sumZ_bound. intros j Hj.
    pose proof (entry_x c _ Hni (Hent i j Hi Hj)). destruct (input_x c _ Hni (Hin j Hj)). rewrite Z.abs_mul. nia. }
  assert (HG : xgoal powf pow expf nz strict c (xm x) res vec mat' mN nN l (wenv w)).
  { apply (x_modes powf pow expf nz strict c (xm x) res vec mat' mN nN l (wenv w) h k); auto.
    - pose proof (sh_adc _ _ Hs) as SA. rewrite Hadc in SA.
      unfold adc_new in SA. destruct (d_trunc _); [|discriminate]. destruct (in32 _); [|discriminate]. now inversion SA.
    - now rewrite ZN.
    - rewrite ZN. intros E. assert (0 <= n * (h + 2 ^ k)) by nia.
      destruct (m_mode c); try discriminate Hni; try discriminate E;
        first [apply S5; cbn; tauto|change lim with (2 ^ 24); cut (6 * (n * (h + 2 ^ k)) < 2 ^ 24); [lia|apply S6; cbn; tauto]].
    - rewrite ZN. intros E. apply S6. cbn. destruct E as [E|E]; rewrite E; tauto.
    - intros i j H1 H2. now apply (st_ok _ _ _ _ _ R1).
    - intros i j H1 H2. now destruct (R6 i j H1 H2) as [[K _] _].
    - intros H2a i j H1 H2. destruct (R6 i j H1 H2) as [_ K].
      assert (Ho : one_array (m_mode c) = false) by now destruct (m_mode c).
      now destruct (K Ho) as [K1 _].
    - intros Hk i Hi. assert (Ek : keeps_sums (m_mode c) = true) by (unfold kap in Hk; destruct (m_mode c); try reflexivity; congruence).
      rewrite (st_sum _ _ _ _ _ R1 Ek i Hi).
      assert (Z.abs (sumZ nN (entry mat nN i)) <= Z.of_nat nN * 1).
      { apply sumZ_bound. intros j Hj. exact (entry_x c _ Hni (Hent i j Hi Hj)). }
      nia.
    - intros i Hi. rewrite (stored_dres c (xm x) mat vec mN nN i 0 R1 Hi). exact (BP i Hi).
    - intros i Hi. rewrite ZN. now apply Hr2. }
  destruct HG as (mp' & EA).
  eexists. cbn [step]. unfold exe_mvm. fold c. rewrite Hx, G1, G2. cbn [bind]. fold mN nN. unfold xmvm. cbv zeta. rewrite Hd, Hc2. cbn [bind].
  change (xm (x <| n_mvm := (n_mvm x + 1)%Z |> <| n_read := (n_read x + 1)%Z |>)) with (xm x). rewrite EA. cbn [bind].
  rewrite Hrd. cbn [bind]. do 3 f_equal.
  unfold plus_product. apply (nth_ext _ _ 0 0); [now rewrite upto_length, map_length, seq_length|].
  intros i Hi. rewrite upto_length in Hi. rewrite nth_upto by exact Hi.
  match goal with |- _ = nth i (map ?f _) 0 => set (g := f) end.
  rewrite (nth_indep (map g (seq 0 (len res))) 0 (g O)) by (rewrite map_length, seq_length; lia).
  rewrite map_nth, seq_nth by lia. unfold g. cbn [plus]. destruct (i <? mN)%nat eqn:E.
  - rewrite (stored_dres c (xm x) mat vec mN nN i 0 R1) by lia. lia.
  - lia.
Qed.

Lemma exact_single : forall (w : @world FM) x mat m n h k,
  reach w -> wx w = Some x -> ideal_cells (wcfg w) x -> adc_type (wcfg w) = INF_ADC ->
  is_int (m_mode (wcfg w)) = false ->
  @HRS FM (wcfg w) = @f_of_Z FM h -> @LRS FM (wcfg w) = @f_of_Z FM (h + 2 ^ k) -> small_currents (m_mode (wcfg w)) n h k ->
  dims_in (wcfg w) m n -> all_entries (weight_in (wcfg w)) mat m n ->
  exists w1, step w (CpyMtrx mat m n) = Ok (w1, RCode 0) /\
    forall hist w2 rs res vec mat' l, Forall quiet hist -> run w1 hist = Ok (w2, rs) -> always no_variation w1 hist ->
      all_first (input_in (wcfg w2)) vec n -> all_first (fun r => Z.abs r + 3 * n < 2 ^ 24) res m ->
      exists w3, step w2 (ExeMvm res vec mat' m n l) =
        Ok (w3, RRes 0 (plus_product res mat vec (Z.to_nat m) (Z.to_nat n))).
Proof.
  intros w x mat m n h k Hr Hx (I1 & I2 & I3 & I4 & I5 & I6 & I7) Hadc Hni Hh Hl HS Hdim Hent.
  assert (Hcov : split_covers (wcfg w)) by (intros E; congruence).
  assert (HN : n * row_bound (wcfg w) <= int32_max).
  { unfold row_bound. rewrite Hni. destruct HS as (S1 & S2 & S3 & S4 & _).
    assert (0 < 2 ^ k) by (apply Z.pow_pos_nonneg; lia). unfold int32_max. destruct Hdim. nia. }
  destruct (cpy_ready w x mat m n Hr Hx I1 I2 I3 I6 I4 I5 Hcov Hdim Hent HN) as (w1 & x1 & E1 & G1 & C1 & X1 & R1).
  exists w1. split; [exact E1|]. intros hist w2 rs res vec mat' l Hq Hrun Hal Hin Hres.
  assert (Hend : no_variation (wcfg w2)) by (apply (Hal hist [] w2 rs); [now rewrite app_nil_r|exact Hrun]).
  rewrite <- C1 in R1, I1, I2.
  destruct (run_ready hist mat (Z.to_nat m) (Z.to_nat n) w1 w2 rs x1 G1 X1 Hq Hrun I1 I2) as (G2 & K2 & x2 & X2 & R2); auto.
  { intros h1 h2 w' rs' E R _. exact (proj1 (Hal h1 h2 w' rs' E R)). }
  rewrite C1 in K2, I1, I2. destruct (core_domains _ _ K2) as (W1 & _ & _ & W4 & W5).
  assert (KK : digital_only (wcfg w2) = digital_only (wcfg w) /\ read_disturb (wcfg w2) = read_disturb (wcfg w) /\
    adc_profile (wcfg w2) = adc_profile (wcfg w) /\ @HRS FM (wcfg w2) = @HRS FM (wcfg w) /\ @LRS FM (wcfg w2) = @LRS FM (wcfg w) /\
    adc_type (wcfg w2) = adc_type (wcfg w)).
  { destruct K2 as (i & v & d2 & c2 & bs & wr & p & ->). repeat split. }
  destruct KK as (F1 & F2 & F3 & F9 & F10 & F11). destruct Hend as [V1 V2].
  apply (mvm_x w2 x2 mat res vec mat' m n l h k); auto; rewrite ?F1, ?F2, ?F3, ?F9, ?F10, ?F11, ?W4, ?W1; auto.
  now apply W5.
Qed.
End X.
