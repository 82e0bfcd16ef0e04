(** Degenerate resolutions: C58. *)
From Coq Require Import String List ZArith Reals Bool Lia Lra.
From RecordUpdate Require Import RecordSet.
From Flocq Require Import Core BinarySingleNaN.
From Verif Require Import Base Lib Machine Json Config Histogram Adc Mapper Crossbar Api ConfigProofs Spec Demo CfgProps LeakProps FloatMachine.
Import ListNotations RecordSetNotations.
Local Open Scope Z_scope.

Section Res.
Context (powf : b32 -> b32 -> b32) (pow : b64 -> b64 -> b64) (expf : b32 -> b32) (nz : bool -> nat -> b32) (strict : bool).
Notation FMa := (F_machine powf pow expf nz strict).

Lemma pow_trunc r : 30 < r -> match @d_trunc FMa (@dpow2 FMa r) with Some z => in32 z = false | None => True end.
Proof.
  intros Hr. cbn [d_trunc dpow2 F_machine]. unfold norm64.
  pose proof (binary_normalize_correct 53 1024 p64 e64 mode_NE 1 r false) as H.
  assert (EF : F2R (Float radix2 1 r) = bpow radix2 r) by (rewrite F2R_bpow; reflexivity).
  cbv zeta in H. rewrite EF in H.
  assert (EG : round radix2 (SpecFloat.fexp 53 1024) (round_mode mode_NE) (bpow radix2 r) = bpow radix2 r).
  { apply round_generic; [typeclasses eauto|]. apply generic_format_bpow. unfold SpecFloat.fexp, SpecFloat.emin. lia. }
  rewrite EG in H. rewrite Rabs_pos_eq in H by apply bpow_ge_0.
  destruct (Rlt_bool_spec (bpow radix2 r) (bpow radix2 1024)) as [L|L].
  - destruct H as (E & Fi & _). rewrite Fi.
    assert (T : Btrunc (binary_normalize 53 1024 p64 e64 mode_NE 1 r false) = 2 ^ r).
    { apply eq_IZR. rewrite (Btrunc_correct 53 1024 e64), E. rewrite <- IZR_Zpower by lia.
      unfold round, scaled_mantissa, cexp, FIX_exp, F2R. cbn [Fnum Fexp Z.opp].
      change (bpow radix2 0) with 1%R. rewrite !Rmult_1_r, Ztrunc_IZR. reflexivity. }
    rewrite T. unfold in32, int_min, int_max. apply andb_false_intro2. apply Z.leb_gt.
    assert (2 ^ 31 <= 2 ^ r) by (apply Z.pow_le_mono_r; lia). lia.
  - destruct (is_finite _) eqn:Fi; [|exact I].
    exfalso. destruct (binary_normalize 53 1024 p64 e64 mode_NE 1 r false); cbn in *; discriminate.
Qed.

Lemma high_resolution : forall (w : @world FMa) (j : @json FMa) (c : @config FMa),
  verbose (wcfg w) = false -> apply_config j (wcfg w) = Ok c -> 30 < resolution c ->
  step w (SetConfig (Parsed j)) = UB FloatToInt.
Proof.
  intros w j c Hv Ha Hr. cbn [step]. unfold set_config.
  replace (destroy (wcfg w) (wx w)) with (@Ok unit tt).
  2: { unfold destroy. rewrite Hv. destruct (wx w); reflexivity. }
  cbn [bind]. change (wcfg (w <| wx := None |>)) with (wcfg w). rewrite Ha. cbn [bind].
  unfold replace_xbar, xbar_new, mapper_new. cbn [wcfg]. change (wcfg (_ <| wcfg := c |>)) with c.
  pose proof (pow_trunc _ Hr) as T. unfold adc_new.
  destruct (d_trunc (dpow2 (resolution c))) as [z|]; [rewrite T|]; reflexivity.
Qed.
End Res.

Lemma ex58 : code (run world0 [SetConfig (Parsed (fin_doc 31))]) = 4 /\
  code (apply_config (fin_doc 31) (config0 : @config toy)) = 0 /\
  code (run world0 [SetConfig (Parsed (fin_doc 1))]) = 0 /\
  code (run world0 (SetConfig (Parsed (fin_doc 1)) :: use22)) = 4.
Proof. vm_compute. auto. Qed.
Lemma refuted58 : exists w rs, run world0 [SetConfig (Parsed (fin_doc 1)); CpyMtrx [1; -1; 1; 1] 2 2] = Ok (w, rs) /\
  step w (ExeMvm [0; 0] [1; -1] [] 2 2 ""%string) = UB FloatToInt.
Proof.
  assert (C : code (run world0 [SetConfig (Parsed (fin_doc 1)); CpyMtrx [1; -1; 1; 1] 2 2]) = 0) by (vm_compute; reflexivity).
  destruct (code_ok _ C) as [[w rs] E]. exists w, rs. split; [exact E|].
  replace w with (after [SetConfig (Parsed (fin_doc 1)); CpyMtrx [1; -1; 1; 1] 2 2]) by (unfold after; rewrite E; reflexivity).
  apply code_f2i. vm_compute. reflexivity.
Qed.

(** A configuration in exact arithmetic, and one in single precision. *)
From Verif Require Import RMachine RSpec FloatAdc AdcProps.
#[local] Hint Extern 0 Machine => exact (R_machine (fun _ _ => 0%R) false) : typeclass_instances.
Definition rcfg : @config (R_machine (fun _ _ => 0%R) false) :=
  @config0 (R_machine (fun _ _ => 0%R) false) <| N := 4 |> <| HRS := 5%R |> <| LRS := 30%R |> <| resolution := 3 |>
    <| adc_calib_dict := ([("conv1"%string, ((-7)%R, 21%R))] : list (string * (@F (R_machine (fun _ _ => 0%R) false) * @F (R_machine (fun _ _ => 0%R) false)))) |>.
Lemma ex24 : (2 <= resolution rcfg <= 30) /\ adc_range rcfg SYM_RANGE_ADC "x"%string = Some ((- (4 * (30 - 5)))%R, (4 * (30 - 5))%R) /\
  adc_range rcfg POS_RANGE_ONLY_ADC "x"%string = Some (0%R, (4 * 30)%R) /\
  adc_range (rcfg <| adc_calib_mode := CAL_CALIB |>) POS_RANGE_ONLY_ADC "conv1"%string = Some ((-7)%R, 21%R) /\
  (HRS rcfg < LRS rcfg)%R /\ 0 < N rcfg /\ adc_calib_mode rcfg = CAL_MAX.
Proof.
  refine (conj _ (conj eq_refl (conj eq_refl (conj eq_refl (conj _ (conj _ eq_refl)))))); cbn.
  - lia.
  - lra.
  - lia.
Qed.
Definition w25 : @world toy := after [SetConfig (Parsed (fin_doc 8))].
Definition usable_b (steps : Z) (o : out (b32 * b32)) : bool :=
  match o with
  | Ok (mn, mx) => let st := @fdiv toy (@fsub toy mx mn) (@f_of_Z toy (steps - 1)) in
      is_finite mn && is_finite mx && is_finite st && @flt toy (@f0 toy) st
  | _ => false
  end.
Lemma ex25 : exists a, adc_new (wcfg w25) (adc_type (wcfg w25)) = Ok a /\ a_ty a = SYM_RANGE_ADC /\ a_steps a = 255 /\
  (forall mn mx, get_currents (wcfg w25) a ""%string = Ok (mn, mx) -> a_ty a <> INF_ADC ->
     usable (fun x _ => x) (fun x _ => x) (fun x => x) (fun _ _ => B754_zero false) false (a_steps a) mn mx).
Proof.
  assert (H : (match adc_new (wcfg w25) (adc_type (wcfg w25)) with
    | Ok a => match a_ty a with SYM_RANGE_ADC => (a_steps a =? 255)%Z && usable_b (a_steps a) (get_currents (wcfg w25) a ""%string) | _ => false end
    | _ => false end) = true) by (vm_compute; reflexivity).
  destruct (adc_new (wcfg w25) (adc_type (wcfg w25))) as [a| | |]; try discriminate. exists a. split; [reflexivity|].
  destruct (a_ty a) eqn:Et; try discriminate. apply andb_prop in H. destruct H as [H1 H2]. split; [reflexivity|].
  split; [now apply Z.eqb_eq|]. intros mn mx E _. rewrite E in H2. unfold usable_b in H2.
  apply andb_prop in H2. destruct H2 as [H2 H5]. apply andb_prop in H2. destruct H2 as [H2 H4].
  apply andb_prop in H2. destruct H2 as [H2 H3]. exact (conj H2 (conj H3 (conj H4 H5))).
Qed.
