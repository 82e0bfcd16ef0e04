(** Concrete crossbars with unusable histogram bins. *)
From Coq Require Import String List ZArith Reals Bool Lia Lra.
From RecordUpdate Require Import RecordSet.
From Verif Require Import Base Lib Machine Json Config Histogram Adc Mapper Crossbar Api RMachine RSpec Spec Reach Demo AnaSpec
  AdcProps AnaEx LeakProps HistSpec HistOk HistBad.
Import ListNotations RecordSetNotations.
Local Open Scope Z_scope.

(** IEEE arithmetic: BNN_VI, 2 x 2 cells, span 100. *)
Definition hist87 (b : Z) : list (@call toy) :=
  [SetConfig (Parsed (puts (fin_doc 8) [("adc_profile", JBool true); ("adc_profile_bin_size", JInt b)]%string));
   CpyMtrx [1; -1; -1; 1] 2 2].
Definition doc87 : @json toy := puts (fin_doc 8) [("adc_profile", JBool true)]%string.
Lemma loads87 : code (step world0 (SetConfig (Parsed doc87))) = 0.
Proof. vm_compute. reflexivity. Qed.
Definition wide_bins (b : Z) : @world toy := after (hist87 b).
Definition mul87 : @call toy := ExeMvm [0; 0] [1; 1] [] 2 2 "L"%string.
Lemma ex87 : map (fun b => code (step (wide_bins b) mul87)) [-1000; -1; 0; 1; 10; 1000] = [1; 4; 4; 0; 0; 1].
Proof. vm_compute. reflexivity. Qed.
Lemma reach87 : reach (wide_bins 0) /\ digital_only (wcfg (wide_bins 0)) = false /\ is_int (m_mode (wcfg (wide_bins 0))) = false /\
  adc_profile (wcfg (wide_bins 0)) = true /\ bin_size (wcfg (wide_bins 0)) = 0 /\ lookup "L"%string (histo (wenv (wide_bins 0))) = None.
Proof.
  split; [apply (after_reach_b (hist87 0)); vm_compute; reflexivity|]. split; [vm_compute; reflexivity|]. split; [vm_compute; reflexivity|].
  split; [vm_compute; reflexivity|]. split; [vm_compute; reflexivity|].
  assert (E : forall o : option (@hist toy), match o with None => true | Some _ => false end = true -> o = None) by (intros []; easy).
  apply E. vm_compute. reflexivity.
Qed.

(** Exact arithmetic: BNN_VI, 3 x 4 cells, HRS 5, LRS 30, span 200, bins of -1 and 1000. *)
Section PG.
Context {MC : Machine}.
Definition bad_doc (b : Z) : json := puts (demo_doc BNN_VI "BNN_VI" "SYM_RANGE_ADC" 8) [("adc_profile", JBool true); ("adc_profile_bin_size", JInt b)]%string.
Definition with_bins (b : Z) (c : config) : config := c <| adc_profile := true |> <| bin_size := b |>.
Definition bad_cfg (b : Z) : config := with_bins b (demo_cfg BNN_VI SYM_RANGE_ADC 8).
Lemma bins_facts b c : digital_only (with_bins b c) = digital_only c /\ adc_profile (with_bins b c) = true /\ bin_size (with_bins b c) = b /\
  adc_type (with_bins b c) = adc_type c /\ m_mode (with_bins b c) = m_mode c /\ HRS (with_bins b c) = HRS c /\
  LRS (with_bins b c) = LRS c /\ N (with_bins b c) = N c.
Proof. repeat split. Qed.
Lemma bad_applied b : b = -1 \/ b = 1000 -> fle (f_of_Z 5) f0 = false -> fle (f_of_Z 30) f0 = false -> apply_config (bad_doc b) config0 = Ok (bad_cfg b).
Proof. intros [-> | ->] A B; unfold f0 in *; cbv -[fle f_of_Z]; rewrite A, B; reflexivity. Qed.
Lemma bad_created b a : adc_new (bad_cfg b) SYM_RANGE_ADC = Ok a -> exists x, xbar_new (bad_cfg b) = Ok x.
Proof.
  intros Ha. unfold xbar_new, mapper_new. rewrite (eq_refl : adc_type (bad_cfg b) = SYM_RANGE_ADC), Ha. cbn [bind].
  assert (E1 : digital_only (bad_cfg b) = false /\ parasitics (bad_cfg b) = false) by (split; reflexivity).
  destruct E1 as [-> ->]. cbn [negb andb bind]. eexists. reflexivity.
Qed.
Lemma bad_world b a : b = -1 \/ b = 1000 -> fle (f_of_Z 5) f0 = false -> fle (f_of_Z 30) f0 = false -> adc_new (bad_cfg b) SYM_RANGE_ADC = Ok a ->
  exists w, reach w /\ wcfg w = bad_cfg b /\ histo (wenv w) = [].
Proof.
  intros Hb H4 H5 H6. pose proof (bad_applied b Hb H4 H5) as E. destruct (bad_created b a H6) as (x & X).
  eexists.
  assert (Hrun : step world0 (SetConfig (Parsed (bad_doc b))) =
    Ok (world0 <| wdata := bad_doc b |> <| wcfg := bad_cfg b |> <| wx := Some x |>, RUnit)).
  { cbn [step]. unfold set_config. cbn [destroy wx wcfg world0 bind].
    change (wcfg (world0 <| wx := None |>)) with config0. rewrite E. cbn [bind]. unfold replace_xbar.
    change (wcfg (world0 <| wx := None |> <| wdata := bad_doc b |> <| wcfg := bad_cfg b |>)) with (bad_cfg b).
    rewrite X. reflexivity. }
  split; [exists [SetConfig (Parsed (bad_doc b))], [RUnit]; split; [|repeat constructor]; cbn [run]; rewrite Hrun; reflexivity|].
  split; reflexivity.
Qed.
End PG.
Section PE.
Context (nz : bool -> nat -> R) (s : bool).
#[local] Hint Extern 0 Machine => exact (R_machine nz s) : typeclass_instances.
Notation RM := (R_machine nz s).
Lemma bins_adc b (c : @config RM) ty : @adc_new RM c ty = @adc_new RM (with_bins b c) ty.
Proof. reflexivity. Qed.
#[local] Opaque with_bins demo_cfg.
Lemma hyps87 b : b = -1 \/ b = 1000 -> exists w : @world RM, reach w /\ digital_only (wcfg w) = false /\ is_int (m_mode (wcfg w)) = false /\
  adc_profile (wcfg w) = true /\ adc_type (wcfg w) <> INF_ADC /\ (span (wcfg w) = 200)%R /\ bin_size (wcfg w) = b /\
  lookup "L"%string (histo (wenv w)) = None.
Proof.
  intros Hb. destruct (@demo_flags RM) as (F1 & F2 & F3 & F4 & F5 & F6 & F7 & F8 & F9 & F10 & F11 & F12 & F13).
  assert (Ha : exists a, @adc_new RM (bad_cfg b) SYM_RANGE_ADC = Ok a).
  { unfold bad_cfg. rewrite <- bins_adc. rewrite new_ok; [eauto|discriminate|]. rewrite F9. lia. }
  destruct Ha as (a & Ha).
  destruct (@bad_world RM b a Hb (pos_false nz s 5 ltac:(lia)) (pos_false nz s 30 ltac:(lia)) Ha) as (w & Hr & Hc & Hh).
  destruct (@bins_facts RM b (demo_cfg BNN_VI SYM_RANGE_ADC 8)) as (P1 & P2 & P3 & P4 & P5 & P6 & P7 & P8).
  rewrite F1 in P1. rewrite F7 in P4. rewrite F13 in P5. rewrite F10 in P6. rewrite F11 in P7. rewrite F12 in P8.
  change (with_bins b (demo_cfg BNN_VI SYM_RANGE_ADC 8)) with (@bad_cfg RM b) in *. revert Hc P1 P2 P3 P4 P5 P6 P7 P8.
  generalize (@bad_cfg RM b). clear - Hr Hh. intros c Hc P1 P2 P3 P4 P5 P6 P7 P8.
  exists w. split; [exact Hr|]. rewrite Hc, Hh. split; [exact P1|]. split; [rewrite P5; reflexivity|]. split; [exact P2|].
  split; [rewrite P4; discriminate|]. split; [|split; [exact P3|reflexivity]].
  unfold span. rewrite P4, P6, P7, P8. cbn [f_of_Z R_machine]. lra.
Qed.
End PE.
