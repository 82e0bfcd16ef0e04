(** Property theorems C46, C47, C48, C72, C73, C74, C75, C87: the converter input histograms. *)
From Coq Require Import List ZArith Reals Bool String Permutation.
From RecordUpdate Require Import RecordSet.
From Flocq Require Import Core BinarySingleNaN.
From Verif Require Import Base Machine Json Config Histogram Adc Crossbar Api RMachine FloatMachine RSpec Reach Spec Demo
  AnaSpec AnaEx HistProps HistEx HistSpec HistCount HistBins HistOk HistBad HistBadEx BinsAny.
Import ListNotations RecordSetNotations.
Local Open Scope Z_scope.

(** C46: profiling [vs] under layer [l] adds their number to that layer's sample count and leaves the
    other layers and the noise generator alone. *)
Theorem C46_conserves :
  forall (MC : Machine) (c : config) (a : adc) (l : string) (vs : list F) (e e' : env),
  profile c a l vs e = Ok e' ->
  let samples := fun o => match o with Some h => total (h_data h) | None => 0 end in
  samples (lookup l (histo e')) = samples (lookup l (histo e)) + Z.of_nat (List.length vs) /\
  (forall l', l' <> l -> lookup l' (histo e') = lookup l' (histo e)) /\ draws e' = draws e.
Proof. exact @conserves. Qed.
Print Assumptions C46_conserves.

(** In exact arithmetic values at least one bin below the end of the range can always be counted. *)
Theorem C46_in_range_counted :
  forall (nz : bool -> nat -> R) (s : bool) (mn mx b : R) (h0 h : @hist (R_machine nz s)) (ws vs : list R),
  (0 < b)%R -> (mn <= mx)%R -> ((mx - mn) / b <= IZR (2 ^ 30))%R ->
  @hist_new (R_machine nz s) mn mx b = Ok h0 -> @hist_update (R_machine nz s) ws h0 = Ok h ->
  (forall v, In v vs -> (mn <= v <= mx - b)%R) ->
  Z.of_nat (List.length ws) + Z.of_nat (List.length vs) <= int32_max ->
  exists h', @hist_update (R_machine nz s) vs h = Ok h'.
Proof. exact @in_range_ok. Qed.
Print Assumptions C46_in_range_counted.

(** An MVM that succeeds with profiling gives the same result and leaves the same crossbar without it. *)
Theorem C46_results_unchanged :
  forall (MC : Machine) (w1 w2 : world) (res vec mat : list Z) (m n : Z) (l : string) (w1' : world) (r : result),
  wcfg w2 = wcfg w1 <| adc_profile := false |> -> wx w2 = wx w1 -> draws (wenv w2) = draws (wenv w1) ->
  step w1 (ExeMvm res vec mat m n l) = Ok (w1', r) ->
  exists w2', step w2 (ExeMvm res vec mat m n l) = Ok (w2', r) /\
    wcfg w2' = wcfg w1' <| adc_profile := false |> /\ wx w2' = wx w1' /\ draws (wenv w2') = draws (wenv w1') /\
    histo (wenv w2') = histo (wenv w2).
Proof. exact @results_unprofiled. Qed.
Print Assumptions C46_results_unchanged.

(** A profiled MVM on a reachable crossbar succeeds and fills the histogram. *)
Example C46_example :
  code (step w47 (ExeMvm [0; 0] [1; -1] [] 2 2 "L"%string)) = 0 /\
  runs_settled [SetConfig (Parsed (full_doc 1)); CpyMtrx [1; 1; -1; -1] 2 2] = true.
Proof. split; apply ex47. Qed.

(** C47: whatever was counted before, the full-scale current is written behind the last bin. *)
Theorem C47_full_scale_refuted :
  forall (nz : bool -> nat -> R) (s : bool) (mn mx b : R) (h h' : @hist (R_machine nz s)) (vs : list R),
  (0 < b)%R -> (mn <= mx)%R -> ((mx - mn) / b <= IZR (2 ^ 30))%R ->
  @hist_new (R_machine nz s) mn mx b = Ok h -> @hist_update (R_machine nz s) vs h = Ok h' ->
  @hist_update (R_machine nz s) [mx] h' = UB OutOfBounds.
Proof. exact @full_scale. Qed.
Print Assumptions C47_full_scale_refuted.

(** The same in binary32 for an MVM of a reachable crossbar. *)
Theorem C47_reachable_refuted :
  exists w : @world toy, reach w /\ adc_type (wcfg w) = POS_RANGE_ONLY_ADC /\ adc_profile (wcfg w) = true /\
    step w (ExeMvm [0; 0] [1; 1] [] 2 2 "L"%string) = UB OutOfBounds.
Proof. exact reachable47. Qed.
Print Assumptions C47_reachable_refuted.

(** A bin is labelled with a current between the counted one and a whole bin above it; the whole bin is
    attained. *)
Theorem C47_label :
  forall (nz : bool -> nat -> R) (s : bool) (mn mx b v : R) (h : @hist (R_machine nz s)) (i : Z),
  (0 < b)%R -> (mn <= mx)%R -> ((mx - mn) / b <= IZR (2 ^ 30))%R ->
  @hist_new (R_machine nz s) mn mx b = Ok h -> @hist_index (R_machine nz s) h v = Ok i ->
  0 <= i < Z.of_nat (List.length (h_data h)) ->
  (v <= nth (Z.to_nat i) (h_vals h : list R) 0 <= v + b)%R.
Proof. exact @label. Qed.
Print Assumptions C47_label.

Theorem C47_label_whole_bin_refuted :
  forall (nz : bool -> nat -> R) (s : bool) (mn mx b : R) (h : @hist (R_machine nz s)) (i : Z),
  (0 < b)%R -> (mn <= mx)%R -> ((mx - mn) / b <= IZR (2 ^ 30))%R ->
  @hist_new (R_machine nz s) mn mx b = Ok h -> 0 < i < Z.of_nat (List.length (h_data h)) ->
  @hist_index (R_machine nz s) h (mn + (IZR i - / 2) * b)%R = Ok i /\
  (nth (Z.to_nat i) (h_vals h : list R) 0 = (mn + (IZR i - / 2) * b) + b)%R.
Proof. exact @label_worst. Qed.
Print Assumptions C47_label_whole_bin_refuted.

Example C47_example : exists h, @hist_new (R_machine (fun _ _ => 0%R) false) 0%R 60%R 10%R = Ok h.
Proof. exact ex47R. Qed.

(** C48: the sample count is the total of the counters for every reduction tree over every permutation. *)
Theorem C48_samples :
  forall (MC : Machine) (h : hist) (t : rtree),
  Permutation (leaves t) (seq 0 (S (List.length (h_data h)))) -> hist_samples t h = total (h_data h).
Proof. exact samples_any. Qed.
Print Assumptions C48_samples.

(** The mean of one and the same histogram differs between two reduction orders. *)
Theorem C48_mean_refuted :
  exists (mn mx b : @F toy) (vs : list (@F toy)) (h0 h : @hist toy) (t t' : rtree),
  hist_new mn mx b = Ok h0 /\ hist_update vs h0 = Ok h /\
  Permutation (leaves t) (seq 0 (S (List.length (h_data h)))) /\
  Permutation (leaves t') (seq 0 (S (List.length (h_data h)))) /\
  @feq toy (hist_mean t t h) (hist_mean t' t h) = false /\ @feq toy (hist_mean t t h) (hist_mean t t h) = true.
Proof. exact mean_refuted. Qed.
Print Assumptions C48_mean_refuted.

Example C48_example : Permutation (leaves (Node (Leaf 2) (Node (Leaf 0) (Leaf 1)))) (seq 0 3).
Proof. apply Permutation_sym. apply perm_trans with [0; 2; 1]%nat; [apply perm_skip, perm_swap|apply perm_swap]. Qed.

(** C72: every successful MVM of a reachable crossbar adds exactly one sample per row and conversion to the
    histogram of its layer, and none when profiling is off or the crossbar is digital. *)
Theorem C72_records :
  forall (MC : Machine) (w : world) (res vec mat : list Z) (m n : Z) (l : string) (w' : world) (r : list Z),
  reach w -> step w (ExeMvm res vec mat m n l) = Ok (w', RRes 0 r) ->
  let c := wcfg w in
  let k := if adc_profile c && negb (digital_only c) then passes (m_mode c) * m else 0 in
  recorded (lookup l (histo (wenv w'))) = recorded (lookup l (histo (wenv w))) + k /\
  (forall l', l' <> l -> lookup l' (histo (wenv w')) = lookup l' (histo (wenv w))).
Proof. exact @records. Qed.
Print Assumptions C72_records.

(** Calls that are no MVMs leave all histograms alone. *)
Theorem C72_only_mvms :
  forall (MC : Machine) (w : world) (a : call) (w' : world) (r : result),
  match a with ExeMvm _ _ _ _ _ _ | PyMvm _ _ _ _ _ => false | _ => true end = true ->
  step w a = Ok (w', r) -> histo (wenv w') = histo (wenv w).
Proof. exact @only_mvms_b. Qed.
Print Assumptions C72_only_mvms.

(** Whatever is called, a histogram that exists keeps its range, bins and labels and loses no sample. *)
Theorem C72_range_kept :
  forall (MC : Machine) (h : list call) (w w' : world) (rs : list result),
  run w h = Ok (w', rs) ->
  forall l g, lookup l (histo (wenv w)) = Some g -> exists g', lookup l (histo (wenv w')) = Some g' /\
    h_min g' = h_min g /\ h_max g' = h_max g /\ h_bin g' = h_bin g /\ h_vals g' = h_vals g /\
    List.length (h_data g') = List.length (h_data g) /\ total (h_data g) <= total (h_data g').
Proof. exact @range_kept. Qed.
Print Assumptions C72_range_kept.

(** A BNN_III crossbar (two conversions per row): two rows give four samples, each further MVM four more. *)
Example C72_example : map (fun h => recorded (lookup "L"%string (histo (wenv (next w47 h)))))
    [[]; [ExeMvm [0; 0] [1; -1] [] 2 2 "L"%string];
     [ExeMvm [0; 0] [1; -1] [] 2 2 "L"%string; ExeMvm [0; 0] [-1; 1] [] 1 2 "L"%string; ExeMvm [0; 0] [-1; 1] [] 2 2 "K"%string]] = [0; 4; 6].
Proof. vm_compute. reflexivity. Qed.

(** C73: in exact arithmetic an MVM of a mode without slices adds to counter [k] of its layer the number
    of its converter input currents that round to bin [k]. *)
Theorem C73_bins :
  forall (nz : bool -> nat -> R) (s : bool) (w : @world (R_machine nz s)) x res vec mat m n l w' r,
  reach w -> wx w = Some x ->
  is_int (m_mode (wcfg w)) = false -> digital_only (wcfg w) = false -> adc_profile (wcfg w) = true ->
  adc_type (wcfg w) <> INF_ADC -> c2c_var (wcfg w) = false -> parasitics (wcfg w) = false ->
  dims_in (wcfg w) m n -> n <= int32_max -> all_first (input_in (wcfg w)) vec n ->
  step w (ExeMvm res vec mat m n l) = Ok (w', RRes 0 r) ->
  forall k, counter (lookup l (histo (wenv w'))) k =
    counter (lookup l (histo (wenv w))) k +
    hits (grid (wcfg w) (lookup l (histo (wenv w)))) (all_readings (wcfg w) x vec (Z.to_nat m) (Z.to_nat n)) k.
Proof. exact bins_filled. Qed.
Print Assumptions C73_bins.

(** C74: profiling does not disturb BNN_VI and TNN_I crossbars with ideal cells: on a new layer an MVM
    whose currents stay one bin below the end of the range succeeds with the accuracy of the converter. *)
Theorem C74_profiled_mvm :
  forall (nz : bool -> nat -> R) (s : bool) (w : @world (R_machine nz s)) x mat m n,
  reach w -> wx w = Some x -> digital_only (wcfg w) = false -> adc_profile (wcfg w) = true ->
  (m_mode (wcfg w) = BNN_VI \/ m_mode (wcfg w) = TNN_I) ->
  read_disturb (wcfg w) = false -> parasitics (wcfg w) = false -> c2c_var (wcfg w) = false ->
  fle (HRS_NOISE (wcfg w)) f0 = true -> fle (LRS_NOISE (wcfg w)) f0 = true ->
  adc_type (wcfg w) <> INF_ADC -> adc_calib_mode (wcfg w) = CAL_MAX ->
  2 <= n_levels (adc_type (wcfg w)) (resolution (wcfg w)) -> resolution (wcfg w) <= 30 ->
  (0 < HRS (wcfg w) < LRS (wcfg w))%R -> dims_in (wcfg w) m n -> m <= int32_max ->
  all_entries (weight_in (wcfg w)) mat m n -> sums_fit (wcfg w) n ->
  let dl := (LRS (wcfg w) - HRS (wcfg w))%R in let full := (IZR (N (wcfg w)) * dl)%R in let b := IZR (bin_size (wcfg w)) in
  (0 < b)%R -> (2 * full / b <= IZR (2 ^ 30))%R ->
  exists w1, step w (CpyMtrx mat m n) = Ok (w1, RCode 0) /\
    forall res vec mat' l, lookup l (histo (wenv w1)) = None -> all_first (input_in (wcfg w)) vec n ->
      (forall i, (i < Z.to_nat m)%nat -> (IZR (product mat vec (Z.to_nat n) i) * dl <= full - b)%R) ->
      room_for (accuracy (wcfg w)) (wcfg w) res m n ->
      exists w2 r, step w1 (ExeMvm res vec mat' m n l) = Ok (w2, RRes 0 r) /\
        within (accuracy (wcfg w)) r res mat vec (Z.to_nat m) (Z.to_nat n).
Proof. exact profiled_ok. Qed.
Print Assumptions C74_profiled_mvm.

(** A BNN_VI crossbar of 3 x 4 cells: three currents of 50, -50 and 50 land in bins 30 and 10 of 40. *)
Example C73_C74_example : forall (nz : bool -> nat -> R) (s : bool), let RM := R_machine nz s in
  exists w1 w2 w3 x r, step world0 (SetConfig (Parsed (@prof_doc RM))) = Ok (w1, RUnit) /\
  step w1 (CpyMtrx demo_mat 3 4) = Ok (w2, RCode 0) /\ wx w2 = Some x /\ reach w2 /\ wcfg w2 = prof_cfg /\
  step w2 (ExeMvm [1; 2; 3] [1; 1; 1; 1] [] 3 4 "L"%string) = Ok (w3, RRes 0 r) /\
  within (@accuracy nz s prof_cfg) r [1; 2; 3] demo_mat [1; 1; 1; 1] 3 4 /\
  all_readings (wcfg w2) x [1; 1; 1; 1] 3 4 = [50; -50; 50]%R /\ grid (wcfg w2) (lookup "L"%string (histo (wenv w2))) = (-100, 5)%R /\
  map (counter (lookup "L"%string (histo (wenv w3)))) [9; 10; 11; 30; 39]%nat = [0; 1; 0; 2; 0].
Proof. exact ex73. Qed.

(** C75: histograms are not reset by set_config, so an MVM that succeeds after loading a configuration in
    a fresh process can write behind the bins when another configuration was used before. *)
Theorem C75_reload_refuted :
  exists (pre : list (@call toy)) j h a w1 w2 rs1 rs2,
  run world0 (pre ++ SetConfig (Parsed j) :: h) = Ok (w1, rs1) /\ run world0 (SetConfig (Parsed j) :: h) = Ok (w2, rs2) /\
  reach w1 /\ reach w2 /\ step w1 a = UB OutOfBounds /\ exists w3 r, step w2 a = Ok (w3, r).
Proof. exact reload_refuted. Qed.
Print Assumptions C75_reload_refuted.

Example C75_example : runs_settled (pre75 ++ SetConfig (Parsed wide_doc) :: load75) = true /\
  code (step (after (SetConfig (Parsed wide_doc) :: load75)) mvm75) = 0.
Proof. split; apply ex75. Qed.

(** ** C87: bins of no or too large width
    One would expect the bin size of a profiled crossbar to be checked. *)
(** No check: a document that loads also loads with any other 32-bit bin size, which takes effect if it is used. *)
Theorem C87_accepted : forall (MC : Machine) (j j' : json) (b : Z),
  (forall k, k <> "adc_profile_bin_size"%string -> jat j' k = jat j k) ->
  jat j' "adc_profile_bin_size" = Some (JInt b) -> int_min <= b <= int_max ->
  forall w w1 r, step w (SetConfig (Parsed j)) = Ok (w1, r) ->
  exists w2, step w (SetConfig (Parsed j')) = Ok (w2, r) /\
    (digital_only (wcfg w1) = false -> adc_type (wcfg w1) <> INF_ADC -> adc_profile (wcfg w1) = true -> bin_size (wcfg w2) = b).
Proof. exact @load_any. Qed.
Print Assumptions C87_accepted.
Example C87_accepted_example : code (step world0 (SetConfig (Parsed doc87))) = 0 /\
  forall (MC : Machine) l b, let j' := JObj (jput l "adc_profile_bin_size" (JInt b)) in
  (forall k, k <> "adc_profile_bin_size"%string -> jat j' k = jat (JObj l) k) /\ jat j' "adc_profile_bin_size" = Some (JInt b).
Proof. exact (conj loads87 (fun MC l b => bin_put l (JInt b))). Qed.

(** With IEEE arithmetic and bins of width 0, whatever the libm functions and the noise, no MVM of a new layer is
    answered in the modes that profile. *)
Theorem C87_zero_bins_refuted : forall powf pow expf nz strict (w : @world (F_machine powf pow expf nz strict)) res vec mat m n l w' r,
  reach w -> digital_only (wcfg w) = false -> is_int (m_mode (wcfg w)) = false -> adc_profile (wcfg w) = true ->
  bin_size (wcfg w) = 0 -> lookup l (histo (wenv w)) = None -> 1 <= m ->
  step w (ExeMvm res vec mat m n l) <> Ok (w', RRes 0 r).
Proof. exact zero_bins. Qed.
Print Assumptions C87_zero_bins_refuted.

(** In exact arithmetic the same holds for negative widths and for widths above twice the range. *)
Theorem C87_bad_bins_refuted : forall nz s (w : @world (R_machine nz s)) res vec mat m n l w' r,
  reach w -> digital_only (wcfg w) = false -> is_int (m_mode (wcfg w)) = false -> adc_profile (wcfg w) = true ->
  adc_type (wcfg w) <> INF_ADC -> (0 <= span (wcfg w))%R ->
  bin_size (wcfg w) < 0 \/ (2 * span (wcfg w) < IZR (bin_size (wcfg w)))%R ->
  lookup l (histo (wenv w)) = None -> 1 <= m ->
  step w (ExeMvm res vec mat m n l) <> Ok (w', RRes 0 r).
Proof. exact bad_bins. Qed.
Print Assumptions C87_bad_bins_refuted.

(** All these sizes are accepted.  Outcome of the first MVM for six bin sizes in IEEE arithmetic (0: fine, 1: out of
    bounds, 4: conversion of an unrepresentable number), range 100; states that meet the hypotheses. *)
Example C87_example : map (fun b => code (step (wide_bins b) mul87)) [-1000; -1; 0; 1; 10; 1000] = [1; 4; 4; 0; 0; 1] /\
  (reach (wide_bins 0) /\ digital_only (wcfg (wide_bins 0)) = false /\ is_int (m_mode (wcfg (wide_bins 0))) = false /\
   adc_profile (wcfg (wide_bins 0)) = true /\ bin_size (wcfg (wide_bins 0)) = 0 /\
   lookup "L"%string (histo (wenv (wide_bins 0))) = None) /\
  forall nz s b, b = -1 \/ b = 1000 -> exists w : @world (R_machine nz s), reach w /\ digital_only (wcfg w) = false /\
    is_int (m_mode (wcfg w)) = false /\ adc_profile (wcfg w) = true /\ adc_type (wcfg w) <> INF_ADC /\
    (span (wcfg w) = 200)%R /\ bin_size (wcfg w) = b /\ lookup "L"%string (histo (wenv w)) = None.
Proof. exact (conj ex87 (conj reach87 hyps87)). Qed.
