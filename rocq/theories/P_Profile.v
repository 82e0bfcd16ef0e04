(** Property theorems C79 and C80: the report of the converter input histograms. *)
From Coq Require Import List ZArith Reals Bool String Permutation.
From RecordUpdate Require Import RecordSet.
From Flocq Require Import Core BinarySingleNaN.
From Verif Require Import Base Machine Json Config Histogram Profile Adc Crossbar Api RMachine FloatMachine RSpec Reach Spec Demo
  AnaSpec HistSpec HistEx HistOk ProfSpec ProfProps ProfMean ProfEx ProfFloat.
Import ListNotations RecordSetNotations.
Local Open Scope R_scope.

(** C79: in exact arithmetic a report changes nothing and gives for every layer the counters under the
    middles of their bins, the number of samples, the mean of the middles and a variance whose middles
    lost their fraction. *)
Theorem C79_report :
  forall (nz : bool -> nat -> R) (s : bool) (w w' : @world (R_machine nz s)) (hs : hists) (t : string -> nat -> rtree)
    (rs : list (string * summary)),
  reach w -> step w GetProfile = Ok (w', RHists hs) ->
  (forall l h, lookup l hs = Some h -> schedule_for (nbins h) (t l)) -> profile_report t hs = Ok rs ->
  w' = w /\ map fst rs = map fst (histo (wenv w)) /\
  forall l h, lookup l (histo (wenv w)) = Some h -> 0 < h_bin h -> (0 < total (h_data h))%Z ->
  exists r, lookup l rs = Some r /\
    s_hist r = map (fun k => (middle h k, count h k)) (seq 0 (nbins h)) /\
    s_samples r = total (h_data h) /\ s_mean r = mean h /\ s_var r = cut_variance h.
Proof. exact report_ok. Qed.
Print Assumptions C79_report.

(** There is a report when all middles fit an int32_t. *)
Theorem C79_report_defined :
  forall (nz : bool -> nat -> R) (s : bool) (w : @world (R_machine nz s)) (t : string -> nat -> rtree), reach w ->
  (forall l h, In (l, h) (histo (wenv w)) -> schedule_for (nbins h) (t l) /\
    forall k, (k < nbins h)%nat -> fits_int32 (middle h k)) ->
  exists rs, profile_report t (histo (wenv w)) = Ok rs.
Proof. exact report_defined. Qed.
Print Assumptions C79_report_defined.

(** Otherwise a conversion is undefined. *)
Theorem C79_report_undefined :
  forall (nz : bool -> nat -> R) (s : bool) (w : @world (R_machine nz s)) (t : string -> nat -> rtree) (l : string) (h : hist) (k : nat),
  reach w -> In (l, h) (histo (wenv w)) -> (k < nbins h)%nat -> ~ fits_int32 (middle h k) ->
  profile_report t (histo (wenv w)) = UB FloatToInt.
Proof. exact report_undefined. Qed.
Print Assumptions C79_report_undefined.

(** The same in binary32 for a reachable state. *)
Theorem C79_report_undefined_refuted :
  exists w : @world toy, reach w /\ exists l h, lookup l (histo (wenv w)) = Some h /\
  schedule_for (List.length (h_data h)) (left60 l) /\ (0 < total (h_data h))%Z /\
  profile_report left60 (histo (wenv w)) = UB FloatToInt.
Proof. exact huge_undefined. Qed.
Print Assumptions C79_report_undefined_refuted.

(** The variance is that of the middles for even bins on a whole-numbered range. *)
Theorem C79_variance :
  forall (nz : bool -> nat -> R) (s : bool) (h : @hist (R_machine nz s)) (a z : Z),
  h_min h = IZR a -> h_bin h = IZR (2 * z) -> cut_variance h = variance h.
Proof. exact even_bins. Qed.
Print Assumptions C79_variance.

(** It is not for others. *)
Theorem C79_variance_refuted :
  forall (nz : bool -> nat -> R) (s : bool),
  exists (w : @world (R_machine nz s)) l h t r, reach w /\ lookup l (histo (wenv w)) = Some h /\
  0 < h_bin h /\ (0 < total (h_data h))%Z /\ schedule_for (nbins h) t /\ hist_report t h = Ok r /\ s_var r <> variance h.
Proof. exact variance_off. Qed.
Print Assumptions C79_variance_refuted.

(** In binary32 labels can coincide, and all but the first of their counters are then left out. *)
Theorem C79_lost_sample_refuted :
  exists (mn mx b v : @F toy) h0 h t r, hist_new mn mx b = Ok h0 /\ hist_update [v] h0 = Ok h /\
  schedule_for (List.length (h_data h)) t /\ hist_report t h = Ok r /\ (s_samples r = 1 /\ total (map snd (s_hist r)) = 0)%Z.
Proof. exact lost_sample. Qed.
Print Assumptions C79_lost_sample_refuted.

(** An MVM of no rows makes a layer whose mean is not a number. *)
Theorem C79_empty_mean_refuted :
  exists w : @world toy, reach w /\ exists l h r, lookup l (histo (wenv w)) = Some h /\
  schedule_for (List.length (h_data h)) (left60 l) /\
  profile_report left60 (histo (wenv w)) = Ok [(l, r)] /\ s_samples r = 0%Z /\ feq (s_mean r) (s_mean r) = false.
Proof. exact empty_mean. Qed.
Print Assumptions C79_empty_mean_refuted.

(** C80: on a new layer the reported mean is above the average of the converter input currents, by at most one bin. *)
Theorem C80_mean_bias :
  forall (nz : bool -> nat -> R) (s : bool) (w : @world (R_machine nz s)) x res vec mat m n l w' r,
  reach w -> wx w = Some x ->
  is_int (m_mode (wcfg w)) = false -> digital_only (wcfg w) = false -> adc_profile (wcfg w) = true ->
  adc_type (wcfg w) <> INF_ADC -> c2c_var (wcfg w) = false -> parasitics (wcfg w) = false ->
  dims_in (wcfg w) m n -> (0 < m)%Z -> (n <= int32_max)%Z -> all_first (input_in (wcfg w)) vec n ->
  (0 < bin_size (wcfg w))%Z -> lookup l (histo (wenv w)) = None ->
  step w (ExeMvm res vec mat m n l) = Ok (w', RRes 0 r) ->
  let vs := all_readings (wcfg w) x vec (Z.to_nat m) (Z.to_nat n) in
  let average := fold_right Rplus 0 vs / INR (List.length vs) in
  exists h, lookup l (histo (wenv w')) = Some h /\
    average < mean h <= average + IZR (bin_size (wcfg w)).
Proof. exact mean_bias. Qed.
Print Assumptions C80_mean_bias.

(** A whole bin is attained: the mean of bin middles is not within half a bin of the average. *)
Theorem C80_half_bin_refuted :
  forall (nz : bool -> nat -> R) (s : bool),
  exists (w : @world (R_machine nz s)) x res vec mat m n l w' r h, reach w /\ wx w = Some x /\
  is_int (m_mode (wcfg w)) = false /\ digital_only (wcfg w) = false /\ adc_profile (wcfg w) = true /\
  adc_type (wcfg w) <> INF_ADC /\ c2c_var (wcfg w) = false /\ parasitics (wcfg w) = false /\
  dims_in (wcfg w) m n /\ (0 < m)%Z /\ (n <= int32_max)%Z /\ all_first (input_in (wcfg w)) vec n /\
  (0 < bin_size (wcfg w))%Z /\ lookup l (histo (wenv w)) = None /\
  step w (ExeMvm res vec mat m n l) = Ok (w', RRes 0 r) /\ lookup l (histo (wenv w')) = Some h /\
  let vs := all_readings (wcfg w) x vec (Z.to_nat m) (Z.to_nat n) in
  mean h = fold_right Rplus 0 vs / INR (List.length vs) + IZR (bin_size (wcfg w)).
Proof. exact whole_bin_off. Qed.
Print Assumptions C80_half_bin_refuted.

(** Three samples of 52.5 and -47.5 in bins of 5 on -100 .. 100, recorded by an MVM and reported as such. *)
Example C79_example : forall (nz : bool -> nat -> R) (s : bool),
  exists (w : @world (R_machine nz s)) l h t r, reach w /\ lookup l (histo (wenv w)) = Some h /\
  0 < h_bin h /\ (0 < total (h_data h))%Z /\ schedule_for (nbins h) t /\ hist_report t h = Ok r /\
  (forall k, (k < nbins h)%nat -> fits_int32 (middle h k)) /\ nbins h = 40%nat /\ s_samples r = 3%Z /\ s_mean r = 115 / 6.
Proof. exact ex79. Qed.

(** Middles beyond 2^31. *)
Example C79_undefined_example : map (fun p => (List.length (h_data (snd p)), total (h_data (snd p)))) (histo (wenv (after huge))) = [(60%nat, 4%Z)].
Proof. vm_compute. reflexivity. Qed.
