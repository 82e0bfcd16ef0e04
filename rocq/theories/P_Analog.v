(** Property theorems C21, C22, C23, C28, C29, C64: analog MVMs without wire resistance. *)
From Coq Require Import List ZArith Reals Bool String.
From RecordUpdate Require Import RecordSet.
From Flocq Require Import Core BinarySingleNaN.
From Verif Require Import Base Machine Json Config Mapper Crossbar Api Reach RMachine FloatMachine RSpec Spec Demo
  AnaSpec AnaProps AnaEx AnaClip AnaFloat.
Import ListNotations RecordSetNotations.
Local Open Scope R_scope.

(** C21: with the ideal converter and without non-idealities, exact arithmetic gives the integer
    product, in every mode, after every write and every further history of quiet calls.  [strict]
    machines (left shifts of negative numbers are undefined) are excluded for I_OFFS_W_DIFF, C53. *)
Theorem C21_ideal_exact : forall (nz : bool -> nat -> R) (s : bool) (w : @world (R_machine nz s)) x mat m n,
  reach w -> wx w = Some x -> ideal_cells (wcfg w) x -> adc_type (wcfg w) = INF_ADC ->
  @HRS (R_machine nz s) (wcfg w) <> @LRS (R_machine nz s) (wcfg w) -> (m_mode (wcfg w) = I_OFFS_W_DIFF -> s = false) ->
  split_covers (wcfg w) -> slices_wide (wcfg w) -> dims_in (wcfg w) m n ->
  all_entries (weight_in (wcfg w)) mat m n -> sums_fit (wcfg w) n ->
  exists w1, step w (CpyMtrx mat m n) = Ok (w1, RCode 0) /\
    forall h w2 rs res vec mat' l, Forall quiet h -> run w1 h = Ok (w2, rs) -> always no_variation w1 h ->
      widths_fit (wcfg w2) -> all_first (input_in (wcfg w2)) vec n -> room (wcfg w2) res m n ->
      exists w3, step w2 (ExeMvm res vec mat' m n l) =
        Ok (w3, RRes 0 (plus_product res mat vec (Z.to_nat m) (Z.to_nat n))).
Proof. exact ideal_exact. Qed.
Print Assumptions C21_ideal_exact.

(** All 17 modes: a 3x4 matrix and two MVMs. *)
Example C21_example : forall (nz : bool -> nat -> R) (s : bool) name md,
  In (name, md) mode_names -> (md = I_OFFS_W_DIFF -> s = false) ->
  exists w, run world0 [SetConfig (Parsed (@demo_doc (R_machine nz s) md name "INF_ADC" 8)); CpyMtrx demo_mat 3 4; demo_mvm nz s md; demo_mvm nz s md] =
    Ok (w, [RUnit; RCode 0; RRes 0 (demo_sum md); RRes 0 (demo_sum md)]).
Proof. exact ex21. Qed.

(** C28: with MAX calibration no current leaves the range of the converter: neither the signed sums
    of cell differences (SYM_RANGE_ADC) nor the sums of cell currents (POS_RANGE_ONLY_ADC). *)
Theorem C28_in_range : forall (nz : bool -> nat -> R) (s : bool) (w : @world (R_machine nz s)) x mat m n,
  reach w -> wx w = Some x -> ideal_cells (wcfg w) x ->
  adc_type (wcfg w) <> INF_ADC -> adc_calib_mode (wcfg w) = CAL_MAX ->
  0 < @HRS (R_machine nz s) (wcfg w) <= @LRS (R_machine nz s) (wcfg w) ->
  split_covers (wcfg w) -> dims_in (wcfg w) m n ->
  all_entries (weight_in (wcfg w)) mat m n -> sums_fit (wcfg w) n ->
  exists w1, step w (CpyMtrx mat m n) = Ok (w1, RCode 0) /\
    forall h w2 rs l, Forall quiet h -> run w1 h = Ok (w2, rs) -> always no_variation w1 h ->
      exists x2 mn mx, wx w2 = Some x2 /\ adc_range (wcfg w2) (adc_type (wcfg w2)) l = Some (mn, mx) /\
      forall i q, let k := (if is_int (m_mode (wcfg w2)) then List.length (SPLIT (wcfg w2)) else 1)%nat in
        (i < Z.to_nat m)%nat -> (q < k)%nat ->
        (adc_type (wcfg w2) = SYM_RANGE_ADC -> forall a, (forall j, In (a j) [-1; 0; 1]) ->
           mn <= diff_current x2 (i * k + q) (Z.to_nat n) a <= mx) /\
        (adc_type (wcfg w2) = POS_RANGE_ONLY_ADC -> forall a b, (forall j, a j && b j = false) ->
           (In (m_mode (wcfg w2)) [I_UINT_W_OFFS; BNN_III; BNN_IV] -> forall j, b j = false) ->
           mn <= single_current x2 (i * k + q) (Z.to_nat n) a b <= mx).
Proof. exact in_range. Qed.
Print Assumptions C28_in_range.

(** C28: so every result of a mode other than TNN_IV and TNN_V is within the converter's own accuracy
    of the integer product; [accuracy] has no term for clipping. *)
Theorem C28_never_clips : forall (nz : bool -> nat -> R) (s : bool) (w : @world (R_machine nz s)) x mat m n,
  reach w -> wx w = Some x -> ideal_cells (wcfg w) x ->
  adc_type (wcfg w) <> INF_ADC -> adc_calib_mode (wcfg w) = CAL_MAX ->
  (2 <= n_levels (adc_type (wcfg w)) (resolution (wcfg w)))%Z -> (resolution (wcfg w) <= 30)%Z ->
  m_mode (wcfg w) <> TNN_IV -> m_mode (wcfg w) <> TNN_V ->
  0 < @HRS (R_machine nz s) (wcfg w) < @LRS (R_machine nz s) (wcfg w) -> (m_mode (wcfg w) = I_OFFS_W_DIFF -> s = false) ->
  split_covers (wcfg w) -> slices_wide (wcfg w) -> dims_in (wcfg w) m n ->
  all_entries (weight_in (wcfg w)) mat m n -> sums_fit (wcfg w) n ->
  exists w1, step w (CpyMtrx mat m n) = Ok (w1, RCode 0) /\
    forall h w2 rs res vec mat' l, Forall quiet h -> run w1 h = Ok (w2, rs) -> always no_variation w1 h ->
      widths_fit (wcfg w2) -> all_first (input_in (wcfg w2)) vec n -> room_for (accuracy (wcfg w2)) (wcfg w2) res m n ->
      exists w3 r, step w2 (ExeMvm res vec mat' m n l) = Ok (w3, RRes 0 r) /\
        within (accuracy (wcfg w2)) r res mat vec (Z.to_nat m) (Z.to_nat n).
Proof. exact never_clips. Qed.
Print Assumptions C28_never_clips.

(** 8-bit converters in all the modes, with the converters they accept. *)
Example C28_example : forall (nz : bool -> nat -> R) (s : bool) name md ty,
  In (name, md) mode_names -> (md = I_OFFS_W_DIFF -> s = false) -> md <> TNN_IV -> md <> TNN_V ->
  adc_ok md ty = true -> ty <> INF_ADC ->
  exists w r, run world0 [SetConfig (Parsed (@demo_doc (R_machine nz s) md name (adc_name ty) 8)); CpyMtrx demo_mat 3 4; demo_mvm nz s md] =
    Ok (w, [RUnit; RCode 0; RRes 0 r]) /\ within (@accuracy nz s (demo_cfg md ty 8)) r [1; 2; 3]%Z demo_mat (demo_vec md) 3 4.
Proof. exact ex28. Qed.

(** C64: when half a converter step is worth less than half a unit of the result, a finite converter
    gives the integer product exactly. *)
Theorem C64_fine_exact : forall (nz : bool -> nat -> R) (s : bool) (w : @world (R_machine nz s)) x mat m n,
  reach w -> wx w = Some x -> ideal_cells (wcfg w) x ->
  adc_type (wcfg w) <> INF_ADC -> adc_calib_mode (wcfg w) = CAL_MAX ->
  (2 <= n_levels (adc_type (wcfg w)) (resolution (wcfg w)))%Z -> (resolution (wcfg w) <= 30)%Z ->
  ~ In (m_mode (wcfg w)) [I_UINT_W_OFFS; BNN_III; BNN_IV; TNN_IV; TNN_V] ->
  0 < @HRS (R_machine nz s) (wcfg w) < @LRS (R_machine nz s) (wcfg w) -> (m_mode (wcfg w) = I_OFFS_W_DIFF -> s = false) ->
  split_covers (wcfg w) -> slices_wide (wcfg w) -> dims_in (wcfg w) m n ->
  all_entries (weight_in (wcfg w)) mat m n -> sums_fit (wcfg w) n ->
  exists w1, step w (CpyMtrx mat m n) = Ok (w1, RCode 0) /\
    forall h w2 rs res vec mat' l, Forall quiet h -> run w1 h = Ok (w2, rs) -> always no_variation w1 h ->
      Forall (fun g => IZR g * half_step (wcfg w2) < / 2) (gains (wcfg w2)) ->
      widths_fit (wcfg w2) -> all_first (input_in (wcfg w2)) vec n -> room (wcfg w2) res m n ->
      exists w3, step w2 (ExeMvm res vec mat' m n l) =
        Ok (w3, RRes 0 (plus_product res mat vec (Z.to_nat m) (Z.to_nat n))).
Proof. exact fine_exact. Qed.
Print Assumptions C64_fine_exact.

(** 12-bit converters in all the modes, two MVMs. *)
Example C64_example : forall (nz : bool -> nat -> R) (s : bool) name md ty,
  In (name, md) mode_names -> (md = I_OFFS_W_DIFF -> s = false) ->
  ~ In md [I_UINT_W_OFFS; BNN_III; BNN_IV; TNN_IV; TNN_V] -> adc_ok md ty = true -> ty <> INF_ADC ->
  exists w, run world0 [SetConfig (Parsed (@demo_doc (R_machine nz s) md name (adc_name ty) 12)); CpyMtrx demo_mat 3 4; demo_mvm nz s md; demo_mvm nz s md] =
    Ok (w, [RUnit; RCode 0; RRes 0 (demo_sum md); RRes 0 (demo_sum md)]).
Proof. exact ex64. Qed.

(** C22: expectation refuted.  Single precision, ideal converter, HRS = 1, LRS = 42, weight 1,
    input 1: the result is 0.  For every libm, every noise source and in seven modes. *)
Theorem C22_off_by_one_refuted :
  forall powf pow expf nz strict name md,
  In (name, md) [("BNN_I", BNN_I); ("BNN_III", BNN_III); ("BNN_V", BNN_V); ("BNN_VI", BNN_VI); ("TNN_I", TNN_I);
     ("TNN_II", TNN_II); ("TNN_III", TNN_III)]%string ->
  @answers (F_machine powf pow expf nz strict) world0
    [SetConfig (Parsed (plain_doc name md 1 42)); CpyMtrx [1]%Z 1 1; ExeMvm [0]%Z [1]%Z [] 1 1 ""%string]
  = Some [[]; [0]; [0; 0]]%Z /\ plus_product [0]%Z [1]%Z [1]%Z 1 1 = [1]%Z.
Proof. exact off_by_one. Qed.
Print Assumptions C22_off_by_one_refuted.

(** C23: expectation refuted.  The matrix (1, -1) times (1, 1) contributes zero, but 2^24 + 1
    becomes 2^24 in every mode except I_UINT_W_OFFS. *)
Theorem C23_loses_bits_refuted :
  forall powf pow expf nz strict name md, In (name, md) mode_names -> md <> I_UINT_W_OFFS ->
  @answers (F_machine powf pow expf nz strict) world0
    [SetConfig (Parsed (plain_doc name md 5 30)); CpyMtrx [1; -1]%Z 1 2; ExeMvm [16777217]%Z [1; 1]%Z [] 1 2 ""%string]
  = Some [[]; [0]; [0; 16777216]]%Z /\
  plus_product [16777217]%Z [1; -1]%Z [1; 1]%Z 1 2 = [16777217]%Z.
Proof. exact loses_bits. Qed.
Print Assumptions C23_loses_bits_refuted.

(** C23: and INT32_MAX makes the conversion back to integer undefined. *)
Theorem C23_undefined_refuted :
  forall powf pow expf nz strict name md, In (name, md) mode_names -> md <> I_UINT_W_OFFS ->
  @run (F_machine powf pow expf nz strict) world0
    [SetConfig (Parsed (plain_doc name md 5 30)); CpyMtrx [1; -1]%Z 1 2; ExeMvm [2147483647]%Z [1; 1]%Z [] 1 2 ""%string]
  = UB FloatToInt.
Proof. exact breaks_conversion. Qed.
Print Assumptions C23_undefined_refuted.

(** C29: expectation refuted.  HRS = 20, LRS = 30, one row of four zero weights, all inputs one:
    at every resolution TNN_IV ([v] = false) answers a negative number and TNN_V a positive one,
    though the product is 0. *)
Theorem C29_clips_refuted :
  forall (nz : bool -> nat -> R) (s v : bool) (r : Z), (1 <= r <= 30)%Z ->
  exists w z,
    @run (R_machine nz s) world0
      [SetConfig (Parsed (clip_doc v r)); CpyMtrx [0; 0; 0; 0]%Z 1 4; ExeMvm [0]%Z [1; 1; 1; 1]%Z [] 1 4 ""%string]
    = Ok (w, [RUnit; RCode 0; RRes 0 [z]]) /\
    (if v then 0 < z else z < 0)%Z /\ plus_product [0]%Z [0; 0; 0; 0]%Z [1; 1; 1; 1]%Z 1 4 = [0]%Z.
Proof. exact clip_wrong. Qed.
Print Assumptions C29_clips_refuted.

(** C29 in single precision with 8 bits: -4 and 12 instead of 0. *)
Theorem C29_clips_single_refuted :
  forall powf pow expf nz strict (v : bool),
  @answers (F_machine powf pow expf nz strict) world0
    [SetConfig (Parsed (clip_doc v 8)); CpyMtrx [0; 0; 0; 0]%Z 1 4; ExeMvm [0]%Z [1; 1; 1; 1]%Z [] 1 4 ""%string]
  = Some [[]; [0]; [0; if v then 12 else -4]]%Z.
Proof. exact clip_8. Qed.
Print Assumptions C29_clips_single_refuted.
