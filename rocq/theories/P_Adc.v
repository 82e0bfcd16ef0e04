(** Property theorems C24, C25, C26, C27, C30, C58: the converters. *)
From Coq Require Import List ZArith Reals Bool String Permutation.
From RecordUpdate Require Import RecordSet.
From Flocq Require Import Core BinarySingleNaN.
From Verif Require Import Base Machine Json Config Histogram Adc Crossbar Api RMachine FloatMachine RSpec Demo LeakProps
  AdcProps FloatAdc Spec Reach ResProps OneLevel OneEx.
Import ListNotations RecordSetNotations.
Local Open Scope R_scope.

(** C24: in exact arithmetic a finite converter picks a level inside its range, within half a step of
    the current, and clips outside. *)
Theorem C24_transfer :
  forall (nz : bool -> nat -> R) (s : bool) (c : @config (R_machine nz s)) (ty : adc_ty) (l : string) (mn mx : R),
  ty <> INF_ADC -> (2 <= resolution c <= 30)%Z -> adc_range c ty l = Some (mn, mx) -> mn < mx ->
  exists a, adc_new c ty = Ok a /\
  forall x scale off, exists y,
    adc1 c a l x scale off = Ok (round_away (y * scale)) /\
    level_of (n_levels ty (resolution c)) mn mx y /\ mn <= y <= mx /\
    (mn <= x + off <= mx -> Rabs (y - (x + off)) <= step_size (n_levels ty (resolution c)) mn mx / 2) /\
    (x + off <= mn -> y = mn) /\ (mx <= x + off -> y = mx).
Proof. exact @transfer. Qed.
Print Assumptions C24_transfer.

(** Ranges of both types and of a calibrated layer. *)
Example C24_example : (2 <= resolution rcfg <= 30)%Z /\
  adc_range rcfg SYM_RANGE_ADC "x"%string = Some (- (4 * (30 - 5)), 4 * (30 - 5)) /\
  adc_range rcfg POS_RANGE_ONLY_ADC "x"%string = Some (0, 4 * 30) /\
  adc_range (rcfg <| adc_calib_mode := CAL_CALIB |>) POS_RANGE_ONLY_ADC "conv1"%string = Some (-7, 21) /\
  HRS rcfg < LRS rcfg /\ (0 < N rcfg)%Z /\ adc_calib_mode rcfg = CAL_MAX.
Proof. exact ex24. Qed.

(** C25 in exact arithmetic. *)
Theorem C25_monotone_exact :
  forall (nz : bool -> nat -> R) (s : bool) (c : @config (R_machine nz s)) (ty : adc_ty) (l : string) (mn mx : R)
    (a : adc) (x x' scale off : R),
  ty <> INF_ADC -> (2 <= resolution c <= 30)%Z -> adc_range c ty l = Some (mn, mx) -> mn < mx ->
  adc_new c ty = Ok a -> x <= x' -> 0 <= scale ->
  exists y y', adc1 c a l x scale off = Ok y /\ adc1 c a l x' scale off = Ok y' /\ y <= y'.
Proof. exact @monotone_exact. Qed.
Print Assumptions C25_monotone_exact.

(** C25 in IEEE single precision, infinities included; [usable] asks for finite bounds and a
    positive finite step. *)
Theorem C25_monotone_single :
  forall powf pow expf nz strict (c : @config (F_machine powf pow expf nz strict)) (a : adc) (l : string)
    (x x' scale off y y' : b32),
  (forall mn mx, get_currents c a l = Ok (mn, mx) -> a_ty a <> INF_ADC ->
     usable powf pow expf nz strict (a_steps a) mn mx) ->
  is_finite off = true -> is_finite scale = true -> @flt (F_machine powf pow expf nz strict) f0 scale = true ->
  adc1 c a l x scale off = Ok y -> adc1 c a l x' scale off = Ok y' ->
  @fle (F_machine powf pow expf nz strict) x x' = true -> @fle (F_machine powf pow expf nz strict) y y' = true.
Proof. exact monotone_single. Qed.
Print Assumptions C25_monotone_single.

(** The hypothesis on the range holds for an 8-bit symmetric converter. *)
Example C25_example : exists a, adc_new (wcfg w25) (adc_type (wcfg w25)) = Ok a /\ a_ty a = SYM_RANGE_ADC /\ a_steps a = 255%Z /\
  (forall mn mx, get_currents (wcfg w25) a ""%string = Ok (mn, mx) -> a_ty a <> INF_ADC ->
     usable (fun x _ => x) (fun x _ => x) (fun x => x) (fun _ _ => B754_zero false) false (a_steps a) mn mx).
Proof. exact ex25. Qed.

(** C26: zero is kept; the transfer function is odd away from the decision thresholds ... *)
Theorem C26_zero_and_odd :
  forall (nz : bool -> nat -> R) (s : bool) (c : @config (R_machine nz s)) (l : string) (a : adc),
  adc_calib_mode c = CAL_MAX -> (2 <= resolution c <= 30)%Z -> HRS c < LRS c -> (0 < N c)%Z ->
  adc_new c SYM_RANGE_ADC = Ok a ->
  (forall scale, adc1 c a l 0 scale 0 = Ok 0) /\
  (forall x scale,
    ~ threshold (2 ^ resolution c - 1) (- (IZR (N c) * (LRS c - HRS c))) (IZR (N c) * (LRS c - HRS c)) x ->
    exists y, adc1 c a l x scale 0 = Ok y /\ adc1 c a l (- x) scale 0 = Ok (- y)).
Proof. exact @sym_zero_odd. Qed.
Print Assumptions C26_zero_and_odd.

(** ... and not at the thresholds, for any configuration: half a step above zero rounds to one step,
    half a step below to zero. *)
Theorem C26_odd_at_thresholds_refuted :
  forall (nz : bool -> nat -> R) (s : bool) (c : @config (R_machine nz s)) (l : string) (a : adc),
  adc_calib_mode c = CAL_MAX -> (2 <= resolution c <= 30)%Z -> HRS c < LRS c -> (0 < N c)%Z ->
  adc_new c SYM_RANGE_ADC = Ok a ->
  exists x scale, adc1 c a l x scale 0 = Ok 1 /\ adc1 c a l (- x) scale 0 = Ok 0.
Proof. exact @not_odd. Qed.
Print Assumptions C26_odd_at_thresholds_refuted.

(** C27: converting the chosen level again gives the same output. *)
Theorem C27_idempotent :
  forall (nz : bool -> nat -> R) (s : bool) (c : @config (R_machine nz s)) (ty : adc_ty) (l : string) (mn mx : R)
    (a : adc) (x scale off : R),
  ty <> INF_ADC -> (2 <= resolution c <= 30)%Z -> adc_range c ty l = Some (mn, mx) -> mn < mx ->
  adc_new c ty = Ok a ->
  exists y, level_of (n_levels ty (resolution c)) mn mx y /\
    adc1 c a l x scale off = Ok (round_away (y * scale)) /\
    forall off', adc1 c a l (y - off') scale off' = Ok (round_away (y * scale)).
Proof. exact @idempotent. Qed.
Print Assumptions C27_idempotent.

Section Vector.
Local Open Scope nat_scope.
Local Open Scope out_scope.

(** C30: any order of the parallel conversion gives the elementwise result, failures included. *)
Theorem C30_any_schedule :
  forall (MC : Machine) (c : config) (a : adc) (l : string) (len : nat) (arr : list F) (scale off : F) (is : list nat),
  Permutation is (seq 0 len) -> len <= List.length arr ->
  adc_vec_sched c a l is arr scale off =
    (ys <- mapM (fun x => adc1 c a l x scale off) (firstn len arr) ;; Ok (ys ++ skipn len arr)%list).
Proof. exact @sched_any. Qed.
Print Assumptions C30_any_schedule.

Theorem C30_elementwise :
  forall (MC : Machine) (c : config) (a : adc) (l : string) (len : nat) (arr : list F) (scale off : F) (e : env),
  len <= List.length arr -> adc_profile c = false ->
  adc_vec c a l len arr scale off e =
    (v <- (ys <- mapM (fun x => adc1 c a l x scale off) (firstn len arr) ;; Ok (ys ++ skipn len arr)%list) ;; Ok (v, e)).
Proof. exact @vec_elementwise. Qed.
Print Assumptions C30_elementwise.

(** Profiling does not change the converted values. *)
Theorem C30_profiled :
  forall (MC : Machine) (c : config) (a : adc) (l : string) (len : nat) (arr : list F) (scale off : F) (e : env)
    (v : list F) (e' : env),
  adc_vec c a l len arr scale off e = Ok (v, e') ->
  (ys <- mapM (fun x => adc1 c a l x scale off) (firstn len arr) ;; Ok (ys ++ skipn len arr)%list) = Ok v.
Proof. exact @vec_profiled. Qed.
Print Assumptions C30_profiled.

Theorem C30_missing_layer :
  forall (MC : Machine) (c : config) (a : adc) (l : string) (len : nat) (arr : list F) (scale off : F),
  a_ty a <> INF_ADC -> adc_calib_mode c = CAL_CALIB -> lookup l (adc_calib_dict c) = None ->
  0 < len -> len <= List.length arr ->
  (ys <- mapM (fun x => adc1 c a l x scale off) (firstn len arr) ;; Ok (ys ++ skipn len arr)%list) = Died.
Proof. exact @missing_layer. Qed.
Print Assumptions C30_missing_layer.

Example C30_example : Permutation [2; 0; 1] (seq 0 3) /\ lookup "b"%string [("a"%string, 1)] = None.
Proof.
  split; [|reflexivity]. apply Permutation_sym. apply perm_trans with [0; 2; 1].
  - apply perm_skip, perm_swap.
  - apply perm_swap.
Qed.
End Vector.

Local Open Scope Z_scope.

(** C58: a resolution above 30 is accepted by the configuration code and then undefined behaviour
    while the crossbar is built. *)
Theorem C58_high_resolution :
  forall powf pow expf nz strict (w : @world (F_machine powf pow expf nz strict))
    (j : @json (F_machine powf pow expf nz strict)) (c : @config (F_machine powf pow expf nz strict)),
  verbose (wcfg w) = false -> apply_config j (wcfg w) = Ok c -> 30 < resolution c ->
  step w (SetConfig (Parsed j)) = UB FloatToInt.
Proof. exact high_resolution. Qed.
Print Assumptions C58_high_resolution.

(** The symmetric converter with resolution 1 and the positive one with resolution 0 have a single
    level.  Both are accepted.  In every state that can be reached with them, no multiplication of a
    nonempty matrix returns, whatever the mode, the matrix, the input, the noise and the options. *)
Theorem C58_one_level_refuted :
  forall powf pow expf nz strict (w : @world (F_machine powf pow expf nz strict)) (a : call),
  reach w -> digital_only (wcfg w) = false ->
  (adc_type (wcfg w) = SYM_RANGE_ADC /\ resolution (wcfg w) = 1 \/ adc_type (wcfg w) = POS_RANGE_ONLY_ADC /\ resolution (wcfg w) = 0) ->
  (is_int (m_mode (wcfg w)) = true -> SPLIT (wcfg w) <> []) ->
  (exists res vec mat m n, 1 <= m /\ 1 <= n /\ (a = PyMvm res vec mat m n \/ exists l, a = ExeMvm res vec mat m n l)) ->
  forall w' r, step w a <> Ok (w', RRes 0 r).
Proof. exact one_level_mvm. Qed.
Print Assumptions C58_one_level_refuted.

(** Three such states: two binary modes and an integer mode. *)
Example C58_one_level_example : one_of (after [SetConfig (Parsed (fin_doc 1))]) /\
  one_of (after [SetConfig (Parsed (one_doc "I_DIFF_W_DIFF_1XB" [2; 2] "SYM_RANGE_ADC" 1))]) /\
  one_of (after [SetConfig (Parsed (one_doc "BNN_III" [] "POS_RANGE_ONLY_ADC" 0))]).
Proof. exact ex58_one. Qed.

(** The same calls with more levels return (0); with one level they end in an undefined conversion (4). *)
Example C58_one_level_codes :
  map (fun r => code (run world0 (SetConfig (Parsed (fin_doc r)) :: use22))) [1; 2; 8] = [4; 0; 0] /\
  map (fun r => code (run world0 (SetConfig (Parsed (one_doc "I_DIFF_W_DIFF_1XB" [2; 2] "SYM_RANGE_ADC" r)) :: int_ask))) [1; 2; 8] = [4; 0; 0] /\
  map (fun r => code (run world0 (SetConfig (Parsed (one_doc "BNN_III" [] "POS_RANGE_ONLY_ADC" r)) :: use22))) [0; 1; 8] = [4; 0; 0].
Proof. exact ex58_codes. Qed.

(** A document with resolution 1 whose first multiplication is undefined behaviour. *)
Theorem C58_resolution_one_refuted :
  exists w rs, run world0 [SetConfig (Parsed (fin_doc 1)); CpyMtrx [1; -1; 1; 1] 2 2] = Ok (w, rs) /\
  step w (ExeMvm [0; 0] [1; -1] [] 2 2 ""%string) = UB FloatToInt.
Proof. exact refuted58. Qed.
Print Assumptions C58_resolution_one_refuted.

(** 4 is an undefined conversion, 0 a normal return. *)
Example C58_example : code (run world0 [SetConfig (Parsed (fin_doc 31))]) = 4 /\
  code (apply_config (fin_doc 31) (config0 : @config toy)) = 0 /\
  code (run world0 [SetConfig (Parsed (fin_doc 1))]) = 0 /\
  code (run world0 (SetConfig (Parsed (fin_doc 1)) :: use22)) = 4.
Proof. exact ex58. Qed.
