(** Property theorems C31, C32, C33, C34: device and cycle noise. *)
From Coq Require Import List ZArith Reals Bool String.
From RecordUpdate Require Import RecordSet.
From Flocq Require Import Core BinarySingleNaN.
From Verif Require Import Base Machine Json Config Adc Mapper Crossbar Api RMachine FloatMachine Reach Spec Demo
  NoiseProps NoiseReal D2dProps NoiseFloat LostReal LostEx.
Import ListNotations RecordSetNotations.
Local Open Scope Z_scope.

(** C31, exact arithmetic: no current of a reachable analog binary or ternary crossbar is negative,
    whatever the noise samples, the sigmas and the read disturb settings. *)
Theorem C31_nonneg_exact :
  forall (nz : bool -> nat -> R) (s : bool) (w : @world (R_machine nz s)) (x : @xbar (R_machine nz s)),
  reach w -> wx w = Some x -> digital_only (wcfg w) = false -> is_int (m_mode (wcfg w)) = false ->
  forall i j, (0 <= current (ia_p (xm x)) i j)%R /\ (0 <= current (ia_m (xm x)) i j)%R.
Proof. exact reach_nonneg. Qed.
Print Assumptions C31_nonneg_exact.

(** C31, IEEE single precision: no current stored by a write is negative (it may be NaN if HRS or LRS
    overflow).  BNN_III and BNN_IV do not write the second array. *)
Theorem C31_nonneg_single :
  forall powf pow expf nz strict (w : @world (F_machine powf pow expf nz strict)) a w' r x' i j,
  reach w -> digital_only (wcfg w) = false -> is_int (m_mode (wcfg w)) = false ->
  step w a = Ok (w', r) -> wrote a r = true -> wx w' = Some x' -> covers a i j = true ->
  flt (current (ia_p (xm x')) i j) f0 = false /\
  (m_mode (wcfg w) <> BNN_III -> m_mode (wcfg w) <> BNN_IV -> flt (current (ia_m (xm x')) i j) f0 = false).
Proof. exact float_nonneg. Qed.
Print Assumptions C31_nonneg_single.

(** C31, exact arithmetic, zero sigma: every written cell carries exactly LRS or HRS and the random
    generator is not consulted. *)
Theorem C31_quiet_exact :
  forall (nz : bool -> nat -> R) (s : bool) (w : @world (R_machine nz s)) a w' r x',
  reach w -> digital_only (wcfg w) = false -> is_int (m_mode (wcfg w)) = false ->
  step w a = Ok (w', r) -> wrote a r = true -> wx w' = Some x' ->
  (HRS_NOISE (wcfg w) <= 0)%R -> (LRS_NOISE (wcfg w) <= 0)%R ->
  wenv w' = wenv w /\
  forall i j, covers a i j = true ->
    current (ia_p (xm x')) i j = (if cell (gd_p (xm x')) i j =? 1 then LRS (wcfg w) else HRS (wcfg w)) /\
    (m_mode (wcfg w) <> BNN_III -> m_mode (wcfg w) <> BNN_IV ->
     current (ia_m (xm x')) i j = (if cell (gd_m (xm x')) i j =? 1 then LRS (wcfg w) else HRS (wcfg w))).
Proof. exact write_exact. Qed.
Print Assumptions C31_quiet_exact.

(** C31, any arithmetic, zero sigma: the generator is not consulted and every written current is
    [gd * (LRS - HRS) + HRS] of its own cell. *)
Theorem C31_quiet :
  forall (MC : Machine) (w : world) (a : call) (w' : world) (r : result) (x' : xbar),
  reach w -> digital_only (wcfg w) = false -> is_int (m_mode (wcfg w)) = false ->
  step w a = Ok (w', r) -> wrote a r = true -> wx w' = Some x' ->
  fle (HRS_NOISE (wcfg w)) f0 = true -> fle (LRS_NOISE (wcfg w)) f0 = true ->
  let programmed := fun g => fadd (fmul (f_of_Z g) (fsub (LRS (wcfg w)) (HRS (wcfg w)))) (HRS (wcfg w)) in
  wenv w' = wenv w /\
  forall i j, covers a i j = true ->
    current (ia_p (xm x')) i j = programmed (cell (gd_p (xm x')) i j) /\
    (m_mode (wcfg w) <> BNN_III -> m_mode (wcfg w) <> BNN_IV ->
     current (ia_m (xm x')) i j = programmed (cell (gd_m (xm x')) i j)).
Proof. exact @write_quiet. Qed.
Print Assumptions C31_quiet.

(** In binary32 the programmed LRS current can differ from LRS even without noise. *)
Theorem C31_lrs_rounded_refuted :
  exists (w : @world toy) (x : @xbar toy), reach w /\ wx w = Some x /\
  fle (HRS_NOISE (wcfg w)) f0 = true /\ fle (LRS_NOISE (wcfg w)) f0 = true /\
  cell (gd_p (xm x)) 0 0 = 1 /\ feq (current (ia_p (xm x)) 0 0) (LRS (wcfg w)) = false.
Proof. exact lrs_rounded. Qed.
Print Assumptions C31_lrs_rounded_refuted.

(** HRS 5, LRS 30 and samples 2: the written currents are visibly noisy. *)
Example C31_example : @runs_settled loud loud_hist = true /\ @loud_now loud (after loud_hist) = [32; 7; 7; 32].
Proof. split; apply ex33. Qed.

(** C32: documents that differ in d2d_var only (present, absent, true or false) give the same answers
    to every following sequence of calls, failures included. *)
Theorem C32_d2d_ignored_refuted :
  forall (MC : Machine) (w : world) (j j' : json) (c : config) (h : list call),
  (forall k, k <> "d2d_var"%string -> jat j' k = jat j k) ->
  (forall v, jat j' "d2d_var" = Some v -> exists b, v = JBool b) ->
  apply_config j (wcfg w) = Ok c -> is_int (m_mode c) = false ->
  Forall no_config h ->
  seen (run w (SetConfig (Parsed j) :: h)) = seen (run w (SetConfig (Parsed j') :: h)).
Proof. exact @d2d_nothing. Qed.
Print Assumptions C32_d2d_ignored_refuted.

(** With the noisy machine of the C31 example. *)
Example C32_example : @answers loud world0 (loud_hist ++ loud_quiet) = Some [[]; [0]; [0; 1; -1]; [0; 1]] /\
  @answers loud world0 (SetConfig (Parsed (puts loud_doc [("d2d_var", JBool false)]%string)) :: tl loud_hist ++ loud_quiet) =
    Some [[]; [0]; [0; 1; -1]; [0; 1]].
Proof. exact ex32. Qed.

(** C33: MVMs, getters and harmless updates leave all currents as the last write programmed them. *)
Theorem C33_temporary :
  forall (MC : Machine) (h : list call) (w w' : world) (rs : list result) (x : xbar),
  reach w -> wx w = Some x -> is_int (m_mode (wcfg w)) = false -> read_disturb (wcfg w) = false ->
  Forall quiet h -> run w h = Ok (w', rs) ->
  exists x', wx w' = Some x' /\ ia_p (xm x') = ia_p (xm x) /\ ia_m (xm x') = ia_m (xm x).
Proof. exact @quiet_steady. Qed.
Print Assumptions C33_temporary.

Example C33_example : @answers loud (after loud_hist) loud_quiet = Some [[0; 1; -1]; [0; 1]] /\
  @loud_now loud (next (after loud_hist) loud_quiet) = [32; 7; 7; 32].
Proof. split; apply ex33. Qed.

(** C34: after a successful MVM of an integer mode with c2c_var all covered currents are HRS. *)
Theorem C34_weights_lost_refuted :
  forall (MC : Machine) (w : world) (a : call) (w' : world) (r : result) (x' : xbar),
  reach w -> is_int (m_mode (wcfg w)) = true -> digital_only (wcfg w) = false -> c2c_var (wcfg w) = true ->
  step w a = Ok (w', r) -> multiplied a r = true -> wx w' = Some x' ->
  forall i j, covers a i j = true -> (i < rowsN (wcfg w))%nat -> (j < colsN (wcfg w))%nat ->
    current (ia_p (xm x')) i j = HRS (wcfg w) /\ current (ia_m (xm x')) i j = HRS (wcfg w).
Proof. exact @int_c2c_hrs. Qed.
Print Assumptions C34_weights_lost_refuted.

(** C34: a covered cell that holds neither 0 nor 1 makes exe_mvm end the process. *)
Theorem C34_terminates_refuted :
  forall (MC : Machine) (w : world) (res vec mat : list Z) (m n : Z) (l : string) (x : xbar) (i j : nat),
  reach w -> wx w = Some x -> digital_only (wcfg w) = false -> c2c_var (wcfg w) = true -> SPLIT (wcfg w) <> [] ->
  dims_in (wcfg w) m n -> covers (ExeMvm res vec mat m n l) i j = true ->
  (cell (gd_p (xm x)) i j <> 0 /\ cell (gd_p (xm x)) i j <> 1) \/
  (cell (gd_m (xm x)) i j <> 0 /\ cell (gd_m (xm x)) i j <> 1) ->
  step w (ExeMvm res vec mat m n l) = Died.
Proof. exact @bad_mask_died. Qed.
Print Assumptions C34_terminates_refuted.

(** C34: with one cell per weight nothing of the weights reaches the result: every MVM of a mode that subtracts two
    arrays returns the vector it was given, whatever was written (exact arithmetic, ideal converter, no noise). *)
Theorem C34_erased_refuted :
  forall (nz : bool -> nat -> R) (s : bool) (w : @world (R_machine nz s)) a w' res vec mat m n r, reach w ->
  In (m_mode (wcfg w)) [I_DIFF_W_DIFF_1XB; I_DIFF_W_DIFF_2XB; I_TC_W_DIFF; I_UINT_W_DIFF] ->
  digital_only (wcfg w) = false -> c2c_var (wcfg w) = true -> parasitics (wcfg w) = false ->
  adc_type (wcfg w) = INF_ADC -> List.length (SPLIT (wcfg w)) = 1%nat ->
  (@HRS_NOISE (R_machine nz s) (wcfg w) <= 0)%R -> (@LRS_NOISE (R_machine nz s) (wcfg w) <= 0)%R ->
  (a = PyMvm res vec mat m n \/ exists l, a = ExeMvm res vec mat m n l) ->
  step w a = Ok (w', RRes 0 r) -> r = res.
Proof. exact noise_erases_in. Qed.
Print Assumptions C34_erased_refuted.
(** A document of each of these modes is accepted and meets the hypotheses. *)
Example C34_erased_example : forall (nz : bool -> nat -> R) (s : bool) name md,
  In (name, md) mode_names -> plain_diff md = true -> exists w : @world (R_machine nz s),
  run world0 [SetConfig (Parsed (@lost_doc (R_machine nz s) name true))] = Ok (w, [RUnit]) /\ reach w /\ wx w <> None /\ m_mode (wcfg w) = md /\
  digital_only (wcfg w) = false /\ c2c_var (wcfg w) = true /\ d2d_var (wcfg w) = false /\ parasitics (wcfg w) = false /\
  adc_type (wcfg w) = INF_ADC /\ List.length (SPLIT (wcfg w)) = 1%nat /\
  (@HRS_NOISE (R_machine nz s) (wcfg w) <= 0)%R /\ (@LRS_NOISE (R_machine nz s) (wcfg w) <= 0)%R.
Proof. exact ex34_lost. Qed.
(** The same documents in binary32, weights [1, -1; 0, 1], inputs (1, 2) and initial results (7, 8): 6 and 10 are
    returned without cycle noise, 7 and 8 with it. *)
Example C34_erased_modes : map (try34 false) diff_modes = repeat (Some [[]; [0]; [0; 6; 10]]) 4 /\
  map (try34 true) diff_modes = repeat (Some [[]; [0]; [0; 7; 8]]) 4.
Proof. exact ex34_modes. Qed.

(** C34: a document and data for which every result is 0 with c2c_var and 1, the product, without. *)
Theorem C34_zero_refuted : exists j : @json toy,
  let w b := after [SetConfig (Parsed (puts j [("c2c_var", JBool b); ("d2d_var", JBool false)]%string))] in
  (forall b, reach (w b) /\ is_int (m_mode (wcfg (w b))) = true /\ split_covers (wcfg (w b)) /\
    digital_only (wcfg (w b)) = false /\ c2c_var (wcfg (w b)) = b /\ d2d_var (wcfg (w b)) = false) /\
  answers (w false) [CpyMtrx [1] 1 1; ExeMvm [0] [1] [] 1 1 ""%string; ExeMvm [0] [1] [] 1 1 ""%string] = Some [[0]; [0; 1]; [0; 1]] /\
  answers (w true) [CpyMtrx [1] 1 1; ExeMvm [0] [1] [] 1 1 ""%string; ExeMvm [0] [1] [] 1 1 ""%string] = Some [[0]; [0; 0]; [0; 0]] /\
  plus_product [0] [1] [1] 1 1 = [1].
Proof. exact lost_weights. Qed.
Print Assumptions C34_zero_refuted.

(** A weight of 15 stored in two 2-bit cells. *)
Example C34_example : runs_settled hist34b = true /\
  code (step (after hist34b) (ExeMvm [0] [1] [] 1 1 ""%string)) = 8 /\
  answers (after hist34b) [GetMat GdP] = Some [[3; 0; 3; 0; 0; 0; 0; 0]].
Proof. exact ex34b. Qed.
