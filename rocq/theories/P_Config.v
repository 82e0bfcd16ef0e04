(** Property theorems C13, C18, C19, C20, C57, C60: what configuration loads accept, determine and
    leave behind. *)
From Coq Require Import List ZArith Bool String.
From RecordUpdate Require Import RecordSet.
From Verif Require Import Base Machine Json Config Mapper Crossbar Api Reach Spec DocSpec Demo CfgProps LeakProps ThrowUpd ThrowEx.
Import ListNotations RecordSetNotations.
Local Open Scope Z_scope.

(** C13: after any history of calls, failed updates included, the configuration is the initial one
    or obeys the support matrix. *)
Theorem C13_support_matrix :
  forall (MC : Machine) (h : list call) (w : world) (rs : list result),
  run world0 h = Ok (w, rs) -> wcfg w = config0 \/ supported (wcfg w).
Proof. exact @history_supported. Qed.
Print Assumptions C13_support_matrix.

Theorem C13_after_load :
  forall (MC : Machine) (w : world) (j : json) (w' : world) (r : result),
  step w (SetConfig (Parsed j)) = Ok (w', r) -> supported (wcfg w').
Proof. exact @set_supported. Qed.
Print Assumptions C13_after_load.

(** A read disturb configuration is accepted (0); with a positive read voltage, or when an update
    moves it to an integer mode, the process ends (8). *)
Example C13_example : code (run world0 [SetConfig (Parsed (rd_doc 3))]) = 0 /\
  code (run world0 [SetConfig (Parsed (puts (rd_doc 3) [("V_read"%string, JInt 1)]))]) = 8 /\
  code (run world0 [SetConfig (Parsed (rd_doc 3)); put1 "m_mode" (JStr "I_TC_W_DIFF")]) = 8.
Proof. exact ex13. Qed.

(** C18: once a configuration with resolution -1 is in force, no analog configuration with a finite
    ADC can be loaded any more, whatever its resolution. *)
Theorem C18_stale_resolution :
  forall (MC : Machine) (w : world) (j : json) (s : string),
  resolution (wcfg w) = -1 -> jat j "digital_only" = Some (JBool false) -> jat j "adc_type" = Some (JStr s) ->
  s = "SYM_RANGE_ADC"%string \/ s = "POS_RANGE_ONLY_ADC"%string ->
  forall w' r, step w (SetConfig (Parsed j)) <> Ok (w', r).
Proof. exact @stale_resolution. Qed.
Print Assumptions C18_stale_resolution.

(** The invalid document is accepted, the valid one is accepted on its own and ends the process
    after the invalid one. *)
Theorem C18_resolution_check_refuted : exists w rs w8 rs8,
  run world0 [SetConfig (Parsed (fin_doc (-1)))] = Ok (w, rs) /\
  run world0 [SetConfig (Parsed (fin_doc 8))] = Ok (w8, rs8) /\
  run w [SetConfig (Parsed (fin_doc 8))] = Died.
Proof. exact refuted18. Qed.
Print Assumptions C18_resolution_check_refuted.

(** C19: updating only w_res stores the new value in the configuration and changes no answer of any
    later history that does not touch the configuration. *)
Theorem C19_w_res_update_ignored :
  forall (MC : Machine) (w : world) (v : json) (f : F) (w' : world) (r : result),
  reach w -> wx w <> None -> digital_only (wcfg w) = false -> parasitics (wcfg w) = true ->
  as_float v = CVal f -> feq f f0 = false -> ~ same_value (wdata w) ("w_res"%string, v) ->
  step w (UpdateConfig (UJson (JObj [("w_res"%string, v)]))) = Ok (w', r) ->
  wcfg w' = wcfg w <| w_res := f |> /\ wx w' = wx w /\
  forall h, Forall no_config h -> seen (run w' h) = seen (run w h).
Proof. exact @w_res_stale. Qed.
Print Assumptions C19_w_res_update_ignored.

Example C19_example : reach w19 /\ wx w19 <> None /\ digital_only (wcfg w19) = false /\ parasitics (wcfg w19) = true /\
  feq (f_of_Z 7) (f0 : @F toy) = false /\ ~ same_value (wdata w19) ("w_res"%string, JInt 7) /\
  exists w' r, step w19 (put1 "w_res" (JInt 7)) = Ok (w', r).
Proof. exact hyps19. Qed.

Theorem C19_w_res_null_refuted :
  exists w rs, run world0 [SetConfig (Parsed (par_doc 0)); put1 "w_res" (JInt 7)] = Ok (w, rs) /\
  step w (ExeMvm [0; 0] [1; -1; 1] [] 2 3 ""%string) = UB NullDeref.
Proof. exact null19. Qed.
Print Assumptions C19_w_res_null_refuted.

(** C20: what a load determines, whatever was loaded before ([agree]), and what it leaves as it was
    ([keeps_rest]). *)
Theorem C20_load_determines :
  forall (MC : Machine) (j : json) (w1 w1' : world) (r1 : result) (w2 w2' : world) (r2 : result),
  step w1 (SetConfig (Parsed j)) = Ok (w1', r1) -> step w2 (SetConfig (Parsed j)) = Ok (w2', r2) ->
  agree (wcfg w1') (wcfg w2').
Proof. exact @set_agree. Qed.
Print Assumptions C20_load_determines.

Theorem C20_load_keeps :
  forall (MC : Machine) (j : json) (w w' : world) (r : result),
  step w (SetConfig (Parsed j)) = Ok (w', r) -> keeps_rest (wcfg w) (wcfg w').
Proof. exact @set_keeps. Qed.
Print Assumptions C20_load_keeps.

(** The same load, with and without an earlier one, answers differently. *)
Theorem C20_read_disturb_leaks_refuted :
  exists w rs, run world0 [SetConfig (Parsed (rd_doc 1)); SetConfig (Parsed dig2_doc); GetOob] = Ok (w, rs) /\
  run world0 [SetConfig (Parsed dig2_doc); GetOob] = Died /\ digital_only (wcfg w) = true /\ read_disturb (wcfg w) = true.
Proof. exact leak_rd. Qed.
Print Assumptions C20_read_disturb_leaks_refuted.

Theorem C20_profile_leaks_refuted :
  exists w rs, run world0 (SetConfig (Parsed inf_doc) :: use22) = Ok (w, rs) /\
  run world0 (SetConfig (Parsed prof_doc) :: SetConfig (Parsed inf_doc) :: use22) = UB FloatToInt.
Proof. exact leak_profile. Qed.
Print Assumptions C20_profile_leaks_refuted.

(** C57: with update frequency 0 no multiplication is ever answered, and every multiplication that
    another frequency would answer divides by zero. *)
Theorem C57_update_freq_zero :
  forall (MC : Machine) (w : world) (res vec mat : list Z) (m n : Z) (l : string),
  digital_only (wcfg w) = false -> read_disturb (wcfg w) = true -> update_freq (wcfg w) = 0 ->
  (forall w' rs, step w (ExeMvm res vec mat m n l) <> Ok (w', RRes 0 rs)) /\
  (forall k w' rs, step (w <| wcfg := wcfg w <| update_freq := k |> |>) (ExeMvm res vec mat m n l) = Ok (w', RRes 0 rs) ->
     step w (ExeMvm res vec mat m n l) = UB DivByZero).
Proof. exact @freq_zero. Qed.
Print Assumptions C57_update_freq_zero.

(** Frequency 0 is accepted; the first multiplication divides by zero (6). *)
Example C57_example : code (run world0 (SetConfig (Parsed (rd_doc 0)) :: use22)) = 6 /\
  code (run world0 (SetConfig (Parsed (rd_doc 1)) :: use22)) = 0 /\
  update_freq (wcfg (after [SetConfig (Parsed (rd_doc 0))])) = 0 /\
  read_disturb (wcfg (after [SetConfig (Parsed (rd_doc 0))])) = true /\
  digital_only (wcfg (after [SetConfig (Parsed (rd_doc 0))])) = false.
Proof. exact ex57. Qed.

(** C60: an update throws only if it leads to the analog mode I_TC_W_DIFF with wire resistance; the
    new settings and the new document are then in force, together with the old crossbar. *)
Theorem C60_throwing_update :
  forall (MC : Machine) (w : world) (x : xbar) (l : list (string * json)) (w' : world),
  wx w = Some x -> NoDup (map fst l) -> step w (UpdateConfig (UJson (JObj l))) = Ok (w', RExc) ->
  wx w' = Some x /\ wenv w' = wenv w /\
  digital_only (wcfg w') = false /\ parasitics (wcfg w') = true /\ m_mode (wcfg w') = I_TC_W_DIFF /\
  merged same_value (wdata w) (JObj l) (wdata w') /\
  (typed (wdata w) -> typed (JObj l) -> says (wdata w') (wcfg w')).
Proof. exact @throwing_update. Qed.
Print Assumptions C60_throwing_update.

(** Afterwards a write of more rows than the old crossbar has, within the new sizes, never returns ([stores_sums]: all modes but I_UINT_W_OFFS, BNN_III, BNN_IV, TNN_IV, TNN_V). *)
Theorem C60_rows_refuted :
  forall (MC : Machine) (w : world) (x : xbar) (l : list (string * json)) (w' : world) (mat : list Z) (m n : Z),
  reach w -> wx w = Some x -> NoDup (map fst l) ->
  step w (UpdateConfig (UJson (JObj l))) = Ok (w', RExc) ->
  stores_sums (m_mode (wcfg w)) = true -> M (wcfg w) < m -> dims_in (wcfg w') m n ->
  forall w1 r, step w' (CpyMtrx mat m n) <> Ok (w1, r).
Proof. exact @after_throw. Qed.
Print Assumptions C60_rows_refuted.

(** If the old crossbar was created without wire resistance, no write within the new sizes returns. *)
Theorem C60_no_write_refuted :
  forall (MC : Machine) (w : world) (x : xbar) (l : list (string * json)) (w' : world) (mat : list Z) (m n : Z),
  wx w = Some x -> NoDup (map fst l) -> step w (UpdateConfig (UJson (JObj l))) = Ok (w', RExc) -> par (xm x) = None ->
  dims_in (wcfg w') m n -> forall w1 r, step w' (CpyMtrx mat m n) <> Ok (w1, r).
Proof. exact @wireless_write. Qed.
Print Assumptions C60_no_write_refuted.

(** A reachable crossbar and an update as in the theorems. *)
Example C60_example : hyps60_of w60.
Proof. exact ex60. Qed.
(** For several modes: does the update throw, and what do writes of 2 and of 4 rows end with?  A
    crossbar without a wire model, and one that has it (0: success, 1: out of bounds, 5: null pointer). *)
Example C60_modes :
  map (fun m => try60 (doc60 m [2; 2])) ["I_DIFF_W_DIFF_1XB"; "I_DIFF_W_DIFF_2XB"; "I_UINT_W_DIFF"; "I_TC_W_DIFF"; "BNN_VI"; "TNN_I"]%string
    = repeat [1; 5; 1] 6 /\
  map (fun m => try60 (wires60 (doc60 m [2; 2]))) ["I_DIFF_W_DIFF_1XB"; "I_DIFF_W_DIFF_2XB"; "I_UINT_W_DIFF"; "I_OFFS_W_DIFF"]%string
    = repeat [1; 0; 1] 4.
Proof. exact ex60_modes. Qed.

(** An update that throws (second answer [RExc]) leaves the new sizes with the old crossbar; a write
    within the new sizes is undefined behaviour. *)
Theorem C60_throwing_update_refuted :
  exists w rs, run world0 h60 = Ok (w, rs) /\ thrown rs = true /\ M (wcfg w) = 4 /\ N (wcfg w) = 2 /\
  step w (CpyMtrx [1; 1; 1; 1; 1; 1; 1; 1] 4 2) = UB OutOfBounds.
Proof. exact refuted60. Qed.
Print Assumptions C60_throwing_update_refuted.
