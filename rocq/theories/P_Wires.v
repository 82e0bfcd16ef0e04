(** Property theorems C70 and C71: how far wire resistance moves the results of MVMs. *)
From Coq Require Import String List ZArith Reals Bool Lia.
From Verif Require Import Base Machine Json Config Mapper Parasitics Crossbar Api Reach RMachine Spec SafeProps RSpec Demo
  AnaSpec KinSpec ParSpec AnaEx ParEx WireSpec WireProps WireTight WireEx.
Import ListNotations.
Local Open Scope R_scope.

(** ** C70: accuracy
    Ideal converter, no noise, no read disturb.  After a write of any valid matrix that fits, every MVM of the
    same shape, whatever queries and MVMs came before, returns the digital result with an error of at most
    [wire_error]: one per truncation, and the gains times N w_res (n LRS)^2 / (V_read (LRS - HRS)). *)
Theorem C70_wire_error : forall (nz : bool -> nat -> R) (s : bool) (w : @world (R_machine nz s)) x p0 mat m n,
  reach w -> wx w = Some x -> only_wires (wcfg w) -> adc_type (wcfg w) = INF_ADC ->
  @par (R_machine nz s) (xm x) = Some p0 -> 0 < @ps_w (R_machine nz s) p0 ->
  @HRS (R_machine nz s) (wcfg w) < @LRS (R_machine nz s) (wcfg w) ->
  (m_mode (wcfg w) = I_OFFS_W_DIFF -> s = false) ->
  split_covers (wcfg w) -> slices_wide (wcfg w) -> dims_in (wcfg w) m n -> solver_fits (wcfg w) m n ->
  all_entries (weight_in (wcfg w)) mat m n -> sums_fit (wcfg w) n ->
  exists w1, step w (CpyMtrx mat m n) = Ok (w1, RCode 0) /\
    forall h w2 rs res vec mat' l, Forall asking h -> run w1 h = Ok (w2, rs) ->
      widths_fit (wcfg w) -> all_first (input_in (wcfg w)) vec n -> wire_room (wcfg w) res m n ->
      exists w3 r, step w2 (ExeMvm res vec mat' m n l) = Ok (w3, RRes 0 r) /\
        within (wire_error (wcfg w) (@ps_w (R_machine nz s) p0) n) r res mat vec (Z.to_nat m) (Z.to_nat n).
Proof. exact wires_accurate. Qed.
Print Assumptions C70_wire_error.

(** The hypotheses hold for a row of two weights in a 3x4 crossbar with w_res = 2 of every mode but I_TC_W_DIFF (no
    solver, C13); in the binary and ternary modes the resistance contributes less than 1/100 to the bound. *)
Example C70_example : forall (nz : bool -> nat -> R) (s : bool) name md,
  In (name, md) mode_names -> md <> I_TC_W_DIFF -> (md = I_OFFS_W_DIFF -> s = false) ->
  exists (w : @world (R_machine nz s)) x p,
  run world0 [SetConfig (Parsed (@wire_doc (R_machine nz s) md name))] = Ok (w, [RUnit]) /\ reach w /\ m_mode (wcfg w) = md /\
  wx w = Some x /\ only_wires (wcfg w) /\ adc_type (wcfg w) = INF_ADC /\
  @par (R_machine nz s) (xm x) = Some p /\ 0 < @ps_w (R_machine nz s) p /\
  @HRS (R_machine nz s) (wcfg w) < @LRS (R_machine nz s) (wcfg w) /\ (m_mode (wcfg w) = I_OFFS_W_DIFF -> s = false) /\
  split_covers (wcfg w) /\ slices_wide (wcfg w) /\ dims_in (wcfg w) 1 2 /\ solver_fits (wcfg w) 1 2 /\
  all_entries (weight_in (wcfg w)) [1; -1]%Z 1 2 /\ sums_fit (wcfg w) 2 /\ widths_fit (wcfg w) /\
  all_first (input_in (wcfg w)) (wire_vec md) 2 /\ wire_room (wcfg w) [7]%Z 1 2 /\
  (is_int md = false -> wire_error (wcfg w) (@ps_w (R_machine nz s) p) 2 <= INR (cuts (wcfg w)) + 1 / 100).
Proof. exact ex70. Qed.

(** ** C71: full scale is never reached
    In BNN_VI and TNN_I the result of row i stays strictly below |res_i| + sum_j |w_ij v_j| in magnitude for every
    positive wire resistance, however small. *)
Theorem C71_below_full_scale : forall (nz : bool -> nat -> R) (s : bool) (w : @world (R_machine nz s)) x p0 mat m n,
  reach w -> wx w = Some x -> m_mode (wcfg w) = BNN_VI \/ m_mode (wcfg w) = TNN_I ->
  only_wires (wcfg w) -> adc_type (wcfg w) = INF_ADC ->
  @par (R_machine nz s) (xm x) = Some p0 -> 0 < @ps_w (R_machine nz s) p0 ->
  @HRS (R_machine nz s) (wcfg w) < @LRS (R_machine nz s) (wcfg w) ->
  dims_in (wcfg w) m n -> solver_fits (wcfg w) m n ->
  all_entries (weight_in (wcfg w)) mat m n -> sums_fit (wcfg w) n ->
  exists w1, step w (CpyMtrx mat m n) = Ok (w1, RCode 0) /\
    forall h w2 rs res vec mat' l, Forall asking h -> run w1 h = Ok (w2, rs) ->
      all_first (input_in (wcfg w)) vec n -> wire_room (wcfg w) res m n ->
      exists w3 r, step w2 (ExeMvm res vec mat' m n l) = Ok (w3, RRes 0 r) /\
        forall i, (i < Z.to_nat m)%nat -> below_full_scale res mat vec r (Z.to_nat n) i.
Proof. exact wires_below. Qed.
Print Assumptions C71_below_full_scale.

(** So rows without negative terms come out too small. *)
Theorem C71_too_small : forall res mat vec r n i, below_full_scale res mat vec r n i ->
  (forall j, (j < n)%nat -> 0 <= entry mat n i j * nth j vec 0)%Z -> (0 <= nth i res 0)%Z -> (0 < product mat vec n i)%Z ->
  (nth i r 0 < nth i res 0 + product mat vec n i)%Z.
Proof. exact aligned_low. Qed.
Print Assumptions C71_too_small.

(** Weights 1, -1, inputs 1, -1, segments of 2 ohms in a 3x4 crossbar: 7 + 2 is 8. *)
Example C71_example : forall (nz : bool -> nat -> R) (s : bool) name md,
  In (name, md) mode_names -> md = BNN_VI \/ md = TNN_I -> exists (w : @world (R_machine nz s)),
  run world0 [SetConfig (Parsed (@wire_doc (R_machine nz s) md name)); CpyMtrx [1; -1]%Z 1 2;
              ExeMvm [7]%Z [1; -1]%Z [] 1 2 ""%string] =
    Ok (w, [RUnit; RCode 0; RRes 0 [8]%Z]).
Proof. exact ex71. Qed.
