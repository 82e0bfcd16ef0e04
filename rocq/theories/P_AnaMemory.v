(** Property theorems C82, C83: an analog crossbar with ideal cells after several writes of different sizes. *)
From Coq Require Import List ZArith Reals Bool String.
From Verif Require Import Base Machine Json Config Mapper Crossbar Api Reach RMachine RSpec Spec Demo AnaSpec AnaEx
  MemSpec AnaMemSpec AnaMem AnaMemEx.
Import ListNotations.
Local Open Scope Z_scope.

(** The answer is that of a digital crossbar with the same history, C81, also for places without a weight. *)
Theorem C82_analog_memory :
  forall (nz : bool -> nat -> R) (s : bool) (w0 : @world (R_machine nz s)) (src : source) (w1 : world) (x1 : xbar)
         (h : list call) (w2 : world) (rs : list result) (res vec mat' : list Z) (m n : Z) (l : string),
  reach w0 -> step w0 (SetConfig src) = Ok (w1, RUnit) -> wx w1 = Some x1 -> ideal_cells (wcfg w1) x1 ->
  adc_type (wcfg w1) = INF_ADC -> @HRS (R_machine nz s) (wcfg w1) <> @LRS (R_machine nz s) (wcfg w1) ->
  (m_mode (wcfg w1) = I_OFFS_W_DIFF -> s = false) ->
  Forall (usual (wcfg w1)) h -> run w1 h = Ok (w2, rs) -> always no_variation w1 h ->
  split_covers (wcfg w1) -> slices_wide (wcfg w1) -> widths_fit (wcfg w2) -> dims_in (wcfg w2) m n ->
  all_first (input_in (wcfg w2)) vec n -> room (wcfg w2) res m (2 * N (wcfg w2)) ->
  exists w3, step w2 (ExeMvm res vec mat' m n l) =
    Ok (w3, RRes 0 (memory_product (wcfg w2) res vec (memory (wcfg w1) h) (row_sums (wcfg w1) h)
                      (Z.to_nat m) (Z.to_nat n))).
Proof. exact analog_memory. Qed.
Print Assumptions C82_analog_memory.

(** All modes: a 2x3 matrix, then a write over its first column, and a product with 3x4 places. *)
Example C82_example : forall (nz : bool -> nat -> R) (s : bool) name md,
  In (name, md) mode_names -> (md = I_OFFS_W_DIFF -> s = false) ->
  exists w, run world0 ([SetConfig (Parsed (@demo_doc (R_machine nz s) md name "INF_ADC" 8))] ++ amem_hist nz s ++
                        [ExeMvm [1; 2; 3] (demo_vec md) [] 3 4 ""%string]) =
    Ok (w, [RUnit; RCode 0; RCode 0; RRes 0 (amem_sum nz s md)]).
Proof. exact ex82. Qed.
Example C82_values : forall (nz : bool -> nat -> R) (s : bool) md, amem_sum nz s md =
  match md with
  | I_UINT_W_DIFF => [13; -14; 3]
  | I_UINT_W_OFFS => [13; -14; -141]
  | I_OFFS_W_DIFF => [2; -13; 3]
  | BNN_I | TNN_III => [2; 1; 3]
  | BNN_II => [2; 5; 3]
  | BNN_III | TNN_V => [1; 2; 1]
  | BNN_IV => [3; 4; 5]
  | BNN_V => [1; 2; -1]
  | _ => [2; 3; 3]
  end.
Proof. exact amem_values. Qed.

(** C83: a finite converter with MAX calibration.  Every history leaves results within the converter's own accuracy
    of that memory (no term for clipping, C28), and a fine enough converter makes them exact (C64). *)
Theorem C83_finite_memory :
  forall (nz : bool -> nat -> R) (s : bool) (w0 : @world (R_machine nz s)) (src : source) (w1 : world) (x1 : xbar)
         (h : list call) (w2 : world) (rs : list result) (res vec mat' : list Z) (m n : Z) (l : string),
  reach w0 -> step w0 (SetConfig src) = Ok (w1, RUnit) -> wx w1 = Some x1 -> ideal_cells (wcfg w1) x1 ->
  adc_type (wcfg w1) <> INF_ADC -> adc_calib_mode (wcfg w1) = CAL_MAX ->
  (2 <= n_levels (adc_type (wcfg w1)) (resolution (wcfg w1)))%Z -> (resolution (wcfg w1) <= 30)%Z ->
  m_mode (wcfg w1) <> TNN_IV -> m_mode (wcfg w1) <> TNN_V ->
  (0 < @HRS (R_machine nz s) (wcfg w1) < @LRS (R_machine nz s) (wcfg w1))%R -> (m_mode (wcfg w1) = I_OFFS_W_DIFF -> s = false) ->
  Forall (usual (wcfg w1)) h -> run w1 h = Ok (w2, rs) -> always no_variation w1 h ->
  split_covers (wcfg w1) -> slices_wide (wcfg w1) -> widths_fit (wcfg w2) -> dims_in (wcfg w2) m n ->
  all_first (input_in (wcfg w2)) vec n ->
  let t := memory_product (wcfg w2) res vec (memory (wcfg w1) h) (row_sums (wcfg w1) h) (Z.to_nat m) (Z.to_nat n) in
  (room_for (accuracy (wcfg w2)) (wcfg w2) res m (2 * N (wcfg w2)) ->
   exists w3 r, step w2 (ExeMvm res vec mat' m n l) = Ok (w3, RRes 0 r) /\ near (accuracy (wcfg w2)) r t (Z.to_nat m)) /\
  (~ In (m_mode (wcfg w2)) [I_UINT_W_OFFS; BNN_III; BNN_IV] ->
   Forall (fun g => (IZR g * half_step (wcfg w2) < / 2)%R) (gains (wcfg w2)) -> room (wcfg w2) res m (2 * N (wcfg w2)) ->
   exists w3, step w2 (ExeMvm res vec mat' m n l) = Ok (w3, RRes 0 t)).
Proof. exact finite_memory. Qed.
Print Assumptions C83_finite_memory.

(** The same history with converters of 8 and of 12 bits, for all modes and their converters. *)
Example C83_example : forall (nz : bool -> nat -> R) (s : bool) name md ty,
  In (name, md) mode_names -> (md = I_OFFS_W_DIFF -> s = false) -> md <> TNN_IV -> md <> TNN_V ->
  adc_ok md ty = true -> ty <> INF_ADC ->
  (exists w r, run world0 ([SetConfig (Parsed (@demo_doc (R_machine nz s) md name (adc_name ty) 8))] ++ amem_hist nz s ++
                        [ExeMvm [1; 2; 3] (demo_vec md) [] 3 4 ""%string]) =
    Ok (w, [RUnit; RCode 0; RCode 0; RRes 0 r]) /\ near (@accuracy nz s (demo_cfg md ty 8)) r (amem_sum nz s md) 3) /\
  (~ In md [I_UINT_W_OFFS; BNN_III; BNN_IV] ->
   exists w, run world0 ([SetConfig (Parsed (@demo_doc (R_machine nz s) md name (adc_name ty) 12))] ++ amem_hist nz s ++
                        [ExeMvm [1; 2; 3] (demo_vec md) [] 3 4 ""%string]) =
    Ok (w, [RUnit; RCode 0; RCode 0; RRes 0 (amem_sum nz s md)])).
Proof. exact ex83. Qed.
