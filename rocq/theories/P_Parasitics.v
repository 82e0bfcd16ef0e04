(** Property theorems C42, C43, C44, C65, C67, C84, C85: wire resistance, and memory safety of analog calls. *)
From Coq Require Import String List ZArith Reals Bool Lia.
From Verif Require Import Base Machine Json Config Mapper Parasitics Crossbar Api Reach RMachine Spec SafeProps RSpec Demo
  NoiseFloat AnaSpec KinSpec ParSpec Shape StepFacts AnaEx ParProps ParReal ParBound ParEx ParOff ParOffEx RdRefresh RdEx ParSoft ParSoftEx.
Import ListNotations.

(** ** C42: one column, exact arithmetic
    [column_current V W g N I]: by Kirchhoff's law the column of N cells of conductances g with segments of
    conductance W carries the current I to the converter. *)
Local Open Scope R_scope.
Theorem C42_unique : forall V W N g, 0 < W -> (forall k, (k < N)%nat -> 0 <= g k) -> exists! I, column_current V W g N I.
Proof. exact current_exists. Qed.
Print Assumptions C42_unique.

(** Between 0 and the current without wire resistance. *)
Theorem C42_range : forall V W N g I, 0 <= V -> 0 < W -> (forall k, (k < N)%nat -> 0 <= g k) -> column_current V W g N I ->
  0 <= I <= ideal_current V g N.
Proof. exact current_range. Qed.
Print Assumptions C42_range.

(** No driven row, no current. *)
Theorem C42_zero : forall V W N g I, 0 < W -> (forall k, (k < N)%nat -> g k = 0) -> column_current V W g N I -> I = 0.
Proof. exact current_zero. Qed.
Print Assumptions C42_zero.

(** Larger conductances, larger current. *)
Theorem C42_grows : forall V W N g g' I I', 0 <= V -> 0 < W -> (forall k, (k < N)%nat -> 0 <= g k <= g' k) ->
  column_current V W g N I -> column_current V W g' N I' -> I <= I'.
Proof. exact current_mono. Qed.
Print Assumptions C42_grows.

(** More wire resistance (less conductance), less current. *)
Theorem C42_shrinks : forall V W W' g N I I', 0 <= V -> 0 < W <= W' -> (forall k, (k < N)%nat -> 0 <= g k) ->
  column_current V W g N I -> column_current V W' g N I' -> I <= I'.
Proof. exact current_wire. Qed.
Print Assumptions C42_shrinks.

(** The loss is at most N times the ideal current times the total conductance over W; in the limit there is none. *)
Theorem C42_loss : forall V W g N I, 0 <= V -> 0 < W -> (forall k, (k < N)%nat -> 0 <= g k) -> column_current V W g N I ->
  (ideal_current V g N - I) * W <= INR N * (ideal_current V g N * ideal_current 1 g N).
Proof. exact current_close. Qed.
Print Assumptions C42_loss.
Theorem C42_limit : forall V g N, 0 <= V -> (forall k, (k < N)%nat -> 0 <= g k) ->
  forall eps, 0 < eps -> exists W0, 0 < W0 /\ forall W I, W0 <= W -> column_current V W g N I -> Rabs (I - ideal_current V g N) < eps.
Proof. exact current_limit. Qed.
Print Assumptions C42_limit.

(** Two cells of conductance 1, segments of conductance 1: 3/5 instead of 2. *)
Example C42_example : column_current 1 1 (fun _ => 1) 2 (3 / 5) /\ ideal_current 1 (fun _ => 1) 2 = 2.
Proof. exact ex42. Qed.

(** ** C65: the solver computes these currents
    After a write of any valid matrix that fits, in every mode with a solver, compute_currents returns for
    output i the current of its column (the difference of the currents of its two columns) of the written cells,
    for all inputs and all sizes that fit.  [driven] and [cell_at] give the wiring of the mode. *)
Theorem C65_kirchhoff : forall (nz : bool -> nat -> R) (s : bool) (w : @world (R_machine nz s)) x p0 mat m0 n0,
  reach w -> wx w = Some x -> digital_only (wcfg w) = false -> parasitics (wcfg w) = true ->
  @par (R_machine nz s) (xm x) = Some p0 -> 0 < @ps_w (R_machine nz s) p0 -> split_covers (wcfg w) -> dims_in (wcfg w) m0 n0 ->
  all_entries (weight_in (wcfg w)) mat m0 n0 -> sums_fit (wcfg w) n0 ->
  (two_rows (m_mode (wcfg w)) = true -> 2 * n0 <= N (wcfg w) \/ m0 = 0)%Z ->
  exists w1 x1 p, step w (CpyMtrx mat m0 n0) = Ok (w1, RCode 0) /\ wx w1 = Some x1 /\ @par (R_machine nz s) (xm x1) = Some p /\ @ps_w (R_machine nz s) p = @ps_w (R_machine nz s) p0 /\
  forall vp vm k n,
  let c := wcfg w in
  (n <= Z.to_nat (N c))%nat -> (n <= List.length vp)%nat ->
  (two_rows (m_mode c) = true -> vm <> [] /\ n <= List.length vm /\ 2 * n <= Z.to_nat (N c))%nat ->
  (k <= Z.to_nat (M c))%nat -> (k <= outputs c (Z.to_nat m0))%nat ->
  exists t, @compute_currents (R_machine nz s) (Some p) vp vm k n = Ok t /\
  List.length t = Z.to_nat (M c) /\
  forall i, (i < k)%nat ->
  let V := - V_read c in
  let W := 1000000 / @ps_w (R_machine nz s) p in
  let g minus r := if driven (m_mode c) vp vm n r
                   then cell_at (m_mode c) (current (@ia_p (R_machine nz s) (xm x1))) (current (@ia_m (R_machine nz s) (xm x1))) (Z.to_nat n0) minus i r / V else 0 in
  (forall r, 0 <= g false r) /\ (one_column (m_mode c) = false -> forall r, 0 <= g true r) /\
  exists Ip, column_current V W (g false) (Z.to_nat (N c)) Ip /\
    if one_column (m_mode c) then nth i t 0 = Ip
    else exists Im, column_current V W (g true) (Z.to_nat (N c)) Im /\ nth i t 0 = Ip - Im.
Proof. exact kirchhoff_currents. Qed.
Print Assumptions C65_kirchhoff.

(** The wire resistance of a new crossbar is the configured one. *)
Theorem C65_w_res : forall (nz : bool -> nat -> R) (s : bool) (w0 : @world (R_machine nz s)) j w r x p,
  step w0 (SetConfig (Parsed j)) = Ok (w, r) -> wx w = Some x -> @par (R_machine nz s) (xm x) = Some p ->
  @ps_w (R_machine nz s) p = w_res (wcfg w).
Proof. exact new_solver. Qed.
Print Assumptions C65_w_res.

(** C42 for the computed currents: with [ideal] the sum of the currents of the driven cells of a column without wire
    resistance, result i lies between minus the one and plus the other column, differs from the ideal difference by
    at most a multiple of the wire resistance, and is 0 if no row is driven.  (Hypotheses as in C65_kirchhoff.) *)
Theorem C42_computed : forall (nz : bool -> nat -> R) (s : bool) (w : @world (R_machine nz s)) x p0 mat m0 n0,
  reach w -> wx w = Some x -> digital_only (wcfg w) = false -> parasitics (wcfg w) = true ->
  @par (R_machine nz s) (xm x) = Some p0 -> 0 < @ps_w (R_machine nz s) p0 -> split_covers (wcfg w) -> dims_in (wcfg w) m0 n0 ->
  all_entries (weight_in (wcfg w)) mat m0 n0 -> sums_fit (wcfg w) n0 ->
  (two_rows (m_mode (wcfg w)) = true -> 2 * n0 <= N (wcfg w) \/ m0 = 0)%Z ->
  exists w1 x1 p, step w (CpyMtrx mat m0 n0) = Ok (w1, RCode 0) /\ wx w1 = Some x1 /\ @par (R_machine nz s) (xm x1) = Some p /\
  forall vp vm k n,
  let c := wcfg w in
  (n <= Z.to_nat (N c))%nat -> (n <= List.length vp)%nat ->
  (two_rows (m_mode c) = true -> vm <> [] /\ n <= List.length vm /\ 2 * n <= Z.to_nat (N c))%nat ->
  (k <= Z.to_nat (M c))%nat -> (k <= outputs c (Z.to_nat m0))%nat ->
  exists t, @compute_currents (R_machine nz s) (Some p) vp vm k n = Ok t /\
  forall i, (i < k)%nat ->
  let ideal minus := fold_right Rplus 0 (map (fun r => if driven (m_mode c) vp vm n r
    then cell_at (m_mode c) (current (@ia_p (R_machine nz s) (xm x1))) (current (@ia_m (R_machine nz s) (xm x1))) (Z.to_nat n0) minus i r else 0)
    (seq 0 (Z.to_nat (N c)))) in
  let dp := ideal false in
  let dm := if one_column (m_mode c) then 0 else ideal true in
  0 <= dp /\ 0 <= dm /\ - dm <= nth i t 0 <= dp /\
  Rabs (nth i t 0 - (dp - dm)) <= IZR (N c) * (dp * dp + dm * dm) * @ps_w (R_machine nz s) p0 / (- V_read c * 1000000) /\
  ((forall r, (r < Z.to_nat (N c))%nat -> driven (m_mode c) vp vm n r = false) -> nth i t 0 = 0).
Proof. exact computed_bounds. Qed.
Print Assumptions C42_computed.

(** The hypotheses hold for a 3x2 matrix in a 3x4 crossbar of every mode but I_TC_W_DIFF (no solver, C13). *)
Example C65_example : forall (nz : bool -> nat -> R) (s : bool) name md,
  In (name, md) mode_names -> md <> I_TC_W_DIFF -> exists (w : @world (R_machine nz s)) x p,
  run world0 [SetConfig (Parsed (@wire_doc (R_machine nz s) md name))] = Ok (w, [RUnit]) /\ reach w /\ m_mode (wcfg w) = md /\
  wx w = Some x /\ digital_only (wcfg w) = false /\ parasitics (wcfg w) = true /\ @par (R_machine nz s) (xm x) = Some p /\ 0 < @ps_w (R_machine nz s) p /\
  split_covers (wcfg w) /\ dims_in (wcfg w) 3 2 /\ all_entries (weight_in (wcfg w)) [1; -1; 1; 1; -1; -1]%Z 3 2 /\
  sums_fit (wcfg w) 2 /\ (two_rows (m_mode (wcfg w)) = true -> 2 * 2 <= N (wcfg w) \/ 3 = 0)%Z.
Proof. exact ex65. Qed.

Local Open Scope Z_scope.

(** ** C43: which shapes are safe with wire resistance *)
(** Writes that fit into the rows of the solver are memory safe. *)
Theorem C43_write_safe : forall (MC : Machine) w x m n mat,
  reach w -> wx w = Some x -> digital_only (wcfg w) = false -> parasitics (wcfg w) = true ->
  par (xm x) <> None -> SPLIT (wcfg w) <> [] -> dims_in (wcfg w) m n -> Z.of_nat (List.length mat) >= m * n ->
  (two_rows (m_mode (wcfg w)) = true -> 2 * n <= N (wcfg w) \/ m = 0) -> memory_safe (step w (CpyMtrx mat m n)).
Proof. exact @solver_write. Qed.
Print Assumptions C43_write_safe.

(** Writes of valid weights that do not fit access memory out of bounds, although the guard accepts them. *)
Theorem C43_write_oob : forall (MC : Machine) w x m n mat,
  reach w -> wx w = Some x -> digital_only (wcfg w) = false -> parasitics (wcfg w) = true ->
  par (xm x) <> None -> two_rows (m_mode (wcfg w)) = true -> 1 <= m -> N (wcfg w) < 2 * n ->
  dims_in (wcfg w) m n -> all_entries (weight_in (wcfg w)) mat m n -> sums_fit (wcfg w) n ->
  step w (CpyMtrx mat m n) = UB OutOfBounds.
Proof. exact @oob_write. Qed.
Print Assumptions C43_write_oob.

(** MVMs after a write are memory safe if they use no more rows than written and fit. *)
Theorem C43_mvm_safe : forall (MC : Machine) w x mat0 m0 n0 w1 h w2 rs res vec mat m n l,
  reach w -> wx w = Some x -> digital_only (wcfg w) = false -> parasitics (wcfg w) = true -> SPLIT (wcfg w) <> [] ->
  (read_disturb (wcfg w) = true -> mitigation (wcfg w) <> SOFTWARE) -> adc_profile (wcfg w) = false ->
  dims_in (wcfg w) m0 n0 -> step w (CpyMtrx mat0 m0 n0) = Ok (w1, RCode 0) ->
  Forall asking h -> run w1 h = Ok (w2, rs) ->
  dims_in (wcfg w) m n -> Z.of_nat (List.length res) >= m -> Z.of_nat (List.length vec) >= n ->
  m <= m0 -> solver_fits (wcfg w) m n ->
  memory_safe (step w2 (ExeMvm res vec mat m n l)).
Proof. exact @safe_mvm. Qed.
Print Assumptions C43_mvm_safe.

(** They fail otherwise: out of bounds unless noise of a cycle is drawn before (then never Ok). *)
Theorem C43_mvm_oob : forall (MC : Machine) w x mat0 m0 n0 w1 h w2 rs res vec mat m n l,
  reach w -> wx w = Some x -> digital_only (wcfg w) = false -> parasitics (wcfg w) = true -> SPLIT (wcfg w) <> [] ->
  (read_disturb (wcfg w) = true -> mitigation (wcfg w) <> SOFTWARE) -> widths_fit (wcfg w) ->
  dims_in (wcfg w) m0 n0 -> step w (CpyMtrx mat0 m0 n0) = Ok (w1, RCode 0) ->
  Forall asking h -> run w1 h = Ok (w2, rs) ->
  dims_in (wcfg w) m n -> n <= int32_max -> all_first (input_in (wcfg w)) vec n ->
  ~ (m <= m0 /\ solver_fits (wcfg w) m n) ->
  (forall r, step w2 (ExeMvm res vec mat m n l) <> Ok r) /\
  (c2c_var (wcfg w) = false -> step w2 (ExeMvm res vec mat m n l) = UB OutOfBounds).
Proof. exact @oob_mvm. Qed.
Print Assumptions C43_mvm_oob.

(** So does every MVM before the first write. *)
Theorem C43_unwritten : forall (MC : Machine) w0 j w r h w1 rs res vec mat m n l,
  reach w0 -> step w0 (SetConfig (Parsed j)) = Ok (w, r) -> wx w <> None ->
  digital_only (wcfg w) = false -> parasitics (wcfg w) = true ->
  (read_disturb (wcfg w) = true -> mitigation (wcfg w) <> SOFTWARE) -> widths_fit (wcfg w) ->
  Forall asking h -> run w h = Ok (w1, rs) ->
  dims_in (wcfg w) m n -> n <= int32_max -> all_first (input_in (wcfg w)) vec n ->
  (forall r, step w1 (ExeMvm res vec mat m n l) <> Ok r) /\
  (c2c_var (wcfg w) = false -> step w1 (ExeMvm res vec mat m n l) = UB OutOfBounds).
Proof. exact @fresh_mvm. Qed.
Print Assumptions C43_unwritten.

(** 4x4 crossbars, 2-bit weights in two slices; outcomes of a write, of a write and an MVM, of an MVM without a
    write (0: fine, 1: out of bounds), for 2x2, 4x2 and 2x4 matrices. *)
Example C43_example : table43 true =
  map (fun md => (md,
    if existsb (String.eqb md) ["BNN_V"; "BNN_VI"; "TNN_I"]%string then [(0, 0, 1); (0, 0, 1); (1, 1, 1)]
    else if existsb (String.eqb md) ["BNN_I"; "BNN_II"; "BNN_III"; "BNN_IV"; "TNN_II"; "TNN_III"]%string then [(0, 0, 1); (0, 0, 1); (0, 0, 1)]
    else [(0, 0, 1); (0, 1, 1); (0, 0, 1)])) wired_modes.
Proof. exact ex43. Qed.

(** C44: sliced rows from M on have conductance HRS in the solver whatever was written; the others have the cell
    current over the read voltage. *)
Theorem C44_rows_dropped : forall (MC : Machine) w x m n mat w1 x1 p,
  reach w -> wx w = Some x -> digital_only (wcfg w) = false -> parasitics (wcfg w) = true ->
  SPLIT (wcfg w) <> [] -> is_int (m_mode (wcfg w)) = true -> dims_in (wcfg w) m n ->
  step w (CpyMtrx mat m n) = Ok (w1, RCode 0) -> wx w1 = Some x1 -> par (xm x1) = Some p ->
  forall i j, (i < Z.to_nat m * List.length (SPLIT (wcfg w)))%nat -> (j < Z.to_nat n)%nat ->
  let two := match m_mode (wcfg w) with I_UINT_W_OFFS => false | _ => true end in
  (Z.of_nat i < M (wcfg w) ->
     (two = false -> current (ps_ga p) j i = fdiv (current (ia_p (xm x1)) i j) (fneg (V_read (wcfg w)))) /\
     (two = true -> current (ps_ga p) j (2 * i) = fdiv (current (ia_p (xm x1)) i j) (fneg (V_read (wcfg w))) /\
                    current (ps_ga p) j (2 * i + 1) = fdiv (current (ia_m (xm x1)) i j) (fneg (V_read (wcfg w))))) /\
  (M (wcfg w) <= Z.of_nat i ->
     (two = false -> current (ps_ga p) j i = HRS (wcfg w)) /\
     (two = true -> current (ps_ga p) j (2 * i) = HRS (wcfg w) /\ current (ps_ga p) j (2 * i + 1) = HRS (wcfg w))).
Proof. exact @rows_dropped. Qed.
Print Assumptions C44_rows_dropped.

(** A 3x2 matrix of ones in a 4x4 crossbar, two slices: all six sliced rows are low-resistive, two of them are
    high-resistive in the solver (rows of the last list are the crossbar's inputs). *)
Example C44_example : runs_settled hist44 = true /\ loud_now (after hist44) = (repeat 30 2 ++ repeat 5 2) ++ (repeat 30 2 ++ repeat 5 2) ++
    (repeat 30 2 ++ repeat 5 2) ++ (repeat 30 2 ++ repeat 5 2) ++ (repeat 30 2 ++ repeat 5 2) ++ (repeat 30 2 ++ repeat 5 2) ++ repeat 5 8 /\
  solver_ints (after hist44) = [[30; 30; 30; 30; 5; 5]; [30; 30; 30; 30; 5; 5]; repeat 0 6; repeat 0 6].
Proof. exact ex44. Qed.

(** C67: without wire resistance every guarded write is memory safe, whatever the weights, noise and read disturb. *)
Theorem C67_write_safe : forall (MC : Machine) w x m n mat,
  reach w -> wx w = Some x -> digital_only (wcfg w) = false -> parasitics (wcfg w) = false ->
  SPLIT (wcfg w) <> [] -> dims_in (wcfg w) m n -> Z.of_nat (List.length mat) >= m * n -> memory_safe (step w (CpyMtrx mat m n)).
Proof. exact @no_solver_write. Qed.
Print Assumptions C67_write_safe.

(** Every guarded MVM is, whatever was written, the inputs and the noise; profiling is C20. *)
Theorem C67_mvm_safe : forall (MC : Machine) w x m n res vec mat l,
  reach w -> wx w = Some x -> digital_only (wcfg w) = false -> parasitics (wcfg w) = false ->
  par (xm x) = None -> adc_profile (wcfg w) = false ->
  SPLIT (wcfg w) <> [] -> dims_in (wcfg w) m n -> Z.of_nat (List.length res) >= m -> Z.of_nat (List.length vec) >= n ->
  memory_safe (step w (ExeMvm res vec mat m n l)).
Proof. exact @no_solver_mvm. Qed.
Print Assumptions C67_mvm_safe.

Example C67_example : table43 false = map (fun md => (md, [(0, 0, 0); (0, 0, 0); (0, 0, 0)])) wired_modes.
Proof. exact ex67. Qed.

(** C84: once an integer MVM has run with wire resistance, no update that sets w_res to 0 helps: whatever happened
    since then short of a new crossbar, every guarded MVM with more sliced rows than M writes past the end of the
    buffer of the slice currents (C67 asks for a crossbar that never had a solver). *)
Theorem C84_wires_off : forall (MC : Machine) w x res0 vec0 mat0 m0 n0 l0 w1 r0 h w2 rs res vec mat m n l,
  reach w -> wx w = Some x -> is_int (m_mode (wcfg w)) = true -> digital_only (wcfg w) = false -> parasitics (wcfg w) = true ->
  widths_fit (wcfg w) -> dims_in (wcfg w) m0 n0 -> step w (ExeMvm res0 vec0 mat0 m0 n0 l0) = Ok (w1, r0) ->
  Forall no_create h -> run w1 h = Ok (w2, rs) -> parasitics (wcfg w2) = false ->
  widths_fit (wcfg w2) -> dims_in (wcfg w2) m n -> 1 <= n <= int32_max ->
  M (wcfg w2) < m * Z.of_nat (List.length (SPLIT (wcfg w2))) -> all_first (input_in (wcfg w2)) vec n ->
  (forall r, step w2 (ExeMvm res vec mat m n l) <> Ok r) /\
  (c2c_var (wcfg w2) = false -> step w2 (ExeMvm res vec mat m n l) = UB OutOfBounds).
Proof. exact @wires_off. Qed.
Print Assumptions C84_wires_off.

(** 4x4 crossbars, 2-bit weights in two slices, five integer modes.  Outcome (0: fine, 1: out of bounds) of a 4x2 MVM
    with w_res = 0 after a 2x2 MVM with w_res = 1; the same without the first MVM; the same in a crossbar loaded with
    w_res = 0.  The hypotheses of the theorem are met by such a history. *)
Example C84_example : map try84 int_wired = repeat (1, 0, 0) 5 /\ exists w w1 w2, hyps84_of w w1 w2.
Proof. exact (conj ex84 hyps84). Qed.

(** ** C85: software refresh with wire resistance
    [refreshes c x] (as in C38): the next MVM is due for a refresh. *)
(** In the modes with two rows per input an MVM that is due for a refresh never succeeds. *)
Theorem C85_refresh_refuted : forall (MC : Machine) w x a w' ans,
  reach w -> wx w = Some x -> digital_only (wcfg w) = false -> parasitics (wcfg w) = true ->
  two_rows (m_mode (wcfg w)) = true -> read_disturb (wcfg w) = true -> mitigation (wcfg w) = SOFTWARE ->
  refreshes (wcfg w) x = true -> step w a = Ok (w', ans) -> multiplied a ans = false.
Proof. exact @refresh_never. Qed.
Print Assumptions C85_refresh_refuted.

(** No MVM ever counts a refresh there. *)
Theorem C85_never_counted : forall (MC : Machine) w x a w' ans,
  reach w -> wx w = Some x -> digital_only (wcfg w) = false -> parasitics (wcfg w) = true ->
  two_rows (m_mode (wcfg w)) = true -> step w a = Ok (w', ans) -> multiplied a ans = true ->
  exists x', wx w' = Some x' /\ n_refresh x' = n_refresh x.
Proof. exact @refresh_kept. Qed.
Print Assumptions C85_never_counted.

(** In all other modes C43_mvm_safe holds with every mitigation strategy. *)
Theorem C85_mvm_safe : forall (MC : Machine) w x mat0 m0 n0 w1 h w2 rs res vec mat m n l,
  reach w -> wx w = Some x -> digital_only (wcfg w) = false -> parasitics (wcfg w) = true -> SPLIT (wcfg w) <> [] ->
  two_rows (m_mode (wcfg w)) = false -> adc_profile (wcfg w) = false ->
  dims_in (wcfg w) m0 n0 -> step w (CpyMtrx mat0 m0 n0) = Ok (w1, RCode 0) ->
  Forall asking h -> run w1 h = Ok (w2, rs) ->
  dims_in (wcfg w) m n -> Z.of_nat (List.length res) >= m -> Z.of_nat (List.length vec) >= n ->
  m <= m0 -> solver_fits (wcfg w) m n ->
  memory_safe (step w2 (ExeMvm res vec mat m n l)).
Proof. exact @safe_soft_mvm. Qed.
Print Assumptions C85_mvm_safe.

(** After a refresh even MVMs with more rows than were ever written are memory safe (before, C43_mvm_oob). *)
Theorem C85_refresh_rearms : forall (MC : Machine) w x a w1 ans h w2 rs res vec mat m n l,
  reach w -> wx w = Some x -> digital_only (wcfg w) = false -> parasitics (wcfg w) = true -> SPLIT (wcfg w) <> [] ->
  read_disturb (wcfg w) = true -> mitigation (wcfg w) = SOFTWARE ->
  two_rows (m_mode (wcfg w)) = false -> adc_profile (wcfg w) = false ->
  refreshes (wcfg w) x = true -> step w a = Ok (w1, ans) -> multiplied a ans = true ->
  Forall asking h -> run w1 h = Ok (w2, rs) ->
  dims_in (wcfg w) m n -> Z.of_nat (List.length res) >= m -> Z.of_nat (List.length vec) >= n -> solver_fits (wcfg w) m n ->
  memory_safe (step w2 (ExeMvm res vec mat m n l)).
Proof. exact @refresh_rearms. Qed.
Print Assumptions C85_refresh_rearms.

(** 4x4 crossbars with IEEE arithmetic, refresh due at every second MVM, eleven modes.  Outcome (0: fine, 1: out of
    bounds) of the second MVM; of an MVM with two rows after one row was written; of the same after two MVMs with one
    row.  States that meet the hypotheses in a mode of either kind. *)
Example C85_example :
  map try85 xnn_wired =
    map (fun md => if existsb (String.eqb md) ["BNN_V"; "BNN_VI"; "TNN_I"]%string then (1, 1, 1) else (0, 1, 0)) xnn_wired /\
  (due85 (w85 "BNN_VI") /\ two_rows (m_mode (wcfg (w85 "BNN_VI"))) = true) /\
  due85 (w85 "BNN_I") /\ two_rows (m_mode (wcfg (w85 "BNN_I"))) = false /\
  (exists w1 ans, step (w85 "BNN_I") (mul85 1) = Ok (w1, ans) /\ multiplied (mul85 1) ans = true) /\
  dims_in (wcfg (w85 "BNN_I")) 2 2 /\ solver_fits (wcfg (w85 "BNN_I")) 2 2.
Proof. exact (conj ex85 (conj due85_VI due85_I)). Qed.
