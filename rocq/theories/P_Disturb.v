(** Property theorems C35 to C41, C61 and C63: read disturb. *)
From Coq Require Import List ZArith Reals Bool String Lra.
From Verif Require Import Base Machine Json Config ReadDisturb Mapper Crossbar Api RMachine FloatMachine Reach Spec Demo
  RdSpec RdApi RdRefresh RdReal RdEx.
Import ListNotations.
Local Open Scope Z_scope.

(** C35: without refreshes the cycle counter of every cell is the number of calls that changed the
    cell from 1 to 0 since the crossbar was created.  [p]: positive or negative array. *)
Theorem C35_cycles_count_resets :
  forall (MC : Machine) w0 s w h w' rs (p : bool), reach w0 -> step w0 (SetConfig s) = Ok (w, RUnit) ->
  read_disturb (wcfg w) = true -> (mitigation (wcfg w) = MIT_OFF \/ digital_only (wcfg w) = true) ->
  Forall no_create h -> run w h = Ok (w', rs) ->
  forall i j, stored (if p then CycP else CycM) w' i j = resets (if p then GdP else GdM) i j w h.
Proof. exact @cycles_count. Qed.
Print Assumptions C35_cycles_count_resets.

(** Four writes and an MVM: cycles 2 0 0 2 and 1 0 0 1. *)
Example C35_example : @view (fade 1) (hist 1 "BNN_VI" (@every2) [put22; alt22; mul22; put22; alt22]) =
  (true, [5; 5; 30; 5], [30; 30; 5; 30],
   Some [[0; 0; 1; 0]; [2; 0; 0; 2]; [1; 0; 0; 1]; [0]; [0]; [0]; [0]]).
Proof. exact ex35. Qed.

(** C36: the factor the code computes is the closed formula [fading], for every number of reads and
    every cycle count inside the validity range. *)
Theorem C36_factor_formula :
  forall (nz : bool -> nat -> R) (s : bool) (w : @world (R_machine nz s)) x r k n,
  reach w -> wx w = Some x -> xrd x = Some r -> 0 <= n < endurance ->
  fst (g0_factor (wcfg w) r k n) = fading (V_read (wcfg w)) (t_read (wcfg w)) k n.
Proof. exact factor_real. Qed.
Print Assumptions C36_factor_formula.

(** C36: range, initial plateau, and monotonicity in reads and in cycles. *)
Theorem C36_factor_shape :
  forall (nz : bool -> nat -> R) (s : bool) (w : @world (R_machine nz s)) x r
         (f := fun k n => fst (g0_factor (wcfg w) r k n)),
  reach w -> wx w = Some x -> xrd x = Some r -> (0 < t_read (wcfg w))%R ->
  forall k n, 0 <= n < endurance ->
    (0 < f k n <= 1)%R /\
    ((IZR k * t_read (wcfg w) < onset (V_read (wcfg w)) n)%R -> f k n = 1%R) /\
    (forall k', k <= k' -> (f k' n <= f k n)%R) /\
    (forall n', n <= n' < endurance -> (f k n' <= f k n)%R).
Proof. exact factor_shape. Qed.
Print Assumptions C36_factor_shape.

(** The factor does fall below 1. *)
Example C36_example : (exists k, fading (-1) (1 / 1000000) k 5 < 1)%R /\ 0 <= 5 < endurance.
Proof. split; [apply fades_eventually; lra|]. unfold endurance. split; [discriminate|reflexivity]. Qed.

(** C37, low-resistive cells, any arithmetic: with mitigation OFF, after an MVM that brings the number
    of reads since the last write to a multiple of the update frequency, every low-resistive cell of the
    positive array, and of the negative one where it takes part, carries LRS times the factor for that
    number of reads and the cell's own cycles. *)
Theorem C37_lrs :
  forall (MC : Machine) w a w' ans x' k (p : bool),
  reach w -> mitigation (wcfg w) = MIT_OFF -> step w a = Ok (w', ans) -> multiplied a ans = true -> wx w' = Some x' ->
  step w' (GetNum NRead) = Ok (w', RNum k) -> updates (wcfg w) k = true ->
  (p = false -> both_arrays (m_mode (wcfg w))) ->
  forall i j, cell (if p then gd_p (xm x') else gd_m (xm x')) i j = 1 ->
  current (if p then ia_p (xm x') else ia_m (xm x')) i j =
    fmul (LRS (wcfg w)) (m_fading (V_read (wcfg w)) (t_read (wcfg w)) k (stored (if p then CycP else CycM) w' i j)).
Proof. exact @off_lrs. Qed.
Print Assumptions C37_lrs.

(** C37 over the reals, with the closed formula. *)
Theorem C37_lrs_exact :
  forall (nz : bool -> nat -> R) (s : bool) (w : @world (R_machine nz s)) a w' ans x' k (p : bool),
  reach w -> mitigation (wcfg w) = MIT_OFF -> step w a = Ok (w', ans) -> multiplied a ans = true -> wx w' = Some x' ->
  step w' (GetNum NRead) = Ok (w', RNum k) -> updates (wcfg w) k = true ->
  (p = false -> both_arrays (m_mode (wcfg w))) ->
  forall i j, cell (if p then gd_p (xm x') else gd_m (xm x')) i j = 1 ->
  0 <= stored (if p then CycP else CycM) w' i j < endurance ->
  current (if p then ia_p (xm x') else ia_m (xm x')) i j =
    (LRS (wcfg w) * fading (V_read (wcfg w)) (t_read (wcfg w)) k (stored (if p then CycP else CycM) w' i j))%R.
Proof. exact off_real. Qed.
Print Assumptions C37_lrs_exact.

(** C37, other cells: no sequence of MVMs, getters and harmless updates changes them. *)
Theorem C37_hrs :
  forall (MC : Machine) w h w' rs x, reach w -> wx w = Some x ->
  digital_only (wcfg w) = false -> read_disturb (wcfg w) = true -> mitigation (wcfg w) <> SOFTWARE ->
  Forall quiet h -> run w h = Ok (w', rs) ->
  exists x', wx w' = Some x' /\ forall i j,
    (cell (gd_p (xm x)) i j <> 1 -> current (ia_p (xm x')) i j = current (ia_p (xm x)) i j) /\
    (cell (gd_m (xm x)) i j <> 1 -> current (ia_m (xm x')) i j = current (ia_m (xm x)) i j).
Proof. exact @off_hrs. Qed.
Print Assumptions C37_hrs.

(** Update frequency 2, machine whose pow is one half. *)
Example C37_example :
  @view (fade 1) (hist 1 "BNN_VI" (@every2) [put22; mul22]) =
    (true, [30; 5; 30; 30], [5; 30; 5; 5], Some [[1; 0; 1; 1]; [0; 0; 0; 0]; [0; 0; 0; 0]; [1]; [0]; [0]; [0]]) /\
  @view (fade 1) (hist 1 "BNN_VI" (@every2) [put22; mul22; mul22]) =
    (true, [15; 5; 15; 15], [5; 15; 5; 5], Some [[1; 0; 1; 1]; [0; 0; 0; 0]; [0; 0; 0; 0]; [2]; [0]; [0]; [0]]) /\
  @view (fade 1) (hist 1 "BNN_VI" (@every2) [put22; mul22; mul22; mul22]) =
    (true, [15; 5; 15; 15], [5; 15; 5; 5], Some [[1; 0; 1; 1]; [0; 0; 0; 0]; [0; 0; 0; 0]; [3]; [0]; [0]; [0]]).
Proof. exact ex37. Qed.

(** C38: what an MVM under mitigation SOFTWARE does to counters and currents, with and without a
    refresh; any arithmetic. *)
Theorem C38_software :
  forall (MC : Machine) w x r a w' ans,
  reach w -> wx w = Some x -> xrd x = Some r -> digital_only (wcfg w) = false -> mitigation (wcfg w) = SOFTWARE ->
  step w a = Ok (w', ans) -> multiplied a ans = true ->
  exists x' r', wx w' = Some x' /\ xrd x' = Some r' /\ n_write x' = n_write x /\
  if updates (wcfg w) (n_read x + 1) &&
     fle (fmul (mitigation_fp (wcfg w)) (m_onset (V_read (wcfg w)) (n_write x + n_refresh x)))
         (fmul (f_of_Z (n_read x + 1)) (t_read (wcfg w)))
  then
    n_read x' = 0 /\ n_refresh x' = n_refresh x + 1 /\
    (both_arrays (m_mode (wcfg w)) -> n_cell x' = n_cell x + ones (gd_p (xm x)) + ones (gd_m (xm x))) /\
    (~ both_arrays (m_mode (wcfg w)) -> n_cell x' = n_cell x + ones (gd_p (xm x))) /\
    (forall i j,
      cell (cyc_p r') i j = cell (cyc_p r) i j + (if cell (gd_p (xm x)) i j =? 1 then 1 else 0) /\
      (both_arrays (m_mode (wcfg w)) ->
       cell (cyc_m r') i j = cell (cyc_m r) i j + (if cell (gd_m (xm x)) i j =? 1 then 1 else 0)) /\
      (~ both_arrays (m_mode (wcfg w)) -> cell (cyc_m r') i j = cell (cyc_m r) i j)) /\
    (fle (HRS_NOISE (wcfg w)) f0 = true -> fle (LRS_NOISE (wcfg w)) f0 = true ->
     let exactly := fun g => fadd (fmul (f_of_Z g) (fsub (LRS (wcfg w)) (HRS (wcfg w)))) (HRS (wcfg w)) in
     forall i j, Z.of_nat i < M (wcfg w) -> Z.of_nat j < N (wcfg w) ->
      (current (ia_p (xm x')) i j = exactly (cell (gd_p (xm x)) i j) /\
       (cell (gd_p (xm x)) i j = 0 \/ cell (gd_p (xm x)) i j = 1)) /\
      (m_mode (wcfg w) <> BNN_III -> m_mode (wcfg w) <> BNN_IV ->
       current (ia_m (xm x')) i j = exactly (cell (gd_m (xm x)) i j) /\
       (cell (gd_m (xm x)) i j = 0 \/ cell (gd_m (xm x)) i j = 1)))
  else n_read x' = n_read x + 1 /\ n_refresh x' = n_refresh x /\ n_cell x' = n_cell x /\ cyc_p r' = cyc_p r /\ cyc_m r' = cyc_m r.
Proof. exact @soft_step. Qed.
Print Assumptions C38_software.

(** C38 over the reals: after a refresh without noise every cell that can hold a weight carries LRS or HRS. *)
Theorem C38_nominal_exact :
  forall (nz : bool -> nat -> R) (s : bool) (w : @world (R_machine nz s)) x a w' ans,
  reach w -> wx w = Some x -> digital_only (wcfg w) = false -> read_disturb (wcfg w) = true ->
  mitigation (wcfg w) = SOFTWARE -> step w a = Ok (w', ans) -> multiplied a ans = true -> refreshes (wcfg w) x = true ->
  (HRS_NOISE (wcfg w) <= 0)%R -> (LRS_NOISE (wcfg w) <= 0)%R ->
  exists x', wx w' = Some x' /\ forall i j, Z.of_nat i < M (wcfg w) -> Z.of_nat j < N (wcfg w) ->
    current (ia_p (xm x')) i j = (if cell (gd_p (xm x)) i j =? 1 then LRS (wcfg w) else HRS (wcfg w)) /\
    (m_mode (wcfg w) <> BNN_III -> m_mode (wcfg w) <> BNN_IV ->
     current (ia_m (xm x')) i j = (if cell (gd_m (xm x)) i j =? 1 then LRS (wcfg w) else HRS (wcfg w))).
Proof. exact soft_real. Qed.
Print Assumptions C38_nominal_exact.

(** The second MVM after a write triggers a refresh. *)
Example C38_example : @view (fade 1) (hist 1 "BNN_VI" (@soft2) [put22; mul22; mul22]) =
    (true, [30; 5; 30; 30], [5; 30; 5; 5], Some [[1; 0; 1; 1]; [1; 0; 1; 1]; [0; 1; 0; 0]; [0]; [1]; [4]; [0]]) /\
  (exists x, wx (after (hist 1 "BNN_VI" (@soft2) [put22; mul22])) = Some x /\
     @refreshes (fade 1) (wcfg (after (hist 1 "BNN_VI" (@soft2) [put22; mul22]))) x = true).
Proof. exact ex38. Qed.

(** C39: with mitigation CELL_BASED and no noise on LRS, an MVM at an update point either refreshes a
    low-resistive cell (its degraded value is outside the tolerance) or leaves it degraded. *)
Theorem C39_cell_based :
  forall (MC : Machine) w x r a w' ans (p : bool),
  reach w -> wx w = Some x -> xrd x = Some r -> mitigation (wcfg w) = CELL_BASED ->
  step w a = Ok (w', ans) -> multiplied a ans = true -> updates (wcfg w) (n_read x + 1) = true ->
  (p = false -> both_arrays (m_mode (wcfg w))) -> fle (LRS_NOISE (wcfg w)) f0 = true ->
  exists x' r', wx w' = Some x' /\ xrd x' = Some r' /\
  forall i j, cell (if p then gd_p (xm x) else gd_m (xm x)) i j = 1 ->
    let reads := cell (if p then con_p r else con_m r) i j + (if counts (m_mode (wcfg w)) a i j then 1 else 0) in
    let cycles := cell (if p then cyc_p r else cyc_m r) i j in
    let faded := fmul (LRS (wcfg w)) (m_fading (V_read (wcfg w)) (t_read (wcfg w)) reads cycles) in
    if off_limits (wcfg w) faded
    then current (if p then ia_p (xm x') else ia_m (xm x')) i j = LRS (wcfg w) /\
         cell (if p then cyc_p r' else cyc_m r') i j = cycles + 1 /\ cell (if p then con_p r' else con_m r') i j = 0
    else current (if p then ia_p (xm x') else ia_m (xm x')) i j = faded /\
         cell (if p then cyc_p r' else cyc_m r') i j = cycles /\ cell (if p then con_p r' else con_m r') i j = reads.
Proof. exact @cell_step. Qed.
Print Assumptions C39_cell_based.

(** C39 over the reals: afterwards every low-resistive cell is within the tolerance. *)
Theorem C39_within_tolerance :
  forall (nz : bool -> nat -> R) (s : bool) (w : @world (R_machine nz s)) x a w' ans (p : bool),
  reach w -> wx w = Some x -> mitigation (wcfg w) = CELL_BASED ->
  step w a = Ok (w', ans) -> multiplied a ans = true -> updates (wcfg w) (n_read x + 1) = true ->
  (p = false -> both_arrays (m_mode (wcfg w))) -> (LRS_NOISE (wcfg w) <= 0)%R ->
  exists x', wx w' = Some x' /\
  forall i j, cell (if p then gd_p (xm x) else gd_m (xm x)) i j = 1 ->
    ((1 - tolerance (wcfg w)) * LRS (wcfg w) <= current (if p then ia_p (xm x') else ia_m (xm x')) i j
      <= (1 + tolerance (wcfg w)) * LRS (wcfg w))%R.
Proof. exact cell_real. Qed.
Print Assumptions C39_within_tolerance.

(** Every MVM raises the cell refresh counter by exactly the cycles it adds, under every mitigation. *)
Theorem C39_refresh_count :
  forall (MC : Machine) w x r a w' ans,
  reach w -> wx w = Some x -> xrd x = Some r -> step w a = Ok (w', ans) -> multiplied a ans = true ->
  exists x' r', wx w' = Some x' /\ xrd x' = Some r' /\
    n_cell x' - n_cell x = sum_all (cyc_p r') + sum_all (cyc_m r') - sum_all (cyc_p r) - sum_all (cyc_m r).
Proof. exact @refresh_total. Qed.
Print Assumptions C39_refresh_count.

(** Two MVMs, tolerance 0: each refreshes all four low-resistive cells. *)
Example C39_example : @view (fade 1) (hist 1 "BNN_VI" (@cellwise) [put22; mul22; mul22]) =
    (true, [30; 5; 30; 30], [5; 30; 5; 5], Some [[1; 0; 1; 1]; [2; 0; 2; 2]; [0; 2; 0; 0]; [2]; [0]; [8]; [0]]).
Proof. exact ex39. Qed.

(** C40: in BNN_V, TNN_IV and TNN_V no sequence of MVMs changes a cycle count of the second array, nor,
    unless mitigation is SOFTWARE, any of its currents. *)
Theorem C40_second_array_refuted :
  forall (MC : Machine) w h w' rs x, reach w -> wx w = Some x ->
  digital_only (wcfg w) = false -> read_disturb (wcfg w) = true ->
  m_mode (wcfg w) = BNN_V \/ m_mode (wcfg w) = TNN_IV \/ m_mode (wcfg w) = TNN_V ->
  Forall quiet h -> run w h = Ok (w', rs) ->
  exists x', wx w' = Some x' /\
    (forall i j, stored CycM w' i j = stored CycM w i j) /\
    (mitigation (wcfg w) <> SOFTWARE -> forall i j, current (ia_m (xm x')) i j = current (ia_m (xm x)) i j).
Proof. exact @second_array. Qed.
Print Assumptions C40_second_array_refuted.

(** C40 over the reals, without noise: the currents of the second array never change, also with SOFTWARE. *)
Theorem C40_second_array_exact_refuted :
  forall (nz : bool -> nat -> R) (s : bool) (w : @world (R_machine nz s)) h w' rs x, reach w -> wx w = Some x ->
  digital_only (wcfg w) = false -> m_mode (wcfg w) = BNN_V \/ m_mode (wcfg w) = TNN_IV \/ m_mode (wcfg w) = TNN_V ->
  (HRS_NOISE (wcfg w) <= 0)%R -> (LRS_NOISE (wcfg w) <= 0)%R ->
  Forall quiet h -> run w h = Ok (w', rs) ->
  exists x', wx w' = Some x' /\ forall i j, current (ia_m (xm x')) i j = current (ia_m (xm x)) i j.
Proof. exact second_real. Qed.
Print Assumptions C40_second_array_exact_refuted.

(** The first array degrades from 30 to 15, the low-resistive cell of the second one stays at 30. *)
Example C40_example :
  @view (fade 1) (hist 1 "BNN_V" (@every2) [put22; mul11; mul11]) =
    (true, [15; 5; 15; 15], [5; 30; 5; 5], Some [[1; 0; 1; 1]; [0; 0; 0; 0]; [0; 0; 0; 0]; [2]; [0]; [0]; [0]]) /\
  @view (fade 1) (hist 1 "TNN_IV" (@every2) [put22; mul11; mul11]) =
    (true, [15; 15; 15; 15; 5; 5; 5; 5], [5; 30; 5; 5; 5; 5; 5; 5],
     Some [[1; 1; 1; 1; 0; 0; 0; 0]; [0; 0; 0; 0; 0; 0; 0; 0]; [0; 0; 0; 0; 0; 0; 0; 0]; [2]; [0]; [0]; [0]]).
Proof. exact ex40. Qed.

(** C41: the flag rises exactly at an update point that evaluates the model outside its validity, and
    no call other than one that creates a crossbar clears it. *)
Theorem C41_flag :
  forall (MC : Machine) w x r a w' ans b,
  reach w -> wx w = Some x -> xrd x = Some r -> no_create a -> step w a = Ok (w', ans) ->
  step w' GetOob = Ok (w', RBool b) ->
  (b = true <->
   step w GetOob = Ok (w, RBool true) \/
   (multiplied a ans = true /\ updates (wcfg w) (n_read x + 1) = true /\
    (some_invalid (gd_p (xm x)) (cyc_p r) \/
     (both_arrays (m_mode (wcfg w)) /\ some_invalid (gd_m (xm x)) (cyc_m r)) \/
     (mitigation (wcfg w) = SOFTWARE /\ m_invalid (n_write x + n_refresh x) = true)))).
Proof. exact @flag_step. Qed.
Print Assumptions C41_flag.

(** C41: a new crossbar starts with the flag down. *)
Theorem C41_new :
  forall (MC : Machine) w0 s w, step w0 (SetConfig s) = Ok (w, RUnit) -> read_disturb (wcfg w) = true ->
  step w GetOob = Ok (w, RBool false).
Proof. exact @flag_new. Qed.
Print Assumptions C41_new.

(** C41 over the reals: outside the validity means at least 1423518 cycles. *)
Theorem C41_validity_exact :
  forall (nz : bool -> nat -> R) (s : bool) n, @m_invalid (R_machine nz s) n = true <-> 1423518 <= n.
Proof. exact worn_real. Qed.
Print Assumptions C41_validity_exact.

(** Machine whose pow leaves the validity at once: flag after the write, after one MVM (no update point),
    after two, after another write. *)
Example C41_example :
  @answers (fade 400) world0 (hist 400 "BNN_VI" (@every2) [put22; GetOob; mul22; GetOob; mul22; GetOob; put22; GetOob]) =
  Some [[]; [0]; [0]; [0; 2; 0]; [0]; [0; 2; 0]; [1]; [0]; [1]].
Proof. exact ex41. Qed.

(** C61: whatever a low-resistive cell carried before, an update point that does not refresh it sets its
    current to LRS times the factor for its counters; no noise term and no programmed current enters.
    Every mitigation, any arithmetic. *)
Theorem C61_update_forgets :
  forall (MC : Machine) w x r a w' ans x' r' (p : bool),
  reach w -> wx w = Some x -> xrd x = Some r -> step w a = Ok (w', ans) -> multiplied a ans = true ->
  wx w' = Some x' -> xrd x' = Some r' -> updates (wcfg w) (n_read x + 1) = true ->
  (p = false -> both_arrays (m_mode (wcfg w))) ->
  forall i j, cell (if p then gd_p (xm x') else gd_m (xm x')) i j = 1 ->
  cell (if p then cyc_p r' else cyc_m r') i j = cell (if p then cyc_p r else cyc_m r) i j ->
  current (if p then ia_p (xm x') else ia_m (xm x')) i j =
    fmul (LRS (wcfg w)) (m_fading (V_read (wcfg w)) (t_read (wcfg w))
      (match mitigation (wcfg w) with
       | CELL_BASED => cell (if p then con_p r' else con_m r') i j
       | _ => n_read x'
       end) (cell (if p then cyc_p r' else cyc_m r') i j)).
Proof. exact @lrs_update. Qed.
Print Assumptions C61_update_forgets.

(** C63: in TNN_IV and TNN_V with mitigation CELL_BASED, an MVM ages cells in rows it does not read. *)
Theorem C63_unread_rows_refuted :
  forall (MC : Machine) w x r a w' ans i j,
  reach w -> wx w = Some x -> xrd x = Some r -> mitigation (wcfg w) = CELL_BASED ->
  m_mode (wcfg w) = TNN_IV \/ m_mode (wcfg w) = TNN_V ->
  step w a = Ok (w', ans) -> multiplied a ans = true -> updates (wcfg w) (n_read x + 1) = true ->
  fle (LRS_NOISE (wcfg w)) f0 = true ->
  covers a i j = false -> covers a (Nat.div2 i) j = true -> cell (gd_p (xm x)) i j = 1 ->
  let faded := fmul (LRS (wcfg w)) (m_fading (V_read (wcfg w)) (t_read (wcfg w)) (cell (con_p r) i j + 1) (cell (cyc_p r) i j)) in
  exists x' r', wx w' = Some x' /\ xrd x' = Some r' /\
  if off_limits (wcfg w) faded
  then current (ia_p (xm x')) i j = LRS (wcfg w) /\ cell (cyc_p r') i j = cell (cyc_p r) i j + 1
  else current (ia_p (xm x')) i j = faded /\ cell (con_p r') i j = cell (con_p r) i j + 1.
Proof. exact @unread_rows. Qed.
Print Assumptions C63_unread_rows_refuted.

(** Two MVMs of one row and one column: the cell below (third entry of the cycles) is refreshed twice. *)
Example C63_example : @view (fade 1) (hist 1 "TNN_IV" (@cellwise) [put22; mul11; mul11]) =
    (true, [30; 30; 30; 30; 5; 5; 5; 5], [5; 30; 5; 5; 5; 5; 5; 5],
     Some [[1; 1; 1; 1; 0; 0; 0; 0]; [2; 0; 2; 0; 0; 0; 0; 0]; [0; 0; 0; 0; 0; 0; 0; 0]; [2]; [0]; [4]; [0]]).
Proof. exact ex63. Qed.
