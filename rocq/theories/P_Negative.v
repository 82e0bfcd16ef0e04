(** Property theorem C89: wire resistances below zero. *)
From Coq Require Import String List ZArith Reals Bool Lia.
From Verif Require Import Base Machine Json Config Mapper Parasitics Crossbar Api Reach RMachine Spec SafeProps RSpec Demo
  AnaSpec KinSpec ParSpec AnaEx ParEx NegWire NegEx.
Import ListNotations.
Local Open Scope R_scope.

(** C89.  Exact arithmetic, the modes that read one column.  With a negative wire resistance, after a write of any
    valid matrix that fits: with [ideal] the sum of the currents of the driven cells of column i without wires, the
    solver returns more than ideal as long as the wires are small against the cells, and a negative current for a
    column of a single cell once they are large. *)
Theorem C89_negative_wire_refuted : forall (nz : bool -> nat -> R) (s : bool) (w : @world (R_machine nz s)) x p0 mat m0 n0,
  reach w -> wx w = Some x -> digital_only (wcfg w) = false -> parasitics (wcfg w) = true -> one_column (m_mode (wcfg w)) = true ->
  @par (R_machine nz s) (xm x) = Some p0 -> @ps_w (R_machine nz s) p0 < 0 -> split_covers (wcfg w) -> dims_in (wcfg w) m0 n0 ->
  all_entries (weight_in (wcfg w)) mat m0 n0 -> sums_fit (wcfg w) n0 ->
  (two_rows (m_mode (wcfg w)) = true -> 2 * n0 <= N (wcfg w) \/ m0 = 0)%Z ->
  exists w1 x1 p, step w (CpyMtrx mat m0 n0) = Ok (w1, RCode 0) /\ wx w1 = Some x1 /\ @par (R_machine nz s) (xm x1) = Some p /\
  forall vp vm k n,
  let c := wcfg w in
  (n <= Z.to_nat (N c))%nat -> (n <= List.length vp)%nat ->
  (two_rows (m_mode c) = true -> vm <> [] /\ n <= List.length vm /\ 2 * n <= Z.to_nat (N c))%nat ->
  (k <= Z.to_nat (M c))%nat -> (k <= outputs c (Z.to_nat m0))%nat ->
  exists t, @compute_currents (R_machine nz s) (Some p) vp vm k n = Ok t /\
  forall i, (i < k)%nat ->
  let ideal := fold_right Rplus 0 (map (fun r => if driven (m_mode c) vp vm n r
    then cell_at (m_mode c) (current (@ia_p (R_machine nz s) (xm x1))) (current (@ia_m (R_machine nz s) (xm x1))) (Z.to_nat n0) false i r else 0)
    (seq 0 (Z.to_nat (N c)))) in
  0 <= ideal /\
  (0 < ideal -> IZR (N c) * ideal * - @ps_w (R_machine nz s) p0 < - V_read c * 1000000 -> ideal < nth i t 0) /\
  (N c = 1%Z -> - V_read c * 1000000 < ideal * - @ps_w (R_machine nz s) p0 -> nth i t 0 < 0).
Proof. exact amplified. Qed.
Print Assumptions C89_negative_wire_refuted.

(** A document with w_res = -2 is accepted in each of these modes, hands a negative resistance to the solver, and
    meets the hypotheses above with a 3x2 matrix. *)
Theorem C89_accepted : forall (nz : bool -> nat -> R) (s : bool) name md,
  In (name, md) mode_names -> one_column md = true -> exists (w : @world (R_machine nz s)) x p,
  run world0 [SetConfig (Parsed (@neg_doc (R_machine nz s) md name))] = Ok (w, [RUnit]) /\ reach w /\ m_mode (wcfg w) = md /\
  one_column (m_mode (wcfg w)) = true /\
  wx w = Some x /\ digital_only (wcfg w) = false /\ parasitics (wcfg w) = true /\ @par (R_machine nz s) (xm x) = Some p /\ @ps_w (R_machine nz s) p < 0 /\
  split_covers (wcfg w) /\ dims_in (wcfg w) 3 2 /\ all_entries (weight_in (wcfg w)) [1; -1; 1; 1; -1; -1]%Z 3 2 /\
  sums_fit (wcfg w) 2 /\ (two_rows (m_mode (wcfg w)) = true -> 2 * 2 <= N (wcfg w) \/ 3 = 0)%Z.
Proof. exact ex89. Qed.
Print Assumptions C89_accepted.

(** binary32, a column of n ones: results with w_res = 0, 500, -500, -2000 (four cells) and 0, -1000000 (one cell). *)
Example C89_results :
  map (try89 "I_UINT_W_OFFS" 4 [3; 3; 3; 3]%Z) [0; 500; -500; -2000]%Z =
    [Some [[]; [0]; [0; 12]]; Some [[]; [0]; [0; 8]]; Some [[]; [0]; [0; 18]]; Some [[]; [0]; [0; 50]]]%Z /\
  map (try89 "BNN_III" 4 [1; 1; 1; 1]%Z) [0; 500; -500; -2000]%Z =
    [Some [[]; [0]; [0; 4]]; Some [[]; [0]; [0; 3]]; Some [[]; [0]; [0; 5]]; Some [[]; [0]; [0; 12]]]%Z /\
  map (try89 "I_UINT_W_OFFS" 1 [3]%Z) [0; -1000000]%Z = [Some [[]; [0]; [0; 3]]; Some [[]; [0]; [0; -8]]]%Z /\
  map (try89 "BNN_III" 1 [1]%Z) [0; -1000000]%Z = [Some [[]; [0]; [0; 1]]; Some [[]; [0]; [0; -1]]]%Z.
Proof. exact ex89_results. Qed.
