(** Property theorems C51, C53, C54: validation of the data, shifts of negative numbers, and the
    Python entry point. *)
From Coq Require Import List ZArith Bool String Lia.
From Verif Require Import Base Machine Json Config Mapper Crossbar Api Reach Spec Demo DigModes AnaSpec DigProps PyProps ValidProps ShiftUb ShiftSafe ShiftInt ShiftEx ShiftAna.
Import ListNotations.
Local Open Scope Z_scope.

(** C51, weights: an out-of-domain weight among the written ones terminates the process in the
    checking modes (before the 32-bit row sum can overflow), digital or analog. *)
Theorem C51_weight_rejected :
  forall (MC : Machine) (w : world) (mat : list Z) (m n : Z) (i j : nat),
  reach w -> wx w <> None -> checks_weights (m_mode (wcfg w)) = true -> dims_in (wcfg w) m n ->
  all_entries (fun v => Z.abs v * n <= int32_max) mat m n ->
  (i < Z.to_nat m)%nat -> (j < Z.to_nat n)%nat -> ~ weight_in (wcfg w) (entry mat (Z.to_nat n) i j) ->
  step w (CpyMtrx mat m n) = Died.
Proof. exact @weight_rejected. Qed.
Print Assumptions C51_weight_rejected.

(** In the other binary and ternary modes any weight is stored without complaint. *)
Theorem C51_weight_accepted :
  forall (MC : Machine) (w : world) (mat : list Z) (m n : Z),
  reach w -> wx w <> None -> digital_only (wcfg w) = true -> accepts_weights (m_mode (wcfg w)) = true ->
  dims_in (wcfg w) m n -> all_entries (fun v => Z.abs v < int32_max) mat m n ->
  exists w1, step w (CpyMtrx mat m n) = Ok (w1, RCode 0).
Proof. exact @weight_accepted. Qed.
Print Assumptions C51_weight_accepted.

(** C51, inputs. *)
Theorem C51_input_rejected :
  forall (MC : Machine) (w : world) (res vec mat : list Z) (m n : Z) (l : string) (j : nat),
  reach w -> wx w <> None -> digital_only (wcfg w) = true -> checks_inputs (m_mode (wcfg w)) = true ->
  dims_in (wcfg w) m n -> all_first (fun v => Z.abs v * n <= int32_max) vec n ->
  (j < Z.to_nat n)%nat -> ~ input_in (wcfg w) (nth j vec 0) ->
  step w (ExeMvm res vec mat m n l) = Died.
Proof. exact @input_rejected. Qed.
Print Assumptions C51_input_rejected.

(** The other modes compute with [effective] inputs, which are the inputs on the domain. *)
Theorem C51_input_accepted :
  forall (MC : Machine), strict_shl = false ->
  forall (w : world) (mat vec res mat' : list Z) (m n : Z) (l : string) (B : Z),
  reach w -> wx w <> None -> digital_only (wcfg w) = true -> accepts_inputs (m_mode (wcfg w)) = true ->
  dims_in (wcfg w) m n -> all_entries (weight_in (wcfg w)) mat m n ->
  0 <= B -> all_first (fun v => Z.abs v <= B) vec n -> n * (B + 4) <= int32_max ->
  all_first (fun x => Z.abs x + n * (B + 4) <= int32_max) res m ->
  exists w1 w2, step w (CpyMtrx mat m n) = Ok (w1, RCode 0) /\
    step w1 (ExeMvm res vec mat' m n l) =
      Ok (w2, RRes 0 (plus_product res mat (map (effective (m_mode (wcfg w))) vec) (Z.to_nat m) (Z.to_nat n))).
Proof. exact @input_accepted. Qed.
Print Assumptions C51_input_accepted.

Theorem C51_effective_on_domain :
  forall (MC : Machine) (c : config) (v : Z),
  accepts_inputs (m_mode c) = true -> input_in c v -> effective (m_mode c) v = v.
Proof. exact @effective_id. Qed.
Print Assumptions C51_effective_on_domain.

(** All modes; outcome 2 is the end of the process, 0 a normal return. *)
Example C51_example :
  Forall (fun mode => outcome (step (ex_xnn mode) (CpyMtrx [1; 5] 1 2)) = 2 /\ checks_weights (m_mode (wcfg (ex_xnn mode))) = true)
    ["BNN_I"; "BNN_II"; "BNN_V"; "BNN_VI"; "TNN_I"; "TNN_II"; "TNN_III"]%string /\
  Forall (fun mode => outcome (step (ex_xnn mode) (CpyMtrx [1; 5] 1 2)) = 0 /\ accepts_weights (m_mode (wcfg (ex_xnn mode))) = true)
    ["BNN_III"; "BNN_IV"; "TNN_IV"; "TNN_V"]%string /\
  Forall (fun mode => outcome (step (ex_xnn mode) (ExeMvm [0] [1; 5] [] 1 2 ""%string)) = 2 /\ checks_inputs (m_mode (wcfg (ex_xnn mode))) = true)
    ["BNN_III"; "BNN_IV"; "BNN_V"; "BNN_VI"; "TNN_I"; "TNN_IV"; "TNN_V"]%string /\
  Forall (fun '(mode, r) => answers (ex_xnn mode) [CpyMtrx [1; 1] 1 2; ExeMvm [0] [1; 4] [] 1 2 ""%string] = Some [[0]; [0; r]] /\
      accepts_inputs (m_mode (wcfg (ex_xnn mode))) = true /\ r = 1 + effective (m_mode (wcfg (ex_xnn mode))) 4)
    [("BNN_I", 4); ("BNN_II", 4); ("TNN_II", 2); ("TNN_III", 1)]%string.
Proof. exact C51_hyps. Qed.

(** C53, safe modes: the exact result also on a machine where shifting a negative number left is
    undefined ([strict_shl] may be true). *)
Theorem C53_no_shift_ub :
  forall (MC : Machine) (w : world) (x : xbar) (mat vec res mat' : list Z) (m n : Z) (l : string),
  In (m_mode (wcfg w)) [I_UINT_W_OFFS; BNN_I; BNN_II; BNN_III; BNN_IV; BNN_V; BNN_VI; TNN_I] ->
  reach w -> wx w = Some x -> digital_only (wcfg w) = true ->
  split_covers (wcfg w) -> widths_fit (wcfg w) -> dims_in (wcfg w) m n ->
  all_entries (weight_in (wcfg w)) mat m n -> all_first (input_in (wcfg w)) vec n ->
  room (wcfg w) res m n ->
  exists w1 w2,
    step w (CpyMtrx mat m n) = Ok (w1, RCode 0) /\
    step w1 (ExeMvm res vec mat' m n l) =
      Ok (w2, RRes 0 (plus_product res mat vec (Z.to_nat m) (Z.to_nat n))).
Proof. exact @strict_exact'. Qed.
Print Assumptions C53_no_shift_ub.

(** C53, the others: an in-domain 1x1 product whose MVM is undefined behaviour on such a machine. *)
Theorem C53_shift_ub :
  shift_ub (ex_strict "I_DIFF_W_DIFF_1XB") (-1) 1 /\ shift_ub (ex_strict "I_DIFF_W_DIFF_2XB") (-1) 1 /\
  shift_ub (ex_strict "I_OFFS_W_DIFF") (-1) 1 /\ shift_ub (ex_strict "I_TC_W_DIFF") (-1) 1 /\
  shift_ub (ex_strict "I_UINT_W_DIFF") (-1) 1 /\
  shift_ub (ex_strict_tc "TNN_II") (-1) (-1) /\ shift_ub (ex_strict_tc "TNN_III") (-1) 1 /\
  shift_ub (ex_strict_tc "TNN_IV") (-1) (-1) /\ shift_ub (ex_strict_tc "TNN_V") 1 (-1).
Proof. exact shift_ub_all. Qed.
Print Assumptions C53_shift_ub.

(** C53, in general: on a machine where shifting a negative number left is undefined, every valid MVM of a
    differential integer mode with a row whose product is negative is undefined behaviour, whatever the other rows,
    the accumulator and the slices are.  With offset inputs a row of negative weight sum is enough. *)
Theorem C53_negative_row :
  forall (MC : Machine), strict_shl = true ->
  forall (w : world) (mat vec res mat' : list Z) (m n : Z) (l : string) (k : nat),
  reach w -> wx w <> None -> digital_only (wcfg w) = true ->
  split_covers (wcfg w) -> widths_fit (wcfg w) -> dims_in (wcfg w) m n ->
  all_entries (weight_in (wcfg w)) mat m n -> all_first (input_in (wcfg w)) vec n ->
  room (wcfg w) res m n -> (k < Z.to_nat m)%nat ->
  (In (m_mode (wcfg w)) [I_DIFF_W_DIFF_1XB; I_DIFF_W_DIFF_2XB; I_TC_W_DIFF; I_UINT_W_DIFF] /\
     product mat vec (Z.to_nat n) k < 0 \/
   m_mode (wcfg w) = I_OFFS_W_DIFF /\ sum (Z.to_nat n) (entry mat (Z.to_nat n) k) < 0) ->
  exists w1, step w (CpyMtrx mat m n) = Ok (w1, RCode 0) /\
    step w1 (ExeMvm res vec mat' m n l) = UB BadShift.
Proof. exact @negative_row. Qed.
Print Assumptions C53_negative_row.

(** The five modes, a 2x2 matrix with one negative row. *)
Example C53_negative_example : Forall (fun mode => neg_case (ex_strict mode))
  ["I_DIFF_W_DIFF_1XB"; "I_DIFF_W_DIFF_2XB"; "I_OFFS_W_DIFF"; "I_TC_W_DIFF"; "I_UINT_W_DIFF"]%string.
Proof. exact neg_case_all. Qed.

(** C53, ternary modes, an exact description: the MVM is undefined if the matrix and the input contain a pair of
    weight and input whose product is shifted as a negative number, and returns the exact product otherwise. *)
Theorem C53_ternary :
  forall (MC : Machine), strict_shl = true ->
  forall (w : world) (mat vec res mat' : list Z) (m n : Z) (l : string),
  In (m_mode (wcfg w)) [TNN_II; TNN_III; TNN_IV; TNN_V] ->
  reach w -> wx w <> None -> digital_only (wcfg w) = true -> dims_in (wcfg w) m n ->
  all_entries (weight_in (wcfg w)) mat m n -> all_first (input_in (wcfg w)) vec n -> room (wcfg w) res m n ->
  exists w1, step w (CpyMtrx mat m n) = Ok (w1, RCode 0) /\
  let bad := exists k q, (k < Z.to_nat m)%nat /\ (q < Z.to_nat n)%nat /\
    negative_shift (m_mode (wcfg w)) (entry mat (Z.to_nat n) k q) (nth q vec 0) in
  (bad -> step w1 (ExeMvm res vec mat' m n l) = UB BadShift) /\
  (~ bad -> exists w2, step w1 (ExeMvm res vec mat' m n l) =
     Ok (w2, RRes 0 (plus_product res mat vec (Z.to_nat m) (Z.to_nat n)))).
Proof. exact @ternary_shift. Qed.
Print Assumptions C53_ternary.

(** A 2x2 matrix in the four modes, with an input of each kind. *)
Example C53_ternary_example : Forall (fun '(mode, v) =>
    tern_case (ex_strict_tc mode) [1; 0] /\ tern_case (ex_strict_tc mode) [v; v] /\ tern_bad (ex_strict_tc mode) [v; v] = true /\
    answers (ex_strict_tc mode) [CpyMtrx [1; -1; 0; 1] 2 2; ExeMvm [5; 7] [1; 0] [] 2 2 ""%string] = Some [[0]; [0; 6; 7]])
  [("TNN_II", -1); ("TNN_III", 1); ("TNN_IV", -1); ("TNN_V", -1)]%string.
Proof. exact tern_case_all. Qed.

(** C53, differential integer modes, an exact description: the MVM is undefined if one slice of the weights has a
    negative product with the inputs as the mode applies them (or, with offset inputs, a row of weights has a
    negative sum), and returns the exact product otherwise. *)
Theorem C53_integer :
  forall (MC : Machine), strict_shl = true ->
  forall (w : world) (mat vec res mat' : list Z) (m n : Z) (l : string),
  In (m_mode (wcfg w)) [I_DIFF_W_DIFF_1XB; I_DIFF_W_DIFF_2XB; I_OFFS_W_DIFF; I_TC_W_DIFF; I_UINT_W_DIFF] ->
  reach w -> wx w <> None -> digital_only (wcfg w) = true ->
  split_covers (wcfg w) -> widths_fit (wcfg w) -> dims_in (wcfg w) m n ->
  all_entries (weight_in (wcfg w)) mat m n -> all_first (input_in (wcfg w)) vec n -> room (wcfg w) res m n ->
  exists w1, step w (CpyMtrx mat m n) = Ok (w1, RCode 0) /\
  let bad := exists i, (i < Z.to_nat m)%nat /\ shifts_negative (wcfg w) mat vec (Z.to_nat n) i in
  (bad -> step w1 (ExeMvm res vec mat' m n l) = UB BadShift) /\
  (~ bad -> exists w2, step w1 (ExeMvm res vec mat' m n l) =
     Ok (w2, RRes 0 (plus_product res mat vec (Z.to_nat m) (Z.to_nat n)))).
Proof. exact @integer_shift. Qed.
Print Assumptions C53_integer.

(** The five modes: a matrix with a negative weight and an exact result, and one whose row [2 -1] times [1 1] is
    positive and yet undefined. *)
Example C53_integer_example : Forall (fun mode =>
    int_case (ex_strict mode) [3; -1; 1; 1] /\ int_case (ex_strict mode) [1; 1; 2; -1] /\ int_bad (ex_strict mode) [1; 1; 2; -1] = true /\
    product [1; 1; 2; -1] [1; 1] 2 1 = 1 /\
    answers (ex_strict mode) [CpyMtrx [3; -1; 1; 1] 2 2; ExeMvm [5; 7] [1; 1] [] 2 2 ""%string] = Some [[0]; [0; 7; 9]])
  ["I_DIFF_W_DIFF_1XB"; "I_DIFF_W_DIFF_2XB"; "I_OFFS_W_DIFF"; "I_TC_W_DIFF"; "I_UINT_W_DIFF"]%string.
Proof. exact int_case_all. Qed.

(** C53, analog crossbars: with offset inputs the sum of a row of weights is an integer that the MVM shifts, also where
    the currents are analog.  A row with a negative sum therefore rules out any result, for every input, every
    converter and every float arithmetic. *)
Theorem C53_offset_row :
  forall (MC : Machine), strict_shl = true ->
  forall (w w1 : world) (mat vec res mat' : list Z) (m n : Z) (l : string) (k : nat) (r : world * result),
  reach w -> m_mode (wcfg w) = I_OFFS_W_DIFF -> split_covers (wcfg w) -> dims_in (wcfg w) m n ->
  all_entries (weight_in (wcfg w)) mat m n -> sums_fit (wcfg w) n ->
  (k < Z.to_nat m)%nat -> sum (Z.to_nat n) (entry mat (Z.to_nat n) k) < 0 ->
  step w (CpyMtrx mat m n) = Ok (w1, RCode 0) ->
  step w1 (ExeMvm res vec mat' m n l) <> Ok r.
Proof. exact @offset_row. Qed.
Print Assumptions C53_offset_row.

(** An analog crossbar: the second row of [1 1; 1 -3] has a negative sum. *)
Example C53_offset_row_example : offs_case ex_offs.
Proof. exact offs_ex. Qed.

Example C53_example :
  reach (ex_strict "I_UINT_W_OFFS") /\ wx (ex_strict "I_UINT_W_OFFS") <> None /\ @strict_shl strict = true /\
  answers (ex_strict "I_UINT_W_OFFS") [CpyMtrx [-1] 1 1; ExeMvm [0] [1] [] 1 1 ""%string] = Some [[0]; [0; -1]].
Proof. exact C53_hyps. Qed.

(** C54. *)
Theorem C54_py_no_crossbar :
  forall (MC : Machine) (w : world) (res vec mat : list Z) (m n : Z),
  wx w = None -> step w (PyMvm res vec mat m n) = UB NullDeref.
Proof. exact @py_no_xbar. Qed.
Print Assumptions C54_py_no_crossbar.

(** Dimensions beyond the cell arrays: undefined behaviour on in-domain inputs.  The arrays have
    M * |SPLIT| rows, of which a weight row takes [rows_per_weight]. *)
Theorem C54_py_outside :
  forall (MC : Machine) (w : world) (res vec mat : list Z) (m n : Z),
  reach w -> wx w <> None -> digital_only (wcfg w) = true ->
  (is_int (m_mode (wcfg w)) = true -> SPLIT (wcfg w) <> []) ->
  1 <= m -> 1 <= n -> all_first (input_in (wcfg w)) vec n ->
  (N (wcfg w) < n \/ M (wcfg w) * Z.of_nat (List.length (SPLIT (wcfg w))) < m * rows_per_weight (wcfg w)) ->
  exists f, step w (PyMvm res vec mat m n) = UB f.
Proof. exact @py_outside. Qed.
Print Assumptions C54_py_outside.

(** On dimensions exe_mvm accepts, both are the same call. *)
Theorem C54_py_guarded :
  forall (MC : Machine) (w : world) (res vec mat : list Z) (m n : Z),
  reach w -> wx w <> None -> dims_in (wcfg w) m n ->
  step w (PyMvm res vec mat m n) = step w (ExeMvm res vec mat m n "Unknown"%string).
Proof. exact @py_guarded. Qed.
Print Assumptions C54_py_guarded.

(** TNN_IV has two rows of cells per weight row but uses only the first M: up to 2M rows can be
    read, which exe_mvm rejects. *)
Theorem C54_py_tnn_iv_refuted :
  exists (w : @world toy), reach w /\ wx w <> None /\ digital_only (wcfg w) = true /\ M (wcfg w) = 3 /\
  answers w [ExeMvm [0; 0; 0; 0] [1] [] 4 1 ""%string] = Some [[-1; 0; 0; 0; 0]] /\
  answers w [PyMvm [0; 0; 0; 0] [1] [] 4 1] = Some [[0; 1; 1; 0; 0]].
Proof. exact py_tnn_iv. Qed.
Print Assumptions C54_py_tnn_iv_refuted.

Example C54_example :
  reach (ex01 "I_TC_W_DIFF") /\ wx (ex01 "I_TC_W_DIFF") <> None /\ digital_only (wcfg (ex01 "I_TC_W_DIFF")) = true /\
  SPLIT (wcfg (ex01 "I_TC_W_DIFF")) <> [] /\ N (wcfg (ex01 "I_TC_W_DIFF")) < 5 /\
  outcome (step (ex01 "I_TC_W_DIFF") (PyMvm [0] [1; 1; 1; 1; 1] [] 1 5)) = 1 /\
  outcome (step (ex01 "I_TC_W_DIFF") (PyMvm [0; 0; 0; 0] [1] [] 4 1)) = 1 /\
  answers (ex01 "I_TC_W_DIFF") [ExeMvm [0; 0; 0; 0] [1] [] 4 1 ""%string] = Some [[-1; 0; 0; 0; 0]].
Proof. exact C54_hyps. Qed.
