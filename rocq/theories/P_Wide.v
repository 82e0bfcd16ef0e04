(** C77, C78: digital products with weights out of range. *)
From Coq Require Import String List ZArith Bool.
From Verif Require Import Base Machine Json Config Mapper Crossbar Api Reach Spec Demo WideSpec WideProps WideEx OddSpec
  OddProps OddEx.
Import ListNotations.
Local Open Scope Z_scope.

(** C77: integer modes take any weight: a weight that W_BIT bits cannot hold counts as its sign with the low
    W_BIT bits of its magnitude, or wraps around (I_UINT_W_OFFS).  I_OFFS_W_DIFF alone corrects its results
    with the weights as they were written, hence is off by 2^(I_BIT - 1) times what was cut off. *)
Theorem C77_wide_weights :
  forall (MC : Machine), strict_shl = false ->
  forall w x mat vec res mat' m n l,
  reach w -> wx w = Some x -> digital_only (wcfg w) = true -> is_int (m_mode (wcfg w)) = true ->
  total (SPLIT (wcfg w)) <= W_BIT (wcfg w) -> widths_fit (wcfg w) -> dims_in (wcfg w) m n ->
  all_entries (writable (wcfg w)) mat m n -> all_first (input_in (wcfg w)) vec n ->
  wide_room (wcfg w) mat res m n ->
  exists w1 w2,
    step w (CpyMtrx mat m n) = Ok (w1, RCode 0) /\
    step w1 (ExeMvm res vec mat' m n l) =
      Ok (w2, RRes 0 (wide_product (wcfg w) res mat vec (Z.to_nat m) (Z.to_nat n))).
Proof. exact @wide_mvm. Qed.
Print Assumptions C77_wide_weights.

(** Six modes, three of the six weights out of the range of W_BIT = 4 bits. *)
Example C77_example :
  Forall (fun mode => reach (ex01 mode) /\ wx (ex01 mode) <> None /\
    digital_only (wcfg (ex01 mode)) = true /\ is_int (m_mode (wcfg (ex01 mode))) = true /\
    total (SPLIT (wcfg (ex01 mode))) <= W_BIT (wcfg (ex01 mode)) /\ widths_fit (wcfg (ex01 mode)) /\ dims_in (wcfg (ex01 mode)) 2 3 /\
    all_entries (writable (wcfg (ex01 mode))) [17; -100; 3; 0; 1000; -16] 2 3 /\
    all_first (input_in (wcfg (ex01 mode))) [7; 0; 6] 3 /\ wide_room (wcfg (ex01 mode)) [17; -100; 3; 0; 1000; -16] [100; -100; 9] 2 3)
  ["I_DIFF_W_DIFF_1XB"; "I_DIFF_W_DIFF_2XB"; "I_OFFS_W_DIFF"; "I_TC_W_DIFF"; "I_UINT_W_DIFF";
   "I_UINT_W_OFFS"]%string.
Proof. exact ex77. Qed.

(** With such weights the mapping mode shows in digital results: weight 17 in four bits, input 3. *)
Theorem C77_mode_visible_refuted :
  exists mat vec : list Z,
  digital_only (wcfg (ex01 "I_OFFS_W_DIFF")) = true /\ digital_only (wcfg (ex01 "I_TC_W_DIFF")) = true /\
  answers (ex01 "I_OFFS_W_DIFF") [CpyMtrx mat 1 1; ExeMvm [0] vec [] 1 1 ""%string] = Some [[0]; [0; -125]] /\
  answers (ex01 "I_TC_W_DIFF") [CpyMtrx mat 1 1; ExeMvm [0] vec [] 1 1 ""%string] = Some [[0]; [0; 3]].
Proof. exact mode_visible_refuted. Qed.
Print Assumptions C77_mode_visible_refuted.

(** C78: the binary and ternary modes that do not look at their weights take other numbers for weights: BNN_III
    and BNN_IV round to -1 or 1 (in different directions), TNN_IV keeps two bits with sign, TNN_V the two bits of
    the number plus one. *)
Theorem C78_odd_weights :
  forall (MC : Machine), strict_shl = false ->
  forall w x mat vec res mat' m n l,
  reach w -> wx w = Some x -> digital_only (wcfg w) = true -> accepts_weights (m_mode (wcfg w)) = true ->
  dims_in (wcfg w) m n ->
  all_entries (storable (wcfg w)) mat m n -> all_first (input_in (wcfg w)) vec n -> room (wcfg w) res m n ->
  exists w1 w2,
    step w (CpyMtrx mat m n) = Ok (w1, RCode 0) /\
    step w1 (ExeMvm res vec mat' m n l) =
      Ok (w2, RRes 0 (odd_product (wcfg w) res mat vec (Z.to_nat m) (Z.to_nat n))).
Proof. exact @odd_mvm. Qed.
Print Assumptions C78_odd_weights.

Example C78_example :
  Forall (fun '(mode, mat) => reach (ex_xnn mode) /\ wx (ex_xnn mode) <> None /\
    digital_only (wcfg (ex_xnn mode)) = true /\ accepts_weights (m_mode (wcfg (ex_xnn mode))) = true /\
    dims_in (wcfg (ex_xnn mode)) 2 3 /\ all_entries (storable (wcfg (ex_xnn mode))) mat 2 3 /\
    all_first (input_in (wcfg (ex_xnn mode))) [1; -1; 1] 3 /\ room (wcfg (ex_xnn mode)) [100; -100; 9] 2 3)
  [("BNN_III", [0; -1; 2; 1; 0; 0]); ("BNN_IV", [0; -2; 2; 1; 0; -1]); ("TNN_IV", [2; -7; 1000; 3; 0; -1]);
   ("TNN_V", [2; -7; 1000; 3; 0; -1])]%string.
Proof. exact ex78. Qed.

(** The number 0 is -1 in BNN_III and 1 in BNN_IV. *)
Theorem C78_zero_weight_refuted :
  exists mat vec : list Z,
  ~ all_entries (weight_in (wcfg (ex_xnn "BNN_III"))) mat 1 1 /\
  answers (ex_xnn "BNN_III") [CpyMtrx mat 1 1; ExeMvm [0] vec [] 1 1 ""%string] = Some [[0]; [0; -1]] /\
  answers (ex_xnn "BNN_IV") [CpyMtrx mat 1 1; ExeMvm [0] vec [] 1 1 ""%string] = Some [[0]; [0; 1]].
Proof. exact zero_weight_refuted. Qed.
Print Assumptions C78_zero_weight_refuted.

(** The number 2 is -2 in TNN_IV and 2 in TNN_V. *)
Theorem C78_two_weight_refuted :
  exists mat vec : list Z,
  ~ all_entries (weight_in (wcfg (ex_xnn "TNN_IV"))) mat 1 1 /\
  answers (ex_xnn "TNN_IV") [CpyMtrx mat 1 1; ExeMvm [0] vec [] 1 1 ""%string] = Some [[0]; [0; -2]] /\
  answers (ex_xnn "TNN_V") [CpyMtrx mat 1 1; ExeMvm [0] vec [] 1 1 ""%string] = Some [[0]; [0; 2]].
Proof. exact two_weight_refuted. Qed.
Print Assumptions C78_two_weight_refuted.
