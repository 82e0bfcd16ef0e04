(** Property theorems C01, C02, C03, C04, C07: digital matrix-vector products. *)
From Coq Require Import List ZArith Bool String Lia.
From Verif Require Import Base Machine Json Config Crossbar Api Reach Spec DigApi DigProps Demo.
Import ListNotations.
Local Open Scope Z_scope.

(** C01.  [strict_shl = false] is GCC's reading of left shifts of negative numbers; see
    C53 for the reading of the C++17 standard. *)
Theorem C01_digital_int_exact :
  forall (MC : Machine), strict_shl = false ->
  forall (w : world) (x : xbar) (mat vec res mat' : list Z) (m n : Z) (l : string),
  reach w -> wx w = Some x ->
  digital_only (wcfg w) = true -> is_int (m_mode (wcfg w)) = true ->
  split_covers (wcfg w) -> widths_fit (wcfg w) -> dims_in (wcfg w) m n ->
  all_entries (weight_in (wcfg w)) mat m n -> all_first (input_in (wcfg w)) vec n ->
  room (wcfg w) res m n ->
  exists w1 w2,
    step w (CpyMtrx mat m n) = Ok (w1, RCode 0) /\
    step w1 (ExeMvm res vec mat' m n l) =
      Ok (w2, RRes 0 (plus_product res mat vec (Z.to_nat m) (Z.to_nat n))).
Proof. exact @digital_int_exact. Qed.
Print Assumptions C01_digital_int_exact.

Example C01_example :
  Forall (fun mode => reach (ex01 mode) /\ wx (ex01 mode) <> None /\
    digital_only (wcfg (ex01 mode)) = true /\ is_int (m_mode (wcfg (ex01 mode))) = true /\
    split_covers (wcfg (ex01 mode)) /\ widths_fit (wcfg (ex01 mode)) /\ dims_in (wcfg (ex01 mode)) 2 3 /\
    all_entries (weight_in (wcfg (ex01 mode))) [7; -8; 3; 0; -1; 5] 2 3 /\
    all_first (input_in (wcfg (ex01 mode))) [7; 0; 6] 3 /\ room (wcfg (ex01 mode)) [100; -100; 9] 2 3)
  ["I_DIFF_W_DIFF_1XB"; "I_DIFF_W_DIFF_2XB"; "I_OFFS_W_DIFF"; "I_TC_W_DIFF"; "I_UINT_W_DIFF";
   "I_UINT_W_OFFS"]%string.
Proof. exact C01_hyps. Qed.

(** C02. *)
Theorem C02_digital_bnn_exact :
  forall (MC : Machine) (w : world) (x : xbar) (mat vec res mat' : list Z) (m n : Z) (l : string),
  reach w -> wx w = Some x -> digital_only (wcfg w) = true -> is_bnn (m_mode (wcfg w)) = true ->
  dims_in (wcfg w) m n ->
  all_entries (fun v => v = 1 \/ v = -1) mat m n -> all_first (fun v => v = 1 \/ v = -1) vec n ->
  n * 3 <= int32_max -> all_first (fun r => Z.abs r + n * 3 <= int32_max) res m ->
  exists w1 w2,
    step w (CpyMtrx mat m n) = Ok (w1, RCode 0) /\
    step w1 (ExeMvm res vec mat' m n l) =
      Ok (w2, RRes 0 (plus_product res mat vec (Z.to_nat m) (Z.to_nat n))).
Proof. exact @digital_bnn_exact. Qed.
Print Assumptions C02_digital_bnn_exact.

(** C03. *)
Theorem C03_digital_tnn_exact :
  forall (MC : Machine), strict_shl = false ->
  forall (w : world) (x : xbar) (mat vec res mat' : list Z) (m n : Z) (l : string),
  reach w -> wx w = Some x -> digital_only (wcfg w) = true -> is_tnn (m_mode (wcfg w)) = true ->
  dims_in (wcfg w) m n ->
  all_entries (fun v => v = 1 \/ v = -1 \/ v = 0) mat m n ->
  all_first (fun v => v = 1 \/ v = -1 \/ v = 0) vec n ->
  n * 3 <= int32_max -> all_first (fun r => Z.abs r + n * 3 <= int32_max) res m ->
  exists w1 w2,
    step w (CpyMtrx mat m n) = Ok (w1, RCode 0) /\
    step w1 (ExeMvm res vec mat' m n l) =
      Ok (w2, RRes 0 (plus_product res mat vec (Z.to_nat m) (Z.to_nat n))).
Proof. exact @digital_tnn_exact. Qed.
Print Assumptions C03_digital_tnn_exact.

Example C02_C03_example :
  Forall (fun mode => reach (ex_xnn mode) /\ wx (ex_xnn mode) <> None /\
    digital_only (wcfg (ex_xnn mode)) = true /\ is_bnn (m_mode (wcfg (ex_xnn mode))) = true /\
    dims_in (wcfg (ex_xnn mode)) 2 3)
  ["BNN_I"; "BNN_II"; "BNN_III"; "BNN_IV"; "BNN_V"; "BNN_VI"]%string /\
  Forall (fun mode => reach (ex_xnn mode) /\ wx (ex_xnn mode) <> None /\
    digital_only (wcfg (ex_xnn mode)) = true /\ is_tnn (m_mode (wcfg (ex_xnn mode))) = true /\
    dims_in (wcfg (ex_xnn mode)) 2 3)
  ["TNN_I"; "TNN_II"; "TNN_III"; "TNN_IV"; "TNN_V"]%string.
Proof. exact C02_C03_hyps. Qed.

(** C04. *)
Theorem C04_mode_invisible :
  forall (MC : Machine), strict_shl = false ->
  forall (wa wb : world) (xa xb : xbar) (mat vec res mata matb : list Z) (m n : Z) (la lb : string),
  reach wa -> reach wb -> wx wa = Some xa -> wx wb = Some xb ->
  digital_only (wcfg wa) = true -> digital_only (wcfg wb) = true ->
  split_covers (wcfg wa) -> widths_fit (wcfg wa) -> split_covers (wcfg wb) -> widths_fit (wcfg wb) ->
  dims_in (wcfg wa) m n -> dims_in (wcfg wb) m n ->
  all_entries (fun v => weight_in (wcfg wa) v /\ weight_in (wcfg wb) v) mat m n ->
  all_first (fun v => input_in (wcfg wa) v /\ input_in (wcfg wb) v) vec n ->
  room (wcfg wa) res m n -> room (wcfg wb) res m n ->
  exists wa1 wa2 wb1 wb2 r,
    step wa (CpyMtrx mat m n) = Ok (wa1, RCode 0) /\ step wa1 (ExeMvm res vec mata m n la) = Ok (wa2, RRes 0 r) /\
    step wb (CpyMtrx mat m n) = Ok (wb1, RCode 0) /\ step wb1 (ExeMvm res vec matb m n lb) = Ok (wb2, RRes 0 r).
Proof. exact @mode_invisible. Qed.
Print Assumptions C04_mode_invisible.

Example C04_example :
  let wa := ex_xnn "BNN_III" in let wb := ex01 "I_TC_W_DIFF" in
  reach wa /\ reach wb /\ m_mode (wcfg wa) <> m_mode (wcfg wb) /\
  split_covers (wcfg wa) /\ widths_fit (wcfg wa) /\ split_covers (wcfg wb) /\ widths_fit (wcfg wb) /\
  all_entries (fun v => weight_in (wcfg wa) v /\ weight_in (wcfg wb) v) [1; -1; -1; 1; 1; 1] 2 3 /\
  all_first (fun v => input_in (wcfg wa) v /\ input_in (wcfg wb) v) [1; -1; 1] 3 /\
  room (wcfg wa) [5; 6] 2 3 /\ room (wcfg wb) [5; 6] 2 3.
Proof. exact C04_hyps. Qed.

(** C07.  [quiet] calls are all calls except set_config, cpy_mtrx and updates that mention
    one of the structural keys. *)
Theorem C07_last_write_only :
  forall (MC : Machine), strict_shl = false ->
  forall (w : world) (x : xbar) (mat : list Z) (m n : Z) (h : list call),
  reach w -> wx w = Some x -> digital_only (wcfg w) = true -> split_covers (wcfg w) ->
  dims_in (wcfg w) m n -> all_entries (weight_in (wcfg w)) mat m n ->
  n * (if is_int (m_mode (wcfg w)) then 2 ^ W_BIT (wcfg w) else 1) <= int32_max ->
  Forall quiet h ->
  exists w1, step w (CpyMtrx mat m n) = Ok (w1, RCode 0) /\
    forall (w2 : world) (rs : list result) (res vec mat' : list Z) (l : string),
      run w1 h = Ok (w2, rs) ->
      widths_fit (wcfg w2) -> all_first (input_in (wcfg w2)) vec n -> room (wcfg w2) res m n ->
      exists w3, step w2 (ExeMvm res vec mat' m n l) =
        Ok (w3, RRes 0 (plus_product res mat vec (Z.to_nat m) (Z.to_nat n))).
Proof. exact @last_write_only. Qed.
Print Assumptions C07_last_write_only.

Example C07_example :
  Forall quiet ex07_quiet /\
  (let w1 := next (ex01 "I_OFFS_W_DIFF") [CpyMtrx [7; -8; 3; 0; -1; 5] 2 3] in
   let w2 := next w1 ex07_quiet in
   answers (ex01 "I_OFFS_W_DIFF") [CpyMtrx [7; -8; 3; 0; -1; 5] 2 3] = Some [[0]] /\
   (exists rs, run w1 ex07_quiet = Ok (w2, rs)) /\ I_BIT (wcfg w2) = 3 /\ widths_fit (wcfg w2) /\
   all_first (input_in (wcfg w2)) [3; -4; 1] 3 /\ room (wcfg w2) [1; 2] 2 3).
Proof. exact C07_hyps. Qed.
