(** Property theorem C90: power-of-two current steps are exact in single precision. *)
From Coq Require Import List ZArith Bool String.
From RecordUpdate Require Import RecordSet.
From Flocq Require Import Core BinarySingleNaN.
From Verif Require Import Base Machine Json Config Mapper Crossbar Api Reach FloatMachine Spec Demo AnaSpec ExactApi ExactEx.
Import ListNotations RecordSetNotations.
Local Open Scope Z_scope.

(** C90: in every binary and ternary mode, with the ideal converter and without non-idealities, the
    program in single precision gives the integer product if HRS is an integer [h], LRS is [h + 2^k],
    and the currents summed over the columns, the results and three times the columns stay below 2^24.
    This holds for every libm and noise source and after every further history of quiet calls.
    C22 shows that other current steps give wrong integers, C23 that larger results do. *)
Theorem C90_exact_single :
  forall powf pow expf nz strict (w : @world (F_machine powf pow expf nz strict)) x mat m n h k,
  reach w -> wx w = Some x -> ideal_cells (wcfg w) x -> adc_type (wcfg w) = INF_ADC ->
  is_int (m_mode (wcfg w)) = false ->
  @HRS (F_machine powf pow expf nz strict) (wcfg w) = @f_of_Z (F_machine powf pow expf nz strict) h ->
  @LRS (F_machine powf pow expf nz strict) (wcfg w) = @f_of_Z (F_machine powf pow expf nz strict) (h + 2 ^ k) ->
  small_currents (m_mode (wcfg w)) n h k ->
  dims_in (wcfg w) m n -> all_entries (weight_in (wcfg w)) mat m n ->
  exists w1, step w (CpyMtrx mat m n) = Ok (w1, RCode 0) /\
    forall hist w2 rs res vec mat' l, Forall quiet hist -> run w1 hist = Ok (w2, rs) -> always no_variation w1 hist ->
      all_first (input_in (wcfg w2)) vec n -> all_first (fun r => Z.abs r + 3 * n < 2 ^ 24) res m ->
      exists w3, step w2 (ExeMvm res vec mat' m n l) =
        Ok (w3, RRes 0 (plus_product res mat vec (Z.to_nat m) (Z.to_nat n))).
Proof. exact exact_single. Qed.
Print Assumptions C90_exact_single.

(** All 11 modes on a 2x4 crossbar with HRS = 3 and LRS = 11: the hypotheses hold after set_config. *)
Example C90_example : forall powf pow expf nz strict name md, In (name, md) small_names ->
  exact_of powf pow expf nz strict md 3 (@after (F_machine powf pow expf nz strict) (exact_hist name md 3)).
Proof. exact ex90_of. Qed.

(** And the answers by evaluation, the first result at the bound. *)
Example C90_example_answers : forall powf pow expf nz strict name md, In (name, md) small_names ->
  @answers (F_machine powf pow expf nz strict) world0 (exact_hist name md 3 ++ exact_use 16777203)%list =
    Some [[]; [0]; [0; 16777203; -5]] /\
  plus_product [16777203; -7] [1; -1; -1; -1; 1; 1; 1; 1] [1; -1; 1; 1] 2 4 = [16777203; -5].
Proof. exact ex90. Qed.
