(** Property theorems C05, C06, C09, C17, C52, C59: stored cells, framing and memory safety of
    digital use. *)
From Coq Require Import List ZArith Bool String Lia.
From Verif Require Import Base Machine Json Config Mapper Crossbar Api Reach Spec Demo DigModes DigProps StoreProps
  FrameProps SafeProps.
Import ListNotations.
Local Open Scope Z_scope.

(** C05.  [decodes c gp gm val mat m n]: the slices recombine to [val] of the weight, lie within
    their widths, and one side of every cell pair is 0. *)
Theorem C05_cells_decode :
  forall (MC : Machine) (w : world) (mat : list Z) (m n : Z),
  reach w -> is_int (m_mode (wcfg w)) = true -> split_covers (wcfg w) ->
  dims_in (wcfg w) m n -> all_entries (weight_in (wcfg w)) mat m n -> n * 2 ^ W_BIT (wcfg w) <= int32_max ->
  (digital_only (wcfg w) = true -> wx w <> None -> exists w1, step w (CpyMtrx mat m n) = Ok (w1, RCode 0)) /\
  forall w1, step w (CpyMtrx mat m n) = Ok (w1, RCode 0) ->
  exists gp gm, step w1 (GetMat GdP) = Ok (w1, RMat gp) /\ step w1 (GetMat GdM) = Ok (w1, RMat gm) /\
    decodes (wcfg w) gp gm (fun v => v) mat m n.
Proof. exact @write_exact. Qed.
Print Assumptions C05_cells_decode.

(** 7 = 0|11|1, -8 = -(1|00|0) in slices of 1, 2 and 1 bits; column 2 and row 1 still hold the
    previous matrix [1 2 3; 4 5 6]. *)
Example C05_example :
  answers (ex01 "I_TC_W_DIFF") [CpyMtrx [7; -8] 1 2; GetMat GdP; GetMat GdM] =
    Some [[0]; [0; 0; 0; 0;   3; 0; 1; 0;   1; 0; 1; 0;
                0; 0; 0; 0;   2; 2; 3; 0;   0; 1; 0; 0;
                0; 0; 0; 0;   0; 0; 0; 0;   0; 0; 0; 0];
          [0; 1; 0; 0;   0; 0; 0; 0;   0; 0; 0; 0;
           0; 0; 0; 0;   0; 0; 0; 0;   0; 0; 0; 0;
           0; 0; 0; 0;   0; 0; 0; 0;   0; 0; 0; 0]].
Proof. vm_compute. reflexivity. Qed.

(** C06, writes: cells below the written rows or right of the written columns keep their value. *)
Theorem C06_write_frame :
  forall (MC : Machine) (w : world) (mat : list Z) (m n : Z) (w1 : world) (r : result) (q : matq)
         (g g' : list (list Z)),
  reach w -> step w (CpyMtrx mat m n) = Ok (w1, r) -> q = GdP \/ q = GdM ->
  step w (GetMat q) = Ok (w, RMat g) -> step w1 (GetMat q) = Ok (w1, RMat g') ->
  forall i k, (m * rows_per_weight (wcfg w) <= Z.of_nat i \/ n <= Z.of_nat k) -> cell g' i k = cell g i k.
Proof. exact @write_frame. Qed.
Print Assumptions C06_write_frame.

(** C06, MVMs: no digital cell changes, in any mode, digital or analog. *)
Theorem C06_mvm_frame :
  forall (MC : Machine) (w : world) (a : call) (w1 : world) (r : result) (q : matq), reach w ->
  (match a with ExeMvm _ _ _ _ _ _ | PyMvm _ _ _ _ _ => True | _ => False end) ->
  step w a = Ok (w1, r) -> q = GdP \/ q = GdM ->
  forall g, step w (GetMat q) = Ok (w, RMat g) -> step w1 (GetMat q) = Ok (w1, RMat g).
Proof. exact @mvm_frame. Qed.
Print Assumptions C06_mvm_frame.

Example C06_example :
  Forall (fun mode => answers (ex_xnn mode) [CpyMtrx [1] 1 1; ExeMvm [0] [1] [] 1 1 ""%string] <> None)
    ["BNN_I"; "BNN_II"; "BNN_III"; "BNN_IV"; "BNN_V"; "BNN_VI"; "TNN_I"; "TNN_II"; "TNN_III"; "TNN_IV";
     "TNN_V"]%string /\
  Forall (fun mode => answers (ex01 mode) [CpyMtrx [1] 1 1; ExeMvm [0] [1] [] 1 1 ""%string] <> None)
    ["I_DIFF_W_DIFF_1XB"; "I_DIFF_W_DIFF_2XB"; "I_OFFS_W_DIFF"; "I_TC_W_DIFF"; "I_UINT_W_DIFF";
     "I_UINT_W_OFFS"]%string.
Proof. split; repeat constructor; vm_compute; discriminate. Qed.

(** C09, frame: every mode, digital or analog, any state. *)
Theorem C09_result_frame :
  forall (MC : Machine) (w : world) (a : call) (res : list Z) (m : Z) (w1 : world) (k : Z) (res' : list Z),
  (exists vec mat n l, a = ExeMvm res vec mat m n l) \/ (exists vec mat n, a = PyMvm res vec mat m n) ->
  step w a = Ok (w1, RRes k res') ->
  List.length res' = List.length res /\ forall i, m <= Z.of_nat i -> nth i res' 0 = nth i res 0.
Proof. exact @mvm_result_frame. Qed.
Print Assumptions C09_result_frame.

(** C09, increment: independent of the initial contents in digital configurations; modulo 2^32 in
    the two modes whose last subtraction wraps. *)
Theorem C09_increment :
  forall (MC : Machine) (w : world) (res1 res2 vec mat : list Z) (m n : Z) (l : string) (w1 w2 : world)
         (k1 k2 : Z) (r1 r2 : list Z),
  reach w -> digital_only (wcfg w) = true ->
  step w (ExeMvm res1 vec mat m n l) = Ok (w1, RRes k1 r1) ->
  step w (ExeMvm res2 vec mat m n l) = Ok (w2, RRes k2 r2) ->
  w1 = w2 /\ k1 = k2 /\
  forall i, exists q, nth i r1 0 - nth i res1 0 = nth i r2 0 - nth i res2 0 + q * 2 ^ 32 /\
    (m_mode (wcfg w) <> I_UINT_W_OFFS -> m_mode (wcfg w) <> TNN_V -> q = 0).
Proof. exact @mvm_increment. Qed.
Print Assumptions C09_increment.

(** The wrap is real: -2147483648 - 8 comes out as 2147483640. *)
Theorem C09_wrap_refuted :
  exists (w : @world toy) (res1 res2 r1 r2 vec : list Z) (w1 w2 : world),
  reach w /\ digital_only (wcfg w) = true /\
  step w (ExeMvm res1 vec [] 1 1 ""%string) = Ok (w1, RRes 0 r1) /\
  step w (ExeMvm res2 vec [] 1 1 ""%string) = Ok (w2, RRes 0 r2) /\
  nth 0 r1 0 - nth 0 res1 0 = -8 /\ nth 0 r2 0 - nth 0 res2 0 = 4294967288.
Proof. exact increment_wraps. Qed.
Print Assumptions C09_wrap_refuted.

Example C09_example :
  reach (ex01 "I_TC_W_DIFF") /\ digital_only (wcfg (ex01 "I_TC_W_DIFF")) = true /\
  answers (ex01 "I_TC_W_DIFF") [ExeMvm [5; 9; 7] [1; 2] [] 2 2 ""%string] = Some [[0; 10; 23; 7]] /\
  answers (ex01 "I_TC_W_DIFF") [ExeMvm [0; 0] [1; 2] [] 2 2 ""%string] = Some [[0; 5; 14]].
Proof. exact C09_hyps. Qed.

(** C17.  [memory_safe]: no out-of-bounds access, no null dereference, no escaping exception;
    [Died]: the process terminates. *)
Theorem C17_digital_memory_safe :
  forall (MC : Machine) (w : world) (x : xbar) (m n : Z),
  reach w -> wx w = Some x -> digital_only (wcfg w) = true -> dims_in (wcfg w) m n ->
  (forall mat, Z.of_nat (List.length mat) >= m * n ->
     memory_safe (step w (CpyMtrx mat m n)) /\
     (all_entries (weight_in (wcfg w)) mat m n -> step w (CpyMtrx mat m n) <> Died)) /\
  (forall res vec mat l, Z.of_nat (List.length res) >= m -> Z.of_nat (List.length vec) >= n ->
     memory_safe (step w (ExeMvm res vec mat m n l)) /\
     (all_first (input_in (wcfg w)) vec n -> step w (ExeMvm res vec mat m n l) <> Died)).
Proof. exact @digital_safe. Qed.
Print Assumptions C17_digital_memory_safe.

(** Full-size use of a reachable crossbar in every mode; a buffer one entry short is caught. *)
Example C17_example :
  Forall (fun mode => answers (ex_xnn mode) [CpyMtrx (repeat 1 12) 3 4; ExeMvm [0; 0; 0] [1; 1; 1; 1] [] 3 4 ""%string]
     = Some [[0]; [0; 4; 4; 4]] /\
     answers (ex_xnn mode) [CpyMtrx (repeat 1 11) 3 4] = None)
    ["BNN_I"; "BNN_II"; "BNN_III"; "BNN_IV"; "BNN_V"; "BNN_VI"; "TNN_I"; "TNN_II"; "TNN_III"; "TNN_IV";
     "TNN_V"]%string.
Proof. repeat constructor; vm_compute; reflexivity. Qed.

(** C52, slices adding up to less than W_BIT: the low bits are dropped.  [truncated c w] is the
    weight whose magnitude (offset code in I_UINT_W_OFFS) has its low W_BIT - sum bits cleared. *)
Theorem C52_short_split_truncates :
  forall (MC : Machine) (w : world) (mat : list Z) (m n : Z) (w1 : world) (gp gm : list (list Z)),
  reach w -> is_int (m_mode (wcfg w)) = true ->
  total (SPLIT (wcfg w)) <= W_BIT (wcfg w) -> 1 <= W_BIT (wcfg w) <= 30 ->
  dims_in (wcfg w) m n -> all_entries (weight_in (wcfg w)) mat m n -> n * 2 ^ W_BIT (wcfg w) <= int32_max ->
  step w (CpyMtrx mat m n) = Ok (w1, RCode 0) ->
  step w1 (GetMat GdP) = Ok (w1, RMat gp) -> step w1 (GetMat GdM) = Ok (w1, RMat gm) ->
  decodes (wcfg w) gp gm (truncated (wcfg w)) mat m n.
Proof. exact @write_decodes. Qed.
Print Assumptions C52_short_split_truncates.

(** C52, slices adding up to more: every non-empty write is undefined behaviour. *)
Theorem C52_long_split_ub :
  forall (MC : Machine) (w : world) (x : xbar) (mat : list Z) (m n : Z),
  reach w -> wx w = Some x -> is_int (m_mode (wcfg w)) = true ->
  W_BIT (wcfg w) < total (SPLIT (wcfg w)) -> dims_in (wcfg w) m n -> 1 <= m -> 1 <= n ->
  exists f, step w (CpyMtrx mat m n) = UB f.
Proof. exact @write_excess. Qed.
Print Assumptions C52_long_split_ub.

(** C52, the sum is not checked: set_config creates crossbars with a shorter and with a longer SPLIT. *)
Theorem C52_split_checked_refuted : exists (MC : Machine) (ds dl : json) (ws wl : world),
  step world0 (SetConfig (Parsed ds)) = Ok (ws, RUnit) /\ wx ws <> None /\ is_int (m_mode (wcfg ws)) = true /\
  total (SPLIT (wcfg ws)) < W_BIT (wcfg ws) /\
  step world0 (SetConfig (Parsed dl)) = Ok (wl, RUnit) /\ wx wl <> None /\ is_int (m_mode (wcfg wl)) = true /\
  W_BIT (wcfg wl) < total (SPLIT (wcfg wl)).
Proof. exact C52_both. Qed.
Print Assumptions C52_split_checked_refuted.

(** Both kinds of SPLIT are accepted by set_config. *)
Example C52_example :
  let s := after [SetConfig (Parsed (@dig_doc toy "I_TC_W_DIFF" 3 4 4 4 [1; 2]))] in
  let l := after [SetConfig (Parsed (@dig_doc toy "I_TC_W_DIFF" 3 4 4 4 [2; 2; 2]))] in
  reach s /\ wx s <> None /\ reach l /\ wx l <> None /\
  total (SPLIT (wcfg s)) < W_BIT (wcfg s) /\ W_BIT (wcfg l) < total (SPLIT (wcfg l)) /\
  map (truncated (wcfg s)) [7; -5; 1] = [6; -4; 0] /\
  answers s [CpyMtrx [7; -5; 1] 1 3; ExeMvm [0] [1; 1; 1] [] 1 3 ""%string] = Some [[0]; [0; 2]].
Proof. exact C52_hyps. Qed.

(** C59.  [narrow_product]: the product with the first k columns, minus the row sums of the other
    columns times the mode's factor (1 in BNN_I and TNN_III, -1 in BNN_II, 2^(I_BIT-1) in
    I_OFFS_W_DIFF, 0 elsewhere).  Fewer rows may be read as well. *)
Theorem C59_narrow_mvm :
  forall (MC : Machine) (w : world) (x : xbar) (mat vec res mat' : list Z) (m n m1 k : Z) (l : string),
  (strict_shl = true -> DigModes.no_neg_shift (m_mode (wcfg w)) = true) ->
  reach w -> wx w = Some x -> digital_only (wcfg w) = true ->
  split_covers (wcfg w) -> widths_fit (wcfg w) -> dims_in (wcfg w) m n ->
  0 <= m1 <= m -> 0 <= k <= n ->
  all_entries (weight_in (wcfg w)) mat m n -> all_first (input_in (wcfg w)) vec k ->
  n * term_bound (wcfg w) <= int32_max ->
  all_first (fun x => Z.abs x + n * term_bound (wcfg w) <= int32_max) res m1 ->
  exists w1 w2,
    step w (CpyMtrx mat m n) = Ok (w1, RCode 0) /\
    step w1 (ExeMvm res vec mat' m1 k l) =
      Ok (w2, RRes 0 (narrow_product (wcfg w) res mat vec (Z.to_nat m1) (Z.to_nat n) (Z.to_nat k))).
Proof. exact @narrow_mvm. Qed.
Print Assumptions C59_narrow_mvm.

(** [1 -1 1] . [1 -1 .] is 2; reading two of the three columns gives 2 in BNN_VI and 1 in BNN_I. *)
Example C59_example :
  answers (ex_xnn "BNN_VI") [CpyMtrx [1; -1; 1] 1 3; ExeMvm [0] [1; -1] [] 1 2 ""%string] = Some [[0]; [0; 2]] /\
  answers (ex_xnn "BNN_I") [CpyMtrx [1; -1; 1] 1 3; ExeMvm [0] [1; -1] [] 1 2 ""%string] = Some [[0]; [0; 1]] /\
  narrow_product (wcfg (ex_xnn "BNN_VI")) [0] [1; -1; 1] [1; -1] 1 3 2 = [2] /\
  narrow_product (wcfg (ex_xnn "BNN_I")) [0] [1; -1; 1] [1; -1] 1 3 2 = [1].
Proof. repeat split; vm_compute; reflexivity. Qed.
