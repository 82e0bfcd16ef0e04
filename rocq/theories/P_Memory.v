(** Property theorems C81: a digital crossbar after several writes of different sizes. *)
From Coq Require Import List ZArith Bool String Lia.
From Verif Require Import Base Machine Json Config Mapper Crossbar Api Reach Spec Demo DigModes MemSpec MemProps MemEx.
Import ListNotations.
Local Open Scope Z_scope.

(** [memory c h]: the weight last written to each place.  [row_sums c h]: the sum of the last write that reached
    each row.  [usual]: writes of weights of the mode, refused writes and calls that leave the weights alone. *)
Theorem C81_memory :
  forall (MC : Machine) (w0 : world) (s : source) (w1 : world) (h : list call) (w2 : world) (rs : list result)
         (res vec mat' : list Z) (m n : Z) (l : string),
  (strict_shl = true -> no_neg_shift (m_mode (wcfg w2)) = true) ->
  reach w0 -> step w0 (SetConfig s) = Ok (w1, RUnit) ->
  Forall (usual (wcfg w1)) h -> run w1 h = Ok (w2, rs) ->
  digital_only (wcfg w1) = true -> split_covers (wcfg w1) -> widths_fit (wcfg w2) -> dims_in (wcfg w2) m n ->
  all_first (input_in (wcfg w2)) vec n -> room (wcfg w2) res m (2 * N (wcfg w2)) ->
  exists w3, step w2 (ExeMvm res vec mat' m n l) =
    Ok (w3, RRes 0 (memory_product (wcfg w2) res vec (memory (wcfg w1) h) (row_sums (wcfg w1) h)
                      (Z.to_nat m) (Z.to_nat n))).
Proof. exact @memory_mvm. Qed.
Print Assumptions C81_memory.

(** In every mode: writes over each other, a refused write, a changed input width, places without a weight. *)
Example C81_hypotheses :
  Forall (fun mode => let w1 := mem_w1 mode in let w2 := mem_w2 mode in
    step world0 (SetConfig (mem_src mode)) = Ok (w1, RUnit) /\
    Forall (usual (wcfg w1)) mem_hist /\ (exists rs, run w1 mem_hist = Ok (w2, rs)) /\
    digital_only (wcfg w1) = true /\ split_covers (wcfg w1) /\ widths_fit (wcfg w2) /\ dims_in (wcfg w2) 3 4 /\
    all_first (input_in (wcfg w2)) [1; 1; 1; 1] 4 /\ room (wcfg w2) [10; 20; 30] 3 (2 * N (wcfg w2)) /\
    answers w2 [ExeMvm [10; 20; 30] [1; 1; 1; 1] [] 3 4 ""%string] =
      Some [0 :: memory_product (wcfg w2) [10; 20; 30] [1; 1; 1; 1] (memory (wcfg w1) mem_hist)
                   (row_sums (wcfg w1) mem_hist) 3 4])
  ["I_DIFF_W_DIFF_1XB"; "I_DIFF_W_DIFF_2XB"; "I_OFFS_W_DIFF"; "I_TC_W_DIFF"; "I_UINT_W_DIFF"; "I_UINT_W_OFFS";
   "BNN_I"; "BNN_II"; "BNN_III"; "BNN_IV"; "BNN_V"; "BNN_VI";
   "TNN_I"; "TNN_II"; "TNN_III"; "TNN_IV"; "TNN_V"]%string.
Proof. exact mem_hyps. Qed.
Example C81_example : let c := wcfg (mem_w1 "TNN_I") in
  map (fun i => map (memory c mem_hist i) [0; 1; 2; 3]%nat) [0; 1; 2]%nat =
    [[Some (-1); Some (-1); Some 1; None]; [Some (-1); Some (-1); Some 1; None]; [None; None; None; None]] /\
  map (row_sums c mem_hist) [0; 1; 2]%nat = [-1; -1; 0].
Proof. exact mem_matrix. Qed.

(** The expectation that a crossbar without weights multiplies by zero fails. *)
Theorem C81_zeros_refuted :
  exists (MC : Machine) (s : source) (w : world),
  run world0 [SetConfig s; ExeMvm [0] [1] [] 1 1 ""%string] = Ok (w, [RUnit; RRes 0 [-1]]) /\
  digital_only (wcfg w) = true /\ m_mode (wcfg w) = BNN_III /\ dims_in (wcfg w) 1 1 /\ input_in (wcfg w) 1.
Proof. exact zeros_wrong. Qed.
Print Assumptions C81_zeros_refuted.

(** The expectation that the product is the one with the remembered weights fails: writing the weight 1 over the
    weight 1 changes it from 2 to 10. *)
Theorem C81_rewrite_refuted :
  exists (MC : Machine) (w w' : world),
  reach w /\ digital_only (wcfg w) = true /\ m_mode (wcfg w) = I_OFFS_W_DIFF /\
  split_covers (wcfg w) /\ dims_in (wcfg w) 1 2 /\ weight_in (wcfg w) 1 /\ input_in (wcfg w) 1 /\
  run w [CpyMtrx [1; 1] 1 2; ExeMvm [0] [1; 1] [] 1 2 ""%string; CpyMtrx [1] 1 1; ExeMvm [0] [1; 1] [] 1 2 ""%string] =
    Ok (w', [RCode 0; RRes 0 [2]; RCode 0; RRes 0 [10]]).
Proof. exact rewrite_wrong. Qed.
Print Assumptions C81_rewrite_refuted.
