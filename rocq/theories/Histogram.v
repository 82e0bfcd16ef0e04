(** ADC input histograms: /repo/cpp/src/helper/histogram.cpp (BinnedHistogram and
    the per-layer collection; SimpleHistogram is never instantiated). *)
From Coq Require Import List ZArith Bool String.
From RecordUpdate Require Import RecordSet.
From Verif Require Import Base Machine Json.
Import ListNotations RecordSetNotations.
Local Open Scope Z_scope.
Local Open Scope out_scope.

Section Hist.
Context {MC : Machine}.

(** histogram.h:60-99. *)
Record hist : Type := mkHist {
  h_min : F; h_max : F; h_bin : F;
  h_data : list Z;      (* int32_t counters *)
  h_vals : list F       (* bin mid-points *)
}.
#[export] Instance eta_hist : Settable _ := settable! mkHist <h_min; h_max; h_bin; h_data; h_vals>.

(** histogram.cpp:88-94: mid-points by repeated float addition. *)
Fixpoint mids (k : nat) (n bin : F) : list F :=
  match k with
  | O => []
  | S k' => n :: mids k' (fadd n bin) bin
  end.

(** histogram.cpp:80-95.  The bin count is converted from float to size_t:
    undefined for negative, infinite or NaN values.  Allocation failure for huge
    counts is not modelled. *)
Definition hist_new (mn mx bin : F) : out hist :=
  match f_trunc (fround (fdiv (fsub mx mn) bin)) with
  | Some z =>
      if (0 <=? z) && (z <? 2 ^ 64) then
        let k := Z.to_nat z in
        Ok (mkHist mn mx bin (repeat 0 k) (mids k (fadd mn (fdiv bin (f_of_Z 2))) bin))
      else UB FloatToInt
  | None => UB FloatToInt
  end.

(** histogram.cpp:102-104: bin index of a value. *)
Definition hist_index (h : hist) (v : F) : out Z :=
  f2i (fround (fdiv (fsub v (h_min h)) (h_bin h))).

(** histogram.cpp:107: [data_[i]++]. *)
Definition bump (data : list Z) (i : Z) : out (list Z) :=
  x <- getz data i ;; y <- add32 x 1 ;; setz data i y.

Fixpoint bumps (is : list Z) (data : list Z) : out (list Z) :=
  match is with
  | [] => Ok data
  | i :: r => data' <- bump data i ;; bumps r data'
  end.

(** histogram.cpp:97-108: all indices first, then the counters in sequence. *)
Definition hist_update (vs : list F) (h : hist) : out hist :=
  is <- mapM (hist_index h) vs ;;
  d <- bumps is (h_data h) ;;
  Ok (h <| h_data := d |>).

(** A schedule of std::reduce: which operands are combined in which order. *)
Inductive rtree : Type := Leaf (i : nat) | Node (l r : rtree).
Fixpoint leaves (t : rtree) : list nat :=
  match t with Leaf i => [i] | Node l r => leaves l ++ leaves r end.
Fixpoint reduce {A} (op : A -> A -> A) (xs : nat -> A) (t : rtree) : A :=
  match t with Leaf i => xs i | Node l r => op (reduce op xs l) (reduce op xs r) end.

(** histogram.cpp:110-113: operand 0 is the initial value, operand i+1 element i.
    int64_t additions; counters are int32_t so no overflow below 2^32 bins. *)
Definition hist_samples (t : rtree) (h : hist) : Z :=
  reduce Z.add (fun i => match i with O => 0 | S k => nth k (h_data h) 0 end) t.

(** histogram.cpp:115-120: products and sums in float (the accumulator is a
    double holding floats), quotient in double, result converted to float. *)
Definition hist_mean (t ts : rtree) (h : hist) : F :=
  f_of_d (ddiv (d_of_f (reduce fadd (fun i => match i with
      | O => f0
      | S k => fmul (f_of_Z (nth k (h_data h) 0)) (nth k (h_vals h) f0)
      end) t)) (d_of_Z (hist_samples ts h))).

(** histogram.cpp:122-131: the lambda takes the mid-point as int32_t, so it is
    truncated first; the square is taken in double. *)
Definition hist_variance (t tm ts : rtree) (h : hist) : out F :=
  let mean := hist_mean tm ts h in
  vs <- mapM f2i (h_vals h) ;;
  let term k :=
    let df := d_of_f (fsub (f_of_Z (nth k vs 0)) mean) in
    f_of_d (dmul (d_of_Z (nth k (h_data h) 0)) (dmul df df)) in
  Ok (f_of_d (ddiv (d_of_f (reduce fadd (fun i => match i with O => f0 | S k => term k end) t))
                   (d_of_Z (hist_samples ts h)))).

(** histogram.cpp:146-179, the collection (std::map; insertion of an existing
    key keeps the old histogram). *)
Definition hists := list (string * hist).

Fixpoint hput (hs : hists) (l : string) (h : hist) : hists :=
  match hs with
  | [] => [(l, h)]
  | (k, h') :: r => if String.eqb l k then (l, h) :: r else (k, h') :: hput r l h
  end.
End Hist.
