(** The report of the ADC input histograms: /repo/cpp/src/helper/histogram.cpp:133-144 and 169-179, called by
    interface_pybind.cpp:482-495 (get_adc_profile, dump_adc_profile).  The text form is not modelled (nlohmann
    prints an array of pairs for "hist" and null for NaN and infinities); nor is the failure to open the file. *)
From Coq Require Import List ZArith Bool String.
From Verif Require Import Base Machine Json Histogram.
Import ListNotations.
Local Open Scope Z_scope.
Local Open Scope out_scope.

Section Profile.
Context {MC : Machine}.

(** histogram.cpp:140-143: the four entries of a layer. *)
Record summary : Type := mkSummary { s_hist : list (F * Z); s_samples : Z; s_mean : F; s_var : F }.

(** Insertion into std::map<float, int32_t>: sorted by [<]; an entry under an equivalent key stays. *)
Fixpoint map_insert (v : F) (d : Z) (m : list (F * Z)) : list (F * Z) :=
  match m with
  | [] => [(v, d)]
  | (k, x) :: r => if flt v k then (v, d) :: m else if flt k v then (k, x) :: map_insert v d r else m
  end.

(** histogram.cpp:134-138, in the order of the bins. *)
Definition hist_map (h : hist) : list (F * Z) :=
  fold_left (fun m p => map_insert (fst p) (snd p) m) (combine (h_vals h) (h_data h)) [].

(** histogram.cpp:133-144.  [t] gives the schedule of each parallel reduction. *)
Definition hist_report (t : nat -> rtree) (h : hist) : out summary :=
  v <- hist_variance (t 3%nat) (t 4%nat) (t 5%nat) h ;;
  Ok (mkSummary (hist_map h) (hist_samples (t 0%nat) h) (hist_mean (t 1%nat) (t 2%nat) h) v).

(** histogram.cpp:169-179: one entry per layer. *)
Definition profile_report (t : string -> nat -> rtree) (hs : hists) : out (list (string * summary)) :=
  mapM (fun p => r <- hist_report (t (fst p)) (snd p) ;; Ok (fst p, r)) hs.
End Profile.
