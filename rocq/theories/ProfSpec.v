(** What a report of the histograms is expected to say: reference for C79 and C80. *)
From Coq Require Import String List ZArith Reals Bool Permutation.
From Flocq Require Import Core.
From Verif Require Import Base Machine Json Config Histogram RMachine.
Import ListNotations.
Local Open Scope R_scope.

(** A reduction tree visits the initial value and each of [n] operands once. *)
Definition schedule_for (n : nat) (t : nat -> rtree) : Prop :=
  forall k, Permutation (leaves (t k)) (seq 0 (S n)).

Section Report.
Context {nz : bool -> nat -> R} {s : bool}.
Notation hist := (@hist (R_machine nz s)).

Definition nbins (h : hist) : nat := List.length (h_data h).
Definition count (h : hist) (k : nat) : Z := nth k (h_data h) 0%Z.
(** The middle of bin [k] counted from the lower end of the range. *)
Definition middle (h : hist) (k : nat) : R := h_min h + (INR k + / 2) * h_bin h.
(** Sum over all samples, each standing for the middle of its bin. *)
Definition over_samples (h : hist) (f : R -> R) : R :=
  fold_right Rplus 0 (map (fun k => IZR (count h k) * f (middle h k)) (seq 0 (nbins h))).
Definition mean (h : hist) : R := over_samples h (fun v => v) / over_samples h (fun _ => 1).
Definition variance (h : hist) : R := over_samples h (fun v => (v - mean h) ^ 2) / over_samples h (fun _ => 1).
(** The reported variance cuts the fraction off the middles, but not off the mean. *)
Definition cut_variance (h : hist) : R :=
  over_samples h (fun v => (IZR (Ztrunc v) - mean h) ^ 2) / over_samples h (fun _ => 1).

Definition fits_int32 (v : R) : Prop := (- 2 ^ 31 <= Ztrunc v < 2 ^ 31)%Z.
End Report.
