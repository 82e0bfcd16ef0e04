(** Specification vocabulary for the accuracy of analog MVMs in exact arithmetic. *)
From Coq Require Import String List ZArith Reals Bool.
From Verif Require Import Base Machine Json Config Mapper Crossbar Api Spec RMachine.
Import ListNotations.
Local Open Scope R_scope.

(** A property of the configuration holds at every point of a history. *)
Definition always {MC : Machine} (P : config -> Prop) (w : world) (h : list call) : Prop :=
  forall h1 h2 w' rs, h = h1 ++ h2 -> run w h1 = Ok (w', rs) -> P (wcfg w').

(** Every slice of a weight is at least one bit wide. *)
Definition slices_wide {MC : Machine} (c : config) : Prop :=
  is_int (m_mode c) = true -> Forall (fun b => 1 <= b)%Z (SPLIT c).

(** No effect that changes the cells or the currents between a write and its MVMs: no noise, no
    read disturb, no wire resistance; and no histograms. *)
Definition ideal_cells {MC : Machine} (c : config) (x : xbar) : Prop :=
  digital_only c = false /\ read_disturb c = false /\ parasitics c = false /\
  fle (HRS_NOISE c) f0 = true /\ fle (LRS_NOISE c) f0 = true /\
  (is_int (m_mode c) = true -> par (xm x) = None) /\ (is_int (m_mode c) = false -> adc_profile c = false).
(** The settings that a quiet history can still change. *)
Definition no_variation {MC : Machine} (c : config) : Prop := c2c_var c = false /\ parasitics c = false.

(** The row sums of a matrix of n columns fit. *)
Definition sums_fit {MC : Machine} (c : config) (n : Z) : Prop :=
  (n * (if is_int (m_mode c) then 2 ^ W_BIT c else 1) <= int32_max)%Z.

(** Factors by which the digital part multiplies the readings of the converter, each reading
    counted in units of the current LRS - HRS.  A reading of slice [q] for input bit [b] has the
    weight of that bit and that slice, and the slice's full scale is LRS - HRS. *)
Definition bit_gains {MC : Machine} (c : config) (bits : Z) : list Z :=
  flat_map (fun b => map (fun q => 2 ^ Z.of_nat b * 2 ^ position c q * (2 ^ nth q (SPLIT c) 0 - 1))%Z
                         (seq 0 (List.length (SPLIT c))))
           (seq 0 (Z.to_nat bits)).
Definition gains {MC : Machine} (c : config) : list Z :=
  match m_mode c with
  | I_DIFF_W_DIFF_1XB | I_DIFF_W_DIFF_2XB => (bit_gains c (I_BIT c - 1) ++ bit_gains c (I_BIT c))%list
  | I_OFFS_W_DIFF => bit_gains c (I_BIT c + 1)
  | I_TC_W_DIFF | I_UINT_W_DIFF | I_UINT_W_OFFS => bit_gains c (I_BIT c)
  | BNN_I | BNN_II | BNN_V => [2%Z]
  | BNN_III | BNN_IV => [2%Z; 2%Z]
  | BNN_VI | TNN_I => [1%Z]
  | TNN_II | TNN_III => [1%Z; 2%Z]
  | TNN_IV | TNN_V => [1%Z; 1%Z; 2%Z; 2%Z]
  end.

(** Half the distance of two levels of the converter, in units of LRS - HRS, when the calibration
    is MAX: the range is 2 N (LRS - HRS) or N LRS. *)
Definition half_step {nz s} (c : @config (R_machine nz s)) : R :=
  match adc_type c with
  | SYM_RANGE_ADC => IZR (N c) / IZR (2 ^ resolution c - 2)
  | _ => IZR (N c) * LRS c / (2 * IZR (2 ^ resolution c - 1) * (LRS c - HRS c))
  end.

(** Every reading is off by at most half a step and is then rounded to an integer.  I_UINT_W_OFFS
    rounds once more when it subtracts the offset current. *)
Definition accuracy {nz s} (c : @config (R_machine nz s)) : R :=
  fold_right Rplus 0 (map (fun g => IZR g * half_step c + / 2) (gains c)) +
  match m_mode c with I_UINT_W_OFFS => / 2 | _ => 0 end.

(** The first m entries of [r] are within [e] of [res] plus the product, the others are those of [res]. *)
Definition within (e : R) (r res mat vec : list Z) (m n : nat) : Prop :=
  List.length r = List.length res /\
  forall i, ((i < m)%nat -> Rabs (IZR (nth i r 0%Z) - IZR (nth i res 0%Z + product mat vec n i)) <= e) /\
            ((m <= i)%nat -> nth i r 0%Z = nth i res 0%Z).

(** The accumulator has room for the product and the error. *)
Definition room_for {MC : Machine} (e : R) (c : config) (res : list Z) (m n : Z) : Prop :=
  (n * term_bound c <= int32_max)%Z /\
  all_first (fun x => IZR (Z.abs x + n * term_bound c) + e <= IZR int32_max) res m.

(** Currents of the cells of one row, added up with the factors that the inputs give them: factors
    -1, 0 and 1 of the difference of both arrays, or every cell of a column of one array read or
    not (BNN_V reads one of the two arrays in every column). *)
Definition row_sum (n : nat) (f : nat -> R) : R := fold_right Rplus 0 (map f (seq 0 n)).
Definition diff_current {nz s} (x : @xbar (R_machine nz s)) (r n : nat) (a : nat -> R) : R :=
  row_sum n (fun j => a j * (current (ia_p (xm x)) r j - current (ia_m (xm x)) r j)).
Definition single_current {nz s} (x : @xbar (R_machine nz s)) (r n : nat) (a b : nat -> bool) : R :=
  row_sum n (fun j => (if a j then current (ia_p (xm x)) r j else 0) + (if b j then current (ia_m (xm x)) r j else 0)).
