(** Specification vocabulary for the accuracy of analog MVMs with wire resistance and the ideal converter. *)
From Coq Require Import String List ZArith Reals Bool.
From Verif Require Import Base Machine Json Config Mapper Parasitics Crossbar Api Spec RMachine AnaSpec.
Import ListNotations.
Local Open Scope R_scope.

Section WS.
Context {nz : bool -> nat -> R} {s : bool}.
Notation RM := (R_machine nz s).

(** Wire resistance is the only effect that changes the currents: no noise, no read disturb, no histograms. *)
Definition only_wires (c : @config RM) : Prop :=
  digital_only c = false /\ parasitics c = true /\ read_disturb c = false /\ c2c_var c = false /\
  HRS_NOISE c <= 0 /\ LRS_NOISE c <= 0 /\ adc_profile c = false.

(** Segments of [r] ohms take at most this much from the current of a column with n driven cells: the voltage at
    each of them is smaller than V_read by at most the drop of the whole current over N segments (currents are in
    microamperes). *)
Definition wire_loss (c : @config RM) (r : R) (n : Z) : R :=
  IZR (N c) * r * (IZR n * LRS c) * (IZR n * LRS c) / (1000000 * - V_read c).

(** Number of times a result is cut to an integer: every reading of the integer modes is, I_UINT_W_OFFS rounds
    once at the end, TNN_II and TNN_III add two readings, the others one sum. *)
Definition cuts (c : @config RM) : nat :=
  match m_mode c with
  | I_UINT_W_OFFS => 1
  | I_DIFF_W_DIFF_1XB | I_DIFF_W_DIFF_2XB | I_OFFS_W_DIFF | I_TC_W_DIFF | I_UINT_W_DIFF => List.length (gains c)
  | TNN_II | TNN_III => 2
  | _ => 1
  end.

Definition sum_gains (c : @config RM) : R := fold_right Rplus 0 (map IZR (gains c)).

(** Every cut is off by less than one, and every reading by the loss times its gain. *)
Definition wire_error (c : @config RM) (r : R) (n : Z) : R :=
  INR (cuts c) + sum_gains c * (wire_loss c r n / (LRS c - HRS c)).

(** The accumulator has room for the product and for all readings; a reading and its offset are at most 4 n LRS. *)
Definition wire_room (c : @config RM) (res : list Z) (m n : Z) : Prop :=
  (n * term_bound c <= int32_max)%Z /\
  all_first (fun x => IZR (Z.abs x + n * term_bound c) + sum_gains c * (4 * (IZR n * LRS c) / (LRS c - HRS c)) <= IZR int32_max)
    res m.
End WS.

(** Sum of the magnitudes of the terms of a product: the product of a row whose terms all have the same sign. *)
Definition abs_product (mat vec : list Z) (n i : nat) : Z := sum n (fun j => Z.abs (entry mat n i j * nth j vec 0%Z)).

(** The result of row i is smaller than the accumulator and all terms together could make it; without terms it is
    the accumulator. *)
Definition below_full_scale (res mat vec r : list Z) (n i : nat) : Prop :=
  (0 < abs_product mat vec n i -> Z.abs (nth i r 0) < Z.abs (nth i res 0) + abs_product mat vec n i)%Z /\
  (abs_product mat vec n i = 0 -> nth i r 0 = nth i res 0)%Z.
