(** What the input histograms are expected to hold: reference for C72 and C73. *)
From Coq Require Import String List ZArith Reals Bool.
From Verif Require Import Base Machine Json Config Histogram Adc Mapper Crossbar RMachine RSpec Spec AnaSpec.
Import ListNotations.
Local Open Scope Z_scope.

(** Number of samples of a layer; a layer without histogram has none. *)
Definition recorded {MC : Machine} (o : option hist) : Z :=
  match o with Some h => total (h_data h) | None => 0 end.

(** Conversions of a whole result vector in one MVM: one for modes which subtract in the analog domain or
    use one rail, two for modes which convert the two rails or the two input bits separately, four for both.
    The integer modes convert bit by bit without recording. *)
Definition passes (md : mode) : Z :=
  match md with
  | I_DIFF_W_DIFF_1XB | I_DIFF_W_DIFF_2XB | I_OFFS_W_DIFF | I_TC_W_DIFF | I_UINT_W_DIFF | I_UINT_W_OFFS => 0
  | BNN_I | BNN_II | BNN_V | BNN_VI | TNN_I => 1
  | BNN_III | BNN_IV | TNN_II | TNN_III => 2
  | TNN_IV | TNN_V => 4
  end.

(** ** Contents in exact arithmetic *)
Local Open Scope R_scope.

(** Counter number [k] of a layer. *)
Definition counter {MC : Machine} (o : option hist) (k : nat) : Z :=
  match o with Some h => nth k (h_data h) 0%Z | None => 0%Z end.

(** Lower end and bin width: those of the layer's histogram, or those a new one gets. *)
Definition grid {nz s} (c : @config (R_machine nz s)) (o : option (@hist (R_machine nz s))) : R * R :=
  match o with
  | Some h => (h_min h, h_bin h)
  | None => (match adc_type c with SYM_RANGE_ADC => - (IZR (N c) * (LRS c - HRS c)) | _ => 0 end, IZR (bin_size c))
  end.

(** Width of the range of a new histogram. *)
Definition span {nz s} (c : @config (R_machine nz s)) : R :=
  match adc_type c with SYM_RANGE_ADC => 2 * (IZR (N c) * (LRS c - HRS c)) | _ => IZR (N c) * LRS c end.

(** How many of the currents [vs] round to bin [k]. *)
Definition hits (g : R * R) (vs : list R) (k : nat) : Z :=
  total (map (fun v => if Req_EM_T (round_away ((v - fst g) / snd g)) (IZR (Z.of_nat k)) then 1 else 0)%Z vs).

(** The currents that reach the converter in one MVM, row after row and conversion after conversion,
    from the currents of the cells and the inputs. *)
Definition readings {nz s} (c : @config (R_machine nz s)) (x : @xbar (R_machine nz s)) (vec : list Z) (n : nat)
  : list (nat -> R) :=
  let one (p : bool) (f : Z -> Z) (i : nat) :=
    row_sum n (fun j => current (if p then ia_p (xm x) else ia_m (xm x)) i j * IZR (f (nth j vec 0%Z))) in
  let diff f i := one true f i - one false f i in
  let is k v := (if v =? k then 1 else 0)%Z in
  match m_mode c with
  | BNN_I => [diff (is 1%Z)]
  | BNN_II => [fun i => - diff (is (-1)%Z) i]
  | BNN_III | BNN_IV => [one true (is 1%Z); one true (is (-1)%Z)]
  | BNN_V => [fun i => one true (is 1%Z) i + one false (is (-1)%Z) i]
  | BNN_VI | TNN_I => [diff (fun v => v)]
  | TNN_II => [diff (fun v => if v =? 0 then 0 else 1)%Z; diff (is (-1)%Z)]
  | TNN_III => [diff (is 0%Z); diff (is 1%Z)]
  | TNN_IV | TNN_V => [one true (is 1%Z); one true (is (-1)%Z); one false (is 1%Z); one false (is (-1)%Z)]
  | _ => []
  end.
Definition all_readings {nz s} (c : @config (R_machine nz s)) x vec (m n : nat) : list R :=
  flat_map (fun f => map f (seq 0 m)) (readings c x vec n).
