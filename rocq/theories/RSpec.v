(** Specification vocabulary for statements about exact real arithmetic.  Nothing here mentions the
    model's functions. *)
From Coq Require Import List ZArith Reals String.
From Flocq Require Import Core.
From Verif Require Import Base Machine Json Config RMachine.
Import ListNotations.
Local Open Scope R_scope.

(** Nearest integer, halves away from zero. *)
Definition round_away (x : R) : R :=
  IZR (if Rle_dec 0 x then Zfloor (x + / 2) else - Zfloor (/ 2 - x))%Z.

(** Reconstruction levels of a converter with [n] levels on [mn, mx]. *)
Definition step_size (n : Z) (mn mx : R) : R := (mx - mn) / IZR (n - 1).
Definition level_of (n : Z) (mn mx y : R) : Prop :=
  exists k, (0 <= k <= n - 1)%Z /\ y = mn + IZR k * step_size n mn mx.

(** Halfway points between neighbouring levels. *)
Definition threshold (n : Z) (mn mx y : R) : Prop :=
  exists k, (0 <= k < n - 1)%Z /\ y = mn + (IZR k + / 2) * step_size n mn mx.

Definition n_levels (ty : adc_ty) (r : Z) : Z :=
  match ty with SYM_RANGE_ADC => 2 ^ r - 1 | _ => 2 ^ r end.

(** Current range of a finite converter: [-N (LRS-HRS), N (LRS-HRS)] or [0, N LRS] with calibration
    MAX, the dictionary entry of the layer otherwise. *)
Definition lookup {A} (l : string) (d : list (string * A)) : option A :=
  option_map snd (find (fun p => String.eqb l (fst p)) d).
Definition adc_range {nz s} (c : @config (R_machine nz s)) (ty : adc_ty) (l : string) : option (R * R) :=
  match adc_calib_mode c with
  | CAL_CALIB => lookup l (adc_calib_dict c)
  | CAL_MAX =>
      let top := match ty with SYM_RANGE_ADC => LRS c - HRS c | _ => LRS c end in
      Some (match ty with SYM_RANGE_ADC => - (IZR (N c) * top) | _ => 0 end, IZR (N c) * top)
  end.
