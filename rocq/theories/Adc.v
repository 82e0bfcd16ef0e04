(** Analog-digital converters: /repo/cpp/src/xbar/adc.cpp. *)
From Coq Require Import List ZArith Bool String.
From RecordUpdate Require Import RecordSet.
From Verif Require Import Base Machine Json Config Histogram.
Import ListNotations RecordSetNotations.
Local Open Scope Z_scope.
Local Open Scope out_scope.

Section Adc.
Context {MC : Machine}.

(** State outside the crossbar object: number of noise samples drawn so far
    (static generator, mapper.cpp:291-292) and the ADCHistograms singleton. *)
Record env : Type := mkEnv { draws : nat; histo : hists }.
#[export] Instance eta_env : Settable _ := settable! mkEnv <draws; histo>.

(** adc.h:33-76: dynamic type and number of steps. *)
Record adc : Type := mkAdc { a_ty : adc_ty; a_steps : Z }.

(** adc.cpp:19-22, 91, 106, 144-147, 157-168: the factory.  [std::pow(2, resolution)]
    is converted to int32_t. *)
Definition adc_new (c : config) (ty : adc_ty) : out adc :=
  match d_trunc (dpow2 (resolution c)) with
  | Some s =>
      if in32 s then
        match ty with
        | SYM_RANGE_ADC => s' <- sub32 s 1 ;; Ok (mkAdc ty s')
        | _ => Ok (mkAdc ty s)
        end
      else UB FloatToInt
  | None => UB FloatToInt
  end.

(** adc.cpp:98-104, 138-142, 149-155: maximum_min_current and maximum_max_current. *)
Definition max_min_current (c : config) (ty : adc_ty) : F :=
  match ty with
  | INF_ADC => f_lowest
  | POS_RANGE_ONLY_ADC => f0
  | SYM_RANGE_ADC => fmul (fneg (f_of_Z (N c))) (fsub (LRS c) (HRS c))
  end.
Definition max_max_current (c : config) (ty : adc_ty) : F :=
  match ty with
  | INF_ADC => f_max
  | POS_RANGE_ONLY_ADC => fmul (f_of_Z (N c)) (LRS c)
  | SYM_RANGE_ADC => fmul (f_of_Z (N c)) (fsub (LRS c) (HRS c))
  end.

(** adc.cpp:51-69. *)
Definition get_currents (c : config) (a : adc) (l : string) : out (F * F) :=
  match adc_calib_mode c with
  | CAL_MAX => Ok (max_min_current c (a_ty a), max_max_current c (a_ty a))
  | CAL_CALIB => match assoc l (adc_calib_dict c) with
                 | Some p => Ok p
                 | None => Died
                 end
  end.

(** adc.cpp:71-73. *)
Definition clip (x mn mx : F) : F := fmin (fmax x mn) mx.

(** adc.cpp:108-136. *)
Definition quantize (steps : Z) (mn mx x scale off : F) : out F :=
  k <- sub32 steps 1 ;;
  let range := fsub mx mn in
  let t := clip (fadd x off) mn mx in
  let step := fdiv range (f_of_Z k) in
  let t := fround (fdiv (fsub t mn) step) in
  let t := fadd (fmul t step) mn in
  Ok (fround (fmul t scale)).

(** adc.cpp:93-96 and 108-136: conversion of one current. *)
Definition adc1 (c : config) (a : adc) (l : string) (x scale off : F) : out F :=
  match a_ty a with
  | INF_ADC => Ok (fmul (fadd x off) scale)
  | _ => '(mn, mx) <- get_currents c a l ;; quantize (a_steps a) mn mx x scale off
  end.

(** adc.cpp:75-89. *)
Definition profile (c : config) (a : adc) (l : string) (vs : list F) (e : env) : out env :=
  h <- (match assoc l (histo e) with
        | Some h => Ok h
        | None => hist_new (max_min_current c (a_ty a)) (max_max_current c (a_ty a))
                           (f_of_Z (bin_size c))
        end) ;;
  h' <- hist_update vs h ;;
  Ok (e <| histo := hput (histo e) l h' |>).

(** adc.cpp:24-49, called with the same vector as input and output by every
    mapper.  The parallel std::transform is run in index order here; [adc_vec_sched]
    is the same computation in an arbitrary order. *)
Definition adc_vec_sched (c : config) (a : adc) (l : string) (is : list nat)
    (arr : list F) (scale off : F) : out (list F) :=
  forL is (fun i v => x <- get v i ;; y <- adc1 c a l x scale off ;; set v i y) arr.

Definition adc_vec (c : config) (a : adc) (l : string) (len : nat)
    (arr : list F) (scale off : F) (e : env) : out (list F * env) :=
  if (List.length arr <? len)%nat then Died
  else
    e' <- (if adc_profile c then profile c a l (firstn len arr) e else Ok e) ;;
    v <- forN len (fun i v => x <- get v i ;; y <- adc1 c a l x scale off ;; set v i y) arr ;;
    Ok (v, e').
End Adc.
