(** The floating-point operations as IEEE binary32 / binary64 with rounding to
    nearest even (Flocq).  NaN payloads are not distinguished. *)
From Coq Require Import ZArith Bool.
From Flocq Require Import Core BinarySingleNaN.
From Verif Require Import Base Machine.
Local Open Scope Z_scope.

Definition b32 := binary_float 24 128.
Definition b64 := binary_float 53 1024.

Definition p32 : Prec_gt_0 24 := eq_refl.
Definition e32 : Prec_lt_emax 24 128 := eq_refl.
Definition p64 : Prec_gt_0 53 := eq_refl.
Definition e64 : Prec_lt_emax 53 1024 := eq_refl.

(** Correctly rounded integer m * 2^e. *)
Definition norm32 (m e : Z) (sgn : bool) : b32 := binary_normalize 24 128 p32 e32 mode_NE m e sgn.
Definition norm64 (m e : Z) (sgn : bool) : b64 := binary_normalize 53 1024 p64 e64 mode_NE m e sgn.

(** Conversions between the formats. *)
Definition to64 (x : b32) : b64 :=
  match x with
  | B754_zero s => B754_zero s
  | B754_infinity s => B754_infinity s
  | B754_nan => B754_nan
  | B754_finite s m e _ => norm64 (cond_Zopp s (Zpos m)) e s
  end.
Definition to32 (x : b64) : b32 :=
  match x with
  | B754_zero s => B754_zero s
  | B754_infinity s => B754_infinity s
  | B754_nan => B754_nan
  | B754_finite s m e _ => norm32 (cond_Zopp s (Zpos m)) e s
  end.

(** Correctly rounded decimal literal: for negative exponents the quotient is
    computed to 256 extra bits with a sticky bit. *)
Definition lit64 (m e : Z) : b64 :=
  if 0 <=? e then norm64 (m * 10 ^ e) 0 false
  else
    let d := 10 ^ (- e) in
    let q := (m * 2 ^ 256) / d in
    let r := (m * 2 ^ 256) mod d in
    norm64 (2 * q + (if r =? 0 then 0 else 1)) (-257) false.

(** libm's powf, pow, expf and the noise samples are parameters. *)
Definition F_machine (powf : b32 -> b32 -> b32) (pow : b64 -> b64 -> b64) (expf : b32 -> b32)
    (nz : bool -> nat -> b32) (strict : bool) : Machine := {|
  F := b32; D := b64;
  fadd := @Bplus 24 128 p32 e32 mode_NE;
  fsub := @Bminus 24 128 p32 e32 mode_NE;
  fmul := @Bmult 24 128 p32 e32 mode_NE;
  fdiv := @Bdiv 24 128 p32 e32 mode_NE;
  fneg := @Bopp 24 128; fabs := @Babs 24 128;
  flt := @Bltb 24 128; fle := @Bleb 24 128; feq := @Beqb 24 128;
  f_of_Z z := norm32 z 0 false;
  fround := @Bnearbyint 24 128 e32 mode_NA;
  f_trunc x := if is_finite x then Some (Btrunc x) else None;
  f_max := @Bmax_float 24 128 p32 e32;
  f_lowest := Bopp (@Bmax_float 24 128 p32 e32);
  d_of_f := to64; f_of_d := to32;
  dadd := @Bplus 53 1024 p64 e64 mode_NE;
  dsub := @Bminus 53 1024 p64 e64 mode_NE;
  dmul := @Bmult 53 1024 p64 e64 mode_NE;
  ddiv := @Bdiv 53 1024 p64 e64 mode_NE;
  dlt := @Bltb 53 1024; dle := @Bleb 53 1024; deq := @Beqb 53 1024;
  d_of_Z z := norm64 z 0 false;
  dpow2 k := norm64 1 k false;
  d_trunc x := if is_finite x then Some (Btrunc x) else None;
  d_lit := lit64;
  f_pow := powf; d_pow := pow; f_exp := expf;
  noise := nz; strict_shl := strict |}.
