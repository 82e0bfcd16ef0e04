(** The floating-point operations read as exact real arithmetic. *)
From Coq Require Import ZArith Reals Bool.
From Flocq Require Import Core.
From Verif Require Import Base Machine.
Local Open Scope R_scope.

Definition rltb (x y : R) : bool := if Rlt_dec x y then true else false.
Definition rleb (x y : R) : bool := if Rle_dec x y then true else false.
Definition reqb (x y : R) : bool := if Req_EM_T x y then true else false.

(** pow: real power for positive bases; pow(0, y) is 0 for y <> 0 and 1 for y = 0.
    Negative bases do not occur. *)
Definition rpow (x y : R) : R :=
  if Rlt_dec 0 x then Rpower x y else if Req_EM_T y 0 then 1 else 0.

(** [nz]: the noise samples; [strict]: reading of left shifts. *)
Definition R_machine (nz : bool -> nat -> R) (strict : bool) : Machine := {|
  F := R; D := R;
  fadd := Rplus; fsub := Rminus; fmul := Rmult; fdiv := Rdiv; fneg := Ropp; fabs := Rabs;
  flt := rltb; fle := rleb; feq := reqb;
  f_of_Z := IZR;
  fround x := IZR (ZnearestA x);
  f_trunc x := Some (Ztrunc x);
  f_max := IZR (2 ^ 128 - 2 ^ 104);
  f_lowest := IZR (- (2 ^ 128 - 2 ^ 104));
  d_of_f x := x; f_of_d x := x;
  dadd := Rplus; dsub := Rminus; dmul := Rmult; ddiv := Rdiv;
  dlt := rltb; dle := rleb; deq := reqb;
  d_of_Z := IZR;
  dpow2 k := bpow radix2 k;
  d_trunc x := Some (Ztrunc x);
  d_lit m e := IZR m * powerRZ 10 e;
  f_pow := rpow; d_pow := rpow; f_exp := exp;
  noise := nz; strict_shl := strict |}.
