(** The floating-point operations used by the simulator, as a record so that the
    model can be run in exact real arithmetic ([RMachine.v]) and in IEEE
    binary32/binary64 ([FloatMachine.v]). *)
From Coq Require Import ZArith Bool List.
From Verif Require Import Base.
Local Open Scope Z_scope.

Class Machine := {
  F : Type;  (* C++ float *)
  D : Type;  (* C++ double *)
  fadd : F -> F -> F;
  fsub : F -> F -> F;
  fmul : F -> F -> F;
  fdiv : F -> F -> F;
  fneg : F -> F;
  fabs : F -> F;                 (* std::abs(float) *)
  flt : F -> F -> bool;
  fle : F -> F -> bool;
  feq : F -> F -> bool;
  f_of_Z : Z -> F;               (* conversion of an integer to float *)
  fround : F -> F;               (* round(): nearest integer, halves away from zero *)
  f_trunc : F -> option Z;       (* truncation towards zero; None for NaN / infinity *)
  f_max : F;                     (* std::numeric_limits<float>::max() *)
  f_lowest : F;
  d_of_f : F -> D;
  f_of_d : D -> F;
  dadd : D -> D -> D;
  dsub : D -> D -> D;
  dmul : D -> D -> D;
  ddiv : D -> D -> D;
  dlt : D -> D -> bool;
  dle : D -> D -> bool;
  deq : D -> D -> bool;
  d_of_Z : Z -> D;
  dpow2 : Z -> D;                (* std::pow(2, k), exact or infinite *)
  d_trunc : D -> option Z;
  d_lit : Z -> Z -> D;           (* decimal literal m * 10^e, correctly rounded *)
  f_pow : F -> F -> F;           (* std::pow(float, float) *)
  d_pow : D -> D -> D;           (* std::pow(double, double) *)
  f_exp : F -> F;                (* std::exp(float) *)
  noise : bool -> nat -> F;      (* k-th sample; true: LRS distribution, false: HRS *)
  strict_shl : bool              (* C++17 (true) or GCC (false) left shifts *)
}.

Section Ops.
Context {MC : Machine}.

Definition f0 : F := f_of_Z 0.

(** Conversion float -> int32_t: truncation, undefined when out of range. *)
Definition f2i (x : F) : out Z :=
  match f_trunc x with
  | Some z => if in32 z then Ok z else UB FloatToInt
  | None => UB FloatToInt
  end.

(** [arr[i] += e] for a float array. *)
Definition faddto (arr : list F) (i : nat) (e : F) : out (list F) :=
  bind (get arr i) (fun x => set arr i (fadd x e)).
Definition fsubto (arr : list F) (i : nat) (e : F) : out (list F) :=
  bind (get arr i) (fun x => set arr i (fsub x e)).

(** [for t<r, for n<c: arr[t] += term t n] for a float array. *)
Definition facc2 (r c : nat) (term : nat -> nat -> out F) (arr : list F) : out (list F) :=
  forN r (fun t a => forN c (fun n a' => bind (term t n) (fun e => faddto a' t e)) a) arr.

(** [res[i] += e] with int32_t [res[i]] and float [e]: computed in float, then
    converted back with truncation. *)
Definition res_fadd (res : list Z) (i : nat) (e : F) : out (list Z) :=
  bind (get res i) (fun x => bind (f2i (fadd (f_of_Z x) e)) (fun y => set res i y)).
Definition res_fsub (res : list Z) (i : nat) (e : F) : out (list Z) :=
  bind (get res i) (fun x => bind (f2i (fsub (f_of_Z x) e)) (fun y => set res i y)).

(** std::max(a, b) and std::min(a, b) on float. *)
Definition fmax (a b : F) : F := if flt a b then b else a.
Definition fmin (a b : F) : F := if flt b a then b else a.
End Ops.
