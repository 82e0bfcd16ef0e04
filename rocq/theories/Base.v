(** Outcomes of C++ computations, checked 32-bit arithmetic, bounds-checked
    buffers and counting loops.  Shared by all model files. *)
From Coq Require Import List ZArith Bool Arith.
Import ListNotations.
Local Open Scope Z_scope.

(** Kinds of undefined behaviour (C++17) the code can run into. *)
Inductive fault : Type :=
| OutOfBounds     (* vector / pointer access outside the object *)
| SignedOverflow  (* int32_t / int64_t arithmetic overflow *)
| BadShift        (* shift count out of range, or negative left operand under strict rules *)
| FloatToInt      (* float -> integer conversion out of range *)
| NullDeref       (* null unique_ptr / shared_ptr *)
| DivByZero       (* integer modulo / division by zero *)
| Uninit.         (* use of an indeterminate value in a result *)

(** Outcome of running a piece of C++: a value, undefined behaviour, process
    termination (std::exit(EXIT_FAILURE) or abort()), or an escaping C++ exception. *)
Inductive out (A : Type) : Type :=
| Ok (a : A)
| UB (f : fault)
| Died
| Threw.
Arguments Ok {A} _.
Arguments UB {A} _.
Arguments Died {A}.
Arguments Threw {A}.

Definition bind {A B} (x : out A) (k : A -> out B) : out B :=
  match x with
  | Ok a => k a
  | UB f => UB f
  | Died => Died
  | Threw => Threw
  end.

Declare Scope out_scope.
Delimit Scope out_scope with out.
Notation "x <- e ;; k" := (bind e (fun x => k))
  (at level 61, e at next level, right associativity) : out_scope.
Notation "' p <- e ;; k" := (bind e (fun p => k))
  (at level 61, p pattern, e at next level, right associativity) : out_scope.
Local Open Scope out_scope.

(** ** 32-bit and 64-bit signed integers *)

Definition int_min : Z := - 2 ^ 31.
Definition int_max : Z := 2 ^ 31 - 1.
Definition in32 (x : Z) : bool := (int_min <=? x) && (x <=? int_max).
Definition in64 (x : Z) : bool := (- 2 ^ 63 <=? x) && (x <=? 2 ^ 63 - 1).

(** Result of an int32_t operation: overflow is undefined behaviour. *)
Definition chk32 (x : Z) : out Z := if in32 x then Ok x else UB SignedOverflow.
Definition chk64 (x : Z) : out Z := if in64 x then Ok x else UB SignedOverflow.

Definition add32 (a b : Z) : out Z := chk32 (a + b).
Definition sub32 (a b : Z) : out Z := chk32 (a - b).
Definition mul32 (a b : Z) : out Z := chk32 (a * b).
Definition neg32 (a : Z) : out Z := chk32 (- a).

(** Implementation-defined (GCC: modular) conversion to int32_t / int64_t and
    the well-defined modular conversion to uint32_t. *)
Definition wrap32 (x : Z) : Z := (x + 2 ^ 31) mod 2 ^ 32 - 2 ^ 31.
Definition wrap64 (x : Z) : Z := (x + 2 ^ 63) mod 2 ^ 64 - 2 ^ 63.
Definition u32 (x : Z) : Z := x mod 2 ^ 32.

(** [x << s] on int32_t.  [strict = true]: C++17 [expr.shift] - a negative left
    operand, or a result not representable in uint32_t, is undefined.
    [strict = false]: GCC's documented behaviour, shifting the two's complement
    pattern.  A count outside [0,31] is undefined in both. *)
Definition shl32 (strict : bool) (x s : Z) : out Z :=
  if (0 <=? s) && (s <=? 31) then
    if strict && ((x <? 0) || (2 ^ 32 <=? x * 2 ^ s)) then UB BadShift
    else Ok (wrap32 (x * 2 ^ s))
  else UB BadShift.

(** [x << s] on int64_t, same two readings. *)
Definition shl64 (strict : bool) (x s : Z) : out Z :=
  if (0 <=? s) && (s <=? 63) then
    if strict && ((x <? 0) || (2 ^ 64 <=? x * 2 ^ s)) then UB BadShift
    else Ok (wrap64 (x * 2 ^ s))
  else UB BadShift.

(** [x >> s] on int32_t: arithmetic shift (implementation-defined for negative
    [x] in C++17, arithmetic in GCC). *)
Definition shr32 (x s : Z) : out Z :=
  if (0 <=? s) && (s <=? 31) then Ok (Z.shiftr x s) else UB BadShift.

(** ** Buffers: std::vector (and caller arrays) with checked access *)

Definition get {A} (l : list A) (i : nat) : out A :=
  match nth_error l i with Some x => Ok x | None => UB OutOfBounds end.

Fixpoint upd {A} (l : list A) (i : nat) (x : A) : list A :=
  match l, i with
  | [], _ => []
  | _ :: r, O => x :: r
  | y :: r, S j => y :: upd r j x
  end.

Definition set {A} (l : list A) (i : nat) (x : A) : out (list A) :=
  if (i <? length l)%nat then Ok (upd l i x) else UB OutOfBounds.

Definition get2 {A} (m : list (list A)) (i j : nat) : out A :=
  r <- get m i ;; get r j.

Definition set2 {A} (m : list (list A)) (i j : nat) (x : A) : out (list (list A)) :=
  r <- get m i ;; r' <- set r j x ;; set m i r'.

(** Access through a 32-bit signed index (histogram data): negative is out of bounds. *)
Definition getz {A} (l : list A) (i : Z) : out A :=
  if i <? 0 then UB OutOfBounds else get l (Z.to_nat i).
Definition setz {A} (l : list A) (i : Z) (x : A) : out (list A) :=
  if i <? 0 then UB OutOfBounds else set l (Z.to_nat i) x.

(** std::fill over a whole vector. *)
Definition fill {A} (l : list A) (x : A) : list A := map (fun _ => x) l.

Definition mat2 {A} (r c : nat) (x : A) : list (list A) := repeat (repeat x c) r.

(** ** Counting loop: [for (i = 0; i < n; ++i) s = body i s] *)
Fixpoint forN {S} (n : nat) (body : nat -> S -> out S) (s : S) : out S :=
  match n with
  | O => Ok s
  | S k => s' <- forN k body s ;; body k s'
  end.

(** Visiting the indices of [is] in the given order (parallel algorithms with
    an arbitrary schedule). *)
Fixpoint forL {S} (is : list nat) (body : nat -> S -> out S) (s : S) : out S :=
  match is with
  | [] => Ok s
  | i :: r => s' <- body i s ;; forL r body s'
  end.

(** [arr[i] += e] on int32_t. *)
Definition addto (arr : list Z) (i : nat) (e : Z) : out (list Z) :=
  x <- get arr i ;; y <- add32 x e ;; set arr i y.
(** [arr[i] -= e] on int32_t. *)
Definition subto (arr : list Z) (i : nat) (e : Z) : out (list Z) :=
  x <- get arr i ;; y <- sub32 x e ;; set arr i y.
(** [arr[i] -= e] where [e] is int64_t: computed in 64 bits, then converted. *)
Definition subto64 (arr : list Z) (i : nat) (e : Z) : out (list Z) :=
  x <- get arr i ;; y <- chk64 (x - e) ;; set arr i (wrap32 y).

(** [for t<r, for n<c: arr[t] += term t n]. *)
Definition acc2 (r c : nat) (term : nat -> nat -> out Z) (arr : list Z) : out (list Z) :=
  forN r (fun t a => forN c (fun n a' => e <- term t n ;; addto a' t e) a) arr.
(** [for t<r, for n<c: arr[t] -= term t n]. *)
Definition dec2 (r c : nat) (term : nat -> nat -> out Z) (arr : list Z) : out (list Z) :=
  forN r (fun t a => forN c (fun n a' => e <- term t n ;; subto a' t e) a) arr.

Fixpoint mapM {A B} (f : A -> out B) (l : list A) : out (list B) :=
  match l with
  | [] => Ok []
  | x :: r => y <- f x ;; ys <- mapM f r ;; Ok (y :: ys)
  end.
