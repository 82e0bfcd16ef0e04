(** Specification of C83: results near a target. *)
From Coq Require Import List ZArith Reals.
Import ListNotations.
Local Open Scope R_scope.

(** The first m entries of [r] are within [e] of those of [t], the others are equal. *)
Definition near (e : R) (r t : list Z) (m : nat) : Prop :=
  List.length r = List.length t /\
  forall i, ((i < m)%nat -> Rabs (IZR (nth i r 0%Z) - IZR (nth i t 0%Z)) <= e) /\
            ((m <= i)%nat -> nth i r 0%Z = nth i t 0%Z).
