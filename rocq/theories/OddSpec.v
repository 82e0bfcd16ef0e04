(** Numbers that are not weights of a binary or ternary mode.  Nothing here mentions how the code computes. *)
From Coq Require Import List ZArith Bool.
From Verif Require Import Base Machine Json Config Spec.
Import ListNotations.
Local Open Scope Z_scope.

Section Odd.
Context {MC : Machine}.

(** Numbers whose cells still hold 0 or 1. *)
Definition storable (c : config) (w : Z) : Prop :=
  match m_mode c with
  | BNN_III => -1 <= w <= 2
  | BNN_IV => -2 <= w <= 2
  | _ => - 2 ^ 31 <= w < 2 ^ 31 - 1
  end.
(** The weight that the number [w] stands for. *)
Definition stands_for (c : config) (w : Z) : Z :=
  match m_mode c with
  | BNN_III => if w <=? 0 then -1 else 1
  | BNN_IV => if w <? 0 then -1 else 1
  | TNN_IV => (w + 2) mod 4 - 2
  | TNN_V => (w + 1) mod 4 - 1
  | _ => w
  end.
Definition odd_product (c : config) (res mat vec : list Z) (m n : nat) : list Z :=
  map (fun i => nth i res 0 +
        if (i <? m)%nat then sum n (fun j => stands_for c (entry mat n i j) * nth j vec 0) else 0)
      (seq 0 (List.length res)).
End Odd.
