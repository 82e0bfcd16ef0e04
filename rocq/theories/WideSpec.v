(** Weights that W_BIT bits cannot hold.  Nothing here mentions how the code computes. *)
From Coq Require Import List ZArith Bool.
From Verif Require Import Base Machine Json Config Spec.
Import ListNotations.
Local Open Scope Z_scope.

Section Wide.
Context {MC : Machine}.

(** The bits of a number that W_BIT bits, cut to the slices of SPLIT, keep. *)
Definition top_bits (c : config) (v : Z) : Z :=
  let k := W_BIT c - total (SPLIT c) in v mod 2 ^ W_BIT c / 2 ^ k * 2 ^ k.
(** What is left of the weight [w]: sign and low bits, or the two's complement wrap-around. *)
Definition kept (c : config) (w : Z) : Z :=
  match m_mode c with
  | I_UINT_W_OFFS => top_bits c (w + 2 ^ (W_BIT c - 1)) - 2 ^ (W_BIT c - 1)
  | _ => Z.sgn w * top_bits c (Z.abs w)
  end.

(** Numbers that can be written at all. *)
Definition writable (c : config) (w : Z) : Prop :=
  match m_mode c with
  | I_UINT_W_OFFS => - 2 ^ 31 <= w < 2 ^ 31 - 2 ^ (W_BIT c - 1)
  | _ => - 2 ^ 31 < w < 2 ^ 31
  end.

Definition row_abs (mat : list Z) (n i : nat) : Z := sum n (fun j => Z.abs (entry mat n i j)).
(** Only I_OFFS_W_DIFF corrects its results with the sums of the weights as they were written. *)
Definition offset (c : config) : Z := match m_mode c with I_OFFS_W_DIFF => 2 ^ (I_BIT c - 1) | _ => 0 end.

(** No 32-bit overflow: row sums, products, and the correction. *)
Definition wide_room (c : config) (mat res : list Z) (m n : Z) : Prop :=
  n * term_bound c <= int32_max /\ Z.of_nat (List.length res) >= m /\
  forall i, (i < Z.to_nat m)%nat ->
    (m_mode c <> I_UINT_W_OFFS -> row_abs mat (Z.to_nat n) i <= int32_max) /\
    Z.abs (nth i res 0) + n * term_bound c + offset c * row_abs mat (Z.to_nat n) i <= int32_max.

(** The product with what is left of the weights, wrong by the correction for what is not. *)
Definition wide_product (c : config) (res mat vec : list Z) (m n : nat) : list Z :=
  map (fun i => nth i res 0 +
        if (i <? m)%nat then
          sum n (fun j => kept c (entry mat n i j) * nth j vec 0)
          - offset c * sum n (fun j => entry mat n i j - kept c (entry mat n i j))
        else 0) (seq 0 (List.length res)).
End Wide.
