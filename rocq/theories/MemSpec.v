(** What a crossbar remembers after several writes of different sizes, and what a product with any part of it
    should be. *)
From Coq Require Import List ZArith Bool.
From Verif Require Import Base Machine Json Config Crossbar Api Spec.
Import ListNotations.
Local Open Scope Z_scope.

Section MemSpec.
Context {MC : Machine}.

(** The write is not refused. *)
Definition accepted (c : config) (m n : Z) : bool := (m <=? M c) && (n <=? N c).

(** The weight last written to each place; [None]: nothing was written there. *)
Definition remember (c : config) (mem : nat -> nat -> option Z) (a : call) : nat -> nat -> option Z :=
  match a with
  | CpyMtrx mat m n =>
      fun i j => if accepted c m n && (Z.of_nat i <? m) && (Z.of_nat j <? n)
                 then Some (entry mat (Z.to_nat n) i j) else mem i j
  | _ => mem
  end.
Definition memory (c : config) (h : list call) : nat -> nat -> option Z :=
  fold_left (remember c) h (fun _ _ => None).

(** The sum of the weights of the last write that reached row [i], over the columns of that write. *)
Definition resum (c : config) (s : nat -> Z) (a : call) : nat -> Z :=
  match a with
  | CpyMtrx mat m n =>
      fun i => if accepted c m n && (Z.of_nat i <? m) then sum (Z.to_nat n) (entry mat (Z.to_nat n) i) else s i
  | _ => s
  end.
Definition row_sums (c : config) (h : list call) : nat -> Z := fold_left (resum c) h (fun _ => 0).

(** What input [v] yields at a place without a weight. *)
Definition unwritten (c : config) (v : Z) : Z :=
  match m_mode c with
  | I_UINT_W_OFFS => - 2 ^ (W_BIT c - 1) * v
  | BNN_III | TNN_V => - v
  | BNN_IV => v
  | BNN_V => -1
  | _ => 0
  end.

Definition memory_product (c : config) (res vec : list Z) (mem : nat -> nat -> option Z) (s : nat -> Z)
    (m n : nat) : list Z :=
  map (fun i => nth i res 0 +
         (if (i <? m)%nat
          then sum n (fun j => match mem i j with
                               | Some w => w * nth j vec 0
                               | None => unwritten c (nth j vec 0)
                               end)
               - row_sum_factor c * (s i - sum n (fun j => match mem i j with Some w => w | None => 0 end))
          else 0)) (seq 0 (List.length res)).

(** Writes of weights of the mode that fit or are refused for their size, and calls that leave the weights alone. *)
Definition usual (c : config) (a : call) : Prop :=
  match a with
  | CpyMtrx mat m n =>
      0 <= m < 2 ^ 31 /\ 0 <= n < 2 ^ 31 /\ (accepted c m n = true -> all_entries (weight_in c) mat m n)
  | _ => quiet a
  end.
End MemSpec.
