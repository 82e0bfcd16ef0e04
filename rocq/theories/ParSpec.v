(** Specification of a crossbar column with wire resistance: Kirchhoff's current law, and which
    cells each mode wires to which column.  Nothing here mentions the solver. *)
From Coq Require Import List ZArith Reals Bool Arith.
From Verif Require Import Base Machine Json Config.
Import ListNotations.
Local Open Scope R_scope.

(** A column of N cells.  Cell k (conductance [g k], 0 when its row is not driven) connects the
    read voltage V to node k of the column wire, a wire segment of conductance W connects node k
    to node k + 1, and node N is at ground.  [u] are the potentials of the nodes: at every node the
    currents add up to 0. *)
Definition kirchhoff (V W : R) (g : nat -> R) (N : nat) (u : nat -> R) : Prop :=
  u N = 0 /\
  forall k, (k < N)%nat ->
    g k * (V - u k) + match k with O => 0 | S j => W * (u j - u k) end = W * (u k - u (S k)).
(** The current out of the last segment. *)
Definition outflow (W : R) (N : nat) (u : nat -> R) : R :=
  match N with O => 0 | S k => W * (u k - u N) end.
Definition column_current (V W : R) (g : nat -> R) (N : nat) (I : R) : Prop :=
  exists u, kirchhoff V W g N u /\ I = outflow W N u.
(** Without wire resistance every cell sees the full voltage. *)
Definition ideal_current (V : R) (g : nat -> R) (N : nat) : R :=
  fold_right Rplus 0 (map (fun k => g k * V) (seq 0 N)).

(** ** Wiring *)
(** Modes with two physical rows per input. *)
Definition two_rows (md : mode) : bool := match md with BNN_V | BNN_VI | TNN_I => true | _ => false end.
(** Modes with one column per output instead of a difference of two. *)
Definition one_column (md : mode) : bool :=
  match md with I_UINT_W_OFFS | BNN_III | BNN_IV | BNN_V | TNN_IV | TNN_V => true | _ => false end.
(** The input that drives physical row r. *)
Definition input_of (md : mode) (r : nat) : nat := if two_rows md then (r / 2)%nat else r.
Definition driven (md : mode) (vp vm : list Z) (n r : nat) : bool :=
  (input_of md r <? n)%nat &&
  negb (nth (input_of md r) (if two_rows md && Nat.odd r then vm else vp) 0 =? 0)%Z.
(** Current of the cell of row r in the column (the minus column if [minus]) of output i, for cell
    currents [ip] and [im] of the two arrays; there is a cell if its input is one of the n written. *)
Definition cell_at (md : mode) (ip im : nat -> nat -> R) (n : nat) (minus : bool) (i r : nat) : R :=
  if (input_of md r <? n)%nat then
    match md with
    | BNN_V => if Nat.even r then ip i (r / 2)%nat else im i (r / 2)%nat
    | BNN_VI | TNN_I => if Bool.eqb minus (Nat.odd r) then ip i (r / 2)%nat else im i (r / 2)%nat
    | TNN_IV | TNN_V => (if Nat.even i then ip else im) (i / 2)%nat r
    | BNN_II => (if minus then ip else im) i r
    | _ => (if minus then im else ip) i r
    end
  else 0.

(** ** Capacity *)
(** The solver has N rows and returns M currents.  A matrix of m rows and n columns needs 2n rows in
    the modes with two rows per input, one current per row and slice in the integer modes, and two
    currents per row in TNN_IV and TNN_V. *)
Definition solver_fits {MC : Machine} (c : config) (m n : Z) : Prop :=
  (two_rows (m_mode c) = true -> 2 * n <= N c)%Z /\
  (is_int (m_mode c) = true -> m * Z.of_nat (List.length (SPLIT c)) <= M c)%Z /\
  (m_mode c = TNN_IV \/ m_mode c = TNN_V -> 2 * m <= M c)%Z.

(** Currents computed for m rows. *)
Definition outputs {MC : Machine} (c : config) (m : nat) : nat :=
  if is_int (m_mode c) then (m * List.length (SPLIT c))%nat
  else match m_mode c with TNN_IV | TNN_V => (2 * m)%nat | _ => m end.
