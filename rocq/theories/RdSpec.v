(** Specification of the read-disturb model, independent of the code's functions. *)
From Coq Require Import List ZArith Reals Bool.
From Verif Require Import Base Machine Config ReadDisturb Mapper Crossbar Api Spec.
Import ListNotations.

(** ** The physical formulas over the reals *)
Section Phys.
Local Open Scope R_scope.

(** Boltzmann constant times 300 K, in electron volts. *)
Definition thermal : R := (138064852 / 10 ^ 31) * 300 / (1602176634 / 10 ^ 28).
(** Decay exponent at read voltage [v]. *)
Definition decay (v : R) : R := 68 / 10000 * exp (11 / 100 * Rabs v / thermal).
(** Set-reset cycles from which on the model is not defined:
    the least n with 0.003 * n^0.41 >= 1. *)
Definition endurance : Z := 1423518.
(** Loss of margin after [n] set-reset cycles. *)
Definition fatigue (n : Z) : R := if Z.eq_dec n 0 then 0 else 3 / 1000 * Rpower (IZR n) (41 / 100).
(** Stress time up to which a cell keeps its conductance. *)
Definition onset (v : R) (n : Z) : R :=
  155 / 10 ^ 10 * Rpower (143339 / 100000) (/ decay v) * Rpower (1 - fatigue n) (/ decay v).
(** Remaining fraction of the conductance after [k] reads of [t] seconds. *)
Definition fading (v t : R) (k n : Z) : R :=
  if Rlt_dec (IZR k * t) (onset v n) then 1 else Rpower (IZR k * t / onset v n) (- decay v).
End Phys.

(** ** The same in the arithmetic of the machine *)
Section Gen.
Context {MC : Machine}.
Local Open Scope Z_scope.

(** Fraction left after [k] reads for a cell with [n] cycles, from V_read and t_read alone. *)
Definition m_decay (v : F) : F :=
  fmul (f_of_d (d_lit 68 (-4)))
    (f_exp (fdiv (fmul (f_of_d (d_lit 11 (-2))) (fabs v))
       (f_of_d (ddiv (d_of_f (fmul (f_of_d (d_lit 138064852 (-31))) (f_of_d (d_lit 300 0)))) (d_lit 1602176634 (-28)))))).
Definition m_fatigue (n : Z) : D :=
  dmul (d_of_f (f_of_d (d_lit 3 (-3)))) (d_pow (d_of_Z n) (d_of_f (f_of_d (d_lit 41 (-2))))).
Definition m_invalid (n : Z) : bool := dle (d_of_Z 1) (m_fatigue n).
Definition m_onset (v : F) (n : Z) : F :=
  if m_invalid n then f0
  else f_of_d (dmul (d_of_f (fmul (f_of_d (d_lit 155 (-10)))
                                  (f_pow (f_of_d (d_lit 143339 (-5))) (fdiv (f_of_Z 1) (m_decay v)))))
                    (d_pow (dsub (d_of_Z 1) (m_fatigue n)) (d_of_f (fdiv (f_of_Z 1) (m_decay v))))).
Definition m_fading (v t : F) (k n : Z) : F :=
  if flt (fmul (f_of_Z k) t) (m_onset v n) then f_of_Z 1
  else f_pow (fdiv (fmul (f_of_Z k) t) (m_onset v n)) (fneg (m_decay v)).

(** ** Histories *)

(** Value of one cell as a getter reports it. *)
Definition stored (q : matq) (w : world) (i j : nat) : Z :=
  match step w (GetMat q) with Ok (_, RMat g) => cell g i j | _ => 0 end.
(** Number of calls of a history that changed a cell from 1 to 0. *)
Fixpoint resets (q : matq) (i j : nat) (w : world) (h : list call) : Z :=
  match h with
  | [] => 0
  | a :: h' =>
      match step w a with
      | Ok (w', _) => (if (stored q w i j =? 1) && (stored q w' i j =? 0) then 1 else 0) + resets q i j w' h'
      | _ => 0
      end
  end.
(** A read-disturb update happens at this call: read disturb is on and the number of consecutive
    reads is a multiple of the update frequency.  [k]: consecutive reads including this one. *)
Definition updates (c : config) (k : Z) : bool := read_disturb c && negb (digital_only c) && (k mod update_freq c =? 0).
(** Some low-resistive cell of [g] has a cycle count outside the validity of the model. *)
Definition some_invalid (g cyc : list (list Z)) : Prop :=
  exists i j, cell g i j = 1 /\ m_invalid (cell cyc i j) = true.
(** Number of low-resistive cells. *)
Definition ones (g : list (list Z)) : Z :=
  fold_right Z.add 0 (map (fun row => fold_right Z.add 0 (map (fun v => if v =? 1 then 1 else 0) row)) g).
(** Sum of all entries of a matrix. *)
Definition sum_all (g : list (list Z)) : Z := total (map total g).
(** Cells whose consecutive reads a call counts; TNN_IV and TNN_V count twice as many rows as they read. *)
Definition counts (m : mode) (a : call) (i j : nat) : bool :=
  covers a (match m with TNN_IV | TNN_V => Nat.div2 i | _ => i end) j.
(** Modes whose negative array takes part in read disturb. *)
Definition both_arrays (m : mode) : Prop :=
  match m with BNN_III | BNN_IV | BNN_V | TNN_IV | TNN_V => False | _ => True end.
End Gen.
