(** Property theorem C88: slices of width zero. *)
From Coq Require Import List ZArith Bool String Lia.
From Verif Require Import Base Machine FloatMachine Json Config Mapper Crossbar Api Reach Spec Demo KinSpec ZeroSlice ZeroEx.
Import ListNotations.
Local Open Scope Z_scope.

(** C88.  IEEE arithmetic.  An analog crossbar of an integer mode whose SPLIT contains a 0: after any
    successful write, and whatever is asked in between, no MVM of at least one row and column succeeds,
    whatever the weights, the inputs and the converter are. *)
Theorem C88_zero_width_refuted :
  forall (powf : b32 -> b32 -> b32) (pow : b64 -> b64 -> b64) (expf : b32 -> b32) (nz : bool -> nat -> b32) (strict : bool)
         (w : @world (F_machine powf pow expf nz strict)) x (mat0 : list Z) (m0 n0 : Z) w1 h w2 rs a,
  reach w -> wx w = Some x -> digital_only (wcfg w) = false -> is_int (m_mode (wcfg w)) = true ->
  parasitics (wcfg w) = false -> c2c_var (wcfg w) = false ->
  In 0 (SPLIT (wcfg w)) -> dims_in (wcfg w) m0 n0 -> 1 <= m0 -> 1 <= n0 ->
  step w (CpyMtrx mat0 m0 n0) = Ok (w1, RCode 0) -> Forall asking h -> run w1 h = Ok (w2, rs) ->
  (exists res vec mat m n, 1 <= m /\ 1 <= n /\ (a = PyMvm res vec mat m n \/ exists l, a = ExeMvm res vec mat m n l)) ->
  forall w' r, step w2 a <> Ok (w', RRes 0 r).
Proof. exact zero_slice. Qed.
Print Assumptions C88_zero_width_refuted.

(** The document is accepted, the write and the queries succeed. *)
Example C88_example : hyps88_of w88 (next w88 [put88]) (next (next w88 [put88]) asks88).
Proof. exact hyps88. Qed.
(** All six modes: with slices [2; 0; 2] the analog MVM is undefined (an unrepresentable float is
    converted to an integer), with [2; 2] it succeeds, and the digital MVM is exact with [2; 0; 2]. *)
Example C88_modes : map try88 int_modes = repeat (4, 0, Some [[]; [0]; [0; -5; 3]]) 6.
Proof. exact ex88. Qed.
