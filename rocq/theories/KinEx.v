(** Repeated MVMs on concrete crossbars. *)
From Coq Require Import List ZArith Bool String.
From Verif Require Import Base Machine FloatMachine Json Config ReadDisturb Mapper Crossbar Api Reach Spec Demo NoiseFloat RdEx KinSpec.
Import ListNotations.
Local Open Scope Z_scope.

(** Currents fade at every MVM; with or without wire resistance or cycle-to-cycle noise. *)
Definition every {MC : Machine} : list (string * json) := [("read_disturb_update_freq", JInt 1)]%string.
Definition wired {MC : Machine} : list (string * json) := every ++ [("parasitics", JBool true); ("w_res", JInt 1)]%string.
Definition cycled {MC : Machine} : list (string * json) := every ++ [("c2c_var", JBool true)]%string.
Definition mul2 {MC : Machine} : call := ExeMvm [0; 0] [1; 1] [] 2 2 ""%string.
(** The currents of both arrays after the history, and all answers. *)
Definition seen (mode : string) (rd : forall MC : Machine, list (string * json)) (h : list (@call (fade 1))) :
    bool * list Z * list Z * option (list (list Z)) :=
  let h := hist 1 mode rd h in (runs_settled h, loud_now (after h), now_m (after h), answers world0 h).

Lemma ex45 :
  seen "BNN_I" (@wired) [put22] = (true, [30; 5; 30; 30], [5; 30; 5; 5], Some [[]; [0]]) /\
  seen "BNN_I" (@wired) [put22; mul2; mul2] = (true, [15; 5; 15; 15], [5; 15; 5; 5], Some [[]; [0]; [0; 0; 1]; [0; 0; 1]]) /\
  seen "BNN_I" (@every) [put22; mul2; mul2] = (true, [15; 5; 15; 15], [5; 15; 5; 5], Some [[]; [0]; [0; 0; 2]; [0; 0; 0]]).
Proof. vm_compute. auto. Qed.
Lemma ex62 :
  seen "BNN_VI" (@cycled) [put22; mul2; mul2; mul2] =
    (true, [15; 5; 15; 15], [5; 15; 5; 5], Some [[]; [0]; [0; 0; 2]; [0; 0; 2]; [0; 0; 2]]) /\
  seen "BNN_VI" (@every) [put22; mul2; mul2; mul2] =
    (true, [15; 5; 15; 15], [5; 15; 5; 5], Some [[]; [0]; [0; 0; 2]; [0; 0; 0]; [0; 0; 0]]).
Proof. vm_compute. auto. Qed.
(** MVMs of other shapes and inputs in between, in an integer mode. *)
Definition plain66 {MC : Machine} : list call :=
  [SetConfig (Parsed (ana_doc "I_DIFF_W_DIFF_1XB" 2 3 4 4 [2; 2] 5 30)); CpyMtrx [1; -2; 3; 4; 5; -6] 2 3;
   ExeMvm [7; 7] [1; 2; 3] [] 2 3 ""%string; ExeMvm [0] [-4; 5] [] 1 2 ""%string; GetIa true; PyMvm [0; 0] [1; 1; 1] [] 2 3;
   ExeMvm [7; 7] [1; 2; 3] [] 2 3 ""%string].
Lemma ex66 : (@runs_settled toy plain66, @answers toy world0 plain66) =
  (true, Some [[]; [0]; [0; 13; 3]; [0; -14]; []; [0; 2; 3]; [0; 13; 3]]).
Proof. vm_compute. auto. Qed.
