(** C45, C62, C66: the answers of repeated MVMs. *)
From Coq Require Import String List ZArith Bool.
From Verif Require Import Base Machine FloatMachine Json Config ReadDisturb Mapper Crossbar Api Reach Spec Demo NoiseFloat RdEx
  KinSpec KinProps KinEx.
Import ListNotations.
Local Open Scope Z_scope.

(** C45: with parasitics and without software refresh, MVMs and getters do not change what later MVMs answer,
    although read disturb or cycle-to-cycle noise changes the cell currents: any two successful answers to the
    same call agree, and without read disturb and profiling even a failing call fails alike.  Any arithmetic,
    any noise sequence, every mode. *)
Theorem C45_frozen :
  forall (MC : Machine) w h w' rs a,
  reach w -> digital_only (wcfg w) = false -> parasitics (wcfg w) = true ->
  (read_disturb (wcfg w) = true -> mitigation (wcfg w) <> SOFTWARE) ->
  Forall asking h -> run w h = Ok (w', rs) -> is_mvm a ->
  (forall r r', answer w a = Ok r -> answer w' a = Ok r' -> r' = r) /\
  (read_disturb (wcfg w) = false -> adc_profile (wcfg w) = false -> answer w' a = answer w a).
Proof. exact @frozen. Qed.
Print Assumptions C45_frozen.

(** BNN_I, binary32.  With parasitics both MVMs answer the same although all low-resistive currents have
    halved; without parasitics the second answer differs. *)
Example C45_example :
  seen "BNN_I" (@wired) [put22] = (true, [30; 5; 30; 30], [5; 30; 5; 5], Some [[]; [0]]) /\
  seen "BNN_I" (@wired) [put22; mul2; mul2] = (true, [15; 5; 15; 15], [5; 15; 5; 5], Some [[]; [0]; [0; 0; 1]; [0; 0; 1]]) /\
  seen "BNN_I" (@every) [put22; mul2; mul2] = (true, [15; 5; 15; 15], [5; 15; 5; 5], Some [[]; [0]; [0; 0; 2]; [0; 0; 0]]).
Proof. exact ex45. Qed.

(** C62: with c2c_var, zero sigma and no software refresh, read disturb is invisible: the answer after any
    history of MVMs is the answer before it.  Any arithmetic. *)
Theorem C62_hidden :
  forall (MC : Machine) w h w' rs a,
  reach w -> digital_only (wcfg w) = false ->
  read_disturb (wcfg w) = true -> mitigation (wcfg w) <> SOFTWARE -> c2c_var (wcfg w) = true -> no_noise (wcfg w) ->
  Forall asking h -> run w h = Ok (w', rs) -> is_mvm a ->
  forall r r', answer w a = Ok r -> answer w' a = Ok r' -> r' = r.
Proof. exact @hidden. Qed.
Print Assumptions C62_hidden.

(** C62 for any sigma and any noise sequence: a history of MVMs has the answers it has on the same crossbar
    without read disturb. *)
Theorem C62_hidden_noise :
  forall (MC : Machine) w h rs,
  reach w -> digital_only (wcfg w) = false ->
  read_disturb (wcfg w) = true -> mitigation (wcfg w) = MIT_OFF -> c2c_var (wcfg w) = true -> Forall is_mvm h ->
  answers_of w h = Ok rs -> answers_of (undisturbed w) h = Ok rs.
Proof. exact @hidden_noise. Qed.
Print Assumptions C62_hidden_noise.

(** BNN_VI with and without c2c_var: three MVMs, the currents halve either way. *)
Example C62_example :
  seen "BNN_VI" (@cycled) [put22; mul2; mul2; mul2] =
    (true, [15; 5; 15; 15], [5; 15; 5; 5], Some [[]; [0]; [0; 0; 2]; [0; 0; 2]; [0; 0; 2]]) /\
  seen "BNN_VI" (@every) [put22; mul2; mul2; mul2] =
    (true, [15; 5; 15; 15], [5; 15; 5; 5], Some [[]; [0]; [0; 0; 2]; [0; 0; 0]; [0; 0; 0]]).
Proof. exact ex62. Qed.

(** C66: without read disturb and cycle-to-cycle noise an analog MVM has no memory of earlier MVMs and getters,
    whatever they left in the scratch vectors; failures included unless profiling is on. *)
Theorem C66_memoryless :
  forall (MC : Machine) w h w' rs a,
  reach w -> digital_only (wcfg w) = false -> c2c_var (wcfg w) = false -> read_disturb (wcfg w) = false ->
  Forall asking h -> run w h = Ok (w', rs) -> is_mvm a ->
  (forall r r', answer w a = Ok r -> answer w' a = Ok r' -> r' = r) /\
  (adc_profile (wcfg w) = false -> answer w' a = answer w a).
Proof. exact @memoryless. Qed.
Print Assumptions C66_memoryless.

(** The first and the last MVM are the same call. *)
Example C66_example : (@runs_settled toy plain66, @answers toy world0 plain66) =
  (true, Some [[]; [0]; [0; 13; 3]; [0; -14]; []; [0; 2; 3]; [0; 13; 3]]).
Proof. exact ex66. Qed.
