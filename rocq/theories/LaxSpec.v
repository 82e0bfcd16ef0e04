(** Which values of a document are taken for which others.  Nothing here mentions how the code
    reads them. *)
From Coq Require Import String List ZArith Bool.
From Verif Require Import Base Machine Json.
Import ListNotations.
Local Open Scope Z_scope.
Local Open Scope string_scope.

Section Lax.
Context {MC : Machine}.

(** [v] is taken for the integer [z] when [z] is in the range of the setting: a boolean for 0 or 1,
    an integer for the one in range it is congruent to, a fraction for its integral part. *)
Definition taken (low high : Z) (v : json) (z : Z) : Prop :=
  low <= z < high /\
  match v with
  | JBool b => z = if b then 1 else 0
  | JInt x => exists k, x = z + k * (high - low)
  | JFlt d => d_trunc d = Some z
  | _ => False
  end.
Definition lax_int (low high : Z) (v v' : json) : Prop := v = v' \/ exists z, v' = JInt z /\ taken low high v z.
Definition lax_count := lax_int 0 (2 ^ 32).
Definition lax_int32 := lax_int (- 2 ^ 31) (2 ^ 31).
Definition lax_number (v v' : json) : Prop := v = v' \/ exists b : bool, v = JBool b /\ v' = JInt (if b then 1 else 0).
Definition lax_counts (v v' : json) : Prop := exists l l', v = JArr l /\ v' = JArr l' /\ Forall2 lax_count l l'.
(** Whatever follows the bounds of a range does not count. *)
Definition lax_range (v v' : json) : Prop :=
  exists a b r a' b', v = JArr (a :: b :: r) /\ v' = JArr [a'; b'] /\ lax_number a a' /\ lax_number b b'.
Definition lax_ranges (v v' : json) : Prop :=
  exists l l', v = JObj l /\ v' = JObj l' /\ Forall2 (fun e e' => fst e = fst e' /\ lax_range (snd e) (snd e')) l l'.
Definition no_number (v : json) : Prop := match v with JBool _ | JInt _ | JFlt _ => False | _ => True end.
Definition no_flag (v : json) : Prop := match v with JBool _ => False | _ => True end.
Definition no_word (v : json) : Prop := match v with JStr _ => False | _ => True end.

(** The entry [o] is taken for the entry [o']. *)
Definition must (lax : json -> json -> Prop) (o o' : option json) : Prop :=
  o = o' \/ exists v v', o = Some v /\ o' = Some v' /\ lax v v'.
(** An optional entry of a wrong type is taken for an absent one. *)
Definition may (lax : json -> json -> Prop) (wrong : json -> Prop) (o o' : option json) : Prop :=
  must lax o o' \/ exists v, o = Some v /\ wrong v /\ o' = None.

Definition lenience : list (string * (option json -> option json -> Prop)) :=
  [("M", must lax_count); ("N", must lax_count); ("W_BIT", must lax_count); ("I_BIT", must lax_count);
   ("SPLIT", must lax_counts); ("m_mode", eq); ("adc_type", eq); ("digital_only", eq); ("verbose", eq);
   ("HRS", must lax_number); ("LRS", must lax_number); ("HRS_NOISE", must lax_number); ("LRS_NOISE", must lax_number);
   ("V_read", must lax_number); ("w_res", must lax_number); ("t_read", must lax_number);
   ("read_disturb_mitigation_fp", must lax_number); ("read_disturb_update_tolerance", must lax_number);
   ("resolution", must lax_int32); ("adc_calib_dict", must lax_ranges);
   ("d2d_var", may eq no_flag); ("c2c_var", may eq no_flag); ("read_disturb", may eq no_flag);
   ("parasitics", may eq no_flag); ("adc_profile", may eq no_flag);
   ("adc_calib_mode", may eq no_word); ("read_disturb_mitigation_strategy", may eq no_word);
   ("adc_profile_bin_size", may lax_int32 no_number); ("read_disturb_update_freq", may lax_count no_number)].

(** Every setting of [j] is taken for that of [j']; further entries do not matter. *)
Definition lenient (j j' : json) : Prop := forall k R, In (k, R) lenience -> R (jat j k) (jat j' k).
End Lax.
