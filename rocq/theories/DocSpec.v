(** What a configuration document says.  Nothing here mentions how the code reads it. *)
From Coq Require Import String List ZArith Bool.
From Verif Require Import Base Machine Json Config.
Import ListNotations.
Local Open Scope Z_scope.
Local Open Scope string_scope.

(** ** Values *)
Definition mode_word (m : mode) : string :=
  match m with
  | I_DIFF_W_DIFF_1XB => "I_DIFF_W_DIFF_1XB" | I_DIFF_W_DIFF_2XB => "I_DIFF_W_DIFF_2XB"
  | I_OFFS_W_DIFF => "I_OFFS_W_DIFF" | I_TC_W_DIFF => "I_TC_W_DIFF"
  | I_UINT_W_DIFF => "I_UINT_W_DIFF" | I_UINT_W_OFFS => "I_UINT_W_OFFS"
  | BNN_I => "BNN_I" | BNN_II => "BNN_II" | BNN_III => "BNN_III" | BNN_IV => "BNN_IV" | BNN_V => "BNN_V" | BNN_VI => "BNN_VI"
  | TNN_I => "TNN_I" | TNN_II => "TNN_II" | TNN_III => "TNN_III" | TNN_IV => "TNN_IV" | TNN_V => "TNN_V"
  end.
Definition adc_word (a : adc_ty) : string :=
  match a with INF_ADC => "INF_ADC" | SYM_RANGE_ADC => "SYM_RANGE_ADC" | POS_RANGE_ONLY_ADC => "POS_RANGE_ONLY_ADC" end.
Definition calib_word (a : calib) : string := match a with CAL_MAX => "MAX" | CAL_CALIB => "CALIB" end.
Definition mitig_word (a : mitig) : string := match a with SOFTWARE => "SOFTWARE" | CELL_BASED => "CELL_BASED" | MIT_OFF => "OFF" end.

Section Doc.
Context {MC : Machine}.

Definition is_flag (v : json) (b : bool) : Prop := v = JBool b.
Definition is_count (v : json) (z : Z) : Prop := v = JInt z /\ 0 <= z < 2 ^ 32.
Definition is_int32 (v : json) (z : Z) : Prop := v = JInt z /\ - 2 ^ 31 <= z < 2 ^ 31.
Definition is_number (v : json) (f : F) : Prop := (exists z, v = JInt z /\ f = f_of_Z z) \/ (exists d, v = JFlt d /\ f = f_of_d d).
Definition is_word {A} (word : A -> string) (v : json) (a : A) : Prop := v = JStr (word a).
Definition is_counts (v : json) (l : list Z) : Prop := exists vs, v = JArr vs /\ Forall2 is_count vs l.
Definition is_range (v : json) (p : F * F) : Prop := exists a b, v = JArr [a; b] /\ is_number a (fst p) /\ is_number b (snd p).
Definition is_ranges (v : json) (l : list (string * (F * F))) : Prop :=
  exists vs, v = JObj vs /\ Forall2 (fun kv e => fst kv = fst e /\ is_range (snd kv) (snd e)) vs l.

(** An entry that has to be there, and one with a default. *)
Definition entry {A} (is : json -> A -> Prop) (j : json) (k : string) (a : A) : Prop :=
  exists v, jat j k = Some v /\ is v a.
Definition entry_or {A} (is : json -> A -> Prop) (j : json) (k : string) (d a : A) : Prop :=
  match jat j k with Some v => is v a | None => a = d end.

(** ** Documents *)
(** [c] has the values that the document [j] gives to the settings that matter in it. *)
Definition says (j : json) (c : config) : Prop :=
  entry is_count j "M" (M c) /\ entry is_count j "N" (N c) /\ entry (is_word mode_word) j "m_mode" (m_mode c) /\
  entry is_flag j "digital_only" (digital_only c) /\ entry is_flag j "verbose" (verbose c) /\
  (is_int (m_mode c) = true ->
     entry is_count j "W_BIT" (W_BIT c) /\ entry is_count j "I_BIT" (I_BIT c) /\ entry is_counts j "SPLIT" (SPLIT c)) /\
  (m_mode c = TNN_IV \/ m_mode c = TNN_V -> entry is_count j "W_BIT" (W_BIT c) /\ entry is_counts j "SPLIT" (SPLIT c)) /\
  (is_int (m_mode c) = false -> m_mode c <> TNN_IV -> m_mode c <> TNN_V -> SPLIT c = [0]) /\
  (digital_only c = false ->
     entry is_number j "HRS" (HRS c) /\ entry is_number j "LRS" (LRS c) /\
     entry is_number j "HRS_NOISE" (HRS_NOISE c) /\ entry is_number j "LRS_NOISE" (LRS_NOISE c) /\
     entry (is_word adc_word) j "adc_type" (adc_type c) /\
     entry_or is_flag j "d2d_var" true (d2d_var c) /\ entry_or is_flag j "c2c_var" false (c2c_var c) /\
     entry_or is_flag j "read_disturb" false (read_disturb c) /\
     (adc_type c <> INF_ADC ->
        entry is_int32 j "resolution" (resolution c) /\
        entry_or (is_word calib_word) j "adc_calib_mode" CAL_MAX (adc_calib_mode c) /\
        (adc_calib_mode c = CAL_CALIB -> entry is_ranges j "adc_calib_dict" (adc_calib_dict c) /\ adc_calib_dict c <> []) /\
        entry_or is_flag j "adc_profile" false (adc_profile c) /\
        (adc_profile c = true -> entry_or is_int32 j "adc_profile_bin_size" 10 (bin_size c))) /\
     (read_disturb c = true ->
        entry is_number j "V_read" (V_read c) /\ entry is_number j "t_read" (t_read c) /\
        entry_or is_count j "read_disturb_update_freq" 1 (update_freq c) /\
        entry_or (is_word mitig_word) j "read_disturb_mitigation_strategy" MIT_OFF (mitigation c) /\
        (mitigation c = SOFTWARE -> entry is_number j "read_disturb_mitigation_fp" (mitigation_fp c)) /\
        (mitigation c = CELL_BASED -> entry is_number j "read_disturb_update_tolerance" (tolerance c))) /\
     (* a wire resistance of zero switches the solver off *)
     exists p, entry_or is_flag j "parasitics" false p /\
       (p = true -> entry is_number j "V_read" (V_read c) /\ fle f0 (V_read c) = false /\ entry is_number j "w_res" (w_res c)) /\
       parasitics c = p && negb (feq (w_res c) f0)).

(** Every entry that the configuration may look at has a value of its type. *)
Definition kinds : list (string * (json -> Prop)) :=
  [("M", fun v => exists z, is_count v z); ("N", fun v => exists z, is_count v z); ("m_mode", fun v => exists s, v = JStr s);
   ("digital_only", fun v => exists b, is_flag v b); ("verbose", fun v => exists b, is_flag v b);
   ("W_BIT", fun v => exists z, is_count v z); ("I_BIT", fun v => exists z, is_count v z);
   ("SPLIT", fun v => exists l, is_counts v l);
   ("HRS", fun v => exists f, is_number v f); ("LRS", fun v => exists f, is_number v f);
   ("HRS_NOISE", fun v => exists f, is_number v f); ("LRS_NOISE", fun v => exists f, is_number v f);
   ("adc_type", fun v => exists s, v = JStr s);
   ("d2d_var", fun v => exists b, is_flag v b); ("c2c_var", fun v => exists b, is_flag v b);
   ("read_disturb", fun v => exists b, is_flag v b); ("parasitics", fun v => exists b, is_flag v b);
   ("resolution", fun v => exists z, is_int32 v z); ("adc_calib_mode", fun v => exists s, v = JStr s);
   ("adc_calib_dict", fun v => exists l, is_ranges v l);
   ("adc_profile", fun v => exists b, is_flag v b); ("adc_profile_bin_size", fun v => exists z, is_int32 v z);
   ("V_read", fun v => exists f, is_number v f); ("w_res", fun v => exists f, is_number v f);
   ("t_read", fun v => exists f, is_number v f); ("read_disturb_update_freq", fun v => exists z, is_count v z);
   ("read_disturb_mitigation_strategy", fun v => exists s, v = JStr s);
   ("read_disturb_mitigation_fp", fun v => exists f, is_number v f);
   ("read_disturb_update_tolerance", fun v => exists f, is_number v f)].
Definition typed (j : json) : Prop := forall k K v, In (k, K) kinds -> jat j k = Some v -> K v.

(** [j'] is [j] with the entries of the update [u]; an entry with a value equal to the present one
    (or null for an absent one) is not touched. *)
Definition merged (same : json -> string * json -> Prop) (j u j' : json) : Prop :=
  forall k,
    match assoc k (jitems u) with
    | Some v => (same j (k, v) -> jat j' k = jat j k) /\ (~ same j (k, v) -> jat j' k = Some v)
    | None => jat j' k = jat j k
    end.
End Doc.
