(** Examples for C58: configurations with a single level. *)
From Coq Require Import String List ZArith Bool.
From RecordUpdate Require Import RecordSet.
From Verif Require Import Base Lib Machine FloatMachine Json Config Histogram Adc Mapper Crossbar Api Spec Demo LeakProps Reach.
Import ListNotations RecordSetNotations.
Local Open Scope Z_scope.
Local Open Scope string_scope.

Definition one_doc (mode : string) (split : list Z) (ty : string) (res : Z) : @json toy :=
  puts (@ana_doc toy mode 4 4 4 4 split 5 30) [("adc_type", JStr ty); ("resolution", JInt res)].
Definition int_ask : list (@call toy) := [CpyMtrx [1; -1; 2; 1] 2 2; ExeMvm [0; 0] [1; 2] [] 2 2 ""].
Definition one_b (w : @world toy) : bool :=
  negb (digital_only (wcfg w)) && negb (match SPLIT (wcfg w) with [] => is_int (m_mode (wcfg w)) | _ => false end) &&
  match adc_type (wcfg w) with SYM_RANGE_ADC => (resolution (wcfg w) =? 1)%Z | POS_RANGE_ONLY_ADC => (resolution (wcfg w) =? 0)%Z | _ => false end.
Definition one_of (w : @world toy) : Prop :=
  reach w /\ wx w <> None /\ digital_only (wcfg w) = false /\
  (adc_type (wcfg w) = SYM_RANGE_ADC /\ resolution (wcfg w) = 1 \/ adc_type (wcfg w) = POS_RANGE_ONLY_ADC /\ resolution (wcfg w) = 0) /\
  (is_int (m_mode (wcfg w)) = true -> SPLIT (wcfg w) <> []).
Lemma one_of_b (w : @world toy) : reach w -> has_xbar w = true -> one_b w = true -> one_of w.
Proof.
  intros R X B. unfold one_b in B. apply andb_prop in B. destruct B as [B B3]. apply andb_prop in B. destruct B as [B1 B2].
  split; [exact R|]. split; [now apply has_xbar_some|]. split; [now apply negb_true_iff|]. split.
  - destruct (adc_type (wcfg w)); [discriminate|left|right]; split; auto; now apply Z.eqb_eq.
  - intros H E. rewrite E, H in B2. discriminate.
Qed.
Lemma ex58_one : one_of (after [SetConfig (Parsed (fin_doc 1))]) /\
  one_of (after [SetConfig (Parsed (one_doc "I_DIFF_W_DIFF_1XB" [2; 2] "SYM_RANGE_ADC" 1))]) /\
  one_of (after [SetConfig (Parsed (one_doc "BNN_III" [] "POS_RANGE_ONLY_ADC" 0))]).
Proof.
  split; [|split]; apply one_of_b; try (apply after_reach_b); vm_compute; reflexivity.
Qed.
Lemma ex58_codes :
  map (fun r => code (run world0 (SetConfig (Parsed (fin_doc r)) :: use22))) [1; 2; 8] = [4; 0; 0] /\
  map (fun r => code (run world0 (SetConfig (Parsed (one_doc "I_DIFF_W_DIFF_1XB" [2; 2] "SYM_RANGE_ADC" r)) :: int_ask))) [1; 2; 8] = [4; 0; 0] /\
  map (fun r => code (run world0 (SetConfig (Parsed (one_doc "BNN_III" [] "POS_RANGE_ONLY_ADC" r)) :: use22))) [0; 1; 8] = [4; 0; 0].
Proof. vm_compute. auto. Qed.
