(** Concrete documents and updates for C68 and C69. *)
From Coq Require Import String List ZArith Bool Lia.
From Verif Require Import Base Machine Json Config Crossbar Api Reach Spec Demo ApiProps DocSpec DocProps.
Import ListNotations.
Local Open Scope Z_scope.
Local Open Scope string_scope.
Section Ex.
Context {MC : Machine}.
(** Every optional block in use. *)
Definition full : json :=
  puts (ana_doc "BNN_VI" 2 3 4 4 [] 5 30)
    [("adc_type", JStr "SYM_RANGE_ADC"); ("resolution", JInt 8); ("adc_calib_mode", JStr "CALIB");
     ("adc_calib_dict", JObj [("conv1", JArr [JInt (-90); JInt 90])]); ("adc_profile", JBool true);
     ("read_disturb", JBool true); ("V_read", JInt (-1)); ("t_read", JInt 1);
     ("read_disturb_mitigation_strategy", JStr "SOFTWARE"); ("read_disturb_mitigation_fp", JInt 2);
     ("parasitics", JBool true); ("w_res", JInt 1)].
(** The same in an integer mode, where read disturb is not supported. *)
Definition full_int : json := puts full [("m_mode", JStr "I_TC_W_DIFF"); ("W_BIT", JInt 4); ("SPLIT", JArr [JInt 2; JInt 2])].

Ltac tell := intros k K v Hin E; cbn [In kinds] in Hin;
  repeat (destruct Hin as [Hin|Hin]; [injection Hin as <- <-; lazy in E; first [discriminate E | injection E as <-]|]); [..|destruct Hin].
Ltac told := first
  [ solve [eexists; reflexivity]
  | solve [eexists; split; [reflexivity|lia]]
  | solve [eexists; left; eexists; split; reflexivity]
  | solve [eexists; eexists; split; [reflexivity|]; repeat (first [apply Forall2_nil | apply Forall2_cons; [split; [reflexivity|lia]|]])] ].
Lemma full_typed : typed full.
Proof. tell; try told.
  eexists. eexists. split; [reflexivity|]. apply Forall2_cons; [|apply Forall2_nil].
  instantiate (1 := ("conv1", (f_of_Z (-90), f_of_Z 90))). split; [reflexivity|]. do 2 eexists. split; [reflexivity|].
  split; left; eexists; split; reflexivity.
Qed.
Lemma full_int_typed : typed full_int.
Proof. tell; try told.
  eexists. eexists. split; [reflexivity|]. apply Forall2_cons; [|apply Forall2_nil].
  instantiate (1 := ("conv1", (f_of_Z (-90), f_of_Z 90))). split; [reflexivity|]. do 2 eexists. split; [reflexivity|].
  split; left; eexists; split; reflexivity.
Qed.
Definition small : json := dig_doc "I_TC_W_DIFF" 3 4 4 4 [1; 2; 1].
Definition patch : list (string * json) := [("I_BIT", JInt 3); ("M", JInt 2); ("N", JInt 4); ("comment", JStr "x")].
Lemma small_typed : typed small.
Proof. tell; told. Qed.
Lemma patch_typed : typed (JObj patch).
Proof. tell; told. Qed.
Lemma patch_hard : Exists (fun kv => In (fst kv) structural_keys /\ ~ same_value small kv) patch /\ ~ Forall (same_value small) patch.
Proof.
  split.
  - apply Exists_cons_tl, Exists_cons_hd. split; [cbn; auto|]. intros H. apply (proj2 (same_value_b _ _)) in H. vm_compute in H. discriminate H.
  - intros H. apply Forall_inv in H. apply (proj2 (same_value_b _ _)) in H. vm_compute in H. discriminate H.
Qed.
Lemma small_set w r : step world0 (SetConfig (Parsed small)) = Ok (w, r) -> wdata w = small.
Proof. intros H. apply load_says in H; [|apply small_typed]. apply H. Qed.
End Ex.

Lemma ex68 : typed (@full toy) /\ typed (@full_int toy) /\
  resolution (wcfg (@world0 toy)) <> -1 /\ wx (@world0 toy) = None /\
  code (step world0 (SetConfig (Parsed (@full toy)))) = 0 /\ code (step world0 (SetConfig (Parsed (@full_int toy)))) = 8.
Proof.
  split; [apply full_typed|]. split; [apply full_int_typed|]. split; [discriminate|]. split; [reflexivity|]. split; vm_compute; reflexivity.
Qed.

Lemma first_step {MC : Machine} a : code (run world0 [a]) = 0 -> exists r, step world0 a = Ok (after [a], r).
Proof.
  unfold after. cbn [run]. destruct (step world0 a) as [[w r]| | |]; cbn [bind code]; intros H; try (destruct f); try discriminate. eauto.
Qed.
Definition w69 : @world toy := after [SetConfig (Parsed small)].
Lemma ex69 : (exists r, step world0 (SetConfig (Parsed small)) = Ok (w69, r)) /\ wx w69 <> None /\ NoDup (map fst (@patch toy)) /\
  Exists (fun kv => In (fst kv) structural_keys /\ ~ same_value (wdata w69) kv) patch /\
  ~ Forall (same_value (wdata w69)) patch /\ typed (wdata w69) /\ typed (JObj (@patch toy)) /\
  verbose (wcfg w69) = false /\ (exists w', step w69 (UpdateConfig (UJson (JObj patch))) = Ok (w', RCode 0)).
Proof.
  assert (C : code (run world0 [SetConfig (Parsed (@small toy))]) = 0) by (vm_compute; reflexivity).
  assert (E : exists r, step world0 (SetConfig (Parsed small)) = Ok (w69, r)).
  { apply first_step. exact C. }
  split; [exact E|]. destruct E as [r E]. rewrite (small_set _ _ E).
  split; [apply has_xbar_some; vm_compute; reflexivity|].
  split; [cbn [patch map fst]; repeat (apply NoDup_cons; [cbn; intuition discriminate|]); apply NoDup_nil|].
  split; [exact (proj1 patch_hard)|]. split; [exact (proj2 patch_hard)|]. split; [apply small_typed|]. split; [apply patch_typed|].
  split; [vm_compute; reflexivity|]. apply update_ok_ex. vm_compute. reflexivity.
Qed.
