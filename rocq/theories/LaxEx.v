(** Concrete lenient documents (C76). *)
From Coq Require Import String List ZArith Bool Lia.
From Verif Require Import Base Machine Json Config Crossbar Api FloatMachine Reach Spec Demo DocSpec DocProps DocEx LaxSpec LaxProps.
Import ListNotations.
Local Open Scope Z_scope.
Local Open Scope string_scope.

Section Ex.
Context {MC : Machine} (x : D) (Hx : d_trunc x = Some 3).
(** Sizes 2^32 + 2 and a fraction above 3, one bin per value spelled [true], a bound spelled [false], flags spelled
    as numbers and words. *)
Definition sloppy : json :=
  puts (ana_doc "BNN_VI" 2 3 4 4 [] 5 30)
    [("M", JInt (2 ^ 32 + 2)); ("N", JFlt x); ("LRS_NOISE", JBool false);
     ("adc_type", JStr "SYM_RANGE_ADC"); ("resolution", JInt (2 ^ 32 + 8)); ("adc_calib_mode", JStr "CALIB");
     ("adc_calib_dict", JObj [("conv1", JArr [JInt (-90); JBool true; JNull])]); ("adc_profile", JBool true);
     ("adc_profile_bin_size", JBool true); ("c2c_var", JInt 1); ("parasitics", JStr "true")].
Definition tidy : json :=
  puts (ana_doc "BNN_VI" 2 3 4 4 [] 5 30)
    [("M", JInt 2); ("N", JInt 3); ("LRS_NOISE", JInt 0);
     ("adc_type", JStr "SYM_RANGE_ADC"); ("resolution", JInt 8); ("adc_calib_mode", JStr "CALIB");
     ("adc_calib_dict", JObj [("conv1", JArr [JInt (-90); JInt 1])]); ("adc_profile", JBool true);
     ("adc_profile_bin_size", JInt 1)].

Lemma lenient_ex : lenient sloppy tidy.
Proof.
  intros k R Hin. cbn [In lenience] in Hin.
  assert (Hb : forall low high z k v, low <= z < high -> v = JInt (z + k * (high - low)) -> taken low high v z).
  { intros low high z k0 v H1 ->. split; [exact H1|]. exists k0. reflexivity. }
  repeat (destruct Hin as [Hin|Hin]; [injection Hin as <- <-;
    
    first [match goal with |- _ = _ => idtac end; lazy; reflexivity
          | match goal with |- must _ _ _ => idtac end; left; lazy; reflexivity
          | match goal with |- may _ _ _ _ => idtac end; left; left; lazy; reflexivity
          | idtac]|]); [..|destruct Hin].
  - right. do 2 eexists. split; [lazy; reflexivity|]. split; [lazy; reflexivity|]. right. exists 2. split; [reflexivity|].
    apply (Hb _ _ _ 1); [lia|]. reflexivity.
  - right. do 2 eexists. split; [lazy; reflexivity|]. split; [lazy; reflexivity|]. right. exists 3. split; [reflexivity|].
    split; [lia|exact Hx].
  - right. do 2 eexists. split; [lazy; reflexivity|]. split; [lazy; reflexivity|]. right. exists false. split; reflexivity.
  - right. do 2 eexists. split; [lazy; reflexivity|]. split; [lazy; reflexivity|]. right. exists 8. split; [reflexivity|].
    apply (Hb _ _ _ 1); [lia|]. reflexivity.
  - right. do 2 eexists. split; [lazy; reflexivity|]. split; [lazy; reflexivity|]. do 2 eexists. split; [reflexivity|]. split; [reflexivity|].
    apply Forall2_cons; [|apply Forall2_nil]. split; [reflexivity|]. do 5 eexists. split; [reflexivity|]. split; [reflexivity|].
    split; [left; reflexivity|right; exists true; split; reflexivity].
  - right. eexists. split; [lazy; reflexivity|]. split; [exact I|lazy; reflexivity].
  - right. eexists. split; [lazy; reflexivity|]. split; [exact I|lazy; reflexivity].
  - left. right. do 2 eexists. split; [lazy; reflexivity|]. split; [lazy; reflexivity|]. right. exists 1. split; [reflexivity|].
    split; [lia|reflexivity].
Qed.

Lemma tidy_typed : typed tidy.
Proof.
  intros k K v Hin E; cbn [In kinds] in Hin;
  repeat (destruct Hin as [Hin|Hin]; [injection Hin as <- <-; lazy in E; first [discriminate E | injection E as <-]|]); [..|destruct Hin];
  try first
  [ solve [eexists; reflexivity]
  | solve [eexists; split; [reflexivity|lia]]
  | solve [eexists; left; eexists; split; reflexivity]
  | solve [eexists; eexists; split; [reflexivity|]; repeat (first [apply Forall2_nil | apply Forall2_cons; [split; [reflexivity|lia]|]])] ].
  eexists. eexists. split; [reflexivity|]. apply Forall2_cons; [|apply Forall2_nil].
  instantiate (1 := ("conv1", (f_of_Z (-90), f_of_Z 1))). split; [reflexivity|]. do 2 eexists. split; [reflexivity|].
  split; left; eexists; split; reflexivity.
Qed.
Lemma sloppy_untyped : ~ typed sloppy.
Proof.
  intros H. specialize (H "M" (fun v => exists z, is_count v z) (JInt (2 ^ 32 + 2))).
  destruct H as [z [E Hz]]; [left; reflexivity|lazy; reflexivity|]. injection E as <-. lia.
Qed.
End Ex.

Definition x35 : @D toy := norm64 7 (-1) false.
Lemma x35_trunc : d_trunc x35 = Some 3.
Proof. vm_compute. reflexivity. Qed.
Definition w76 : @world toy := after [SetConfig (Parsed (sloppy x35))].

(** 2^32 * 2^10, far above any size. *)
Definition huge : @D toy := norm64 1 42 false.
Definition huge_doc : @json toy := puts tidy [("M", JFlt huge)].

Lemma ex76 : lenient (sloppy x35) tidy /\ typed (@tidy toy) /\ code (step world0 (SetConfig (Parsed (@tidy toy)))) = 0.
Proof. split; [apply lenient_ex, x35_trunc|]. split; [apply tidy_typed|]. vm_compute. reflexivity. Qed.

Lemma wrong_types_refuted : exists (j : @json toy) (w : world) (r : result), ~ typed j /\
  step world0 (SetConfig (Parsed j)) = Ok (w, r) /\
  jat j "M" = Some (JInt 4294967298) /\ M (wcfg w) = 2 /\
  jat j "c2c_var" = Some (JInt 1) /\ c2c_var (wcfg w) = false /\
  jat j "parasitics" = Some (JStr "true") /\ parasitics (wcfg w) = false.
Proof.
  destruct (first_step (SetConfig (Parsed (sloppy x35)))) as [r E]; [vm_compute; reflexivity|].
  exists (sloppy x35), w76, r. split; [apply sloppy_untyped|]. split; [exact E|].
  repeat split; vm_compute; reflexivity.
Qed.

Lemma huge_ex : jat huge_doc "M" = Some (JFlt huge) /\ (forall z, d_trunc huge = Some z -> ~ 0 <= z < 2 ^ 32) /\
  wx (@world0 toy) = None.
Proof.
  split; [reflexivity|]. split; [|reflexivity]. assert (E : d_trunc huge = Some (2 ^ 42)) by (vm_compute; reflexivity).
  intros z. rewrite E. intros [= <-]. lia.
Qed.
