(** Switching the wire resistance off: concrete crossbars. *)
From Coq Require Import String List ZArith Bool Lia ZifyBool ZifyNat.
From RecordUpdate Require Import RecordSet.
From Verif Require Import ConfigProofs Base Lib Machine Json Config Crossbar Api Reach Spec Demo LeakProps MemEx ParEx.
Import ListNotations.
Local Open Scope Z_scope.
Local Open Scope string_scope.

Definition set84 (on : bool) (mode : string) : @call toy := SetConfig (Parsed (@wired_doc toy on mode)).
Definition put84 (m : Z) : @call toy := CpyMtrx (repeat 1 16) m 2.
Definition mul84 (m : Z) : @call toy := ExeMvm (repeat 0 4) (repeat 1 4) [] m 2 "".
Definition off84 : @call toy := put1 "w_res" (JInt 0).
Definition int_wired : list string := firstn 5 wired_modes.

(** A small MVM with wire resistance, then a large one without; the same without the small MVM; a large MVM of
    a crossbar loaded without wire resistance. *)
Definition try84 (mode : string) : Z * Z * Z :=
  (code (run world0 [set84 true mode; put84 2; mul84 2; off84; put84 4; mul84 4]),
   code (run world0 [set84 true mode; put84 2; off84; put84 4; mul84 4]),
   code (run world0 [set84 false mode; put84 4; mul84 4])).
Lemma ex84 : map try84 int_wired = repeat (1, 0, 0) 5.
Proof. vm_compute. reflexivity. Qed.

Definition w84 : @world toy := after [set84 true "I_OFFS_W_DIFF"; put84 2].
Definition v84 : @world toy := next w84 [mul84 2].
Definition u84 : @world toy := next v84 [off84; put84 4].
Lemma step_next {MC : Machine} w a : code (step w a) = 0 -> exists r, step w a = Ok (next w [a], r).
Proof. intros H. destruct (code_ok _ H) as [[w1 r] E]. unfold next. cbn [run]. rewrite E. cbn [bind]. exists r. reflexivity. Qed.
Lemma inputs84 (c : @config toy) : m_mode c = I_OFFS_W_DIFF -> I_BIT c = 2 -> all_first (input_in c) (repeat 1 4) 2.
Proof.
  intros F1 F3. split; [cbn; lia|]. intros j Hj. unfold input_in. rewrite F1, F3.
  assert (E : nth j (repeat 1 4) 0 = 1) by (destruct j as [|[|j]]; [reflexivity..|cbn in Hj; lia]).
  rewrite E. cbn. lia.
Qed.
Lemma quiet84 : Forall no_create [off84; put84 4].
Proof.
  unfold off84, put84, put1. apply Forall_cons; [|apply Forall_cons; [exact I|apply Forall_nil]].
  cbn [no_create]. intros k Hk Hu. cbn in Hk, Hu. intuition (subst; discriminate).
Qed.
Lemma facts84 : (m_mode (wcfg w84) = I_OFFS_W_DIFF /\ digital_only (wcfg w84) = false /\ parasitics (wcfg w84) = true /\
    I_BIT (wcfg w84) = 2 /\ W_BIT (wcfg w84) = 2 /\ M (wcfg w84) = 4 /\ N (wcfg w84) = 4) /\
  (m_mode (wcfg u84) = I_OFFS_W_DIFF /\ parasitics (wcfg u84) = false /\ I_BIT (wcfg u84) = 2 /\ W_BIT (wcfg u84) = 2 /\
    M (wcfg u84) = 4 /\ N (wcfg u84) = 4 /\ List.length (SPLIT (wcfg u84)) = 2%nat /\ c2c_var (wcfg u84) = false).
Proof. vm_compute. repeat split. Qed.
Lemma codes84 : code (step w84 (mul84 2)) = 0 /\ code (run v84 [off84; put84 4]) = 0.
Proof. vm_compute. repeat split. Qed.
Lemma reach84 : reach w84 /\ wx w84 <> None.
Proof. split; [apply after_reach_b|apply has_xbar_some]; vm_compute; reflexivity. Qed.

Definition hyps84_of (w w1 w2 : @world toy) : Prop := exists x r0 rs,
  reach w /\ wx w = Some x /\ is_int (m_mode (wcfg w)) = true /\ digital_only (wcfg w) = false /\
  parasitics (wcfg w) = true /\ widths_fit (wcfg w) /\ dims_in (wcfg w) 2 2 /\ step w (mul84 2) = Ok (w1, r0) /\
  Forall no_create [off84; put84 4] /\ run w1 [off84; put84 4] = Ok (w2, rs) /\ parasitics (wcfg w2) = false /\
  widths_fit (wcfg w2) /\ dims_in (wcfg w2) 4 2 /\ M (wcfg w2) < 4 * Z.of_nat (List.length (SPLIT (wcfg w2))) /\
  all_first (input_in (wcfg w2)) (repeat 1 4) 2 /\ c2c_var (wcfg w2) = false.
Lemma hyps84_any w w1 w2 : (reach w /\ wx w <> None) -> (exists r, step w (mul84 2) = Ok (w1, r)) ->
  (exists rs, run w1 [off84; put84 4] = Ok (w2, rs)) ->
  (m_mode (wcfg w) = I_OFFS_W_DIFF /\ digital_only (wcfg w) = false /\ parasitics (wcfg w) = true /\
    I_BIT (wcfg w) = 2 /\ W_BIT (wcfg w) = 2 /\ M (wcfg w) = 4 /\ N (wcfg w) = 4) /\
  (m_mode (wcfg w2) = I_OFFS_W_DIFF /\ parasitics (wcfg w2) = false /\ I_BIT (wcfg w2) = 2 /\ W_BIT (wcfg w2) = 2 /\
    M (wcfg w2) = 4 /\ N (wcfg w2) = 4 /\ List.length (SPLIT (wcfg w2)) = 2%nat /\ c2c_var (wcfg w2) = false) ->
  hyps84_of w w1 w2.
Proof.
  intros [A B] [r0 E1] [rs E2] [(G1 & G2 & G3 & G4 & G5 & G6 & G7) (F1 & F2 & F3 & F4 & F5 & F6 & F7 & F8)].
  destruct (wx w) as [x|] eqn:Ex; [|easy]. exists x, r0, rs. pose proof (inputs84 _ F1 F3) as HI.
  pose proof quiet84 as HQ.
  unfold widths_fit, dims_in. rewrite G1, G2, G3, G4, G5, G6, G7, F1, F2, F3, F4, F5, F6, F7, F8.
  repeat (split; [first [assumption|reflexivity|lia]|]). reflexivity.
Qed.
Lemma hyps84 : exists w w1 w2, hyps84_of w w1 w2.
Proof.
  exists w84, v84, u84. destruct codes84 as [C1 C2]. apply hyps84_any.
  - exact reach84.
  - exact (step_next w84 (mul84 2) C1).
  - exact (run_next v84 [off84; put84 4] C2).
  - exact facts84.
Qed.
