(** C86: the remains of a file that does not parse. *)
From Coq Require Import String List ZArith Bool Lia.
From Verif Require Import Base Lib Machine Json Config Crossbar Api ConfigProofs Reach Spec ApiProps DocSpec DocProps Demo LeakProps DocEx CfgProps.
Import ListNotations.
Local Open Scope Z_scope.
Local Open Scope out_scope.
Local Open Scope string_scope.

Section SD.
Context {MC : Machine}.
Lemma half_read (w : world) rest l w' :
  NoDup (map fst l) -> ~ Forall (same_value rest) l ->
  Forall (fun kv => In (fst kv) structural_keys -> same_value rest kv) l ->
  run w [SetConfig (Unparsable rest); SetConfig NoPath; UpdateConfig (UJson (JObj l))] = Ok (w', [RExc; RUnit; RCode 0]) ->
  merged same_value rest (JObj l) (wdata w') /\
  (typed rest -> typed (JObj l) -> says (wdata w') (wcfg w')) /\
  exists x, wx w' = Some x /\ blank (wcfg w) x.
Proof.
  intros Hn Hne Hf H. cbn [run] in H.
  inv_as H t1 T1. destruct t1 as [w1 r1]. inv_as H q1 Q1. destruct q1 as [v1 rs1]. inversion H; subst; clear H.
  inv_as Q1 t2 T2. destruct t2 as [w2 r2]. inv_as Q1 q2 Q2. destruct q2 as [v2 rs2]. inversion Q1; subst; clear Q1.
  inv_as Q2 t3 T3. destruct t3 as [w3 r3]. inversion Q2; subst; clear Q2.
  cbn [step] in T1. unfold set_config in T1. inv_as T1 u D. inversion T1; subst w1; clear T1.
  revert T2. set (w1 := RecordSet.set wdata (fun _ => rest) (RecordSet.set wx (fun _ => None) w)). intros T2.
  assert (N1 : wx w1 = None) by reflexivity.
  destruct (set_config_modes w1 (or_introl N1)) as (_ & _ & K).
  destruct (K _ _ T2) as (C2 & D2 & _ & [[E _]|[_ (x & X2 & B)]]); [discriminate E|]. clear K. cbn in C2, D2. rewrite C2 in B.
  rewrite <- D2 in Hne, Hf |- *.
  destruct (update_keeps w2 x (JObj l) w' (RCode 0) X2 Hn Hf T3) as (_ & X3 & _).
  destruct (update_says w2 x l w' (RCode 0) X2 Hn Hne T3) as (M1 & M2 & _).
  split; [exact M1|]. split; [exact M2|]. exists x. rewrite X3. auto.
Qed.
End SD.

(** A digital 2x2 crossbar; the next file describes a 4x2 one but its last brace is missing. *)
Definition doc86 (m : Z) : @json toy := dig_doc "I_DIFF_W_DIFF_1XB" m 2 4 4 [2; 2].
Definition upd86 : list (string * @json toy) := [("verbose", JBool true)].
Definition h86 : list (@call toy) :=
  [SetConfig (Unparsable (doc86 4)); SetConfig NoPath; UpdateConfig (UJson (JObj upd86))].
Definition w86 : @world toy := after [SetConfig (Parsed (doc86 2))].
Definition v86 : @world toy := next w86 h86.
Definition said86 {MC : Machine} (rs : list result) : bool :=
  match rs with [RExc; RUnit; RCode k] => (k =? 0)%Z | _ => false end.
Lemma said_run {MC : Machine} w h : (match run w h with Ok (_, rs) => said86 rs | _ => false end) = true ->
  run w h = Ok (next w h, [RExc; RUnit; RCode 0]).
Proof.
  unfold next. destruct (run w h) as [[w1 rs]| | |]; try discriminate. intros H.
  destruct rs as [|[] [|[] [|[] [|]]]]; try discriminate H. cbn in H. apply Z.eqb_eq in H. now subst.
Qed.
Lemma refuted86 : exists w w', reach w /\ M (wcfg w) = 2 /\
  run w [SetConfig (Unparsable (doc86 4)); SetConfig NoPath; UpdateConfig (UJson (JObj upd86))] = Ok (w', [RExc; RUnit; RCode 0]) /\
  M (wcfg w') = 4 /\ step w' (CpyMtrx (repeat 1 8) 4 2) = UB OutOfBounds.
Proof.
  exists w86, v86. split; [apply after_reach_b; vm_compute; reflexivity|]. split; [vm_compute; reflexivity|].
  split; [apply said_run; vm_compute; reflexivity|]. split; [vm_compute; reflexivity|]. apply code_oob. vm_compute. reflexivity.
Qed.
Section Ty.
Context {MC : Machine}.
Ltac tell := intros k K v Hin E; cbn [In kinds] in Hin;
  repeat (destruct Hin as [Hin|Hin]; [injection Hin as <- <-; lazy in E; first [discriminate E | injection E as <-]|]); [..|destruct Hin].
Ltac told := first
  [ solve [eexists; reflexivity]
  | solve [eexists; split; [reflexivity|lia]]
  | solve [eexists; left; eexists; split; reflexivity]
  | solve [eexists; eexists; split; [reflexivity|]; repeat (first [apply Forall2_nil | apply Forall2_cons; [split; [reflexivity|lia]|]])] ].
Lemma typed86 : typed (@dig_doc MC "I_DIFF_W_DIFF_1XB" 4 2 4 4 [2; 2]) /\ typed (JObj [("verbose", JBool true)]).
Proof. split; tell; told. Qed.
End Ty.
Lemma hyps86 : NoDup (map fst upd86) /\ ~ Forall (same_value (doc86 4)) upd86 /\
  Forall (fun kv => In (fst kv) structural_keys -> same_value (doc86 4) kv) upd86 /\ typed (doc86 4) /\ typed (JObj upd86).
Proof.
  split; [apply NoDup_cons; [cbn; easy|apply NoDup_nil]|]. split.
  { intros H. apply Forall_inv in H. apply (proj2 (same_value_b _ _)) in H. vm_compute in H. discriminate H. }
  split; [|exact typed86]. apply Forall_cons; [|apply Forall_nil]. cbn. intuition discriminate.
Qed.
