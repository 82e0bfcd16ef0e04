(** Memory safety and termination of the process in digital use. *)
From Coq Require Import List ZArith Bool Arith Lia ZifyBool ZifyNat String.
From RecordUpdate Require Import RecordSet.
From Verif Require Import Base Lib Hoare Machine Json Config Histogram Adc ReadDisturb Parasitics
  Mapper IntMappers BnnMappers TnnMappers Crossbar Api Shape MvmShape DigMvm DigModes DigWrite
  AnaShape ConfigProofs Reach Spec DigApi Demo DigProps ApiProps NoDie StoreProps.
Import ListNotations RecordSetNotations.
Local Open Scope Z_scope.
Local Open Scope out_scope.
Notation len := List.length.

Lemma tri_nomem {A} (P : A -> Prop) (x : out A) : tri nomem P x -> memory_safe x.
Proof.
  unfold memory_safe. destruct x as [a|f| |]; cbn; unfold nomem; intros H.
  - repeat split; discriminate.
  - destruct H as (H1 & H2 & _). repeat split; try discriminate; intros E; inversion E; subst; auto.
  - repeat split; discriminate.
  - destruct H as (_ & _ & H). now elim H.
Qed.
Lemma safe_bind {A B} (x : out A) (k : A -> out B) : memory_safe x -> (forall a, x = Ok a -> memory_safe (k a)) ->
  memory_safe (bind x k).
Proof.
  destruct x as [a|f| |]; cbn; intros (H1 & H2 & H3) H; [now apply H|..]; repeat split; congruence.
Qed.
Lemma safe_Ok {A} (a : A) : memory_safe (Ok a).
Proof. repeat split; discriminate. Qed.

Section S.
Context {MC : Machine}.

Lemma weight_rail c w : is_int (m_mode c) = false -> weight_in c w -> railok (is_tnn (m_mode c)) w.
Proof. intros Hi H. unfold weight_in, railok in *. destruct (m_mode c); try discriminate Hi; cbn; intuition. Qed.
Lemma input_rail c w : is_int (m_mode c) = false -> input_in c w -> railok (is_tnn (m_mode c)) w.
Proof. intros Hi H. unfold input_in, railok in *. destruct (m_mode c); try discriminate Hi; cbn; intuition. Qed.

Lemma xwrite_nd c x mat m n e : digital_only c = true -> cfg_wf c -> xok c x ->
  (m <= Z.to_nat (M c))%nat -> (n <= colsN c)%nat -> (m * n <= len mat)%nat ->
  nd (d_write c (xm x) mat m n) -> nd (xwrite c x mat m n e).
Proof.
  intros Hd Hw Hx Hm Hn Hl H. destruct (nd_cases _ H) as [[mp' E]|[f E]].
  - assert (Hs' : shape c mp').
    { pose proof (d_write_tri anyfail harmless_any c (xm x) mat m n Hw (xo_shape _ _ Hx)) as HT.
      refine (proj1 (proj1 (tri_any _ _) (HT _) _ E)). right. auto. }
    destruct (xwrite_digital c x mat m n e mp' Hd Hx Hs' E) as (x' & -> & _). apply nd_Ok.
  - rewrite (xwrite_fail _ _ _ _ _ _ _ E). apply nd_UB.
Qed.

Lemma digital_safe : forall w x m n,
  reach w -> wx w = Some x -> digital_only (wcfg w) = true -> dims_in (wcfg w) m n ->
  (forall mat, Z.of_nat (len mat) >= m * n ->
     memory_safe (step w (CpyMtrx mat m n)) /\
     (all_entries (weight_in (wcfg w)) mat m n -> step w (CpyMtrx mat m n) <> Died)) /\
  (forall res vec mat l, Z.of_nat (len res) >= m -> Z.of_nat (len vec) >= n ->
     memory_safe (step w (ExeMvm res vec mat m n l)) /\
     (all_first (input_in (wcfg w)) vec n -> step w (ExeMvm res vec mat m n l) <> Died)).
Proof.
  intros w x m n Hr Hx Hd Hdim. apply reach_good in Hr. destruct (guard_ok w m n Hr Hdim) as (G1 & G2 & Hm & Hn).
  pose proof (g_x _ Hr x Hx) as Hxo. pose proof (good_wf w Hr) as Hwf. destruct Hdim as [Dm Dn]. split.
  - intros mat Hl. assert (Hl' : (Z.to_nat m * Z.to_nat n <= len mat)%nat) by nia.
    cbn [step]. unfold cpy_mtrx. rewrite Hx, G1, G2. cbn [bind]. split.
    + apply safe_bind; [|intros [? ?] _; apply safe_Ok].
      eapply tri_nomem. apply (xwrite_tri nomem harmless_nomem); auto.
      right. repeat split; auto.
    + intros [_ He]. assert (ND : nd (xwrite (wcfg w) x mat (Z.to_nat m) (Z.to_nat n) (wenv w))).
      { apply xwrite_nd; auto. apply nd_d_write; auto; [apply Hxo|]. intros Hi i j Ha Hb. now apply weight_rail, He. }
      destruct (nd_cases _ ND) as [[[x' e'] ->]|[f ->]]; cbn; discriminate.
  - intros res vec mat l Hl1 Hl2. cbn [step]. unfold exe_mvm. rewrite Hx, G1, G2. cbn [bind]. split.
    + apply safe_bind; [|intros [[? ?] ?] _; apply safe_Ok].
      eapply tri_nomem. apply (xmvm_tri nomem harmless_nomem); auto.
      right. repeat split; auto; lia.
    + intros [_ He]. assert (ND : nd (d_mvm (wcfg w) (xm x) res vec mat (Z.to_nat m) (Z.to_nat n))).
      { apply nd_d_mvm; auto; [apply Hxo|]. intros Hi j Hj. now apply input_rail, He. }
      unfold xmvm. cbv zeta. rewrite Hd.
      change (xm (x <|n_mvm := n_mvm x + 1|> <|n_read := n_read x + 1|>)) with (xm x).
      destruct (nd_cases _ ND) as [[[r mp'] ->]|[f ->]]; cbn; discriminate.
Qed.
End S.

(** ** Witnesses *)
Definition ex_offs : @world toy := after [SetConfig (Parsed (dig_doc "I_UINT_W_OFFS" 3 4 4 4 [1; 2; 1])); CpyMtrx [-8] 1 1].

Lemma answer_mvm (w : @world toy) res vec m n l r : answers w [ExeMvm res vec [] m n l] = Some [0 :: r] ->
  exists w1, step w (ExeMvm res vec [] m n l) = Ok (w1, RRes 0 r).
Proof.
  unfold answers. cbn [run bind]. destruct (step w (ExeMvm res vec [] m n l)) as [[w1 k]| | |] eqn:E; try discriminate.
  cbn [map]. intros H. exists w1. cbn [step] in E. unfold exe_mvm in E.
  assert (K : exists a b, k = RRes a b).
  { destruct (wx w); [|inversion E; eauto]. destruct (too_big _ _ _); [inversion E; eauto|].
    inv_as E d Hd. destruct d. inv_as E q Hq. destruct q as [[? ?] ?]. inversion E; eauto. }
  destruct K as (a & b & ->). cbn [show] in H. now inversion H.
Qed.

Lemma increment_wraps : exists (w : @world toy) (res1 res2 r1 r2 vec : list Z) (w1 w2 : world),
  reach w /\ digital_only (wcfg w) = true /\
  step w (ExeMvm res1 vec [] 1 1 ""%string) = Ok (w1, RRes 0 r1) /\
  step w (ExeMvm res2 vec [] 1 1 ""%string) = Ok (w2, RRes 0 r2) /\
  nth 0 r1 0 - nth 0 res1 0 = -8 /\ nth 0 r2 0 - nth 0 res2 0 = 4294967288.
Proof.
  destruct (answer_mvm ex_offs [0] [1] 1 1 ""%string [-8]) as [w1 E1]; [vm_compute; reflexivity|].
  destruct (answer_mvm ex_offs [-2147483648] [1] 1 1 ""%string [2147483640]) as [w2 E2]; [vm_compute; reflexivity|].
  exists ex_offs, [0], [-2147483648], [-8], [2147483640], [1], w1, w2.
  split; [apply after_reach_b; vm_compute; reflexivity|].
  split; [vm_compute; reflexivity|]. split; [exact E1|]. split; [exact E2|]. split; reflexivity.
Qed.

Lemma C09_hyps :
  reach (ex01 "I_TC_W_DIFF") /\ digital_only (wcfg (ex01 "I_TC_W_DIFF")) = true /\
  answers (ex01 "I_TC_W_DIFF") [ExeMvm [5; 9; 7] [1; 2] [] 2 2 ""%string] = Some [[0; 10; 23; 7]] /\
  answers (ex01 "I_TC_W_DIFF") [ExeMvm [0; 0] [1; 2] [] 2 2 ""%string] = Some [[0; 5; 14]].
Proof.
  split; [apply after_reach_b; vm_compute; reflexivity|].
  split; [vm_compute; reflexivity|]. split; vm_compute; reflexivity.
Qed.

Lemma C52_hyps :
  let s := after [SetConfig (Parsed (@dig_doc toy "I_TC_W_DIFF" 3 4 4 4 [1; 2]))] in
  let l := after [SetConfig (Parsed (@dig_doc toy "I_TC_W_DIFF" 3 4 4 4 [2; 2; 2]))] in
  reach s /\ wx s <> None /\ reach l /\ wx l <> None /\
  total (SPLIT (wcfg s)) < W_BIT (wcfg s) /\ W_BIT (wcfg l) < total (SPLIT (wcfg l)) /\
  map (truncated (wcfg s)) [7; -5; 1] = [6; -4; 0] /\
  answers s [CpyMtrx [7; -5; 1] 1 3; ExeMvm [0] [1; 1; 1] [] 1 3 ""%string] = Some [[0]; [0; 2]].
Proof.
  cbv zeta.
  split; [apply after_reach_b; vm_compute; reflexivity|]. split; [apply has_xbar_some; vm_compute; reflexivity|].
  split; [apply after_reach_b; vm_compute; reflexivity|]. split; [apply has_xbar_some; vm_compute; reflexivity|].
  split; [vm_compute; reflexivity|]. split; [vm_compute; reflexivity|]. split; vm_compute; reflexivity.
Qed.

Lemma settled_set {MC : Machine} s : match step world0 (SetConfig s) with Ok (_, RUnit) => true | _ => false end = true ->
  step world0 (SetConfig s) = Ok (after [SetConfig s], RUnit).
Proof.
  unfold after. cbn [run]. destruct (step world0 (SetConfig s)) as [[w r]| | |]; try discriminate.
  cbn [bind]. destruct r; try discriminate. reflexivity.
Qed.

Lemma C52_both : exists (MC : Machine) (ds dl : json) (ws wl : world),
  step world0 (SetConfig (Parsed ds)) = Ok (ws, RUnit) /\ wx ws <> None /\ is_int (m_mode (wcfg ws)) = true /\
  total (SPLIT (wcfg ws)) < W_BIT (wcfg ws) /\
  step world0 (SetConfig (Parsed dl)) = Ok (wl, RUnit) /\ wx wl <> None /\ is_int (m_mode (wcfg wl)) = true /\
  W_BIT (wcfg wl) < total (SPLIT (wcfg wl)).
Proof.
  exists toy.
  exists (@dig_doc toy "I_TC_W_DIFF" 3 4 4 4 [1; 2]), (@dig_doc toy "I_TC_W_DIFF" 3 4 4 4 [2; 2; 2]).
  exists (after [SetConfig (Parsed (@dig_doc toy "I_TC_W_DIFF" 3 4 4 4 [1; 2]))]).
  exists (after [SetConfig (Parsed (@dig_doc toy "I_TC_W_DIFF" 3 4 4 4 [2; 2; 2]))]).
  destruct C52_hyps as (A1 & A2 & A3 & A4 & A5 & A6 & _).
  split; [apply settled_set; vm_compute; reflexivity|]. split; [exact A2|]. split; [vm_compute; reflexivity|]. split; [exact A5|].
  split; [apply settled_set; vm_compute; reflexivity|]. split; [exact A4|]. split; [vm_compute; reflexivity|]. exact A6.
Qed.
