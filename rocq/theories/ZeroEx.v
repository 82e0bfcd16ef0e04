(** Slices of width zero: concrete crossbars. *)
From Coq Require Import String List ZArith Bool Lia ZifyBool ZifyNat.
From RecordUpdate Require Import RecordSet.
From Verif Require Import ConfigProofs Base Lib Machine FloatMachine Json Config Crossbar Api Reach Spec Demo KinSpec ParOffEx.
Import ListNotations.
Local Open Scope Z_scope.
Local Open Scope string_scope.

Definition int_modes : list string :=
  ["I_DIFF_W_DIFF_1XB"; "I_DIFF_W_DIFF_2XB"; "I_OFFS_W_DIFF"; "I_TC_W_DIFF"; "I_UINT_W_DIFF"; "I_UINT_W_OFFS"].
Definition put88 : @call toy := CpyMtrx [1; -2; 3; 0] 2 2.
Definition mul88 : @call toy := ExeMvm [0; 0] [1; 3] [] 2 2 "".
Definition ana88 (split : list Z) (mode : string) : @call toy := SetConfig (Parsed (@ana_doc toy mode 2 2 4 4 split 5 20)).
Definition dig88 (split : list Z) (mode : string) : @call toy := SetConfig (Parsed (@dig_doc toy mode 2 2 4 4 split)).
(** Analog with a slice of width zero, without it, and digital with it. *)
Definition try88 (mode : string) : Z * Z * option (list (list Z)) :=
  (code (run world0 [ana88 [2; 0; 2] mode; put88; mul88]), code (run world0 [ana88 [2; 2] mode; put88; mul88]),
   answers world0 [dig88 [2; 0; 2] mode; put88; mul88]).
Lemma ex88 : map try88 int_modes = repeat (4, 0, Some [[]; [0]; [0; -5; 3]]) 6.
Proof. vm_compute. reflexivity. Qed.

Definition w88 : @world toy := after [ana88 [2; 0; 2] "I_TC_W_DIFF"].
Definition asks88 : list (@call toy) := [GetMat GdP; GetNum NWrite].
Lemma facts88 : m_mode (wcfg w88) = I_TC_W_DIFF /\ digital_only (wcfg w88) = false /\ parasitics (wcfg w88) = false /\
  c2c_var (wcfg w88) = false /\ read_disturb (wcfg w88) = false /\ SPLIT (wcfg w88) = [2; 0; 2] /\
  M (wcfg w88) = 2 /\ N (wcfg w88) = 2.
Proof. vm_compute. repeat split. Qed.
Lemma codes88 : answers w88 [put88] = Some [[0]] /\ code (run (next w88 [put88]) asks88) = 0.
Proof. vm_compute. split; reflexivity. Qed.
Lemma reach88 : reach w88 /\ wx w88 <> None.
Proof. split; [apply after_reach_b|apply has_xbar_some]; vm_compute; reflexivity. Qed.
Lemma cpy_code {MC : Machine} w mat m n l : answers w [CpyMtrx mat m n] = Some [[l]] ->
  step w (CpyMtrx mat m n) = Ok (next w [CpyMtrx mat m n], RCode l).
Proof.
  intros H. apply answers_run in H. destruct H as (rs & H & Hl). cbn [run] in H. inv_as H t T. destruct t as [w1 r]. cbn [bind] in H.
  injection H as E1 E2. rewrite <- E1, T. rewrite <- E2 in Hl. cbn in Hl. f_equal. f_equal. injection Hl as Hl. cbn [step] in T. unfold cpy_mtrx in T.
  destruct (wx w); [|inversion T; subst; cbn in Hl; congruence].
  destruct (too_big _ _ _); [inversion T; subst; cbn in Hl; congruence|].
  inv_as T d D. destruct d. inv_as T y Y. destruct y. inversion T; subst. cbn in Hl. congruence.
Qed.
Definition hyps88_of (w w1 w2 : @world toy) : Prop := exists x rs,
  reach w /\ wx w = Some x /\ digital_only (wcfg w) = false /\ is_int (m_mode (wcfg w)) = true /\
  parasitics (wcfg w) = false /\ c2c_var (wcfg w) = false /\ In 0 (SPLIT (wcfg w)) /\
  dims_in (wcfg w) 2 2 /\ step w put88 = Ok (w1, RCode 0) /\ Forall asking asks88 /\ run w1 asks88 = Ok (w2, rs).
Lemma hyps88_any (w w1 w2 : @world toy) : (m_mode (wcfg w) = I_TC_W_DIFF /\ digital_only (wcfg w) = false /\ parasitics (wcfg w) = false /\
  c2c_var (wcfg w) = false /\ read_disturb (wcfg w) = false /\ SPLIT (wcfg w) = [2; 0; 2] /\
  M (wcfg w) = 2 /\ N (wcfg w) = 2) -> step w put88 = Ok (w1, RCode 0) -> (exists rs, run w1 asks88 = Ok (w2, rs)) ->
  reach w /\ wx w <> None -> hyps88_of w w1 w2.
Proof.
  intros (F1 & F2 & F3 & F4 & F5 & F6 & F7 & F8) HP (rs & HR) (Hr & Hx). destruct (wx w) as [x|] eqn:E; [|easy]. exists x, rs.
  unfold dims_in. rewrite F1, F6, F7, F8. repeat split; auto; try lia; [cbn; auto|repeat constructor].
Qed.
Lemma run_next88 {MC : Machine} w h : code (run w h) = 0 -> exists rs, run w h = Ok (next w h, rs).
Proof. intros H. destruct (code_ok _ H) as [[w1 rs] E]. exists rs. unfold next. now rewrite E. Qed.
Lemma put88_code (w : @world toy) : answers w [put88] = Some [[0]] -> step w put88 = Ok (next w [put88], RCode 0).
Proof. unfold put88. apply cpy_code. Qed.
Lemma hyps88_with (w : @world toy) : (m_mode (wcfg w) = I_TC_W_DIFF /\ digital_only (wcfg w) = false /\ parasitics (wcfg w) = false /\
  c2c_var (wcfg w) = false /\ read_disturb (wcfg w) = false /\ SPLIT (wcfg w) = [2; 0; 2] /\
  M (wcfg w) = 2 /\ N (wcfg w) = 2) -> answers w [put88] = Some [[0]] /\ code (run (next w [put88]) asks88) = 0 ->
  reach w /\ wx w <> None -> hyps88_of w (next w [put88]) (next (next w [put88]) asks88).
Proof. intros F [H1 H2] HR. apply hyps88_any; [exact F|now apply put88_code|now apply run_next88|exact HR]. Qed.
Lemma hyps88 : hyps88_of w88 (next w88 [put88]) (next (next w88 [put88]) asks88).
Proof. exact (hyps88_with w88 facts88 codes88 reach88). Qed.
