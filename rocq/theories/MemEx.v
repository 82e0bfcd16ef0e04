(** A history of writes of several sizes, and the witnesses for C81. *)
From Coq Require Import List ZArith Bool String Lia.
From Verif Require Import Base Machine Json Config Mapper Crossbar Api Reach Spec Demo DigModes DigProps MemSpec.
Import ListNotations.
Local Open Scope Z_scope.

Definition mem_src (mode : string) : @source toy := Parsed (@dig_doc toy mode 3 4 2 4 [1; 1]).
(** Two rows of three weights, an MVM, one weight over the first, a write that is too large, an update. *)
Definition mem_hist : list (@call toy) :=
  [CpyMtrx [1; -1; 1; -1; -1; 1] 2 3; ExeMvm [0] [1] [] 1 1 ""%string; CpyMtrx [-1] 1 1; CpyMtrx [1; 1; 1; 1] 4 1;
   UpdateConfig (UJson (JObj [("I_BIT", JInt 3)]%string)); GetMat GdP].
Definition mem_w1 (mode : string) : @world toy := after [SetConfig (mem_src mode)].
Definition mem_w2 (mode : string) : @world toy := next (mem_w1 mode) mem_hist.
Definition unit_out {MC : Machine} (o : out (world * result)) : bool :=
  match o with Ok (_, RUnit) => true | _ => false end.

Lemma set_after {MC : Machine} s : unit_out (step world0 (SetConfig s)) = true ->
  step world0 (SetConfig s) = Ok (after [SetConfig s], RUnit).
Proof.
  unfold after, unit_out. cbn [run]. destruct (step world0 (SetConfig s)) as [[w r]| | |]; try discriminate.
  cbn [bind]. destruct r; try discriminate. reflexivity.
Qed.
Lemma run_next {MC : Machine} w h : code (run w h) = 0 -> exists rs, run w h = Ok (next w h, rs).
Proof. unfold next. intros H. destruct (code_ok _ H) as [[w' rs] E]. rewrite E. eauto. Qed.

Lemma world0_reach {MC : Machine} : reach world0.
Proof. exists [], []. split; reflexivity. Qed.

Lemma mem_hyps : Forall (fun mode => let w1 := mem_w1 mode in let w2 := mem_w2 mode in
    step world0 (SetConfig (mem_src mode)) = Ok (w1, RUnit) /\
    Forall (usual (wcfg w1)) mem_hist /\ (exists rs, run w1 mem_hist = Ok (w2, rs)) /\
    digital_only (wcfg w1) = true /\ split_covers (wcfg w1) /\ widths_fit (wcfg w2) /\ dims_in (wcfg w2) 3 4 /\
    all_first (input_in (wcfg w2)) [1; 1; 1; 1] 4 /\ room (wcfg w2) [10; 20; 30] 3 (2 * N (wcfg w2)) /\
    answers w2 [ExeMvm [10; 20; 30] [1; 1; 1; 1] [] 3 4 ""%string] =
      Some [0 :: memory_product (wcfg w2) [10; 20; 30] [1; 1; 1; 1] (memory (wcfg w1) mem_hist)
                   (row_sums (wcfg w1) mem_hist) 3 4])
  ["I_DIFF_W_DIFF_1XB"; "I_DIFF_W_DIFF_2XB"; "I_OFFS_W_DIFF"; "I_TC_W_DIFF"; "I_UINT_W_DIFF"; "I_UINT_W_OFFS";
   "BNN_I"; "BNN_II"; "BNN_III"; "BNN_IV"; "BNN_V"; "BNN_VI";
   "TNN_I"; "TNN_II"; "TNN_III"; "TNN_IV"; "TNN_V"]%string.
Proof.
  repeat apply Forall_cons; try apply Forall_nil; cbv beta zeta;
  (split; [apply set_after; vm_compute; reflexivity|]);
  (split; [|split; [unfold mem_w2; refine (run_next (mem_w1 _) mem_hist _); vm_compute; reflexivity|facts]]).
  all: unfold mem_hist; repeat apply Forall_cons; try apply Forall_nil; try exact I.
  all: try (intros k H; cbn in *; intuition (subst; discriminate)).
  all: cbn [usual]; (split; [lia|]); (split; [lia|]); intros Ha; try (vm_compute in Ha; discriminate Ha); allfst.
Qed.

(** The remembered weights are as one expects. *)
Lemma mem_matrix : let c := wcfg (mem_w1 "TNN_I") in
  map (fun i => map (memory c mem_hist i) [0; 1; 2; 3]%nat) [0; 1; 2]%nat =
    [[Some (-1); Some (-1); Some 1; None]; [Some (-1); Some (-1); Some 1; None]; [None; None; None; None]] /\
  map (row_sums c mem_hist) [0; 1; 2]%nat = [-1; -1; 0].
Proof. cbv zeta. split; vm_compute; reflexivity. Qed.

(** *** Witnesses *)
Fixpoint eqz (a b : list Z) : bool :=
  match a, b with [], [] => true | x :: a, y :: b => (x =? y) && eqz a b | _, _ => false end.
Lemma eqz_eq a : forall b, eqz a b = true -> a = b.
Proof. induction a; destruct b; cbn; try discriminate; auto. intros H. apply andb_prop in H. destruct H as [H1 H2]. f_equal; [lia|auto]. Qed.
Definition eqr {MC : Machine} (a b : result) : bool :=
  match a, b with
  | RUnit, RUnit => true
  | RCode k, RCode k' => k =? k'
  | RRes k r, RRes k' r' => (k =? k') && eqz r r'
  | _, _ => false
  end.
Fixpoint eqrs {MC : Machine} (a b : list result) : bool :=
  match a, b with [], [] => true | x :: a, y :: b => eqr x y && eqrs a b | _, _ => false end.
Lemma eqrs_eq {MC : Machine} a : forall b, eqrs a b = true -> a = b.
Proof.
  induction a as [|x a IH]; destruct b as [|y b]; cbn; try discriminate; auto.
  intros H. apply andb_prop in H. destruct H as [H1 H2]. f_equal; [|auto].
  destruct x, y; try discriminate H1; cbn in H1; [reflexivity|f_equal; lia|].
  apply andb_prop in H1. destruct H1 as [H3 H4]. f_equal; [lia|now apply eqz_eq].
Qed.
Definition gives {MC : Machine} (w : world) (h : list call) (rs : list result) : bool :=
  match run w h with Ok (_, r) => eqrs r rs | _ => false end.
Lemma gives_run {MC : Machine} w h rs : gives w h rs = true -> exists w', run w h = Ok (w', rs).
Proof.
  unfold gives. destruct (run w h) as [[w' r]| | |]; try discriminate. intros H. apply eqrs_eq in H. subst. eauto.
Qed.

Lemma zeros_wrong :
  exists (MC : Machine) (s : source) (w : world),
  run world0 [SetConfig s; ExeMvm [0] [1] [] 1 1 ""%string] = Ok (w, [RUnit; RRes 0 [-1]]) /\
  digital_only (wcfg w) = true /\ m_mode (wcfg w) = BNN_III /\ dims_in (wcfg w) 1 1 /\ input_in (wcfg w) 1.
Proof.
  assert (H : gives world0 [SetConfig (mem_src "BNN_III"); ExeMvm [0] [1] [] 1 1 ""%string] [RUnit; RRes 0 [-1]] = true)
    by (vm_compute; reflexivity).
  destruct (gives_run _ _ _ H) as [w E]. exists toy, (mem_src "BNN_III"), w. split; [exact E|].
  assert (Ew : w = after [SetConfig (mem_src "BNN_III"); ExeMvm [0] [1] [] 1 1 ""%string]) by (unfold after; now rewrite E).
  clear E. subst w. repeat split; try (vm_compute; reflexivity); try (vm_compute; discriminate).
  vm_compute. auto.
Qed.

Lemma rewrite_wrong :
  exists (MC : Machine) (w w' : world),
  reach w /\ digital_only (wcfg w) = true /\ m_mode (wcfg w) = I_OFFS_W_DIFF /\
  split_covers (wcfg w) /\ dims_in (wcfg w) 1 2 /\ weight_in (wcfg w) 1 /\ input_in (wcfg w) 1 /\
  run w [CpyMtrx [1; 1] 1 2; ExeMvm [0] [1; 1] [] 1 2 ""%string; CpyMtrx [1] 1 1; ExeMvm [0] [1; 1] [] 1 2 ""%string] =
    Ok (w', [RCode 0; RRes 0 [2]; RCode 0; RRes 0 [10]]).
Proof.
  set (h := [@CpyMtrx toy [1; 1] 1 2; ExeMvm [0] [1; 1] [] 1 2 ""%string; CpyMtrx [1] 1 1; ExeMvm [0] [1; 1] [] 1 2 ""%string]).
  assert (H : gives (mem_w1 "I_OFFS_W_DIFF") h [RCode 0; RRes 0 [2]; RCode 0; RRes 0 [10]] = true) by (vm_compute; reflexivity).
  destruct (gives_run _ _ _ H) as [w' E]. exists toy, (mem_w1 "I_OFFS_W_DIFF"), w'.
  split; [apply after_reach_b; vm_compute; reflexivity|]. clear H.
  split; [vm_compute; reflexivity|]. split; [vm_compute; reflexivity|]. split; [vm_compute; intuition congruence|].
  split; [vm_compute; intuition congruence|]. split; [vm_compute; intuition congruence|].
  split; [vm_compute; intuition congruence|]. exact E.
Qed.
