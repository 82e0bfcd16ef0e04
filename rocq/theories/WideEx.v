(** Concrete products with weights out of range (C77). *)
From Coq Require Import List ZArith Bool String Lia.
From Verif Require Import Base Machine Json Config Crossbar Api Reach Spec Demo DigProps WideSpec.
Import ListNotations.
Local Open Scope Z_scope.

Lemma ex77 :
  Forall (fun mode => reach (ex01 mode) /\ wx (ex01 mode) <> None /\
    digital_only (wcfg (ex01 mode)) = true /\ is_int (m_mode (wcfg (ex01 mode))) = true /\
    total (SPLIT (wcfg (ex01 mode))) <= W_BIT (wcfg (ex01 mode)) /\ widths_fit (wcfg (ex01 mode)) /\ dims_in (wcfg (ex01 mode)) 2 3 /\
    all_entries (writable (wcfg (ex01 mode))) [17; -100; 3; 0; 1000; -16] 2 3 /\
    all_first (input_in (wcfg (ex01 mode))) [7; 0; 6] 3 /\ wide_room (wcfg (ex01 mode)) [17; -100; 3; 0; 1000; -16] [100; -100; 9] 2 3)
  ["I_DIFF_W_DIFF_1XB"; "I_DIFF_W_DIFF_2XB"; "I_OFFS_W_DIFF"; "I_TC_W_DIFF"; "I_UINT_W_DIFF";
   "I_UINT_W_OFFS"]%string.
Proof.
  repeat apply Forall_cons; try apply Forall_nil; cbv beta; 
  (split; [apply after_reach_b; vm_compute; reflexivity|]);
  (split; [apply has_xbar_some; vm_compute; reflexivity|]);
  (split; [vm_compute; reflexivity|]); (split; [vm_compute; reflexivity|]); (split; [vm_compute; discriminate|]);
  (split; [vm_compute; intuition congruence|]); (split; [vm_compute; intuition congruence|]);
  (split; [split; [cbn; lia|intros i j Hi Hj; change (Z.to_nat 2) with 2%nat in Hi; change (Z.to_nat 3) with 3%nat in Hj;
     destruct i as [|[|?]]; [| |lia]; (destruct j as [|[|[|?]]]; [| | |lia]; vm_compute; intuition congruence)]|]);
  (split; [split; [cbn; lia|intros j Hj; change (Z.to_nat 3) with 3%nat in Hj; destruct j as [|[|[|?]]]; [| | |lia]; vm_compute; intuition congruence]|]);
  (split; [vm_compute; discriminate|]); (split; [cbn; lia|]); intros i Hi; change (Z.to_nat 2) with 2%nat in Hi;
     (destruct i as [|[|?]]; [| |lia]; (split; [intros _|]; vm_compute; discriminate)).
Qed.

(** What is left of the weights, and the results: the mode shows. *)
Lemma mode_visible_refuted :
  exists mat vec : list Z,
  digital_only (wcfg (ex01 "I_OFFS_W_DIFF")) = true /\ digital_only (wcfg (ex01 "I_TC_W_DIFF")) = true /\
  answers (ex01 "I_OFFS_W_DIFF") [CpyMtrx mat 1 1; ExeMvm [0] vec [] 1 1 ""%string] = Some [[0]; [0; -125]] /\
  answers (ex01 "I_TC_W_DIFF") [CpyMtrx mat 1 1; ExeMvm [0] vec [] 1 1 ""%string] = Some [[0]; [0; 3]].
Proof. exists [17], [3]. repeat split; vm_compute; reflexivity. Qed.
