(** Concrete writes of numbers that are not weights (C78). *)
From Coq Require Import List ZArith Bool String Lia.
From Verif Require Import Base Machine Json Config Crossbar Api Reach Spec Demo DigProps OddSpec.
Import ListNotations.
Local Open Scope Z_scope.

Ltac six := let i := fresh in let j := fresh in let Hi := fresh in let Hj := fresh in
  split; [cbn; lia|intros i j Hi Hj; change (Z.to_nat 2) with 2%nat in Hi; change (Z.to_nat 3) with 3%nat in Hj;
     destruct i as [|[|?]]; [| |lia]; (destruct j as [|[|[|?]]]; [| | |lia]; vm_compute; intuition congruence)].
Ltac three := let j := fresh in let Hj := fresh in
  split; [cbn; lia|intros j Hj; change (Z.to_nat 3) with 3%nat in Hj; destruct j as [|[|[|?]]]; [| | |lia]; vm_compute; intuition congruence].
Ltac two := let j := fresh in let Hj := fresh in
  split; [cbn; lia|intros j Hj; change (Z.to_nat 2) with 2%nat in Hj; destruct j as [|[|?]]; [| |lia]; vm_compute; intuition congruence].

Lemma ex78 :
  Forall (fun '(mode, mat) => reach (ex_xnn mode) /\ wx (ex_xnn mode) <> None /\
    digital_only (wcfg (ex_xnn mode)) = true /\ accepts_weights (m_mode (wcfg (ex_xnn mode))) = true /\
    dims_in (wcfg (ex_xnn mode)) 2 3 /\ all_entries (storable (wcfg (ex_xnn mode))) mat 2 3 /\
    all_first (input_in (wcfg (ex_xnn mode))) [1; -1; 1] 3 /\ room (wcfg (ex_xnn mode)) [100; -100; 9] 2 3)
  [("BNN_III", [0; -1; 2; 1; 0; 0]); ("BNN_IV", [0; -2; 2; 1; 0; -1]); ("TNN_IV", [2; -7; 1000; 3; 0; -1]);
   ("TNN_V", [2; -7; 1000; 3; 0; -1])]%string.
Proof.
  repeat apply Forall_cons; try apply Forall_nil; cbv beta iota;
  (split; [apply after_reach_b; vm_compute; reflexivity|]);
  (split; [apply has_xbar_some; vm_compute; reflexivity|]);
  (split; [vm_compute; reflexivity|]); (split; [vm_compute; reflexivity|]); (split; [vm_compute; intuition congruence|]);
  (split; [six|]); (split; [three|]); (split; [vm_compute; discriminate|]); two.
Qed.

(** The same number stands for different weights. *)
Lemma zero_weight_refuted :
  exists mat vec : list Z,
  ~ all_entries (weight_in (wcfg (ex_xnn "BNN_III"))) mat 1 1 /\
  answers (ex_xnn "BNN_III") [CpyMtrx mat 1 1; ExeMvm [0] vec [] 1 1 ""%string] = Some [[0]; [0; -1]] /\
  answers (ex_xnn "BNN_IV") [CpyMtrx mat 1 1; ExeMvm [0] vec [] 1 1 ""%string] = Some [[0]; [0; 1]].
Proof.
  exists [0], [1]. split.
  - intros [_ H]. specialize (H O O ltac:(cbn; lia) ltac:(cbn; lia)). vm_compute in H. intuition congruence.
  - split; vm_compute; reflexivity.
Qed.
Lemma two_weight_refuted :
  exists mat vec : list Z,
  ~ all_entries (weight_in (wcfg (ex_xnn "TNN_IV"))) mat 1 1 /\
  answers (ex_xnn "TNN_IV") [CpyMtrx mat 1 1; ExeMvm [0] vec [] 1 1 ""%string] = Some [[0]; [0; -2]] /\
  answers (ex_xnn "TNN_V") [CpyMtrx mat 1 1; ExeMvm [0] vec [] 1 1 ""%string] = Some [[0]; [0; 2]].
Proof.
  exists [2], [1]. split.
  - intros [_ H]. specialize (H O O ltac:(cbn; lia) ltac:(cbn; lia)). vm_compute in H. intuition congruence.
  - split; vm_compute; reflexivity.
Qed.
