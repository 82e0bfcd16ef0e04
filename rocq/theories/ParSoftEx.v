(** Software refresh with wire resistance: concrete crossbars. *)
From Coq Require Import String List ZArith Bool Lia ZifyBool ZifyNat.
From Verif Require Import ConfigProofs Base Lib Machine Json Config ReadDisturb Mapper Crossbar Api Reach Spec Demo RdRefresh RdEx MemEx ParSpec ParEx ParOffEx KinSpec.
Import ListNotations.
Local Open Scope Z_scope.
Local Open Scope string_scope.

(** 4x4 crossbars, refresh due at every second MVM. *)
Definition doc85 {MC : Machine} (mode : string) : json :=
  puts (ana_doc mode 4 4 2 2 [1; 1] 5 30)
    ((("read_disturb", JBool true) :: ("t_read", JInt 1) :: nil) ++ par_keys ++ soft2).
Definition set85 (mode : string) : @call (fade 1) := SetConfig (Parsed (@doc85 (fade 1) mode)).
Definition put85 (m : Z) : @call (fade 1) := CpyMtrx (repeat 1 16) m 2.
Definition mul85 (m : Z) : @call (fade 1) := ExeMvm (repeat 0 4) (repeat 1 4) [] m 2 "".
Definition xnn_wired : list string := skipn 5 wired_modes.

(** Outcome of a second MVM, which is due for a refresh; of an MVM with two rows after one row was written; of the
    same after a refresh. *)
Definition try85 (mode : string) : Z * Z * Z :=
  (code (run world0 [set85 mode; put85 1; mul85 1; mul85 1]),
   code (run world0 [set85 mode; put85 1; mul85 2]),
   code (run world0 [set85 mode; put85 1; mul85 1; mul85 1; mul85 2])).
Lemma ex85 : map try85 xnn_wired =
  map (fun md => if existsb (String.eqb md) ["BNN_V"; "BNN_VI"; "TNN_I"] then (1, 1, 1) else (0, 1, 0)) xnn_wired.
Proof. vm_compute. reflexivity. Qed.

Definition w85 (mode : string) : @world (fade 1) := after [set85 mode; put85 1; mul85 1].
(** The hypotheses of the theorems but the mode. *)
Definition due85 (w : @world (fade 1)) : Prop := exists x,
  reach w /\ wx w = Some x /\ digital_only (wcfg w) = false /\ parasitics (wcfg w) = true /\ SPLIT (wcfg w) <> [] /\
  adc_profile (wcfg w) = false /\ read_disturb (wcfg w) = true /\ mitigation (wcfg w) = SOFTWARE /\ @refreshes (fade 1) (wcfg w) x = true.
Lemma due85_any (w : @world (fade 1)) : reach w -> match wx w with Some x => @refreshes (fade 1) (wcfg w) x | None => false end = true ->
  (digital_only (wcfg w) = false /\ parasitics (wcfg w) = true /\ List.length (SPLIT (wcfg w)) = 1%nat /\
   adc_profile (wcfg w) = false /\ read_disturb (wcfg w) = true /\ mitigation (wcfg w) = SOFTWARE) -> due85 w.
Proof.
  intros Hr H (F1 & F2 & F3 & F4 & F5 & F6). destruct (wx w) as [x|] eqn:E; [|discriminate]. exists x.
  repeat split; auto. intros K. now rewrite K in F3.
Qed.
Lemma due85_VI : due85 (w85 "BNN_VI") /\ two_rows (m_mode (wcfg (w85 "BNN_VI"))) = true.
Proof. split; [apply due85_any; [apply after_reach_b| |]|]; vm_compute; repeat split. Qed.
Lemma multiplied_any {MC : Machine} w a : match step w a with Ok (_, r) => multiplied a r | _ => false end = true ->
  exists w1 r, step w a = Ok (w1, r) /\ multiplied a r = true.
Proof. destruct (step w a) as [[w1 r]| | |]; [eauto|discriminate..]. Qed.
Lemma due85_I : due85 (w85 "BNN_I") /\ two_rows (m_mode (wcfg (w85 "BNN_I"))) = false /\
  (exists w1 ans, step (w85 "BNN_I") (mul85 1) = Ok (w1, ans) /\ multiplied (mul85 1) ans = true) /\
  dims_in (wcfg (w85 "BNN_I")) 2 2 /\ solver_fits (wcfg (w85 "BNN_I")) 2 2.
Proof.
  assert (E : m_mode (wcfg (w85 "BNN_I")) = BNN_I /\ M (wcfg (w85 "BNN_I")) = 4 /\ N (wcfg (w85 "BNN_I")) = 4) by (vm_compute; auto).
  split; [apply due85_any; [apply after_reach_b| |]; vm_compute; repeat split|].
  destruct E as (E1 & E2 & E3). split; [rewrite E1; reflexivity|]. split.
  - apply multiplied_any. vm_compute. reflexivity.
  - unfold dims_in, solver_fits. rewrite E1, E2, E3. cbn. repeat split; try lia; intros [K|K]; discriminate K.
Qed.
