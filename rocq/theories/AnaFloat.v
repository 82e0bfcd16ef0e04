(** IEEE single precision: truncated results, large accumulators, clipped corrections. *)
From Coq Require Import String List ZArith Bool.
From Flocq Require Import BinarySingleNaN.
From Verif Require Import Base Machine Json Config Crossbar Api Spec FloatMachine Demo AnaEx AnaClip.
Import ListNotations.
Local Open Scope Z_scope.

Definition slices (md : mode) : list Z :=
  if is_int md then [2; 2] else match md with TNN_IV | TNN_V => [1; 1] | _ => [0] end.
Definition bits (md : mode) : Z := if is_int md then 4 else match md with TNN_IV | TNN_V => 2 | _ => 1 end.
(** 2x4 crossbar without non-idealities and with the ideal converter. *)
Definition plain_doc {MC : Machine} (name : string) (md : mode) (hrs lrs : Z) : json :=
  ana_doc name 2 4 (bits md) 4 (slices md) hrs lrs.

Definition one_by_one {MC : Machine} (name : string) (md : mode) : list call :=
  [SetConfig (Parsed (plain_doc name md 1 42)); CpyMtrx [1] 1 1; ExeMvm [0] [1] [] 1 1 ""%string].
Definition cancels {MC : Machine} (name : string) (md : mode) (r : Z) : list call :=
  [SetConfig (Parsed (plain_doc name md 5 30)); CpyMtrx [1; -1] 1 2; ExeMvm [r] [1; 1] [] 1 2 ""%string].
Definition clips {MC : Machine} (v : bool) (r : Z) : list call :=
  [SetConfig (Parsed (clip_doc v r)); CpyMtrx [0; 0; 0; 0] 1 4; ExeMvm [0] [1; 1; 1; 1] [] 1 4 ""%string].

Section W.
Context (powf : b32 -> b32 -> b32) (pow : b64 -> b64 -> b64) (expf : b32 -> b32) (nz : bool -> nat -> b32) (strict : bool).
Notation FM := (F_machine powf pow expf nz strict).

Ltac each H := cbn [In] in H; repeat (destruct H as [H|H]; [injection H as <- <-; destruct strict; vm_compute; reflexivity|]); contradiction.
Lemma off_by_one name md :
  In (name, md) [("BNN_I", BNN_I); ("BNN_III", BNN_III); ("BNN_V", BNN_V); ("BNN_VI", BNN_VI); ("TNN_I", TNN_I);
     ("TNN_II", TNN_II); ("TNN_III", TNN_III)]%string -> @answers FM world0 (one_by_one name md) = Some [[]; [0]; [0; 0]] /\
     plus_product [0] [1] [1] 1 1 = [1].
Proof. intros H. split; [each H|reflexivity]. Qed.
Lemma loses_bits name md : In (name, md) mode_names -> md <> I_UINT_W_OFFS ->
  @answers FM world0 (cancels name md 16777217) = Some [[]; [0]; [0; 16777216]] /\
  plus_product [16777217] [1; -1] [1; 1] 1 2 = [16777217].
Proof. intros H N. split; [|reflexivity]. cbn [In mode_names] in H. 
  repeat (destruct H as [H|H]; [injection H as <- <-; first [congruence|destruct strict; vm_compute; reflexivity]|]); contradiction. Qed.
Lemma breaks_conversion name md : In (name, md) mode_names -> md <> I_UINT_W_OFFS ->
  @run FM world0 (cancels name md 2147483647) = UB FloatToInt.
Proof. 
  intros H N.
  assert (A : code (@run FM world0 (cancels name md 2147483647)) = 4); [|destruct run as [|[]| |]; try discriminate A; reflexivity].
  cbn [In mode_names] in H. 
  repeat (destruct H as [H|H]; [injection H as <- <-; first [congruence|destruct strict; vm_compute; reflexivity]|]); contradiction. Qed.
Lemma clip_8 v : @answers FM world0 (clips v 8) = Some [[]; [0]; [0; if v then 12 else -4]].
Proof. destruct v, strict; vm_compute; reflexivity. Qed.
End W.
