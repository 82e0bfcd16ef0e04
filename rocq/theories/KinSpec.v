(** Terms of the statements about repeated MVMs (C45, C62, C66). *)
From Coq Require Import String List ZArith Bool.
From RecordUpdate Require Import RecordSet.
From Verif Require Import Base Machine Json Config Histogram Crossbar Api.
Import ListNotations RecordSetNotations.
Local Open Scope out_scope.

Section KS.
Context {MC : Machine}.
(** Calls that neither configure nor write. *)
Definition asking (a : call) : Prop :=
  match a with SetConfig _ | UpdateConfig _ | CpyMtrx _ _ _ => False | _ => True end.
Definition is_mvm (a : call) : Prop :=
  match a with ExeMvm _ _ _ _ _ _ | PyMvm _ _ _ _ _ => True | _ => False end.
(** What the caller sees of one call, and of a history. *)
Definition answer (w : world) (a : call) : out result := '(_, r) <- step w a ;; Ok r.
Definition answers_of (w : world) (h : list call) : out (list result) := '(_, rs) <- run w h ;; Ok rs.
(** Both noise deviations are zero (or below). *)
Definition no_noise (c : config) : Prop := fle (HRS_NOISE c) f0 = true /\ fle (LRS_NOISE c) f0 = true.
(** The same process with read disturb left out. *)
Definition undisturbed (w : world) : world := w <| wcfg := (wcfg w) <| read_disturb := false |> |>.
End KS.
