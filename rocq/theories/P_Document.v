(** Property theorems C68, C69, C76, C86: configurations and the documents they come from. *)
From Coq Require Import String List ZArith Bool.
From RecordUpdate Require Import RecordSet.
From Verif Require Import Base Machine Json Config Crossbar Api Reach Spec Demo DocSpec DocProps DocEx LaxSpec LaxProps LaxEx StaleDoc.
Import ListNotations RecordSetNotations.
Local Open Scope Z_scope.
Local Open Scope string_scope.

(** C68: a load of a well-typed document stores in every setting the document's value for it, or its
    default ([says], DocSpec.v), and keeps the document for later updates. *)
Theorem C68_load_stores_document :
  forall (MC : Machine) (w : world) (j : json) (w' : world) (r : result),
  typed j -> step w (SetConfig (Parsed j)) = Ok (w', r) -> says j (wcfg w') /\ wdata w' = j.
Proof. exact @load_says. Qed.
Print Assumptions C68_load_stores_document.

(** It ends the process exactly when the document describes no supported configuration. *)
Theorem C68_load_rejects_exactly :
  forall (MC : Machine) (w : world) (j : json),
  typed j -> resolution (wcfg w) <> -1 ->
  wx w = None \/ verbose (wcfg w) = false \/ is_int (m_mode (wcfg w)) = true ->
  (step w (SetConfig (Parsed j)) = Died <-> ~ exists c, says j c /\ supported c).
Proof. exact @load_rejects. Qed.
Print Assumptions C68_load_rejects_exactly.

(** A document using every optional block is loaded (0); the same in an integer mode, where read
    disturb is not supported, ends the process (8). *)
Example C68_example : typed (@full toy) /\ typed (@full_int toy) /\
  resolution (wcfg (@world0 toy)) <> -1 /\ wx (@world0 toy) = None /\
  code (step world0 (SetConfig (Parsed (@full toy)))) = 0 /\ code (step world0 (SetConfig (Parsed (@full_int toy)))) = 8.
Proof. exact ex68. Qed.

(** C69: an update that changes something merges its entries into the document, the configuration is
    the one the merged document describes, and a load of the merged document, in whatever state,
    gives the same settings. *)
Theorem C69_update_merges_document :
  forall (MC : Machine) (w : world) (x : xbar) (l : list (string * json)) (w' : world) (r : result),
  wx w = Some x -> NoDup (map fst l) -> ~ Forall (same_value (wdata w)) l ->
  step w (UpdateConfig (UJson (JObj l))) = Ok (w', r) ->
  merged same_value (wdata w) (JObj l) (wdata w') /\
  (typed (wdata w) -> typed (JObj l) -> says (wdata w') (wcfg w')) /\
  (forall w0 w1 r1, step w0 (SetConfig (Parsed (wdata w'))) = Ok (w1, r1) -> agree (wcfg w1) (wcfg w')).
Proof. exact @update_says. Qed.
Print Assumptions C69_update_merges_document.

(** An update of a structural key leaves exactly the state that loading the merged document would. *)
Theorem C69_structural_update_is_reload :
  forall (MC : Machine) (w : world) (x : xbar) (u : json) (w' : world),
  wx w = Some x -> NoDup (map fst (jitems u)) ->
  Exists (fun kv => In (fst kv) structural_keys /\ ~ same_value (wdata w) kv) (jitems u) ->
  verbose (wcfg w) = false \/ is_int (m_mode (wcfg w)) = true ->
  step w (UpdateConfig (UJson u)) = Ok (w', RCode 0) ->
  step w (SetConfig (Parsed (wdata w'))) = Ok (w', RUnit).
Proof. exact @update_reloads. Qed.
Print Assumptions C69_structural_update_is_reload.

Example C69_example : (exists r, step world0 (SetConfig (Parsed small)) = Ok (w69, r)) /\ wx w69 <> None /\
  NoDup (map fst (@patch toy)) /\
  Exists (fun kv => In (fst kv) structural_keys /\ ~ same_value (wdata w69) kv) patch /\
  ~ Forall (same_value (wdata w69)) patch /\ typed (wdata w69) /\ typed (JObj (@patch toy)) /\
  verbose (wcfg w69) = false /\ (exists w', step w69 (UpdateConfig (UJson (JObj patch))) = Ok (w', RCode 0)).
Proof. exact ex69. Qed.

(** C76: a document is read leniently ([lenient], LaxSpec.v): loading it does what loading the tidy
    document does that it is taken for, except that the sloppy document is kept for updates. *)
Theorem C76_lenient_load :
  forall (MC : Machine) (w : world) (j j' : json), lenient j j' ->
  match step w (SetConfig (Parsed j')) with
  | Ok (w', r) => step w (SetConfig (Parsed j)) = Ok (w' <| wdata := j |>, r)
  | Died => step w (SetConfig (Parsed j)) = Died
  | UB f => step w (SetConfig (Parsed j)) = UB f
  | Threw => step w (SetConfig (Parsed j)) = Threw
  end.
Proof. exact @lax_load. Qed.
Print Assumptions C76_lenient_load.

(** Sizes 2^32 + 2 and 3.5, a bin size [true], flags 1 and "true", and what they are taken for. *)
Example C76_example :
  lenient (sloppy x35) tidy /\ typed (@tidy toy) /\ code (step world0 (SetConfig (Parsed (@tidy toy)))) = 0.
Proof. exact ex76. Qed.

(** That accepted documents are well typed is refuted: sizes wrap, and optional flags that are not
    booleans are ignored. *)
Theorem C76_wrong_types_refuted :
  exists (j : @json toy) (w : world) (r : result), ~ typed j /\
  step world0 (SetConfig (Parsed j)) = Ok (w, r) /\
  jat j "M" = Some (JInt 4294967298) /\ M (wcfg w) = 2 /\
  jat j "c2c_var" = Some (JInt 1) /\ c2c_var (wcfg w) = false /\
  jat j "parasitics" = Some (JStr "true") /\ parasitics (wcfg w) = false.
Proof. exact wrong_types_refuted. Qed.
Print Assumptions C76_wrong_types_refuted.

(** A fraction too large for the setting is undefined behaviour. *)
Theorem C76_huge_fraction_ub :
  forall (MC : Machine) (w : world) (j : json) (d : D),
  wx w = None \/ verbose (wcfg w) = false \/ is_int (m_mode (wcfg w)) = true ->
  jat j "M" = Some (JFlt d) -> (forall z, d_trunc d = Some z -> ~ 0 <= z < 2 ^ 32) ->
  step w (SetConfig (Parsed j)) = UB FloatToInt.
Proof. exact @huge_load. Qed.
Print Assumptions C76_huge_fraction_ub.

Example C76_huge_example : jat huge_doc "M" = Some (JFlt huge) /\
  (forall z, d_trunc huge = Some z -> ~ 0 <= z < 2 ^ 32) /\ wx (@world0 toy) = None.
Proof. exact huge_ex. Qed.

(** C86: one would expect a load that throws to have no effect on later configurations.  What the parser read of the
    broken file stays behind: the next update without a structural change, on a crossbar created without a path,
    installs the settings of that file, but keeps the crossbar of the old ones. *)
Theorem C86_half_read_installed :
  forall (MC : Machine) (w : world) (rest : json) (l : list (string * json)) (w' : world),
  NoDup (map fst l) -> ~ Forall (same_value rest) l ->
  Forall (fun kv => In (fst kv) structural_keys -> same_value rest kv) l ->
  run w [SetConfig (Unparsable rest); SetConfig NoPath; UpdateConfig (UJson (JObj l))] = Ok (w', [RExc; RUnit; RCode 0]) ->
  merged same_value rest (JObj l) (wdata w') /\
  (typed rest -> typed (JObj l) -> says (wdata w') (wcfg w')) /\
  exists x, wx w' = Some x /\ blank (wcfg w) x.
Proof. exact @half_read. Qed.
Print Assumptions C86_half_read_installed.

(** Two rows, a broken file with four, an update of verbose: a write of four rows is out of bounds. *)
Theorem C86_half_read_refuted : exists w w', reach w /\ M (wcfg w) = 2 /\
  run w [SetConfig (Unparsable (doc86 4)); SetConfig NoPath; UpdateConfig (UJson (JObj upd86))] = Ok (w', [RExc; RUnit; RCode 0]) /\
  M (wcfg w') = 4 /\ step w' (CpyMtrx (repeat 1 8) 4 2) = UB OutOfBounds.
Proof. exact refuted86. Qed.
Print Assumptions C86_half_read_refuted.

Example C86_example : NoDup (map fst upd86) /\ ~ Forall (same_value (doc86 4)) upd86 /\
  Forall (fun kv => In (fst kv) structural_keys -> same_value (doc86 4) kv) upd86 /\ typed (doc86 4) /\ typed (JObj upd86).
Proof. exact hyps86. Qed.
