(** Property theorems C08, C10, C11, C12, C14, C15, C16, C50, C55: the API calls and the
    configuration. *)
From Coq Require Import List ZArith Bool String Lia.
From Verif Require Import Base Machine Json Config ReadDisturb Mapper Crossbar Api Reach Spec Demo ApiProps.
Import ListNotations.
Local Open Scope Z_scope.

(** C08. *)
Theorem C08_mat_ignored :
  forall (MC : Machine) (w : world) (res vec mat mat' : list Z) (m n : Z) (l : string),
  step w (ExeMvm res vec mat m n l) = step w (ExeMvm res vec mat' m n l) /\
  step w (PyMvm res vec mat m n) = step w (PyMvm res vec mat' m n).
Proof. exact @mat_ignored. Qed.
Print Assumptions C08_mat_ignored.

(** C10.  [dims_in c m n]: 0 <= m <= M and 0 <= n <= N. *)
Theorem C10_guard :
  forall (MC : Machine) (w : world) (x : xbar) (m n : Z), wx w = Some x ->
  - 2 ^ 31 <= m < 2 ^ 31 -> - 2 ^ 31 <= n < 2 ^ 31 -> M (wcfg w) < 2 ^ 31 -> N (wcfg w) < 2 ^ 31 ->
  (~ dims_in (wcfg w) m n ->
     (forall mat, step w (CpyMtrx mat m n) = Ok (w, RCode (-1))) /\
     (forall res vec mat l, step w (ExeMvm res vec mat m n l) = Ok (w, RRes (-1) res))) /\
  (dims_in (wcfg w) m n ->
     (forall mat w' r, step w (CpyMtrx mat m n) = Ok (w', r) -> r = RCode 0) /\
     (forall res vec mat l w' r, step w (ExeMvm res vec mat m n l) = Ok (w', r) -> exists r', r = RRes 0 r')).
Proof. exact @guard. Qed.
Print Assumptions C10_guard.

Example C10_example : reach ex_upd /\ wx ex_upd <> None /\
  M (wcfg ex_upd) < 2 ^ 31 /\ N (wcfg ex_upd) < 2 ^ 31 /\
  ~ dims_in (wcfg ex_upd) (-1) 2 /\ ~ dims_in (wcfg ex_upd) 4 1 /\ dims_in (wcfg ex_upd) 3 4 /\
  answers ex_upd [CpyMtrx [] (-1) 2; ExeMvm [5] [1] [] 4 1 "L"%string; CpyMtrx [1] 1 1;
                  ExeMvm [5] [2] [] 1 1 "L"%string]
  = Some [[-1]; [-1; 5]; [0]; [0; 7]].
Proof. exact C10_hyps. Qed.

(** C11. *)
Theorem C11_no_crossbar :
  forall (MC : Machine) (w : world), wx w = None ->
  (forall res vec mat m n l, step w (ExeMvm res vec mat m n l) = Ok (w, RRes (-1) res)) /\
  (forall mat m n, step w (CpyMtrx mat m n) = Ok (w, RCode (-1))) /\
  (forall u, step w (UpdateConfig u) = Ok (w, RCode (-1))) /\
  (forall q, step w (GetMat q) = Died) /\ (forall p, step w (GetIa p) = Died) /\
  (forall q, step w (GetNum q) = Died) /\ step w GetOob = Died.
Proof. exact @no_xbar. Qed.
Print Assumptions C11_no_crossbar.

Example C11_example : @wx toy world0 = None.
Proof. reflexivity. Qed.

(** C12.  A whole history since set_config, and each single call (software refreshes reset the
    read number without being visible in the history). *)
Theorem C12_counters :
  forall (MC : Machine) (w0 : world) (s : source) (w : world) (h : list call) (w' : world) (rs : list result),
  step w0 (SetConfig s) = Ok (w, RUnit) -> Forall no_create h -> run w h = Ok (w', rs) ->
  step w' (GetNum NWrite) = Ok (w', RNum (writes (combine h rs))) /\
  step w' (GetNum NMvm) = Ok (w', RNum (mvms (combine h rs))) /\
  exists k, step w' (GetNum NRefresh) = Ok (w', RNum k) /\ 0 <= k /\
    (k = 0 -> step w' (GetNum NRead) = Ok (w', RNum (reads_since 0 (combine h rs)))).
Proof. exact @counters. Qed.
Print Assumptions C12_counters.

Theorem C12_counters_step :
  forall (MC : Machine) (w : world) (x : xbar) (a : call) (w' : world) (r : result),
  wx w = Some x -> no_create a -> step w a = Ok (w', r) ->
  exists x', wx w' = Some x' /\
    n_write x' = n_write x + (if wrote a r then 1 else 0) /\
    n_mvm x' = n_mvm x + (if multiplied a r then 1 else 0) /\
    (wrote a r = true -> n_read x' = 0 /\ n_refresh x' = n_refresh x) /\
    (multiplied a r = true -> (n_read x' = n_read x + 1 /\ n_refresh x' = n_refresh x) \/
                              (n_read x' = 0 /\ n_refresh x' = n_refresh x + 1)) /\
    (wrote a r = false -> multiplied a r = false -> x' = x).
Proof. exact @counters_step. Qed.
Print Assumptions C12_counters_step.

Example C12_example : exists w0 s w h w' rs,
  @step toy w0 (SetConfig s) = Ok (w, RUnit) /\ Forall no_create h /\ run w h = Ok (w', rs) /\
  writes (combine h rs) = 2 /\ mvms (combine h rs) = 3 /\ reads_since 0 (combine h rs) = 1.
Proof. exact C12_hyps. Qed.

(** C14. *)
Theorem C14_noop_update :
  forall (MC : Machine) (w : world) (x : xbar) (u : json),
  wx w = Some x -> Forall (same_value (wdata w)) (jitems u) ->
  step w (UpdateConfig (UJson u)) = Ok (w, RCode 0).
Proof. exact @noop_update. Qed.
Print Assumptions C14_noop_update.

(** [jeqb v v = true] excludes NaN, which JSON text cannot denote. *)
Theorem C14_update_idempotent :
  forall (MC : Machine) (w : world) (x : xbar) (u : json) (w1 : world),
  wx w = Some x -> NoDup (map fst (jitems u)) ->
  Forall (fun kv => jeqb (snd kv) (snd kv) = true) (jitems u) ->
  step w (UpdateConfig (UJson u)) = Ok (w1, RCode 0) ->
  step w1 (UpdateConfig (UJson u)) = Ok (w1, RCode 0).
Proof. exact @update_twice. Qed.
Print Assumptions C14_update_idempotent.

Example C14_example : reach ex_upd /\ wx ex_upd <> None /\
  Forall (same_value (wdata ex_upd)) (jitems upd_same) /\
  NoDup (map fst (jitems upd_soft)) /\
  Forall (fun kv => jeqb (snd kv) (snd kv) = true) (jitems upd_soft) /\
  ~ Forall (same_value (wdata ex_upd)) (jitems upd_soft) /\
  exists w', step ex_upd (UpdateConfig (UJson upd_soft)) = Ok (w', RCode 0).
Proof. exact C14_hyps. Qed.

(** C15. *)
Theorem C15_update_keeps_crossbar :
  forall (MC : Machine) (w : world) (x : xbar) (u : json) (w' : world) (r : result),
  wx w = Some x -> NoDup (map fst (jitems u)) ->
  Forall (fun kv => In (fst kv) structural_keys -> same_value (wdata w) kv) (jitems u) ->
  step w (UpdateConfig (UJson u)) = Ok (w', r) ->
  r = RCode 0 /\ wx w' = wx w /\ wenv w' = wenv w.
Proof. exact @update_keeps. Qed.
Print Assumptions C15_update_keeps_crossbar.

Theorem C15_update_recreates :
  forall (MC : Machine) (w : world) (x : xbar) (u : json) (w' : world) (r : result),
  wx w = Some x -> NoDup (map fst (jitems u)) ->
  Exists (fun kv => In (fst kv) structural_keys /\ ~ same_value (wdata w) kv) (jitems u) ->
  step w (UpdateConfig (UJson u)) = Ok (w', r) -> r <> RExc ->
  r = RCode 0 /\ wenv w' = wenv w /\ exists x', wx w' = Some x' /\ blank (wcfg w') x'.
Proof. exact @update_recreates. Qed.
Print Assumptions C15_update_recreates.

Example C15_example :
  (Forall (fun kv => In (fst kv) structural_keys -> same_value (wdata ex_upd) kv) (jitems upd_soft) /\
   exists w', step ex_upd (UpdateConfig (UJson upd_soft)) = Ok (w', RCode 0)) /\
  (Exists (fun kv => In (fst kv) structural_keys /\ ~ same_value (wdata ex_upd) kv) (jitems upd_hard) /\
   exists w', step ex_upd (UpdateConfig (UJson upd_hard)) = Ok (w', RCode 0)).
Proof. exact C15_hyps. Qed.

(** C16. *)
Theorem C16_getter_dimensions :
  forall (MC : Machine) (w : world), reach w ->
  (forall q w' g, step w (GetMat q) = Ok (w', RMat g) ->
     dims2 (M (wcfg w) * Z.of_nat (List.length (SPLIT (wcfg w)))) (N (wcfg w)) g) /\
  (forall p w' g, step w (GetIa p) = Ok (w', RIa g) ->
     dims2 (M (wcfg w) * Z.of_nat (List.length (SPLIT (wcfg w)))) (N (wcfg w)) g).
Proof. exact @getter_dims. Qed.
Print Assumptions C16_getter_dimensions.

Example C16_example : reach ex_ana /\ wx ex_ana <> None /\
  answers ex_ana [GetMat GdP; GetMat GdM] = Some
    [[0; 1; 1; 1; 0; 1; 0; 0; 0; 0; 0; 0]; [0; 0; 0; 0; 0; 0; 0; 1; 1; 1; 0; 1]].
Proof. exact C16_hyps. Qed.

(** C50.  The expectation is that verbose only prints. *)
Theorem C50_verbose_set_config_dies :
  forall (MC : Machine) (w : world) (x : xbar) (s : source),
  wx w = Some x -> verbose (wcfg w) = true -> is_int (m_mode (wcfg w)) = false ->
  step w (SetConfig s) = Died.
Proof. exact @verbose_set. Qed.
Print Assumptions C50_verbose_set_config_dies.

Theorem C50_verbose_recreation_dies :
  forall (MC : Machine) (w : world) (x : xbar) (u : json) (w' : world) (r : result),
  wx w = Some x -> NoDup (map fst (jitems u)) ->
  Exists (fun kv => In (fst kv) structural_keys /\ ~ same_value (wdata w) kv) (jitems u) ->
  step w (UpdateConfig (UJson u)) = Ok (w', r) -> r <> RExc ->
  verbose (wcfg w') = false \/ is_int (m_mode (wcfg w')) = true.
Proof. exact @verbose_update. Qed.
Print Assumptions C50_verbose_recreation_dies.

Example C50_example : reach ex_loud /\ wx ex_loud <> None /\ verbose (wcfg ex_loud) = true /\
  is_int (m_mode (wcfg ex_loud)) = false /\
  step ex_loud (UpdateConfig (UJson (JObj [("M"%string, JInt 1)]))) = Died.
Proof. exact C50_hyps. Qed.

(** C55.  The three unusual sources of set_config. *)
Theorem C55_set_config_failures :
  forall (MC : Machine) (w : world),
  (wx w = None \/ verbose (wcfg w) = false \/ is_int (m_mode (wcfg w)) = true) ->
  step w (SetConfig CannotOpen) = Died /\
  (forall rest, exists w', step w (SetConfig (Unparsable rest)) = Ok (w', RExc) /\ wx w' = None /\ wcfg w' = wcfg w) /\
  (forall w' r, step w (SetConfig NoPath) = Ok (w', r) ->
     wcfg w' = wcfg w /\ wdata w' = wdata w /\ wenv w' = wenv w /\
     (r = RExc /\ wx w' = None \/ r = RUnit /\ exists x, wx w' = Some x /\ blank (wcfg w') x)).
Proof. exact @set_config_modes. Qed.
Print Assumptions C55_set_config_failures.

Example C55_example : reach ex_upd /\ verbose (wcfg ex_upd) = false /\
  answers ex_upd [SetConfig NoPath; GetNum NWrite; GetMat GdP] =
    Some [[]; [0]; [0;0;0;0; 0;0;0;0; 0;0;0;0; 0;0;0;0; 0;0;0;0; 0;0;0;0; 0;0;0;0; 0;0;0;0; 0;0;0;0]].
Proof. exact C55_hyps. Qed.
