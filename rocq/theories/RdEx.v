(** Concrete read-disturb states. *)
From Coq Require Import List ZArith Bool String Reals Lra Lia.
From Flocq Require Import Core BinarySingleNaN.
From Verif Require Import Base Machine FloatMachine Json Config ReadDisturb Mapper Crossbar Api Reach Spec Demo NoiseFloat
  RdSpec RdRefresh RdReal.
Import ListNotations.
Local Open Scope Z_scope.

(** IEEE arithmetic with powf replaced by one half and pow by a constant: every update halves the
    low-resistive cells; the model is valid if [d] is small. *)
Definition fade (d : Z) : Machine :=
  F_machine (fun _ _ => norm32 1 (-1) false) (fun _ _ => norm64 d 0 false) (fun x => x) (fun _ _ => B754_zero false) false.
(** [rd]: settings of the read-disturb model. *)
Definition fade_doc {MC : Machine} (mode : string) (rd : list (string * json)) : json :=
  puts (ana_doc mode 2 2 2 4 [1; 1] 5 30)
    ([("read_disturb", JBool true); ("V_read", JInt (-1)); ("t_read", JInt 1)]%string ++ rd).
Definition mul22 {MC : Machine} : call := ExeMvm [0; 0] [1; -1] [] 2 2 ""%string.
Definition mul11 {MC : Machine} : call := ExeMvm [0] [1] [] 1 1 ""%string.
Definition now_m {MC : Machine} (w : world) : list Z :=
  match wx w with Some x => ints (ia_m (xm x)) | None => [] end.
Definition every2 {MC : Machine} : list (string * json) := [("read_disturb_update_freq", JInt 2)]%string.
Definition soft2 {MC : Machine} : list (string * json) :=
  every2 ++ [("read_disturb_mitigation_strategy", JStr "SOFTWARE"); ("read_disturb_mitigation_fp", JInt 1)]%string.
Definition cellwise {MC : Machine} : list (string * json) :=
  [("read_disturb_mitigation_strategy", JStr "CELL_BASED"); ("read_disturb_update_tolerance", JInt 0)]%string.


(** A history, then the currents of both arrays and the answers of the getters. *)
Definition looks {MC : Machine} : list call :=
  [GetMat GdP; GetMat CycP; GetMat CycM; GetNum NRead; GetNum NRefresh; GetNum NCell; GetOob].
Definition view {MC : Machine} (h : list call) : bool * list Z * list Z * option (list (list Z)) :=
  (runs_settled h, loud_now (after h), now_m (after h), answers (after h) looks).
Definition hist (d : Z) (mode : string) (rd : forall MC : Machine, list (string * json)) (h : list (@call (fade d))) :
  list (@call (fade d)) := SetConfig (Parsed (@fade_doc (fade d) mode (rd (fade d)))) :: h.
Definition put22 {MC : Machine} : call := CpyMtrx [1; -1; 1; 1] 2 2.
Definition alt22 {MC : Machine} : call := CpyMtrx [-1; -1; 1; -1] 2 2.

(** Two writes that reset two cells each way. *)
Lemma ex35 : @view (fade 1) (hist 1 "BNN_VI" (@every2) [put22; alt22; mul22; put22; alt22]) =
  (true, [5; 5; 30; 5], [30; 30; 5; 30],
   Some [[0; 0; 1; 0]; [2; 0; 0; 2]; [1; 0; 0; 1]; [0]; [0]; [0]; [0]]).
Proof. vm_compute. reflexivity. Qed.
(** The second MVM is an update point, the first and third are not. *)
Lemma ex37 : @view (fade 1) (hist 1 "BNN_VI" (@every2) [put22; mul22]) =
    (true, [30; 5; 30; 30], [5; 30; 5; 5], Some [[1; 0; 1; 1]; [0; 0; 0; 0]; [0; 0; 0; 0]; [1]; [0]; [0]; [0]]) /\
  @view (fade 1) (hist 1 "BNN_VI" (@every2) [put22; mul22; mul22]) =
    (true, [15; 5; 15; 15], [5; 15; 5; 5], Some [[1; 0; 1; 1]; [0; 0; 0; 0]; [0; 0; 0; 0]; [2]; [0]; [0]; [0]]) /\
  @view (fade 1) (hist 1 "BNN_VI" (@every2) [put22; mul22; mul22; mul22]) =
    (true, [15; 5; 15; 15], [5; 15; 5; 5], Some [[1; 0; 1; 1]; [0; 0; 0; 0]; [0; 0; 0; 0]; [3]; [0]; [0]; [0]]).
Proof. vm_compute. auto. Qed.
Lemma ex38 : @view (fade 1) (hist 1 "BNN_VI" (@soft2) [put22; mul22; mul22]) =
    (true, [30; 5; 30; 30], [5; 30; 5; 5], Some [[1; 0; 1; 1]; [1; 0; 1; 1]; [0; 1; 0; 0]; [0]; [1]; [4]; [0]]) /\
  (exists x, wx (after (hist 1 "BNN_VI" (@soft2) [put22; mul22])) = Some x /\
     @refreshes (fade 1) (wcfg (after (hist 1 "BNN_VI" (@soft2) [put22; mul22]))) x = true).
Proof.
  split; [vm_compute; reflexivity|].
  assert (E : forall MC (w : @world MC), match wx w with Some x => @refreshes MC (wcfg w) x | None => false end = true ->
    exists x, wx w = Some x /\ @refreshes MC (wcfg w) x = true).
  { intros MC w H. destruct (wx w) as [x|]; [eauto|discriminate]. }
  apply E. vm_compute. reflexivity.
Qed.
Lemma ex39 : @view (fade 1) (hist 1 "BNN_VI" (@cellwise) [put22; mul22; mul22]) =
    (true, [30; 5; 30; 30], [5; 30; 5; 5], Some [[1; 0; 1; 1]; [2; 0; 2; 2]; [0; 2; 0; 0]; [2]; [0]; [8]; [0]]).
Proof. vm_compute. auto. Qed.
(** The positive array degrades, the negative one does not. *)
Lemma ex40 : @view (fade 1) (hist 1 "BNN_V" (@every2) [put22; mul11; mul11]) =
    (true, [15; 5; 15; 15], [5; 30; 5; 5], Some [[1; 0; 1; 1]; [0; 0; 0; 0]; [0; 0; 0; 0]; [2]; [0]; [0]; [0]]) /\
  @view (fade 1) (hist 1 "TNN_IV" (@every2) [put22; mul11; mul11]) =
    (true, [15; 15; 15; 15; 5; 5; 5; 5], [5; 30; 5; 5; 5; 5; 5; 5],
     Some [[1; 1; 1; 1; 0; 0; 0; 0]; [0; 0; 0; 0; 0; 0; 0; 0]; [0; 0; 0; 0; 0; 0; 0; 0]; [2]; [0]; [0]; [0]]).
Proof. vm_compute. auto. Qed.
(** Outside the validity range: the flag rises at the first update and survives a write. *)
Lemma ex41 : @answers (fade 400) world0 (hist 400 "BNN_VI" (@every2) [put22; GetOob; mul22; GetOob; mul22; GetOob; put22; GetOob]) =
  Some [[]; [0]; [0]; [0; 2; 0]; [0]; [0; 2; 0]; [1]; [0]; [1]].
Proof. vm_compute. auto. Qed.
(** One row is read twice, the cell below it is refreshed twice. *)
Lemma ex63 : @view (fade 1) (hist 1 "TNN_IV" (@cellwise) [put22; mul11; mul11]) =
    (true, [30; 30; 30; 30; 5; 5; 5; 5], [5; 30; 5; 5; 5; 5; 5; 5],
     Some [[1; 1; 1; 1; 0; 0; 0; 0]; [2; 0; 2; 0; 0; 0; 0; 0]; [0; 0; 0; 0; 0; 0; 0; 0]; [2]; [0]; [4]; [0]]).
Proof. vm_compute. auto. Qed.

(** Far enough reads do degrade: the factor is not constantly 1. *)
Lemma fades_eventually v t n : (0 < t)%R -> exists k, (fading v t k n < 1)%R.
Proof.
  intros Ht. pose proof (onset_pos v n) as P. set (q := (2 * onset v n / t)%R).
  exists (up q). destruct (archimed q) as [H _].
  assert (Q : (2 * onset v n < IZR (up q) * t)%R).
  { replace (2 * onset v n)%R with (q * t)%R by (subst q; field; lra). apply Rmult_lt_compat_r; lra. }
  unfold fading. destruct (Rlt_dec _ _); [lra|]. rewrite Rpower_Ropp. rewrite <- Rinv_1 at 1.
  apply Rinv_lt_contravar; [rewrite Rmult_1_l; apply exp_pos|]. unfold Rpower. rewrite <- exp_0 at 1. apply exp_increasing.
  apply Rmult_lt_0_compat; [apply decay_pos|]. rewrite <- ln_1. apply ln_increasing; [lra|].
  apply (Rmult_lt_reg_r (onset v n)); [exact P|]. unfold Rdiv. rewrite Rmult_assoc, Rinv_l; lra.
Qed.
