(** Concrete machine, configurations and states used by the examples that show that the
    hypotheses of the theorems can be met. *)
From Coq Require Import List ZArith Bool String.
From Flocq Require Import Core BinarySingleNaN.
From Verif Require Import Base Machine FloatMachine Json Config Crossbar Api Reach.
Import ListNotations.
Local Open Scope Z_scope.

(** IEEE arithmetic, no noise; the libm functions are placeholders. *)
Definition toy_with (strict : bool) : Machine :=
  F_machine (fun x _ => x) (fun x _ => x) (fun x => x) (fun _ _ => B754_zero false) strict.
Definition toy : Machine := toy_with false.

Definition obj_put {MC : Machine} (j : json) (k : string) (v : json) : json :=
  match j with JObj l => JObj (jput l k v) | _ => j end.

(** A digital configuration document. *)
Definition dig_doc {MC : Machine} (mode : string) (m n w i : Z) (split : list Z) : json :=
  JObj [("I_BIT", JInt i); ("M", JInt m); ("N", JInt n); ("SPLIT", JArr (map JInt split));
        ("W_BIT", JInt w); ("digital_only", JBool true); ("m_mode", JStr mode);
        ("verbose", JBool false)]%string.

(** An analog configuration document with ideal converters. *)
Definition ana_doc {MC : Machine} (mode : string) (m n w i : Z) (split : list Z) (hrs lrs : Z) : json :=
  JObj [("HRS", JInt hrs); ("HRS_NOISE", JInt 0); ("I_BIT", JInt i); ("LRS", JInt lrs);
        ("LRS_NOISE", JInt 0); ("M", JInt m); ("N", JInt n); ("SPLIT", JArr (map JInt split));
        ("W_BIT", JInt w); ("adc_type", JStr "INF_ADC"); ("digital_only", JBool false);
        ("m_mode", JStr mode); ("verbose", JBool false)]%string.

(** State after a list of calls (world0 if it fails). *)
Definition after {MC : Machine} (h : list call) : world :=
  match run world0 h with Ok (w, _) => w | _ => world0 end.

Lemma after_reach {MC : Machine} h w rs :
  run world0 h = Ok (w, rs) -> settled true h rs = true -> reach (after h).
Proof. intros H1 H2. unfold after. rewrite H1. exists h, rs. auto. Qed.

(** State and answers after further calls. *)
Definition next {MC : Machine} (w : world) (h : list call) : world :=
  match run w h with Ok (w', _) => w' | _ => w end.
(** Results as plain numbers, so that they can be computed and compared cheaply. *)
Definition show {MC : Machine} (r : result) : list Z :=
  match r with
  | RCode k => [k]
  | RRes k res => k :: res
  | RNum k => [k]
  | RBool b => [if b then 1 else 0]
  | RMat v => List.concat v
  | _ => []
  end.
Definition answers {MC : Machine} (w : world) (h : list call) : option (list (list Z)) :=
  match run w h with Ok (_, rs) => Some (map show rs) | _ => None end.
Lemma answers_run {MC : Machine} w h l : answers w h = Some l ->
  exists rs, run w h = Ok (next w h, rs) /\ map show rs = l.
Proof.
  unfold answers, next. destruct (run w h) as [[w' rs']| | |]; try discriminate.
  intros H. exists rs'. split; congruence.
Qed.
Definition has_xbar {MC : Machine} (w : world) : bool := match wx w with Some _ => true | None => false end.
Lemma has_xbar_some {MC : Machine} w : has_xbar w = true -> wx w <> None.
Proof. unfold has_xbar. destruct (wx w); congruence. Qed.

(** Reachability by evaluation. *)
Definition runs_settled {MC : Machine} (h : list call) : bool :=
  match run world0 h with Ok (_, rs) => settled true h rs | _ => false end.
Lemma after_reach_b {MC : Machine} h : runs_settled h = true -> reach (after h).
Proof.
  unfold runs_settled. destruct (run world0 h) as [[w rs]| | |] eqn:E; try discriminate.
  intros H. eapply after_reach; eauto.
Qed.

(** A reachable 4-bit crossbar of each integer mode, with a history behind it. *)
Definition ex01_hist (mode : string) : list (@call toy) :=
  [SetConfig (Parsed (dig_doc mode 3 4 4 4 [1; 2; 1]));
   CpyMtrx [1; 2; 3; 4; 5; 6] 2 3; ExeMvm [0; 0] [1; 2] [] 2 2 ""%string].
Definition ex01 (mode : string) : @world toy := after (ex01_hist mode).

(** The same for binary and ternary modes. *)
Definition ex_xnn (mode : string) : @world toy :=
  after [SetConfig (Parsed (dig_doc mode 3 4 2 4 [1; 1]));
         CpyMtrx [1; -1; 1; 1; 1; -1] 2 3; ExeMvm [0; 0] [1; -1] [] 2 2 ""%string].

(** A quiet history: an update of I_BIT and verbose, MVMs of other sizes, a rejected MVM, getters. *)
Definition ex07_quiet : list (@call toy) :=
  [UpdateConfig (UJson (JObj [("I_BIT", JInt 3); ("verbose", JBool true)]%string));
   ExeMvm [1] [1; 1; 1; 1] [] 1 4 "L"%string; ExeMvm [1] [1] [] 9 9 "L"%string; GetMat GdP; GetNum NMvm].

(** Failures as numbers. *)
Definition code {A} (o : out A) : Z :=
  match o with
  | Ok _ => 0
  | UB OutOfBounds => 1 | UB SignedOverflow => 2 | UB BadShift => 3 | UB FloatToInt => 4
  | UB NullDeref => 5 | UB DivByZero => 6 | UB Uninit => 7
  | Died => 8 | Threw => 9
  end.
Lemma code_oob {A} (o : out A) : code o = 1 -> o = UB OutOfBounds.
Proof. destruct o as [|[]| |]; easy. Qed.
Lemma code_null {A} (o : out A) : code o = 5 -> o = UB NullDeref.
Proof. destruct o as [|[]| |]; easy. Qed.
Lemma code_div {A} (o : out A) : code o = 6 -> o = UB DivByZero.
Proof. destruct o as [|[]| |]; easy. Qed.
Lemma code_f2i {A} (o : out A) : code o = 4 -> o = UB FloatToInt.
Proof. destruct o as [|[]| |]; easy. Qed.
Lemma code_died {A} (o : out A) : code o = 8 -> o = Died.
Proof. destruct o as [|[]| |]; easy. Qed.
Lemma code_ok {A} (o : out A) : code o = 0 -> exists a, o = Ok a.
Proof. destruct o as [|[]| |]; try easy. eauto. Qed.

(** A document with some keys set. *)
Definition puts {MC : Machine} (j : json) (l : list (string * json)) : json :=
  fold_left (fun j kv => obj_put j (fst kv) (snd kv)) l j.
