(** Example for C90: single-precision crossbars with HRS = 3 and LRS = 3 + 2^k. *)
From Coq Require Import String List ZArith Bool Lia.
From RecordUpdate Require Import RecordSet.
From Flocq Require Import Core BinarySingleNaN.
From Verif Require Import Base Lib Machine FloatMachine Json Config Histogram Adc Mapper Crossbar Api Spec Demo Reach
  AnaSpec AnaFloat ExactApi.
Import ListNotations RecordSetNotations.
Local Open Scope Z_scope.
Local Open Scope string_scope.

Definition exact_hist {MC : Machine} (name : string) (md : mode) (k : Z) : list call :=
  [SetConfig (Parsed (plain_doc name md 3 (3 + 2 ^ k)))].
Definition exact_use {MC : Machine} (r : Z) : list call :=
  [CpyMtrx [1; -1; -1; -1; 1; 1; 1; 1] 2 4; ExeMvm [r; -7] [1; -1; 1; 1] [] 2 4 ""].

Section X.
Context (powf : b32 -> b32 -> b32) (pow : b64 -> b64 -> b64) (expf : b32 -> b32) (nz : bool -> nat -> b32) (strict : bool).
Notation FM := (F_machine powf pow expf nz strict).
#[local] Hint Extern 0 Machine => exact (F_machine powf pow expf nz strict) : typeclass_instances.

Definition same_sf (a b : SpecFloat.spec_float) : bool :=
  match a, b with
  | SpecFloat.S754_finite s p q, SpecFloat.S754_finite s' p' q' => Bool.eqb s s' && Pos.eqb p p' && Z.eqb q q'
  | _, _ => false
  end.
Lemma same_sf_eq (x y : b32) : same_sf (B2SF x) (B2SF y) = true -> x = y.
Proof.
  intros H. apply B2SF_inj. destruct (B2SF x), (B2SF y); try discriminate H.
  apply andb_prop in H. destruct H as [H H3]. apply andb_prop in H. destruct H as [H1 H2].
  apply Bool.eqb_prop in H1. apply Pos.eqb_eq in H2. apply Z.eqb_eq in H3. now subst.
Qed.

Definition exact_of (md : mode) (k : Z) (w : @world FM) : Prop :=
  exists x, reach w /\ wx w = Some x /\ ideal_cells (wcfg w) x /\ adc_type (wcfg w) = INF_ADC /\
    is_int (m_mode (wcfg w)) = false /\ m_mode (wcfg w) = md /\
    @HRS FM (wcfg w) = @f_of_Z FM 3 /\ @LRS FM (wcfg w) = @f_of_Z FM (3 + 2 ^ k) /\ small_currents (m_mode (wcfg w)) 4 3 k /\
    dims_in (wcfg w) 2 4.
Definition exact_b (k : Z) (w : @world FM) : bool :=
  let c := wcfg w in
  has_xbar w && negb (digital_only c) && negb (read_disturb c) && negb (parasitics c) && @fle FM (HRS_NOISE c) (@f0 FM) &&
  @fle FM (LRS_NOISE c) (@f0 FM) && negb (adc_profile c) && match adc_type c with INF_ADC => true | _ => false end &&
  same_sf (B2SF (@HRS FM c)) (B2SF (@f_of_Z FM 3)) && same_sf (B2SF (@LRS FM c)) (B2SF (@f_of_Z FM (3 + 2 ^ k))) &&
  (M c =? 2)%Z && (N c =? 4)%Z && negb (is_int (m_mode c)).
Lemma exact_of_b md k (w : @world FM) : 0 <= k <= 18 -> reach w -> m_mode (wcfg w) = md -> exact_b k w = true -> exact_of md k w.
Proof.
  intros K R X B. unfold exact_b in B. repeat (apply andb_prop in B; destruct B as [B ?]).
  repeat match goal with H : negb _ = true |- _ => apply negb_true_iff in H end.
  apply has_xbar_some in B. destruct (wx w) as [x|] eqn:Ex; [|now destruct B]. exists x.
  assert (1 <= 2 ^ k <= 2 ^ 18) by (split; [apply (Z.pow_le_mono_r 2 0 k)|apply Z.pow_le_mono_r]; lia).
  change (2 ^ 18) with 262144 in *.
  repeat match goal with |- _ /\ _ => split | |- ideal_cells _ _ => repeat split | |- small_currents _ _ _ _ => repeat split end; auto;
    try congruence; try (change (2 ^ 24) with 16777216; lia); try now apply same_sf_eq.
  all: try (destruct (adc_type (wcfg w)); congruence).
  all: unfold small_currents, dims_in; repeat split; intros; try (change (2 ^ 24) with 16777216; lia).
Qed.

Definition small_names : list (string * mode) :=
  [("BNN_I", BNN_I); ("BNN_II", BNN_II); ("BNN_III", BNN_III); ("BNN_IV", BNN_IV); ("BNN_V", BNN_V); ("BNN_VI", BNN_VI);
   ("TNN_I", TNN_I); ("TNN_II", TNN_II); ("TNN_III", TNN_III); ("TNN_IV", TNN_IV); ("TNN_V", TNN_V)].
End X.

Section Y.
Context (powf : b32 -> b32 -> b32) (pow : b64 -> b64 -> b64) (expf : b32 -> b32) (nz : bool -> nat -> b32) (strict : bool).
Notation FM := (F_machine powf pow expf nz strict).
Ltac each H := cbn [In small_names] in H; repeat (destruct H as [H|H]; [injection H as <- <-; destruct strict; vm_compute; reflexivity|]); contradiction.

Lemma ex90_of name md : In (name, md) small_names -> exact_of powf pow expf nz strict md 3 (@after FM (exact_hist name md 3)).
Proof.
  intros H. apply exact_of_b; [lia|apply after_reach_b; each H|each H|each H].
Qed.
Lemma ex90 name md : In (name, md) small_names ->
  @answers FM world0 (exact_hist name md 3 ++ exact_use 16777203)%list = Some [[]; [0]; [0; 16777203; -5]] /\
  plus_product [16777203; -7] [1; -1; -1; -1; 1; 1; 1; 1] [1; -1; 1; 1] 2 4 = [16777203; -5].
Proof. intros H. split; [each H|reflexivity]. Qed.
End Y.
