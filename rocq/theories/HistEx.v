(** Concrete histograms in binary32: C47, C48. *)
From Coq Require Import String List ZArith Bool Permutation Sorted Lia.
From RecordUpdate Require Import RecordSet.
From Flocq Require Import Core BinarySingleNaN.
From Verif Require Import Base Lib Machine FloatMachine Json Config Histogram Adc Crossbar Api Spec Reach Demo LeakProps HistProps.
Import ListNotations RecordSetNotations.
Local Open Scope Z_scope.

(** A profiled BNN_III crossbar: a full row of +1 weights and +1 inputs drives the full-scale current. *)
Definition full_doc (bin : Z) : @json toy :=
  puts (@ana_doc toy "BNN_III" 2 2 4 4 [] 5 30)
    [("adc_type", JStr "POS_RANGE_ONLY_ADC"); ("resolution", JInt 8); ("adc_profile", JBool true);
     ("adc_profile_bin_size", JInt bin)]%string.
Definition w47 : @world toy := after [SetConfig (Parsed (full_doc 1)); CpyMtrx [1; 1; -1; -1] 2 2].

Lemma ex47 : runs_settled [SetConfig (Parsed (full_doc 1)); CpyMtrx [1; 1; -1; -1] 2 2] = true /\
  code (step w47 (ExeMvm [0; 0] [1; 1] [] 2 2 "L"%string)) = 1 /\
  code (step w47 (ExeMvm [0; 0] [1; -1] [] 2 2 "L"%string)) = 0.
Proof. vm_compute. auto. Qed.
Lemma reachable47 : exists w : @world toy, reach w /\
  adc_type (wcfg w) = POS_RANGE_ONLY_ADC /\ adc_profile (wcfg w) = true /\
  step w (ExeMvm [0; 0] [1; 1] [] 2 2 "L"%string) = UB OutOfBounds.
Proof.
  exists w47. split; [apply after_reach_b; apply ex47|].
  split; [vm_compute; reflexivity|]. split; [vm_compute; reflexivity|]. apply code_oob. apply ex47.
Qed.

(** A profile over seven bins and two reduction orders of its mean. *)
Definition fz (z : Z) : @F toy := @f_of_Z toy z.
Definition vals48 : list (@F toy) := map fz [0; 3333333; 6666666; 9999999; 13333332; 16666665; 19999998].
Definition h48 : @hist toy :=
  match hist_new (fz 0) (fz 30000000) (fz 3333333) with
  | Ok h => match hist_update vals48 h with Ok h' => h' | _ => h end
  | _ => mkHist (fz 0) (fz 0) (fz 0) [] []
  end.
Fixpoint left_tree (k : nat) : rtree := match k with O => Leaf 0 | S k => Node (left_tree k) (Leaf (S k)) end.
Fixpoint right_tree (k n : nat) : rtree := match n with O => Leaf k | S n => Node (Leaf k) (right_tree (S k) n) end.

Definition built48 : bool :=
  match hist_new (fz 0) (fz 30000000) (fz 3333333) with
  | Ok h => match hist_update vals48 h with Ok _ => true | _ => false end
  | _ => false
  end.
Lemma built : built48 = true -> exists h0, hist_new (fz 0) (fz 30000000) (fz 3333333) = Ok h0 /\ hist_update vals48 h0 = Ok h48.
Proof.
  unfold built48, h48. destruct (hist_new _ _ _) as [h| | |]; try discriminate.
  destruct (hist_update vals48 h) as [h'| | |] eqn:E; try discriminate. eauto.
Qed.
Lemma trees : leaves (left_tree 9) = seq 0 10 /\ leaves (right_tree 0 9) = seq 0 10.
Proof. vm_compute. auto. Qed.
Lemma means : List.length (h_data h48) = 9%nat /\
  @feq toy (hist_mean (left_tree 9) (left_tree 9) h48) (hist_mean (right_tree 0 9) (left_tree 9) h48) = false /\
  @feq toy (hist_mean (left_tree 9) (left_tree 9) h48) (hist_mean (left_tree 9) (left_tree 9) h48) = true.
Proof. vm_compute. auto. Qed.
Lemma mean_refuted : exists (mn mx b : @F toy) (vs : list (@F toy)) (h0 h : @hist toy) (t t' : rtree),
  hist_new mn mx b = Ok h0 /\ hist_update vs h0 = Ok h /\
  Permutation (leaves t) (seq 0 (S (List.length (h_data h)))) /\
  Permutation (leaves t') (seq 0 (S (List.length (h_data h)))) /\
  @feq toy (hist_mean t t h) (hist_mean t' t h) = false /\ @feq toy (hist_mean t t h) (hist_mean t t h) = true.
Proof.
  destruct (built ltac:(vm_compute; reflexivity)) as (h0 & E1 & E2).
  exists (fz 0), (fz 30000000), (fz 3333333), vals48, h0, h48, (left_tree 9), (right_tree 0 9).
  destruct means as (L & N & Y). destruct trees as (T1 & T2). rewrite L, T1, T2.
  repeat (split; [assumption || reflexivity|]). split; assumption.
Qed.

(** C75: the histogram of a layer outlives the configuration that made it.  A 2 x 2 crossbar first, then a
    2 x 4 crossbar whose currents reach twice as far. *)
Definition wide_doc : @json toy :=
  puts (@ana_doc toy "BNN_III" 2 4 4 4 [] 5 30)
    [("adc_type", JStr "POS_RANGE_ONLY_ADC"); ("resolution", JInt 8); ("adc_profile", JBool true);
     ("adc_profile_bin_size", JInt 1)]%string.
Definition pre75 : list (@call toy) := [SetConfig (Parsed (full_doc 1)); CpyMtrx [1; 1; -1; -1] 2 2; ExeMvm [0; 0] [1; -1] [] 2 2 "L"%string].
Definition mvm75 : @call toy := ExeMvm [0; 0] [1; 1; 1; -1] [] 2 4 "L"%string.
Definition load75 : list (@call toy) := [CpyMtrx [1; 1; 1; 1; -1; -1; -1; -1] 2 4].

Lemma reload_from {MC : Machine} pre j h a : runs_settled (SetConfig (Parsed j) :: h) = true ->
  runs_settled (pre ++ SetConfig (Parsed j) :: h) = true ->
  code (step (after (pre ++ SetConfig (Parsed j) :: h)) a) = 1 -> code (step (after (SetConfig (Parsed j) :: h)) a) = 0 ->
  exists w1 w2 rs1 rs2, run world0 (pre ++ SetConfig (Parsed j) :: h) = Ok (w1, rs1) /\ run world0 (SetConfig (Parsed j) :: h) = Ok (w2, rs2) /\
    reach w1 /\ reach w2 /\ step w1 a = UB OutOfBounds /\ exists w3 r, step w2 a = Ok (w3, r).
Proof.
  intros A B C D. pose proof (after_reach_b _ A) as RA. pose proof (after_reach_b _ B) as RB.
  unfold runs_settled in A, B. unfold after in *.
  destruct (run world0 (SetConfig (Parsed j) :: h)) as [[w2 rs2]| | |] eqn:E2; try discriminate A.
  destruct (run world0 (pre ++ SetConfig (Parsed j) :: h)) as [[w1 rs1]| | |] eqn:E1; try discriminate B.
  exists w1, w2, rs1, rs2. apply code_oob in C. apply code_ok in D. destruct D as [[w3 r] D]. eauto 10.
Qed.
Lemma ex75 : runs_settled (SetConfig (Parsed wide_doc) :: load75) = true /\
  runs_settled (pre75 ++ SetConfig (Parsed wide_doc) :: load75) = true /\
  code (step (after (pre75 ++ SetConfig (Parsed wide_doc) :: load75)) mvm75) = 1 /\
  code (step (after (SetConfig (Parsed wide_doc) :: load75)) mvm75) = 0.
Proof. vm_compute. auto. Qed.
Lemma reload_refuted : exists (pre : list (@call toy)) j h a w1 w2 rs1 rs2,
  run world0 (pre ++ SetConfig (Parsed j) :: h) = Ok (w1, rs1) /\ run world0 (SetConfig (Parsed j) :: h) = Ok (w2, rs2) /\
  reach w1 /\ reach w2 /\ step w1 a = UB OutOfBounds /\ exists w3 r, step w2 a = Ok (w3, r).
Proof.
  exists pre75, wide_doc, load75, mvm75. destruct ex75 as (A & B & C & D). exact (reload_from _ _ _ _ A B C D).
Qed.
