(** Cases that meet the hypotheses of C53_negative_row. *)
From Coq Require Import List ZArith Bool Lia String.
From Verif Require Import Base Machine Json Config Mapper Crossbar Api Reach Spec Demo PyProps.
Import ListNotations.
Local Open Scope Z_scope.

(** Weights [1 1; 1 -3] and inputs [1 1]: row 1 is negative, row 0 is not. *)
Definition neg_case (w : @world strict) : Prop :=
  @strict_shl strict = true /\ reach w /\ wx w <> None /\ digital_only (wcfg w) = true /\
  split_covers (wcfg w) /\ widths_fit (wcfg w) /\ dims_in (wcfg w) 2 2 /\
  all_entries (weight_in (wcfg w)) [1; 1; 1; -3] 2 2 /\ all_first (input_in (wcfg w)) [1; 1] 2 /\
  room (wcfg w) [5; 7] 2 2 /\ (1 < Z.to_nat 2)%nat /\
  (In (m_mode (wcfg w)) [I_DIFF_W_DIFF_1XB; I_DIFF_W_DIFF_2XB; I_TC_W_DIFF; I_UINT_W_DIFF] /\
     product [1; 1; 1; -3] [1; 1] (Z.to_nat 2) 1 < 0 \/
   m_mode (wcfg w) = I_OFFS_W_DIFF /\ sum (Z.to_nat 2) (entry [1; 1; 1; -3] (Z.to_nat 2) 1) < 0).

Lemma neg_case_int mode : runs_settled [SetConfig (Parsed (@dig_doc strict mode 3 4 4 4 [1; 2; 1]))] = true ->
  let w := ex_strict mode in
  has_xbar w = true -> digital_only (wcfg w) = true -> total (SPLIT (wcfg w)) = 4 -> W_BIT (wcfg w) = 4 ->
  I_BIT (wcfg w) = 4 -> M (wcfg w) = 3 -> N (wcfg w) = 4 -> term_bound (wcfg w) <= 1000 ->
  weight_in (wcfg w) 1 -> weight_in (wcfg w) (-3) -> input_in (wcfg w) 1 ->
  match m_mode (wcfg w) with I_DIFF_W_DIFF_1XB | I_DIFF_W_DIFF_2XB | I_TC_W_DIFF | I_UINT_W_DIFF | I_OFFS_W_DIFF => true | _ => false end = true ->
  neg_case w.
Proof.
  intros Hs w Hx Hd E1 E2 E3 E4 E5 Ht Hw1 Hw2 Hi Hm. unfold neg_case.
  split; [reflexivity|]. split; [now apply after_reach_b|]. split; [now apply has_xbar_some|]. split; [exact Hd|].
  split; [intros _; lia|]. split; [intros _; lia|]. split; [unfold dims_in; lia|].
  change (Z.to_nat 2) with 2%nat.
  split; [split; [cbn; lia|intros [|[|i]] [|[|j]] H1 H2; cbn; try assumption; exfalso; cbn in *; lia]|].
  split; [split; [cbn; lia|intros [|[|j]] H1; cbn; try assumption; exfalso; cbn in *; lia]|].
  split; [split; [unfold int32_max; lia|split; [cbn; lia|intros [|[|j]] H1; cbn [nth]; unfold int32_max; try lia; exfalso; cbn in *; lia]]|].
  split; [lia|]. destruct (m_mode (wcfg w)); try discriminate Hm.
  1,2: left; split; [cbn; tauto|reflexivity].
  - right. split; reflexivity.
  - left; split; [cbn; tauto|reflexivity].
  - left; split; [cbn; tauto|reflexivity].
Qed.
Lemma neg_case_all : Forall (fun mode => neg_case (ex_strict mode))
  ["I_DIFF_W_DIFF_1XB"; "I_DIFF_W_DIFF_2XB"; "I_OFFS_W_DIFF"; "I_TC_W_DIFF"; "I_UINT_W_DIFF"]%string.
Proof.
  Local Ltac cmp1 := match goal with
    | |- _ = _ => vm_compute; reflexivity
    | |- term_bound _ <= _ => vm_compute; discriminate
    | |- weight_in _ _ => vm_compute; intuition (try reflexivity; try discriminate)
    | |- input_in _ _ => vm_compute; intuition (try reflexivity; try discriminate) end.
  apply Forall_cons; [apply neg_case_int; cmp1|]. apply Forall_cons; [apply neg_case_int; cmp1|].
  apply Forall_cons; [apply neg_case_int; cmp1|]. apply Forall_cons; [apply neg_case_int; cmp1|].
  apply Forall_cons; [apply neg_case_int; cmp1|]. apply Forall_nil.
Qed.

(** Weights [1 -1; 0 1]: the hypotheses of C53_ternary for an input. *)
Definition tern_case (w : @world strict) (vec : list Z) : Prop :=
  @strict_shl strict = true /\ In (m_mode (wcfg w)) [TNN_II; TNN_III; TNN_IV; TNN_V] /\
  reach w /\ wx w <> None /\ digital_only (wcfg w) = true /\ dims_in (wcfg w) 2 2 /\
  all_entries (weight_in (wcfg w)) [1; -1; 0; 1] 2 2 /\ all_first (input_in (wcfg w)) vec 2 /\
  room (wcfg w) [5; 7] 2 2.
Definition tern_bad (w : @world strict) (vec : list Z) : bool :=
  match step w (CpyMtrx [1; -1; 0; 1] 2 2) with
  | Ok (w1, RCode 0) => is_bad_shift (step w1 (ExeMvm [5; 7] vec [] 2 2 ""%string))
  | _ => false
  end.

Lemma tern_case_mode mode a b : runs_settled [SetConfig (Parsed (@dig_doc strict mode 3 4 2 4 [1; 1]))] = true ->
  let w := ex_strict_tc mode in
  has_xbar w = true -> digital_only (wcfg w) = true -> M (wcfg w) = 3 -> N (wcfg w) = 4 -> term_bound (wcfg w) <= 1000 ->
  weight_in (wcfg w) 1 -> weight_in (wcfg w) 0 -> weight_in (wcfg w) (-1) -> input_in (wcfg w) a -> input_in (wcfg w) b ->
  match m_mode (wcfg w) with TNN_II | TNN_III | TNN_IV | TNN_V => true | _ => false end = true ->
  tern_case w [a; b].
Proof.
  intros Hs w Hx Hd E4 E5 Ht Hw1 Hw0 Hw2 Ha Hb Hm. unfold tern_case.
  split; [reflexivity|]. split; [destruct (m_mode (wcfg w)); try discriminate Hm; cbn; tauto|].
  split; [now apply after_reach_b|]. split; [now apply has_xbar_some|]. split; [exact Hd|].
  split; [unfold dims_in; lia|]. change (Z.to_nat 2) with 2%nat.
  split; [split; [cbn; lia|intros [|[|i]] [|[|j]] H1 H2; cbn; try assumption; exfalso; cbn in *; lia]|].
  split; [split; [cbn; lia|intros [|[|j]] H1; cbn; try assumption; exfalso; cbn in *; lia]|].
  split; [unfold int32_max; lia|split; [cbn; lia|intros [|[|j]] H1; cbn [nth]; unfold int32_max; try lia; exfalso; cbn in *; lia]].
Qed.
Lemma tern_case_all : Forall (fun '(mode, v) =>
    tern_case (ex_strict_tc mode) [1; 0] /\ tern_case (ex_strict_tc mode) [v; v] /\ tern_bad (ex_strict_tc mode) [v; v] = true /\
    answers (ex_strict_tc mode) [CpyMtrx [1; -1; 0; 1] 2 2; ExeMvm [5; 7] [1; 0] [] 2 2 ""%string] = Some [[0]; [0; 6; 7]])
  [("TNN_II", -1); ("TNN_III", 1); ("TNN_IV", -1); ("TNN_V", -1)]%string.
Proof.
  Local Ltac cmp2 := match goal with
    | |- _ = _ => vm_compute; reflexivity
    | |- term_bound _ <= _ => vm_compute; discriminate
    | |- weight_in _ _ => vm_compute; intuition (try reflexivity; try discriminate)
    | |- input_in _ _ => vm_compute; intuition (try reflexivity; try discriminate) end.
  Local Ltac one := split; [apply tern_case_mode; cmp2|split; [apply tern_case_mode; cmp2|split; vm_compute; reflexivity]].
  apply Forall_cons; [one|]. apply Forall_cons; [one|]. apply Forall_cons; [one|]. apply Forall_cons; [one|]. apply Forall_nil.
Qed.

(** Inputs [1 1]: the hypotheses of C53_integer for a 2x2 matrix. *)
Definition int_case (w : @world strict) (mat : list Z) : Prop :=
  @strict_shl strict = true /\
  In (m_mode (wcfg w)) [I_DIFF_W_DIFF_1XB; I_DIFF_W_DIFF_2XB; I_OFFS_W_DIFF; I_TC_W_DIFF; I_UINT_W_DIFF] /\
  reach w /\ wx w <> None /\ digital_only (wcfg w) = true /\
  split_covers (wcfg w) /\ widths_fit (wcfg w) /\ dims_in (wcfg w) 2 2 /\
  all_entries (weight_in (wcfg w)) mat 2 2 /\ all_first (input_in (wcfg w)) [1; 1] 2 /\ room (wcfg w) [5; 7] 2 2.
Definition int_bad (w : @world strict) (mat : list Z) : bool :=
  match step w (CpyMtrx mat 2 2) with
  | Ok (w1, RCode 0) => is_bad_shift (step w1 (ExeMvm [5; 7] [1; 1] [] 2 2 ""%string))
  | _ => false
  end.

Lemma int_case_mode mode a b e f : runs_settled [SetConfig (Parsed (@dig_doc strict mode 3 4 4 4 [1; 2; 1]))] = true ->
  let w := ex_strict mode in
  has_xbar w = true -> digital_only (wcfg w) = true -> total (SPLIT (wcfg w)) = 4 -> W_BIT (wcfg w) = 4 ->
  I_BIT (wcfg w) = 4 -> M (wcfg w) = 3 -> N (wcfg w) = 4 -> term_bound (wcfg w) <= 1000 ->
  weight_in (wcfg w) a -> weight_in (wcfg w) b -> weight_in (wcfg w) e -> weight_in (wcfg w) f -> input_in (wcfg w) 1 ->
  match m_mode (wcfg w) with I_DIFF_W_DIFF_1XB | I_DIFF_W_DIFF_2XB | I_TC_W_DIFF | I_UINT_W_DIFF | I_OFFS_W_DIFF => true | _ => false end = true ->
  int_case w [a; b; e; f].
Proof.
  intros Hs w Hx Hd E1 E2 E3 E4 E5 Ht Ha Hb He Hf Hi Hm. unfold int_case.
  split; [reflexivity|]. split; [destruct (m_mode (wcfg w)); try discriminate Hm; cbn; tauto|].
  split; [now apply after_reach_b|]. split; [now apply has_xbar_some|]. split; [exact Hd|].
  split; [intros _; lia|]. split; [intros _; lia|]. split; [unfold dims_in; lia|].
  change (Z.to_nat 2) with 2%nat.
  split; [split; [cbn; lia|intros [|[|i]] [|[|j]] H1 H2; cbn; try assumption; exfalso; cbn in *; lia]|].
  split; [split; [cbn; lia|intros [|[|j]] H1; cbn; try assumption; exfalso; cbn in *; lia]|].
  split; [unfold int32_max; lia|split; [cbn; lia|intros [|[|j]] H1; cbn [nth]; unfold int32_max; try lia; exfalso; cbn in *; lia]].
Qed.
Lemma int_case_all : Forall (fun mode =>
    int_case (ex_strict mode) [3; -1; 1; 1] /\ int_case (ex_strict mode) [1; 1; 2; -1] /\ int_bad (ex_strict mode) [1; 1; 2; -1] = true /\
    product [1; 1; 2; -1] [1; 1] 2 1 = 1 /\
    answers (ex_strict mode) [CpyMtrx [3; -1; 1; 1] 2 2; ExeMvm [5; 7] [1; 1] [] 2 2 ""%string] = Some [[0]; [0; 7; 9]])
  ["I_DIFF_W_DIFF_1XB"; "I_DIFF_W_DIFF_2XB"; "I_OFFS_W_DIFF"; "I_TC_W_DIFF"; "I_UINT_W_DIFF"]%string.
Proof.
  Local Ltac cmp3 := match goal with
    | |- _ = _ => vm_compute; reflexivity
    | |- term_bound _ <= _ => vm_compute; discriminate
    | |- weight_in _ _ => vm_compute; intuition (try reflexivity; try discriminate)
    | |- input_in _ _ => vm_compute; intuition (try reflexivity; try discriminate) end.
  Local Ltac one3 := split; [apply int_case_mode; cmp3|split; [apply int_case_mode; cmp3|split; [|split]; vm_compute; reflexivity]].
  apply Forall_cons; [one3|]. apply Forall_cons; [one3|]. apply Forall_cons; [one3|]. apply Forall_cons; [one3|].
  apply Forall_cons; [one3|]. apply Forall_nil.
Qed.
