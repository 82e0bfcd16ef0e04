(** Concrete crossbars with negative wire resistance. *)
From Coq Require Import String List ZArith Reals Lra Bool Lia ZifyBool ZifyNat.
From RecordUpdate Require Import RecordSet.
From Flocq Require Import Core.
From Verif Require Import Base Lib Hoare Shape ConfigProofs Machine Json Config Adc Parasitics Mapper Crossbar Api Reach Spec RMachine FloatMachine
  Demo RSpec ParSpec Ladder DigApi AnaSpec AnaApi AnaProps AnaEx NoiseFloat ParProps ParReal ParEx.
Import ListNotations RecordSetNotations.

Section G.
Context {MC : Machine}.
Local Open Scope Z_scope.
Definition neg_doc (md : mode) (name : string) : json :=
  puts (demo_doc md name "INF_ADC" 8) [("V_read", JInt (-1)); ("parasitics", JBool true); ("w_res", JInt (-2))]%string.
Definition with_neg (c : config) : config := c <| V_read := f_of_Z (-1) |> <| parasitics := true |> <| w_res := f_of_Z (-2) |>.
Definition neg_cfg (md : mode) : config := with_neg (demo_cfg md INF_ADC 8).
Lemma withn_same c : let d := with_neg c in
  SPLIT d = SPLIT c /\ LRS d = LRS c /\ HRS d = HRS c /\ m_mode d = m_mode c /\ W_BIT d = W_BIT c /\ adc_type d = adc_type c /\
  digital_only d = digital_only c /\ parasitics d = true /\ M d = M c /\ N d = N c /\ w_res d = f_of_Z (-2).
Proof. repeat split. Qed.
Lemma neg_same md : let d := neg_cfg md in let c := demo_cfg md INF_ADC 8 in
  SPLIT d = SPLIT c /\ LRS d = f_of_Z 30 /\ HRS d = f_of_Z 5 /\ m_mode d = md /\ W_BIT d = W_BIT c /\ adc_type d = INF_ADC /\
  digital_only d = false /\ parasitics d = true /\ M d = 3 /\ N d = 4 /\ w_res d = f_of_Z (-2).
Proof. exact (withn_same (demo_cfg md INF_ADC 8)). Qed.
Lemma neg_resolution md : resolution (neg_cfg md) = 0.
Proof. exact (eq_refl : resolution (with_neg (demo_cfg md INF_ADC 8)) = resolution (demo_cfg md INF_ADC 8)). Qed.
Opaque with_neg.

Lemma neg_applied name md : In (name, md) mode_names ->
  fle (f_of_Z 5) f0 = false -> fle (f_of_Z 30) f0 = false -> feq (f_of_Z (-2)) f0 = false -> fle f0 (f_of_Z (-1)) = false ->
  apply_config (neg_doc md name) config0 = Ok (neg_cfg md).
Proof.
  intros Hn A B C D. unfold f0 in *.
  cbn in Hn; repeat (destruct Hn as [Hn|Hn]; [inversion Hn; subst; clear Hn|]); try contradiction;
    cbv -[fle feq f_of_Z]; rewrite ?A, ?B, ?C, ?D; reflexivity.
Qed.

Lemma neg_steps md d : exists st, (if uses_shift md then step_sizes (neg_cfg md) (Some d)
    else Ok (repeat (Some f0) (nsplit (neg_cfg md)))) = Ok st.
Proof.
  destruct (neg_same md) as (A & _). unfold step_sizes, ones, nsplit. rewrite A. clear A.
  destruct strict_shl; destruct md; cbv -[fdiv f_of_Z]; eexists; reflexivity.
Qed.
Lemma neg_delta md d : exists dl, match md with I_UINT_W_OFFS => delta_of (neg_cfg md) d | _ => Ok (Some f0) end = Ok dl.
Proof.
  destruct md; try (eexists; reflexivity). destruct (neg_same I_UINT_W_OFFS) as (A & _ & _ & _ & B & _).
  unfold delta_of, ones, shifts. rewrite !A, !B. generalize (HRS (neg_cfg I_UINT_W_OFFS)). clear. intros h. destruct strict_shl, d; cbv -[fdiv fsub f_of_Z fadd fmul]; eexists; reflexivity.
Qed.

Lemma neg_created md a : md <> I_TC_W_DIFF -> adc_new (neg_cfg md) INF_ADC = Ok a ->
  exists x p, xbar_new (neg_cfg md) = Ok x /\ par (xm x) = Some p /\ ps_w p = f_of_Z (-2).
Proof.
  intros Ht Ha. destruct (neg_same md) as (_ & _ & _ & Em & _ & Ea & Ed & Ep & _ & _ & Ew).
  unfold xbar_new, mapper_new. rewrite Ea, Ha, Ed, Ep, Em. cbn [bind negb andb].
  assert (E0 : exists p, par_new (neg_cfg md) = Ok p /\ ps_w p = f_of_Z (-2)).
  { unfold par_new. rewrite Em. destruct (wenc_of md) eqn:E; [eexists; split; [reflexivity|exact Ew]|]. destruct md; easy. }
  destruct E0 as (p & -> & Eq). cbn [bind].
  destruct (neg_steps md (fsub (LRS (neg_cfg md)) (HRS (neg_cfg md)))) as [st ->]. cbn [bind].
  destruct (neg_delta md (Some (fsub (LRS (neg_cfg md)) (HRS (neg_cfg md))))) as [dl ->].
  cbn [bind]. eexists _, p. split; [reflexivity|]. split; [reflexivity|exact Eq].
Qed.

Lemma neg_world name md a : In (name, md) mode_names -> md <> I_TC_W_DIFF ->
  fle (f_of_Z 5) f0 = false -> fle (f_of_Z 30) f0 = false -> feq (f_of_Z (-2)) f0 = false -> fle f0 (f_of_Z (-1)) = false ->
  adc_new (neg_cfg md) INF_ADC = Ok a ->
  exists w x p, run world0 [SetConfig (Parsed (neg_doc md name))] = Ok (w, [RUnit]) /\ reach w /\
    wx w = Some x /\ wcfg w = neg_cfg md /\ par (xm x) = Some p /\ ps_w p = f_of_Z (-2).
Proof.
  intros H1 H2 H3 H4 H5 H6 H7. pose proof (neg_applied name md H1 H3 H4 H5 H6) as E.
  destruct (neg_created md a H2 H7) as (x & p & X & P & W).
  eexists _, x, p.
  assert (Hrun : run world0 [SetConfig (Parsed (neg_doc md name))] =
    Ok (world0 <| wdata := neg_doc md name |> <| wcfg := neg_cfg md |> <| wx := Some x |>, [RUnit])).
  { cbn [run step]. unfold set_config. cbn [destroy wx wcfg world0 bind].
    change (wcfg (world0 <| wx := None |>)) with config0. rewrite E. cbn [bind]. unfold replace_xbar.
    change (wcfg (world0 <| wx := None |> <| wdata := neg_doc md name |> <| wcfg := neg_cfg md |>)) with (neg_cfg md).
    rewrite X. reflexivity. }
  split; [exact Hrun|]. split; [exists [SetConfig (Parsed (neg_doc md name))], [RUnit]; auto|].
  split; [reflexivity|]. split; [reflexivity|]. split; [exact P|exact W].
Qed.

Lemma neg_entries md : all_entries (weight_in (neg_cfg md)) [1; -1; 1; 1; -1; -1] 3 2.
Proof.
  assert (Hv : forall v, v = 1%Z \/ v = (-1)%Z -> weight_in (neg_cfg md) v).
  { intros v Hv. unfold weight_in. destruct (neg_same md) as (_ & _ & _ & -> & -> & _).
    pose proof (demo_wbit md INF_ADC 8) as HW. revert HW.
    generalize (W_BIT (demo_cfg md INF_ADC 8)). intros wb HW. destruct md; try rewrite (HW eq_refl); clear -Hv; auto; lia. }
  split; [cbn; lia|]. intros i j Hi Hj. apply Hv. clear Hv. change (Z.to_nat 2) with 2%nat in *. change (Z.to_nat 3) with 3%nat in *.
  destruct i as [|[|[|]]]; try lia; destruct j as [|[|]]; try lia; cbn; auto.
Qed.
Lemma neg_facts md : let c := neg_cfg md in
  digital_only c = false /\ parasitics c = true /\ split_covers c /\ dims_in c 3 2 /\ 2 * row_bound c <= int32_max /\
  (two_rows (m_mode c) = true -> 2 * 2 <= N c \/ 3 = 0).
Proof.
  intros c. destruct (neg_same md) as (A & _ & _ & Em & B & _ & Ed & Ep & EM & EN & _). fold c in A, Em, B, Ed, Ep, EM, EN.
  split; [exact Ed|]. split; [exact Ep|].
  split. { intros Hi. rewrite Em in Hi. rewrite A, B. cbn. rewrite Hi. cbn. lia. }
  split. { unfold dims_in. rewrite EM, EN. lia. }
  split. { unfold row_bound. rewrite Em, B. destruct (is_int md) eqn:E; [rewrite demo_wbit by exact E|]; apply Z.leb_le; reflexivity. }
  intros _. left. lia.
Qed.
End G.

Section E.
Context (nz : bool -> nat -> R) (s : bool).
#[local] Hint Extern 0 Machine => exact (R_machine nz s) : typeclass_instances.
Notation RM := (R_machine nz s).
Local Open Scope R_scope.
(** The hypotheses of C89 for a 3x2 matrix in every mode that has a solver. *)
Lemma ex89 name md : In (name, md) mode_names -> one_column md = true -> exists (w : @world RM) x p,
  run world0 [SetConfig (Parsed (@neg_doc RM md name))] = Ok (w, [RUnit]) /\ reach w /\ m_mode (wcfg w) = md /\ one_column (m_mode (wcfg w)) = true /\
  wx w = Some x /\ digital_only (wcfg w) = false /\ parasitics (wcfg w) = true /\ @par RM (xm x) = Some p /\ @ps_w RM p < 0 /\
  split_covers (wcfg w) /\ dims_in (wcfg w) 3 2 /\ all_entries (weight_in (wcfg w)) [1; -1; 1; 1; -1; -1]%Z 3 2 /\
  (2 * row_bound (wcfg w) <= int32_max)%Z /\ (two_rows (m_mode (wcfg w)) = true -> 2 * 2 <= N (wcfg w) \/ 3 = 0)%Z.
Proof.
  intros Hn Ho. assert (Ht : md <> I_TC_W_DIFF) by (intros ->; discriminate). assert (Ha : exists a, @adc_new RM (neg_cfg md) INF_ADC = Ok a).
  { unfold adc_new. rewrite neg_resolution. cbn -[Ztrunc bpow]. rewrite (@AdcProps.trunc_pow nz s) by lia. eexists; reflexivity. }
  destruct Ha as [a Ha]. destruct (@neg_world RM name md a Hn Ht) as (w & x & p & R1 & R2 & X & C & P & W); auto.
  1,2: apply pos_false; lia.
  { cbn. unfold reqb. destruct (Req_EM_T (-2) 0); [exfalso; lra|reflexivity]. }
  { cbn. unfold rleb. destruct (Rle_dec _ _); [exfalso; lra|reflexivity]. }
  destruct (@neg_facts RM md) as (F1 & F2 & F3 & F4 & F5 & F6).
  exists w, x, p. rewrite C. repeat (split; [first [assumption|reflexivity]|]).
  split. { rewrite W. cbn. lra. } repeat (split; [first [assumption|apply neg_entries]|]). exact F6.
Qed.
End E.

(** ** binary32: one column of n cells of 30 uS, segments of r ohms *)
Local Open Scope Z_scope.
Local Open Scope string_scope.
Definition set89 (mode : string) (n r : Z) : @call toy :=
  SetConfig (Parsed (@puts toy (ana_doc mode 2 n 2 2 [1; 1] 5 30) [("V_read", JInt (-1)); ("parasitics", JBool true); ("w_res", JInt r)])).
Definition try89 (mode : string) (n : Z) (v : list Z) (r : Z) : option (list (list Z)) :=
  answers world0 [set89 mode n r; CpyMtrx (repeat 1 (Z.to_nat n)) 1 n; ExeMvm [0] v [] 1 n ""].
Lemma ex89_results :
  map (try89 "I_UINT_W_OFFS" 4 [3; 3; 3; 3]) [0; 500; -500; -2000] =
    [Some [[]; [0]; [0; 12]]; Some [[]; [0]; [0; 8]]; Some [[]; [0]; [0; 18]]; Some [[]; [0]; [0; 50]]] /\
  map (try89 "BNN_III" 4 [1; 1; 1; 1]) [0; 500; -500; -2000] =
    [Some [[]; [0]; [0; 4]]; Some [[]; [0]; [0; 3]]; Some [[]; [0]; [0; 5]]; Some [[]; [0]; [0; 12]]] /\
  map (try89 "I_UINT_W_OFFS" 1 [3]) [0; -1000000] = [Some [[]; [0]; [0; 3]]; Some [[]; [0]; [0; -8]]] /\
  map (try89 "BNN_III" 1 [1]) [0; -1000000] = [Some [[]; [0]; [0; 1]]; Some [[]; [0]; [0; -1]]].
Proof. vm_compute. auto. Qed.
