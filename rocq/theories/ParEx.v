(** Concrete crossbars with wire resistance. *)
From Coq Require Import String List ZArith Reals Lra Bool Lia ZifyBool ZifyNat.
From RecordUpdate Require Import RecordSet.
From Flocq Require Import Core.
From Verif Require Import Base Lib Hoare Shape ConfigProofs Machine Json Config Adc Parasitics Mapper Crossbar Api Reach Spec RMachine FloatMachine
  Demo RSpec ParSpec Ladder DigApi AnaSpec AnaApi AnaProps AnaEx NoiseFloat ParProps ParReal.
Import ListNotations RecordSetNotations.

(** A column of two cells of conductance 1 with segments of conductance 1: the nodes are at 4/5 and 3/5 of the
    voltage, 3/5 instead of 2 flow out. *)
Lemma ex42 : column_current 1 1 (fun _ => 1%R) 2 (3 / 5) /\ ideal_current 1 (fun _ => 1%R) 2 = 2%R.
Proof.
  split.
  - exists (fun k => match k with 0%nat => 4 / 5 | 1%nat => 3 / 5 | _ => 0 end)%R. split.
    + split; [reflexivity|]. intros [|[|k]] Hk; [lra..|lia].
    + cbn. lra.
  - cbn. lra.
Qed.

Section G.
Context {MC : Machine}.
Local Open Scope Z_scope.
Definition wire_doc (md : mode) (name : string) : json :=
  puts (demo_doc md name "INF_ADC" 8) [("V_read", JInt (-1)); ("parasitics", JBool true); ("w_res", JInt 2)]%string.
Definition with_wire (c : config) : config := c <| V_read := f_of_Z (-1) |> <| parasitics := true |> <| w_res := f_of_Z 2 |>.
Definition wire_cfg (md : mode) : config := with_wire (demo_cfg md INF_ADC 8).
Lemma with_same c : let d := with_wire c in
  SPLIT d = SPLIT c /\ LRS d = LRS c /\ HRS d = HRS c /\ m_mode d = m_mode c /\ W_BIT d = W_BIT c /\ adc_type d = adc_type c /\
  digital_only d = digital_only c /\ parasitics d = true /\ M d = M c /\ N d = N c /\ w_res d = f_of_Z 2.
Proof. repeat split. Qed.
Lemma wire_same md : let d := wire_cfg md in let c := demo_cfg md INF_ADC 8 in
  SPLIT d = SPLIT c /\ LRS d = f_of_Z 30 /\ HRS d = f_of_Z 5 /\ m_mode d = md /\ W_BIT d = W_BIT c /\ adc_type d = INF_ADC /\
  digital_only d = false /\ parasitics d = true /\ M d = 3 /\ N d = 4 /\ w_res d = f_of_Z 2.
Proof. exact (with_same (demo_cfg md INF_ADC 8)). Qed.
Lemma wire_resolution md : resolution (wire_cfg md) = 0.
Proof. exact (eq_refl : resolution (with_wire (demo_cfg md INF_ADC 8)) = resolution (demo_cfg md INF_ADC 8)). Qed.
Opaque with_wire.

Lemma wire_applied name md : In (name, md) mode_names ->
  fle (f_of_Z 5) f0 = false -> fle (f_of_Z 30) f0 = false -> feq (f_of_Z 2) f0 = false -> fle f0 (f_of_Z (-1)) = false ->
  apply_config (wire_doc md name) config0 = Ok (wire_cfg md).
Proof.
  intros Hn A B C D. unfold f0 in *.
  cbn in Hn; repeat (destruct Hn as [Hn|Hn]; [inversion Hn; subst; clear Hn|]); try contradiction;
    cbv -[fle feq f_of_Z]; rewrite ?A, ?B, ?C, ?D; reflexivity.
Qed.

Lemma wire_steps md d : exists st, (if uses_shift md then step_sizes (wire_cfg md) (Some d)
    else Ok (repeat (Some f0) (nsplit (wire_cfg md)))) = Ok st.
Proof.
  destruct (wire_same md) as (A & _). unfold step_sizes, ones, nsplit. rewrite A. clear A.
  destruct strict_shl; destruct md; cbv -[fdiv f_of_Z]; eexists; reflexivity.
Qed.
Lemma wire_delta md d : exists dl, match md with I_UINT_W_OFFS => delta_of (wire_cfg md) d | _ => Ok (Some f0) end = Ok dl.
Proof.
  destruct md; try (eexists; reflexivity). destruct (wire_same I_UINT_W_OFFS) as (A & _ & _ & _ & B & _).
  unfold delta_of, ones, shifts. rewrite !A, !B. generalize (HRS (wire_cfg I_UINT_W_OFFS)). clear. intros h. destruct strict_shl, d; cbv -[fdiv fsub f_of_Z fadd fmul]; eexists; reflexivity.
Qed.

Lemma wire_created md a : md <> I_TC_W_DIFF -> adc_new (wire_cfg md) INF_ADC = Ok a ->
  exists x p, xbar_new (wire_cfg md) = Ok x /\ par (xm x) = Some p /\ ps_w p = f_of_Z 2.
Proof.
  intros Ht Ha. destruct (wire_same md) as (_ & _ & _ & Em & _ & Ea & Ed & Ep & _ & _ & Ew).
  unfold xbar_new, mapper_new. rewrite Ea, Ha, Ed, Ep, Em. cbn [bind negb andb].
  assert (E0 : exists p, par_new (wire_cfg md) = Ok p /\ ps_w p = f_of_Z 2).
  { unfold par_new. rewrite Em. destruct (wenc_of md) eqn:E; [eexists; split; [reflexivity|exact Ew]|]. destruct md; easy. }
  destruct E0 as (p & -> & Eq). cbn [bind].
  destruct (wire_steps md (fsub (LRS (wire_cfg md)) (HRS (wire_cfg md)))) as [st ->]. cbn [bind].
  destruct (wire_delta md (Some (fsub (LRS (wire_cfg md)) (HRS (wire_cfg md))))) as [dl ->].
  cbn [bind]. eexists _, p. split; [reflexivity|]. split; [reflexivity|exact Eq].
Qed.

Lemma wire_world name md a : In (name, md) mode_names -> md <> I_TC_W_DIFF ->
  fle (f_of_Z 5) f0 = false -> fle (f_of_Z 30) f0 = false -> feq (f_of_Z 2) f0 = false -> fle f0 (f_of_Z (-1)) = false ->
  adc_new (wire_cfg md) INF_ADC = Ok a ->
  exists w x p, run world0 [SetConfig (Parsed (wire_doc md name))] = Ok (w, [RUnit]) /\ reach w /\
    wx w = Some x /\ wcfg w = wire_cfg md /\ par (xm x) = Some p /\ ps_w p = f_of_Z 2.
Proof.
  intros H1 H2 H3 H4 H5 H6 H7. pose proof (wire_applied name md H1 H3 H4 H5 H6) as E.
  destruct (wire_created md a H2 H7) as (x & p & X & P & W).
  eexists _, x, p.
  assert (Hrun : run world0 [SetConfig (Parsed (wire_doc md name))] =
    Ok (world0 <| wdata := wire_doc md name |> <| wcfg := wire_cfg md |> <| wx := Some x |>, [RUnit])).
  { cbn [run step]. unfold set_config. cbn [destroy wx wcfg world0 bind].
    change (wcfg (world0 <| wx := None |>)) with config0. rewrite E. cbn [bind]. unfold replace_xbar.
    change (wcfg (world0 <| wx := None |> <| wdata := wire_doc md name |> <| wcfg := wire_cfg md |>)) with (wire_cfg md).
    rewrite X. reflexivity. }
  split; [exact Hrun|]. split; [exists [SetConfig (Parsed (wire_doc md name))], [RUnit]; auto|].
  split; [reflexivity|]. split; [reflexivity|]. split; [exact P|exact W].
Qed.

Lemma wire_entries md : all_entries (weight_in (wire_cfg md)) [1; -1; 1; 1; -1; -1] 3 2.
Proof.
  assert (Hv : forall v, v = 1%Z \/ v = (-1)%Z -> weight_in (wire_cfg md) v).
  { intros v Hv. unfold weight_in. destruct (wire_same md) as (_ & _ & _ & -> & -> & _).
    pose proof (demo_wbit md INF_ADC 8) as HW. revert HW.
    generalize (W_BIT (demo_cfg md INF_ADC 8)). intros wb HW. destruct md; try rewrite (HW eq_refl); clear -Hv; auto; lia. }
  split; [cbn; lia|]. intros i j Hi Hj. apply Hv. clear Hv. change (Z.to_nat 2) with 2%nat in *. change (Z.to_nat 3) with 3%nat in *.
  destruct i as [|[|[|]]]; try lia; destruct j as [|[|]]; try lia; cbn; auto.
Qed.
Lemma wire_facts md : let c := wire_cfg md in
  digital_only c = false /\ parasitics c = true /\ split_covers c /\ dims_in c 3 2 /\ 2 * row_bound c <= int32_max /\
  (two_rows (m_mode c) = true -> 2 * 2 <= N c \/ 3 = 0).
Proof.
  intros c. destruct (wire_same md) as (A & _ & _ & Em & B & _ & Ed & Ep & EM & EN & _). fold c in A, Em, B, Ed, Ep, EM, EN.
  split; [exact Ed|]. split; [exact Ep|].
  split. { intros Hi. rewrite Em in Hi. rewrite A, B. cbn. rewrite Hi. cbn. lia. }
  split. { unfold dims_in. rewrite EM, EN. lia. }
  split. { unfold row_bound. rewrite Em, B. destruct (is_int md) eqn:E; [rewrite demo_wbit by exact E|]; apply Z.leb_le; reflexivity. }
  intros _. left. lia.
Qed.
End G.

Section E.
Context (nz : bool -> nat -> R) (s : bool).
#[local] Hint Extern 0 Machine => exact (R_machine nz s) : typeclass_instances.
Notation RM := (R_machine nz s).
Local Open Scope R_scope.
(** The hypotheses of C65 for a 3x2 matrix in every mode that has a solver. *)
Lemma ex65 name md : In (name, md) mode_names -> md <> I_TC_W_DIFF -> exists (w : @world RM) x p,
  run world0 [SetConfig (Parsed (@wire_doc RM md name))] = Ok (w, [RUnit]) /\ reach w /\ m_mode (wcfg w) = md /\
  wx w = Some x /\ digital_only (wcfg w) = false /\ parasitics (wcfg w) = true /\ @par RM (xm x) = Some p /\ 0 < @ps_w RM p /\
  split_covers (wcfg w) /\ dims_in (wcfg w) 3 2 /\ all_entries (weight_in (wcfg w)) [1; -1; 1; 1; -1; -1]%Z 3 2 /\
  (2 * row_bound (wcfg w) <= int32_max)%Z /\ (two_rows (m_mode (wcfg w)) = true -> 2 * 2 <= N (wcfg w) \/ 3 = 0)%Z.
Proof.
  intros Hn Ht. assert (Ha : exists a, @adc_new RM (wire_cfg md) INF_ADC = Ok a).
  { unfold adc_new. rewrite wire_resolution. cbn -[Ztrunc bpow]. rewrite (@AdcProps.trunc_pow nz s) by lia. eexists; reflexivity. }
  destruct Ha as [a Ha]. destruct (@wire_world RM name md a Hn Ht) as (w & x & p & R1 & R2 & X & C & P & W); auto.
  1,2: apply pos_false; lia.
  { cbn. unfold reqb. destruct (Req_EM_T 2 0); [exfalso; lra|reflexivity]. }
  { cbn. unfold rleb. destruct (Rle_dec _ _); [exfalso; lra|reflexivity]. }
  destruct (@wire_facts RM md) as (F1 & F2 & F3 & F4 & F5 & F6).
  exists w, x, p. rewrite C. repeat (split; [first [assumption|reflexivity]|]).
  split. { rewrite W. cbn. lra. } repeat (split; [first [assumption|apply wire_entries]|]). exact F6.
Qed.
End E.

(** ** binary32: what happens to matrices of all shapes in a 4x4 crossbar *)
Local Open Scope Z_scope.
Definition par_keys {MC : Machine} : list (string * json) :=
  [("V_read", JInt (-1)); ("parasitics", JBool true); ("w_res", JInt 1)]%string.
Definition wired_doc {MC : Machine} (on : bool) (mode : string) : json :=
  puts (ana_doc mode 4 4 2 2 [1; 1] 5 30) (if on then par_keys else []).
Definition try43 (on : bool) (mode : string) (m n : Z) : Z * Z * Z :=
  let s := SetConfig (Parsed (@wired_doc toy on mode)) in
  let w := CpyMtrx (repeat 1 16) m n in
  let v := ExeMvm (repeat 0 4) (repeat 1 4) [] m n ""%string in
  (code (run world0 [s; w]), code (run world0 [s; w; v]), code (run world0 [s; v])).
Definition wired_modes : list string :=
  ["I_DIFF_W_DIFF_1XB"; "I_DIFF_W_DIFF_2XB"; "I_OFFS_W_DIFF"; "I_UINT_W_DIFF"; "I_UINT_W_OFFS"; "BNN_I"; "BNN_II"; "BNN_III"; "BNN_IV"; "BNN_V"; "BNN_VI";
   "TNN_I"; "TNN_II"; "TNN_III"; "TNN_IV"; "TNN_V"]%string.

Definition table43 (on : bool) : list (string * list (Z * Z * Z)) :=
  map (fun md => (md, map (fun mn => try43 on md (fst mn) (snd mn)) [(2, 2); (4, 2); (2, 4)])) wired_modes.
Lemma ex43 : table43 true =
  map (fun md => (md,
    if existsb (String.eqb md) ["BNN_V"; "BNN_VI"; "TNN_I"]%string then [(0, 0, 1); (0, 0, 1); (1, 1, 1)]
    else if existsb (String.eqb md) ["BNN_I"; "BNN_II"; "BNN_III"; "BNN_IV"; "TNN_II"; "TNN_III"]%string then [(0, 0, 1); (0, 0, 1); (0, 0, 1)]
    else [(0, 0, 1); (0, 1, 1); (0, 0, 1)])) wired_modes.
Proof. vm_compute. reflexivity. Qed.
Lemma ex67 : table43 false = map (fun md => (md, [(0, 0, 0); (0, 0, 0); (0, 0, 0)])) wired_modes.
Proof. vm_compute. reflexivity. Qed.
(** A 3x2 matrix of ones in slices of 1 and 1 bits is six sliced rows of low-resistive cells. *)
Definition solver_ints {MC : Machine} (w : world) : list (list Z) :=
  match wx w with Some x => match par (xm x) with Some p => map (fun r => ints [r]) (ps_ga p) | None => [] end | None => [] end.
Definition hist44 : list (@call toy) :=
  [SetConfig (Parsed (wired_doc true "I_UINT_W_OFFS")); CpyMtrx (repeat 1 6) 3 2].
Lemma ex44 : runs_settled hist44 = true /\ loud_now (after hist44) = (repeat 30 2 ++ repeat 5 2) ++ (repeat 30 2 ++ repeat 5 2) ++
    (repeat 30 2 ++ repeat 5 2) ++ (repeat 30 2 ++ repeat 5 2) ++ (repeat 30 2 ++ repeat 5 2) ++ (repeat 30 2 ++ repeat 5 2) ++ repeat 5 8 /\
  solver_ints (after hist44) = [[30; 30; 30; 30; 5; 5]; [30; 30; 30; 30; 5; 5]; repeat 0 6; repeat 0 6].
Proof. vm_compute. auto. Qed.
