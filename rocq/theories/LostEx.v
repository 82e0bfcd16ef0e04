(** Concrete crossbars whose weights are lost to cycle noise. *)
From Coq Require Import String List ZArith Reals Lra Bool Lia ZifyBool ZifyNat.
From RecordUpdate Require Import RecordSet.
From Flocq Require Import Core.
From Verif Require Import Base Lib Hoare Shape ConfigProofs Machine Json Config Adc Parasitics Mapper Crossbar Api Reach Spec RMachine FloatMachine
  Demo RSpec DigApi AnaSpec AnaApi AnaProps AnaEx NoiseFloat LostReal.
Import ListNotations RecordSetNotations.
Local Open Scope Z_scope.

Section G.
Context {MC : Machine}.
Definition lost_doc (name : string) (noisy : bool) : json :=
  puts (ana_doc name 3 4 1 4 [1] 5 30) [("c2c_var", JBool noisy); ("d2d_var", JBool false)]%string.
Definition lost_cfg (md : mode) : config :=
  config0 <| M := 3 |> <| N := 4 |> <| m_mode := md |> <| HRS := f_of_Z 5 |> <| LRS := f_of_Z 30 |> <| HRS_NOISE := f_of_Z 0 |> <| LRS_NOISE := f_of_Z 0 |>
    <| adc_type := INF_ADC |> <| resolution := 0 |> <| c2c_var := true |> <| d2d_var := false |> <| W_BIT := 1 |> <| I_BIT := 4 |> <| SPLIT := [1] |>.
Lemma lost_applied name md : In (name, md) mode_names -> plain_diff md = true ->
  fle (f_of_Z 5) f0 = false -> fle (f_of_Z 30) f0 = false ->
  apply_config (lost_doc name true) config0 = Ok (lost_cfg md).
Proof.
  intros Hn Hp A B. unfold f0 in *.
  cbn in Hn; repeat (destruct Hn as [Hn|Hn]; [inversion Hn; subst; clear Hn; try discriminate Hp|]); try contradiction;
    cbv -[fle feq f_of_Z]; rewrite ?A, ?B; try reflexivity.
Qed.
Lemma lost_world name md a : In (name, md) mode_names -> plain_diff md = true ->
  fle (f_of_Z 5) f0 = false -> fle (f_of_Z 30) f0 = false -> adc_new (lost_cfg md) INF_ADC = Ok a ->
  exists w, run world0 [SetConfig (Parsed (lost_doc name true))] = Ok (w, [RUnit]) /\ reach w /\ wx w <> None /\ wcfg w = lost_cfg md.
Proof.
  intros H1 H2 H3 H4 H7. pose proof (lost_applied name md H1 H2 H3 H4) as E.
  assert (X : exists x, xbar_new (lost_cfg md) = Ok x).
  { assert (K : adc_type (lost_cfg md) = INF_ADC /\ m_mode (lost_cfg md) = md /\ SPLIT (lost_cfg md) = [1] /\ parasitics (lost_cfg md) = false) by (repeat split).
    destruct K as (Ea & Em & Es & Ep). unfold xbar_new, mapper_new. rewrite Ea, H7, Em. cbn [bind].
    assert (D : digital_only (lost_cfg md) = false) by reflexivity. rewrite D, Ep. cbn [negb andb].
    assert (U : uses_shift md = true) by (destruct md; easy). rewrite U. unfold step_sizes. rewrite Es. cbn [mapM].
    unfold ones. destruct strict_shl; cbn -[fdiv f_of_Z]; destruct md; try discriminate H2; eexists; reflexivity. }
  destruct X as (x & X).
  eexists. 
  assert (Hrun : run world0 [SetConfig (Parsed (lost_doc name true))] =
    Ok (world0 <| wdata := lost_doc name true |> <| wcfg := lost_cfg md |> <| wx := Some x |>, [RUnit])).
  { cbn [run step]. unfold set_config. cbn [destroy wx wcfg world0 bind].
    change (wcfg (world0 <| wx := None |>)) with config0. rewrite E. cbn [bind]. unfold replace_xbar.
    change (wcfg (world0 <| wx := None |> <| wdata := lost_doc name true |> <| wcfg := lost_cfg md |>)) with (lost_cfg md).
    rewrite X. reflexivity. }
  split; [exact Hrun|]. split; [exists [SetConfig (Parsed (lost_doc name true))], [RUnit]; auto|].
  split; [discriminate|reflexivity].
Qed.
End G.

Section E.
Context (nz : bool -> nat -> R) (s : bool).
#[local] Hint Extern 0 Machine => exact (R_machine nz s) : typeclass_instances.
Notation RM := (R_machine nz s).
Lemma ex34_lost name md : In (name, md) mode_names -> plain_diff md = true -> exists w : @world RM,
  run world0 [SetConfig (Parsed (@lost_doc RM name true))] = Ok (w, [RUnit]) /\ reach w /\ wx w <> None /\ m_mode (wcfg w) = md /\
  digital_only (wcfg w) = false /\ c2c_var (wcfg w) = true /\ d2d_var (wcfg w) = false /\ parasitics (wcfg w) = false /\
  adc_type (wcfg w) = INF_ADC /\ List.length (SPLIT (wcfg w)) = 1%nat /\ (@HRS_NOISE RM (wcfg w) <= 0)%R /\ (@LRS_NOISE RM (wcfg w) <= 0)%R.
Proof.
  intros Hn Hp. assert (Ha : exists a, @adc_new RM (lost_cfg md) INF_ADC = Ok a).
  { unfold adc_new. change (resolution (lost_cfg md)) with 0. cbn -[Ztrunc bpow]. rewrite (@AdcProps.trunc_pow nz s) by lia. eexists; reflexivity. }
  destruct Ha as [a Ha]. destruct (@lost_world RM name md a Hn Hp) as (w & R1 & R2 & X & C); auto.
  1,2: apply pos_false; lia.
  exists w. rewrite C. repeat (split; [first [assumption|reflexivity]|]). cbn. split; lra.
Qed.
End E.

(** binary32: the four modes without and with cycle noise. *)
Local Open Scope string_scope.
Definition diff_modes : list string := ["I_DIFF_W_DIFF_1XB"; "I_DIFF_W_DIFF_2XB"; "I_TC_W_DIFF"; "I_UINT_W_DIFF"].
Definition try34 (noisy : bool) (mode : string) : option (list (list Z)) :=
  answers world0 [SetConfig (Parsed (@lost_doc toy mode noisy)); CpyMtrx [1; -1; 0; 1] 2 2; ExeMvm [7; 8] [1; 2] [] 2 2 ""].
Lemma ex34_modes : map (try34 false) diff_modes = repeat (Some [[]; [0]; [0; 6; 10]]) 4 /\
  map (try34 true) diff_modes = repeat (Some [[]; [0]; [0; 7; 8]]) 4.
Proof. vm_compute. split; reflexivity. Qed.
