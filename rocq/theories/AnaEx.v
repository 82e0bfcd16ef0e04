(** Concrete crossbars with ideal cells in exact arithmetic, one per mode and converter. *)
From Coq Require Import String List ZArith Reals Lra Bool Lia ZifyBool ZifyNat.
From RecordUpdate Require Import RecordSet.
From Flocq Require Import Core.
From Verif Require Import Base Lib Hoare Shape WriteProofs ConfigProofs Machine Json Config Adc Mapper Crossbar Api Reach Spec RMachine Demo RSpec AdcProps
  DigApi AnaSpec AnaApi AnaProps.
Import ListNotations RecordSetNotations.

Definition demo_mat : list Z := [1; -1; 1; 1; -1; -1; 1; -1; 1; 1; 1; -1]%Z.
Definition demo_vec (md : mode) : list Z :=
  match md with I_UINT_W_DIFF | I_UINT_W_OFFS => [1; 2; 15; 0] | _ => [1; -1; 1; 1] end%Z.

Section G.
Context {MC : Machine}.
Local Open Scope Z_scope.
(** 3 x 4 cells, HRS 5, LRS 30; integer modes: 4-bit weights in slices of 1, 2 and 1 bits, 4-bit inputs. *)
Definition demo_width (md : mode) : Z * list Z :=
  match md with TNN_IV | TNN_V => (2, [1; 1]) | _ => (4, [1; 2; 1]) end.
Definition demo_doc (md : mode) (name adc : string) (res : Z) : json :=
  puts (ana_doc name 3 4 (fst (demo_width md)) 4 (snd (demo_width md)) 5 30)
    [("adc_type", JStr adc); ("resolution", JInt res)]%string.
Definition demo_cfg (md : mode) (ty : adc_ty) (res : Z) : config :=
  config0 <| M := 3 |> <| N := 4 |> <| m_mode := md |> <| HRS := f_of_Z 5 |> <| LRS := f_of_Z 30 |> <| adc_type := ty |>
    <| resolution := match ty with INF_ADC => 0 | _ => res end |> <| d2d_var := true |>
    <| W_BIT := if is_int md then 4 else match md with TNN_IV | TNN_V => 2 | _ => 0 end |>
    <| I_BIT := if is_int md then 4 else 0 |>
    <| SPLIT := if is_int md then [1; 2; 1] else match md with TNN_IV | TNN_V => [1; 1] | _ => [0] end |>.

Definition adc_name (ty : adc_ty) : string :=
  match ty with INF_ADC => "INF_ADC" | SYM_RANGE_ADC => "SYM_RANGE_ADC" | POS_RANGE_ONLY_ADC => "POS_RANGE_ONLY_ADC" end%string.

Lemma demo_applied name md ty res : In (name, md) mode_names -> adc_ok md ty = true -> In res [8; 12] ->
  fle (f_of_Z 5) f0 = false -> fle (f_of_Z 30) f0 = false ->
  apply_config (demo_doc md name (adc_name ty) res) config0 = Ok (demo_cfg md ty res).
Proof.
  intros Hn Ht Hr A B. unfold f0 in *.
  destruct Hr as [<-|[<-|[]]]; destruct ty; cbn in Hn; repeat (destruct Hn as [Hn|Hn]; [inversion Hn; subst; clear Hn|]); try discriminate Ht; try contradiction;
    cbv -[fle f_of_Z]; rewrite A, B; reflexivity.
Qed.

Lemma demo_created md ty res a : adc_ok md ty = true -> adc_new (demo_cfg md ty res) ty = Ok a ->
  exists x, xbar_new (demo_cfg md ty res) = Ok x /\ par (xm x) = None.
Proof.
  intros Ht Ha. unfold xbar_new, mapper_new. rewrite (eq_refl : adc_type (demo_cfg md ty res) = ty), Ha. cbn [bind].
  assert (E1 : digital_only (demo_cfg md ty res) = false /\ parasitics (demo_cfg md ty res) = false) by (split; reflexivity).
  destruct E1 as [-> ->]. cbn [negb andb bind].
  assert (E2 : exists st, (if uses_shift (m_mode (demo_cfg md ty res)) then step_sizes (demo_cfg md ty res) (Some (fsub (LRS (demo_cfg md ty res)) (HRS (demo_cfg md ty res))))
    else Ok (repeat (Some f0) (nsplit (demo_cfg md ty res)))) = Ok st).
  { unfold step_sizes, ones. destruct strict_shl; destruct md; cbv -[fdiv fsub f_of_Z]; eauto. }
  destruct E2 as [st ->]. cbn [bind].
  assert (E3 : exists dl, match m_mode (demo_cfg md ty res) with
    | I_UINT_W_OFFS => delta_of (demo_cfg md ty res) (Some (fsub (LRS (demo_cfg md ty res)) (HRS (demo_cfg md ty res))))
    | _ => Ok (Some f0) end = Ok dl).
  { unfold delta_of, ones. destruct strict_shl; destruct md; cbv -[fdiv fsub f_of_Z fadd fmul]; eauto. }
  destruct E3 as [dl ->]. cbn [bind]. eexists. split; reflexivity.
Qed.

Lemma demo_world name md ty res a : In (name, md) mode_names -> adc_ok md ty = true -> In res [8; 12] ->
  fle (f_of_Z 5) f0 = false -> fle (f_of_Z 30) f0 = false -> adc_new (demo_cfg md ty res) ty = Ok a ->
  exists w x, run world0 [SetConfig (Parsed (demo_doc md name (adc_name ty) res))] = Ok (w, [RUnit]) /\ reach w /\
    wx w = Some x /\ wcfg w = demo_cfg md ty res /\ par (xm x) = None.
Proof.
  intros H1 H2 H3 H4 H5 H6. pose proof (demo_applied name md ty res H1 H2 H3 H4 H5) as E.
  destruct (demo_created md ty res a H2 H6) as (x & X & P).
  eexists _, x.
  assert (Hrun : run world0 [SetConfig (Parsed (demo_doc md name (adc_name ty) res))] =
    Ok (world0 <| wdata := demo_doc md name (adc_name ty) res |> <| wcfg := demo_cfg md ty res |> <| wx := Some x |>, [RUnit])).
  { cbn [run step]. unfold set_config. cbn [destroy wx wcfg world0 bind].
    change (wcfg (world0 <| wx := None |>)) with config0. rewrite E. cbn [bind]. unfold replace_xbar.
    change (wcfg (world0 <| wx := None |> <| wdata := demo_doc md name (adc_name ty) res |> <| wcfg := demo_cfg md ty res |>)) with (demo_cfg md ty res).
    rewrite X. reflexivity. }
  split; [exact Hrun|]. split; [exists [SetConfig (Parsed (demo_doc md name (adc_name ty) res))], [RUnit]; auto|].
  split; [reflexivity|]. split; [reflexivity|exact P].
Qed.
Lemma demo_mode md ty res : m_mode (demo_cfg md ty res) = md.
Proof. reflexivity. Qed.
Lemma demo_wbit md ty res : is_int md = true -> W_BIT (demo_cfg md ty res) = 4.
Proof. intros H. cbn. now rewrite H. Qed.
Lemma demo_ibit md ty res : is_int md = true -> I_BIT (demo_cfg md ty res) = 4.
Proof. intros H. cbn. now rewrite H. Qed.
Lemma demo_split md ty res : is_int md = true -> SPLIT (demo_cfg md ty res) = [1; 2; 1].
Proof. intros H. cbn. now rewrite H. Qed.
Lemma demo_entries md ty res : all_entries (weight_in (demo_cfg md ty res)) demo_mat 3 4.
Proof.
  assert (Hv : forall v, v = 1%Z \/ v = (-1)%Z -> weight_in (demo_cfg md ty res) v).
  { intros v Hv. unfold weight_in. rewrite demo_mode. pose proof (demo_wbit md ty res) as HW. revert HW.
    generalize (W_BIT (demo_cfg md ty res)). intros wb HW. destruct md; try rewrite (HW eq_refl); clear -Hv; auto; lia. }
  split; [cbn; lia|]. intros i j Hi Hj. apply Hv. clear Hv. change (Z.to_nat 4) with 4%nat in *. change (Z.to_nat 3) with 3%nat in *.
  destruct i as [|[|[|]]]; try lia; destruct j as [|[|[|[|]]]]; try lia; cbn; auto.
Qed.
Lemma demo_inputs md ty res : all_first (input_in (demo_cfg md ty res)) (demo_vec md) 4.
Proof.
  split; [destruct md; cbn; lia|]. intros j Hj. change (Z.to_nat 4) with 4%nat in *.
  unfold input_in. rewrite demo_mode. pose proof (demo_ibit md ty res) as HW. revert HW.
  generalize (I_BIT (demo_cfg md ty res)). intros wb HW. destruct md; try rewrite (HW eq_refl); clear -Hj;
  destruct j as [|[|[|[|]]]]; try lia; cbn [demo_vec nth]; auto; lia.
Qed.
Lemma demo_facts md ty res x : par (xm x) = None -> fle f0 f0 = true -> let c := demo_cfg md ty res in
  ideal_cells c x /\ no_variation c /\ split_covers c /\ slices_wide c /\ widths_fit c /\ dims_in c 3 4 /\ sums_fit c 4 /\
  room c [1; 2; 3]%Z 3 4.
Proof.
  intros Hp H0 c.
  split; [unfold ideal_cells; repeat split; try reflexivity; auto|]. split; [split; reflexivity|].
  split; [intros Hi; unfold c in *; cbn in Hi |- *; rewrite Hi; cbn; lia|].
  split; [intros Hi; unfold c in *; cbn in Hi |- *; rewrite Hi; repeat constructor; lia|].
  split; [intros Hi; unfold c in *; cbn in Hi |- *; rewrite Hi; cbn; lia|].
  split; [unfold dims_in; cbn; lia|].
  split; [unfold sums_fit, c; rewrite demo_mode; destruct (is_int md) eqn:E; [rewrite demo_wbit by exact E|]; apply Z.leb_le; reflexivity|].
  assert (T : (term_bound c <= 256)%Z) by (unfold term_bound, c; rewrite demo_mode; destruct (is_int md) eqn:E; [rewrite demo_wbit, demo_ibit by exact E|]; apply Z.leb_le; reflexivity).
  split; [unfold int32_max; lia|]. split; [cbn; lia|]. intros j Hj. unfold int32_max.
  destruct j as [|[|[|j]]]; [cbn [nth Z.abs]; lia..|]. cbn in Hj. lia.
Qed.

Lemma demo_gains md ty res : forallb (fun g => (0 <=? g) && (g <=? 128)) (gains (demo_cfg md ty res)) = true /\
  fold_right Z.add 0 (map (fun g => g + 1) (gains (demo_cfg md ty res))) <=? 1000 = true.
Proof. destruct md; vm_compute; auto. Qed.
End G.

Section E.
Context (nz : bool -> nat -> R) (s : bool).
#[local] Hint Extern 0 Machine => exact (R_machine nz s) : typeclass_instances.
Notation RM := (R_machine nz s).
Local Open Scope R_scope.

Lemma demo_adc md ty res : In res [8; 12]%Z -> exists a, @adc_new RM (demo_cfg md ty res) ty = Ok a.
Proof.
  intros Hr. destruct ty.
  - unfold adc_new. cbn -[Ztrunc bpow]. rewrite (@trunc_pow nz s) by lia. eexists; reflexivity.
  - rewrite new_ok; [eauto|discriminate|]. cbn in Hr. change (1 <= res <= 30)%Z. lia.
  - rewrite new_ok; [eauto|discriminate|]. cbn in Hr. change (1 <= res <= 30)%Z. lia.
Qed.
Lemma pos_false z : (0 < z)%Z -> @fle RM (f_of_Z z) f0 = false.
Proof. intros H. apply IZR_lt in H. cbn. unfold rleb. destruct (Rle_dec _ _); [lra|reflexivity]. Qed.

Lemma demo_start name md ty res : In (name, md) mode_names -> adc_ok md ty = true -> In res [8; 12]%Z ->
  exists w x, run world0 [SetConfig (Parsed (@demo_doc RM md name (adc_name ty) res))] = Ok (w, [RUnit]) /\ reach w /\
    wx w = Some x /\ wcfg w = demo_cfg md ty res /\ par (xm x) = None.
Proof.
  intros H1 H2 H3. destruct (demo_adc md ty res H3) as (a & Ha). eapply demo_world; eauto; apply pos_false; lia.
Qed.

Lemma refl_le : @fle RM f0 f0 = true.
Proof. cbn. unfold rleb. destruct (Rle_dec _ _); [reflexivity|exfalso; lra]. Qed.
Lemma demo_hrs md ty res : @HRS RM (demo_cfg md ty res) = 5.
Proof. reflexivity. Qed.
Lemma demo_lrs md ty res : @LRS RM (demo_cfg md ty res) = 30.
Proof. reflexivity. Qed.

Lemma always_nil (P : @config RM -> Prop) w : P (wcfg w) -> always P w [].
Proof. intros H h1 h2 w' rs E. destruct h1; [|discriminate]. cbn. intros R. inversion R; subst. exact H. Qed.
Lemma exe_cfg (w w1 : @world RM) res vec mat m n l r : step w (ExeMvm res vec mat m n l) = Ok (w1, r) -> wcfg w1 = wcfg w.
Proof.
  cbn [step]. unfold exe_mvm. destruct (wx w) as [x|]; [|intros E; inversion E; reflexivity].
  destruct (too_big _ _ _); [intros E; inversion E; reflexivity|]. intros E. inv_as E t Ht. destruct t. inv_as E t Ht2.
  destruct t as [[r0 x0] e0]. inversion E. reflexivity.
Qed.
Lemma cpy_cfg (w w1 : @world RM) mat m n r : step w (CpyMtrx mat m n) = Ok (w1, r) -> wcfg w1 = wcfg w.
Proof.
  cbn [step]. unfold cpy_mtrx. destruct (wx w) as [x|]; [|intros E; inversion E; reflexivity].
  destruct (too_big _ _ _); [intros E; inversion E; reflexivity|]. intros E. inv_as E t Ht. destruct t. inv_as E t Ht2.
  destruct t as [x0 e0]. inversion E. reflexivity.
Qed.

(** Two MVMs after a write, all modes. *)
Definition demo_mvm (md : mode) : @call RM := ExeMvm [1; 2; 3]%Z (demo_vec md) [] 3 4 "layer"%string.
Definition demo_sum (md : mode) : list Z := plus_product [1; 2; 3]%Z demo_mat (demo_vec md) 3 4.
Lemma demo_twice name md ty res : In (name, md) mode_names -> adc_ok md ty = true -> In res [8; 12]%Z ->
  (forall w x, reach w -> wx w = Some x -> ideal_cells (wcfg w) x -> par (xm x) = None -> wcfg w = demo_cfg md ty res ->
     exists w1, step w (CpyMtrx demo_mat 3 4) = Ok (w1, RCode 0) /\
     forall h w2 rs res vec mat' l, Forall quiet h -> run w1 h = Ok (w2, rs) -> always no_variation w1 h -> wcfg w2 = wcfg w ->
      widths_fit (wcfg w2) -> all_first (input_in (wcfg w2)) vec 4 -> room (wcfg w2) res 3 4 ->
      exists w3, step w2 (ExeMvm res vec mat' 3 4 l) = Ok (w3, RRes 0 (plus_product res demo_mat vec (Z.to_nat 3) (Z.to_nat 4)))) ->
  exists w, run world0 [SetConfig (Parsed (@demo_doc RM md name (adc_name ty) res)); CpyMtrx demo_mat 3 4; demo_mvm md; demo_mvm md] =
    Ok (w, [RUnit; RCode 0; RRes 0 (demo_sum md); RRes 0 (demo_sum md)]).
Proof.
  intros H1 H2 H3 HT. destruct (demo_start name md ty res H1 H2 H3) as (w & x & R0 & Hr & Hx & Hc & Hp).
  destruct (demo_facts md ty res x Hp refl_le) as (F1 & F2 & F3 & F4 & F5 & F6 & F7 & F10).
  destruct (HT w x Hr Hx) as (w1 & E1 & HM); [now rewrite Hc|exact Hp|exact Hc|].
  pose proof (cpy_cfg _ _ _ _ _ _ E1) as C1.
  destruct (HM [] w1 [] [1;2;3]%Z (demo_vec md) [] "layer"%string) as (w2 & E2); auto.
  { apply always_nil. rewrite C1, Hc. exact F2. }
  1-3: rewrite C1, Hc. { exact F5. } { apply demo_inputs. } { exact F10. }
  pose proof (exe_cfg _ _ _ _ _ _ _ _ _ E2) as C2.
  destruct (HM [demo_mvm md] w2 [RRes 0 (demo_sum md)] [1;2;3]%Z (demo_vec md) [] "layer"%string) as (w3 & E3); auto.
  { constructor; [cbn; auto|constructor]. }
  { cbn [run]. unfold demo_mvm at 1. rewrite E2. reflexivity. }
  { intros h1 h2 w' rs E R. destruct h1 as [|a h1].
    - inversion R; subst. rewrite C1, Hc. exact F2.
    - destruct h1; [|discriminate E]. inversion E; subst. cbn [run] in R. unfold demo_mvm in R. rewrite E2 in R. inversion R; subst.
      rewrite C2, C1, Hc. exact F2. }
  { now rewrite C2, C1. }
  1-3: rewrite C2, C1, Hc. { exact F5. } { apply demo_inputs. } { exact F10. }
  exists w3. cbn [run] in R0 |- *. destruct (step world0 _) as [[w0 r0]| | |]; try discriminate R0. cbn [bind] in R0 |- *.
  inversion R0; subst. rewrite E1. cbn [bind]. unfold demo_mvm. rewrite E2. cbn [bind]. rewrite E3. reflexivity.
Qed.

Lemma ex21 name md : In (name, md) mode_names -> (md = I_OFFS_W_DIFF -> s = false) ->
  exists w, run world0 [SetConfig (Parsed (@demo_doc RM md name "INF_ADC" 8)); CpyMtrx demo_mat 3 4; demo_mvm md; demo_mvm md] =
    Ok (w, [RUnit; RCode 0; RRes 0 (demo_sum md); RRes 0 (demo_sum md)]).
Proof.
  intros H1 Hs. apply (demo_twice name md INF_ADC 8 H1); [destruct md; reflexivity|cbn; auto|].
  intros w x Hr Hx HI Hp Hc.
  destruct (demo_facts md INF_ADC 8 x Hp refl_le) as (F1 & F2 & F3 & F4 & F5 & F6 & F7 & F10). rewrite <- Hc in *.
  destruct (@ideal_exact nz s w x demo_mat 3%Z 4%Z Hr Hx HI) as (w1 & E1 & HM); auto.
  - now rewrite Hc.
  - rewrite Hc, demo_hrs, demo_lrs. lra.
  - rewrite Hc. exact Hs.
  - rewrite Hc. apply demo_entries.
  - exists w1. split; [exact E1|]. intros. eapply HM; eauto.
Qed.

Lemma demo_half md ty res : ty <> INF_ADC -> In res [8; 12]%Z -> 0 <= @half_step nz s (demo_cfg md ty res) <= 1 /\
  (res = 12%Z -> @half_step nz s (demo_cfg md ty res) < / 500).
Proof.
  intros Ht Hr. unfold half_step. rewrite demo_hrs, demo_lrs.
  change (adc_type (demo_cfg md ty res)) with ty. change (N (demo_cfg md ty res)) with 4%Z.
  replace (resolution (@demo_cfg RM md ty res)) with res by (destruct ty; [congruence|reflexivity..]).
  destruct Hr as [<-|[<-|[]]]; destruct ty; try congruence;
    match goal with |- context [(2 ^ ?a - ?b)%Z] => let v := eval vm_compute in (2 ^ a - b)%Z in change (2 ^ a - b)%Z with v end;
    split; try (intros; discriminate); lra.
Qed.
Lemma sum_bound h q : 0 <= h <= 1 -> forallb (fun g => (0 <=? g) && (g <=? 128))%Z q = true ->
  fold_right Rplus 0 (map (fun g => IZR g * h + / 2) q) <= IZR (fold_right Z.add 0%Z (map (fun g => g + 1)%Z q)).
Proof.
  intros Hh. induction q as [|g q IH]; cbn [forallb map fold_right]; intros H; [lra|]. apply andb_prop in H as [H1 H2].
  specialize (IH H2). rewrite !plus_IZR. assert (P : (0 <= g)%Z) by lia. apply (IZR_le 0) in P.
  assert (IZR g * h <= IZR g * 1) by (apply Rmult_le_compat_l; lra). lra.
Qed.
Lemma demo_room md ty res : ty <> INF_ADC -> In res [8; 12]%Z ->
  room_for (@accuracy nz s (demo_cfg md ty res)) (@demo_cfg RM md ty res) [1; 2; 3]%Z 3 4.
Proof.
  intros Ht Hr. destruct (demo_half md ty res Ht Hr) as [Hh _]. destruct (@demo_gains RM md ty res) as [G1 G2].
  pose proof (sum_bound _ _ Hh G1) as B. apply Z.leb_le, IZR_le in G2.
  assert (A : @accuracy nz s (demo_cfg md ty res) <= 1001) by (unfold accuracy; destruct (m_mode _); lra).
  assert (T : (@term_bound RM (demo_cfg md ty res) <= 256)%Z).
  { unfold term_bound; rewrite demo_mode; destruct (is_int md) eqn:E; [rewrite demo_wbit, demo_ibit by exact E|]; apply Z.leb_le; reflexivity. }
  split; [unfold int32_max; lia|]. split; [cbn; lia|]. intros j Hj. unfold int32_max.
  assert (L : (Z.abs (nth j [1; 2; 3] 0) + 4 * @term_bound RM (demo_cfg md ty res) <= 2000)%Z).
  { destruct j as [|[|[|j]]]; [cbn [nth Z.abs]; lia..|]. cbn in Hj. lia. }
  apply IZR_le in L. lra.
Qed.

(** Finite converters of 8 bits, all modes but TNN_IV and TNN_V. *)
Lemma ex28 name md ty : In (name, md) mode_names -> (md = I_OFFS_W_DIFF -> s = false) -> md <> TNN_IV -> md <> TNN_V ->
  adc_ok md ty = true -> ty <> INF_ADC ->
  exists w r, run world0 [SetConfig (Parsed (@demo_doc RM md name (adc_name ty) 8)); CpyMtrx demo_mat 3 4; demo_mvm md] =
    Ok (w, [RUnit; RCode 0; RRes 0 r]) /\ within (@accuracy nz s (demo_cfg md ty 8)) r [1; 2; 3]%Z demo_mat (demo_vec md) 3 4.
Proof.
  intros H1 Hs H4 H5 H2 Ht. assert (H3 : In 8%Z [8; 12]%Z) by (cbn; auto).
  destruct (demo_start name md ty 8 H1 H2 H3) as (w & x & R0 & Hr & Hx & Hc & Hp).
  destruct (demo_facts md ty 8 x Hp refl_le) as (F1 & F2 & F3 & F4 & F5 & F6 & F7 & F10).
  pose proof (demo_room md ty 8 Ht H3) as HR. pose proof (@demo_entries RM md ty 8) as HE. pose proof (@demo_inputs RM md ty 8) as HI.
  destruct (@never_clips nz s w x demo_mat 3%Z 4%Z Hr Hx) as (w1 & E1 & HM); rewrite ?Hc; auto.
  - destruct ty; [congruence|cbn; lia..].
  - destruct ty; [congruence|cbn; lia..].
  - rewrite demo_hrs, demo_lrs. lra.
  - pose proof (cpy_cfg _ _ _ _ _ _ E1) as C1.
    destruct (HM [] w1 [] [1;2;3]%Z (demo_vec md) [] "layer"%string) as (w2 & r & E2 & W); auto.
    { apply always_nil. rewrite C1, Hc. exact F2. }
    1-3: rewrite C1, Hc; assumption.
    rewrite C1, Hc in W. exists w2, r. split; [|exact W].
    cbn [run] in R0 |- *. destruct (step world0 _) as [[w0 r0]| | |]; try discriminate R0. cbn [bind] in R0 |- *.
    inversion R0; subst. rewrite E1. cbn [bind]. unfold demo_mvm. rewrite E2. reflexivity.
Qed.

(** 12 bits are enough. *)
Lemma ex64 name md ty : In (name, md) mode_names -> (md = I_OFFS_W_DIFF -> s = false) ->
  ~ In md [I_UINT_W_OFFS; BNN_III; BNN_IV; TNN_IV; TNN_V] -> adc_ok md ty = true -> ty <> INF_ADC ->
  exists w, run world0 [SetConfig (Parsed (@demo_doc RM md name (adc_name ty) 12)); CpyMtrx demo_mat 3 4; demo_mvm md; demo_mvm md] =
    Ok (w, [RUnit; RCode 0; RRes 0 (demo_sum md); RRes 0 (demo_sum md)]).
Proof.
  intros H1 Hs H4 H2 Ht. assert (H3 : In 12%Z [8; 12]%Z) by (cbn; auto).
  apply (demo_twice name md ty 12 H1 H2 H3).
  intros w x Hr Hx HI Hp Hc.
  destruct (demo_facts md ty 12 x Hp refl_le) as (F1 & F2 & F3 & F4 & F5 & F6 & F7 & F10).
  pose proof (@demo_entries RM md ty 12) as HE.
  destruct (@fine_exact nz s w x demo_mat 3%Z 4%Z Hr Hx) as (w1 & E1 & HM); rewrite ?Hc; auto.
  - destruct ty; [congruence|cbn; lia..].
  - destruct ty; [congruence|cbn; lia..].
  - rewrite demo_hrs, demo_lrs. lra.
  - exists w1. split; [exact E1|]. intros h w2 rs res vec mat' l A1 A2 A3 A4 A5 A6 A7. eapply HM; eauto.
    rewrite A4, ?Hc. destruct (demo_half md ty 12 Ht H3) as [Hh Hh2]. specialize (Hh2 eq_refl).
    destruct (@demo_gains RM md ty 12) as [G1 _]. apply Forall_forall. intros g Hg.
    apply (proj1 (forallb_forall _ _) G1) in Hg. assert (P : (0 <= g <= 128)%Z) by lia. destruct P as [P1 P2].
    apply IZR_le in P1, P2. assert (IZR g * @half_step nz s (demo_cfg md ty 12) <= 128 * / 500).
    { apply Rmult_le_compat; lra. }
    lra.
Qed.
End E.
