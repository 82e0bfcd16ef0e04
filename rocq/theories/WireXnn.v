(** Analog MVMs of the binary and ternary modes with the solver, against the same MVMs without it. *)
From Coq Require Import String List ZArith Reals Bool Arith Lia Lra ZifyBool ZifyNat.
From RecordUpdate Require Import RecordSet.
From Verif Require Import Base Lib Hoare Machine Json Config Histogram Adc ReadDisturb Parasitics
  Mapper IntMappers BnnMappers TnnMappers Crossbar Api RMachine ParSpec ParCode Shape MvmShape
  Spec DigMvm DigModes DigApi StepFacts AnaReal AnaXnn AnaInt ParProps AnaSpec WireSpec Wire Follow.
Import ListNotations RecordSetNotations.
Local Open Scope R_scope.
Local Open Scope out_scope.
Ltac Zify.zify_post_hook ::= idtac.

Section RR.
Context (nz : bool -> nat -> R) (s : bool).
#[local] Hint Extern 0 Machine => exact (R_machine nz s) : typeclass_instances.
Notation RM := (R_machine nz s).

Section M.
Context (c : @config RM) (mp : @mapper RM) (res vec mat : list Z) (m n : nat) (l : string) (e e' : @env RM)
  (D C : R) (fp : list (@F RM)).
(** The same run without wire resistance. *)
Notation c' := (c <| parasitics := false |>).
Notation mB := (mp <| par := None |> <| tmp_fp := fp |>).
Notation MM := (Z.to_nat (M c)).
Notation hrs := (@HRS RM c).
Notation lrs := (@LRS RM c).
Notation dl := (lrs - hrs).
Notation ip r j := (at2 0 (@ia_p RM mp) r j).
Notation im r j := (at2 0 (@ia_m RM mp) r j).
Notation vv j := (nth j vec 0%Z).
Notation nR := (IZR (Z.of_nat n * term_bound c)).

Context (Hw : cfg_wf c) (Hs : shape c mp) (Hm : (m <= MM)%nat) (Hn : (n <= colsN c)%nat)
  (Hres : (m <= len res)%nat) (Hvec : (n <= len vec)%nat)
  (Hpar : parasitics c = true) (Hprof : adc_profile c = false) (Hinf : a_ty (mp_adc mp) = INF_ADC)
  (Himm : @i_mm RM mp = Some dl) (Hdl : 0 < dl) (Hhrs : 0 <= hrs) (HD : 0 <= D) (HC : INR n * hrs <= C)
  (Hv : forall j, (j < n)%nat -> vok c (vv j))
  (HS : near_solver nz s c mp m n D C)
  (Hsw : forall i, (i < m)%nat -> Rabs (IZR (kap c * nth i (sum_w mp) 0)%Z) <= nR)
  (HN : (Z.of_nat n * term_bound c <= int_max)%Z) (Hfp : (rows_of c m <= len fp)%nat)
  (HR : forall i, (i < m)%nat -> Rabs (IZR (nth i res 0%Z)) + nR + sum_gains c * (4 * C / dl) <= IZR int_max).

(** Both runs succeed and the results are close. *)
Definition wgoal : Prop :=
  fol (fun p q => snd p = e /\ cl (INR (cuts c) + sum_gains c * (D / dl))
         (fun i => Rabs (IZR (nth i res 0%Z)) + nR + sum_gains c * (4 * C / dl)) m (fst (fst p)) (fst (fst q)))
    (@a_mvm RM c mp res vec mat m n l e) (@a_mvm RM c' mB res vec mat m n l e').

Lemma adcA x sc off : @adc1 RM c (mp_adc mp) l x sc off = Ok ((x + off) * sc).
Proof. unfold adc1. now rewrite Hinf. Qed.
Lemma adcB x sc off : @adc1 RM c' (mp_adc mp) l x sc off = Ok ((x + off) * sc).
Proof. unfold adc1. now rewrite Hinf. Qed.
Lemma immA k : @inv_imm RM mp k = Ok (IZR k / dl).
Proof. unfold inv_imm. now rewrite Himm. Qed.
Lemma immB k : @inv_imm RM mB k = Ok (IZR k / dl).
Proof. unfold inv_imm. change (@i_mm RM mB) with (@i_mm RM mp). now rewrite Himm. Qed.
Lemma C_pos : 0 <= C.
Proof. pose proof (pos_INR n). nra. Qed.
Lemma K_pos : 0 <= C / dl.
Proof. pose proof C_pos. apply Rmult_le_pos; [assumption|]. left. now apply Rinv_0_lt_compat. Qed.
Lemma sc_abs k : (0 <= k)%Z -> Rabs (IZR k / dl) = IZR k / dl.
Proof.
  intros Hk. apply Rabs_pos_eq. apply Rmult_le_pos; [now apply (IZR_le 0)|]. left. now apply Rinv_0_lt_compat.
Qed.

(** One use of the solver. *)
Lemma cur_fol (term term' : nat -> nat -> out R) (tv : nat -> nat -> R) vp vm (t0 tA : list R) :
  outputs c m = m -> (m <= len t0)%nat -> len vp = colsN c -> bits01 vp n ->
  (two_rows (m_mode c) = true -> len vm = colsN c /\ bits01 vm n /\ forall j, (j < n)%nat -> (nth j vp 0 + nth j vm 0 <= 1)%Z) ->
  (forall i j, (i < m)%nat -> (j < n)%nat -> term' i j = Ok (tv i j)) ->
  (forall i, (i < m)%nat -> sumR n (tv i) =
     ideal_out (m_mode c) (current (@ia_p RM mp)) (current (@ia_m RM mp)) vp vm n i) ->
  fol (near m D C) (@currents RM c mp term vp vm m n tA)
    (@currents RM c' mB term' vp vm m n (@fill (@F RM) t0 (@f0 RM))).
Proof.
  intros Ho Lt Lp Bp H2 Ht Hsum. unfold currents. rewrite Hpar. change (parasitics c') with false. cbn iota.
  destruct (HS vp vm Lp (fun H => proj1 (H2 H)) Bp (fun H => proj2 (H2 H))) as (t & E & L & V). rewrite Ho in E, L, V. rewrite E.
  destruct (facc_fill nz s m n term' tv t0 Lt Ht) as (tb & Eb & Lb & Vb).
  change (@fill R t0 0) with (@fill (@F RM) t0 (@f0 RM)) in Eb. rewrite Eb. apply fol_ok.
  split; [exact L|]. split; [lia|]. intros i Hi. rewrite Vb, Hsum by auto. auto.
Qed.

Ltac adc off :=
  match goal with H : near m _ _ ?a ?b |- fol _ (bind (adc_vec c _ l m ?a ?sc _ ?e0) _) (bind (adc_vec _ _ l m ?b _ _ ?e1) _) =>
    apply (fol_bind (fun p q => snd p = e0 /\ near m (D * Rabs sc) ((C + Rabs off) * Rabs sc) (fst p) (fst q)));
    [apply (adc_fol nz s c c' _ _ l m D C a b sc off e0 e1 adcA Hprof adcB Hprof H)|] end.

Lemma row_lt i : is_int (m_mode c) = false -> (i < m)%nat -> (i < rowsN c)%nat.
Proof. intros Hx H. pose proof (wf_ns c Hw Hx). unfold rowsN. nia. Qed.
Lemma rail_bits (f : Z -> Z) l0 : len l0 = colsN c -> (forall j, (j < n)%nat -> f (vv j) = 0%Z \/ f (vv j) = 1%Z) ->
  bits01 (rail vec n f l0) n.
Proof. intros L H j Hj. unfold rail. rewrite nth_upto_lt by lia. auto. Qed.

Ltac plain :=
  change (vd_p mB) with (vd_p mp); change (vd_m mB) with (vd_m mp);
  change (@tmp RM mB) with (@tmp RM mp); change (@tmp_p RM mB) with (@tmp_p RM mp); change (@tmp_m RM mB) with (@tmp_m RM mp);
  change (sum_w mB) with (sum_w mp);
  change (@ia_p RM mB) with (@ia_p RM mp); change (@ia_m RM mB) with (@ia_m RM mp); change (mp_adc mB) with (mp_adc mp).
Ltac getrow := change (@F RM) with R; repeat (rewrite (get_ok _ _ 0%R) by lia; cbn [bind]).

(** One conversion with gain k and offset [off], then [res[i] += t[i] + z i]. *)
Ltac tail k off z gv fin :=
  intros a b Hab; rewrite immA, immB; cbn [bind]; adc off; intros [a2 ea] [b2 eb] [Ee Hn2]; cbn [snd fst] in Ee, Hn2; subst ea;
  pose proof K_pos as HK;
  assert (EG : sum_gains c = gv) by (unfold sum_gains, gains; match goal with H : m_mode c = _ |- _ => rewrite H end; cbn; lra);
  assert (EC : INR (cuts c) = 1) by (unfold cuts; match goal with H : m_mode c = _ |- _ => now rewrite H end);
  destruct Hn2 as (La & Lb & Hn2);
  apply (fol_bind (cl (0 + D * Rabs (k / dl) + 1)
    (fun i => Rabs (IZR (nth i res 0%Z)) + ((C + Rabs off) * Rabs (k / dl) + nR)) m));
  [ apply (add_rows nz s m _ _ (fun i => nth i a2 0 + z i) (fun i => nth i b2 0 + z i) 0
      (fun i => Rabs (IZR (nth i res 0%Z))) (D * Rabs (k / dl)) (fun i => (C + Rabs off) * Rabs (k / dl) + nR));
    [ now apply cl_start
    | intros i x Hi _; change (@F RM) with R; rewrite (get_ok a2 i 0) by lia; cbn [bind];
      try (rewrite (get_ok (sum_w mp) i 0%Z) by (rewrite (sh_sw _ _ Hs); lia)); cbn [bind]; fin
    | intros i x Hi _; change (@F RM) with R; rewrite (get_ok b2 i 0) by lia; cbn [bind];
      try (rewrite (get_ok (sum_w mp) i 0%Z) by (rewrite (sh_sw _ _ Hs); lia)); cbn [bind]; fin
    | intros i Hi; destruct (Hn2 i Hi) as (N1 & N2 & N3); assert (Hz : Rabs (z i) <= nR);
      [|split; [now replace (_ - _) with (nth i a2 0 - nth i b2 0) by ring|];
        split; [now apply abs_add_le|]; split; [now apply abs_add_le|];
        specialize (HR i Hi); rewrite ?Rabs_R0, sc_abs by lia; rewrite EG in HR] ]
  | intros x y Hc; apply fol_ok; cbn [fst snd]; split; [reflexivity|]; apply (cl_weak _ _ _ _ _ _ _ Hc);
    [ rewrite sc_abs, EG, EC by lia; unfold Rdiv in *; lra
    | intros i Hi; rewrite ?Rabs_R0, sc_abs, EG by lia ] ].

(** *** BNN_I and BNN_II *)
Lemma wire_bnn_i : m_mode c = BNN_I -> wgoal.
Proof.
  intros Hmode.
  assert (Hvb : forall j, (j < n)%nat -> bin (vv j)).
  { intros j Hj. specialize (Hv j Hj). unfold vok in Hv. now rewrite Hmode in Hv. }
  assert (Lvd : len (vd_p mp) = colsN c) by apply Hs.
  assert (Ho : outputs c m = m) by (unfold outputs; now rewrite Hmode).
  assert (Hx : is_int (m_mode c) = false) by now rewrite Hmode.
  unfold wgoal, a_mvm. change (mp_mode mB) with (mp_mode mp). rewrite (sh_mode _ _ Hs), Hmode. unfold bnn_i_a. plain.
  rewrite (load_ok vec n _ posp) by (try lia; intros j Hj; destruct (Hvb j Hj) as [-> | ->]; reflexivity).
  change (upto n _ (vd_p mp)) with (rail vec n posp (vd_p mp)). set (u := rail _ _ _ _). cbn [bind].
  assert (Lu : len u = colsN c) by (unfold u; now rewrite rail_len).
  assert (Bu : bits01 u n) by (apply rail_bits; auto; intros j Hj; destruct (Hvb j Hj) as [-> | ->]; cbn; auto).
  apply (fol_bind (near m D C)).
  { apply (cur_fol _ _ (fun i j => (ip i j - im i j) * IZR (nth j u 0%Z))); auto.
    - change (m <= len (@tmp RM mp))%nat. rewrite (sh_tmp _ _ Hs Hx). exact Hm.
    - rewrite Hmode. discriminate.
    - intros i j Hi Hj. pose proof (row_lt i Hx Hi). apply (fterm_eq nz s (rowsN c) (colsN c)); try apply Hs; lia.
    - intros i Hi. unfold ideal_out. rewrite Hmode. cbn [one_column]. rewrite <- sumR_sub. apply sumR_ext. intros j Hj. unfold tval.
      change (current (@ia_p RM mp) i j) with (ip i j). change (current (@ia_m RM mp) i j) with (im i j). ring. }
  tail 2 0 (fun i => - IZR (nth i (sum_w mp) 0%Z)) 2 ltac:(reflexivity).
  - rewrite Rabs_Ropp. specialize (Hsw i Hi). unfold kap in Hsw. now rewrite Hmode, Z.mul_1_l in Hsw.
  - unfold Rdiv in *. lra.
  - unfold Rdiv in *. lra.
Qed.
Lemma wire_bnn_ii : m_mode c = BNN_II -> wgoal.
Proof.
  intros Hmode.
  assert (Hvb : forall j, (j < n)%nat -> bin (vv j)).
  { intros j Hj. specialize (Hv j Hj). unfold vok in Hv. now rewrite Hmode in Hv. }
  assert (Lvd : len (vd_p mp) = colsN c) by apply Hs.
  assert (Ho : outputs c m = m) by (unfold outputs; now rewrite Hmode).
  assert (Hx : is_int (m_mode c) = false) by now rewrite Hmode.
  unfold wgoal, a_mvm. change (mp_mode mB) with (mp_mode mp). rewrite (sh_mode _ _ Hs), Hmode. unfold bnn_ii_a. plain.
  rewrite (load_ok vec n _ negp) by (try lia; intros j Hj; destruct (Hvb j Hj) as [-> | ->]; reflexivity).
  change (upto n _ (vd_p mp)) with (rail vec n negp (vd_p mp)). set (u := rail _ _ _ _). cbn [bind].
  assert (Lu : len u = colsN c) by (unfold u; now rewrite rail_len).
  assert (Bu : bits01 u n) by (apply rail_bits; auto; intros j Hj; destruct (Hvb j Hj) as [-> | ->]; cbn; auto).
  apply (fol_bind (near m D C)).
  { apply (cur_fol _ _ (fun i j => (im i j - ip i j) * IZR (nth j u 0%Z))); auto.
    - change (m <= len (@tmp RM mp))%nat. rewrite (sh_tmp _ _ Hs Hx). exact Hm.
    - rewrite Hmode. discriminate.
    - intros i j Hi Hj. pose proof (row_lt i Hx Hi). apply (fterm_eq nz s (rowsN c) (colsN c)); try apply Hs; lia.
    - intros i Hi. unfold ideal_out. rewrite Hmode. cbn [one_column]. rewrite <- sumR_sub. apply sumR_ext. intros j Hj. unfold tval.
      change (current (@ia_p RM mp) i j) with (ip i j). change (current (@ia_m RM mp) i j) with (im i j). ring. }
  tail 2 0 (fun i => IZR (nth i (sum_w mp) 0%Z)) 2 ltac:(reflexivity).
  - specialize (Hsw i Hi). unfold kap in Hsw. rewrite Hmode, abs_Z, Z.abs_mul in Hsw.
    rewrite abs_Z. change (Z.abs (-1)) with 1%Z in Hsw. now rewrite Z.mul_1_l in Hsw.
  - unfold Rdiv in *. lra.
  - unfold Rdiv in *. lra.
Qed.

(** *** Two rails *)
Lemma wire_bnn_v : m_mode c = BNN_V -> wgoal.
Proof.
  intros Hmode.
  assert (Hvb : forall j, (j < n)%nat -> bin (vv j)).
  { intros j Hj. specialize (Hv j Hj). unfold vok in Hv. now rewrite Hmode in Hv. }
  assert (Lvd : len (vd_p mp) = colsN c) by apply Hs.
  assert (Lvm : len (vd_m mp) = colsN c) by (apply Hs; now rewrite Hmode).
  assert (Ho : outputs c m = m) by (unfold outputs; now rewrite Hmode).
  assert (Hx : is_int (m_mode c) = false) by now rewrite Hmode.
  unfold wgoal, a_mvm. change (mp_mode mB) with (mp_mode mp). rewrite (sh_mode _ _ Hs), Hmode. unfold bnn_v_a. plain.
  rewrite two_rail_ok by (auto; lia). cbn [bind].
  change (upto n _ (vd_p mp)) with (rail vec n posp (vd_p mp)). set (up := rail vec n posp _).
  change (upto n _ (vd_m mp)) with (rail vec n negp (vd_m mp)). set (um := rail vec n negp _).
  assert (Lp : len up = colsN c) by (unfold up; now rewrite rail_len).
  assert (Lm : len um = colsN c) by (unfold um; now rewrite rail_len).
  assert (Bp : bits01 up n) by (apply rail_bits; auto; intros j Hj; destruct (Hvb j Hj) as [-> | ->]; cbn; auto).
  assert (Bm : bits01 um n) by (apply rail_bits; auto; intros j Hj; destruct (Hvb j Hj) as [-> | ->]; cbn; auto).
  assert (B1 : forall j, (j < n)%nat -> (nth j up 0 + nth j um 0 <= 1)%Z).
  { intros j Hj. unfold up, um, rail. rewrite !nth_upto_lt by lia. destruct (Hvb j Hj) as [-> | ->]; cbn; lia. }
  apply (fol_bind (near m D C)).
  { apply (cur_fol _ _ (fun i j => ip i j * IZR (nth j up 0%Z) + im i j * IZR (nth j um 0%Z))); auto.
    - change (m <= len (@tmp RM mp))%nat. rewrite (sh_tmp _ _ Hs Hx). exact Hm.
    - intros i j Hi Hj. pose proof (row_lt i Hx Hi).
      rewrite (fterm1_eq nz s (rowsN c) (colsN c)) by (try apply Hs; lia). cbn [bind].
      rewrite (fterm1_eq nz s (rowsN c) (colsN c)) by (try apply Hs; lia). reflexivity.
    - intros i Hi. unfold ideal_out. rewrite Hmode. cbn [one_column]. rewrite Rminus_0_r. reflexivity. }
  set (off := @fmul RM (@f_of_Z RM (- Z.of_nat n)) hrs).
  assert (Hoff : Rabs off <= C).
  { unfold off. change (Rabs (IZR (- Z.of_nat n) * hrs) <= C). rewrite opp_IZR, <- INR_IZR_INZ, Rabs_mult, Rabs_Ropp.
    rewrite !Rabs_pos_eq by (auto using pos_INR). exact HC. }
  assert (HnR : IZR (Z.of_nat n) <= nR).
  { apply IZR_le. unfold term_bound. rewrite Hx. lia. }
  assert (Hn0 : 0 <= IZR (Z.of_nat n)) by (apply (IZR_le 0); lia).
  tail 2 off (fun _ : nat => - IZR (Z.of_nat n)) 2 ltac:(reflexivity).
  - rewrite Rabs_Ropp, Rabs_pos_eq; auto.
  - assert (Q : (C + Rabs off) * (2 / dl) <= 2 * (4 * C / dl)).
    { unfold Rdiv in *. assert (Rabs off * / dl <= C * / dl) by (apply Rmult_le_compat_r; [left; now apply Rinv_0_lt_compat|exact Hoff]). lra. }
    lra.
  - assert (Q : (C + Rabs off) * (2 / dl) <= 2 * (4 * C / dl)).
    { unfold Rdiv in *. assert (Rabs off * / dl <= C * / dl) by (apply Rmult_le_compat_r; [left; now apply Rinv_0_lt_compat|exact Hoff]). lra. }
    lra.
Qed.

Lemma wire_quad (tern : bool) : m_mode c = (if tern then TNN_I else BNN_VI) -> wgoal.
Proof.
  intros Hmode0.
  assert (Hvb : forall j, (j < n)%nat -> (if tern then ter else bin) (vv j)).
  { intros j Hj. specialize (Hv j Hj). unfold vok in Hv. destruct tern; now rewrite Hmode0 in Hv. }
  assert (Hvt : forall j, (j < n)%nat -> ter (vv j)).
  { intros j Hj. specialize (Hvb j Hj). destruct tern; auto using bin_ter. }
  assert (Lvd : len (vd_p mp) = colsN c) by apply Hs.
  assert (Lvm : len (vd_m mp) = colsN c) by (apply Hs; destruct tern; now rewrite Hmode0).
  assert (Ho : outputs c m = m) by (unfold outputs; destruct tern; now rewrite Hmode0).
  assert (Hx : is_int (m_mode c) = false) by (destruct tern; now rewrite Hmode0).
  assert (EA : forall (c0 : @config RM) mp0 e0, mp_mode mp0 = mp_mode mp ->
    @a_mvm RM c0 mp0 res vec mat m n l e0 = @quad_a RM tern c0 mp0 res vec mat m n l e0).
  { intros c0 mp0 e0 E0. unfold a_mvm. rewrite E0, (sh_mode _ _ Hs), Hmode0. destruct tern; reflexivity. }
  unfold wgoal. rewrite !EA by reflexivity. unfold quad_a. plain.
  rewrite two_rail_ok by (auto; lia). cbn [bind].
  change (upto n _ (vd_p mp)) with (rail vec n posp (vd_p mp)). set (up := rail vec n posp _).
  change (upto n _ (vd_m mp)) with (rail vec n negp (vd_m mp)). set (um := rail vec n negp _).
  assert (Lp : len up = colsN c) by (unfold up; now rewrite rail_len).
  assert (Lm : len um = colsN c) by (unfold um; now rewrite rail_len).
  assert (Bp : bits01 up n) by (apply rail_bits; auto; intros j Hj; destruct (Hvt j Hj) as [-> | [-> | ->]]; cbn; auto).
  assert (Bm : bits01 um n) by (apply rail_bits; auto; intros j Hj; destruct (Hvt j Hj) as [-> | [-> | ->]]; cbn; auto).
  assert (B1 : forall j, (j < n)%nat -> (nth j up 0 + nth j um 0 <= 1)%Z).
  { intros j Hj. unfold up, um, rail. rewrite !nth_upto_lt by lia. destruct (Hvt j Hj) as [-> | [-> | ->]]; cbn; lia. }
  apply (fol_bind (near m D C)).
  { apply (cur_fol _ _ (fun i j => ip i j * IZR (nth j up 0%Z) + im i j * IZR (nth j um 0%Z) - im i j * IZR (nth j up 0%Z) - ip i j * IZR (nth j um 0%Z))); auto.
    - change (m <= len (@tmp RM mp))%nat. rewrite (sh_tmp _ _ Hs Hx). exact Hm.
    - intros i j Hi Hj. pose proof (row_lt i Hx Hi). unfold fquad.
      rewrite (fterm1_eq nz s (rowsN c) (colsN c)) by (try apply Hs; lia). cbn [bind].
      rewrite (fterm1_eq nz s (rowsN c) (colsN c)) by (try apply Hs; lia). cbn [bind].
      rewrite (fterm1_eq nz s (rowsN c) (colsN c)) by (try apply Hs; lia). cbn [bind].
      rewrite (fterm1_eq nz s (rowsN c) (colsN c)) by (try apply Hs; lia). reflexivity.
    - intros i Hi. unfold ideal_out. replace (one_column (m_mode c)) with false by (destruct tern; now rewrite Hmode0).
      rewrite <- sumR_sub. apply sumR_ext. intros j Hj. unfold tval.
      change (current (@ia_p RM mp) i j) with (ip i j). change (current (@ia_m RM mp) i j) with (im i j).
      destruct tern; rewrite Hmode0; ring. }
  assert (Hn0 : 0 <= nR).
  { apply (IZR_le 0). unfold term_bound. rewrite Hx. lia. }
  destruct tern; (assert (Hmode := Hmode0)); 
  tail 1 0 (fun _ : nat => 0) 1 ltac:(rewrite Rplus_0_r; reflexivity).
  all: try (rewrite Rabs_R0; exact Hn0).
  all: unfold Rdiv in *; lra.
Qed.

Lemma gain_le off k r : 0 <= k -> Rabs off <= r * C -> (C + Rabs off) * (k / dl) <= k * ((1 + r) * (C / dl)).
Proof.
  intros Hk Ho. unfold Rdiv. assert (0 < / dl) by now apply Rinv_0_lt_compat.
  replace (k * ((1 + r) * (C * / dl))) with ((C + r * C) * (k * / dl)) by ring.
  apply Rmult_le_compat_r; [apply Rmult_le_pos; lra|lra].
Qed.

Lemma wire_bnn_iii_iv (inv : bool) : m_mode c = (if inv then BNN_IV else BNN_III) -> wgoal.
Proof.
  intros Hmode.
  assert (Hvb : forall j, (j < n)%nat -> bin (vv j)).
  { intros j Hj. specialize (Hv j Hj). unfold vok in Hv. destruct inv; now rewrite Hmode in Hv. }
  assert (Lvd : len (vd_p mp) = colsN c) by apply Hs.
  assert (Lvm : len (vd_m mp) = colsN c) by (apply Hs; destruct inv; now rewrite Hmode).
  destruct (sh_tpm _ _ Hs) as (Ltp & Ltm); [destruct inv; auto|].
  assert (Ho : outputs c m = m) by (unfold outputs; destruct inv; now rewrite Hmode).
  assert (Hx : is_int (m_mode c) = false) by (destruct inv; now rewrite Hmode).
  assert (H2r : two_rows (m_mode c) = false) by (destruct inv; now rewrite Hmode).
  assert (EA : forall (c0 : @config RM) mp0 e0, mp_mode mp0 = mp_mode mp ->
    @a_mvm RM c0 mp0 res vec mat m n l e0 = @bnn_iii_iv_a RM inv c0 mp0 res vec mat m n l e0).
  { intros c0 mp0 e0 E0. unfold a_mvm. rewrite E0, (sh_mode _ _ Hs), Hmode. destruct inv; reflexivity. }
  assert (HN3 : (Z.of_nat n * 3 <= int_max)%Z) by (unfold term_bound in HN; now rewrite Hx in HN).
  unfold wgoal. rewrite !EA by reflexivity. unfold bnn_iii_iv_a. plain. change (@HRS RM c') with hrs.
  rewrite two_rail_sum_ok by (auto; unfold int_max in *; lia). cbn [bind].
  change (upto n _ (vd_p mp)) with (rail vec n posp (vd_p mp)). set (up := rail vec n posp _).
  change (upto n _ (vd_m mp)) with (rail vec n negp (vd_m mp)). set (um := rail vec n negp _).
  assert (Lp : len up = colsN c) by (unfold up; now rewrite rail_len).
  assert (Lm : len um = colsN c) by (unfold um; now rewrite rail_len).
  assert (Bp : bits01 up n) by (apply rail_bits; auto; intros j Hj; destruct (Hvb j Hj) as [-> | ->]; cbn; auto).
  assert (Bm : bits01 um n) by (apply rail_bits; auto; intros j Hj; destruct (Hvb j Hj) as [-> | ->]; cbn; auto).
  set (sm := sumZ n (fun j => vv j)).
  assert (Hsm : (Z.abs sm <= Z.of_nat n * 1)%Z).
  { apply sumZ_bound. intros j Hj. destruct (Hvb j Hj) as [-> | ->]; lia. }
  assert (Hcur : forall u (t0 tA : list R), len u = colsN c -> bits01 u n -> (m <= len t0)%nat ->
    fol (near m D C) (@currents RM c mp (@fterm1 RM (@ia_p RM mp) u) u [] m n tA)
      (@currents RM c' mB (@fterm1 RM (@ia_p RM mp) u) u [] m n (@fill (@F RM) t0 (@f0 RM)))).
  { intros u t0 tA Lu Bu Lt. apply (cur_fol _ _ (fun i j => ip i j * IZR (nth j u 0%Z))); auto.
    - rewrite H2r. discriminate.
    - intros i j Hi Hj. pose proof (row_lt i Hx Hi). apply (fterm1_eq nz s (rowsN c) (colsN c)); try apply Hs; lia.
    - intros i Hi. unfold ideal_out. replace (one_column (m_mode c)) with true by (destruct inv; now rewrite Hmode).
      rewrite Rminus_0_r. apply sumR_ext. intros j Hj. unfold tval. destruct inv; rewrite Hmode; reflexivity. }
  apply (fol_bind (near m D C)).
  { apply Hcur; auto. change (m <= len (@tmp_p RM mp))%nat. rewrite Ltp. exact Hm. }
  intros a b Hab. apply (fol_bind (near m D C)).
  { apply Hcur; auto. change (m <= len (@tmp_m RM mp))%nat. rewrite Ltm. exact Hm. }
  intros a' b' Hab'. rewrite immA, immB. cbn [bind]. rewrite neg32_ok by (unfold int_min, int_max in *; lia). cbn [bind].
  set (off := @fmul RM (@f_of_Z RM (- sm)) hrs).
  assert (Hoff : Rabs off <= 1 * C).
  { unfold off. change (Rabs (IZR (- sm) * hrs) <= 1 * C). rewrite opp_IZR, Rabs_mult, Rabs_Ropp, abs_Z, (Rabs_pos_eq hrs) by exact Hhrs.
    rewrite Rmult_1_l. eapply Rle_trans; [|exact HC]. apply Rmult_le_compat_r; [exact Hhrs|]. rewrite INR_IZR_INZ. apply IZR_le. lia. }
  adc off. intros [a2 ea] [b2 eb] [Ee Hn2]. cbn [snd fst] in Ee, Hn2. subst ea.
  adc 0. intros [a3 ea] [b3 eb3] [Ee Hn3]. cbn [snd fst] in Ee, Hn3. subst ea.
  pose proof K_pos as HK.
  assert (EG : sum_gains c = 4) by (unfold sum_gains, gains; destruct inv; rewrite Hmode; cbn; lra).
  assert (EC : INR (cuts c) = 1) by (unfold cuts; destruct inv; now rewrite Hmode).
  rewrite (sc_abs 2) in Hn2, Hn3 by lia. rewrite Rabs_R0 in Hn3.
  destruct Hn2 as (La & Lb & Hn2). destruct Hn3 as (La3 & Lb3 & Hn3).
  pose proof (gain_le off 2 1 ltac:(lra) Hoff) as G1.
  assert (HsR : Rabs (IZR sm) <= nR).
  { rewrite abs_Z. apply IZR_le. unfold term_bound. rewrite Hx. lia. }
  set (bb := (C + Rabs off) * (2 / dl) + (C + 0) * (2 / dl) + nR).
  assert (HB : forall i, (i < m)%nat -> Rabs (IZR (nth i res 0%Z)) + bb <= Rabs (IZR (nth i res 0%Z)) + nR + 4 * (4 * C / dl)).
  { intros i Hi. unfold bb. unfold Rdiv in *. lra. }
  apply (fol_bind (cl (0 + (D * (2 / dl) + D * (2 / dl)) + 1) (fun i => Rabs (IZR (nth i res 0%Z)) + bb) m)).
  { set (w := fun (x y : list R) i => if inv then nth i y 0 - nth i x 0 + IZR sm else nth i x 0 - nth i y 0 - IZR sm).
    apply (add_rows nz s m _ _ (w a2 a3) (w b2 b3) 0 (fun i => Rabs (IZR (nth i res 0%Z))) (D * (2 / dl) + D * (2 / dl)) (fun _ => bb)).
    - now apply cl_start.
    - intros i x Hi _. change (@F RM) with R. rewrite (get_ok a2 i 0) by lia. cbn [bind]. rewrite (get_ok a3 i 0) by lia. cbn [bind].
      unfold w. destruct inv; reflexivity.
    - intros i x Hi _. change (@F RM) with R. rewrite (get_ok b2 i 0) by lia. cbn [bind]. rewrite (get_ok b3 i 0) by lia. cbn [bind].
      unfold w. destruct inv; reflexivity.
    - intros i Hi. destruct (Hn2 i Hi) as (N1 & N2 & N3). destruct (Hn3 i Hi) as (M1 & M2 & M3).
      assert (Hbw : forall x y, Rabs (nth i x 0) <= (C + Rabs off) * (2 / dl) -> Rabs (nth i y 0) <= (C + 0) * (2 / dl) -> Rabs (w x y i) <= bb).
      { intros x y X1 X2. unfold w, bb. destruct inv; [|apply abs_sub_le; [now apply abs_sub_le|exact HsR]].
        apply abs_add_le; [|exact HsR]. rewrite (Rplus_comm (_ * _)). now apply abs_sub_le. }
      split; [|split; [now apply Hbw|split; [now apply Hbw|]]].
      + unfold w. destruct inv.
        * replace (_ - _) with ((nth i a3 0 - nth i b3 0) - (nth i a2 0 - nth i b2 0)) by ring. now apply abs_sub_le.
        * replace (_ - _) with ((nth i a2 0 - nth i b2 0) - (nth i a3 0 - nth i b3 0)) by ring. now apply abs_sub_le.
      + specialize (HB i Hi). specialize (HR i Hi). rewrite EG in HR. lra. }
  intros x y Hc. apply fol_ok. cbn [fst snd]. split; [reflexivity|]. apply (cl_weak _ _ _ _ _ _ _ Hc).
  - rewrite EG, EC. unfold Rdiv in *. lra.
  - intros i Hi. rewrite EG. now apply HB.
Qed.

(** *** TNN_II and TNN_III *)
Lemma slice_fol (k : Z) (sub : bool) u (tA tB : list R) a b e0 B (eb0 : @env RM) : (0 <= k)%Z -> m_mode c = TNN_II \/ m_mode c = TNN_III ->
  len u = colsN c -> bits01 u n -> (m <= len tB)%nat -> cl e0 B m a b ->
  (forall i, (i < m)%nat -> B i + C * (IZR k / dl) <= IZR int_max) ->
  fol (fun p q => snd p = e /\ (m <= len (snd (fst q)))%nat /\
        cl (e0 + D * (IZR k / dl) + 1) (fun i => B i + C * (IZR k / dl)) m (fst (fst p)) (fst (fst q)))
    (@tnn_slice RM c mp u m n l k sub tA a e) (@tnn_slice RM c' mB u m n l k sub tB b eb0).
Proof.
  intros Hk Hmode Lu Bu Lt Hc HB. unfold tnn_slice. plain.
  assert (Ho : outputs c m = m) by (unfold outputs; destruct Hmode as [H | H]; now rewrite H).
  assert (Hx : is_int (m_mode c) = false) by (destruct Hmode as [H | H]; now rewrite H).
  assert (H2r : two_rows (m_mode c) = false) by (destruct Hmode as [H | H]; now rewrite H).
  apply (fol_bind (near m D C)).
  { apply (cur_fol _ _ (fun i j => (ip i j - im i j) * IZR (nth j u 0%Z))); auto.
    - rewrite H2r. discriminate.
    - intros i j Hi Hj. pose proof (row_lt i Hx Hi). apply (fterm_eq nz s (rowsN c) (colsN c)); try apply Hs; lia.
    - intros i Hi. unfold ideal_out. replace (one_column (m_mode c)) with false by (destruct Hmode as [H | H]; now rewrite H).
      rewrite <- sumR_sub. apply sumR_ext. intros j Hj. unfold tval.
      change (current (@ia_p RM mp) i j) with (ip i j). change (current (@ia_m RM mp) i j) with (im i j).
      destruct Hmode as [H | H]; rewrite H; ring. }
  intros x y Hxy. rewrite immA, immB. cbn [bind]. adc 0. intros [a2 ea] [b2 eb] [Ee Hn2]. cbn [snd fst] in Ee, Hn2. subst ea.
  rewrite sc_abs, Rabs_R0, Rplus_0_r in Hn2 by exact Hk. destruct Hn2 as (La & Lb & Hn2).
  apply (fol_bind (cl (e0 + D * (IZR k / dl) + 1) (fun i => B i + C * (IZR k / dl)) m)).
  { apply (add_rows nz s m _ _ (fun i => if sub then - nth i a2 0 else nth i a2 0) (fun i => if sub then - nth i b2 0 else nth i b2 0) e0 B
      (D * (IZR k / dl)) (fun _ => C * (IZR k / dl)) a b Hc).
    - intros i z Hi _. change (@F RM) with R. rewrite (get_ok a2 i 0) by lia. cbn [bind]. destruct sub; reflexivity.
    - intros i z Hi _. change (@F RM) with R. rewrite (get_ok b2 i 0) by lia. cbn [bind]. destruct sub; reflexivity.
    - intros i Hi. destruct (Hn2 i Hi) as (N1 & N2 & N3). specialize (HB i Hi). destruct sub; [|auto].
      rewrite !Rabs_Ropp. replace (- nth i a2 0 - - nth i b2 0) with (- (nth i a2 0 - nth i b2 0)) by ring. rewrite Rabs_Ropp. auto. }
  intros a1 b1 Hc1. apply fol_ok. cbn [fst snd]. auto.
Qed.
Lemma tmp_ok : is_int (m_mode c) = false -> (m <= len (@tmp RM mp))%nat.
Proof. intros Hx. rewrite (sh_tmp _ _ Hs Hx). exact Hm. Qed.

Lemma wire_tnn_ii : m_mode c = TNN_II -> wgoal.
Proof.
  intros Hmode.
  assert (Hvb : forall j, (j < n)%nat -> ter (vv j)).
  { intros j Hj. specialize (Hv j Hj). unfold vok in Hv. now rewrite Hmode in Hv. }
  assert (Lvd : len (vd_p mp) = colsN c) by apply Hs.
  assert (Hx : is_int (m_mode c) = false) by now rewrite Hmode.
  unfold wgoal, a_mvm. change (mp_mode mB) with (mp_mode mp). rewrite (sh_mode _ _ Hs), Hmode. unfold tnn_ii_a. plain.
  rewrite (load_ok vec n bit0_ii (fun v => if v =? 0 then 0 else 1)%Z) by (auto; lia). cbn [bind].
  change (upto n _ (vd_p mp)) with (rail vec n (fun v => if v =? 0 then 0 else 1)%Z (vd_p mp)). set (u := rail _ _ _ _).
  assert (Lu : len u = colsN c) by (unfold u; now rewrite rail_len).
  assert (Bu : bits01 u n) by (apply rail_bits; auto; intros j Hj; destruct (_ =? _)%Z; auto).
  pose proof K_pos as HK.
  assert (EG : sum_gains c = 3) by (unfold sum_gains, gains; rewrite Hmode; cbn; lra).
  assert (EC : INR (cuts c) = 2) by (unfold cuts; rewrite Hmode; cbn; lra).
  assert (Hn0 : 0 <= nR) by (apply (IZR_le 0); unfold term_bound; rewrite Hx; lia).
  assert (HR' : forall i, (i < m)%nat -> Rabs (IZR (nth i res 0%Z)) + nR + 12 * (C / dl) <= IZR int_max).
  { intros i Hi. specialize (HR i Hi). rewrite EG in HR. unfold Rdiv in *. lra. }
  eapply fol_bind.
  { apply (slice_fol 1 false u (@tmp RM mp) (@tmp RM mp) res res 0 (fun i => Rabs (IZR (nth i res 0%Z)))); auto; [lia|now apply tmp_ok|now apply cl_start|].
    intros i Hi. specialize (HR' i Hi). unfold Rdiv in *. lra. }
  intros [[r1 t1] e1] [[r2 t2] e2] (Ee & Lt2 & Hc1). cbn [fst snd] in Ee, Lt2, Hc1. subst e1.
  rewrite (load_ok vec n bit1_ii (fun v => if v =? -1 then 1 else 0)%Z) by (auto; lia). cbn [bind].
  change (upto n _ u) with (rail vec n (fun v => if v =? -1 then 1 else 0)%Z u). set (w := rail _ _ _ u).
  assert (Lw : len w = colsN c) by (unfold w; now rewrite rail_len).
  assert (Bw : bits01 w n) by (apply rail_bits; auto; intros j Hj; destruct (_ =? _)%Z; auto).
  eapply fol_bind.
  { apply (slice_fol 2 true w t1 t2 r1 r2 _ _ e2 ltac:(lia) (or_introl Hmode) Lw Bw Lt2 Hc1).
    intros i Hi. specialize (HR' i Hi). unfold Rdiv in *. lra. }
  intros [[r3 t3] e3] [[r4 t4] e4] (Ee & Lt4 & Hc2). cbn [fst snd] in Ee, Lt4, Hc2. subst e3.
  apply fol_ok. cbn [fst snd]. split; [reflexivity|]. apply (cl_weak _ _ _ _ _ _ _ Hc2).
  - rewrite EG, EC. unfold Rdiv in *. lra.
  - intros i Hi. rewrite EG. unfold Rdiv in *. lra.
Qed.

Lemma wire_tnn_iii : m_mode c = TNN_III -> wgoal.
Proof.
  intros Hmode.
  assert (Hvb : forall j, (j < n)%nat -> ter (vv j)).
  { intros j Hj. specialize (Hv j Hj). unfold vok in Hv. now rewrite Hmode in Hv. }
  assert (Lvd : len (vd_p mp) = colsN c) by apply Hs.
  assert (Hx : is_int (m_mode c) = false) by now rewrite Hmode.
  unfold wgoal, a_mvm. change (mp_mode mB) with (mp_mode mp). rewrite (sh_mode _ _ Hs), Hmode. unfold tnn_iii_a. plain.
  rewrite (load_ok vec n bit0_iii (fun v => if v =? 0 then 1 else 0)%Z)
    by (try lia; intros j Hj; destruct (Hvb j Hj) as [-> |[-> | ->]]; reflexivity). cbn [bind].
  change (upto n _ (vd_p mp)) with (rail vec n (fun v => if v =? 0 then 1 else 0)%Z (vd_p mp)). set (u := rail _ _ _ _).
  assert (Lu : len u = colsN c) by (unfold u; now rewrite rail_len).
  assert (Bu : bits01 u n) by (apply rail_bits; auto; intros j Hj; destruct (_ =? _)%Z; auto).
  pose proof K_pos as HK.
  assert (EG : sum_gains c = 3) by (unfold sum_gains, gains; rewrite Hmode; cbn; lra).
  assert (EC : INR (cuts c) = 2) by (unfold cuts; rewrite Hmode; cbn; lra).
  assert (Hn0 : 0 <= nR) by (apply (IZR_le 0); unfold term_bound; rewrite Hx; lia).
  assert (HR' : forall i, (i < m)%nat -> Rabs (IZR (nth i res 0%Z)) + nR + 12 * (C / dl) <= IZR int_max).
  { intros i Hi. specialize (HR i Hi). rewrite EG in HR. unfold Rdiv in *. lra. }
  eapply fol_bind.
  { apply (slice_fol 1 false u (@tmp RM mp) (@tmp RM mp) res res 0 (fun i => Rabs (IZR (nth i res 0%Z)))); auto; [lia|now apply tmp_ok|now apply cl_start|].
    intros i Hi. specialize (HR' i Hi). unfold Rdiv in *. lra. }
  intros [[r1 t1] e1] [[r2 t2] e2] (Ee & Lt2 & Hc1). cbn [fst snd] in Ee, Lt2, Hc1. subst e1.
  rewrite (load_ok vec n bit1_iii (fun v => if v =? 1 then 1 else 0)%Z)
    by (try lia; intros j Hj; destruct (Hvb j Hj) as [-> |[-> | ->]]; reflexivity). cbn [bind].
  change (upto n _ u) with (rail vec n (fun v => if v =? 1 then 1 else 0)%Z u). set (w := rail _ _ _ u).
  assert (Lw : len w = colsN c) by (unfold w; now rewrite rail_len).
  assert (Bw : bits01 w n) by (apply rail_bits; auto; intros j Hj; destruct (_ =? _)%Z; auto).
  eapply fol_bind.
  { apply (slice_fol 2 false w t1 t2 r1 r2 _ _ e2 ltac:(lia) (or_intror Hmode) Lw Bw Lt2 Hc1).
    intros i Hi. specialize (HR' i Hi). unfold Rdiv in *. lra. }
  intros [[r3 t3] e3] [[r4 t4] e4] (Ee & Lt4 & Hc2). cbn [fst snd] in Ee, Lt4, Hc2. subst e3.
  eapply fol_bind.
  { apply (sub_rows nz s m _ _ (fun i => nth i (sum_w mp) 0%Z) _ _ (fun _ => nR) r3 r4 Hc2).
    - intros i x Hi _. now rewrite (get_ok (sum_w mp) i 0%Z) by (rewrite (sh_sw _ _ Hs); lia).
    - intros i x Hi _. now rewrite (get_ok (sum_w mp) i 0%Z) by (rewrite (sh_sw _ _ Hs); lia).
    - intros i Hi. specialize (Hsw i Hi). unfold kap in Hsw. rewrite Hmode, Z.mul_1_l in Hsw. split; [exact Hsw|].
      specialize (HR' i Hi). unfold Rdiv in *. lra. }
  intros r5 r6 Hc3. apply fol_ok. cbn [fst snd]. split; [reflexivity|]. apply (cl_weak _ _ _ _ _ _ _ Hc3).
  - rewrite EG, EC. unfold Rdiv in *. lra.
  - intros i Hi. rewrite EG. unfold Rdiv in *. lra.
Qed.

(** *** TNN_IV and TNN_V *)
Lemma acc_eq (fp0 : list R) (f : nat -> list R -> out (list R)) (g : nat -> R) : (m <= len fp0)%nat ->
  (forall i x, (i < m)%nat -> len x = len fp0 -> f i x = Ok (upd x i (nth i x 0 + g i))) ->
  exists p : list R, forN m f fp0 = Ok p /\ len p = len fp0 /\ forall i, (i < m)%nat -> nth i p 0 = nth i fp0 0 + g i.
Proof.
  intros L Hf. rewrite (rows_eq m f (fun i x => x + g i) fp0 0 L) by (intros; now apply Hf). eexists. split; [reflexivity|].
  split; [apply upto_length|]. intros i Hi. now rewrite nth_upto_lt by lia.
Qed.

Lemma passB (second : bool) u k off (sub : bool) (t0 fp0 : list R) (eb0 : @env RM) : is_int (m_mode c) = false -> (m <= len t0)%nat -> (m <= len fp0)%nat ->
  len u = colsN c ->
  exists (t fp1 : list R), @tc_pass RM c' mB (if second then @ia_m RM mp else @ia_p RM mp) u m n l k off sub t0 fp0 eb0 = Ok (t, fp1, eb0) /\
    (m <= len t)%nat /\ len fp1 = len fp0 /\ forall i, (i < m)%nat -> nth i fp1 0 = nth i fp0 0 + (if sub then -1 else 1) *
      ((sumR n (fun j => (if second then im i j else ip i j) * IZR (nth j u 0%Z)) + off) * (IZR k / dl)).
Proof.
  intros Hx Lt Lf Lu. unfold tc_pass. plain.
  destruct (facc_fill nz s m n (@fterm1 RM (if second then @ia_m RM mp else @ia_p RM mp) u)
    (fun i j => (if second then im i j else ip i j) * IZR (nth j u 0%Z)) t0 Lt) as (t1 & E1 & L1 & V1).
  { intros i j Hi Hj. pose proof (row_lt i Hx Hi). destruct second; apply (fterm1_eq nz s (rowsN c) (colsN c)); try apply Hs; lia. }
  change (@fill R t0 0) with (@fill (@F RM) t0 (@f0 RM)) in E1. rewrite E1. cbn [bind]. rewrite immB. cbn [bind].
  destruct (adc_vec_eq nz s c' (mp_adc mp) l (fun x sc off => (x + off) * sc) m t1 (IZR k / dl) off eb0 adcB Hprof ltac:(lia)) as (t & E2 & L2 & V2).
  rewrite E2. cbn [bind].
  destruct (acc_eq fp0 (fun i (fp : list (@F RM)) => x <- @get (@F RM) t i ;; if sub then @fsubto RM fp i x else @faddto RM fp i x)
    (fun i => (if sub then -1 else 1) * nth i t 0) Lf) as (p & E3 & L3 & V3).
  { intros i x Hi La. change (@F RM) with R. rewrite (get_ok t i 0) by lia. cbn [bind].
    destruct sub; unfold fsubto, faddto; change (@F RM) with R; rewrite (get_ok x i 0) by lia; cbn [bind];
      rewrite set_ok by lia; do 2 f_equal; [change (@fsub RM) with Rminus|change (@fadd RM) with Rplus];
      match goal with |- @eq _ ?a ?b => change (@eq R a b) end; ring. }
  change (@forN (list R) m) with (@forN (list (@F RM)) m) in E3. rewrite E3. cbn [bind]. exists t, p. split; [reflexivity|]. split; [lia|]. split; [exact L3|].
  intros i Hi. rewrite V3, V2, V1 by auto. reflexivity.
Qed.

Lemma passA u off (sl sb : bool) (lsb msb fp0 : list R) : m_mode c = TNN_IV \/ m_mode c = TNN_V ->
  (m <= len lsb)%nat -> (m <= len msb)%nat -> (m <= len fp0)%nat -> len u = colsN c -> bits01 u n ->
  exists (t lsb1 msb1 fp1 : list R), @tc_pass_par RM c mp u m n l off sl sb lsb msb fp0 e = Ok (t, lsb1, msb1, fp1, e) /\
    (m <= len lsb1)%nat /\ (m <= len msb1)%nat /\ len fp1 = len fp0 /\
    forall i, (i < m)%nat -> exists x y,
      nth i fp1 0 = nth i fp0 0 + (if sl then -1 else 1) * ((x + off) * (IZR 1 / dl)) + (if sb then -1 else 1) * (y * (IZR 2 / dl)) /\
      Rabs x <= C /\ Rabs y <= C /\
      Rabs (sumR n (fun j => ip i j * IZR (nth j u 0%Z))) <= C /\ Rabs (sumR n (fun j => im i j * IZR (nth j u 0%Z))) <= C /\
      Rabs (x - sumR n (fun j => ip i j * IZR (nth j u 0%Z))) <= D /\
      Rabs (y - sumR n (fun j => im i j * IZR (nth j u 0%Z))) <= D.
Proof.
  intros Hmode L1 L2 Lf Lu Bu. unfold tc_pass_par.
  assert (Ho : outputs c m = (2 * m)%nat) by (unfold outputs; destruct Hmode as [H | H]; now rewrite H).
  assert (H2r : two_rows (m_mode c) = false) by (destruct Hmode as [H | H]; now rewrite H).
  destruct (HS u [] Lu ltac:(rewrite H2r; discriminate) Bu ltac:(rewrite H2r; discriminate)) as (t & E & L & V).
  rewrite Ho in E, L, V. rewrite E. cbn [bind].
  match goal with |- context [@forN ?T m ?b ?p] => set (pb := b); change p with (lsb, msb); change T with (list R * list R)%type end.
  assert (EP : exists lsb1 msb1 : list R, @forN (list R * list R) m pb (lsb, msb) = Ok (lsb1, msb1) /\
      (len lsb1 = len lsb /\ len msb1 = len msb) /\ forall i, (i < m)%nat -> nth i lsb1 0 = nth (2 * i) t 0 /\ nth i msb1 0 = nth (2 * i + 1) t 0).
  { destruct (forN_inv (fun k (p : list R * list R) => (len (fst p) = len lsb /\ len (snd p) = len msb) /\
      forall i, (i < k)%nat -> nth i (fst p) 0 = nth (2 * i) t 0 /\ nth i (snd p) 0 = nth (2 * i + 1) t 0) m pb (lsb, msb)) as ((p1 & p2) & E1 & H1).
    - split; [auto|]. intros i Hi. lia.
    - intros k [q1 q2] Hk ((K1 & K2) & K3). cbn [fst snd] in K1, K2, K3. unfold pb. change (@F RM) with R.
      rewrite (get_ok t (2 * k) 0) by lia. cbn [bind]. rewrite set_ok by lia. cbn [bind].
      rewrite (get_ok t (2 * k + 1) 0) by lia. cbn [bind]. rewrite set_ok by lia. cbn [bind].
      eexists. split; [reflexivity|]. cbn [fst snd]. rewrite !upd_length. split; [auto|].
      intros i Hi. rewrite !nth_upd by lia. destruct (i =? k)%nat eqn:Ei; [apply Nat.eqb_eq in Ei; now subst i|].
      apply K3. apply Nat.eqb_neq in Ei. lia.
    - exists p1, p2. split; [exact E1|exact H1]. }
  destruct EP as (lsb1 & msb1 & EP & (LP1 & LP2) & VP). rewrite EP. cbn [bind]. rewrite immA. cbn [bind].
  destruct (adc_vec_eq nz s c (mp_adc mp) l (fun x sc off => (x + off) * sc) m lsb1 (IZR 1 / dl) off e adcA Hprof ltac:(lia)) as (ls & E2 & L3 & V2).
  rewrite E2. cbn [bind]. rewrite immA. cbn [bind].
  destruct (adc_vec_eq nz s c (mp_adc mp) l (fun x sc off => (x + off) * sc) m msb1 (IZR 2 / dl) 0 e adcA Hprof ltac:(lia)) as (ms & E3 & L4 & V3).
  change (@adc_vec RM c (mp_adc mp) l m msb1 (IZR 2 / dl) 0 e) with (@adc_vec RM c (mp_adc mp) l m msb1 (IZR 2 / dl) (@f0 RM) e) in E3.
  rewrite E3. cbn [bind].
  destruct (acc_eq fp0 (fun i (fp : list (@F RM)) =>
      x <- @get (@F RM) ls i ;; fp <- (if sl then @fsubto RM fp i x else @faddto RM fp i x) ;;
      y <- @get (@F RM) ms i ;; if sb then @fsubto RM fp i y else @faddto RM fp i y)
    (fun i => (if sl then -1 else 1) * nth i ls 0 + (if sb then -1 else 1) * nth i ms 0) Lf) as (p & E4 & L5 & V4).
  { intros i x Hi La. change (@F RM) with R. rewrite (get_ok ls i 0) by lia. cbn [bind].
    assert (E5 : (if sl then @fsubto RM x i (nth i ls 0) else @faddto RM x i (nth i ls 0)) = Ok (upd x i (nth i x 0 + (if sl then -1 else 1) * nth i ls 0))).
    { destruct sl; unfold fsubto, faddto; change (@F RM) with R; rewrite (get_ok x i 0) by lia; cbn [bind];
      rewrite set_ok by lia; do 2 f_equal; [change (@fsub RM) with Rminus|change (@fadd RM) with Rplus];
      match goal with |- @eq _ ?a ?b => change (@eq R a b) end; ring. }
    change (@F RM) with R in E5. rewrite E5. cbn [bind]. rewrite (get_ok ms i 0) by lia. cbn [bind].
    destruct sb; unfold fsubto, faddto; change (@F RM) with R; rewrite (get_ok _ i 0) by (rewrite upd_length; lia); cbn [bind];
      rewrite set_ok by (rewrite upd_length; lia); rewrite upd_upd, nth_upd, Nat.eqb_refl by lia; do 2 f_equal;
      [change (@fsub RM) with Rminus|change (@fadd RM) with Rplus];
      match goal with |- @eq _ ?a ?b => change (@eq R a b) end; ring. }
  change (@forN (list R) m) with (@forN (list (@F RM)) m) in E4. rewrite E4. cbn [bind]. eexists t, ls, ms, p. split; [reflexivity|]. split; [lia|]. split; [lia|]. split; [exact L5|].
  intros i Hi. rewrite V4, V2, V3 by auto. destruct (VP i Hi) as (-> & ->).
  assert (TP : forall i, sumR n (fun j => ip i j * IZR (nth j u 0%Z)) =
     ideal_out (m_mode c) (current (@ia_p RM mp)) (current (@ia_m RM mp)) u [] n (2 * i)).
  { intros i0. unfold ideal_out. replace (one_column (m_mode c)) with true by (destruct Hmode as [H | H]; now rewrite H).
    rewrite Rminus_0_r. apply sumR_ext. intros j Hj. unfold tval. rewrite even2.
    replace (2 * i0 / 2)%nat with i0 by (rewrite Nat.mul_comm; now rewrite Nat.div_mul).
    destruct Hmode as [H | H]; rewrite H; reflexivity. }
  assert (TM : forall i, sumR n (fun j => im i j * IZR (nth j u 0%Z)) =
     ideal_out (m_mode c) (current (@ia_p RM mp)) (current (@ia_m RM mp)) u [] n (2 * i + 1)).
  { intros i0. unfold ideal_out. replace (one_column (m_mode c)) with true by (destruct Hmode as [H | H]; now rewrite H).
    rewrite Rminus_0_r. apply sumR_ext. intros j Hj. unfold tval. rewrite even21.
    replace ((2 * i0 + 1) / 2)%nat with i0 by (rewrite Nat.mul_comm, Nat.div_add_l by lia; change (1 / 2)%nat with 0%nat; lia).
    destruct Hmode as [H | H]; rewrite H; reflexivity. }
  exists (nth (2 * i) t 0), (nth (2 * i + 1) t 0). rewrite TP, TM.
  destruct (V (2 * i)%nat ltac:(lia)) as (A1 & A2 & A3). destruct (V (2 * i + 1)%nat ltac:(lia)) as (B1 & B2 & B3).
  split; [ring|]. auto 10.
Qed.

Lemma wire_tc (v : bool) : m_mode c = (if v then TNN_V else TNN_IV) -> wgoal.
Proof.
  intros Hmode.
  assert (Hvb : forall j, (j < n)%nat -> ter (vv j)).
  { intros j Hj. specialize (Hv j Hj). unfold vok in Hv. destruct v; now rewrite Hmode in Hv. }
  assert (Lvd : len (vd_p mp) = colsN c) by apply Hs.
  assert (Lvm : len (vd_m mp) = colsN c) by (apply Hs; destruct v; now rewrite Hmode).
  assert (Hx : is_int (m_mode c) = false) by (destruct v; now rewrite Hmode).
  assert (Hm2 : m_mode c = TNN_IV \/ m_mode c = TNN_V) by (destruct v; auto).
  destruct (sh_tlm _ _ Hs Hm2) as (Ll & Lms & Lfp).
  assert (EA : forall (c0 : @config RM) mp0 e0, mp_mode mp0 = mp_mode mp ->
    @a_mvm RM c0 mp0 res vec mat m n l e0 = @tnn_tc_a RM v c0 mp0 res vec mat m n l e0).
  { intros c0 mp0 e0 E0. unfold a_mvm. rewrite E0, (sh_mode _ _ Hs), Hmode. destruct v; reflexivity. }
  assert (HSP : SPLIT c = [1; 1]%Z) by (unfold cfg_wf in Hw; destruct v; now rewrite Hmode in Hw).
  assert (HN3 : (Z.of_nat n * 3 <= int_max)%Z) by (unfold term_bound in HN; now rewrite Hx in HN).
  assert (Hfp' : (m <= len fp)%nat) by (unfold rows_of in Hfp; now rewrite Hx in Hfp).
  unfold wgoal. rewrite !EA by reflexivity. unfold tnn_tc_a. plain. change (@HRS RM c') with hrs. change (SPLIT c') with (SPLIT c).
  rewrite HSP. change (split11 [1; 1]%Z) with true. cbn iota.
  rewrite (sum64_ok vec n 1); auto; [|unfold int_max in *; lia|].
  2: { intros j Hj. destruct (Hvb j Hj) as [-> |[-> | ->]]; lia. }
  cbn [bind]. rewrite two_rail_ok by (auto; lia). cbn [bind].
  change (upto n _ (vd_p mp)) with (rail vec n posp (vd_p mp)). set (up := rail vec n posp _).
  change (upto n _ (vd_m mp)) with (rail vec n negp (vd_m mp)). set (um := rail vec n negp _).
  assert (Lp : len up = colsN c) by (unfold up; now rewrite rail_len).
  assert (Lm : len um = colsN c) by (unfold um; now rewrite rail_len).
  assert (Bp : bits01 up n) by (apply rail_bits; auto; intros j Hj; destruct (Hvb j Hj) as [-> |[-> | ->]]; cbn; auto).
  assert (Bm : bits01 um n) by (apply rail_bits; auto; intros j Hj; destruct (Hvb j Hj) as [-> |[-> | ->]]; cbn; auto).
  set (isum := sumZ n (fun j => vv j)).
  assert (Hsm : (Z.abs isum <= Z.of_nat n * 1)%Z).
  { apply sumZ_bound. intros j Hj. destruct (Hvb j Hj) as [-> |[-> | ->]]; lia. }
  assert (E3i : (if v then chk64 (3 * isum) else Ok isum) = Ok (if v then 3 * isum else isum)%Z).
  { destruct v; [|reflexivity]. apply chk64_ok. unfold int_max in *. lia. }
  rewrite E3i. cbn [bind]. rewrite Hpar. change (parasitics c') with false. cbn iota. set (i3 := if v then (3 * isum)%Z else isum).
  set (offp := if v then @f0 RM else _). set (offm := if v then _ else _).
  assert (Hi : Rabs (IZR isum) * hrs <= C).
  { rewrite abs_Z. eapply Rle_trans; [|exact HC]. apply Rmult_le_compat_r; [exact Hhrs|]. rewrite INR_IZR_INZ. apply IZR_le. lia. }
  pose proof C_pos as HC0. pose proof K_pos as HK.
  assert (Hop : Rabs offp <= 1 * C).
  { unfold offp, i3. destruct v; [change (Rabs 0 <= 1 * C); rewrite Rabs_R0; lra|].
    change (Rabs (IZR isum * hrs / 2) <= 1 * C). unfold Rdiv. rewrite !Rabs_mult, (Rabs_pos_eq hrs), (Rabs_pos_eq (/ 2)) by lra. lra. }
  assert (Hom : Rabs offm <= 3 * C).
  { unfold offm, i3. destruct v.
    - change (Rabs (IZR (3 * isum) * hrs) <= 3 * C). rewrite mult_IZR, !Rabs_mult, (Rabs_pos_eq hrs), (Rabs_pos_eq 3) by lra. lra.
    - change (Rabs (- (IZR isum * hrs) / 2) <= 3 * C). unfold Rdiv. rewrite Rabs_mult, Rabs_Ropp, Rabs_mult, (Rabs_pos_eq hrs), (Rabs_pos_eq (/ 2)) by lra. lra. }
  (* with the solver *)
  assert (LF : (m <= len (@fill R (@tmp_fp RM mp) 0%R))%nat).
  { rewrite fill_length. change R with (@F RM). rewrite Lfp. exact Hm. }
  destruct (passA up offp false (negb v) (@tmp_lsb RM mp) (@tmp_msb RM mp) (@fill R (@tmp_fp RM mp) 0%R) Hm2
    ltac:(change R with (@F RM); rewrite Ll; exact Hm) ltac:(change R with (@F RM); rewrite Lms; exact Hm) LF Lp Bp)
    as (tA1 & ls1 & ms1 & fA1 & EA1 & LA1 & LA2 & LA3 & VA1).
  change (@fill R (@tmp_fp RM mp) 0%R) with (@fill (@F RM) (@tmp_fp RM mp) (@f0 RM)) in EA1. rewrite EA1. cbn [bind].
  destruct (passA um offm true v ls1 ms1 fA1 Hm2 LA1 LA2 ltac:(lia) Lm Bm) as (tA2 & ls2 & ms2 & fA & EA2 & _ & _ & LA4 & VA2).
  rewrite EA2. cbn [bind].
  (* without *)
  change (@tmp_fp RM mB) with fp.
  assert (LFB : (m <= len (@fill R fp 0%R))%nat) by (rewrite fill_length; exact Hfp').
  destruct (passB false up 1 offp false (@tmp RM mp) (@fill R fp 0%R) e' Hx (tmp_ok Hx) LFB Lp) as (t1 & p1 & E1 & T1 & L1 & V1).
  change (@fill R fp 0%R) with (@fill (@F RM) fp (@f0 RM)) in E1. cbn iota in E1. rewrite E1. cbn [bind].
  destruct (passB false um 1 offm true t1 p1 e' Hx T1 ltac:(lia) Lm) as (t2 & p2 & E2 & T2 & L2 & V2). cbn iota in E2. rewrite E2. cbn [bind].
  destruct (passB true up 2 0 (negb v) t2 p2 e' Hx T2 ltac:(lia) Lp) as (t3 & p3 & E3 & T3 & L3 & V3). cbn iota in E3.
  change (@f0 RM) with 0. rewrite E3. cbn [bind].
  destruct (passB true um 2 0 v t3 p3 e' Hx T3 ltac:(lia) Lm) as (t4 & p4 & E4 & T4 & L4 & V4). cbn iota in E4. rewrite E4. cbn [bind].
  assert (EG : sum_gains c = 6) by (unfold sum_gains, gains; destruct v; rewrite Hmode; cbn; lra).
  assert (EC : INR (cuts c) = 1) by (unfold cuts; destruct v; now rewrite Hmode).
  assert (HsR : Rabs (IZR isum) <= nR).
  { rewrite abs_Z. apply IZR_le. unfold term_bound. rewrite Hx. lia. }
  assert (Hinv : 0 < / dl) by now apply Rinv_0_lt_compat.
  assert (HF : forall i, (i < m)%nat -> Rabs (nth i fA 0 - nth i p4 0) <= 6 * (D / dl) /\ Rabs (nth i fA 0) <= 10 * (C / dl) /\ Rabs (nth i p4 0) <= 10 * (C / dl)).
  { intros i Hi0. destruct (VA2 i Hi0) as (x2 & y2 & -> & X1 & X2 & X3 & X4 & X5 & X6).
    destruct (VA1 i Hi0) as (x1 & y1 & -> & Y1 & Y2 & Y3 & Y4 & Y5 & Y6).
    rewrite V4, V3, V2, V1 by assumption. rewrite (nth_fill (@tmp_fp RM mp)) by (change R with (@F RM); rewrite Lfp; lia).
    assert (Ef : nth i (@fill R fp 0%R) 0 = 0) by exact (nth_fill fp (0%R : @F RM) i 0 (Nat.lt_le_trans _ _ _ Hi0 Hfp')). rewrite Ef. cbn iota.
    set (P1 := sumR n (fun j => ip i j * IZR (nth j up 0%Z))) in *. set (P2 := sumR n (fun j => ip i j * IZR (nth j um 0%Z))) in *.
    set (M1 := sumR n (fun j => im i j * IZR (nth j up 0%Z))) in *. set (M2 := sumR n (fun j => im i j * IZR (nth j um 0%Z))) in *.
    assert (BD : forall a b z, Rabs z <= b -> Rabs a <= 1 -> Rabs (a * z) <= b).
    { intros a b z Hz Ha. rewrite Rabs_mult. pose proof (Rabs_pos z). pose proof (Rabs_pos a). nra. }
    assert (S1 : Rabs (if v then -1 else 1) <= 1) by (destruct v; [rewrite Rabs_left|rewrite Rabs_pos_eq]; lra).
    assert (S2 : Rabs (if negb v then -1 else 1) <= 1) by (destruct v; cbn [negb]; [rewrite Rabs_pos_eq|rewrite Rabs_left]; lra).
    assert (SC : forall z b, Rabs z <= b -> Rabs (z * / dl) <= b * / dl).
    { intros z b Hz. rewrite Rabs_mult, (Rabs_pos_eq (/ dl)) by lra. apply Rmult_le_compat_r; lra. }
    assert (SV : forall xa ya xb yb, Rabs xa <= C -> Rabs ya <= C -> Rabs xb <= C -> Rabs yb <= C ->
      Rabs (((xa + offp) - (xb + offm) + (if negb v then -1 else 1) * (2 * ya) + (if v then -1 else 1) * (2 * yb)) * / dl) <= 10 * C * / dl).
    { intros xa ya xb yb A1 A2 A3 A4. apply SC.
      assert (T2' : forall z, Rabs z <= C -> Rabs (2 * z) <= 2 * C) by (intros z Hz; rewrite Rabs_mult, (Rabs_pos_eq 2) by lra; lra).
      replace (10 * C) with ((C + 1 * C) + (C + 3 * C) + 2 * C + 2 * C) by ring.
      apply abs_add_le; [apply abs_add_le; [apply abs_sub_le; now apply abs_add_le|]|]; apply BD; auto. }
    split; [|split].
    - replace (_ - _) with (((x1 - P1) - (x2 - P2) + (if negb v then -1 else 1) * (2 * (y1 - M1)) + (if v then -1 else 1) * (2 * (y2 - M2))) * / dl)
        by (unfold Rdiv; ring).
      replace (6 * (D / dl)) with ((D + D + 2 * D + 2 * D) * / dl) by (unfold Rdiv; ring).
      assert (T2' : forall z, Rabs z <= D -> Rabs (2 * z) <= 2 * D) by (intros z Hz; rewrite Rabs_mult, (Rabs_pos_eq 2) by lra; lra).
      apply SC. apply abs_add_le; [apply abs_add_le; [now apply abs_sub_le|]|]; apply BD; auto.
    - replace (0 + _ + _ + _ + _) with (((x1 + offp) - (x2 + offm) + (if negb v then -1 else 1) * (2 * y1) + (if v then -1 else 1) * (2 * y2)) * / dl)
        by (unfold Rdiv; ring). replace (10 * (C / dl)) with (10 * C * / dl) by (unfold Rdiv; ring). now apply SV.
    - replace (0 + _ + _ + _ + _) with (((P1 + offp) - (P2 + offm) + (if negb v then -1 else 1) * (2 * M1) + (if v then -1 else 1) * (2 * M2)) * / dl)
        by (unfold Rdiv; ring). replace (10 * (C / dl)) with (10 * C * / dl) by (unfold Rdiv; ring). now apply SV. }
  assert (HB : forall i, (i < m)%nat -> Rabs (IZR (nth i res 0%Z)) + 10 * (C / dl) + nR <= IZR int_max).
  { intros i Hi0. specialize (HR i Hi0). rewrite EG in HR. unfold Rdiv in *. lra. }
  apply (fol_bind (cl (0 + 6 * (D / dl) + 1) (fun i => Rabs (IZR (nth i res 0%Z)) + 10 * (C / dl) + nR) m)).
  { pose proof (cl_start res m Hres) as Hc0. apply (cl_rows m _ _ _ _ _ _ res res Hc0). intros i x y Hi0 Lx Ly K1 K2 K3.
    change (@F RM) with R. rewrite (get_ok fA i 0) by lia. rewrite (get_ok p4 i 0) by lia. cbn [bind].
    destruct (HF i Hi0) as (F1 & F2 & F3). specialize (HB i Hi0). pose proof (Rabs_pos (IZR isum)).
    eapply fol_bind; [apply (fadd_fol nz s x y i (nth i fA 0) (nth i p4 0) 0 (Rabs (IZR (nth i res 0%Z))) (6 * (D / dl)) (10 * (C / dl))); auto; try lia; lra|].
    intros x' y' (z1 & z2 & -> & -> & Z1 & Z2 & Z3). destruct v.
    - assert (SB : forall x0 z, len x0 = len res -> Rabs (IZR z) <= Rabs (IZR (nth i res 0%Z)) + 10 * (C / dl) ->
        subto64 (upd x0 i z) i isum = Ok (upd x0 i (z - isum)%Z) /\ Rabs (IZR (z - isum)%Z) <= Rabs (IZR (nth i res 0%Z)) + 10 * (C / dl) + nR).
      { intros x0 z L0 Hz. assert (Hz2 : Rabs (IZR (z - isum)%Z) <= Rabs (IZR (nth i res 0%Z)) + 10 * (C / dl) + nR) by (rewrite minus_IZR; now apply abs_sub_le).
        split; [|exact Hz2]. rewrite (subto64_ok _ _ _ 0%Z).
        - rewrite upd_upd, nth_upd, Nat.eqb_refl by lia. reflexivity.
        - rewrite upd_length. lia.
        - rewrite nth_upd, Nat.eqb_refl by lia. apply (int_room nz s). lra. }
      destruct (SB x z1 Lx Z2) as (S1 & S2). destruct (SB y z2 Ly Z3) as (S3 & S4). rewrite S1, S3. apply fol_ok.
      eexists _, _. split; [reflexivity|]. split; [reflexivity|]. split; [|auto]. rewrite !minus_IZR. now replace (_ - _) with (IZR z1 - IZR z2) by ring.
    - apply fol_ok. eexists _, _. split; [reflexivity|]. split; [reflexivity|]. split; [exact Z1|]. split; lra. }
  intros x y Hc. apply fol_ok. cbn [fst snd]. split; [reflexivity|]. apply (cl_weak _ _ _ _ _ _ _ Hc).
  - rewrite EG, EC. unfold Rdiv in *. lra.
  - intros i Hi0. rewrite EG. unfold Rdiv in *. lra.
Qed.

Lemma wire_xnn : is_int (m_mode c) = false -> wgoal.
Proof.
  intros Hx. destruct (m_mode c) eqn:E; try discriminate Hx.
  - now apply wire_bnn_i.
  - now apply wire_bnn_ii.
  - now apply (wire_bnn_iii_iv false).
  - now apply (wire_bnn_iii_iv true).
  - now apply wire_bnn_v.
  - now apply (wire_quad false).
  - now apply (wire_quad true).
  - now apply wire_tnn_ii.
  - now apply wire_tnn_iii.
  - now apply (wire_tc false).
  - now apply (wire_tc true).
Qed.
End M.
End RR.
