(** C87: histogram bins of no or too large width. *)
From Coq Require Import String List ZArith Reals Bool Arith Lia Lra ZifyBool ZifyNat.
From RecordUpdate Require Import RecordSet.
From Flocq Require Import Core BinarySingleNaN.
From Verif Require Import Base Lib Machine FloatMachine Json Config Histogram Adc ReadDisturb Parasitics
  Mapper IntMappers BnnMappers TnnMappers Crossbar Api RMachine RSpec Spec ConfigProofs Shape AnaShape Reach DigApi Invar AnaSpec
  HistSpec AdcProps HistProps HistCount HistBins ProfProps Hoare.
Import ListNotations RecordSetNotations.
Ltac Zify.zify_post_hook ::= idtac.
Local Open Scope Z_scope.
Local Open Scope out_scope.

(** ** The range of a new histogram *)
Section New.
Context {MC : Machine} (c : config) (l : string).
Notation len := List.length.
Definition ranged (o : option hist) : Prop := forall g, o = Some g ->
  h_min g = max_min_current c (adc_type c) /\ h_max g = max_max_current c (adc_type c) /\ h_bin g = f_of_Z (bin_size c).
Definition keeps_range {A} (e : env) (x : out (A * env)) : Prop :=
  forall r e', x = Ok (r, e') -> ranged (lookup l (histo e)) -> ranged (lookup l (histo e')).
Lemma profile_ranged a vs e e' : a_ty a = adc_type c -> profile c a l vs e = Ok e' ->
  ranged (lookup l (histo e)) -> ranged (lookup l (histo e')).
Proof.
  intros Ha H Q. unfold profile in H. inv_as H h Hh. inv_as H h' Hu. inversion H; subst. clear H.
  change (histo (e <| histo := _ |>)) with (hput (histo e) l h').
  rewrite <- !assoc_lookup' in *. rewrite assoc_hput, String.eqb_refl. intros g Eg. inversion Eg; subst g.
  apply hist_update_total in Hu. destruct Hu as (_ & _ & E1 & E2 & E3 & _). rewrite E1, E2, E3.
  destruct (assoc l (histo e)) as [g|] eqn:Ea.
  - inversion Hh; subst. now apply Q.
  - unfold hist_new in Hh. destruct (f_trunc _) as [z|]; [|discriminate]. destruct (_ && _); [|discriminate].
    inversion Hh; subst. cbn [h_min h_max h_bin]. rewrite Ha. auto.
Qed.
Lemma kr_bind {A B} e (x : out A) (f : A -> out (B * env)) : (forall a, keeps_range e (f a)) -> keeps_range e (bind x f).
Proof. intros H r e' E. inv_as E a Ea. exact (H a _ _ E). Qed.
Lemma kr_bind2 {A B} e (x : out (A * env)) (f : A * env -> out (B * env)) :
  keeps_range e x -> (forall r e1, keeps_range e1 (f (r, e1))) -> keeps_range e (bind x f).
Proof. intros Hx Hf r e' E Q. inv_as E q Eq. destruct q as [r1 e1]. exact (Hf _ _ _ _ E (Hx _ _ Eq Q)). Qed.
Lemma kr_ok {A} (r : A) e : keeps_range e (Ok (r, e)).
Proof. intros r' e' E. inversion E; subst. auto. Qed.
Lemma kr_vec a m arr sc o e : a_ty a = adc_type c -> keeps_range e (adc_vec c a l m arr sc o e).
Proof.
  intros Ha r e' E. unfold adc_vec in E. destruct (len arr <? m)%nat; [discriminate|].
  inv_as E e1 E1. inv_as E v E2. inversion E; subst. destruct (adc_profile c).
  - exact (profile_ranged _ _ _ _ Ha E1).
  - inversion E1; subst. auto.
Qed.
Ltac kr := repeat (cbv zeta; match goal with
  | |- keeps_range _ (adc_vec _ _ _ _ _ _ _ _) => apply kr_vec; assumption
  | |- keeps_range _ (Ok _) => apply kr_ok
  | |- keeps_range _ Died => intros ? ? K; discriminate K
  | |- keeps_range _ (if ?b then _ else _) => destruct b
  | |- keeps_range _ (bind (adc_vec _ _ _ _ _ _ _ _) _) => apply kr_bind2; [apply kr_vec; assumption|intros ? ?]
  | |- keeps_range _ (bind (tnn_slice _ _ _ _ _ _ _ _ _ _ _) _) => apply kr_bind2; [unfold tnn_slice|intros [? ?] ?]
  | |- keeps_range _ (bind (tc_pass _ _ _ _ _ _ _ _ _ _ _ _ _) _) => apply kr_bind2; [unfold tc_pass|intros [? ?] ?]
  | |- keeps_range _ (bind (tc_pass_par _ _ _ _ _ _ _ _ _ _ _ _ _) _) => apply kr_bind2; [unfold tc_pass_par|intros [[[? ?] ?] ?] ?]
  | |- keeps_range _ (tc_pass_par _ _ _ _ _ _ _ _ _ _ _ _ _) => unfold tc_pass_par
  | |- keeps_range _ (bind (if parasitics _ then _ else _) _) => apply kr_bind2; [|intros [[[? ?] ?] ?] ?]
  | |- keeps_range _ (bind (two_rail_sum _ _ _ _) _) => apply kr_bind; intros [[? ?] ?]
  | |- keeps_range _ (bind _ (fun a => let (_, _) := a in _)) => apply kr_bind; intros [? ?]
  | |- keeps_range _ (bind _ _) => apply kr_bind; intros ?
  end).
Lemma kr_mvm mp res vec mat m n e : a_ty (mp_adc mp) = adc_type c -> keeps_range e (a_mvm c mp res vec mat m n l e).
Proof.
  intros Ha. unfold a_mvm, bnn_i_a, bnn_ii_a, bnn_iii_iv_a, bnn_v_a, quad_a, tnn_ii_a, tnn_iii_a, tnn_tc_a.
  destruct (mp_mode mp); kr.
Qed.
Lemma xmvm_ranged x res vec mat m n e r x' e' : xok c x ->
  xmvm c x res vec mat m n l e = Ok (r, x', e') -> ranged (lookup l (histo e)) -> ranged (lookup l (histo e')).
Proof.
  intros Hx H. pose proof (xo_shape _ _ Hx) as Hs. unfold xmvm in H. destruct (digital_only c) eqn:Hd.
  - inv_as H q E. destruct q as [r1 mp1]. inversion H; subst. auto.
  - inv_as H q1 H1. destruct q1 as [mp1 e1]. inv_as H q2 H2. destruct q2 as [[r1 mp2] e2].
    inv_as H mp3 H3. inv_as H q4 H4. destruct q4 as [x4 e4]. inversion H; subst. clear H.
    assert (A : histo e1 = histo e /\ shape c mp1).
    { destruct (c2c_var c).
      - split; [eapply (bd_keeps (add_c2c c _ m n)); [apply bd_add_c2c|exact H1]|].
        exact (proj1 (proj1 (tri_any _ _) (add_c2c_tri anyfail harmless_any c (xm x) m n e Hs (or_introl (fun _ => I))) _ H1)).
      - inversion H1; subst. auto. }
    destruct A as [A S1].
    assert (B : histo e' = histo e2).
    { destruct (read_disturb c).
      - eapply (bd_keeps (rd_step c _ m n)); [apply bd_rd_step|exact H4].
      - inversion H4; subst. auto. }
    rewrite B, <- A. refine (kr_mvm _ _ _ _ _ _ _ _ _ _ H2).
    pose proof (sh_adc _ _ S1) as SA. unfold adc_new in SA. destruct (d_trunc _); [|discriminate]. destruct (in32 _); [|discriminate].
    destruct (adc_type c); [now inversion SA| |now inversion SA]. inv_as SA k K. now inversion SA.
Qed.
End New.

(** ** A new layer needs at least one bin *)
Lemma needs_bins {MC : Machine} (w : world) res vec mat m n l w' r :
  reach w -> digital_only (wcfg w) = false -> is_int (m_mode (wcfg w)) = false -> adc_profile (wcfg w) = true ->
  lookup l (histo (wenv w)) = None -> 1 <= m ->
  step w (ExeMvm res vec mat m n l) = Ok (w', RRes 0 r) ->
  let c := wcfg w in
  exists k, 1 <= k /\ f_trunc (fround (fdiv (fsub (max_max_current c (adc_type c)) (max_min_current c (adc_type c))) (f_of_Z (bin_size c)))) = Some k.
Proof.
  intros Hr Hd Hi Hp Hl Hm H c.
  destruct (records _ _ _ _ _ _ _ _ _ Hr H) as [HR _]. rewrite Hl, Hp, Hd in HR. fold c in HR. cbn [recorded andb negb] in HR.
  assert (Hpos : 1 <= passes (m_mode c)) by (unfold c; destruct (m_mode (wcfg w)); try discriminate Hi; cbn; lia).
  assert (HX : ranged c (lookup l (histo (wenv w')))).
  { cbn [step] in H. unfold exe_mvm in H. destruct (wx w) as [x|] eqn:Ex; [|discriminate].
    destruct (too_big (wcfg w) m n); [discriminate|]. inv_as H d D. destruct d as [m' n'].
    inv_as H q Q. destruct q as [[r1 x1] e1]. inversion H; subst. clear H.
    refine (xmvm_ranged _ l _ _ _ _ _ _ _ _ _ _ (g_x w (reach_good w Hr) x Ex) Q _). rewrite Hl. intros g G. discriminate G. }
  destruct (lookup l (histo (wenv w'))) as [g|] eqn:Eg; [|cbn [recorded] in HR; nia].
  destruct (HX g eq_refl) as (E1 & E2 & E3). cbn [recorded] in HR.
  assert (Hr' : reach w') by (eapply reach_step; eauto; discriminate).
  pose proof (reach_sized w' l g Hr' (lookup_in _ _ _ Eg)) as HS. unfold sized in HS. rewrite E1, E2, E3 in HS.
  exists (Z.of_nat (List.length (h_data g))). split; [|exact HS].
  destruct (h_data g) as [|z t]; [cbn in HR; nia|]. cbn [List.length]. lia.
Qed.

(** ** Width zero *)
Lemma div_zero powf pow expf nz strict (x : @F (F_machine powf pow expf nz strict)) :
  @f_trunc (F_machine powf pow expf nz strict) (fround (fdiv x (f_of_Z 0))) = None.
Proof.
  cbn [f_trunc fround fdiv f_of_Z F_machine].
  replace (norm32 0 0 false) with (@B754_zero 24 128 false) by reflexivity.
  destruct x; reflexivity.
Qed.
Lemma zero_bins powf pow expf nz strict (w : @world (F_machine powf pow expf nz strict)) res vec mat m n l w' r :
  reach w -> digital_only (wcfg w) = false -> is_int (m_mode (wcfg w)) = false -> adc_profile (wcfg w) = true ->
  bin_size (wcfg w) = 0 -> lookup l (histo (wenv w)) = None -> 1 <= m ->
  step w (ExeMvm res vec mat m n l) <> Ok (w', RRes 0 r).
Proof.
  intros Hr Hd Hi Hp Hb Hl Hm H. destruct (needs_bins _ _ _ _ _ _ _ _ _ Hr Hd Hi Hp Hl Hm H) as (k & _ & K).
  rewrite Hb in K. rewrite div_zero in K. discriminate K.
Qed.

(** ** Negative and large widths in exact arithmetic *)
Section R.
Context (nz : bool -> nat -> R) (s : bool).
#[local] Hint Extern 0 Machine => exact (R_machine nz s) : typeclass_instances.
Notation RM := (R_machine nz s).
Local Open Scope R_scope.
Lemma bad_bins (w : @world RM) res vec mat m n l w' r :
  reach w -> digital_only (wcfg w) = false -> is_int (m_mode (wcfg w)) = false -> adc_profile (wcfg w) = true ->
  adc_type (wcfg w) <> INF_ADC -> 0 <= span (wcfg w) ->
  (bin_size (wcfg w) < 0)%Z \/ 2 * span (wcfg w) < IZR (bin_size (wcfg w)) ->
  lookup l (histo (wenv w)) = None -> (1 <= m)%Z ->
  step w (ExeMvm res vec mat m n l) <> Ok (w', RRes 0 r).
Proof.
  intros Hr Hd Hi Hp Ha HL Hb Hl Hm H. destruct (needs_bins _ _ _ _ _ _ _ _ _ Hr Hd Hi Hp Hl Hm H) as (k & K1 & K).
  cbn [f_trunc fround fdiv fsub f_of_Z R_machine] in K. rewrite Ztrunc_IZR in K. injection K as K.
  assert (E : (@max_max_current RM (wcfg w) (adc_type (wcfg w)) : R) - @max_min_current RM (wcfg w) (adc_type (wcfg w)) = span (wcfg w)).
  { unfold span, max_max_current, max_min_current. destruct (adc_type (wcfg w)); [congruence| |];
      cbn [fmul fneg fsub f_of_Z f0 R_machine]; lra. }
  rewrite E in K. clear E H.
  assert (Hq : span (wcfg w) / IZR (bin_size (wcfg w)) < 1 / 2).
  { destruct Hb as [Hb|Hb].
    - apply IZR_lt in Hb. apply Rinv_lt_0_compat in Hb. unfold Rdiv at 1. nra.
    - assert (0 < IZR (bin_size (wcfg w))) by lra. apply Rmult_lt_reg_r with (IZR (bin_size (wcfg w))); [assumption|].
      field_simplify; lra. }
  assert (ZnearestA (span (wcfg w) / IZR (bin_size (wcfg w))) <= 0)%Z; [|lia].
  revert Hq. generalize (span (wcfg w) / IZR (bin_size (wcfg w))). clear. intros q Hq.
  apply Znot_gt_le. intros G. pose proof (Znearest_half (Z.leb 0) q) as HN. apply Rabs_le_inv in HN.
  assert (1 <= IZR (ZnearestA q)) by (apply IZR_le; lia). lra.
Qed.
End R.
