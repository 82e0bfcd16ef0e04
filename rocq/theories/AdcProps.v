(** The converters in exact real arithmetic: C24-C27, and vector conversion: C30. *)
From Coq Require Import String List ZArith Reals Bool Lia Lra Permutation.
From Flocq Require Import Core.
From Verif Require Import Base Lib Machine Json Config Histogram Adc RMachine RSpec.
Import ListNotations.
Local Open Scope R_scope.

Lemma away_eq x : IZR (ZnearestA x) = round_away x.
Proof.
  unfold round_away. f_equal. unfold Znearest.
  assert (F1 := Zfloor_lb x). assert (F2 := Zfloor_ub x).
  destruct (Rle_dec 0 x) as [H|H].
  - assert (0 <= Zfloor x)%Z by (apply Zfloor_lub; exact H).
    symmetry. destruct (Rcompare_spec (x - IZR (Zfloor x)) (/ 2)) as [C|C|C].
    + apply Zfloor_imp. rewrite plus_IZR. lra.
    + replace (Zle_bool 0 (Zfloor x)) with true by (symmetry; now apply Zle_imp_le_bool).
      rewrite Zceil_floor_neq by lra. apply Zfloor_imp. rewrite !plus_IZR. lra.
    + rewrite Zceil_floor_neq by lra. apply Zfloor_imp. rewrite !plus_IZR. lra.
  - assert (Zfloor x < 0)%Z by (apply lt_IZR; lra).
    symmetry. enough (Zfloor (/ 2 - x) = - (match Rcompare (x - IZR (Zfloor x)) (/ 2) with
      | Lt => Zfloor x | Eq => if Zle_bool 0 (Zfloor x) then Zceil x else Zfloor x | Gt => Zceil x end))%Z by lia.
    destruct (Rcompare_spec (x - IZR (Zfloor x)) (/ 2)) as [C|C|C].
    + apply Zfloor_imp. rewrite plus_IZR, opp_IZR. lra.
    + replace (Zle_bool 0 (Zfloor x)) with false by (symmetry; apply Z.leb_gt; lia).
      apply Zfloor_imp. rewrite plus_IZR, opp_IZR. lra.
    + rewrite Zceil_floor_neq by lra. apply Zfloor_imp. rewrite plus_IZR, opp_IZR, plus_IZR. lra.
Qed.

Lemma away_opp x : round_away (- x) = - round_away x.
Proof.
  unfold round_away. rewrite <- opp_IZR. f_equal.
  destruct (Rle_dec 0 (- x)) as [H|H], (Rle_dec 0 x) as [H'|H'].
  - assert (x = 0) by lra. subst. rewrite Ropp_0.
    replace (Zfloor (0 + / 2)) with 0%Z; [reflexivity|]. symmetry. apply Zfloor_imp. simpl. lra.
  - rewrite Z.opp_involutive. f_equal. lra.
  - f_equal. f_equal. lra.
  - lra.
Qed.
Lemma away_0 : round_away 0 = 0.
Proof. generalize (away_opp 0). rewrite Ropp_0. lra. Qed.

Lemma near_le x y : x <= y -> (ZnearestA x <= ZnearestA y)%Z.
Proof. apply Zrnd_le. apply valid_rnd_N. Qed.
Lemma near_IZR k : ZnearestA (IZR k) = k.
Proof. apply Zrnd_IZR. apply valid_rnd_N. Qed.
Lemma near_half x : Rabs (x - IZR (ZnearestA x)) <= / 2.
Proof. apply Znearest_half. Qed.
Lemma near_imp x k : Rabs (x - IZR k) < / 2 -> ZnearestA x = k.
Proof. apply Znearest_imp. Qed.
Lemma away_le x y : x <= y -> round_away x <= round_away y.
Proof. intros H. rewrite <- !away_eq. apply IZR_le, near_le, H. Qed.

Section RA.
Context {nz : bool -> nat -> R} {s : bool}.
#[local] Hint Extern 0 Machine => exact (R_machine nz s) : typeclass_instances.

Lemma assoc_lookup {A} l (d : list (string * A)) : assoc l d = lookup l d.
Proof.
  induction d as [|[k v] d IH]; [reflexivity|]. cbn. unfold lookup in *. cbn.
  destruct (String.eqb l k); [reflexivity|exact IH].
Qed.

Lemma range_eq (c : config) a l mn mx :
  a_ty a <> INF_ADC -> adc_range c (a_ty a) l = Some (mn, mx) -> get_currents c a l = Ok (mn, mx).
Proof.
  intros Ht. unfold adc_range, get_currents. destruct (adc_calib_mode c).
  - intros H. inversion H. f_equal. destruct (a_ty a); [congruence| |reflexivity].
    assert (X : forall a b : R, - a * b = - (a * b)) by (intros; ring).
    unfold max_min_current, max_max_current. cbn [fmul fneg fsub f_of_Z R_machine]. now rewrite X.
  - rewrite assoc_lookup. now intros ->.
Qed.

Lemma pow_bounds r : (1 <= r <= 30)%Z -> (2 <= 2 ^ r <= 2 ^ 30)%Z.
Proof.
  intros H. split.
  - change 2%Z with (2 ^ 1)%Z at 1. apply Z.pow_le_mono_r; lia.
  - apply Z.pow_le_mono_r; lia.
Qed.
Lemma trunc_pow r : (0 <= r)%Z -> Ztrunc (bpow radix2 r) = (2 ^ r)%Z.
Proof. intros H. rewrite <- IZR_Zpower by lia. apply Ztrunc_IZR. Qed.

Lemma new_ok (c : config) ty : ty <> INF_ADC -> (1 <= resolution c <= 30)%Z ->
  adc_new c ty = Ok (mkAdc ty (n_levels ty (resolution c))).
Proof.
  intros Ht Hr. unfold adc_new. cbn. rewrite trunc_pow by lia. pose proof (pow_bounds _ Hr) as P.
  replace (in32 (2 ^ resolution c)) with true.
  2: { symmetry. unfold in32, int_min, int_max. apply andb_true_intro. split; apply Z.leb_le; lia. }
  destruct ty; [congruence| |reflexivity].
  unfold sub32, chk32. replace (in32 (2 ^ resolution c - 1)) with true; [reflexivity|].
  symmetry. unfold in32, int_min, int_max. apply andb_true_intro. split; apply Z.leb_le; lia.
Qed.

Definition rclip (x mn mx : R) : R :=
  if Rlt_dec mx (if Rlt_dec x mn then mn else x) then mx else if Rlt_dec x mn then mn else x.
Lemma clip_eq (x mn mx : R) : clip x mn mx = rclip x mn mx.
Proof.
  unfold rclip, clip, fmin, fmax. cbn. unfold rltb. destruct (Rlt_dec x mn); [|destruct (Rlt_dec mx x); reflexivity].
  destruct (Rlt_dec mx mn); reflexivity.
Qed.
Lemma clip_in x mn mx : mn <= x <= mx -> rclip x mn mx = x.
Proof. intros H. unfold rclip. destruct (Rlt_dec x mn); [lra|]. destruct (Rlt_dec mx x); lra. Qed.
Lemma clip_lo x mn mx : mn <= mx -> x <= mn -> rclip x mn mx = mn.
Proof. intros H H'. unfold rclip. destruct (Rlt_dec x mn); [destruct (Rlt_dec mx mn); lra|]. destruct (Rlt_dec mx x); lra. Qed.
Lemma clip_hi x mn mx : mn <= mx -> mx <= x -> rclip x mn mx = mx.
Proof. intros H H'. unfold rclip. destruct (Rlt_dec x mn); [destruct (Rlt_dec mx mn); lra|]. destruct (Rlt_dec mx x); lra. Qed.
Lemma clip_range x mn mx : mn <= mx -> mn <= rclip x mn mx <= mx.
Proof. intros H. unfold rclip. destruct (Rlt_dec x mn); destruct (Rlt_dec mx _); lra. Qed.
Lemma clip_le x y mn mx : mn <= mx -> x <= y -> rclip x mn mx <= rclip y mn mx.
Proof. intros H H'. unfold rclip. repeat destruct (Rlt_dec _ _); lra. Qed.
Lemma clip_opp x m : 0 <= m -> rclip (- x) (- m) m = - rclip x (- m) m.
Proof. intros H. unfold rclip. repeat destruct (Rlt_dec _ _); lra. Qed.

(** The reconstruction level chosen for [t]. *)
Definition pick (n : Z) (mn mx t : R) : R :=
  mn + IZR (ZnearestA ((rclip t mn mx - mn) / step_size n mn mx)) * step_size n mn mx.

Lemma quantize_pick n mn mx x scale off : (2 <= n <= 2 ^ 30)%Z ->
  quantize n mn mx x scale off = Ok (round_away (pick n mn mx (x + off) * scale)).
Proof.
  intros Hn. unfold quantize, sub32, chk32.
  replace (in32 (n - 1)) with true.
  2: { symmetry. unfold in32, int_min, int_max. apply andb_true_intro. split; apply Z.leb_le; lia. }
  cbn [bind]. f_equal. rewrite <- away_eq, clip_eq. cbn. f_equal. f_equal. unfold pick, step_size. ring.
Qed.

Lemma step_pos n mn mx : (2 <= n)%Z -> mn < mx -> 0 < step_size n mn mx.
Proof.
  intros H1 H2. unfold step_size. apply Rdiv_lt_0_compat; [lra|]. apply (IZR_lt 0). lia.
Qed.
Lemma step_top n mn mx : (2 <= n)%Z -> mn + IZR (n - 1) * step_size n mn mx = mx.
Proof.
  intros H. unfold step_size. field. apply (IZR_neq (n - 1) 0). lia.
Qed.

Lemma pick_level n mn mx t : (2 <= n)%Z -> mn < mx -> level_of n mn mx (pick n mn mx t).
Proof.
  intros Hn Hm. pose proof (step_pos _ _ _ Hn Hm) as Hs.
  pose proof (clip_range t mn mx ltac:(lra)) as C. eexists. split; [|reflexivity]. split.
  - replace 0%Z with (ZnearestA (IZR 0)) at 1 by apply near_IZR. apply near_le. apply Rmult_le_pos; [lra|].
    apply Rlt_le, Rinv_0_lt_compat, Hs.
  - replace (n - 1)%Z with (ZnearestA (IZR (n - 1))) at 1 by apply near_IZR. apply near_le. apply Rmult_le_reg_r with (1 := Hs).
    unfold Rdiv. rewrite Rmult_assoc, Rinv_l, Rmult_1_r by lra.
    pose proof (step_top n mn mx Hn). lra.
Qed.

Lemma pick_err n mn mx t : (2 <= n)%Z -> mn < mx -> mn <= t <= mx ->
  Rabs (pick n mn mx t - t) <= step_size n mn mx / 2.
Proof.
  intros Hn Hm Ht. pose proof (step_pos _ _ _ Hn Hm) as Hs. unfold pick. rewrite clip_in by exact Ht.
  set (u := (t - mn) / step_size n mn mx).
  replace t with (mn + u * step_size n mn mx) by (unfold u; field; lra).
  replace (mn + IZR (ZnearestA u) * step_size n mn mx - (mn + u * step_size n mn mx))
    with (- ((u - IZR (ZnearestA u)) * step_size n mn mx)) by ring.
  rewrite Rabs_Ropp, Rabs_mult, (Rabs_pos_eq (step_size _ _ _)) by lra.
  pose proof (near_half u). unfold Rdiv. rewrite (Rmult_comm (step_size _ _ _)). 
  apply Rmult_le_compat_r; lra.
Qed.

Lemma pick_fix n mn mx y : (2 <= n)%Z -> mn < mx -> level_of n mn mx y -> pick n mn mx y = y.
Proof.
  intros Hn Hm (k & Hk & ->). pose proof (step_pos _ _ _ Hn Hm) as Hs. unfold pick. rewrite clip_in.
  - replace (_ / _) with (IZR k) by (field; lra). now rewrite near_IZR.
  - pose proof (step_top n mn mx Hn) as T. pose proof (IZR_le 0 k ltac:(lia)) as K1. pose proof (IZR_le k (n - 1) ltac:(lia)) as K2.
    assert (0 <= IZR k * step_size n mn mx) by (apply Rmult_le_pos; lra).
    assert (IZR k * step_size n mn mx <= IZR (n - 1) * step_size n mn mx) by (apply Rmult_le_compat_r; lra). lra.
Qed.

Lemma level_range n mn mx y : (2 <= n)%Z -> mn < mx -> level_of n mn mx y -> mn <= y <= mx.
Proof.
  intros Hn Hm (k & Hk & ->). pose proof (step_pos _ _ _ Hn Hm) as Hs.
  pose proof (step_top n mn mx Hn) as T. pose proof (IZR_le 0 k ltac:(lia)) as K1. pose proof (IZR_le k (n - 1) ltac:(lia)) as K2.
  assert (0 <= IZR k * step_size n mn mx) by (apply Rmult_le_pos; lra).
  assert (IZR k * step_size n mn mx <= IZR (n - 1) * step_size n mn mx) by (apply Rmult_le_compat_r; lra). lra.
Qed.

Lemma ends n mn mx : (2 <= n)%Z -> level_of n mn mx mn /\ level_of n mn mx mx.
Proof.
  intros Hn. split.
  - exists 0%Z. split; [lia|]. lra.
  - exists (n - 1)%Z. split; [lia|]. symmetry. now apply step_top.
Qed.

Lemma pick_clip n mn mx t t' : rclip t mn mx = rclip t' mn mx -> pick n mn mx t = pick n mn mx t'.
Proof. unfold pick. now intros ->. Qed.
Lemma pick_lo n mn mx t : (2 <= n)%Z -> mn < mx -> t <= mn -> pick n mn mx t = mn.
Proof.
  intros Hn Hm Ht. rewrite (pick_clip _ _ _ t mn).
  - apply pick_fix; auto. now apply ends.
  - rewrite !clip_lo; lra.
Qed.
Lemma pick_hi n mn mx t : (2 <= n)%Z -> mn < mx -> mx <= t -> pick n mn mx t = mx.
Proof.
  intros Hn Hm Ht. rewrite (pick_clip _ _ _ t mx).
  - apply pick_fix; auto. now apply ends.
  - rewrite !clip_hi; lra.
Qed.
Lemma pick_le n mn mx t t' : (2 <= n)%Z -> mn < mx -> t <= t' -> pick n mn mx t <= pick n mn mx t'.
Proof.
  intros Hn Hm Ht. pose proof (step_pos _ _ _ Hn Hm) as Hs. unfold pick.
  apply Rplus_le_compat_l, Rmult_le_compat_r; [lra|]. apply IZR_le, near_le.
  apply Rmult_le_compat_r; [apply Rlt_le, Rinv_0_lt_compat, Hs|]. pose proof (clip_le t t' mn mx). lra.
Qed.

(** Symmetric converters: an even number of steps, so zero is a level. *)
Lemma pick_zero h m : (1 <= h)%Z -> 0 < m -> pick (2 * h + 1) (- m) m 0 = 0.
Proof.
  intros Hh Hm. apply pick_fix; [lia|lra|]. exists h. split; [lia|]. unfold step_size.
  replace (2 * h + 1 - 1)%Z with (2 * h)%Z by lia. rewrite mult_IZR. field. apply (IZR_neq h 0). lia.
Qed.

Lemma pick_odd n m t : (2 <= n)%Z -> 0 < m -> ~ threshold n (- m) m t ->
  pick n (- m) m (- t) = - pick n (- m) m t.
Proof.
  intros Hn Hm Ht. pose proof (step_pos n (- m) m Hn ltac:(lra)) as Hs. unfold pick.
  rewrite clip_opp by lra. set (d := step_size n (- m) m) in *. set (u := (rclip t (- m) m - - m) / d).
  assert (Hd : IZR (n - 1) * d = 2 * m) by (pose proof (step_top n (- m) m Hn); fold d in H; lra).
  replace ((- rclip t (- m) m - - m) / d) with (IZR (n - 1) - u) by (unfold u; replace (IZR (n - 1)) with (2 * m / d) by (rewrite <- Hd; field; lra); field; lra).
  pose proof (near_half u) as U.
  assert (U' : Rabs (u - IZR (ZnearestA u)) < / 2).
  { destruct (Rle_lt_or_eq_dec _ _ U) as [|E]; [assumption|]. exfalso. apply Ht. clear U.
    assert (Ct := clip_range t (- m) m ltac:(lra)).
    assert (0 <= u) by (apply Rmult_le_pos; [lra|apply Rlt_le, Rinv_0_lt_compat, Hs]).
    assert (Eu : u * d = rclip t (- m) m + m) by (unfold u; field; lra).
    assert (u <= IZR (n - 1)) by (apply Rmult_le_reg_r with d; [lra|]; lra).
    assert (Hk : exists k, u = IZR k + / 2).
    { unfold Rabs in E. destruct (Rcase_abs _).
      - exists (ZnearestA u - 1)%Z. rewrite minus_IZR. lra.
      - exists (ZnearestA u). lra. }
    destruct Hk as [k Hk]. exists k. split.
    - split.
      + assert (- 1 < k)%Z; [|lia]. apply lt_IZR. simpl. lra.
      + apply lt_IZR. lra.
    - rewrite <- Hk. change (step_size n (- m) m) with d. enough (rclip t (- m) m = t) by lra.
      destruct (Rle_or_lt t (- m)) as [L|L].
      { rewrite clip_lo in Eu by lra. assert (u * d = 0) by lra. apply Rmult_integral in H1. destruct H1; [|lra].
        assert (IZR k = - / 2) by lra. exfalso. assert (- 1 < k < 0)%Z; [|lia]. split; apply lt_IZR; simpl; lra. }
      destruct (Rle_or_lt m t) as [L2|L2]; [|apply clip_in; lra].
      rewrite clip_hi in Eu by lra. assert (E1 : u * d = IZR (n - 1) * d) by lra.
      apply Rmult_eq_reg_r in E1; [|lra]. exfalso. rewrite E1 in Hk.
      assert (E2 : IZR (n - 1 - k) = / 2) by (rewrite minus_IZR; lra).
      assert (0 < n - 1 - k < 1)%Z; [|lia]. split; apply lt_IZR; lra. }
  rewrite (near_imp (IZR (n - 1) - u) (n - 1 - ZnearestA u)).
  - rewrite (minus_IZR (n - 1)). ring_simplify. lra.
  - rewrite (minus_IZR (n - 1)).
    replace (IZR (n - 1) - u - (IZR (n - 1) - IZR (ZnearestA u))) with (- (u - IZR (ZnearestA u))) by ring.
    now rewrite Rabs_Ropp.
Qed.

(** ** The theorems *)
Lemma levels_ge ty r : (2 <= r <= 30)%Z -> (2 <= n_levels ty r <= 2 ^ 30)%Z.
Proof.
  intros H. pose proof (pow_bounds r ltac:(lia)). assert (2 ^ 2 <= 2 ^ r)%Z by (apply Z.pow_le_mono_r; lia).
  destruct ty; cbn [n_levels]; lia.
Qed.

Lemma adc1_pick (c : config) ty l mn mx x scale off :
  ty <> INF_ADC -> (2 <= n_levels ty (resolution c) <= 2 ^ 30)%Z -> adc_range c ty l = Some (mn, mx) ->
  adc1 c (mkAdc ty (n_levels ty (resolution c))) l x scale off =
    Ok (round_away (pick (n_levels ty (resolution c)) mn mx (x + off) * scale)).
Proof.
  intros Ht Hr Hg. unfold adc1. cbn [a_ty a_steps].
  rewrite (range_eq c (mkAdc ty _) l mn mx Ht Hg). cbn [bind].
  destruct ty; [congruence|..]; now apply quantize_pick.
Qed.

Lemma transfer : forall (c : @config (R_machine nz s)) ty l mn mx,
  ty <> INF_ADC -> (2 <= resolution c <= 30)%Z -> adc_range c ty l = Some (mn, mx) -> mn < mx ->
  exists a, adc_new c ty = Ok a /\
  forall x scale off, exists y,
    adc1 c a l x scale off = Ok (round_away (y * scale)) /\
    level_of (n_levels ty (resolution c)) mn mx y /\ mn <= y <= mx /\
    (mn <= x + off <= mx -> Rabs (y - (x + off)) <= step_size (n_levels ty (resolution c)) mn mx / 2) /\
    (x + off <= mn -> y = mn) /\ (mx <= x + off -> y = mx).
Proof.
  intros c ty l mn mx Ht Hr Hg Hm. eexists. split; [apply new_ok; [exact Ht|lia]|].
  intros x scale off. pose proof (levels_ge ty _ Hr) as L.
  exists (pick (n_levels ty (resolution c)) mn mx (x + off)).
  pose proof (pick_level (n_levels ty (resolution c)) mn mx (x + off) ltac:(lia) Hm) as PL.
  refine (conj (adc1_pick c ty l mn mx x scale off Ht L Hg) (conj PL (conj _ (conj _ (conj _ _))))).
  - eapply level_range; eauto. lia.
  - intros. apply pick_err; auto. lia.
  - intros. apply pick_lo; auto. lia.
  - intros. apply pick_hi; auto. lia.
Qed.

Lemma monotone_exact : forall (c : @config (R_machine nz s)) ty l mn mx a x x' scale off,
  ty <> INF_ADC -> (2 <= resolution c <= 30)%Z -> adc_range c ty l = Some (mn, mx) -> mn < mx ->
  adc_new c ty = Ok a -> x <= x' -> 0 <= scale ->
  exists y y', adc1 c a l x scale off = Ok y /\ adc1 c a l x' scale off = Ok y' /\ y <= y'.
Proof.
  intros c ty l mn mx a x x' scale off Ht Hr Hg Hm Ha Hx Hs.
  rewrite new_ok in Ha by (auto; lia). inversion Ha; subst a. pose proof (levels_ge ty _ Hr) as L.
  do 2 eexists. refine (conj (adc1_pick c ty l mn mx _ _ _ Ht L Hg) (conj (adc1_pick c ty l mn mx _ _ _ Ht L Hg) _)).
  apply away_le, Rmult_le_compat_r; [exact Hs|]. apply pick_le; [lia|exact Hm|lra].
Qed.

Lemma sym_levels r : (2 <= r)%Z -> exists h, (1 <= h)%Z /\ n_levels SYM_RANGE_ADC r = (2 * h + 1)%Z.
Proof.
  intros H. exists (2 ^ (r - 1) - 1)%Z. assert (2 ^ 1 <= 2 ^ (r - 1))%Z by (apply Z.pow_le_mono_r; lia).
  split; [lia|]. cbn [n_levels]. replace r with (Z.succ (r - 1)) at 1 by lia. rewrite Z.pow_succ_r by lia. lia.
Qed.

Lemma sym_zero_odd : forall (c : @config (R_machine nz s)) l a,
  adc_calib_mode c = CAL_MAX -> (2 <= resolution c <= 30)%Z -> HRS c < LRS c -> (0 < N c)%Z ->
  adc_new c SYM_RANGE_ADC = Ok a ->
  (forall scale, adc1 c a l 0 scale 0 = Ok 0) /\
  (forall x scale,
    ~ threshold (2 ^ resolution c - 1) (- (IZR (N c) * (LRS c - HRS c))) (IZR (N c) * (LRS c - HRS c)) x ->
    exists y, adc1 c a l x scale 0 = Ok y /\ adc1 c a l (- x) scale 0 = Ok (- y)).
Proof.
  intros c l a Hc Hr Hl HN Ha. rewrite new_ok in Ha by (try congruence; lia). inversion Ha; subst a.
  pose proof (levels_ge SYM_RANGE_ADC _ Hr) as L.
  assert (Hg : adc_range c SYM_RANGE_ADC l = Some (- (IZR (N c) * (LRS c - HRS c)), IZR (N c) * (LRS c - HRS c))).
  { unfold adc_range. now rewrite Hc. }
  assert (Hp : 0 < IZR (N c) * (LRS c - HRS c)).
  { apply Rmult_lt_0_compat; [now apply (IZR_lt 0)|]. cbn. lra. }
  split.
  - intros scale. rewrite (adc1_pick c SYM_RANGE_ADC l _ _ _ _ _ ltac:(discriminate) L Hg).
    destruct (sym_levels (resolution c) ltac:(lia)) as (h & Hh & ->). rewrite Rplus_0_r, pick_zero by auto.
    rewrite Rmult_0_l, away_0. reflexivity.
  - intros x scale Ht. eexists. split; [apply (adc1_pick c SYM_RANGE_ADC l _ _ _ _ _ ltac:(discriminate) L Hg)|].
    rewrite (adc1_pick c SYM_RANGE_ADC l _ _ _ _ _ ltac:(discriminate) L Hg). rewrite !Rplus_0_r.
    rewrite pick_odd by (auto; lia). rewrite <- away_opp. f_equal. f_equal. ring.
Qed.

Lemma idempotent : forall (c : @config (R_machine nz s)) ty l mn mx a x scale off,
  ty <> INF_ADC -> (2 <= resolution c <= 30)%Z -> adc_range c ty l = Some (mn, mx) -> mn < mx ->
  adc_new c ty = Ok a ->
  exists y, level_of (n_levels ty (resolution c)) mn mx y /\
    adc1 c a l x scale off = Ok (round_away (y * scale)) /\
    forall off', adc1 c a l (y - off') scale off' = Ok (round_away (y * scale)).
Proof.
  intros c ty l mn mx a x scale off Ht Hr Hg Hm Ha.
  rewrite new_ok in Ha by (auto; lia). inversion Ha; subst a. pose proof (levels_ge ty _ Hr) as L.
  pose proof (pick_level (n_levels ty (resolution c)) mn mx (x + off) ltac:(lia) Hm) as PL.
  eexists. refine (conj PL (conj (adc1_pick c ty l mn mx _ _ _ Ht L Hg) _)).
  intros off'. rewrite (adc1_pick c ty l mn mx _ _ _ Ht L Hg). set (y := pick _ _ _ (x + off)) in *.
  replace (y - off' + off') with y by ring. rewrite (pick_fix _ mn mx y); [reflexivity|lia|exact Hm|exact PL].
Qed.

(** Half a step above and below zero are treated differently. *)
Lemma not_odd : forall (c : @config (R_machine nz s)) l a,
  adc_calib_mode c = CAL_MAX -> (2 <= resolution c <= 30)%Z -> HRS c < LRS c -> (0 < N c)%Z ->
  adc_new c SYM_RANGE_ADC = Ok a ->
  exists x scale, adc1 c a l x scale 0 = Ok 1 /\ adc1 c a l (- x) scale 0 = Ok 0.
Proof.
  intros c l a Hc Hr Hl HN Ha. rewrite new_ok in Ha by (try congruence; lia). inversion Ha; subst a.
  pose proof (levels_ge SYM_RANGE_ADC _ Hr) as L.
  set (m := IZR (N c) * (LRS c - HRS c)).
  assert (Hg : adc_range c SYM_RANGE_ADC l = Some (- m, m)).
  { unfold adc_range. now rewrite Hc. }
  assert (Hp : 0 < m).
  { apply Rmult_lt_0_compat; [now apply (IZR_lt 0)|]. lra. }
  set (n := n_levels SYM_RANGE_ADC (resolution c)) in *.
  pose proof (step_pos n (- m) m ltac:(lia) ltac:(lra)) as Hs.
  destruct (sym_levels (resolution c) ltac:(lia)) as (h & Hh & En). fold n in En.
  set (d := step_size n (- m) m) in *.
  assert (Hd : IZR h * d = m).
  { pose proof (step_top n (- m) m ltac:(lia)) as T. fold d in T. rewrite En in T at 1.
    replace (2 * h + 1 - 1)%Z with (2 * h)%Z in T by lia. rewrite mult_IZR in T. lra. }
  assert (H1 : 1 <= IZR h) by (apply (IZR_le 1); lia).
  assert (Hdm : d <= m) by (rewrite <- Hd; rewrite <- (Rmult_1_l d) at 1; apply Rmult_le_compat_r; lra).
  exists (d / 2), (/ d).
  rewrite !(adc1_pick c SYM_RANGE_ADC l _ _ _ _ _ ltac:(discriminate) L Hg), !Rplus_0_r.
  fold n. unfold pick. fold d. rewrite !clip_in by lra.
  assert (A : forall z, round_away (IZR z) = IZR z) by (intros; rewrite <- away_eq, near_IZR; reflexivity).
  assert (B : forall z, (1 <= z)%Z -> ZnearestA (IZR z - / 2) = z).
  { intros z Hz. apply eq_IZR. rewrite away_eq. unfold round_away. destruct (Rle_dec 0 (IZR z - / 2)) as [_|X].
    - f_equal. apply Zfloor_imp. rewrite plus_IZR. lra.
    - exfalso. apply X. apply (IZR_le 1) in Hz. lra. }
  split.
  - replace ((d / 2 - - m) / d) with (IZR (h + 1) - / 2) by (rewrite plus_IZR, <- Hd; field; lra).
    rewrite B by lia. replace (_ * / d) with (IZR 1); [now rewrite A|]. rewrite plus_IZR, <- Hd. field. lra.
  - replace ((- (d / 2) - - m) / d) with (IZR h - / 2) by (rewrite <- Hd; field; lra).
    rewrite B by lia. replace (_ * / d) with (IZR 0); [now rewrite A|]. rewrite <- Hd. field. lra.
Qed.
End RA.

(** ** Vector conversion, on every machine *)
Section Vec.
Context {MC : Machine}.
Local Open Scope nat_scope.
Local Open Scope out_scope.

Lemma adc1_uniform c a l scale off :
  (exists g, forall x, adc1 c a l x scale off = Ok (g x)) \/
  (exists o : forall A, out A, (forall A (v : A), o A <> Ok v) /\ (forall A B (k : A -> out B), bind (o A) k = o B) /\
     forall x, adc1 c a l x scale off = o F).
Proof.
  unfold adc1. 
  assert (H : forall p : out (F * F),
    (exists g, forall x, ('(mn, mx) <- p ;; quantize (a_steps a) mn mx x scale off) = Ok (g x)) \/
    (exists o : forall A, out A, (forall A (v : A), o A <> Ok v) /\ (forall A B (k : A -> out B), bind (o A) k = o B) /\
     forall x, ('(mn, mx) <- p ;; quantize (a_steps a) mn mx x scale off) = o F)).
  { intros p. destruct p as [[mn mx]|f| |]; cbn [bind].
    - unfold quantize. destruct (sub32 (a_steps a) 1) as [k|f| |]; cbn [bind].
      + left. eexists. intros x. reflexivity.
      + right. exists (fun A => UB f). repeat split; easy.
      + right. exists (fun A => Died). repeat split; easy.
      + right. exists (fun A => Threw). repeat split; easy.
    - right. exists (fun A => UB f). repeat split; easy.
    - right. exists (fun A => Died). repeat split; easy.
    - right. exists (fun A => Threw). repeat split; easy. }
  destruct (a_ty a).
  - left. eexists. intros x. reflexivity.
  - apply H.
  - apply H.
Qed.

Definition conv_vec c a l len (arr : list F) scale off : out (list F) :=
  ys <- mapM (fun x => adc1 c a l x scale off) (firstn len arr) ;; Ok (ys ++ skipn len arr).

Lemma mapM_ok {A B} (f : A -> out B) g l : (forall x, f x = Ok (g x)) -> mapM f l = Ok (map g l).
Proof. intros H. induction l as [|x l IH]; [reflexivity|]. cbn. now rewrite H, IH. Qed.

Lemma nth_error_upd {A} (v : list A) i x k : i < length v -> 
  nth_error (upd v i x) k = if Nat.eqb k i then Some x else nth_error v k.
Proof.
  revert i k. induction v as [|y v IH]; intros i k H; [cbn in H; lia|].
  destruct i as [|i]; destruct k as [|k]; cbn in *; try reflexivity. apply IH. lia.
Qed.
Lemma length_upd' {A} (v : list A) i x : length (upd v i x) = length v.
Proof. revert i. induction v as [|y v IH]; intros [|i]; cbn; auto. Qed.

Lemma sched_ok c a l scale off g is : (forall x, adc1 c a l x scale off = Ok (g x)) ->
  NoDup is -> forall arr, Forall (fun i => i < length arr) is ->
  exists v, adc_vec_sched c a l is arr scale off = Ok v /\ length v = length arr /\
    forall k, nth_error v k = if existsb (Nat.eqb k) is then option_map g (nth_error arr k) else nth_error arr k.
Proof.
  intros Hg. induction 1 as [|i is Hi _ IH]; intros arr Hl.
  - exists arr. cbn. auto.
  - inversion Hl as [|? ? Hi1 Hl1]; subst. unfold adc_vec_sched in *. cbn [forL].
    destruct (nth_error arr i) as [x|] eqn:Ex.
    2: { apply nth_error_None in Ex. lia. }
    unfold get at 1. rewrite Ex. cbn [bind]. rewrite Hg. cbn [bind]. unfold set at 1.
    replace (i <? length arr) with true by (symmetry; now apply Nat.ltb_lt). cbn [bind].
    destruct (IH (upd arr i (g x))) as (v & E & L & K).
    { rewrite length_upd'. exact Hl1. }
    exists v. split; [exact E|]. rewrite length_upd' in L. split; [exact L|].
    intros k. rewrite K, nth_error_upd by exact Hi1. cbn [existsb].
    destruct (Nat.eqb_spec k i) as [->|Hk]; cbn [orb]; [|reflexivity].
    rewrite Ex. cbn. destruct (existsb (Nat.eqb i) is) eqn:Ei; [|reflexivity].
    apply existsb_exists in Ei. destruct Ei as (z & Iz & Ez). apply Nat.eqb_eq in Ez. congruence.
Qed.

Lemma list_ext {A} (u v : list A) : (forall k, nth_error u k = nth_error v k) -> u = v.
Proof.
  revert v. induction u as [|x u IH]; intros [|y v] H; try reflexivity.
  - specialize (H 0). discriminate.
  - specialize (H 0). discriminate.
  - f_equal; [specialize (H 0); now inversion H|]. apply IH. intros k. exact (H (S k)).
Qed.

Lemma sched_any : forall c a l len arr scale off is,
  Permutation is (seq 0 len) -> len <= length arr ->
  adc_vec_sched c a l is arr scale off = conv_vec c a l len arr scale off.
Proof.
  intros c a l len arr scale off is Hp Hl. unfold conv_vec.
  destruct (adc1_uniform c a l scale off) as [[g Hg]|(o & No & Bo & Ho)].
  - rewrite (mapM_ok _ g) by exact Hg. cbn [bind].
    destruct (sched_ok c a l scale off g is Hg) with (arr := arr) as (v & -> & L & K).
    + apply (Permutation_NoDup (l := seq 0 len)); [now apply Permutation_sym|apply seq_NoDup].
    + apply Forall_forall. intros i Hi. apply (Permutation_in _ Hp) in Hi. apply in_seq in Hi. lia.
    + f_equal. apply list_ext. intros k. rewrite K.
      destruct (Nat.lt_ge_cases k len) as [H|H].
      * replace (existsb (Nat.eqb k) is) with true.
        2: { symmetry. apply existsb_exists. exists k. split; [|apply Nat.eqb_refl].
             apply (Permutation_in _ (Permutation_sym Hp)). apply in_seq. lia. }
        rewrite nth_error_app1 by (rewrite map_length, firstn_length; lia). rewrite nth_error_map.
        f_equal. rewrite <- (firstn_skipn len arr) at 1. rewrite nth_error_app1; [reflexivity|]. rewrite firstn_length. lia.
      * replace (existsb (Nat.eqb k) is) with false.
        2: { symmetry. apply not_true_iff_false. intros E. apply existsb_exists in E. destruct E as (z & Iz & Ez).
             apply Nat.eqb_eq in Ez. subst z. apply (Permutation_in _ Hp) in Iz. apply in_seq in Iz. lia. }
        rewrite nth_error_app2 by (rewrite map_length, firstn_length; lia). rewrite map_length, firstn_length.
        rewrite Nat.min_l by lia. rewrite <- (firstn_skipn len arr) at 1.
        rewrite nth_error_app2; rewrite firstn_length; rewrite ?Nat.min_l by lia; [reflexivity|lia].
  - destruct len as [|len].
    + apply Permutation_sym, Permutation_nil in Hp. subst is. reflexivity.
    + destruct is as [|i is]; [apply Permutation_nil in Hp; discriminate|].
      destruct arr as [|x arr]; [cbn in Hl; lia|].
      assert (Hi : i < length (x :: arr)).
      { assert (I : In i (seq 0 (S len))) by (apply (Permutation_in _ Hp); now left). apply in_seq in I. lia. }
      unfold adc_vec_sched. cbn [forL firstn mapM]. rewrite Ho, Bo, Bo.
      unfold get. destruct (nth_error (x :: arr) i) eqn:E; [|apply nth_error_None in E; lia].
      cbn [bind]. rewrite Ho, Bo, Bo. reflexivity.
Qed.

Lemma forN_forL {S} (f : nat -> S -> out S) n s : forN n f s = forL (seq 0 n) f s.
Proof.
  revert s. induction n as [|n IH]; intros s; [reflexivity|].
  rewrite seq_S. cbn [forN]. rewrite IH. clear IH. generalize (seq 0 n). cbn [plus]. intros q. revert s.
  induction q as [|i q IH]; intros s; cbn [forL app].
  - cbn [bind]. destruct (f n s); reflexivity.
  - destruct (f i s); cbn [bind]; auto.
Qed.

Lemma vec_elementwise : forall c a l len arr scale off e,
  len <= length arr -> adc_profile c = false ->
  adc_vec c a l len arr scale off e = (v <- conv_vec c a l len arr scale off ;; Ok (v, e)).
Proof.
  intros c a l len arr scale off e Hl Hp. unfold adc_vec.
  replace (length arr <? len) with false by (symmetry; now apply Nat.ltb_ge). rewrite Hp. cbn [bind].
  rewrite forN_forL. change (forL (seq 0 len) _ arr) with (adc_vec_sched c a l (seq 0 len) arr scale off).
  now rewrite (sched_any c a l len) by auto.
Qed.

Lemma vec_profiled : forall c a l len arr scale off e v e',
  adc_vec c a l len arr scale off e = Ok (v, e') -> conv_vec c a l len arr scale off = Ok v.
Proof.
  intros c a l len arr scale off e v e' H. unfold adc_vec in H.
  destruct (length arr <? len) eqn:El; [discriminate|]. apply Nat.ltb_ge in El.
  destruct (if adc_profile c then _ else _) as [e1| | |]; cbn [bind] in H; try discriminate.
  rewrite forN_forL in H. change (forL (seq 0 len) _ arr) with (adc_vec_sched c a l (seq 0 len) arr scale off) in H.
  rewrite (sched_any c a l len) in H by auto.
  destruct (conv_vec _ _ _ _ _ _ _); cbn [bind] in H; congruence.
Qed.

Lemma missing_layer : forall c a l len arr scale off,
  a_ty a <> INF_ADC -> adc_calib_mode c = CAL_CALIB -> lookup l (adc_calib_dict c) = None ->
  0 < len -> len <= length arr -> conv_vec c a l len arr scale off = Died.
Proof.
  intros c a l len arr scale off Ht Hc Hl H0 H1. unfold conv_vec.
  destruct arr as [|x arr]; [cbn in H1; lia|]. destruct len; [lia|]. cbn [firstn mapM].
  unfold adc1, get_currents. rewrite Hc, assoc_lookup, Hl. destruct (a_ty a); [congruence|reflexivity|reflexivity].
Qed.
End Vec.
