(** Monotonicity of the converters in IEEE single precision: C25. *)
From Coq Require Import String List ZArith Reals Bool Lia Lra.
From Flocq Require Import Core BinarySingleNaN.
From Verif Require Import Base Lib Machine Json Config Histogram Adc FloatMachine.
Local Open Scope R_scope.

Notation fl := (binary_float 24 128).
Notation top := (bpow radix2 128).
Notation rnd := (round radix2 (SpecFloat.fexp 24 128) (round_mode mode_NE)).
#[local] Existing Instance p32.
#[local] Existing Instance e32.

(** Value of a float, infinities being plus or minus 2^128. *)
Definition ext (x : fl) : R :=
  match x with B754_infinity s => if s then - top else top | _ => B2R x end.
Definition sat (r : R) : R := if Rlt_dec (Rabs r) top then r else if Rlt_dec r 0 then - top else top.

Lemma top_pos : 0 < top. Proof. apply bpow_gt_0. Qed.
Lemma sat_le r r' : r <= r' -> sat r <= sat r'.
Proof.
  pose proof top_pos. intros H'. unfold sat, Rabs.
  destruct (Rcase_abs r), (Rcase_abs r'); repeat destruct (Rlt_dec _ _); lra.
Qed.
Lemma fin_bound x : is_finite x = true -> - top < B2R x < top /\ ext x = B2R x.
Proof.
  intros H. pose proof (abs_B2R_lt_emax 24 128 x) as A. apply Rabs_def2 in A. split; [lra|]. destruct x; easy.
Qed.

Lemma le_ext x y : is_nan x = false -> is_nan y = false -> (Bleb x y = true <-> ext x <= ext y).
Proof.
  pose proof top_pos. intros Hx Hy. destruct (is_finite x) eqn:Fx, (is_finite y) eqn:Fy.
  - rewrite Bleb_correct by assumption. destruct (fin_bound _ Fx) as [_ ->], (fin_bound _ Fy) as [_ ->].
    split; [apply Rle_bool_true || (intros E; destruct (Rle_bool_spec (B2R x) (B2R y)); [assumption|discriminate])|apply Rle_bool_true].
  - destruct (fin_bound _ Fx) as [B ->]. destruct y as [| [] | |]; try discriminate; cbn [ext].
    + split; [|lra]. destruct x as [[]|[]| |[]]; cbn in *; try discriminate.
    + split; [lra|]. intros _. destruct x as [[]|[]| |[]]; cbn in *; try discriminate; reflexivity.
  - destruct (fin_bound _ Fy) as [B ->]. destruct x as [| [] | |]; try discriminate; cbn [ext].
    + split; [lra|]. intros _. destruct y as [[]|[]| |[]]; cbn in *; try discriminate; reflexivity.
    + split; [|lra]. destruct y as [[]|[]| |[]]; cbn in *; try discriminate.
  - destruct x as [| [] | |], y as [| [] | |]; try discriminate; cbn [ext]; cbn; split; try lra; try easy.
Qed.
Lemma le_nan (x y : fl) : Bleb x y = true -> is_nan x = false /\ is_nan y = false.
Proof. destruct x as [[]|[]| |[]], y as [[]|[]| |[]]; cbn; try easy. Qed.
Lemma lt_ext (x y : fl) : is_nan x = false -> is_nan y = false -> Bltb x y = negb (Bleb y x).
Proof.
  intros Hx Hy. unfold Bltb, Bleb. unfold SpecFloat.SFltb, SpecFloat.SFleb.
  change (SpecFloat.SFcompare (B2SF x) (B2SF y)) with (Bcompare x y).
  change (SpecFloat.SFcompare (B2SF y) (B2SF x)) with (Bcompare y x).
  rewrite (Bcompare_swap 24 128 x y). destruct (Bcompare x y) as [[]|] eqn:E; try reflexivity.
  exfalso. destruct (is_finite x) eqn:Fx, (is_finite y) eqn:Fy.
  - rewrite Bcompare_correct in E by assumption. discriminate.
  - destruct y as [|[]| |]; try discriminate; destruct x as [[]|[]| |[]]; cbn in *; congruence.
  - destruct x as [|[]| |]; try discriminate; destruct y as [[]|[]| |[]]; cbn in *; congruence.
  - destruct x as [|[]| |], y as [|[]| |]; cbn in *; congruence.
Qed.
Lemma ltb_ext x y : is_nan x = false -> is_nan y = false -> (Bltb x y = true <-> ext x < ext y).
Proof.
  intros Hx Hy. rewrite lt_ext by assumption. pose proof (le_ext y x Hy Hx) as [A B].
  destruct (Bleb y x); cbn [negb].
  - split; [discriminate|]. specialize (A eq_refl). lra.
  - split; [|reflexivity]. intros _. apply Rnot_le_lt. intros C. specialize (B C). discriminate.
Qed.

(** An operation that is the rounding of a monotone function on finite numbers and keeps
    infinities is monotone. *)
Definition tracks (f : fl -> fl) (g : R -> R) : Prop :=
  forall x, is_finite x = true -> is_nan (f x) = false /\ ext (f x) = sat (g (B2R x)).

Lemma mono_op f g : tracks f g -> (forall u v, u <= v -> g u <= g v) ->
  f (B754_infinity false) = B754_infinity false -> f (B754_infinity true) = B754_infinity true ->
  forall x y, Bleb x y = true -> Bleb (f x) (f y) = true.
Proof.
  intros T G P N x y H. destruct (le_nan _ _ H) as [Hx Hy].
  assert (Nf : forall z, is_nan z = false -> is_nan (f z) = false).
  { intros z Hz. destruct (is_finite z) eqn:Fz; [apply T; assumption|].
    destruct z as [|[]| |]; try discriminate; rewrite ?P, ?N; reflexivity. }
  apply le_ext; auto.
  assert (B : forall z, is_nan z = false -> - top <= ext z <= top).
  { intros z Hz. pose proof top_pos. destruct (is_finite z) eqn:Fz.
    - destruct (fin_bound _ Fz) as [? ->]. lra.
    - destruct z as [|[]| |]; try discriminate; cbn; lra. }
  destruct (is_finite x) eqn:Fx.
  - destruct (is_finite y) eqn:Fy.
    + destruct (T x Fx) as [_ ->], (T y Fy) as [_ ->]. apply sat_le, G.
      apply le_ext in H; auto. destruct (fin_bound _ Fx) as [_ <-], (fin_bound _ Fy) as [_ <-]. exact H.
    + destruct y as [|[]| |]; try discriminate.
      * exfalso. destruct x as [[]|[]| |[]]; cbn in *; discriminate.
      * rewrite P. cbn [ext]. apply B, Nf, Hx.
  - destruct x as [|[]| |]; try discriminate.
    + rewrite N. cbn [ext]. apply B, Nf, Hy.
    + replace y with (B754_infinity false : fl); [lra|]. destruct y as [[]|[]| |[]]; cbn in *; try discriminate; reflexivity.
Qed.

Lemma rnd_le u v : u <= v -> rnd u <= rnd v.
Proof. apply round_le; typeclasses eauto. Qed.
Lemma rnd_0 : rnd 0 = 0.
Proof. apply round_0. typeclasses eauto. Qed.

Lemma sign_neg (x : fl) : Bsign x = true -> B2R x <= 0.
Proof.
  destruct x as [| | |[] m e b]; cbn; try lra; try discriminate. intros _. apply F2R_le_0. cbn. lia.
Qed.
Lemma sign_pos (x : fl) : Bsign x = false -> 0 <= B2R x.
Proof.
  destruct x as [| | |[] m e b]; cbn; try lra; try discriminate. intros _. apply F2R_ge_0. cbn. lia.
Qed.

Lemma over (z : fl) (r : R) (sg : bool) : B2SF z = binary_overflow 24 128 mode_NE sg ->
  (sg = true -> r <= 0) -> (sg = false -> 0 <= r) -> ~ Rabs r < top -> is_nan z = false /\ ext z = sat r.
Proof.
  pose proof top_pos. intros E H1 H2 H3. assert (z = B754_infinity sg).
  { destruct z; cbn in E; try discriminate. now inversion E. }
  subst z. split; [reflexivity|]. cbn [ext]. unfold sat. destruct (Rlt_dec (Rabs r) top); [contradiction|].
  destruct sg.
  - destruct (Rlt_dec r 0); [reflexivity|]. specialize (H1 eq_refl). assert (r = 0) by lra. subst.
    rewrite Rabs_R0 in *. lra.
  - destruct (Rlt_dec r 0); [|reflexivity]. specialize (H2 eq_refl). lra.
Qed.
Lemma inside (z : fl) (r : R) : B2R z = r -> is_finite z = true -> is_nan z = false /\ ext z = sat r.
Proof.
  intros <- Hf. split; [destruct z; easy|]. destruct (fin_bound _ Hf) as [B ->]. unfold sat.
  destruct (Rlt_dec (Rabs (B2R z)) top) as [|X]; [reflexivity|]. exfalso. apply X. apply Rabs_def1; lra.
Qed.

Lemma plus_tracks c : is_finite c = true -> tracks (fun x => Bplus mode_NE x c) (fun u => rnd (u + B2R c)).
Proof.
  intros Hc x Hx. pose proof (Bplus_correct 24 128 p32 e32 mode_NE x c Hx Hc) as H.
  destruct (Rlt_bool_spec (Rabs (rnd (B2R x + B2R c))) top) as [L|L].
  - destruct H as (E & Fi & _). now apply inside.
  - destruct H as (E & S). apply (over _ _ (Bsign x)); [exact E| | |lra].
    + intros Sx. rewrite <- rnd_0. apply rnd_le. pose proof (sign_neg x Sx). rewrite Sx in S. pose proof (sign_neg c (eq_sym S)). lra.
    + intros Sx. rewrite <- rnd_0. apply rnd_le. pose proof (sign_pos x Sx). rewrite Sx in S. pose proof (sign_pos c (eq_sym S)). lra.
Qed.
Lemma minus_tracks c : is_finite c = true -> tracks (fun x => Bminus mode_NE x c) (fun u => rnd (u - B2R c)).
Proof.
  intros Hc x Hx. pose proof (Bminus_correct 24 128 p32 e32 mode_NE x c Hx Hc) as H.
  destruct (Rlt_bool_spec (Rabs (rnd (B2R x - B2R c))) top) as [L|L].
  - destruct H as (E & Fi & _). now apply inside.
  - destruct H as (E & S). apply (over _ _ (Bsign x)); [exact E| | |lra].
    + intros Sx. rewrite <- rnd_0. apply rnd_le. pose proof (sign_neg x Sx). rewrite Sx in S.
      destruct (Bsign c) eqn:Sc; [discriminate|]. pose proof (sign_pos c Sc). lra.
    + intros Sx. rewrite <- rnd_0. apply rnd_le. pose proof (sign_pos x Sx). rewrite Sx in S.
      destruct (Bsign c) eqn:Sc; [|discriminate]. pose proof (sign_neg c Sc). lra.
Qed.
Lemma pos_sign (c : fl) : is_finite c = true -> 0 < B2R c -> Bsign c = false.
Proof. intros _ H. destruct (Bsign c) eqn:S; [|reflexivity]. pose proof (sign_neg c S). lra. Qed.
Lemma mult_tracks c : is_finite c = true -> 0 < B2R c -> tracks (fun x => Bmult mode_NE x c) (fun u => rnd (u * B2R c)).
Proof.
  intros Hc Hp x Hx. pose proof (Bmult_correct 24 128 p32 e32 mode_NE x c) as H.
  destruct (Rlt_bool_spec (Rabs (rnd (B2R x * B2R c))) top) as [L|L].
  - destruct H as (E & Fi & _). rewrite Hx, Hc in Fi. now apply inside.
  - rewrite (pos_sign c Hc Hp), xorb_false_r in H. apply (over _ _ (Bsign x)); [exact H| | |lra].
    + intros Sx. rewrite <- rnd_0. apply rnd_le. pose proof (sign_neg x Sx).
      rewrite <- (Rmult_0_l (B2R c)). apply Rmult_le_compat_r; lra.
    + intros Sx. rewrite <- rnd_0. apply rnd_le. pose proof (sign_pos x Sx). apply Rmult_le_pos; lra.
Qed.
Lemma div_tracks c : is_finite c = true -> 0 < B2R c -> tracks (fun x => Bdiv mode_NE x c) (fun u => rnd (u / B2R c)).
Proof.
  intros Hc Hp x Hx. pose proof (Bdiv_correct 24 128 p32 e32 mode_NE x c ltac:(lra)) as H.
  assert (0 < / B2R c) by (apply Rinv_0_lt_compat, Hp).
  destruct (Rlt_bool_spec (Rabs (rnd (B2R x / B2R c))) top) as [L|L].
  - destruct H as (E & Fi & _). rewrite Hx in Fi. now apply inside.
  - rewrite (pos_sign c Hc Hp), xorb_false_r in H. apply (over _ _ (Bsign x)); [exact H| | |lra].
    + intros Sx. rewrite <- rnd_0. apply rnd_le. pose proof (sign_neg x Sx).
      rewrite <- (Rmult_0_l (/ B2R c)). apply Rmult_le_compat_r; lra.
    + intros Sx. rewrite <- rnd_0. apply rnd_le. pose proof (sign_pos x Sx). apply Rmult_le_pos; lra.
Qed.
Lemma near_tracks : tracks (Bnearbyint mode_NA) (fun u => round radix2 (FIX_exp 0) (round_mode mode_NA) u).
Proof.
  intros x Hx. destruct (Bnearbyint_correct 24 128 e32 mode_NA x) as (E & Fi & _). rewrite Hx in Fi. now apply inside.
Qed.

Lemma plus_mono c x y : is_finite c = true -> Bleb x y = true -> Bleb (Bplus mode_NE x c) (Bplus mode_NE y c) = true.
Proof.
  intros Hc. apply (mono_op (fun x => Bplus mode_NE x c) (fun u => rnd (u + B2R c))).
  - now apply plus_tracks.
  - intros. apply rnd_le. lra.
  - destruct c as [[]|[]| |[]]; try discriminate; reflexivity.
  - destruct c as [[]|[]| |[]]; try discriminate; reflexivity.
Qed.
Lemma minus_mono c x y : is_finite c = true -> Bleb x y = true -> Bleb (Bminus mode_NE x c) (Bminus mode_NE y c) = true.
Proof.
  intros Hc. apply (mono_op (fun x => Bminus mode_NE x c) (fun u => rnd (u - B2R c))).
  - now apply minus_tracks.
  - intros. apply rnd_le. lra.
  - destruct c as [[]|[]| |[]]; try discriminate; reflexivity.
  - destruct c as [[]|[]| |[]]; try discriminate; reflexivity.
Qed.
Lemma mult_mono c x y : is_finite c = true -> 0 < B2R c -> Bleb x y = true -> Bleb (Bmult mode_NE x c) (Bmult mode_NE y c) = true.
Proof.
  intros Hc Hp. apply (mono_op (fun x => Bmult mode_NE x c) (fun u => rnd (u * B2R c))).
  - now apply mult_tracks.
  - intros. apply rnd_le. apply Rmult_le_compat_r; lra.
  - destruct c as [[]|[]| |[]]; try discriminate; try (cbn in Hp; lra); try reflexivity.
    exfalso. pose proof (sign_neg (B754_finite true m e e0) eq_refl). lra.
  - destruct c as [[]|[]| |[]]; try discriminate; try (cbn in Hp; lra); try reflexivity.
    exfalso. pose proof (sign_neg (B754_finite true m e e0) eq_refl). lra.
Qed.
Lemma div_mono c x y : is_finite c = true -> 0 < B2R c -> Bleb x y = true -> Bleb (Bdiv mode_NE x c) (Bdiv mode_NE y c) = true.
Proof.
  intros Hc Hp. apply (mono_op (fun x => Bdiv mode_NE x c) (fun u => rnd (u / B2R c))).
  - now apply div_tracks.
  - intros. apply rnd_le. apply Rmult_le_compat_r; [|lra]. apply Rlt_le, Rinv_0_lt_compat, Hp.
  - destruct c as [[]|[]| |[]]; try discriminate; try (cbn in Hp; lra); try reflexivity.
    exfalso. pose proof (sign_neg (B754_finite true m e e0) eq_refl). lra.
  - destruct c as [[]|[]| |[]]; try discriminate; try (cbn in Hp; lra); try reflexivity.
    exfalso. pose proof (sign_neg (B754_finite true m e e0) eq_refl). lra.
Qed.
Lemma nearbyint_mono x y : Bleb x y = true -> Bleb (Bnearbyint mode_NA x) (Bnearbyint mode_NA y) = true.
Proof.
  apply (mono_op _ _ near_tracks); [|reflexivity..]. intros. apply round_le; try typeclasses eauto. assumption.
Qed.

Section FM.
Context (powf : b32 -> b32 -> b32) (pow : b64 -> b64 -> b64) (expf : b32 -> b32) (nz : bool -> nat -> b32) (strict : bool).
#[local] Hint Extern 0 Machine => exact (F_machine powf pow expf nz strict) : typeclass_instances.
Notation FMa := (F_machine powf pow expf nz strict).

Lemma clip_mono (x y mn mx : fl) : is_nan mn = false -> is_nan mx = false -> Bleb x y = true ->
  Bleb (@clip FMa x mn mx) (@clip FMa y mn mx) = true.
Proof.
  intros Hmn Hmx H. destruct (le_nan _ _ H) as [Hx Hy]. apply le_ext in H; auto.
  assert (A : forall u v : fl, is_nan u = false -> is_nan v = false ->
    let z := if Bltb u v then v else u in is_nan z = false /\ ext z = Rmax (ext u) (ext v)).
  { intros u v Hu Hv. pose proof (ltb_ext u v Hu Hv) as E. destruct (Bltb u v); cbn; (split; [assumption|]).
    - rewrite Rmax_right; [reflexivity|]. apply Rlt_le, E. reflexivity.
    - rewrite Rmax_left; [reflexivity|]. apply Rnot_lt_le. intros C. apply E in C. discriminate. }
  assert (B : forall u v : fl, is_nan u = false -> is_nan v = false ->
    let z := if Bltb v u then v else u in is_nan z = false /\ ext z = Rmin (ext u) (ext v)).
  { intros u v Hu Hv. pose proof (ltb_ext v u Hv Hu) as E. destruct (Bltb v u); cbn; (split; [assumption|]).
    - rewrite Rmin_right; [reflexivity|]. apply Rlt_le, E. reflexivity.
    - rewrite Rmin_left; [reflexivity|]. apply Rnot_lt_le. intros C. apply E in C. discriminate. }
  assert (K : forall z : fl, is_nan z = false -> is_nan (@clip FMa z mn mx) = false /\
    ext (@clip FMa z mn mx) = Rmin (Rmax (ext z) (ext mn)) (ext mx)).
  { intros z Hz. destruct (A z mn Hz Hmn) as [A1 A2]. destruct (B _ mx A1 Hmx) as [B1 B2].
    refine (conj B1 _). etransitivity; [exact B2|]. now rewrite A2. }
  destruct (K x Hx) as [K1 K2], (K y Hy) as [K3 K4]. apply le_ext; [exact K1|exact K3|].
  rewrite K2, K4. apply Rle_min_compat_r. apply Rle_max_compat_r. exact H.
Qed.

(** A usable range: its bounds are finite and one step is finite and positive. *)
Definition usable (steps : Z) (mn mx : fl) : Prop :=
  is_finite mn = true /\ is_finite mx = true /\
  let step := @fdiv FMa (@fsub FMa mx mn) (@f_of_Z FMa (steps - 1)) in
  is_finite step = true /\ @flt FMa (@f0 FMa) step = true.

Lemma lt0 (z : fl) : is_finite z = true -> @flt FMa (@f0 FMa) z = true -> 0 < B2R z.
Proof.
  intros Hz H. change (Bltb (B754_zero false) z = true) in H.
  rewrite Bltb_correct in H by (auto; reflexivity). destruct (Rlt_bool_spec (B2R (B754_zero false : fl)) (B2R z)); [|discriminate].
  exact H0.
Qed.

Lemma monotone_single : forall (c : @config FMa) (a : @adc) (l : string) (x x' scale off y y' : fl),
  (forall mn mx, @get_currents FMa c a l = Ok (mn, mx) -> a_ty a <> INF_ADC -> usable (a_steps a) mn mx) ->
  is_finite off = true -> is_finite scale = true -> @flt FMa (@f0 FMa) scale = true ->
  @adc1 FMa c a l x scale off = Ok y -> @adc1 FMa c a l x' scale off = Ok y' ->
  @fle FMa x x' = true -> @fle FMa y y' = true.
Proof.
  intros c a l x x' scale off y y' HU Ho Hs Hp E E' H.
  assert (Hp' := lt0 _ Hs Hp).
  unfold adc1 in E, E'. destruct (a_ty a) eqn:Ety.
  - inversion E; inversion E'. subst. cbn [fle fmul fadd F_machine]. apply mult_mono; auto. apply plus_mono; auto.
  - destruct (get_currents c a l) as [[mn mx]| | |]; cbn [bind] in *; try discriminate.
    destruct (HU mn mx eq_refl ltac:(discriminate)) as (F1 & F2 & F3 & F4).
    unfold quantize in E, E'. destruct (sub32 (a_steps a) 1) as [k| | |] eqn:Ek; cbn [bind] in *; try discriminate.
    assert (k = a_steps a - 1)%Z by (unfold sub32, chk32 in Ek; destruct (in32 _); congruence). subst k.
    inversion E; inversion E'. subst. clear E E'.
    assert (F4' := lt0 _ F3 F4). cbn [fle].
    apply nearbyint_mono, mult_mono; [assumption|assumption|]. apply plus_mono; [assumption|].
    apply mult_mono; [assumption|assumption|]. apply nearbyint_mono. apply div_mono; [assumption|assumption|].
    apply minus_mono; [assumption|]. apply clip_mono; [destruct mn; easy|destruct mx; easy|]. apply plus_mono; assumption.
  - destruct (get_currents c a l) as [[mn mx]| | |]; cbn [bind] in *; try discriminate.
    destruct (HU mn mx eq_refl ltac:(discriminate)) as (F1 & F2 & F3 & F4).
    unfold quantize in E, E'. destruct (sub32 (a_steps a) 1) as [k| | |] eqn:Ek; cbn [bind] in *; try discriminate.
    assert (k = a_steps a - 1)%Z by (unfold sub32, chk32 in Ek; destruct (in32 _); congruence). subst k.
    inversion E; inversion E'. subst. clear E E'.
    assert (F4' := lt0 _ F3 F4). cbn [fle].
    apply nearbyint_mono, mult_mono; [assumption|assumption|]. apply plus_mono; [assumption|].
    apply mult_mono; [assumption|assumption|]. apply nearbyint_mono. apply div_mono; [assumption|assumption|].
    apply minus_mono; [assumption|]. apply clip_mono; [destruct mn; easy|destruct mx; easy|]. apply plus_mono; assumption.
Qed.
End FM.
