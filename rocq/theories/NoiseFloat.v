(** C31 in binary32, and the witnesses of C31 and C34. *)
From Coq Require Import String List ZArith Reals Bool Arith Lia Lra ZifyBool ZifyNat.
From RecordUpdate Require Import RecordSet.
From Flocq Require Import Core BinarySingleNaN.
From Verif Require Import Base Lib Hoare Machine Json Config Histogram Adc ReadDisturb Parasitics
  Mapper IntMappers BnnMappers TnnMappers Crossbar Api FloatMachine Reach Spec FloatAdc Demo
  Cells Invar StepFacts CfgProps NoiseProps.
Import ListNotations RecordSetNotations.

Local Open Scope R_scope.
Notation one := (norm32 1 0 false).
Notation zero := (norm32 0 0 false).
#[local] Existing Instance p32.
#[local] Existing Instance e32.

Lemma one_R : B2R one = 1 /\ is_finite one = true /\ Bsign one = false.
Proof.
  pose proof (binary_normalize_correct 24 128 p32 e32 mode_NE 1 0 false) as H.
  assert (EF : F2R (Float radix2 1 0) = bpow radix2 0) by (rewrite F2R_bpow; reflexivity).
  cbv zeta in H. rewrite EF in H.
  assert (EG : rnd (bpow radix2 0) = bpow radix2 0).
  { apply round_generic; [typeclasses eauto|]. apply generic_format_bpow. unfold SpecFloat.fexp, SpecFloat.emin. lia. }
  rewrite EG in H. rewrite Rabs_pos_eq in H by apply bpow_ge_0.
  rewrite Rlt_bool_true in H by (apply bpow_lt; lia). destruct H as (E & Fi & S).
  change (bpow radix2 0) with 1 in *. rewrite Rcompare_Gt in S by lra. auto.
Qed.
Lemma one_fin : exists m e b, one = (B754_finite false m e b : fl).
Proof.
  destruct one_R as (E & F & S). destruct one as [sg| | |sg m e b]; cbn in *; try discriminate; try lra. subst. eauto.
Qed.
Lemma rnd_id (x : fl) : rnd (B2R x) = B2R x.
Proof. apply round_generic; [typeclasses eauto|]. apply generic_format_B2R. Qed.

(** [x] is positive, infinite or not a number. *)
Lemma pos_cases (x : fl) : Bleb x zero = false ->
  (is_finite x = true /\ 0 < B2R x) \/ x = B754_infinity false \/ x = B754_nan.
Proof.
  change zero with (B754_zero false : fl). intros H. destruct (is_finite x) eqn:F.
  - left. split; [reflexivity|]. rewrite Bleb_correct in H by auto.
    destruct (Rle_bool_spec (B2R x) (B2R (B754_zero false : fl))); [discriminate|]. exact H0.
  - destruct x as [|[]| |]; try discriminate; auto.
Qed.
Lemma not_neg (x : fl) : (is_nan x = false -> 0 <= ext x) -> Bltb x zero = false.
Proof.
  intros H. change zero with (B754_zero false : fl). destruct (is_nan x) eqn:E.
  - destruct x; try discriminate. reflexivity.
  - pose proof (ltb_ext x (B754_zero false) E eq_refl) as [A _]. destruct (Bltb x _); [|reflexivity].
    specialize (A eq_refl). specialize (H eq_refl). cbn in A. lra.
Qed.
Lemma sat_nonneg r : 0 <= r -> 0 <= sat r.
Proof. intros. pose proof top_pos. unfold sat. repeat destruct (Rlt_dec _ _); lra. Qed.

Lemma level0_nonneg (h l : fl) : Bleb h zero = false ->
  Bltb (Bplus mode_NE (Bmult mode_NE zero (Bminus mode_NE l h)) h) zero = false.
Proof.
  intros Hh. change zero with (B754_zero false : fl). set (d := Bminus mode_NE l h).
  destruct (is_finite d) eqn:Fd.
  - assert (Hm : exists sg, Bmult mode_NE (B754_zero false) d = B754_zero sg).
    { destruct d as [|[]| |]; try discriminate; cbn; eauto. }
    destruct Hm as [sg ->]. destruct (pos_cases h Hh) as [[F P]|[-> | ->]]; [|now destruct sg..].
    apply not_neg. intros _. destruct (plus_tracks h F (B754_zero sg) eq_refl) as [_ E]. cbv beta in E. rewrite E.
    apply sat_nonneg. rewrite <- rnd_0. apply rnd_le. cbn. lra.
  - assert (Hm : Bmult mode_NE (B754_zero false) d = B754_nan) by (destruct d as [|[]| |]; try discriminate; reflexivity).
    rewrite Hm. now destruct h.
Qed.

Lemma level1_nonneg (h l : fl) : Bleb h zero = false -> Bleb l zero = false ->
  Bltb (Bplus mode_NE (Bmult mode_NE one (Bminus mode_NE l h)) h) zero = false.
Proof.
  intros Hh Hl.
  assert (HI : forall sg, Bmult mode_NE one (B754_infinity sg) = B754_infinity sg) by (intros; destruct one_fin as (m & e & b & ->); now destruct sg).
  assert (HN : Bmult mode_NE one (B754_nan : fl) = B754_nan) by (destruct one_fin as (m & e & b & ->); reflexivity).
  destruct (pos_cases h Hh) as [[Fh Ph]|[-> | ->]].
  2:{ assert (E : Bminus mode_NE l (B754_infinity false) = B754_infinity true \/ Bminus mode_NE l (B754_infinity false) = B754_nan)
        by (destruct l as [[]|[]| |[]]; cbn; auto).
      destruct E as [-> | ->]; [rewrite HI|rewrite HN]; reflexivity. }
  2:{ replace (Bminus mode_NE l B754_nan) with (B754_nan : fl) by now destruct l. rewrite HN. reflexivity. }
  destruct (pos_cases l Hl) as [[Fl Pl]|[-> | ->]].
  2:{ replace (Bminus mode_NE (B754_infinity false) h) with (B754_infinity false : fl) by (now destruct h as [[]|[]| |[]]).
      rewrite HI. now destruct h as [[]|[]| |[]]. }
  2:{ change (Bminus mode_NE B754_nan h) with (B754_nan : fl).
      rewrite HN. now destruct h as [[]|[]| |[]]. }
  set (d := Bminus mode_NE l h). destruct (minus_tracks h Fh l Fl) as [Nd Ed]. cbv beta in Nd, Ed. fold d in Nd, Ed.
  assert (Hd : - B2R h <= ext d).
  { rewrite Ed. assert (B : - B2R h <= rnd (B2R l - B2R h)).
    { replace (- B2R h) with (rnd (- B2R h)) at 1; [apply rnd_le; lra|].
      rewrite <- B2R_Bopp. apply rnd_id. }
    destruct (fin_bound h Fh) as [Bh _]. pose proof top_pos. unfold sat. destruct (Rlt_dec _ _); [exact B|].
    destruct (Rlt_dec _ _); [|lra]. exfalso. apply n. apply Rabs_def1; lra. }
  destruct (is_finite d) eqn:Fd.
  - destruct (fin_bound d Fd) as [Bd Edd]. rewrite Edd in Hd.
    pose proof (Bmult_correct 24 128 p32 e32 mode_NE one d) as HM.
    rewrite (proj1 one_R), Rmult_1_l, rnd_id in HM.
    rewrite Rlt_bool_true in HM by (apply Rabs_def1; lra). destruct HM as (HM & HF & _).
    rewrite Fd, andb_true_r in HF. rewrite (proj1 (proj2 one_R)) in HF.
    apply not_neg. intros _. destruct (plus_tracks h Fh (Bmult mode_NE one d) HF) as [_ E]. cbv beta in E. rewrite E, HM.
    apply sat_nonneg. rewrite <- rnd_0. apply rnd_le. lra.
  - assert (d = B754_infinity false) as ->.
    { destruct d as [|[]| |]; try discriminate; [|reflexivity]. cbn [ext] in Hd. destruct (fin_bound h Fh). lra. }
    rewrite HI. destruct h as [[]|[]| |[]]; try discriminate; reflexivity.
Qed.

Section W.
Context (powf : b32 -> b32 -> b32) (pow : b64 -> b64 -> b64) (expf : b32 -> b32) (nz : bool -> nat -> b32) (strict : bool).
Notation FMa := (F_machine powf pow expf nz strict).
#[local] Hint Extern 0 Machine => exact FMa : typeclass_instances.

Lemma float_noisy (c : @config FMa) g y : fle (HRS c) f0 = false -> fle (LRS c) f0 = false ->
  noisy c (level g (fsub (LRS c) (HRS c)) (HRS c)) g y -> flt y f0 = false.
Proof.
  intros Hh Hl H. pose proof (noisy_mask _ _ _ _ H) as Hg. destruct H as (k & k' & H). unfold add_noise in H.
  assert (HM : forall z : @F FMa, @flt FMa (fmax z f0) f0 = false).
  { intros z. unfold fmax. destruct (@flt FMa z f0) eqn:E; [reflexivity|exact E]. }
  destruct Hg as [-> | ->]; cbn [Z.eqb Pos.eqb] in H.
  - destruct (fle (HRS_NOISE c) f0); inversion H; subst; [|apply HM]. exact (level0_nonneg (HRS c) (LRS c) Hh).
  - destruct (fle (LRS_NOISE c) f0); inversion H; subst; [|apply HM]. exact (level1_nonneg (HRS c) (LRS c) Hh Hl).
Qed.

Lemma float_nonneg (w : @world FMa) a w' r x' i k :
  reach w -> digital_only (wcfg w) = false -> is_int (m_mode (wcfg w)) = false ->
  step w a = Ok (w', r) -> wrote a r = true -> wx w' = Some x' -> covers a i k = true ->
  flt (current (ia_p (xm x')) i k) f0 = false /\
  (m_mode (wcfg w) <> BNN_III -> m_mode (wcfg w) <> BNN_IV -> flt (current (ia_m (xm x')) i k) f0 = false).
Proof.
  intros Hr Hd Hi H Hwr Hx' Hc. apply reach_good in Hr.
  destruct (good_origin _ Hr) as [(j & c0 & Ha)|Ha]; [|rewrite Ha in Hi; discriminate].
  destruct (apply_supported _ _ _ Ha) as (_ & _ & _ & _ & HS). destruct (HS Hd) as (Hh & Hl & _).
  destruct (write_inv _ _ _ _ H Hwr) as (x & x1 & mat & m & n & X & X1 & Ec & _ & Hcov & _ & _ & HW).
  assert (x1 = x') by congruence. subst x1.
  pose proof (xwrite_written _ _ _ _ _ _ _ _ (good_wf _ Hr) (g_x _ Hr _ X) HW) as W.
  pose proof (wr_xnn _ _ _ _ _ _ _ W Hd Hi i k) as HP. rewrite <- Hcov, Hc in HP. destruct HP as [[_ P1] P2].
  split.
  - eapply float_noisy; eauto.
  - intros E1 E2. destruct (one_array (m_mode (wcfg w))) eqn:E; [destruct (m_mode (wcfg w)); easy|].
    eapply float_noisy; [exact Hh|exact Hl|apply P2].
Qed.
End W.

Local Open Scope Z_scope.
(** HRS 0.3 and LRS 1.4, no noise: the programmed LRS current is not LRS. *)
Definition doc31 : @json toy :=
  puts (@ana_doc toy "BNN_VI" 2 2 4 4 [] 5 30)
    [("HRS", JFlt (@d_lit toy 3 (-1))); ("LRS", JFlt (@d_lit toy 14 (-1)))]%string.
Definition hist31 : list (@call toy) := [SetConfig (Parsed doc31); CpyMtrx [1; -1; -1; 1] 2 2].
Definition w31 : @world toy := after hist31.
Definition off_lrs {MC : Machine} (w : world) : bool :=
  match wx w with
  | Some x => fle (HRS_NOISE (wcfg w)) f0 && fle (LRS_NOISE (wcfg w)) f0 && (cell (gd_p (xm x)) 0 0 =? 1) &&
              negb (feq (current (ia_p (xm x)) 0 0) (LRS (wcfg w)))
  | None => false
  end.
Lemma off_lrs_ex {MC : Machine} h : runs_settled h = true -> off_lrs (after h) = true ->
  exists w x, reach w /\ wx w = Some x /\
  fle (HRS_NOISE (wcfg w)) f0 = true /\ fle (LRS_NOISE (wcfg w)) f0 = true /\
  cell (gd_p (xm x)) 0 0 = 1 /\ feq (current (ia_p (xm x)) 0 0) (LRS (wcfg w)) = false.
Proof.
  intros H1 H2. exists (after h). unfold off_lrs in H2. destruct (wx (after h)) as [x|]; [|discriminate]. exists x.
  split; [apply after_reach_b; exact H1|]. split; [reflexivity|].
  destruct (fle _ _), (fle _ _), (Z.eqb_spec (cell (gd_p (xm x)) 0 0) 1), (feq _ _); try discriminate. auto.
Qed.
Lemma ex31 : runs_settled hist31 = true /\ off_lrs (after hist31) = true.
Proof. vm_compute. auto. Qed.
Lemma lrs_rounded : exists (w : @world toy) x, reach w /\ wx w = Some x /\
  fle (HRS_NOISE (wcfg w)) f0 = true /\ fle (LRS_NOISE (wcfg w)) f0 = true /\
  cell (gd_p (xm x)) 0 0 = 1 /\ feq (current (ia_p (xm x)) 0 0) (LRS (wcfg w)) = false.
Proof. exact (off_lrs_ex hist31 (proj1 ex31) (proj2 ex31)). Qed.

(** ** C34 *)
Lemma lost_weights : exists j : @json toy,
  let w b := after [SetConfig (Parsed (puts j [("c2c_var", JBool b); ("d2d_var", JBool false)]%string))] in
  (forall b, reach (w b) /\ is_int (m_mode (wcfg (w b))) = true /\ split_covers (wcfg (w b)) /\
    digital_only (wcfg (w b)) = false /\ c2c_var (wcfg (w b)) = b /\ d2d_var (wcfg (w b)) = false) /\
  answers (w false) [CpyMtrx [1] 1 1; ExeMvm [0] [1] [] 1 1 ""%string; ExeMvm [0] [1] [] 1 1 ""%string] = Some [[0]; [0; 1]; [0; 1]] /\
  answers (w true) [CpyMtrx [1] 1 1; ExeMvm [0] [1] [] 1 1 ""%string; ExeMvm [0] [1] [] 1 1 ""%string] = Some [[0]; [0; 0]; [0; 0]] /\
  plus_product [0] [1] [1] 1 1 = [1].
Proof.
  exists (@ana_doc toy "I_DIFF_W_DIFF_1XB" 2 2 1 4 [1] 5 30). cbv zeta. split.
  - intros b. split; [apply after_reach_b; destruct b; vm_compute; reflexivity|].
    split; [destruct b; vm_compute; reflexivity|]. split; [|destruct b; vm_compute; auto].
    intros _. replace (SPLIT _) with [1] by (destruct b; vm_compute; reflexivity).
    replace (W_BIT _) with 1 by (destruct b; vm_compute; reflexivity). cbn. lia.
  - repeat split; vm_compute; reflexivity.
Qed.
(** The weight 15 is stored as two cells holding 3: the process ends. *)
Definition doc34b : @json toy :=
  puts (@ana_doc toy "I_DIFF_W_DIFF_1XB" 2 2 4 4 [2; 2] 5 30) [("c2c_var", JBool true); ("d2d_var", JBool false)]%string.
Definition hist34b : list (@call toy) := [SetConfig (Parsed doc34b); CpyMtrx [15] 1 1].
Lemma ex34b : runs_settled hist34b = true /\ code (step (after hist34b) (ExeMvm [0] [1] [] 1 1 ""%string)) = 8 /\
  answers (after hist34b) [GetMat GdP] = Some [[3; 0; 3; 0; 0; 0; 0; 0]].
Proof. vm_compute. auto. Qed.

(** ** A machine whose noise samples alternate between 2 and -40 *)
Definition loud : Machine :=
  F_machine (fun x _ => x) (fun x _ => x) (fun x => x)
    (fun _ k => if Nat.even k then norm32 2 0 false else norm32 (-40) 0 false) false.
Definition loud_doc : @json loud :=
  puts (@ana_doc loud "BNN_VI" 2 2 4 4 [] 5 30)
    [("HRS_NOISE", JInt 3); ("LRS_NOISE", JInt 3); ("c2c_var", JBool true)]%string.
Definition loud_hist : list (@call loud) := [SetConfig (Parsed loud_doc); CpyMtrx [1; -1; -1; 1] 2 2].
Definition loud_quiet : list (@call loud) :=
  [ExeMvm [0; 0] [1; -1] [] 2 2 ""%string; ExeMvm [0] [1; -1] [] 1 2 ""%string].
Definition ints {MC : Machine} (g : list (list F)) : list Z :=
  map (fun x => match f_trunc x with Some z => z | None => -1 end) (List.concat g).
Definition loud_now {MC : Machine} (w : world) : list Z :=
  match wx w with Some x => ints (ia_p (xm x)) | None => [] end.
Lemma ex33 : @runs_settled loud loud_hist = true /\
  @loud_now loud (after loud_hist) = [32; 7; 7; 32] /\
  @answers loud (after loud_hist) loud_quiet = Some [[0; 1; -1]; [0; 1]] /\
  @loud_now loud (next (after loud_hist) loud_quiet) = [32; 7; 7; 32].
Proof. vm_compute. auto. Qed.
(** d2d_var false or absent in the same document. *)
Lemma ex32 : @answers loud world0 (loud_hist ++ loud_quiet) = Some [[]; [0]; [0; 1; -1]; [0; 1]] /\
  @answers loud world0 (SetConfig (Parsed (puts loud_doc [("d2d_var", JBool false)]%string)) :: tl loud_hist ++ loud_quiet) =
    Some [[]; [0]; [0; 1; -1]; [0; 1]].
Proof. vm_compute. auto. Qed.
