(** C58: a converter with a single level. *)
From Coq Require Import String List ZArith Bool Arith Lia ZifyBool ZifyNat.
From RecordUpdate Require Import RecordSet.
From Flocq Require Import Core BinarySingleNaN.
From Verif Require Import Base Lib Machine FloatMachine Json Config Histogram Adc ReadDisturb Parasitics
  Mapper IntMappers BnnMappers TnnMappers Crossbar Api Spec ConfigProofs CfgProps Shape AnaShape Reach DigApi Invar
  StoreProps Hoare ZeroSlice.
Import ListNotations RecordSetNotations.
Ltac Zify.zify_post_hook ::= idtac.
Local Open Scope Z_scope.
Local Open Scope out_scope.
Notation len := List.length.

(** ** Every converted current is q *)
Section One.
Context {MC : Machine} (q : F) (P : poison q) (c : config) (mp : mapper) (l : string)
  (HA : forall x sc off y, adc1 c (mp_adc mp) l x sc off = Ok y -> y = q) (m n : nat) (Hm : (1 <= m)%nat) (Hn : (1 <= n)%nat).

Lemma one_vec arr sc off e t e' : adc_vec c (mp_adc mp) l m arr sc off e = Ok (t, e') -> get t 0 = Ok q.
Proof.
  unfold adc_vec. destruct (_ <? _)%nat; [discriminate|]. intros H. inv_as H e1 E1. inv_as H v V. inversion H; subst; clear H.
  apply (forN_when (fun k => (1 <= k)%nat) (fun a => get a 0 = Ok q)) in V; [exact V|lia|lia|].
  intros k a a' Hk IH E _. inv_as E x X. inv_as E y Y. apply set_get in E. destruct E as [G1 G2]. apply HA in Y. subst y.
  destruct (Nat.eq_dec k 0) as [->|Hk0]; [exact G1|]. rewrite G2 by lia. apply IH. lia.
Qed.
Lemma one_res (body : nat -> list Z -> out (list Z)) res r :
  (forall a b, body 0%nat a = Ok b -> exists x, x = q /\ (res_fadd a 0 x = Ok b \/ res_fsub a 0 x = Ok b)) -> forN m body res <> Ok r.
Proof.
  intros HB H. destruct (forN_each _ _ _ _ 0 H Hm) as (a & b & E). destruct (HB _ _ E) as (x & -> & [R|R]);
    [now apply (po_res_add q P) in R|now apply (po_res_sub q P) in R].
Qed.
Ltac simp_q := rewrite ?(po_addl _ P), ?(po_addr _ P), ?(po_subl _ P), ?(po_subr _ P), ?(po_addl _ P).

Lemma one_bnn_i res vec mat e r : bnn_i_a c mp res vec mat m n l e <> Ok r.
Proof.
  unfold bnn_i_a. intros H. inv_as H vd VD. inv_as H t T. inv_as H sc SC. inv_as H u U. destruct u as [t1 e1]. inv_as H r1 R1.
  apply one_vec in U. apply one_res in R1; [exact R1|]. intros a b E. rewrite U in E. cbn [bind] in E. inv_as E sw SW.
  eexists. split; [|left; exact E]. now simp_q.
Qed.
Lemma one_bnn_ii res vec mat e r : bnn_ii_a c mp res vec mat m n l e <> Ok r.
Proof.
  unfold bnn_ii_a. intros H. inv_as H vd VD. inv_as H t T. inv_as H sc SC. inv_as H u U. destruct u as [t1 e1]. inv_as H r1 R1.
  apply one_vec in U. apply one_res in R1; [exact R1|]. intros a b E. rewrite U in E. cbn [bind] in E. inv_as E sw SW.
  eexists. split; [|left; exact E]. now simp_q.
Qed.
Lemma one_bnn_iii inv res vec mat e r : bnn_iii_iv_a inv c mp res vec mat m n l e <> Ok r.
Proof.
  unfold bnn_iii_iv_a. intros H. inv_as H vd VD. destruct vd as [[vp vm] sm]. inv_as H tp TP. inv_as H tm TM. inv_as H sc SC. inv_as H nsm NSM.
  inv_as H u U. destruct u as [t1 e1]. inv_as H u' U'. destruct u' as [t2 e2]. inv_as H r1 R1.
  apply one_vec in U. apply one_vec in U'. apply one_res in R1; [exact R1|]. intros a b E. rewrite U, U' in E. cbn [bind] in E.
  eexists. split; [|left; exact E]. destruct inv; now simp_q.
Qed.
Lemma one_bnn_v res vec mat e r : bnn_v_a c mp res vec mat m n l e <> Ok r.
Proof.
  unfold bnn_v_a. intros H. inv_as H vd VD. destruct vd as [vp vm]. inv_as H t T. inv_as H sc SC. inv_as H u U. destruct u as [t1 e1]. inv_as H r1 R1.
  apply one_vec in U. apply one_res in R1; [exact R1|]. intros a b E. rewrite U in E. cbn [bind] in E.
  eexists. split; [|left; exact E]. now simp_q.
Qed.
Lemma one_quad tern res vec mat e r : quad_a tern c mp res vec mat m n l e <> Ok r.
Proof.
  unfold quad_a. intros H. inv_as H vd VD. destruct vd as [vp vm]. inv_as H t T. inv_as H sc SC. inv_as H u U. destruct u as [t1 e1]. inv_as H r1 R1.
  apply one_vec in U. apply one_res in R1; [exact R1|]. intros a b E. rewrite U in E. cbn [bind] in E. eauto.
Qed.
Lemma one_slice v k sub t res e r : tnn_slice c mp v m n l k sub t res e <> Ok r.
Proof.
  unfold tnn_slice. intros H. inv_as H t0 T. inv_as H sc SC. inv_as H u U. destruct u as [t1 e1]. inv_as H r1 R1.
  apply one_vec in U. apply one_res in R1; [exact R1|]. intros a b E. rewrite U in E. cbn [bind] in E. destruct sub; eauto.
Qed.
Lemma one_tnn_ii res vec mat e r : tnn_ii_a c mp res vec mat m n l e <> Ok r.
Proof. unfold tnn_ii_a. intros H. inv_as H v0 V. inv_as H u U. now apply one_slice in U. Qed.
Lemma one_tnn_iii res vec mat e r : tnn_iii_a c mp res vec mat m n l e <> Ok r.
Proof. unfold tnn_iii_a. intros H. inv_as H v0 V. inv_as H u U. now apply one_slice in U. Qed.
(** The passes of TNN_IV and TNN_V. *)
Lemma one_acc (body : nat -> list F -> out (list F)) fp fp' : forN m body fp = Ok fp' ->
  (forall a b, body 0%nat a = Ok b -> get b 0 = Ok q) ->
  (forall k a b, k <> 0%nat -> body k a = Ok b -> get b 0 = get a 0) -> get fp' 0 = Ok q.
Proof.
  intros H H0 HK. apply (forN_when (fun k => (1 <= k)%nat) (fun a => get a 0 = Ok q)) in H; [exact H|lia|lia|].
  intros k a b Hk IH E _. destruct (Nat.eq_dec k 0) as [->|Hk0]; [eauto|]. rewrite (HK k a b Hk0 E). apply IH. lia.
Qed.
Lemma one_to (sub : bool) fp i x fp' : (if sub then fsubto fp i x else faddto fp i x) = Ok fp' ->
  (i = 0%nat -> x = q -> get fp' 0 = Ok q) /\ (i <> 0%nat -> get fp' 0 = get fp 0).
Proof.
  destruct sub; intros H; [apply fsubto_get in H|apply faddto_get in H]; destruct H as (y & Y & G1 & G2); split;
    (intros -> ->; rewrite G1; now simp_q) || (intros Hi; apply G2; lia).
Qed.
Lemma one_pass ia v k off sub t fp e t' fp' e' : tc_pass c mp ia v m n l k off sub t fp e = Ok (t', fp', e') -> get fp' 0 = Ok q.
Proof.
  unfold tc_pass. intros H. inv_as H t0 T. inv_as H sc SC. inv_as H u U. destruct u as [t1 e1]. inv_as H f1 F1. inversion H; subst; clear H.
  apply one_vec in U. apply one_acc in F1; [exact F1| |].
  - intros a b E. rewrite U in E. cbn [bind] in E. apply one_to in E. now apply E.
  - intros i a b Hi E. inv_as E x X. apply one_to in E. now apply E.
Qed.
Lemma one_pass_par v off s1 s2 lsb msb fp e t' lsb' msb' fp' e' :
  tc_pass_par c mp v m n l off s1 s2 lsb msb fp e = Ok (t', lsb', msb', fp', e') -> get fp' 0 = Ok q.
Proof.
  unfold tc_pass_par. intros H. inv_as H t0 T. inv_as H lm LM. destruct lm as [l1 m1]. inv_as H sc1 SC1. inv_as H u U. destruct u as [t1 e1].
  inv_as H sc2 SC2. inv_as H u' U'. destruct u' as [t2 e2]. inv_as H f1 F1. inversion H; subst; clear H.
  apply one_vec in U. apply one_vec in U'. apply one_acc in F1; [exact F1| |].
  - intros a b E. rewrite U, U' in E. cbn [bind] in E. inv_as E b1 B1. cbn [bind] in E. apply one_to in E. now apply E.
  - intros i a b Hi E. inv_as E x X. inv_as E b1 B1. inv_as E y Y. apply one_to in E. apply one_to in B1.
    rewrite (proj2 E Hi). now apply B1.
Qed.
Lemma one_tc v res vec mat e r : tnn_tc_a v c mp res vec mat m n l e <> Ok r.
Proof.
  unfold tnn_tc_a. cbv zeta. destruct (split11 _); [|discriminate]. intros H. inv_as H isum IS. inv_as H vd VD. destruct vd as [vp vm]. inv_as H i3 I3.
  inv_as H u U. destruct u as [[[[t lsb] msb] fp] e1]. inv_as H r1 R1.
  assert (FP : get fp 0 = Ok q).
  { destruct (parasitics c).
    - inv_as U w W. destruct w as [[[[? ?] ?] ?] ?]. now apply one_pass_par in U.
    - inv_as U w W. destruct w as [[? ?] ?]. inv_as U w W2. destruct w as [[? ?] ?]. inv_as U w W3. destruct w as [[? ?] ?].
      inv_as U w W4. destruct w as [[? ?] ?]. inversion U; subst. now apply one_pass in W4. }
  destruct (forN_each _ _ _ _ 0 R1 Hm) as (a & b & E). rewrite FP in E. cbn [bind] in E. inv_as E r2 R2. now apply (po_res_add q P) in R2.
Qed.
(** The integer modes. *)
Context (Hs : (1 <= nsplit c)%nat).
Lemma one_bit_add bit neg sub t res r : bit_add c mp l m bit neg sub t res <> Ok r.
Proof.
  intros H. unfold bit_add in H. destruct (forN_each _ _ _ _ 0 H Hm) as (a & b & E).
  destruct (forN_each _ _ _ _ 0 E Hs) as (a' & b' & E'). inv_as E' x X.
  inv_as E' sh SH. inv_as E' o O. inv_as E' stp ST. inv_as E' y Y. apply HA in Y. subst y.
  destruct sub; [now apply (po_res_sub q P) in E'|now apply (po_res_add q P) in E'].
Qed.
Lemma one_loop vd bits neg s s' : 1 <= bits -> bit_loop c mp l vd m n bits neg s <> Ok s'.
Proof.
  intros Hb H. unfold bit_loop in H. destruct (forN_each _ _ _ _ 0 H ltac:(lia)) as ([[a t] v] & b & E).
  inv_as E vds V. inv_as E t1 T. inv_as E r R. now apply one_bit_add in R.
Qed.
Lemma one_v res vec mat r : 0 < I_BIT c -> int_v_a c mp res vec mat m n l <> Ok r.
Proof.
  intros Hb H. unfold int_v_a in H. cbv zeta in H. inv_as H vp V. inv_as H isum IS. inv_as H s S1. destruct s as [[rf t] vds].
  assert (R : get rf 0 = Ok q).
  { apply (forN_when (fun k => (1 <= k)%nat) (fun '(rf, _, _) => get rf 0 = Ok q)) in S1; [exact S1|lia|lia|].
    clear H rf t vds S1. intros b [[rf t] vds] [[rf' t'] vds'] Hb' IH E _. inv_as E v1 V1. inv_as E t1 T1. inv_as E r1 R1.
    inversion E; subst; clear E. apply one_acc in R1; [exact R1| |].
    - intros a a' E. apply (forN_when (fun s => (1 <= s)%nat) (fun a => get a 0 = Ok q)) in E; [exact E|exact Hs|lia|].
      intros s a1 a2 Hs' IHs E2 _. inv_as E2 x X. inv_as E2 sh SH. inv_as E2 o O. inv_as E2 stp ST. inv_as E2 y Y. apply HA in Y.
      apply (one_to false) in E2. now apply E2.
    - intros i a a' Hi E. apply (forN_Ok (fun _ b => get b 0 = get a 0)) in E; [exact E|reflexivity|].
      intros s a1 a2 Hs' IHs E2. inv_as E2 x X. inv_as E2 sh SH. inv_as E2 o O. inv_as E2 stp ST. inv_as E2 y Y.
      apply (one_to false) in E2. rewrite <- IHs. now apply E2. }
  inv_as H s S2. destruct s as [res' rf'].
  apply (forN_Ok (fun k '(_, b) => (k = 0%nat -> get b 0 = Ok q) /\ ((1 <= k)%nat -> False))) in S2.
  - destruct S2 as [_ S2]. now apply S2.
  - split; [auto|lia].
  - intros i [r0 f0'] [r1 f1] Hi [I1 I2] E. destruct i as [|i]; [|exfalso; apply I2; lia]. exfalso. specialize (I1 eq_refl).
    inv_as E d HD. inv_as E o O. inv_as E f FF. inv_as E x X. inv_as E y Y. apply fsubto_get in FF. destruct FF as (x0 & X0 & G1 & _).
    rewrite X0 in I1. inversion I1; subst x0. rewrite G1 in X. rewrite (po_subl _ P) in X. inversion X; subst x.
    rewrite (po_round _ P) in Y. now apply (po_f2i q P) in Y.
Qed.
End One.

Section Mvm.
Context {MC : Machine} (q : F) (P : poison q).
Lemma one_mvm c mp res vec mat m n l e r : (forall x sc off y, adc1 c (mp_adc mp) l x sc off = Ok y -> y = q) ->
  (1 <= m)%nat -> (1 <= n)%nat -> (is_int (mp_mode mp) = true -> (1 <= nsplit c)%nat /\ 0 < I_BIT c < 2 ^ 32) ->
  a_mvm c mp res vec mat m n l e <> Ok r.
Proof.
  intros HA Hm Hn Hi H. unfold a_mvm in H. cbv zeta in H. destruct (mp_mode mp) eqn:E; try (destruct (Hi eq_refl) as [Hs Hb]; clear Hi).
  1,2: inv_as H t T; unfold int_i_a in T; inv_as T v V; destruct v; inv_as T s S1; destruct s as [[? ?] ?]; inv_as T s S2;
       revert S2; eapply one_loop; eauto; lia.
  - inv_as H t T. unfold int_ii_a in T. cbv zeta in T. inv_as T v V. inv_as T s S1. revert S1. eapply one_loop; eauto.
    assert (I_BIT c < 2 ^ 32 - 1).
    { unfold load in V. destruct (forN_each _ _ _ _ 0 V Hn) as (a & b & E1). inv_as E1 y Y. inv_as E1 w W. inv_as W o O.
      unfold shl32 in O. destruct (_ && _) eqn:EE in O; [|discriminate]. unfold u32 in EE. rewrite Z.mod_small in EE by lia. lia. }
    unfold u32. rewrite Z.mod_small by lia. lia.
  - inv_as H t T. unfold int_iii_a in T. cbv zeta in T. inv_as T v V. inv_as T s S1. destruct s as [[? ?] ?]. inv_as T vds VD. inv_as T t0 T0.
    inv_as T r1 R. revert R. eapply one_bit_add; eauto.
  - inv_as H t T. unfold int_iv_a in T. inv_as T v V. inv_as T s S1. revert S1. eapply one_loop; eauto; lia.
  - inv_as H t T. revert T. eapply one_v; eauto; lia.
  - revert H. eapply one_bnn_i; eauto.
  - revert H. eapply one_bnn_ii; eauto.
  - revert H. eapply one_bnn_iii; eauto.
  - revert H. eapply one_bnn_iii; eauto.
  - revert H. eapply one_bnn_v; eauto.
  - revert H. eapply one_quad; eauto.
  - revert H. eapply one_quad; eauto.
  - revert H. eapply one_tnn_ii; eauto.
  - revert H. eapply one_tnn_iii; eauto.
  - revert H. eapply one_tc; eauto.
  - revert H. eapply one_tc; eauto.
Qed.
End Mvm.

(** ** IEEE arithmetic: no levels between the ends of the range *)
Section Float.
Context (powf : b32 -> b32 -> b32) (pow : b64 -> b64 -> b64) (expf : b32 -> b32) (nz : bool -> nat -> b32) (strict : bool).
Notation FM1 := (FM powf pow expf nz strict).
#[local] Existing Instance FM.

Lemma over_zero (x : b32) : @fdiv FM1 x (@f_of_Z FM1 0) = (B754_nan : b32) \/ exists s, @fdiv FM1 x (@f_of_Z FM1 0) = (B754_infinity s : b32).
Proof. cbn [FM F_machine fdiv f_of_Z]. rewrite zero32. destruct x as [[]|[]| |[] ? ? ?]; cbn; eauto. Qed.
Lemma back_nan (y st : b32) : st = B754_nan \/ (exists s, st = B754_infinity s) ->
  @fmul FM1 (@fround FM1 (@fdiv FM1 y st)) st = (B754_nan : b32).
Proof.
  cbn [FM F_machine fmul fround fdiv]. intros [->|[s ->]]; destruct y as [[]|[]| |[] ? ? ?]; try reflexivity; destruct s; reflexivity.
Qed.
Lemma one_level c a l x sc off y : a_ty a <> INF_ADC -> a_steps a = 1 -> @adc1 FM1 c a l x sc off = Ok y -> y = (B754_nan : b32).
Proof.
  intros Ht Hs H. unfold adc1 in H.
  assert (Q : forall mn mx y, @quantize FM1 (a_steps a) mn mx x sc off = Ok y -> y = (B754_nan : b32)).
  { intros mn mx y0 E. unfold quantize in E. rewrite Hs in E. change (sub32 1 1) with (Ok 0) in E. cbn [bind] in E. cbv zeta in E.
    rewrite back_nan in E by apply over_zero. pose proof (nan_poison powf pow expf nz strict) as PN.
    pose proof (po_addl _ PN mn) as K1. unfold qnan in K1. rewrite K1 in E.
    pose proof (po_mull _ PN sc) as K2. unfold qnan in K2. rewrite K2 in E.
    pose proof (po_round _ PN) as K3. unfold qnan in K3. rewrite K3 in E. congruence. }
  destruct (a_ty a); [congruence| |]; inv_as H p HP; destruct p; eapply Q; exact H.
Qed.
Lemma trunc2 : @d_trunc FM1 (@dpow2 FM1 1) = Some 2.
Proof. reflexivity. Qed.
Lemma trunc1 : @d_trunc FM1 (@dpow2 FM1 0) = Some 1.
Proof. reflexivity. Qed.
Lemma one_level_mvm (w : @world FM1) a : reach w -> digital_only (wcfg w) = false -> (adc_type (wcfg w) = SYM_RANGE_ADC /\ resolution (wcfg w) = 1 \/ adc_type (wcfg w) = POS_RANGE_ONLY_ADC /\ resolution (wcfg w) = 0) -> (is_int (m_mode (wcfg w)) = true -> SPLIT (wcfg w) <> []) ->
  (exists res vec mat m n, 1 <= m /\ 1 <= n /\ (a = PyMvm res vec mat m n \/ exists l, a = ExeMvm res vec mat m n l)) ->
  forall w' r, step w a <> Ok (w', RRes 0 r).
Proof.
  intros Hr Hd Ha Hsp Hcall w' r H. pose proof (reach_good w Hr) as Hg.
  assert (HM : forall x res vec mat m n l p q, wx w = Some x -> dims m n = Ok (p, q) -> 1 <= m -> 1 <= n ->
    forall t, xmvm (wcfg w) x res vec mat p q l (wenv w) <> Ok t).
  { intros x res vec mat m n l p q Hx D Hm Hn t T. pose proof (g_x _ Hg x Hx) as Hxo. pose proof (xo_shape _ _ Hxo) as Hsh.
    unfold xmvm in T. cbv zeta in T. rewrite Hd in T. inv_as T u U. destruct u as [mp1 e1].
    assert (K : mp_mode mp1 = m_mode (wcfg w) /\ mp_adc mp1 = mp_adc (xm x)).
    { destruct (c2c_var (wcfg w)); [|inversion U; split; [apply (sh_mode _ _ Hsh)|reflexivity]].
      unfold add_c2c in U. inv_as U v V. destruct v as [[? ?] ?]. inversion U. split; [apply (sh_mode _ _ Hsh)|reflexivity]. }
    destruct K as [K1 K2]. inv_as T v V. revert V.
    assert (p = Z.to_nat m /\ q = Z.to_nat n) as [-> ->].
    { unfold dims in D. destruct (_ || _) in D; [discriminate|]. inversion D. auto. }
    apply (@one_mvm FM1 (qnan powf pow expf nz strict) (nan_poison powf pow expf nz strict)); [|lia|lia|].
    - intros x0 sc off y. rewrite K2. pose proof (sh_adc _ _ Hsh) as SA. unfold adc_new in SA.
      destruct Ha as [[Ha Hres]|[Ha Hres]]; rewrite Ha, Hres in SA.
      + rewrite trunc2 in SA. change (in32 2) with true in SA. cbn iota in SA. change (sub32 2 1) with (Ok 1) in SA. cbn [bind] in SA.
        inversion SA as [Ea]. apply one_level; [discriminate|reflexivity].
      + rewrite trunc1 in SA. change (in32 1) with true in SA. cbn iota in SA.
        inversion SA as [Ea]. apply one_level; [discriminate|reflexivity].
    - rewrite K1. intros Hi. split; [unfold nsplit; specialize (Hsp Hi); destruct (SPLIT (wcfg w)); [easy|cbn; lia]|].
      destruct (good_loaded w Hg) as [L|E]; [apply (ld_bits _ L Hi)|]. rewrite E in Ha. destruct Ha as [[Ha _]|[Ha _]]; discriminate Ha. }
  destruct Hcall as (res & vec & mat & m & n & Hm & Hn & [->|(l & ->)]); cbn [step] in H.
  - unfold py_mvm in H. destruct (wx w) as [x|] eqn:X; cbn [deref bind] in H; [|discriminate]. inv_as H d D. destruct d as [p q].
    inv_as H t T. revert T. eapply HM; eauto.
  - unfold exe_mvm in H. destruct (wx w) as [x|] eqn:X; [|discriminate]. destruct (too_big _ _ _); [discriminate|].
    inv_as H d D. destruct d as [p q]. inv_as H t T. revert T. eapply HM; eauto.
Qed.
End Float.
