(** C34: in the integer modes that subtract two arrays, cycle noise leaves nothing of the weights. *)
From Coq Require Import String List ZArith Reals Bool Arith Lia Lra ZifyBool ZifyNat.
From RecordUpdate Require Import RecordSet.
From Flocq Require Import Core.
From Verif Require Import Base Lib Machine RMachine Json Config Histogram Adc ReadDisturb Parasitics
  Mapper IntMappers BnnMappers TnnMappers Crossbar Api Spec ConfigProofs CfgProps Shape AnaShape Reach DigApi Invar
  AnaWrite AdcProps StoreProps StepFacts Hoare Cells NoiseProps AnaReal ZeroSlice.
Import ListNotations RecordSetNotations.
Ltac Zify.zify_post_hook ::= idtac.
Local Open Scope Z_scope.
Local Open Scope out_scope.
Notation len := List.length.

Section RR.
Context (nz : bool -> nat -> R) (s : bool).
#[local] Hint Extern 0 Machine => exact (R_machine nz s) : typeclass_instances.
Notation RM := (R_machine nz s).

(** Adding or subtracting a current of 0. *)
Lemma f2i_back z y : @f2i RM (IZR z) = Ok y -> y = z.
Proof. unfold f2i. cbn. rewrite Ztrunc_IZR. destruct (in32 z); intros H; inversion H; reflexivity. Qed.
Lemma res_add0 res i r : @res_fadd RM res i 0%R = Ok r -> r = res.
Proof.
  unfold res_fadd. intros H. inv_as H x X. inv_as H y Y. cbn in Y. rewrite Rplus_0_r in Y. apply f2i_back in Y. subst y.
  apply (get_inv _ _ _ 0) in X. destruct X as [_ ->]. apply set_inv in H. destruct H as [_ ->]. apply upd_same.
Qed.
Lemma res_sub0 res i r : @res_fsub RM res i 0%R = Ok r -> r = res.
Proof.
  unfold res_fsub. intros H. inv_as H x X. inv_as H y Y. cbn in Y. rewrite Rminus_0_r in Y. apply f2i_back in Y. subst y.
  apply (get_inv _ _ _ 0) in X. destruct X as [_ ->]. apply set_inv in H. destruct H as [_ ->]. apply upd_same.
Qed.

Context (c : @config RM) (mp : @mapper RM) (m n : nat) (Hns : nsplit c = 1%nat) (Hpar : parasitics c = false)
  (Hinf : a_ty (mp_adc mp) = INF_ADC)
  (Heq : forall i j, (i < m)%nat -> (j < n)%nat -> forall x y, get2 (ia_p mp) i j = Ok x -> get2 (ia_m mp) i j = Ok y -> x = y).

Definition zeros (t : list (@F RM)) : Prop := forall k x, get t k = Ok x -> x = 0%R.
Lemma zeros_fill t : zeros (fill t (@f0 RM)).
Proof.
  intros k x H. unfold get, fill in H. rewrite nth_error_map in H. destruct (nth_error t k); cbn in H; [now inversion H|discriminate].
Qed.
Lemma zeros_currents vds vds' t t' : zeros t ->
  @slice_currents RM c mp (@fterm RM (ia_p mp) (ia_m mp) vds) vds' (m * nsplit c) n t = Ok t' -> zeros t'.
Proof.
  intros Hz H. unfold slice_currents in H. rewrite Hpar, Hns, Nat.mul_1_r in H. unfold facc2 in H.
  apply (forN_Ok (fun _ t => zeros t)) in H; [exact H|exact Hz|]. intros k a a' Hk Ha H0.
  apply (forN_Ok (fun _ t => zeros t)) in H0; [exact H0|exact Ha|]. intros j b b' Hj Hb E.
  inv_as E e T. apply (@faddto_get RM) in E. destruct E as (x & X & G1 & G2).
  unfold fterm in T. inv_as T p P. inv_as T q Q. inv_as T v V. inversion T; subst e. rewrite (Heq k j Hk Hj _ _ P Q) in G1.
  intros r y G. destruct (Nat.eq_dec r k) as [->|Hr]; [|rewrite G2 in G by exact Hr; exact (Hb _ _ G)].
  rewrite G1 in G. inversion G. cbn. rewrite (Hb _ _ X). ring.
Qed.
Lemma zeros_bit l bit neg sub t res r : zeros t -> @bit_add RM c mp l m bit neg sub t res = Ok r -> r = res.
Proof.
  intros Hz H. unfold bit_add in H. cbv zeta in H. apply (forN_Ok (fun _ r => r = res)) in H; [exact H|reflexivity|].
  intros i a a' Hi -> E. apply (forN_Ok (fun _ r => r = res)) in E; [exact E|reflexivity|].
  intros j b b' Hj -> E'. inv_as E' x X. inv_as E' sh SH. inv_as E' o O. inv_as E' stp ST. inv_as E' y Y.
  unfold adc1 in Y. rewrite Hinf in Y. assert (Y0 : y = 0%R). { inversion Y. rewrite (Hz _ _ X). cbn. ring. }
  rewrite Y0 in E'. destruct sub; [now apply res_sub0 in E'|now apply res_add0 in E'].
Qed.
Lemma zeros_loop l vd bits neg res t vds res' t' vds' : zeros t ->
  @bit_loop RM c mp l vd m n bits neg (res, t, vds) = Ok (res', t', vds') -> res' = res /\ zeros t'.
Proof.
  intros Hz H. unfold bit_loop in H.
  apply (forN_Ok (fun _ '(r, t, _) => r = res /\ zeros t)) in H; [exact H|split; auto|].
  intros b [[r1 t1] v1] [[r2 t2] v2] Hb [-> Ht] E. inv_as E v V. inv_as E t3 T. inv_as E r3 R3. inversion E; subst.
  apply zeros_currents in T; [|exact Ht]. apply zeros_bit in R3; [|exact T]. split; [exact R3|apply zeros_fill].
Qed.
Definition plain_diff (md : mode) : bool :=
  match md with I_DIFF_W_DIFF_1XB | I_DIFF_W_DIFF_2XB | I_TC_W_DIFF | I_UINT_W_DIFF => true | _ => false end.
Lemma zeros_mvm res vec mat l e r mp' e' : plain_diff (mp_mode mp) = true ->
  @a_mvm RM c mp res vec mat m n l e = Ok (r, mp', e') -> r = res.
Proof.
  intros Hm H. unfold a_mvm in H. cbv zeta in H.
  assert (K1 : forall r q, @int_i_a RM c mp res vec mat m n l = Ok (r, q) -> r = res).
  { intros r0 q E. unfold int_i_a in E. inv_as E v V. destruct v. inv_as E u U. destruct u as [[r1 t1] v1]. inv_as E u W. destruct u as [[r2 t2] v2].
    apply zeros_loop in U; [|apply zeros_fill]. destruct U as [-> U]. apply zeros_loop in W; [|exact U]. destruct W as [-> _]. now inversion E. }
  assert (K3 : forall r q, @int_iii_a RM c mp res vec mat m n l = Ok (r, q) -> r = res).
  { intros r0 q E. unfold int_iii_a in E. cbv zeta in E. inv_as E v V. inv_as E u U. destruct u as [[r1 t1] v1].
    apply zeros_loop in U; [|apply zeros_fill]. destruct U as [-> U]. inv_as E vds VD. inv_as E t T. inv_as E r2 R2.
    apply zeros_currents in T; [|exact U]. apply zeros_bit in R2; [|exact T]. inversion E. congruence. }
  assert (K4 : forall r q, @int_iv_a RM c mp res vec mat m n l = Ok (r, q) -> r = res).
  { intros r0 q E. unfold int_iv_a in E. inv_as E v V. inv_as E u U. destruct u as [[r1 t1] v1].
    apply zeros_loop in U; [|apply zeros_fill]. destruct U as [-> U]. now inversion E. }
  destruct (mp_mode mp); try discriminate Hm; inv_as H t T; destruct t as [r0 q]; inversion H; subst; eauto.
Qed.
End RR.

Section Api.
Context (nz : bool -> nat -> R) (s : bool).
#[local] Hint Extern 0 Machine => exact (R_machine nz s) : typeclass_instances.
Notation RM := (R_machine nz s).
Lemma noise_erases (w : @world RM) a w' res vec mat m n r : reach w -> plain_diff (m_mode (wcfg w)) = true ->
  digital_only (wcfg w) = false -> c2c_var (wcfg w) = true -> parasitics (wcfg w) = false ->
  adc_type (wcfg w) = INF_ADC -> len (SPLIT (wcfg w)) = 1%nat ->
  (@HRS_NOISE RM (wcfg w) <= 0)%R -> (@LRS_NOISE RM (wcfg w) <= 0)%R ->
  (a = PyMvm res vec mat m n \/ exists l, a = ExeMvm res vec mat m n l) ->
  step w a = Ok (w', RRes 0 r) -> r = res.
Proof.
  intros Hr Hm Hd Hc Hp Ha Hs N1 N2 Hcall H.
  assert (Hi : is_int (m_mode (wcfg w)) = true) by (destruct (m_mode (wcfg w)); easy).
  assert (HX : forall x p q l t x' e', wx w = Some x -> xmvm (wcfg w) x res vec mat p q l (wenv w) = Ok (t, x', e') -> t = res).
  { intros x p q l t x' e' X T. destruct (reach_bare _ _ Hr X Hi) as [B1 B2]. pose proof (reach_good _ Hr) as Hg.
    pose proof (g_x _ Hg x X) as Hxo. pose proof (xo_shape _ _ Hxo) as Hsh.
    unfold xmvm in T. cbv zeta in T. rewrite Hd, Hc in T. inv_as T u U. destruct u as [mp1 e1]. inv_as T v V. destruct v as [[r1 mp2] e2].
    assert (t = r1). { inv_as T mp3 T3. inv_as T y Y. destruct y. now inversion T. } subst r1. clear T.
    destruct (add_c2c_cells _ _ _ _ _ _ _ Hsh U) as (W1 & W2 & (ip & im & E) & _ & HC).
    apply (zeros_mvm nz s (wcfg w) mp1 p q) in V; auto.
    - rewrite E. change (a_ty (mp_adc (xm x)) = INF_ADC). pose proof (sh_adc _ _ Hsh) as SA. rewrite Ha in SA. unfold adc_new in SA.
      destruct (d_trunc _); [|discriminate]. destruct (in32 _); [|discriminate]. inversion SA as [Hy]. reflexivity.
    - intros i j Hi' Hj' x0 y0 G1 G2. apply (get2_inv 0%R _ _ _ _ _ _ W1) in G1. apply (get2_inv 0%R _ _ _ _ _ _ W2) in G2.
      destruct G1 as (I1 & J1 & ->), G2 as (_ & _ & ->). specialize (HC i j). unfold inside in HC.
      replace (_ && _) with true in HC by lia. destruct HC as [C1 C2].
      assert (Q1 : @fle RM (HRS_NOISE (wcfg w)) f0 = true) by (cbn; unfold rleb; destruct (Rle_dec _ _); [reflexivity|contradiction]).
      assert (Q2 : @fle RM (LRS_NOISE (wcfg w)) f0 = true) by (cbn; unfold rleb; destruct (Rle_dec _ _); [reflexivity|contradiction]).
      apply noisy_quiet in C1; auto. apply noisy_quiet in C2; auto. transitivity (@at2 R 0%R (ia_p0 (xm x)) i j); [exact C1|]. transitivity (@at2 R 0%R (ia_m0 (xm x)) i j); [|symmetry; exact C2].
      rewrite B1, B2. reflexivity.
    - rewrite E. cbn. rewrite (sh_mode _ _ Hsh). exact Hm. }
  destruct Hcall as [->|(l & ->)]; cbn [step] in H.
  - unfold py_mvm in H. destruct (wx w) as [x|] eqn:X; cbn [deref bind] in H; [|discriminate]. inv_as H d D. destruct d as [p q].
    inv_as H t T. destruct t as [[t x'] e']. inversion H; subst. eapply HX; eauto.
  - unfold exe_mvm in H. destruct (wx w) as [x|] eqn:X; [|discriminate]. destruct (too_big _ _ _); [discriminate|].
    inv_as H d D. destruct d as [p q]. inv_as H t T. destruct t as [[t x'] e']. inversion H; subst. eapply HX; eauto.
Qed.
End Api.

Lemma noise_erases_in (nz : bool -> nat -> R) (s : bool) (w : @world (R_machine nz s)) a w' res vec mat m n r : reach w ->
  In (m_mode (wcfg w)) [I_DIFF_W_DIFF_1XB; I_DIFF_W_DIFF_2XB; I_TC_W_DIFF; I_UINT_W_DIFF] ->
  digital_only (wcfg w) = false -> c2c_var (wcfg w) = true -> parasitics (wcfg w) = false ->
  adc_type (wcfg w) = INF_ADC -> len (SPLIT (wcfg w)) = 1%nat ->
  (@HRS_NOISE (R_machine nz s) (wcfg w) <= 0)%R -> (@LRS_NOISE (R_machine nz s) (wcfg w) <= 0)%R ->
  (a = PyMvm res vec mat m n \/ exists l, a = ExeMvm res vec mat m n l) ->
  step w a = Ok (w', RRes 0 r) -> r = res.
Proof. intros Hr Hm. apply noise_erases; [exact Hr|]. destruct Hm as [<-|[<-|[<-|[<-|[]]]]]; reflexivity. Qed.
