(** Two runs of the same MVM from states that differ in scratch vectors, in cells that are not
    read, in the noise position and in the histograms. *)
From Coq Require Import String List ZArith Bool Arith Lia.
From RecordUpdate Require Import RecordSet.
From Verif Require Import Base Lib Hoare Machine Json Config Histogram Adc ReadDisturb Parasitics
  Mapper IntMappers BnnMappers TnnMappers Crossbar Api Shape MvmShape AnaShape.
Import ListNotations RecordSetNotations.
Local Open Scope Z_scope.
Local Open Scope out_scope.
Notation len := List.length.

(** Related values when both runs succeed; the same kind of failure if [full]. *)
Definition kind {A} (o : out A) : out unit := _ <- o ;; Ok Datatypes.tt.
Section Rel.
Context (full : Prop).
Definition rel {A B} (R : A -> B -> Prop) (o1 : out A) (o2 : out B) : Prop :=
  (forall a b, o1 = Ok a -> o2 = Ok b -> R a b) /\ (full -> kind o1 = kind o2).

Lemma rel_ret {A B} (R : A -> B -> Prop) a b : R a b -> rel R (Ok a) (Ok b).
Proof. intros H. split; [|reflexivity]. intros a' b' E1 E2. congruence. Qed.
Lemma rel_eq {A} (R : A -> A -> Prop) o1 o2 : o1 = o2 -> (forall a, R a a) -> rel R o1 o2.
Proof. intros -> H. split; [|reflexivity]. intros a b E1 E2. replace b with a by congruence. apply H. Qed.
Lemma rel_same {A} (o1 o2 : out A) : o1 = o2 -> rel eq o1 o2.
Proof. intros H. now apply rel_eq. Qed.
Lemma rel_weak {A B} (R S : A -> B -> Prop) o1 o2 : rel R o1 o2 -> (forall a b, R a b -> S a b) -> rel S o1 o2.
Proof. intros [H1 H2] H. split; auto. Qed.
Lemma rel_bind {A B C D} (R : A -> B -> Prop) (S : C -> D -> Prop) o1 o2 f g :
  rel R o1 o2 -> (forall a b, R a b -> rel S (f a) (g b)) -> rel S (bind o1 f) (bind o2 g).
Proof.
  intros [H1 H2] H. destruct o1 as [a|u1| |], o2 as [b|u2| |]; cbn [bind];
    try (apply (H a b); auto; fail);
    (split; [intros a0 b0 E1 E2; congruence|intros Hf; specialize (H2 Hf); cbn in H2; cbn; congruence]).
Qed.
Lemma rel_bind_eq {A C D} (S : C -> D -> Prop) (o1 o2 : out A) f g :
  o1 = o2 -> (forall a, rel S (f a) (g a)) -> rel S (bind o1 f) (bind o2 g).
Proof. intros E H. apply (rel_bind eq); [now apply rel_same|]. intros a b ->. apply H. Qed.
Lemma rel_forN {A B} (I : nat -> A -> B -> Prop) n f g s t : I O s t ->
  (forall k a b, (k < n)%nat -> I k a b -> rel (I (S k)) (f k a) (g k b)) -> rel (I n) (forN n f s) (forN n g t).
Proof.
  intros H0 H. induction n as [|n IH]; cbn [forN]; [now apply rel_ret|].
  apply (rel_bind (I n)); [apply IH; auto|]. intros a b HI. apply H; auto.
Qed.
Lemma rel_inv {A B} (R : A -> B -> Prop) o1 o2 a b : rel R o1 o2 -> o1 = Ok a -> o2 = Ok b -> R a b.
Proof. intros [H _]. apply H. Qed.

(** Vectors that agree on the first [n] entries. *)
Definition eqn {A} (n : nat) (v w : list A) : Prop :=
  len v = len w /\ forall j, (j < n)%nat -> get v j = get w j.
Lemma eqn_0 {A} (v w : list A) : len v = len w -> eqn 0 v w.
Proof. intros H. split; [exact H|]. lia. Qed.
Lemma eqn_refl {A} n (v : list A) : eqn n v v.
Proof. split; auto. Qed.
Lemma get_upd {A} (v : list A) i x j : (i < len v)%nat -> get (upd v i x) j = if (j =? i)%nat then Ok x else get v j.
Proof.
  intros H. unfold get. revert i j H. induction v as [|y v IH]; intros i j H; [cbn in H; lia|].
  destruct i, j; cbn in *; auto. rewrite IH by lia. reflexivity.
Qed.
Lemma eqn_set {A} n (v w : list A) x : eqn n v w -> rel (eqn (S n)) (set v n x) (set w n x).
Proof.
  intros [HL HE]. unfold set. rewrite HL. destruct (Nat.ltb_spec n (len w)).
  - apply rel_ret. split; [now rewrite !upd_length|]. intros j Hj. rewrite !get_upd by lia.
    destruct (Nat.eqb_spec j n); auto. apply HE. lia.
  - split; [intros a b E; discriminate|reflexivity].
Qed.
(** An entry written a second time. *)
Lemma eqn_reset {A} n k (v w : list A) x : (k < n)%nat -> eqn n v w -> rel (eqn n) (set v k x) (set w k x).
Proof.
  intros Hk [HL HE]. unfold set. rewrite HL. destruct (Nat.ltb_spec k (len w)).
  - apply rel_ret. split; [now rewrite !upd_length|]. intros j Hj. rewrite !get_upd by lia.
    destruct (Nat.eqb_spec j k); auto.
  - split; [intros a b E; discriminate|reflexivity].
Qed.
Lemma eqn_firstn {A} n (v w : list A) : eqn n v w -> firstn n v = firstn n w.
Proof.
  revert v w. induction n as [|n IH]; intros v w [HL HE]; [reflexivity|].
  destruct v as [|x v], w as [|y w]; try discriminate HL; [reflexivity|]. cbn.
  pose proof (HE O ltac:(lia)) as H0. unfold get in H0. cbn in H0. injection H0 as ->. f_equal. apply IH.
  split; [cbn in HL; lia|]. intros j Hj. apply (HE (S j)). lia.
Qed.
Lemma eqn_len {A} n (v w : list A) : eqn n v w -> len v = len w.
Proof. now intros []. Qed.
Lemma fill_eq {A} (v w : list A) x : len v = len w -> fill v x = fill w x.
Proof. intros H. now rewrite !fill_repeat, H. Qed.

Ltac step_eq := apply rel_bind_eq; [reflexivity|intros].
Ltac done_pair := apply rel_ret; cbn; auto.

Context {MC : Machine}.

Lemma load_rel vec n f v w : len v = len w -> rel (eqn n) (load vec n f v) (load vec n f w).
Proof.
  intros H. unfold load. apply (rel_forN (fun k => eqn k)); [now apply eqn_0|]. intros k a b Hk HI.
  step_eq. step_eq. now apply eqn_set.
Qed.
Definition eqn2 (n : nat) (a b : list Z * list Z) : Prop := eqn n (fst a) (fst b) /\ eqn n (snd a) (snd b).
Lemma pair_set n p m p' m' x y : eqn n p p' -> eqn n m m' ->
  rel (eqn2 (S n)) (a <- set p n x ;; b <- set m n y ;; Ok (a, b)) (a <- set p' n x ;; b <- set m' n y ;; Ok (a, b)).
Proof.
  intros H1 H2. apply (rel_bind (eqn (S n))); [now apply eqn_set|]. intros a b Ha.
  apply (rel_bind (eqn (S n))); [now apply eqn_set|]. intros a' b' Hb. apply rel_ret. now split.
Qed.
Lemma pair_set' n p m p' m' x y : eqn n p p' -> eqn n m m' ->
  rel (eqn2 (S n)) (b <- set m n y ;; a <- set p n x ;; Ok (a, b)) (b <- set m' n y ;; a <- set p' n x ;; Ok (a, b)).
Proof.
  intros H1 H2. apply (rel_bind (eqn (S n))); [now apply eqn_set|]. intros a b Ha.
  apply (rel_bind (eqn (S n))); [now apply eqn_set|]. intros a' b' Hb. apply rel_ret. now split.
Qed.
Lemma fail_rel {A B} (R : A -> B -> Prop) : rel R Died Died.
Proof. split; [discriminate|reflexivity]. Qed.
Lemma split_pm_rel vec n vp vm wp wm : len vp = len wp -> len vm = len wm ->
  rel (eqn2 n) (split_pm vec n vp vm) (split_pm vec n wp wm).
Proof.
  intros H1 H2. unfold split_pm. apply (rel_forN (fun k => eqn2 k)); [split; now apply eqn_0|].
  intros k [a b] [a' b'] Hk [HI HJ]. cbn [fst snd] in *. step_eq. destruct (0 <=? a0).
  - now apply pair_set.
  - apply (rel_bind (eqn (S k))); [now apply eqn_set|]. intros c c' Hc. step_eq.
    apply (rel_bind (eqn (S k))); [now apply eqn_set|]. intros d d' Hd. apply rel_ret. now split.
Qed.
Lemma two_rail_rel tern vec n vp vm wp wm : len vp = len wp -> len vm = len wm ->
  rel (eqn2 n) (two_rail tern vec n vp vm) (two_rail tern vec n wp wm).
Proof.
  intros H1 H2. unfold two_rail. apply (rel_forN (fun k => eqn2 k)); [split; now apply eqn_0|].
  intros k [a b] [a' b'] Hk [HI HJ]. cbn [fst snd] in *. step_eq. destruct (a0 =? 1); [now apply pair_set|].
  destruct (a0 =? -1); [now apply pair_set'|]. destruct (tern && (a0 =? 0)); [now apply pair_set'|apply fail_rel].
Qed.
Definition eqn3 (n : nat) (a b : list Z * list Z * Z) : Prop := eqn2 n (fst a) (fst b) /\ snd a = snd b.
Lemma two_rail_sum_rel vec n vp vm wp wm : len vp = len wp -> len vm = len wm ->
  rel (eqn3 n) (two_rail_sum vec n vp vm) (two_rail_sum vec n wp wm).
Proof.
  intros H1 H2. unfold two_rail_sum. apply (rel_forN (fun k => eqn3 k)); [split; [split; now apply eqn_0|reflexivity]|].
  intros k [[a b] s] [[a' b'] s'] Hk [[HI HJ] HS]. cbn [fst snd] in *. subst s'. step_eq. step_eq. destruct (a0 =? 1).
  - apply (rel_bind (eqn (S k))); [now apply eqn_set|]. intros c c' Hc.
    apply (rel_bind (eqn (S k))); [now apply eqn_set|]. intros d d' Hd. apply rel_ret. repeat split; auto; try apply Hc; apply Hd.
  - destruct (a0 =? -1); [|apply fail_rel].
    apply (rel_bind (eqn (S k))); [now apply eqn_set|]. intros c c' Hc.
    apply (rel_bind (eqn (S k))); [now apply eqn_set|]. intros d d' Hd. apply rel_ret. repeat split; auto; try apply Hd; apply Hc.
Qed.
Lemma slice_vd_rel vd wd vds wds n bit : eqn n vd wd -> len vds = len wds ->
  rel (eqn n) (slice_vd vd vds n bit) (slice_vd wd wds n bit).
Proof.
  intros [_ HE] HL. unfold slice_vd. apply (rel_forN (fun k => eqn k)); [now apply eqn_0|]. intros k a b Hk HI.
  apply rel_bind_eq; [now apply HE|]. intros v. step_eq. now apply eqn_set.
Qed.

(** ** Currents *)
Lemma encode_i_eq p vp wp vm wm n : eqn n vp wp ->
  match vm, wm with Some v, Some w => eqn n v w | None, None => True | _, _ => False end ->
  encode_i p vp vm n = encode_i p wp wm n.
Proof.
  intros [_ H1] H2. unfold encode_i. destruct (ienc_double _); apply forN_ext; intros j s Hj; rewrite H1 by exact Hj.
  - destruct (get wp j); cbn [bind]; auto. destruct (set s _ _); cbn [bind]; auto.
    destruct vm as [v|], wm as [w|]; try contradiction; cbn [optval bind]; auto. destruct H2 as [_ H2]. now rewrite H2.
  - reflexivity.
Qed.
Lemma compute_eq p vp wp vm wm m n : eqn n vp wp -> eqn n vm wm ->
  compute_currents p vp vm m n = compute_currents p wp wm m n.
Proof.
  intros H1 H2. unfold compute_currents. destruct p as [p|]; [|reflexivity].
  rewrite (encode_i_eq p vp wp (match vm with [] => None | _ => Some vm end) (match wm with [] => None | _ => Some wm end) n); auto.
  pose proof (eqn_len _ _ _ H2) as HL. destruct vm, wm; try discriminate HL; auto.
Qed.
Lemma facc2_ext r c t1 t2 arr : (forall i j, (i < r)%nat -> (j < c)%nat -> t1 i j = t2 i j) -> facc2 r c t1 arr = facc2 r c t2 arr.
Proof.
  intros H. unfold facc2. apply forN_ext. intros i a Hi. apply forN_ext. intros j b Hj. now rewrite H.
Qed.

(** Cells agree where an MVM over [r] rows and [n] columns reads them. *)
Definition agree {A} (r n : nat) (a b : list (list A)) : Prop :=
  forall i j, (i < r)%nat -> (j < n)%nat -> get2 a i j = get2 b i j.
Lemma fterm_eq r n (a b a' b' : list (list F)) v w i j : agree r n a a' -> agree r n b b' -> eqn n v w ->
  (i < r)%nat -> (j < n)%nat -> fterm a b v i j = fterm a' b' w i j.
Proof. intros H1 H2 [_ H3] Hi Hj. unfold fterm. now rewrite H1, H2, H3. Qed.
Lemma fterm1_eq r n (a a' : list (list F)) v w i j : agree r n a a' -> eqn n v w ->
  (i < r)%nat -> (j < n)%nat -> fterm1 a v i j = fterm1 a' w i j.
Proof. intros H1 [_ H3] Hi Hj. unfold fterm1. now rewrite H1, H3. Qed.

(** The states of two mappers before an MVM of [m] x [n] under configuration [c]. *)
Record twin (c : config) (m n : nat) (mp mq : mapper) : Prop := {
  tw_mode : mp_mode mq = mp_mode mp;
  tw_shift : shift mq = shift mp;
  tw_sw : sum_w mq = sum_w mp;
  tw_step : i_step mq = i_step mp;
  tw_imm : i_mm mq = i_mm mp;
  tw_delta : delta mq = delta mp;
  tw_adc : mp_adc mq = mp_adc mp;
  tw_par : par mq = par mp;
  tw_vp : len (vd_p mq) = len (vd_p mp);
  tw_vm : has_vdm (mp_mode mp) = true -> len (vd_m mq) = len (vd_m mp);
  tw_vs : is_int (mp_mode mp) = true -> len (vd_slice mq) = len (vd_slice mp);
  tw_tmp : is_int (mp_mode mp) = false -> len (tmp mq) = len (tmp mp);
  tw_tp : mp_mode mp = BNN_III \/ mp_mode mp = BNN_IV -> len (tmp_p mq) = len (tmp_p mp);
  tw_tm : mp_mode mp = BNN_III \/ mp_mode mp = BNN_IV -> len (tmp_m mq) = len (tmp_m mp);
  tw_tl : mp_mode mp = TNN_IV \/ mp_mode mp = TNN_V -> len (tmp_lsb mq) = len (tmp_lsb mp);
  tw_th : mp_mode mp = TNN_IV \/ mp_mode mp = TNN_V -> len (tmp_msb mq) = len (tmp_msb mp);
  tw_tf : (is_int (mp_mode mp) = true /\ parasitics c = false) \/ mp_mode mp = TNN_IV \/ mp_mode mp = TNN_V -> len (tmp_fp mq) = len (tmp_fp mp);
  tw_rf : mp_mode mp = I_UINT_W_OFFS -> len (res_fp mq) = len (res_fp mp);
  tw_ia : parasitics c = false -> let r := if is_int (mp_mode mp) then (m * nsplit c)%nat else m in
    agree r n (ia_p mp) (ia_p mq) /\ agree r n (ia_m mp) (ia_m mq)
}.

Section T.
Context (c : config) (m n : nat) (mp mq : mapper) (HT : twin c m n mp mq) 
  (E : env -> env -> Prop)
  (HE : forall l v e e', E e e' ->
     rel E (if adc_profile c then profile c (mp_adc mp) l v e else Ok e) (if adc_profile c then profile c (mp_adc mp) l v e' else Ok e')).
Notation same := (fun a b => fst a = fst b /\ E (snd a) (snd b)).

Ltac lens := symmetry; apply HT; auto.

Lemma currents_eq t1 t2 vp wp vm wm s1 s2 : (is_int (mp_mode mp) = false) -> eqn n vp wp -> eqn n vm wm -> len s1 = len s2 ->
  (agree m n (ia_p mp) (ia_p mq) -> agree m n (ia_m mp) (ia_m mq) -> forall i j, (i < m)%nat -> (j < n)%nat -> t1 i j = t2 i j) ->
  currents c mp t1 vp vm m n (fill s1 f0) = currents c mq t2 wp wm m n (fill s2 f0).
Proof.
  intros Hi H1 H2 HL HC. unfold currents. rewrite (tw_par _ _ _ _ _ HT). destruct (parasitics c) eqn:Epar.
  - now apply compute_eq.
  - rewrite (fill_eq s1 s2) by exact HL. pose proof (tw_ia _ _ _ _ _ HT Epar) as HA. cbv zeta in HA. rewrite Hi in HA. destruct HA. now apply facc2_ext, HC.
Qed.
Lemma inv_imm_eq k : inv_imm mp k = inv_imm mq k.
Proof. unfold inv_imm. now rewrite (tw_imm _ _ _ _ _ HT). Qed.
Lemma adc_rel l t sc off e e' : E e e' -> rel same (adc_vec c (mp_adc mp) l m t sc off e) (adc_vec c (mp_adc mq) l m t sc off e').
Proof.
  intros He. rewrite (tw_adc _ _ _ _ _ HT). unfold adc_vec. destruct (len t <? m)%nat; [apply fail_rel|].
  apply (rel_bind E); [now apply HE|]. intros a b Hab. step_eq. apply rel_ret. auto.
Qed.
Lemma adc_rel' l t t' sc off e e' : eqn m t t' -> E e e' ->
  rel (fun a b => eqn m (fst a) (fst b) /\ E (snd a) (snd b))
    (adc_vec c (mp_adc mp) l m t sc off e) (adc_vec c (mp_adc mq) l m t' sc off e').
Proof.
  intros HV He. rewrite (tw_adc _ _ _ _ _ HT). unfold adc_vec. rewrite (eqn_len _ _ _ HV), (eqn_firstn _ _ _ HV).
  destruct (len t' <? m)%nat; [apply fail_rel|]. apply (rel_bind E); [now apply HE|].
  intros a b Hab. apply (rel_bind (eqn m)); [|intros x y Hx; apply rel_ret; auto].
  apply (rel_forN (fun _ => eqn m)); [exact HV|]. intros k x y Hk Hx. apply rel_bind_eq; [now apply Hx|]. intros z.
  step_eq. now apply eqn_reset.
Qed.

(** One result, whatever else is returned. *)
Definition same_res (a b : list Z * mapper * env) : Prop := fst (fst a) = fst (fst b) /\ E (snd a) (snd b).
Definition same_ires (a b : list Z * mapper) : Prop := fst a = fst b.

Context (res vec mat mat' : list Z) (l : string) (e e' : env) (He : E e e').
Ltac adc_step := apply (rel_bind same); [apply adc_rel; auto|]; intros [?t ?e] [?t' ?e'] [?Ht ?He]; cbn [fst snd] in *; subst.

Lemma bnn_i_twin : is_int (mp_mode mp) = false -> rel same_res (bnn_i_a c mp res vec mat m n l e) (bnn_i_a c mq res vec mat' m n l e').
Proof.
  intros Hi. unfold bnn_i_a. apply (rel_bind (eqn n)); [apply load_rel; lens|]. intros v w Hv.
  apply rel_bind_eq. { apply currents_eq; auto; [apply eqn_refl|lens|]. intros. eapply fterm_eq; eauto. } intros t.
  apply rel_bind_eq; [apply inv_imm_eq|]. intros sc. adc_step. rewrite (tw_sw _ _ _ _ _ HT). step_eq. apply rel_ret; now split.
Qed.
Lemma bnn_ii_twin : is_int (mp_mode mp) = false -> rel same_res (bnn_ii_a c mp res vec mat m n l e) (bnn_ii_a c mq res vec mat' m n l e').
Proof.
  intros Hi. unfold bnn_ii_a. apply (rel_bind (eqn n)); [apply load_rel; lens|]. intros v w Hv.
  apply rel_bind_eq. { apply currents_eq; auto; [apply eqn_refl|lens|]. intros. eapply fterm_eq; eauto. } intros t.
  apply rel_bind_eq; [apply inv_imm_eq|]. intros sc. adc_step. rewrite (tw_sw _ _ _ _ _ HT). step_eq. apply rel_ret; now split.
Qed.
Lemma bnn_iii_twin inv : mp_mode mp = BNN_III \/ mp_mode mp = BNN_IV -> has_vdm (mp_mode mp) = true -> is_int (mp_mode mp) = false ->
  rel same_res (bnn_iii_iv_a inv c mp res vec mat m n l e) (bnn_iii_iv_a inv c mq res vec mat' m n l e').
Proof.
  intros Hm Hd Hi. unfold bnn_iii_iv_a. apply (rel_bind (eqn3 n)); [apply two_rail_sum_rel; lens|].
  intros [[v v'] s] [[w w'] s'] [[Hv Hv'] Hs]. cbn [fst snd] in *. subst s'.
  apply rel_bind_eq. { apply currents_eq; auto; [apply eqn_refl|lens|]. intros. eapply fterm1_eq; eauto. } intros t.
  apply rel_bind_eq. { apply currents_eq; auto; [apply eqn_refl|lens|]. intros. eapply fterm1_eq; eauto. } intros t'.
  apply rel_bind_eq; [apply inv_imm_eq|]. intros sc. step_eq. adc_step. adc_step. step_eq. apply rel_ret; now split.
Qed.
Lemma bnn_v_twin : has_vdm (mp_mode mp) = true -> is_int (mp_mode mp) = false -> rel same_res (bnn_v_a c mp res vec mat m n l e) (bnn_v_a c mq res vec mat' m n l e').
Proof.
  intros Hd Hi. unfold bnn_v_a. apply (rel_bind (eqn2 n)); [apply two_rail_rel; lens|].
  intros [v v'] [w w'] [Hv Hv']. cbn [fst snd] in *.
  apply rel_bind_eq.
  { apply currents_eq; auto; [lens|]. intros. rewrite (fterm1_eq m n (ia_p mp) (ia_p mq) v w) by auto.
    now rewrite (fterm1_eq m n (ia_m mp) (ia_m mq) v' w') by auto. } intros t.
  apply rel_bind_eq; [apply inv_imm_eq|]. intros sc. adc_step. step_eq. apply rel_ret; now split.
Qed.
Lemma quad_twin tern : has_vdm (mp_mode mp) = true -> is_int (mp_mode mp) = false ->
  rel same_res (quad_a tern c mp res vec mat m n l e) (quad_a tern c mq res vec mat' m n l e').
Proof.
  intros Hd Hi. unfold quad_a. apply (rel_bind (eqn2 n)); [apply two_rail_rel; lens|].
  intros [v v'] [w w'] [Hv Hv']. cbn [fst snd] in *.
  apply rel_bind_eq.
  { apply currents_eq; auto; [lens|]. intros A1 A2 i j Hi' Hj. unfold fquad.
    now rewrite !(fterm1_eq m n (ia_p mp) (ia_p mq) v w), !(fterm1_eq m n (ia_m mp) (ia_m mq) v' w'),
      !(fterm1_eq m n (ia_m mp) (ia_m mq) v w), !(fterm1_eq m n (ia_p mp) (ia_p mq) v' w') by auto. } intros t.
  apply rel_bind_eq; [apply inv_imm_eq|]. intros sc. adc_step. step_eq. apply rel_ret; now split.
Qed.
Lemma tnn_slice_rel v w k sub t t' r d d' : is_int (mp_mode mp) = false -> eqn n v w -> len t = len t' -> E d d' ->
  rel same (tnn_slice c mp v m n l k sub t r d) (tnn_slice c mq w m n l k sub t' r d').
Proof.
  intros Hi Hv HL Hd. unfold tnn_slice.
  apply rel_bind_eq. { apply currents_eq; auto; [apply eqn_refl|]. intros. eapply fterm_eq; eauto. } intros t1.
  apply rel_bind_eq; [apply inv_imm_eq|]. intros sc. adc_step. step_eq. apply rel_ret; now split.
Qed.
Lemma tnn_ii_twin : is_int (mp_mode mp) = false -> rel same_res (tnn_ii_a c mp res vec mat m n l e) (tnn_ii_a c mq res vec mat' m n l e').
Proof.
  intros Hi. unfold tnn_ii_a. apply (rel_bind (eqn n)); [apply load_rel; lens|]. intros v w Hv.
  apply (rel_bind same); [apply tnn_slice_rel; auto; lens|].
  intros [[r t] d] [[r' t'] d'] [Hr Hd]. cbn [fst snd] in Hr, Hd. injection Hr as -> ->.
  apply (rel_bind (eqn n)); [apply load_rel; apply Hv|]. intros v1 w1 Hv1.
  apply (rel_bind same); [apply tnn_slice_rel; auto|].
  intros [[r t] d1] [[r1 t1] d1'] [Hr Hd1]. cbn [fst snd] in Hr, Hd1. injection Hr as -> ->. apply rel_ret; now split.
Qed.
Lemma tnn_iii_twin : is_int (mp_mode mp) = false -> rel same_res (tnn_iii_a c mp res vec mat m n l e) (tnn_iii_a c mq res vec mat' m n l e').
Proof.
  intros Hi. unfold tnn_iii_a. apply (rel_bind (eqn n)); [apply load_rel; lens|]. intros v w Hv.
  apply (rel_bind same); [apply tnn_slice_rel; auto; lens|].
  intros [[r t] d] [[r' t'] d'] [Hr Hd]. cbn [fst snd] in Hr, Hd. injection Hr as -> ->.
  apply (rel_bind (eqn n)); [apply load_rel; apply Hv|]. intros v1 w1 Hv1.
  apply (rel_bind same); [apply tnn_slice_rel; auto|].
  intros [[r t] d1] [[r1 t1] d1'] [Hr Hd1]. cbn [fst snd] in Hr, Hd1. injection Hr as -> ->.
  rewrite (tw_sw _ _ _ _ _ HT). step_eq. apply rel_ret; now split.
Qed.
(** TNN_IV, TNN_V *)
Lemma tc_pass_rel ia ia' v w k off sub t t' fp d d' : parasitics c = false -> agree m n ia ia' -> eqn n v w -> len t = len t' -> E d d' ->
  rel same (tc_pass c mp ia v m n l k off sub t fp d) (tc_pass c mq ia' w m n l k off sub t' fp d').
Proof.
  intros Hp Ha Hv HL Hd. unfold tc_pass. rewrite (fill_eq t t') by exact HL.
  apply rel_bind_eq. { apply facc2_ext. intros. eapply fterm1_eq; eauto. } intros t1.
  apply rel_bind_eq; [apply inv_imm_eq|]. intros sc. adc_step. step_eq. apply rel_ret; now split.
Qed.
Lemma tc_par_rel v w off s1 s2 lsb msb lsb' msb' fp d d' : eqn n v w -> len lsb = len lsb' -> len msb = len msb' -> E d d' ->
  rel (fun a b => let '(t, l1, h1, f1, d1) := a in let '(t', l2, h2, f2, d2) := b in t = t' /\ len l1 = len l2 /\ len h1 = len h2 /\ f1 = f2 /\ E d1 d2)
    (tc_pass_par c mp v m n l off s1 s2 lsb msb fp d) (tc_pass_par c mq w m n l off s1 s2 lsb' msb' fp d').
Proof.
  intros Hv H1 H2 Hd. unfold tc_pass_par. rewrite (tw_par _ _ _ _ _ HT), (compute_eq _ v w [] []) by (auto; apply eqn_refl).
  step_eq. rename a into t.
  apply (rel_bind (fun a b => eqn m (fst a) (fst b) /\ eqn m (snd a) (snd b))).
  { apply (rel_forN (fun k a b => eqn k (fst a) (fst b) /\ eqn k (snd a) (snd b))); [split; now apply eqn_0|].
    intros k [a b] [a' b'] Hk [HI HJ]. cbn [fst snd] in *. step_eq.
    apply (rel_bind (eqn (S k))); [now apply eqn_set|]. intros x x' Hx. step_eq.
    apply (rel_bind (eqn (S k))); [now apply eqn_set|]. intros y y' Hy. apply rel_ret. auto. }
  intros [lb hb] [lb' hb'] [HI HJ]. cbn [fst snd] in *.
  apply rel_bind_eq; [apply inv_imm_eq|]. intros sc1.
  apply (rel_bind (fun a b => eqn m (fst a) (fst b) /\ E (snd a) (snd b))); [now apply adc_rel'|]. intros [lc e1] [lc' e1'] [Hl He1]. cbn [fst snd] in Hl, He1.
  apply rel_bind_eq; [apply inv_imm_eq|]. intros sc2.
  apply (rel_bind (fun a b => eqn m (fst a) (fst b) /\ E (snd a) (snd b))); [now apply adc_rel'|]. intros [hc e2] [hc' e2'] [Hh He2]. cbn [fst snd] in Hh, He2.
  apply rel_bind_eq.
  { apply forN_ext. intros i f Hi. rewrite (proj2 Hl i Hi). destruct (get lc' i); cbn [bind]; auto.
    destruct (if s1 then _ else _); cbn [bind]; auto. now rewrite (proj2 Hh i Hi). }
  intros f. apply rel_ret. split; [auto|]. split; [apply Hl|]. split; [apply Hh|]. auto.
Qed.
Lemma tnn_tc_twin v : mp_mode mp = TNN_IV \/ mp_mode mp = TNN_V -> has_vdm (mp_mode mp) = true -> is_int (mp_mode mp) = false ->
  rel same_res (tnn_tc_a v c mp res vec mat m n l e) (tnn_tc_a v c mq res vec mat' m n l e').
Proof.
  intros Hm Hd Hi. unfold tnn_tc_a. destruct (split11 _); [|apply fail_rel]. cbv zeta.
  rewrite (fill_eq (tmp_fp mq) (tmp_fp mp)) by (apply HT; auto).
  step_eq. rename a into isum. apply (rel_bind (eqn2 n)); [apply two_rail_rel; lens|].
  intros [vp vm] [wp wm] [Hv Hw]. cbn [fst snd] in *. step_eq. rename a into i3.
  apply (rel_bind (fun (a b : list F * list F * list F * list F * env) => let '(_, _, _, f1, d1) := a in let '(_, _, _, f2, d2) := b in f1 = f2 /\ E d1 d2)).
  - destruct (parasitics c) eqn:Ep.
    + eapply rel_bind; [apply tc_par_rel; [exact Hv|lens|lens|exact He]|].
      intros [[[[t lb] hb] f] d] [[[[t' lb'] hb'] f'] d'] (_ & H1 & H2 & -> & Hd1).
      eapply rel_weak; [apply tc_par_rel; auto|]. intros [[[[? ?] ?] ?] ?] [[[[? ?] ?] ?] ?]. tauto.
    + destruct (tw_ia _ _ _ _ _ HT Ep) as [A1 A2]. rewrite Hi in A1, A2.
      assert (HP : forall ia ia' v w k off sub t t' fp d d', agree m n ia ia' -> eqn n v w -> len t = len t' -> E d d' -> forall X Y,
        (forall t fp d d', E d d' -> rel (fun (a b : list F * list F * list F * list F * env) => let '(_, _, _, f1, d1) := a in let '(_, _, _, f2, d2) := b in f1 = f2 /\ E d1 d2) (X (t, fp, d)) (Y (t, fp, d'))) ->
        rel (fun (a b : list F * list F * list F * list F * env) => let '(_, _, _, f1, d1) := a in let '(_, _, _, f2, d2) := b in f1 = f2 /\ E d1 d2) (bind (tc_pass c mp ia v m n l k off sub t fp d) X) (bind (tc_pass c mq ia' w m n l k off sub t' fp d') Y)).
      { intros ia ia' v0 w0 k off sub t t' fp d d' H1 H2 H3 H3' X Y H4. eapply rel_bind; [apply tc_pass_rel; eauto|].
        intros [[t1 f1] d1] [[t2 f2] d2] [HQ HR]. cbn [fst snd] in HQ, HR. injection HQ as -> ->. now apply H4. }
      apply HP; auto; [lens|]. intros. apply HP; auto. intros. apply HP; auto. intros. apply HP; auto.
      intros. apply rel_ret. auto.
  - intros [[[[? ?] ?] f] ?] [[[[? ?] ?] f'] ?] [-> ?]. step_eq. apply rel_ret; now split.
Qed.

(** ** Integer modes *)
Lemma slice_rel t1 t2 v w s1 s2 : is_int (mp_mode mp) = true -> eqn n v w -> (parasitics c = false -> s1 = s2) ->
  (agree (m * nsplit c) n (ia_p mp) (ia_p mq) -> agree (m * nsplit c) n (ia_m mp) (ia_m mq) ->
   forall i j, (i < m * nsplit c)%nat -> (j < n)%nat -> t1 i j = t2 i j) ->
  slice_currents c mp t1 v (m * nsplit c) n s1 = slice_currents c mq t2 w (m * nsplit c) n s2.
Proof.
  intros Hi Hv HS HC. unfold slice_currents. rewrite (tw_par _ _ _ _ _ HT). destruct (parasitics c) eqn:Epar.
  - apply compute_eq; [exact Hv|apply eqn_refl].
  - rewrite (HS eq_refl). pose proof (tw_ia _ _ _ _ _ HT Epar) as HA. cbv zeta in HA. rewrite Hi in HA. destruct HA. now apply facc2_ext, HC.
Qed.
Lemma bit_add_eq bit neg sub t r : bit_add c mp l m bit neg sub t r = bit_add c mq l m bit neg sub t r.
Proof. unfold bit_add. now rewrite (tw_shift _ _ _ _ _ HT), (tw_step _ _ _ _ _ HT), (tw_adc _ _ _ _ _ HT). Qed.
Definition istate (a b : list Z * list F * list Z) : Prop :=
  let '(r, t, v) := a in let '(r', t', v') := b in r = r' /\ (parasitics c = false -> t = t') /\ len v = len v'.
Lemma bit_loop_rel v w bits neg st st' : is_int (mp_mode mp) = true -> eqn n v w -> istate st st' ->
  rel istate (bit_loop c mp l v m n bits neg st) (bit_loop c mq l w m n bits neg st').
Proof.
  intros Hi Hv HS. unfold bit_loop. apply (rel_forN (fun _ => istate)); [exact HS|].
  intros k [[r t] vs] [[r' t'] vs'] Hk (-> & Ht & HL).
  apply (rel_bind (eqn n)); [now apply slice_vd_rel|]. intros x y Hx.
  apply rel_bind_eq. { apply slice_rel; auto. intros. eapply fterm_eq; eauto. } intros t1. rewrite bit_add_eq. step_eq.
  apply rel_ret. split; [auto|]. split; [auto|]. apply Hx.
Qed.
Lemma start_ok r : is_int (mp_mode mp) = true -> istate (r, fill (tmp_fp mp) f0, vd_slice mp) (r, fill (tmp_fp mq) f0, vd_slice mq).
Proof.
  intros Hi. split; [auto|]. split; [|lens]. intros Hp. apply fill_eq. lens.
Qed.
Lemma int_i_twin : has_vdm (mp_mode mp) = true -> is_int (mp_mode mp) = true -> rel same_ires (int_i_a c mp res vec mat m n l) (int_i_a c mq res vec mat' m n l).
Proof.
  intros Hd Hi. unfold int_i_a. apply (rel_bind (eqn2 n)); [apply split_pm_rel; lens|].
  intros [vp vm] [wp wm] [Hv Hw]. cbn [fst snd] in *.
  apply (rel_bind istate). { apply bit_loop_rel; auto. now apply start_ok. }
  intros [[r t] vs] [[r' t'] vs'] HS. apply (rel_bind istate); [now apply bit_loop_rel|].
  intros [[r1 t1] vs1] [[r1' t1'] vs1'] (-> & _). now apply rel_ret.
Qed.
Lemma int_ii_twin : is_int (mp_mode mp) = true -> rel same_ires (int_ii_a c mp res vec mat m n l) (int_ii_a c mq res vec mat' m n l).
Proof.
  intros Hi. unfold int_ii_a. cbv zeta. apply (rel_bind (eqn n)); [apply load_rel; lens|]. intros v w Hv.
  apply (rel_bind istate). { apply bit_loop_rel; auto. now apply start_ok. }
  intros [[r t] vs] [[r' t'] vs'] (-> & _). rewrite (tw_sw _ _ _ _ _ HT). step_eq. now apply rel_ret.
Qed.
Lemma int_iii_twin : is_int (mp_mode mp) = true -> rel same_ires (int_iii_a c mp res vec mat m n l) (int_iii_a c mq res vec mat' m n l).
Proof.
  intros Hi. unfold int_iii_a. cbv zeta. apply (rel_bind (eqn n)); [apply load_rel; lens|]. intros v w Hv.
  apply (rel_bind istate). { apply bit_loop_rel; auto. now apply start_ok. }
  intros [[r t] vs] [[r' t'] vs'] (-> & Ht & HL).
  apply (rel_bind (eqn n)); [now apply slice_vd_rel|]. intros x y Hx.
  apply rel_bind_eq. { apply slice_rel; auto. intros. eapply fterm_eq; eauto. } intros t1. rewrite bit_add_eq. step_eq. now apply rel_ret.
Qed.
Lemma int_iv_twin : is_int (mp_mode mp) = true -> rel same_ires (int_iv_a c mp res vec mat m n l) (int_iv_a c mq res vec mat' m n l).
Proof.
  intros Hi. unfold int_iv_a. apply (rel_bind (eqn n)); [apply load_rel; lens|]. intros v w Hv.
  apply (rel_bind istate). { apply bit_loop_rel; auto. now apply start_ok. }
  intros [[r t] vs] [[r' t'] vs'] (-> & _). now apply rel_ret.
Qed.
Lemma int_v_twin : mp_mode mp = I_UINT_W_OFFS -> is_int (mp_mode mp) = true -> rel same_ires (int_v_a c mp res vec mat m n l) (int_v_a c mq res vec mat' m n l).
Proof.
  intros Hm Hi. unfold int_v_a. cbv zeta. apply (rel_bind (eqn n)); [apply load_rel; lens|]. intros v w Hv. step_eq.
  rename a into isum.
  apply (rel_bind (fun a b => let '(r, t, v) := a in let '(r', t', v') := b in r = r' /\ (parasitics c = false -> t = t') /\ len v = len v')).
  - apply (rel_forN (fun _ (a b : list F * list F * list Z) => let '(r, t, v) := a in let '(r', t', v') := b in r = r' /\ (parasitics c = false -> t = t') /\ len v = len v')).
    { split; [apply fill_eq; lens|]. destruct (start_ok res Hi) as (_ & H1 & H2). auto. }
    intros k [[r t] vs] [[r' t'] vs'] Hk (-> & Ht & HL).
    apply (rel_bind (eqn n)); [now apply slice_vd_rel|]. intros x y Hx.
    apply rel_bind_eq. { apply slice_rel; auto. intros. eapply fterm1_eq; eauto. } intros t1.
    rewrite (tw_shift _ _ _ _ _ HT), (tw_step _ _ _ _ _ HT), (tw_adc _ _ _ _ _ HT). step_eq.
    apply rel_ret. split; [auto|]. split; [auto|]. apply Hx.
  - intros [[r t] vs] [[r' t'] vs'] (-> & _). rewrite (tw_delta _ _ _ _ _ HT). step_eq. destruct a. now apply rel_ret.
Qed.

Theorem a_mvm_twin : rel same_res (a_mvm c mp res vec mat m n l e) (a_mvm c mq res vec mat' m n l e').
Proof.
  assert (HP : forall a b, rel same_ires a b -> rel same_res ('(r, mp') <- a ;; Ok (r, mp', e)) ('(r, mp') <- b ;; Ok (r, mp', e'))).
  { intros a b H. apply (rel_bind same_ires); [exact H|]. intros [r x] [r' x'] Er. apply rel_ret. split; [exact Er|exact He]. }
  unfold a_mvm. rewrite (tw_mode _ _ _ _ _ HT). destruct (mp_mode mp) eqn:Em.
  1-2: apply HP, int_i_twin; rewrite Em; auto.
  1: apply HP, int_ii_twin; rewrite Em; auto.
  1: apply HP, int_iii_twin; rewrite Em; auto.
  1: apply HP, int_iv_twin; rewrite Em; auto.
  1: apply HP, int_v_twin; rewrite Em; auto.
  - apply bnn_i_twin; rewrite Em; auto.
  - apply bnn_ii_twin; rewrite Em; auto.
  - apply bnn_iii_twin; rewrite Em; auto.
  - apply bnn_iii_twin; rewrite Em; auto.
  - apply bnn_v_twin; rewrite Em; auto.
  - apply quad_twin; rewrite Em; auto.
  - apply quad_twin; rewrite Em; auto.
  - apply tnn_ii_twin; rewrite Em; auto.
  - apply tnn_iii_twin; rewrite Em; auto.
  - apply tnn_tc_twin; rewrite Em; auto.
  - apply tnn_tc_twin; rewrite Em; auto.
Qed.
End T.
End Rel.
