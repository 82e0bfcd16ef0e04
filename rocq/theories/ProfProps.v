(** The report of the histograms: C79 and C80. *)
From Coq Require Import String List ZArith Reals Bool Arith Lia Lra ZifyBool ZifyNat Permutation.
From RecordUpdate Require Import RecordSet.
From Flocq Require Import Core.
From Verif Require Import Base Lib Machine Json Config Histogram Adc ReadDisturb Parasitics Profile
  Mapper IntMappers BnnMappers TnnMappers Crossbar Api RMachine RSpec Spec ConfigProofs Shape AnaShape Reach DigApi AnaSpec
  HistSpec AdcProps HistProps HistCount HistBins ProfSpec.
Import ListNotations RecordSetNotations.
Ltac Zify.zify_post_hook ::= idtac.
Local Open Scope Z_scope.
Local Open Scope out_scope.

(** ** What holds of every histogram of a reachable state *)
Section Inv.
Context {MC : Machine}.
Notation len := List.length.
Context (P : hist -> Prop) (Pnew : forall mn mx b h, hist_new mn mx b = Ok h -> P h)
  (Pupd : forall vs h h', hist_update vs h = Ok h' -> P h -> P h').
Definition every (hs : hists) : Prop := forall l g, In (l, g) hs -> P g.

Lemma lookup_in {A} l (hs : list (string * A)) g : lookup l hs = Some g -> In (l, g) hs.
Proof.
  unfold lookup. induction hs as [|[k x] hs IH]; cbn [find fst]; [discriminate|].
  destruct (String.eqb l k) eqn:E; [|intros H; right; auto]. apply String.eqb_eq in E. cbn. intros H. inversion H; subst. now left.
Qed.
Lemma hput_in l h l' g : forall hs : hists, In (l', g) (hput hs l h) -> g = h \/ In (l', g) hs.
Proof.
  induction hs as [|[k x] hs IH]; cbn [hput].
  - intros [H|[]]. inversion H. auto.
  - destruct (String.eqb l k); intros [H|H]; cbn [In]; auto.
    + inversion H. auto.
    + destruct (IH H); auto.
Qed.
Lemma profile_every c a l vs e e' : profile c a l vs e = Ok e' -> every (histo e) -> every (histo e').
Proof.
  intros H Q. unfold profile in H. inv_as H h Hh. inv_as H h' Hu. inversion H; subst. clear H.
  change (histo (e <| histo := _ |>)) with (hput (histo e) l h').
  intros l' g Hg. apply hput_in in Hg. destruct Hg as [->|Hg]; [|exact (Q _ _ Hg)].
  apply (Pupd _ _ _ Hu). destruct (assoc l (histo e)) as [g|] eqn:Ea.
  - inversion Hh; subst. rewrite assoc_lookup' in Ea. exact (Q _ _ (lookup_in _ _ _ Ea)).
  - exact (Pnew _ _ _ _ Hh).
Qed.

Definition saves {A} (e : env) (x : out (A * env)) : Prop := forall r e', x = Ok (r, e') -> every (histo e) -> every (histo e').
Lemma sv_bind {A B} e (x : out A) (f : A -> out (B * env)) : (forall a, saves e (f a)) -> saves e (bind x f).
Proof. intros H r e' E. inv_as E a Ea. exact (H a _ _ E). Qed.
Lemma sv_bind2 {A B} e (x : out (A * env)) (f : A * env -> out (B * env)) :
  saves e x -> (forall r e1, saves e1 (f (r, e1))) -> saves e (bind x f).
Proof. intros Hx Hf r e' E Q. inv_as E q Eq. destruct q as [r1 e1]. exact (Hf _ _ _ _ E (Hx _ _ Eq Q)). Qed.
Lemma sv_ok {A} (r : A) e : saves e (Ok (r, e)).
Proof. intros r' e' E. inversion E; subst. auto. Qed.
Lemma sv_vec c a l m arr sc o e : saves e (adc_vec c a l m arr sc o e).
Proof.
  intros r e' E. unfold adc_vec in E. destruct (len arr <? m)%nat; [discriminate|].
  inv_as E e1 E1. inv_as E v E2. inversion E; subst. destruct (adc_profile c).
  - exact (profile_every _ _ _ _ _ _ E1).
  - inversion E1; subst. auto.
Qed.
Ltac sv := repeat (cbv zeta; match goal with
  | |- saves _ (adc_vec _ _ _ _ _ _ _ _) => apply sv_vec
  | |- saves _ (Ok _) => apply sv_ok
  | |- saves _ Died => intros ? ? K; discriminate K
  | |- saves _ (if ?b then _ else _) => destruct b
  | |- saves _ (bind (adc_vec _ _ _ _ _ _ _ _) _) => apply sv_bind2; [apply sv_vec|intros ? ?]
  | |- saves _ (bind (tnn_slice _ _ _ _ _ _ _ _ _ _ _) _) => apply sv_bind2; [unfold tnn_slice|intros [? ?] ?]
  | |- saves _ (bind (tc_pass _ _ _ _ _ _ _ _ _ _ _ _ _) _) => apply sv_bind2; [unfold tc_pass|intros [? ?] ?]
  | |- saves _ (bind (tc_pass_par _ _ _ _ _ _ _ _ _ _ _ _ _) _) => apply sv_bind2; [unfold tc_pass_par|intros [[[? ?] ?] ?] ?]
  | |- saves _ (tc_pass_par _ _ _ _ _ _ _ _ _ _ _ _ _) => unfold tc_pass_par
  | |- saves _ (bind (if parasitics _ then _ else _) _) => apply sv_bind2; [|intros [[[? ?] ?] ?] ?]
  | |- saves _ (bind (two_rail_sum _ _ _ _) _) => apply sv_bind; intros [[? ?] ?]
  | |- saves _ (bind _ (fun a => let (_, _) := a in _)) => apply sv_bind; intros [? ?]
  | |- saves _ (bind _ _) => apply sv_bind; intros ?
  end).
Lemma sv_mvm c mp res vec mat m n l e : saves e (a_mvm c mp res vec mat m n l e).
Proof.
  unfold a_mvm, bnn_i_a, bnn_ii_a, bnn_iii_iv_a, bnn_v_a, quad_a, tnn_ii_a, tnn_iii_a, tnn_tc_a.
  destruct (mp_mode mp); sv.
Qed.
Lemma xmvm_saves c x res vec mat m n l e r x' e' :
  xmvm c x res vec mat m n l e = Ok (r, x', e') -> every (histo e) -> every (histo e').
Proof.
  intros H. unfold xmvm in H. destruct (digital_only c).
  - inv_as H q E. destruct q as [r1 mp1]. inversion H; subst. auto.
  - inv_as H q1 H1. destruct q1 as [mp1 e1]. inv_as H q2 H2. destruct q2 as [[r1 mp2] e2].
    inv_as H mp3 H3. inv_as H q4 H4. destruct q4 as [x4 e4]. inversion H; subst. clear H.
    assert (A : histo e1 = histo e).
    { destruct (c2c_var c).
      - eapply (bd_keeps (add_c2c c _ m n)); [apply bd_add_c2c|exact H1].
      - inversion H1; subst. auto. }
    assert (B : histo e' = histo e2).
    { destruct (read_disturb c).
      - eapply (bd_keeps (rd_step c _ m n)); [apply bd_rd_step|exact H4].
      - inversion H4; subst. auto. }
    rewrite B, <- A. exact (sv_mvm _ _ _ _ _ _ _ _ _ _ _ H2).
Qed.
Lemma step_saves (w : world) a w' r : step w a = Ok (w', r) -> every (histo (wenv w)) -> every (histo (wenv w')).
Proof.
  intros H. destruct (is_mvm a) eqn:E; [|rewrite (only_mvms _ _ _ _ E H); auto].
  destruct a; try discriminate E; cbn [step] in H.
  - unfold exe_mvm in H. destruct (wx w) as [x|]; [|inversion H; subst; auto].
    destruct (too_big _ _ _); [inversion H; subst; auto|]. inv_as H d Hd. destruct d as [m' n'].
    inv_as H q Hq. destruct q as [[r1 x1] e1]. inversion H; subst. exact (xmvm_saves _ _ _ _ _ _ _ _ _ _ _ _ Hq).
  - unfold py_mvm in H. inv_as H x Hx. inv_as H d Hd. destruct d as [m' n'].
    inv_as H q Hq. destruct q as [[r1 x1] e1]. inversion H; subst. exact (xmvm_saves _ _ _ _ _ _ _ _ _ _ _ _ Hq).
Qed.
Lemma run_saves : forall h (w w' : world) rs, run w h = Ok (w', rs) -> every (histo (wenv w)) -> every (histo (wenv w')).
Proof.
  induction h as [|a h IH]; intros w w' rs H; cbn [run] in H.
  - inversion H; subst. auto.
  - inv_as H q Hq. destruct q as [w1 r1]. inv_as H q2 Hq2. destruct q2 as [w2 rs2]. inversion H; subst.
    intros Q. exact (IH _ _ _ Hq2 (step_saves _ _ _ _ Hq Q)).
Qed.
Lemma reach_every (w : world) : reach w -> every (histo (wenv w)).
Proof.
  intros (h & rs & H & _). refine (run_saves _ _ _ _ H _). intros l g [].
Qed.
End Inv.

(** The labels are those of the range. *)
Section Labels.
Context {MC : Machine}.
Definition labelled (h : hist) : Prop :=
  h_vals h = mids (List.length (h_data h)) (fadd (h_min h) (fdiv (h_bin h) (f_of_Z 2))) (h_bin h).
Lemma reach_labelled (w : world) l h : reach w -> In (l, h) (histo (wenv w)) -> labelled h.
Proof.
  intros Hr. refine (reach_every labelled _ _ w Hr l h).
  - intros mn mx b g H. unfold hist_new in H. destruct (f_trunc _); [|discriminate]. destruct (_ && _); [|discriminate].
    inversion H; subst. unfold labelled. cbn [h_vals h_data h_min h_bin]. now rewrite repeat_length.
  - intros vs g g' H. apply hist_update_total in H. destruct H as (_ & L & E1 & _ & E3 & E4).
    unfold labelled. now rewrite L, E1, E3, E4.
Qed.
(** So is their number. *)
Definition sized (h : hist) : Prop := f_trunc (fround (fdiv (fsub (h_max h) (h_min h)) (h_bin h))) = Some (Z.of_nat (List.length (h_data h))).
Lemma reach_sized (w : world) l h : reach w -> In (l, h) (histo (wenv w)) -> sized h.
Proof.
  intros Hr. refine (reach_every sized _ _ w Hr l h).
  - intros mn mx b g H. unfold hist_new in H. destruct (f_trunc _) as [z|] eqn:E; [|discriminate]. destruct (_ && _) eqn:B; [|discriminate].
    inversion H; subst. unfold sized. cbn [h_max h_data h_min h_bin]. rewrite repeat_length, E. f_equal. lia.
  - intros vs g g' H. apply hist_update_total in H. destruct H as (_ & L & E1 & E2 & E3 & E4).
    unfold sized. now rewrite L, E1, E2, E3.
Qed.
End Labels.

(** ** One histogram in exact arithmetic *)
Section R.
Context (nz : bool -> nat -> R) (s : bool).
#[local] Hint Extern 0 Machine => exact (R_machine nz s) : typeclass_instances.
Notation len := List.length.
Notation RM := (R_machine nz s).
Local Open Scope R_scope.
Notation sumr := (fold_right Rplus 0).

Lemma sumr_app q q' : sumr (q ++ q') = sumr q + sumr q'.
Proof. induction q as [|y q IH]; cbn; [lra|]. rewrite IH. lra. Qed.
Lemma sumr_perm q q' : Permutation q q' -> sumr q = sumr q'.
Proof. induction 1; cbn; lra. Qed.
Lemma reduce_R (xs : nat -> R) t : @reduce R Rplus xs t = sumr (map xs (leaves t)).
Proof.
  induction t as [i|a IHa b IHb]; cbn [reduce leaves map fold_right]; [lra|]. rewrite map_app, sumr_app, IHa, IHb. reflexivity.
Qed.
Lemma reduce_all (xs : nat -> R) n t : Permutation (leaves t) (seq 0 (S n)) -> xs O = 0 ->
  @reduce R Rplus xs t = sumr (map (fun k => xs (S k)) (seq 0 n)).
Proof.
  intros H H0. rewrite reduce_R, (sumr_perm _ _ (Permutation_map xs H)). cbn [seq map fold_right].
  rewrite <- seq_shift, map_map, H0. lra.
Qed.
Lemma sumr_ext (f g : nat -> R) q : (forall k, In k q -> f k = g k) -> sumr (map f q) = sumr (map g q).
Proof. intros H. f_equal. now apply map_ext_in. Qed.

Lemma ones (h : @hist RM) : over_samples h (fun _ => 1) = IZR (total (h_data h)).
Proof.
  unfold over_samples, count, nbins. generalize (h_data h). induction l as [|y l IH]; [reflexivity|].
  cbn [len seq map fold_right nth]. rewrite <- seq_shift, map_map. cbn [nth]. rewrite IH.
  change (total (y :: l)) with (y + total l)%Z. rewrite plus_IZR. lra.
Qed.

Lemma vals_middle (h : @hist RM) k : labelled h -> (k < nbins h)%nat -> nth k (h_vals h : list R) 0 = middle h k.
Proof.
  intros L H. rewrite L. rewrite mids_R by exact H. unfold middle. cbn. lra.
Qed.
Lemma vals_len (h : @hist RM) : labelled h -> len (h_vals h : list R) = nbins h.
Proof. intros L. rewrite L. apply mids_length. Qed.
Lemma vals_map (h : @hist RM) : labelled h -> (h_vals h : list R) = map (middle h) (seq 0 (nbins h)).
Proof.
  intros L. apply (nth_ext _ _ 0 0).
  - rewrite map_length, seq_length. now apply vals_len.
  - intros k Hk. change (@F RM) with R in *. rewrite (vals_len h L) in Hk. rewrite vals_middle by auto.
    rewrite (nth_indep _ 0 (middle h O)) by (rewrite map_length, seq_length; lia). rewrite map_nth, seq_nth by lia. reflexivity.
Qed.

Lemma mean_R (h : @hist RM) t ts : labelled h -> Permutation (leaves t) (seq 0 (S (nbins h))) ->
  Permutation (leaves ts) (seq 0 (S (nbins h))) -> hist_mean t ts h = mean h.
Proof.
  intros L P1 P2. unfold hist_mean. rewrite samples_any by exact P2. unfold mean. rewrite ones.
  cbn [f_of_d ddiv d_of_f d_of_Z R_machine fadd fmul f_of_Z F f0]. f_equal.
  rewrite (reduce_all _ (nbins h)) by auto. apply sumr_ext. intros k Hk. apply in_seq in Hk.
  rewrite <- (vals_middle h k L) by lia. reflexivity.
Qed.

Lemma f2i_R (v : R) : fits_int32 v -> @f2i RM v = Ok (Ztrunc v).
Proof.
  intros H. unfold f2i. cbn [f_trunc R_machine]. unfold in32, int_min, int_max. unfold fits_int32 in H.
  replace (_ && _) with true by lia. reflexivity.
Qed.
Lemma f2i_bad (v : R) : ~ fits_int32 v -> @f2i RM v = UB FloatToInt.
Proof.
  intros H. unfold f2i. cbn [f_trunc R_machine]. unfold in32, int_min, int_max. unfold fits_int32 in H.
  replace (_ && _) with false by lia. reflexivity.
Qed.
Lemma f2is_R (q : list R) : (forall v, In v q -> fits_int32 v) -> mapM (@f2i RM) q = Ok (map Ztrunc q).
Proof.
  induction q as [|v q IH]; intros H; cbn [mapM map]; [reflexivity|].
  rewrite f2i_R by (apply H; now left). cbn [bind]. rewrite IH by (intros; apply H; now right). reflexivity.
Qed.
Lemma f2is_bad (q : list R) v : In v q -> ~ fits_int32 v -> mapM (@f2i RM) q = UB FloatToInt.
Proof.
  induction q as [|y q IH]; intros H B; [destruct H|]. cbn [mapM].
  assert (D : fits_int32 y \/ ~ fits_int32 y) by (unfold fits_int32; lia). destruct D as [D|D].
  - rewrite f2i_R by exact D. cbn [bind]. destruct H as [->|H]; [contradiction|]. rewrite IH by auto. reflexivity.
  - rewrite f2i_bad by exact D. reflexivity.
Qed.

Lemma var_R (h : @hist RM) t tm ts : labelled h -> Permutation (leaves t) (seq 0 (S (nbins h))) ->
  Permutation (leaves tm) (seq 0 (S (nbins h))) -> Permutation (leaves ts) (seq 0 (S (nbins h))) ->
  (forall k, (k < nbins h)%nat -> fits_int32 (middle h k)) ->
  hist_variance t tm ts h = Ok (cut_variance h).
Proof.
  intros L P1 P2 P3 Hf. unfold hist_variance. rewrite (mean_R h tm ts L P2 P3), samples_any by exact P3.
  change (@F RM) with R in *. rewrite (vals_map h L), f2is_R.
  2:{ intros v Hv. apply in_map_iff in Hv. destruct Hv as (k & <- & Hk). apply in_seq in Hk. apply Hf. lia. }
  cbn [bind]. f_equal. unfold cut_variance. rewrite ones.
  cbn [f_of_d ddiv dmul d_of_f d_of_Z R_machine fadd fsub fmul f_of_Z F f0 D]. f_equal.
  rewrite (reduce_all _ (nbins h)) by auto. apply sumr_ext. intros k Hk. apply in_seq in Hk. unfold count. f_equal.
  rewrite map_map. rewrite (nth_indep _ 0%Z (Ztrunc (middle h O))) by (rewrite map_length, seq_length; lia).
  rewrite (map_nth (fun k => Ztrunc (middle h k))), seq_nth by lia. cbn [Nat.add]. ring.
Qed.
Lemma var_bad (h : @hist RM) t tm ts k : labelled h -> (k < nbins h)%nat -> ~ fits_int32 (middle h k) ->
  hist_variance t tm ts h = UB FloatToInt.
Proof.
  intros L Hk Hf. unfold hist_variance. cbv zeta. change (@F RM) with R in *. rewrite (vals_map h L).
  rewrite (f2is_bad _ (middle h k)); [reflexivity| |exact Hf]. apply in_map. apply in_seq. lia.
Qed.

(** Insertion of increasing keys appends. *)
Lemma insert_last v d (q : list (R * Z)) : (forall p, In p q -> fst p < v) -> @map_insert RM v d q = q ++ [(v, d)].
Proof.
  induction q as [|[k x] q IH]; intros H; cbn [map_insert app]; [reflexivity|].
  assert (Hk : k < v) by exact (H (k, x) (or_introl eq_refl)).
  cbn [flt R_machine]. unfold rltb. destruct (Rlt_dec v k) as [A|A]; [lra|]. destruct (Rlt_dec k v) as [B|B]; [|lra].
  cbn. rewrite IH by (intros; apply H; now right). reflexivity.
Qed.
Lemma map_R (h : @hist RM) : labelled h -> 0 < h_bin h ->
  hist_map h = map (fun k => (middle h k, count h k)) (seq 0 (nbins h)).
Proof.
  intros L Hb. unfold hist_map. change (@F RM) with R in *.
  assert (C : combine (h_vals h) (h_data h) = map (fun k => (middle h k, count h k)) (seq 0 (nbins h))).
  { rewrite (vals_map h L). unfold count, nbins. generalize (middle h). intros f. generalize (h_data h).
    assert (G : forall q a, combine (map f (seq a (len q))) q = map (fun k => (f k, nth (k - a) q 0%Z)) (seq a (len q))).
    { induction q as [|y q IH]; intros a; [reflexivity|]. cbn [len seq map combine]. rewrite Nat.sub_diag. cbn [nth]. f_equal.
      rewrite IH. apply map_ext_in. intros k Hk. apply in_seq in Hk. replace (k - a)%nat with (S (k - S a)) by lia. reflexivity. }
    intros q. rewrite G. apply map_ext. intros k. now rewrite Nat.sub_0_r. }
  change (@F RM) with R in *. rewrite C. clear C. generalize (nbins h). induction n as [|n IH]; [reflexivity|].
  rewrite seq_S, map_app, fold_left_app, IH. cbn [map fold_left fst snd Nat.add]. apply insert_last.
  intros p Hp. apply in_map_iff in Hp. destruct Hp as (k & <- & Hk). apply in_seq in Hk. cbn [fst].
  unfold middle. assert (K : INR k < INR n) by (apply lt_INR; lia). change (@F RM) with R in *. nra.
Qed.

Lemma report_R (h : @hist RM) t : labelled h -> 0 < h_bin h -> schedule_for (nbins h) t ->
  (forall k, (k < nbins h)%nat -> fits_int32 (middle h k)) ->
  hist_report t h = Ok (mkSummary (map (fun k => (middle h k, count h k)) (seq 0 (nbins h))) (total (h_data h)) (mean h) (cut_variance h)).
Proof.
  intros L Hb P Hf. unfold hist_report. rewrite var_R by auto. cbn [bind]. rewrite map_R, samples_any, mean_R by auto. reflexivity.
Qed.
Lemma report_bad (h : @hist RM) t k : labelled h -> (k < nbins h)%nat -> ~ fits_int32 (middle h k) -> hist_report t h = UB FloatToInt.
Proof. intros L Hk Hf. unfold hist_report. rewrite (var_bad h _ _ _ k); auto. Qed.

(** ** The whole report *)
Lemma mapM_keys (f : string * @hist RM -> out (string * @summary RM)) (hs : @hists RM) rs :
  (forall p q, f p = Ok q -> fst q = fst p) -> mapM f hs = Ok rs ->
  map fst rs = map fst hs /\ forall l h, lookup l hs = Some h -> exists k r, f (k, h) = Ok (k, r) /\ k = l /\ lookup l rs = Some r.
Proof.
  intros Hk. revert rs. induction hs as [|[l0 h0] hs IH]; intros rs H; cbn [mapM] in H.
  - inversion H; subst. split; [reflexivity|]. intros l h G. discriminate G.
  - inv_as H q Hq. inv_as H qs Hqs. inversion H; subst. destruct (IH _ Hqs) as [I1 I2]. pose proof (Hk _ _ Hq) as K. cbn [fst] in K.
    split; [cbn [map fst]; now rewrite K, I1|].
    intros l h. unfold lookup. cbn [find]. cbn [fst]. rewrite K. destruct (String.eqb l l0) eqn:E.
    + cbn. intros G. injection G as <-. apply String.eqb_eq in E. exists l, (snd q).
      rewrite E, Hq. destruct q as [a b]. cbn in *. subst a. auto.
    + exact (I2 l h).
Qed.
Lemma mapM_bad {A B} (f : A -> out B) q y u : In y q -> f y = UB u -> (forall z, In z q -> (exists b, f z = Ok b) \/ f z = UB u) ->
  mapM f q = UB u.
Proof.
  induction q as [|z q IH]; intros Hin Hy Hz; [destruct Hin|]. cbn [mapM].
  destruct (Hz z (or_introl eq_refl)) as [(b & E)|E]; rewrite E; [|reflexivity]. cbn [bind].
  destruct Hin as [->|Hin]; [congruence|]. rewrite IH; auto. intros; apply Hz; now right.
Qed.

Lemma report_keys (t : string -> nat -> rtree) (p : string * @hist RM) (q : string * @summary RM) :
  (r <- hist_report (t (fst p)) (snd p) ;; Ok (fst p, r)) = Ok q -> fst q = fst p.
Proof. intros H. inv_as H r Hr. inversion H; subst. reflexivity. Qed.

Lemma report_ok (w w' : @world RM) hs t rs : reach w -> step w GetProfile = Ok (w', RHists hs) ->
  (forall l h, lookup l hs = Some h -> schedule_for (nbins h) (t l)) -> profile_report t hs = Ok rs ->
  w' = w /\ map fst rs = map fst (histo (wenv w)) /\
  forall l h, lookup l (histo (wenv w)) = Some h -> 0 < h_bin h -> (0 < total (h_data h))%Z ->
  exists r, lookup l rs = Some r /\
    s_hist r = map (fun k => (middle h k, count h k)) (seq 0 (nbins h)) /\
    s_samples r = total (h_data h) /\ s_mean r = mean h /\ s_var r = cut_variance h.
Proof.
  intros Hr H Ht Hp. cbn [step] in H. inversion H; subst. clear H. unfold profile_report in Hp.
  destruct (mapM_keys _ _ _ (report_keys t) Hp) as [K1 K2]. split; [reflexivity|]. split; [exact K1|].
  intros l h Hl Hb _. destruct (K2 l h Hl) as (k & r & E & -> & Hr'). exists r. split; [exact Hr'|].
  pose proof (reach_labelled w' l h Hr (lookup_in _ _ _ Hl)) as L. cbn [fst snd] in E. inv_as E r1 E1. inversion E; subst r1. clear E.
  assert (Hf : forall k, (k < nbins h)%nat -> fits_int32 (middle h k)).
  { intros k Hk. assert (D : fits_int32 (middle h k) \/ ~ fits_int32 (middle h k)) by (unfold fits_int32; lia).
    destruct D as [D|D]; [exact D|]. rewrite (report_bad h _ k L Hk D) in E1. discriminate. }
  rewrite (report_R h _ L Hb (Ht l h Hl) Hf) in E1. inversion E1; subst. cbn. auto.
Qed.
Lemma report_defined (w : @world RM) t : reach w ->
  (forall l h, In (l, h) (histo (wenv w)) -> schedule_for (nbins h) (t l) /\
    forall k, (k < nbins h)%nat -> fits_int32 (middle h k)) ->
  exists rs, profile_report t (histo (wenv w)) = Ok rs.
Proof.
  intros Hr. assert (L : forall l h, In (l, h) (histo (wenv w)) -> labelled h) by (intros l h; now apply reach_labelled).
  revert L. unfold profile_report. generalize (histo (wenv w)). induction h as [|[l0 h0] hs IH]; intros L H; cbn [mapM]; [eauto|].
  destruct (H l0 h0 (or_introl eq_refl)) as [H1 H2].
  unfold hist_report at 1. cbn [fst snd]. rewrite var_R; auto; [|exact (L l0 h0 (or_introl eq_refl))]. cbn [bind].
  destruct IH as (rs & ->); [intros l h Hl; apply (L l h); now right|intros l h Hl; apply (H l h); now right|]. cbn [bind]. eauto.
Qed.
Lemma report_undefined (w : @world RM) t l h k : reach w -> In (l, h) (histo (wenv w)) ->
  (k < nbins h)%nat -> ~ fits_int32 (middle h k) -> profile_report t (histo (wenv w)) = UB FloatToInt.
Proof.
  intros Hr Hin Hk Hf. unfold profile_report. apply (mapM_bad _ _ (l, h)); [exact Hin| |].
  - cbn [fst snd]. rewrite (report_bad h _ k); auto. exact (reach_labelled w l h Hr Hin).
  - intros [l' h'] _. cbn [fst snd]. unfold hist_report, hist_variance. cbv zeta.
    assert (G : forall q : list (@F RM), (exists b, mapM (@f2i RM) q = Ok b) \/ mapM (@f2i RM) q = UB FloatToInt).
    { induction q as [|v q IH]; cbn [mapM]; [eauto|]. unfold f2i at 1 3. cbn [f_trunc R_machine].
      destruct (in32 _); cbn [bind]; [|auto]. destruct IH as [(b & ->)| ->]; cbn [bind]; eauto. }
    destruct (G (h_vals h')) as [(b & E)|E]; rewrite E; cbn [bind]; eauto.
Qed.
End R.
