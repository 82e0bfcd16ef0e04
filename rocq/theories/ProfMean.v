(** The reported mean against the currents that were recorded: C80. *)
From Coq Require Import String List ZArith Reals Bool Arith Lia Lra ZifyBool ZifyNat.
From RecordUpdate Require Import RecordSet.
From Flocq Require Import Core.
From Verif Require Import Base Lib Machine Json Config Histogram Adc Mapper Crossbar Api RMachine RSpec Spec ConfigProofs
  Reach AnaSpec HistSpec AdcProps HistProps HistCount HistBins ProfSpec ProfProps.
Import ListNotations RecordSetNotations.
Ltac Zify.zify_post_hook ::= idtac.
Local Open Scope R_scope.

Section M.
Notation len := List.length.
Notation sumr := (fold_right Rplus 0).
Context (mn b : R).
Definition idx (v : R) : Z := ZnearestA ((v - mn) / b).
Definition pick (n : nat) (f : nat -> R) (i : Z) : R := if ((0 <=? i) && (i <? Z.of_nat n))%Z then f (Z.to_nat i) else 0.

Lemma pick_sum n f i : sumr (map (fun k => IZR (if Z.of_nat k =? i then 1 else 0)%Z * f k) (seq 0 n)) = pick n f i.
Proof.
  induction n as [|n IH]; unfold pick.
  - cbn [seq map fold_right]. replace (_ && _)%bool with false by lia. reflexivity.
  - rewrite seq_S, map_app, sumr_app, IH. cbn [map fold_right Nat.add]. unfold pick.
    destruct (Z.eqb_spec (Z.of_nat n) i) as [E|E].
    + replace ((0 <=? i) && (i <? Z.of_nat n))%Z%bool with false by lia.
      replace ((0 <=? i) && (i <? Z.of_nat (S n)))%Z%bool with true by lia. replace (Z.to_nat i) with n by lia. lra.
    + replace ((0 <=? i) && (i <? Z.of_nat (S n)))%Z%bool with ((0 <=? i) && (i <? Z.of_nat n))%Z%bool by lia. lra.
Qed.
Lemma sumr_plus (f g : nat -> R) q : sumr (map (fun k => f k + g k) q) = sumr (map f q) + sumr (map g q).
Proof. induction q as [|k q IH]; cbn; [lra|]. rewrite IH. lra. Qed.
Lemma hits_cons v vs k : hits (mn, b) (v :: vs) k = ((if Z.of_nat k =? idx v then 1 else 0) + hits (mn, b) vs k)%Z.
Proof. rewrite !hits_eq. cbn [map]. reflexivity. Qed.
Lemma exchange n f vs : sumr (map (fun k => IZR (hits (mn, b) vs k) * f k) (seq 0 n)) = sumr (map (fun v => pick n f (idx v)) vs).
Proof.
  induction vs as [|v vs IH].
  - cbn [map fold_right]. induction (seq 0 n) as [|k q IH]; [reflexivity|]. cbn [map fold_right]. rewrite IH. unfold hits. cbn. lra.
  - cbn [map fold_right]. rewrite <- IH, <- pick_sum, <- sumr_plus. apply sumr_ext. intros k _.
    rewrite hits_cons, plus_IZR. lra.
Qed.
Lemma all_inside n vs : sumr (map (fun v => pick n (fun _ => 1) (idx v)) vs) = INR (len vs) ->
  forall v, In v vs -> (0 <= idx v < Z.of_nat n)%Z.
Proof.
  assert (B : forall i, 0 <= pick n (fun _ => 1) i <= 1) by (intros i; unfold pick; destruct (_ && _)%bool; lra).
  assert (U : forall q, sumr (map (fun v => pick n (fun _ => 1) (idx v)) q) <= INR (len q)).
  { induction q as [|v q IH]; [cbn; lra|]. cbn [map fold_right len]. rewrite S_INR. pose proof (B (idx v)). lra. }
  induction vs as [|v vs IH]; intros H y Hy; [destruct Hy|]. cbn [map fold_right len] in H. rewrite S_INR in H.
  pose proof (U vs). pose proof (B (idx v)). destruct Hy as [<-|Hy].
  - assert (E : pick n (fun _ => 1) (idx v) = 1) by lra. unfold pick in E.
    destruct ((0 <=? idx v) && (idx v <? Z.of_nat n))%Z%bool eqn:D; [lia|lra].
  - apply IH; [lra|exact Hy].
Qed.
Lemma label_strict v : 0 < b -> (0 <= idx v)%Z -> v < mn + (IZR (idx v) + / 2) * b <= v + b.
Proof.
  intros Hb Hi. unfold idx in *. set (q := (v - mn) / b) in *.
  assert (E : v = mn + q * b) by (unfold q; field; lra). rewrite E. clearbody q. clear E.
  assert (K : q < IZR (ZnearestA q) + / 2 /\ IZR (ZnearestA q) <= q + / 2).
  { pose proof (near_half q) as N. apply Rabs_le_inv in N. split; [|lra].
    destruct (Rle_dec 0 q) as [Q|Q].
    - rewrite away_eq. unfold round_away. destruct (Rle_dec 0 q); [|lra]. pose proof (Zfloor_ub (q + / 2)). lra.
    - apply IZR_le in Hi. lra. }
  nra.
Qed.
End M.

Section A.
Context (nz : bool -> nat -> R) (s : bool).
#[local] Hint Extern 0 Machine => exact (R_machine nz s) : typeclass_instances.
Notation len := List.length.
Notation RM := (R_machine nz s).
Notation sumr := (fold_right Rplus 0).

Lemma readings_len (c : @config RM) x vec m n : is_int (m_mode c) = false ->
  Z.of_nat (len (all_readings c x vec m n)) = (passes (m_mode c) * Z.of_nat m)%Z.
Proof.
  intros H. unfold all_readings, readings. destruct (m_mode c); try discriminate H;
  cbn [flat_map passes]; rewrite ?app_nil_r, ?app_length, ?map_length, ?seq_length; lia.
Qed.

(** The middle of the bin a current falls in. *)
Definition lab (mn b v : R) : R := mn + (IZR (idx mn b v) + / 2) * b.

Lemma by_reading (h : @hist RM) vs : total (h_data h) = Z.of_nat (len vs) ->
  (forall k, nth k (h_data h) 0%Z = hits (h_min h : R, h_bin h : R) vs k) ->
  (forall v, In v vs -> (0 <= idx (h_min h) (h_bin h) v)%Z) /\
  forall f, over_samples h f = sumr (map (fun v => f (lab (h_min h) (h_bin h) v)) vs).
Proof.
  intros Ht Hh. change (@F RM) with R in *.
  assert (X : forall f, over_samples h f = sumr (map (fun v => pick (nbins h) (fun k => f (middle h k)) (idx (h_min h) (h_bin h) v)) vs)).
  { intros f. unfold over_samples. rewrite <- exchange. apply sumr_ext. intros k _. unfold count. now rewrite Hh. }
  assert (I : forall v, In v vs -> (0 <= idx (h_min h) (h_bin h) v < Z.of_nat (nbins h))%Z).
  { apply all_inside. rewrite <- (X (fun _ => 1)), ones, Ht. now rewrite INR_IZR_INZ. }
  split; [intros v Hv; specialize (I v Hv); lia|]. intros f. rewrite X. f_equal. apply map_ext_in. intros v Hv. specialize (I v Hv).
  unfold pick. replace (_ && _)%bool with true by lia. f_equal. unfold middle, lab. now rewrite INR_IZR_INZ, Z2Nat.id by lia.
Qed.
Lemma bias (h : @hist RM) vs : 0 < h_bin h -> vs <> [] -> total (h_data h) = Z.of_nat (len vs) ->
  (forall v, In v vs -> (0 <= idx (h_min h) (h_bin h) v)%Z) ->
  (forall f, over_samples h f = sumr (map (fun v => f (lab (h_min h) (h_bin h) v)) vs)) ->
  sumr vs / INR (len vs) < mean h <= sumr vs / INR (len vs) + h_bin h.
Proof.
  intros Hb Hne Ht I X. change (@F RM) with R in *.
  unfold mean. rewrite ones, Ht, (X (fun v => v)), <- INR_IZR_INZ.
  assert (P : 0 < INR (len vs)) by (apply lt_0_INR; destruct vs; [congruence|cbn; lia]).
  assert (B : sumr vs < sumr (map (fun v => lab (h_min h) (h_bin h) v) vs) <= sumr vs + INR (len vs) * h_bin h).
  { clear X Ht P. induction vs as [|v vs IH]; [congruence|].
    assert (J : v < lab (h_min h) (h_bin h) v <= v + h_bin h).
    { apply label_strict; [exact Hb|exact (I v (or_introl eq_refl))]. }
    cbn [map fold_right len]. rewrite S_INR. destruct vs as [|y vs].
    - cbn [map fold_right len INR]. lra.
    - assert (K := IH ltac:(discriminate) (fun z Hz => I z (or_intror Hz))). lra. }
  set (S := sumr (map _ vs)) in *. set (T := sumr vs) in *. set (L := INR (len vs)) in *. clearbody S T L.
  change (@F RM) with R in *. split.
  - apply (Rmult_lt_reg_r L); [exact P|]. unfold Rdiv. rewrite !Rmult_assoc, Rinv_l by lra. lra.
  - apply (Rmult_le_reg_r L); [exact P|]. rewrite Rmult_plus_distr_r. unfold Rdiv. rewrite !Rmult_assoc, Rinv_l by lra. lra.
Qed.

Lemma mvm_samples (w : @world RM) x res vec mat m n l w' r : reach w -> wx w = Some x ->
  is_int (m_mode (wcfg w)) = false -> digital_only (wcfg w) = false -> adc_profile (wcfg w) = true ->
  adc_type (wcfg w) <> INF_ADC -> c2c_var (wcfg w) = false -> parasitics (wcfg w) = false ->
  dims_in (wcfg w) m n -> (0 < m)%Z -> (n <= int32_max)%Z -> all_first (input_in (wcfg w)) vec n ->
  lookup l (histo (wenv w)) = None ->
  step w (ExeMvm res vec mat m n l) = Ok (w', RRes 0 r) ->
  let vs := all_readings (wcfg w) x vec (Z.to_nat m) (Z.to_nat n) in
  vs <> [] /\ exists h, lookup l (histo (wenv w')) = Some h /\ total (h_data h) = Z.of_nat (len vs) /\
    (h_min h : R, h_bin h : R) = grid (wcfg w) None /\ (h_max h : R) = max_max_current (wcfg w) (adc_type (wcfg w)) /\
    (forall v, In v vs -> (0 <= idx (h_min h) (h_bin h) v)%Z) /\
    forall f, over_samples h f = sumr (map (fun v => f (lab (h_min h) (h_bin h) v)) vs).
Proof.
  intros Hr Ex Hi Hd Hp Hty Hc Hpa Hdim Hm Hbig Hv Hl H vs.
  pose proof (records w res vec mat m n l w' r Hr H) as [Rc _].
  rewrite Hp, Hd, Hl in Rc. cbn [andb negb recorded] in Rc.
  destruct (bins_noted nz s w x res vec mat m n l w' r Hr Ex Hi Hd Hp Hty Hc Hpa Hdim Hbig Hv H) as [[G T0] C].
  fold vs in C. rewrite Hl in G, C, T0.
  assert (Len : Z.of_nat (len vs) = (passes (m_mode (wcfg w)) * m)%Z).
  { unfold vs. rewrite readings_len by exact Hi. rewrite Z2Nat.id by lia. reflexivity. }
  assert (Pp : (0 < passes (m_mode (wcfg w)))%Z) by (destruct (m_mode (wcfg w)); try discriminate Hi; cbn; lia).
  split; [intros E; rewrite E in Len; cbn in Len; nia|].
  destruct (lookup l (histo (wenv w'))) as [h|] eqn:El.
  2:{ exfalso. cbn [recorded] in Rc. nia. }
  exists h. split; [reflexivity|]. cbn [recorded counter] in Rc, C. change (grid (wcfg w) (Some h)) with (h_min h : R, h_bin h : R) in G.
  assert (T : total (h_data h) = Z.of_nat (len vs)) by lia.
  split; [exact T|]. split; [exact G|]. split; [exact T0|]. apply by_reading; [exact T|].
  intros k. change (@F RM) with R in *. rewrite C, <- G. lia.
Qed.
Lemma mean_bias (w : @world RM) x res vec mat m n l w' r : reach w -> wx w = Some x ->
  is_int (m_mode (wcfg w)) = false -> digital_only (wcfg w) = false -> adc_profile (wcfg w) = true ->
  adc_type (wcfg w) <> INF_ADC -> c2c_var (wcfg w) = false -> parasitics (wcfg w) = false ->
  dims_in (wcfg w) m n -> (0 < m)%Z -> (n <= int32_max)%Z -> all_first (input_in (wcfg w)) vec n ->
  (0 < bin_size (wcfg w))%Z -> lookup l (histo (wenv w)) = None ->
  step w (ExeMvm res vec mat m n l) = Ok (w', RRes 0 r) ->
  let vs := all_readings (wcfg w) x vec (Z.to_nat m) (Z.to_nat n) in
  exists h, lookup l (histo (wenv w')) = Some h /\
    sumr vs / INR (len vs) < mean h <= sumr vs / INR (len vs) + IZR (bin_size (wcfg w)).
Proof.
  intros Hr Ex Hi Hd Hp Hty Hc Hpa Hdim Hm Hbig Hv Hb Hl H vs.
  destruct (mvm_samples w x res vec mat m n l w' r) as (N & h & E1 & E2 & E3 & _ & E4 & E5); auto. fold vs in N, E2, E4, E5.
  exists h. split; [exact E1|]. cbn [grid] in E3. injection E3 as _ G2. change (@F RM) with R in *. rewrite <- G2.
  apply bias; auto. change (@F RM) with R in *. rewrite G2. now apply IZR_lt.
Qed.

(** Middles that are whole numbers have the right variance. *)
Lemma whole_variance (h : @hist RM) : (forall k, (k < nbins h)%nat -> exists z, middle h k = IZR z) -> cut_variance h = variance h.
Proof.
  intros H. unfold cut_variance, variance. f_equal. unfold over_samples. apply sumr_ext. intros k Hk. apply in_seq in Hk.
  destruct (H k ltac:(lia)) as (z & ->). now rewrite Ztrunc_IZR.
Qed.
Lemma even_bins (h : @hist RM) a z : h_min h = IZR a -> h_bin h = IZR (2 * z) -> cut_variance h = variance h.
Proof.
  intros A B. apply whole_variance. intros k _. exists (a + Z.of_nat k * (2 * z) + z)%Z. unfold middle. change (@F RM) with R in *.
  rewrite A, B, !plus_IZR, !mult_IZR, INR_IZR_INZ. lra.
Qed.
End A.
