(** What an MVM records, in exact arithmetic: C73. *)
From Coq Require Import String List ZArith Reals Bool Arith Lia Lra ZifyBool ZifyNat.
From RecordUpdate Require Import RecordSet.
From Flocq Require Import Core.
From Verif Require Import Base Lib Hoare Machine Json Config Histogram Adc ReadDisturb Parasitics
  Mapper IntMappers BnnMappers TnnMappers Crossbar Api RMachine RSpec Spec ConfigProofs WriteProofs Shape MvmShape AnaShape Reach
  DigMvm DigModes DigApi AdcProps HistProps AnaReal AnaSpec HistSpec HistCount EmuProps.
Import ListNotations RecordSetNotations.
Ltac Zify.zify_post_hook ::= idtac.
Local Open Scope R_scope.
Local Open Scope out_scope.

Section HB.
Context (nz : bool -> nat -> R) (s : bool).
#[local] Hint Extern 0 Machine => exact (R_machine nz s) : typeclass_instances.
Notation len := List.length.
Notation RM := (R_machine nz s).

(** ** Counters *)
Lemma bump_nth d i d' k : bump d i = Ok d' ->
  nth k d' 0%Z = (nth k d 0 + if Z.of_nat k =? i then 1 else 0)%Z.
Proof.
  unfold bump, getz, setz. destruct (i <? 0)%Z eqn:Hi; [discriminate|]. intros H. inv_as H x Hx. inv_as H y Hy.
  apply (get_inv _ _ _ 0%Z) in Hx. destruct Hx as [Hl ->]. apply chk32_inv in Hy. destruct Hy as [-> _].
  apply set_inv in H. destruct H as [_ ->]. rewrite nth_upd by auto.
  destruct (Nat.eqb_spec k (Z.to_nat i)) as [->|Hk].
  - replace (Z.of_nat (Z.to_nat i) =? i)%Z with true by lia. reflexivity.
  - replace (Z.of_nat k =? i)%Z with false by lia. lia.
Qed.
Lemma bumps_nth is : forall d d' k, bumps is d = Ok d' ->
  nth k d' 0%Z = (nth k d 0 + total (map (fun i => if Z.of_nat k =? i then 1 else 0) is))%Z.
Proof.
  induction is as [|i is IH]; intros d d' k H; cbn [bumps] in H.
  - inversion H; subst. cbn. lia.
  - inv_as H d1 H1. apply (bump_nth _ _ _ k) in H1. apply (IH _ _ k) in H. cbn [map]. unfold total in *. cbn [fold_right]. lia.
Qed.
Lemma index_inv (h : hist) (v : R) i : hist_index h v = Ok i -> i = ZnearestA ((v - h_min h) / h_bin h).
Proof.
  unfold hist_index, f2i. cbn [f_trunc fround fdiv fsub R_machine]. rewrite Ztrunc_IZR.
  destruct (in32 _); [|discriminate]. intros H. now inversion H.
Qed.
Lemma indices_inv (h : hist) : forall (vs : list R) is, mapM (hist_index h) vs = Ok is ->
  is = map (fun v => ZnearestA ((v - h_min h) / h_bin h)) vs.
Proof.
  induction vs as [|v vs IH]; intros is H; cbn [mapM] in H; [now inversion H|].
  inv_as H i Hi. inv_as H r Hr. inversion H; subst. cbn [map]. f_equal; [now apply index_inv|now apply IH].
Qed.
Lemma hits_eq mn b vs k : hits (mn, b) vs k =
  total (map (fun i => if Z.of_nat k =? i then 1 else 0)%Z (map (fun v => ZnearestA ((v - mn) / b)) vs)).
Proof.
  unfold hits. rewrite map_map. f_equal. apply map_ext. intros v. cbn [fst snd]. rewrite <- away_eq.
  destruct (Req_EM_T _ _) as [E|E].
  - apply eq_IZR in E. rewrite E, Z.eqb_refl. reflexivity.
  - destruct (Z.eqb_spec (Z.of_nat k) (ZnearestA ((v - mn) / b))) as [F|F]; [|reflexivity].
    exfalso. apply E. now rewrite F.
Qed.
Lemma hits_app g vs ws k : hits g (vs ++ ws) k = (hits g vs k + hits g ws k)%Z.
Proof. unfold hits. rewrite map_app. generalize (map (fun v => if Req_EM_T (round_away ((v - fst g) / snd g)) (IZR (Z.of_nat k)) then 1 else 0)%Z). intros f.
  unfold total. induction (f vs) as [|y q IH]; cbn; [lia|]. rewrite IH. lia.
Qed.

(** Upper end of the range. *)
Definition top (c : @config RM) (o : option (@hist RM)) : R :=
  match o with Some h => h_max h | None => @max_max_current RM c (adc_type c) end.
(** [vs] recorded for layer [l]. *)
Definition noted (c : @config RM) (l : string) (vs : list R) (h h' : @hists RM) : Prop :=
  (grid c (lookup l h') = grid c (lookup l h) /\ top c (lookup l h') = top c (lookup l h)) /\
  forall k, counter (lookup l h') k = (counter (lookup l h) k + hits (grid c (lookup l h)) vs k)%Z.
Lemma noted_nil c l h : noted c l [] h h.
Proof. split; [split; reflexivity|]. intros k. unfold hits. cbn. lia. Qed.
Lemma noted_app c l vs ws h1 h2 h3 : noted c l vs h1 h2 -> noted c l ws h2 h3 -> noted c l (vs ++ ws) h1 h3.
Proof.
  intros [[A1 A3] A2] [[B1 B3] B2]. split; [split; congruence|]. intros k. rewrite B2, A2, A1, hits_app. lia.
Qed.

Lemma update_noted (vs : list R) (h h' : @hist RM) : hist_update vs h = Ok h' ->
  h_min h' = h_min h /\ h_bin h' = h_bin h /\
  forall k, nth k (h_data h') 0%Z = (nth k (h_data h) 0 + hits (h_min h : R, h_bin h : R) vs k)%Z.
Proof.
  intros H. unfold hist_update in H. inv_as H is Hi. inv_as H d Hd. inversion H; subst. clear H.
  split; [reflexivity|]. split; [reflexivity|]. intros k. change (h_data (h <| h_data := d |>)) with d.
  apply indices_inv in Hi. subst is. apply (bumps_nth _ _ _ k) in Hd. now rewrite Hd, hits_eq.
Qed.
Lemma profile_noted (c : @config RM) a l (vs : list R) e e' : a_ty a = adc_type c -> adc_type c <> INF_ADC ->
  profile c a l vs e = Ok e' -> noted c l vs (histo e) (histo e').
Proof.
  intros Ha Hi H. unfold profile in H. inv_as H h Hh. inv_as H h' Hu. inversion H; subst. clear H.
  change (histo (e <| histo := _ |>)) with (hput (histo e) l h').
  unfold noted. rewrite <- !assoc_lookup', assoc_hput, String.eqb_refl.
  assert (U4 : h_max h' = h_max h) by (apply hist_update_total in Hu; tauto).
  apply update_noted in Hu. destruct Hu as (U1 & U2 & U3).
  destruct (assoc l (histo e)) as [g|].
  - inversion Hh; subst. cbn [grid counter top]. split; [split; congruence|]. exact U3.
  - assert (EH : h_min h = fst (grid c None) /\ h_bin h = snd (grid c None) /\ forall k, nth k (h_data h) 0%Z = 0%Z).
    { unfold hist_new in Hh. destruct (f_trunc _) as [z|]; [|discriminate]. destruct (_ && _); [|discriminate].
      inversion Hh; subst. cbn [h_min h_bin h_data grid fst snd]. split; [|split].
      - rewrite Ha. destruct (adc_type c); [congruence| |reflexivity]. cbn. lra.
      - reflexivity.
      - intros k. generalize (Z.to_nat z) k. induction n as [|n IH]; intros [|q]; cbn; auto. }
    assert (E4 : h_max h = top c None).
    { unfold hist_new in Hh. destruct (f_trunc _) as [z|]; [|discriminate]. destruct (_ && _); [|discriminate].
      inversion Hh; subst. cbn [h_max top]. now rewrite Ha. }
    destruct EH as (E1 & E2 & E3). split; [split; [|cbn [top]; rewrite U4, E4; reflexivity]|].
    + change (grid c (Some h')) with (h_min h' : R, h_bin h' : R). rewrite U1, U2, E1, E2. reflexivity.
    + intros k. cbn [counter]. rewrite U3, E3. f_equal. rewrite E1, E2. now rewrite <- surjective_pairing.
Qed.

Lemma vec_len (c : @config RM) a l k (arr : list R) sc off e (t : list R) e' :
  adc_vec c a l k arr sc off e = Ok (t, e') -> len t = len arr.
Proof.
  unfold adc_vec. change (@F RM) with R. destruct (len arr <? k)%nat; [discriminate|]. intros H. inv_as H e1 H1. inv_as H v H2.
  inversion H; subst. clear H H1. revert t H2. induction k as [|k IH]; intros t H; cbn [forN] in H.
  - inversion H; subst. reflexivity.
  - inv_as H t1 H1. apply IH in H1. inv_as H x Hx. inv_as H y Hy. apply set_inv in H. destruct H as [_ ->].
    change (@F RM) with R in *. now rewrite upd_length.
Qed.
Lemma vec_noted (c : @config RM) a l k (arr : list R) sc off e (t : list R) e' :
  a_ty a = adc_type c -> adc_type c <> INF_ADC -> adc_profile c = true ->
  adc_vec c a l k arr sc off e = Ok (t, e') -> noted c l (firstn k arr) (histo e) (histo e').
Proof.
  intros Ha Hi Hp. unfold adc_vec. destruct (_ <? k)%nat; [discriminate|]. rewrite Hp. intros H.
  inv_as H e1 H1. inv_as H v H2. inversion H; subst. now apply profile_noted in H1.
Qed.
Lemma nth_firstn_lt (t : list R) : forall k i, (i < k)%nat -> nth i (firstn k t) 0 = nth i t 0.
Proof.
  induction t as [|y t IH]; intros [|k] [|i] H; cbn; try lia; auto. apply IH. lia.
Qed.
Lemma firstn_seq (f : nat -> R) k : forall (t : list R), (k <= len t)%nat -> (forall i, (i < k)%nat -> nth i t 0 = f i) ->
  firstn k t = map f (seq 0 k).
Proof.
  intros t Hl H. apply (nth_ext _ _ 0 0).
  - rewrite map_length, seq_length. now apply firstn_length_le.
  - intros i Hi. rewrite firstn_length_le in Hi by exact Hl. rewrite nth_firstn_lt by exact Hi.
    rewrite (nth_indep (map f (seq 0 k)) 0 (f O)) by (rewrite map_length, seq_length; lia). rewrite map_nth, seq_nth by lia. now apply H.
Qed.
Lemma fold_last (q : list R) a : fold_right Rplus a q = fold_right Rplus 0 q + a.
Proof. induction q as [|y q IH]; cbn; [lra|]. rewrite IH. lra. Qed.
Lemma row_sumR n f : row_sum n f = sumR n f.
Proof.
  unfold row_sum. induction n as [|n IH]; [reflexivity|]. rewrite seq_S, map_app, fold_right_app. cbn [map fold_right sumR].
  rewrite fold_last, IH, Rplus_0_r. reflexivity.
Qed.

(** ** The modes *)
Section M.
Context (c : @config RM) (x : @xbar RM) (vec mat : list Z) (m n : nat) (l : string).
Notation mp := (xm x).
Notation MM := (Z.to_nat (M c)).
Notation vv j := (nth j vec 0%Z).
Notation ip i j := (current (@ia_p RM mp) i j : R).
Notation im i j := (current (@ia_m RM mp) i j : R).
Notation is k := (fun v : Z => if v =? k then 1 else 0)%Z.
Context (Hw : cfg_wf c) (Hs : shape c mp) (Hm : (m <= MM)%nat) (Hn : (n <= colsN c)%nat) (Hvec : (n <= len vec)%nat)
  (Hpar : parasitics c = false) (Hprof : adc_profile c = true) (Hty : adc_type c <> INF_ADC)
  (Hx : is_int (m_mode c) = false) (Hv : forall j, (j < n)%nat -> vok c (vv j)) (Hbig : (Z.of_nat n <= int_max)%Z).

Lemma aty : a_ty (@mp_adc RM mp) = adc_type c.
Proof.
  pose proof (sh_adc _ _ Hs) as H. unfold adc_new in H. destruct (d_trunc _); [|discriminate].
  destruct (in32 _); [|discriminate]. destruct (adc_type c); try (now inversion H). inv_as H q Hq. now inversion H.
Qed.
Lemma row_h i : (i < m)%nat -> (i < rowsN c)%nat.
Proof. intros H. pose proof (wf_ns c Hw Hx). unfold rowsN. nia. Qed.

(** One vector conversion of the sums of [tv]. *)
Lemma pass_noted term (tv : nat -> nat -> R) (f : nat -> R) vp vm (t0 : list R) sc off e t1 (t : list R) e' : (m <= len t0)%nat ->
  (forall i j, (i < m)%nat -> (j < n)%nat -> term i j = Ok (tv i j)) ->
  (forall i, (i < m)%nat -> sumR n (tv i) = f i) ->
  @currents RM c mp term vp vm m n (@fill (@F RM) t0 (@f0 RM)) = Ok t1 ->
  @adc_vec RM c (mp_adc mp) l m t1 sc off e = Ok (t, e') ->
  len t = len t0 /\ noted c l (map f (seq 0 m)) (histo e) (histo e').
Proof.
  intros Ht0 Ht Hf E1 E2. unfold currents in E1. rewrite Hpar in E1.
  destruct (facc_fill nz s m n term tv t0 Ht0 Ht) as (t2 & F1 & L1 & V1). pose proof (eq_trans (eq_sym F1) E1) as E3. inversion E3; subst t2. clear E1 E3.
  split; [now rewrite (vec_len _ _ _ _ _ _ _ _ _ _ E2)|].
  apply (vec_noted _ _ _ _ _ _ _ _ _ _ aty Hty Hprof) in E2.
  rewrite (firstn_seq f m t1) in E2; [exact E2|rewrite L1; exact Ht0|].
  intros i Hi. now rewrite V1, Hf.
Qed.

Definition rail (f : Z -> Z) (l0 : list Z) : list Z := upto n (fun j _ => f (vv j)) l0.
Lemma rail_nth f l0 j : len l0 = colsN c -> (j < n)%nat -> nth j (rail f l0) 0%Z = f (vv j).
Proof. intros Hl Hj. unfold rail. now rewrite nth_upto_lt by lia. Qed.
Lemma rail_len f l0 : len (rail f l0) = len l0.
Proof. apply upto_length. Qed.
Lemma vdp_h : len (vd_p mp) = colsN c. Proof. apply Hs. Qed.
Lemma tmp_h : (m <= len (@tmp RM mp))%nat.
Proof. rewrite (sh_tmp _ _ Hs Hx). exact Hm. Qed.

Definition one (p : bool) (f : Z -> Z) (i : nat) : R :=
  row_sum n (fun j => (if p then ip i j else im i j) * IZR (f (vv j))).
Lemma fterm_h (u : list Z) f i j : (i < m)%nat -> (j < n)%nat -> len u = colsN c -> nth j u 0%Z = f (vv j) ->
  @fterm RM (@ia_p RM mp) (@ia_m RM mp) u i j = Ok ((ip i j - im i j) * IZR (f (vv j))).
Proof.
  intros Hi Hj Hu Hf. pose proof (row_h i Hi).
  rewrite (fterm_eq nz s (rowsN c) (colsN c)); try apply Hs; try lia. now rewrite Hf.
Qed.
Lemma fterm_h' (u : list Z) f i j : (i < m)%nat -> (j < n)%nat -> len u = colsN c -> nth j u 0%Z = f (vv j) ->
  @fterm RM (@ia_m RM mp) (@ia_p RM mp) u i j = Ok ((im i j - ip i j) * IZR (f (vv j))).
Proof.
  intros Hi Hj Hu Hf. pose proof (row_h i Hi).
  rewrite (fterm_eq nz s (rowsN c) (colsN c)); try apply Hs; try lia. now rewrite Hf.
Qed.
Lemma fterm1_h (p : bool) (u : list Z) f i j : (i < m)%nat -> (j < n)%nat -> len u = colsN c -> nth j u 0%Z = f (vv j) ->
  @fterm1 RM (if p then @ia_p RM mp else @ia_m RM mp) u i j = Ok ((if p then ip i j else im i j) * IZR (f (vv j))).
Proof.
  intros Hi Hj Hu Hf. pose proof (row_h i Hi).
  destruct p; rewrite (fterm1_eq nz s (rowsN c) (colsN c)); try apply Hs; try lia; now rewrite Hf.
Qed.
Lemma diff_sum f i : sumR n (fun j => (ip i j - im i j) * IZR (f (vv j))) = one true f i - one false f i.
Proof. unfold one. rewrite !row_sumR, <- sumR_sub. apply sumR_ext. intros j _. ring. Qed.

(** Posp and negp on the inputs of the modes. *)
Lemma pos_is v : ter v -> posp v = is 1%Z v.
Proof. intros [-> |[-> | ->]]; reflexivity. Qed.
Lemma neg_is v : ter v -> negp v = is (-1)%Z v.
Proof. intros [-> |[-> | ->]]; reflexivity. Qed.

Definition bgoal : Prop := forall res e r mp' e', @a_mvm RM c mp res vec mat m n l e = Ok (r, mp', e') ->
  noted c l (all_readings c x vec m n) (histo e) (histo e').

Lemma vb : match m_mode c with BNN_I | BNN_II | BNN_III | BNN_IV | BNN_V | BNN_VI => forall j, (j < n)%nat -> bin (vv j) | _ => True end.
Proof. unfold vok in Hv. destruct (m_mode c); auto. Qed.
Lemma vt : forall j, (j < n)%nat -> ter (vv j).
Proof. intros j Hj. specialize (Hv j Hj). unfold vok in Hv. destruct (m_mode c); try discriminate Hx; auto using bin_ter. Qed.

Lemma h_bnn_i : m_mode c = BNN_I -> bgoal.
Proof.
  intros Hmode res e r mp' e' H. unfold a_mvm in H. rewrite (sh_mode _ _ Hs), Hmode in H. unfold bnn_i_a in H.
  pose proof vb as Hb. rewrite Hmode in Hb. pose proof vdp_h as Hvl.
  rewrite (load_ok vec n _ posp) in H by (try lia; intros j Hj; destruct (Hb j Hj) as [-> | ->]; reflexivity).
  cbn [bind] in H. inv_as H t1 E1. inv_as H sc Esc. inv_as H q E2. destruct q as [t e1]. inv_as H r1 Er. inversion H; subst.
  unfold all_readings, readings. rewrite Hmode. cbn [flat_map]. rewrite app_nil_r.
  eapply pass_noted; [exact tmp_h| | |exact E1|exact E2].
  - intros i j Hi Hj. apply (fterm_h _ (is 1%Z)); auto; [now rewrite upto_length|].
    rewrite nth_upto_lt by lia. apply pos_is. now apply vt.
  - intros i Hi. exact (diff_sum (is 1%Z) i).
Qed.

Lemma h_bnn_ii : m_mode c = BNN_II -> bgoal.
Proof.
  intros Hmode res e r mp' e' H. unfold a_mvm in H. rewrite (sh_mode _ _ Hs), Hmode in H. unfold bnn_ii_a in H.
  pose proof vb as Hb. rewrite Hmode in Hb. pose proof vdp_h as Hvl.
  rewrite (load_ok vec n _ negp) in H by (try lia; intros j Hj; destruct (Hb j Hj) as [-> | ->]; reflexivity).
  cbn [bind] in H. inv_as H t1 E1. inv_as H sc Esc. inv_as H q E2. destruct q as [t e1]. inv_as H r1 Er. inversion H; subst.
  unfold all_readings, readings. rewrite Hmode. cbn [flat_map]. rewrite app_nil_r.
  eapply pass_noted; [exact tmp_h| | |exact E1|exact E2].
  - intros i j Hi Hj. apply (fterm_h' _ (is (-1)%Z)); auto; [now rewrite upto_length|].
    rewrite nth_upto_lt by lia. apply neg_is. now apply vt.
  - intros i Hi. cbv beta. pose proof (diff_sum (is (-1)%Z) i) as D. unfold one in D. rewrite <- D.
    replace (- sumR n (fun j => (ip i j - im i j) * IZR (is (-1)%Z (vv j)))) with
      ((-1) * sumR n (fun j => (ip i j - im i j) * IZR (is (-1)%Z (vv j)))) by ring.
    rewrite <- sumR_mul_l. apply sumR_ext. intros j _. ring.
Qed.

Lemma one_sum (p : bool) f i : sumR n (fun j => (if p then ip i j else im i j) * IZR (f (vv j))) = one p f i.
Proof. unfold one. now rewrite row_sumR. Qed.

Lemma h_bnn_iii_iv (inv : bool) : m_mode c = (if inv then BNN_IV else BNN_III) -> bgoal.
Proof.
  intros Hmode res e r mp' e' H. assert (EA : @a_mvm RM c mp res vec mat m n l e = @bnn_iii_iv_a RM inv c mp res vec mat m n l e).
  { unfold a_mvm. rewrite (sh_mode _ _ Hs), Hmode. destruct inv; reflexivity. }
  rewrite EA in H. unfold bnn_iii_iv_a in H. pose proof vdp_h as Hvl.
  assert (Hb : forall j, (j < n)%nat -> bin (vv j)) by (pose proof vb as Hb; destruct inv; now rewrite Hmode in Hb).
  assert (Lvm : len (vd_m mp) = colsN c) by (apply Hs; destruct inv; now rewrite Hmode).
  destruct (sh_tpm _ _ Hs) as (Ltp & Ltm); [destruct inv; auto|].
  rewrite two_rail_sum_ok in H by (auto; lia). cbn [bind] in H.
  inv_as H t1 E1. inv_as H t2 E2. inv_as H sc Esc. inv_as H ns Ens.
  inv_as H q E3. destruct q as [t3 e1]. inv_as H q E4. destruct q as [t4 e2]. inv_as H r1 Er. inversion H; subst.
  assert (RR : all_readings c x vec m n = map (one true (is 1%Z)) (seq 0 m) ++ map (one true (is (-1)%Z)) (seq 0 m)).
  { unfold all_readings, readings. destruct inv; rewrite Hmode; cbn [flat_map]; rewrite app_nil_r; reflexivity. }
  rewrite RR. eapply noted_app.
  - eapply pass_noted; [| | |exact E1|exact E3].
    + exact (eq_ind_r (fun k => (m <= k)%nat) Hm Ltp).
    + intros i j Hi Hj. apply (fterm1_h true _ (is 1%Z)); auto; [now rewrite upto_length|].
      rewrite nth_upto_lt by lia. apply pos_is. now apply vt.
    + intros i Hi. exact (one_sum true (is 1%Z) i).
  - eapply pass_noted; [| | |exact E2|exact E4].
    + exact (eq_ind_r (fun k => (m <= k)%nat) Hm Ltm).
    + intros i j Hi Hj. apply (fterm1_h true _ (is (-1)%Z)); auto; [now rewrite upto_length|].
      rewrite nth_upto_lt by lia. apply neg_is. now apply vt.
    + intros i Hi. exact (one_sum true (is (-1)%Z) i).
Qed.

Lemma h_bnn_v : m_mode c = BNN_V -> bgoal.
Proof.
  intros Hmode res e r mp' e' H. unfold a_mvm in H. rewrite (sh_mode _ _ Hs), Hmode in H. unfold bnn_v_a in H.
  pose proof vb as Hb. rewrite Hmode in Hb. pose proof vdp_h as Hvl.
  assert (Lvm : len (vd_m mp) = colsN c) by (apply Hs; now rewrite Hmode).
  rewrite (two_rail_ok false) in H by (auto; lia). cbn [bind] in H.
  set (up := upto n (fun j _ => posp (vv j)) (vd_p mp)) in *. set (um := upto n (fun j _ => negp (vv j)) (vd_m mp)) in *.
  assert (Lp : len up = colsN c) by (unfold up; now rewrite upto_length).
  assert (Lm : len um = colsN c) by (unfold um; now rewrite upto_length).
  assert (Np : forall j, (j < n)%nat -> nth j up 0%Z = is 1%Z (vv j)) by (intros; unfold up; rewrite nth_upto_lt by lia; apply pos_is; now apply vt).
  assert (Nm : forall j, (j < n)%nat -> nth j um 0%Z = is (-1)%Z (vv j)) by (intros; unfold um; rewrite nth_upto_lt by lia; apply neg_is; now apply vt).
  inv_as H t1 E1. inv_as H sc Esc. inv_as H q E2. destruct q as [t e1]. inv_as H r1 Er. inversion H; subst.
  unfold all_readings, readings. rewrite Hmode. cbn [flat_map]. rewrite app_nil_r.
  eapply (pass_noted _ (fun i j => ip i j * IZR (is 1%Z (vv j)) + im i j * IZR (is (-1)%Z (vv j)))); [exact tmp_h| | |exact E1|exact E2].
  - intros i j Hi Hj. cbv beta. rewrite (fterm1_h true up (is 1%Z)) by auto. cbn [bind].
    rewrite (fterm1_h false um (is (-1)%Z)) by auto. reflexivity.
  - intros i Hi. rewrite sumR_add. cbv beta. rewrite !row_sumR. reflexivity.
Qed.

Lemma h_quad (tern : bool) : m_mode c = (if tern then TNN_I else BNN_VI) -> bgoal.
Proof.
  intros Hmode res e r mp' e' H. assert (EA : @a_mvm RM c mp res vec mat m n l e = @quad_a RM tern c mp res vec mat m n l e).
  { unfold a_mvm. rewrite (sh_mode _ _ Hs), Hmode. destruct tern; reflexivity. }
  rewrite EA in H. unfold quad_a in H. pose proof vdp_h as Hvl.
  assert (Hb : forall j, (j < n)%nat -> (if tern then ter else bin) (vv j)).
  { pose proof vb as Hb. pose proof vt. destruct tern; auto. now rewrite Hmode in Hb. }
  assert (Lvm : len (vd_m mp) = colsN c) by (apply Hs; destruct tern; now rewrite Hmode).
  rewrite (two_rail_ok tern) in H by (auto; lia). cbn [bind] in H.
  set (up := upto n (fun j _ => posp (vv j)) (vd_p mp)) in *. set (um := upto n (fun j _ => negp (vv j)) (vd_m mp)) in *.
  assert (Lp : len up = colsN c) by (unfold up; now rewrite upto_length).
  assert (Lm : len um = colsN c) by (unfold um; now rewrite upto_length).
  assert (Np : forall j, (j < n)%nat -> nth j up 0%Z = posp (vv j)) by (intros; unfold up; now rewrite nth_upto_lt by lia).
  assert (Nm : forall j, (j < n)%nat -> nth j um 0%Z = negp (vv j)) by (intros; unfold um; now rewrite nth_upto_lt by lia).
  inv_as H t1 E1. inv_as H sc Esc. inv_as H q E2. destruct q as [t e1]. inv_as H r1 Er. inversion H; subst.
  assert (RR : all_readings c x vec m n = map (fun i => one true (fun v => v) i - one false (fun v => v) i) (seq 0 m)).
  { unfold all_readings, readings. destruct tern; rewrite Hmode; cbn [flat_map]; rewrite app_nil_r; reflexivity. }
  rewrite RR. eapply (pass_noted _ (fun i j => (ip i j - im i j) * IZR (vv j))); [exact tmp_h| | |exact E1|exact E2].
  - intros i j Hi Hj. unfold fquad.
    rewrite (fterm1_h true up posp) by auto. cbn [bind]. rewrite (fterm1_h false um negp) by auto. cbn [bind].
    rewrite (fterm1_h false up posp) by auto. cbn [bind]. rewrite (fterm1_h true um negp) by auto. cbn [bind].
    f_equal. change (@F RM) with R. change (@fadd RM) with Rplus. change (@fsub RM) with Rminus.
    rewrite <- (pos_neg (vv j)) at 5. rewrite minus_IZR. ring.
  - intros i Hi. exact (diff_sum (fun v => v) i).
Qed.

(** *** Two input bits *)
Lemma slice_noted (u : list Z) f k (sub : bool) (t0 : list R) (res : list Z) e r (t : list R) e' :
  len u = colsN c -> (forall j, (j < n)%nat -> nth j u 0%Z = f (vv j)) -> (m <= len t0)%nat ->
  @tnn_slice RM c mp u m n l k sub t0 res e = Ok (r, t, e') ->
  len t = len t0 /\ noted c l (map (fun i => one true f i - one false f i) (seq 0 m)) (histo e) (histo e').
Proof.
  intros Lu Nu Lt H. unfold tnn_slice in H. inv_as H t1 E1. inv_as H sc Esc. inv_as H q E2. destruct q as [t2 e1].
  inv_as H r1 Er. inversion H; subst.
  eapply pass_noted; [exact Lt| | |exact E1|exact E2].
  - intros i j Hi Hj. apply (fterm_h _ f); auto.
  - intros i Hi. exact (diff_sum f i).
Qed.

Lemma h_tnn_ii : m_mode c = TNN_II -> bgoal.
Proof.
  intros Hmode res e r mp' e' H. unfold a_mvm in H. rewrite (sh_mode _ _ Hs), Hmode in H. unfold tnn_ii_a in H.
  pose proof vdp_h as Hvl.
  rewrite (load_ok vec n bit0_ii (fun v => if v =? 0 then 0 else 1)%Z) in H by (auto; lia). cbn [bind] in H.
  set (u := upto n _ (vd_p mp)) in *. assert (Lu : len u = colsN c) by (unfold u; now rewrite upto_length).
  assert (Nu : forall j, (j < n)%nat -> nth j u 0%Z = (fun v => if v =? 0 then 0 else 1)%Z (vv j)) by (intros; unfold u; now rewrite nth_upto_lt by lia).
  inv_as H q E1. destruct q as [[r1 t1] e1].
  rewrite (load_ok vec n bit1_ii (is (-1)%Z)) in H by (auto; lia). cbn [bind] in H.
  set (w := upto n _ u) in *. assert (Lw : len w = colsN c) by (unfold w; now rewrite upto_length).
  assert (Nw : forall j, (j < n)%nat -> nth j w 0%Z = is (-1)%Z (vv j)) by (intros; unfold w; now rewrite nth_upto_lt by lia).
  inv_as H q E2. destruct q as [[r2 t2] e2]. inversion H; subst.
  destruct (slice_noted _ _ _ _ _ _ _ _ _ _ Lu Nu tmp_h E1) as [L1 N1].
  destruct (slice_noted w (is (-1)%Z) _ _ t1 _ _ _ _ _ Lw Nw (eq_ind_r (fun k => (m <= k)%nat) tmp_h L1) E2) as [_ N2].
  unfold all_readings, readings. rewrite Hmode. cbn [flat_map]. rewrite app_nil_r. exact (noted_app _ _ _ _ _ _ _ N1 N2).
Qed.
Lemma h_tnn_iii : m_mode c = TNN_III -> bgoal.
Proof.
  intros Hmode res e r mp' e' H. unfold a_mvm in H. rewrite (sh_mode _ _ Hs), Hmode in H. unfold tnn_iii_a in H.
  pose proof vdp_h as Hvl. pose proof vt as Ht.
  rewrite (load_ok vec n bit0_iii (is 0%Z)) in H
    by (try lia; intros j Hj; destruct (Ht j Hj) as [-> |[-> | ->]]; reflexivity). cbn [bind] in H.
  set (u := upto n _ (vd_p mp)) in *. assert (Lu : len u = colsN c) by (unfold u; now rewrite upto_length).
  assert (Nu : forall j, (j < n)%nat -> nth j u 0%Z = is 0%Z (vv j)) by (intros; unfold u; now rewrite nth_upto_lt by lia).
  inv_as H q E1. destruct q as [[r1 t1] e1].
  rewrite (load_ok vec n bit1_iii (is 1%Z)) in H
    by (try lia; intros j Hj; destruct (Ht j Hj) as [-> |[-> | ->]]; reflexivity). cbn [bind] in H.
  set (w := upto n _ u) in *. assert (Lw : len w = colsN c) by (unfold w; now rewrite upto_length).
  assert (Nw : forall j, (j < n)%nat -> nth j w 0%Z = is 1%Z (vv j)) by (intros; unfold w; now rewrite nth_upto_lt by lia).
  inv_as H q E2. destruct q as [[r2 t2] e2]. inv_as H r3 Er. inversion H; subst.
  destruct (slice_noted _ _ _ _ _ _ _ _ _ _ Lu Nu tmp_h E1) as [L1 N1].
  destruct (slice_noted w (is 1%Z) _ _ t1 _ _ _ _ _ Lw Nw (eq_ind_r (fun k => (m <= k)%nat) tmp_h L1) E2) as [_ N2].
  unfold all_readings, readings. rewrite Hmode. cbn [flat_map]. rewrite app_nil_r. exact (noted_app _ _ _ _ _ _ _ N1 N2).
Qed.

(** *** Two rails and two arrays *)
Lemma tc_noted (p : bool) (u : list Z) f k off (sub : bool) (t0 fp0 : list R) e (t fp : list R) e' :
  len u = colsN c -> (forall j, (j < n)%nat -> nth j u 0%Z = f (vv j)) -> (m <= len t0)%nat ->
  @tc_pass RM c mp (if p then @ia_p RM mp else @ia_m RM mp) u m n l k off sub t0 fp0 e = Ok (t, fp, e') ->
  len t = len t0 /\ noted c l (map (one p f) (seq 0 m)) (histo e) (histo e').
Proof.
  intros Lu Nu Lt H. unfold tc_pass in H. inv_as H t1 E1. inv_as H sc Esc. inv_as H q E2. destruct q as [t2 e1].
  inv_as H r1 Er. inversion H; subst.
  eapply (pass_noted (@fterm1 RM (if p then @ia_p RM mp else @ia_m RM mp) u) _ _ u []); [exact Lt| | | |exact E2].
  - intros i j Hi Hj. apply (fterm1_h p _ f); auto.
  - intros i Hi. exact (one_sum p f i).
  - unfold currents. rewrite Hpar. exact E1.
Qed.
Lemma h_tc (v : bool) : m_mode c = (if v then TNN_V else TNN_IV) -> bgoal.
Proof.
  intros Hmode res e r mp' e' H. assert (EA : @a_mvm RM c mp res vec mat m n l e = @tnn_tc_a RM v c mp res vec mat m n l e).
  { unfold a_mvm. rewrite (sh_mode _ _ Hs), Hmode. destruct v; reflexivity. }
  rewrite EA in H. unfold tnn_tc_a in H. pose proof vdp_h as Hvl. pose proof vt as Ht.
  destruct (split11 (SPLIT c)); [|discriminate]. cbv zeta in H. rewrite Hpar in H.
  assert (Lvm : len (vd_m mp) = colsN c) by (apply Hs; destruct v; now rewrite Hmode).
  inv_as H isum Es. rewrite (two_rail_ok true) in H by (auto; lia). cbn [bind] in H.
  set (up := upto n (fun j _ => posp (vv j)) (vd_p mp)) in *. set (um := upto n (fun j _ => negp (vv j)) (vd_m mp)) in *.
  assert (Lp : len up = colsN c) by (unfold up; now rewrite upto_length).
  assert (Lm : len um = colsN c) by (unfold um; now rewrite upto_length).
  assert (Np : forall j, (j < n)%nat -> nth j up 0%Z = is 1%Z (vv j)) by (intros; unfold up; rewrite nth_upto_lt by lia; apply pos_is; now apply vt).
  assert (Nm : forall j, (j < n)%nat -> nth j um 0%Z = is (-1)%Z (vv j)) by (intros; unfold um; rewrite nth_upto_lt by lia; apply neg_is; now apply vt).
  inv_as H i3 E3. inv_as H q E4. destruct q as [[[[t5 lsb] msb] fp5] e5].
  inv_as H r1 Er. inversion H; subst. clear H.
  inv_as E4 q P1. destruct q as [[t1 fp1] e1]. inv_as E4 q P2. destruct q as [[t2 fp2] e2].
  inv_as E4 q P3. destruct q as [[t3 fp3] e3]. inv_as E4 q P4. destruct q as [[t4 fp4] e4]. inversion E4; subst.
  destruct (tc_noted true up (is 1%Z) _ _ _ _ _ _ _ _ _ Lp Np tmp_h P1) as [L1 N1].
  destruct (tc_noted true um (is (-1)%Z) _ _ _ t1 _ _ _ _ _ Lm Nm (eq_ind_r (fun k => (m <= k)%nat) tmp_h L1) P2) as [L2 N2].
  pose proof (eq_trans L2 L1) as L2'.
  destruct (tc_noted false up (is 1%Z) _ _ _ t2 _ _ _ _ _ Lp Np (eq_ind_r (fun k => (m <= k)%nat) tmp_h L2') P3) as [L3 N3].
  pose proof (eq_trans L3 L2') as L3'.
  destruct (tc_noted false um (is (-1)%Z) _ _ _ t3 _ _ _ _ _ Lm Nm (eq_ind_r (fun k => (m <= k)%nat) tmp_h L3') P4) as [_ N4].
  assert (RR : all_readings c x vec m n = map (one true (is 1%Z)) (seq 0 m) ++ map (one true (is (-1)%Z)) (seq 0 m) ++
    map (one false (is 1%Z)) (seq 0 m) ++ map (one false (is (-1)%Z)) (seq 0 m)).
  { unfold all_readings, readings. destruct v; rewrite Hmode; cbn [flat_map]; rewrite app_nil_r; reflexivity. }
  rewrite RR. eapply noted_app; [exact N1|]. eapply noted_app; [exact N2|]. exact (noted_app _ _ _ _ _ _ _ N3 N4).
Qed.

Lemma h_all : bgoal.
Proof.
  assert (G : forall md, m_mode c = md -> bgoal); [|exact (G _ eq_refl)].
  intros md E. destruct md; try (rewrite E in Hx; discriminate Hx).
  - now apply h_bnn_i.
  - now apply h_bnn_ii.
  - now apply (h_bnn_iii_iv false).
  - now apply (h_bnn_iii_iv true).
  - now apply h_bnn_v.
  - now apply (h_quad false).
  - now apply (h_quad true).
  - now apply h_tnn_ii.
  - now apply h_tnn_iii.
  - now apply (h_tc false).
  - now apply (h_tc true).
Qed.
End M.

Lemma bins_noted (w : @world RM) x res vec mat m n l w' r : reach w -> wx w = Some x ->
  is_int (m_mode (wcfg w)) = false -> digital_only (wcfg w) = false -> adc_profile (wcfg w) = true ->
  adc_type (wcfg w) <> INF_ADC -> c2c_var (wcfg w) = false -> parasitics (wcfg w) = false ->
  dims_in (wcfg w) m n -> (n <= int32_max)%Z -> all_first (input_in (wcfg w)) vec n ->
  step w (ExeMvm res vec mat m n l) = Ok (w', RRes 0 r) ->
  noted (wcfg w) l (all_readings (wcfg w) x vec (Z.to_nat m) (Z.to_nat n)) (histo (wenv w)) (histo (wenv w')).
Proof.
  intros Hr Ex Hi Hd Hp Hty Hc Hpa Hdim Hbig [Hv1 Hv2] H. pose proof (reach_good w Hr) as Hg.
  destruct (guard_ok w m n Hg Hdim) as (G1 & G2 & Hm & Hn). pose proof (g_x w Hg x Ex) as Hxo.
  cbn [step] in H. unfold exe_mvm in H. rewrite Ex, G1, G2 in H. cbn [bind] in H.
  inv_as H q Hq. destruct q as [[r1 x1] e1]. inversion H; subst. clear H.
  unfold xmvm in Hq. rewrite Hd, Hc in Hq. cbn [bind] in Hq. inv_as Hq q E. destruct q as [[r2 mp2] e2]. cbn [bind] in Hq.
  inv_as Hq q E2. destruct q as [x3 e3]. inversion Hq; subst.
  assert (B : histo e1 = histo e2).
  { destruct (read_disturb (wcfg w)).
    - eapply (bd_keeps (rd_step (wcfg w) _ _ _)); [apply bd_rd_step|exact E2].
    - inversion E2; subst. auto. }
  change (histo (wenv (w <| wx := Some x1 |> <| wenv := e1 |>))) with (histo e1). rewrite B.
  eapply (h_all (wcfg w) x vec mat (Z.to_nat m) (Z.to_nat n) l); [exact (good_wf w Hg)|exact (xo_shape _ _ Hxo)|exact Hm|exact Hn| |exact Hpa|exact Hp|exact Hty|exact Hi| | |exact E].
  - lia.
  - intros j Hj. specialize (Hv2 j ltac:(lia)). clear -Hv2 Hi. unfold input_in in Hv2. unfold vok.
    destruct (m_mode (wcfg w)); try discriminate Hi; unfold bin, ter; auto; tauto.
  - unfold int32_max, int_max in *. lia.
Qed.
Lemma bins_filled (w : @world RM) x res vec mat m n l w' r : reach w -> wx w = Some x ->
  is_int (m_mode (wcfg w)) = false -> digital_only (wcfg w) = false -> adc_profile (wcfg w) = true ->
  adc_type (wcfg w) <> INF_ADC -> c2c_var (wcfg w) = false -> parasitics (wcfg w) = false ->
  dims_in (wcfg w) m n -> (n <= int32_max)%Z -> all_first (input_in (wcfg w)) vec n ->
  step w (ExeMvm res vec mat m n l) = Ok (w', RRes 0 r) ->
  forall k, counter (lookup l (histo (wenv w'))) k =
    (counter (lookup l (histo (wenv w))) k +
     hits (grid (wcfg w) (lookup l (histo (wenv w)))) (all_readings (wcfg w) x vec (Z.to_nat m) (Z.to_nat n)) k)%Z.
Proof. intros. now apply (bins_noted w x res vec mat m n l w' r). Qed.
End HB.
