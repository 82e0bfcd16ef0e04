(** Proofs of the property theorems of P_Store.v. *)
From Coq Require Import List ZArith Bool Arith Lia ZifyBool ZifyNat String.
From RecordUpdate Require Import RecordSet.
From Verif Require Import Base Lib Hoare Machine Json Config Histogram Adc ReadDisturb Parasitics
  Mapper IntMappers BnnMappers TnnMappers Crossbar Api WriteProofs Shape MvmShape DigMvm DigModes DigWrite
  AnaShape ConfigProofs Reach Spec DigApi Demo DigProps ApiProps NoDie.
Import ListNotations RecordSetNotations.
Local Open Scope Z_scope.
Local Open Scope out_scope.

(** ** Frames *)
Definition out_same (d : nat -> nat -> bool) (g g' : list (list Z)) : Prop :=
  forall r k, d r k = false -> at2 0 g' r k = at2 0 g r k.
Lemma os_refl d g : out_same d g g.
Proof. intros r k _. reflexivity. Qed.
Lemma os_trans d a b e : out_same d a b -> out_same d b e -> out_same d a e.
Proof. intros H1 H2 r k Hd. rewrite H2, H1; auto. Qed.
Lemma os_mono (d d' : nat -> nat -> bool) a b : (forall r k, d r k = true -> d' r k = true) -> out_same d a b -> out_same d' a b.
Proof. intros H1 H2 r k Hd. apply H2. destruct (d r k) eqn:E; auto. apply H1 in E. congruence. Qed.
Lemma os_set2 (d : nat -> nat -> bool) g i j x g' : set2 g i j x = Ok g' -> d i j = true -> out_same d g g'.
Proof.
  intros H Hd r k Hrk. apply bind_Ok in H. destruct H as (row & H1 & H). apply bind_Ok in H. destruct H as (row' & H2 & H).
  apply (get_inv _ _ _ []) in H1. apply set_inv in H2, H. destruct H1 as [L1 ->], H2 as [L2 ->], H as [L3 ->].
  unfold at2. rewrite nth_upd by auto. destruct (Nat.eqb_spec r i) as [->|]; auto.
  rewrite nth_upd by auto. destruct (Nat.eqb_spec k j) as [->|]; auto. congruence.
Qed.

Notation gmats := (list (list Z) * list (list Z))%type.
Definition os_pair (d : nat -> nat -> bool) (g g' : gmats) : Prop :=
  out_same d (fst g) (fst g') /\ out_same d (snd g) (snd g').
Lemma osp_refl d g : os_pair d g g.
Proof. split; apply os_refl. Qed.
Lemma osp_trans d a b e : os_pair d a b -> os_pair d b e -> os_pair d a e.
Proof. intros [? ?] [? ?]. split; eapply os_trans; eauto. Qed.

Definition put_frame (ns : nat) (put : nat -> nat -> Z -> gmats -> out gmats) : Prop :=
  forall i j v g g', put i j v g = Ok g' -> os_pair (blk ns i j) g g'.

Lemma write_plain_frame ns put mat m n gp gm sw gp' gm' sw' : put_frame ns put ->
  write_plain put mat m n (gp, gm, sw) = Ok (gp', gm', sw') -> os_pair (rect ns m n) (gp, gm) (gp', gm').
Proof.
  intros Hp H. unfold write_plain in H.
  refine (forN_Ok (fun _ '(a, b, _) => os_pair (rect ns m n) (gp, gm) (a, b)) _ _ _ _ H _ _); [apply osp_refl|].
  clear H. intros i [[a b] s] [[a' b'] s'] Hi HI H.
  refine (forN_Ok (fun _ '(a, b, _) => os_pair (rect ns m n) (gp, gm) (a, b)) _ _ _ _ H _ _); [exact HI|].
  clear H HI. intros j [[a1 b1] s1] [[a2 b2] s2] Hj HI H.
  inv_as H v Hv. inv_as H q Hq. destruct q as [x y]. inversion H; subst. apply Hp in Hq.
  eapply osp_trans; [exact HI|]. destruct Hq as [Q1 Q2]; cbn [fst snd] in *.
  assert (B : forall r k, blk ns i j r k = true -> rect ns m n r k = true) by (unfold blk, rect; nia).
  split; cbn [fst snd]; eapply os_mono; eauto.
Qed.
Lemma write_sum_frame ns put mat m n gp gm sw gp' gm' sw' : put_frame ns put ->
  write_sum put mat m n (gp, gm, sw) = Ok (gp', gm', sw') -> os_pair (rect ns m n) (gp, gm) (gp', gm').
Proof.
  intros Hp H. unfold write_sum in H.
  refine (forN_Ok (fun _ '(a, b, _) => os_pair (rect ns m n) (gp, gm) (a, b)) _ _ _ _ H _ _); [apply osp_refl|].
  clear H. intros i [[a b] s] [[a' b'] s'] Hi HI H. inv_as H q Hq. destruct q as [[a3 b3] s3].
  inv_as H sw2 Hsw. inversion H; subst. clear H Hsw.
  refine (forN_Ok (fun _ '(a, b, _) => os_pair (rect ns m n) (gp, gm) (a, b)) _ _ _ _ Hq _ _); [exact HI|].
  clear Hq HI. intros j [[a1 b1] s1] [[a2 b2] s2] Hj HI H.
  inv_as H v Hv. inv_as H sm Hsm. inv_as H q Hq. destruct q as [x y]. inversion H; subst. apply Hp in Hq.
  eapply osp_trans; [exact HI|]. destruct Hq as [Q1 Q2]; cbn [fst snd] in *.
  assert (B : forall r k, blk ns i j r k = true -> rect ns m n r k = true) by (unfold blk, rect; nia).
  split; cbn [fst snd]; eapply os_mono; eauto.
Qed.

Lemma blk_in ns i j s : (s < ns)%nat -> blk ns i j (i * ns + s) j = true.
Proof. unfold blk. lia. Qed.
Lemma blk_one i j : blk 1 i j i j = true.
Proof. unfold blk. lia. Qed.

Section P.
Context {MC : Machine}.
Notation len := List.length.
Notation MM c := (Z.to_nat (M c)).

Lemma put_diff_frame split shs : put_frame (len split) (put_diff split shs).
Proof.
  intros i j v [gp gm] [gp' gm'] H. unfold put_diff in H.
  refine (forN_Ok (fun _ q => os_pair (blk (len split) i j) (gp, gm) q) _ _ _ _ H _ _); [apply osp_refl|].
  clear H. intros s [a b] [a' b'] Hs HI H. eapply osp_trans; [exact HI|]. pose proof (blk_in (len split) i j s Hs) as HB.
  inv_as H sh Hsh. inv_as H sp Hsp. destruct (0 <=? v).
  - inv_as H x Hx. inv_as H o Ho. inv_as H a1 Ha. inv_as H b1 Hb. inversion H; subst.
    split; cbn [fst snd]; eapply os_set2; eauto.
  - inv_as H a1 Ha. inv_as H nv Hnv. inv_as H x Hx. inv_as H o Ho. inv_as H b1 Hb. inversion H; subst.
    split; cbn [fst snd]; eapply os_set2; eauto.
Qed.
Lemma put_offs_frame split shs wb : put_frame (len split) (put_offs split shs wb).
Proof.
  intros i j v [gp gm] [gp' gm'] H. unfold put_offs in H. inv_as H o0 Ho0. inv_as H v0 Hv0. inv_as H a0 Ha0. inversion H; subst.
  split; cbn [fst snd]; [|apply os_refl].
  refine (forN_Ok (fun _ q => out_same (blk (len split) i j) gp q) _ _ _ _ Ha0 _ _); [apply os_refl|].
  clear H Ha0. intros s a a' Hs HI H. eapply os_trans; [exact HI|]. pose proof (blk_in (len split) i j s Hs) as HB.
  inv_as H sh Hsh. inv_as H sp Hsp. inv_as H x Hx. inv_as H o Ho. eapply os_set2; eauto.
Qed.
Lemma put_xnn_frame tern : put_frame 1 (put_xnn tern).
Proof.
  intros i j v [gp gm] [gp' gm'] H. unfold put_xnn in H. pose proof (blk_one i j) as HB.
  destruct (v =? 1); [|destruct (v =? -1); [|destruct (tern && (v =? 0)); [|discriminate]]];
    inv_as H a Ha; inv_as H b Hb; inversion H; subst; split; cbn [fst snd]; eapply os_set2; eauto.
Qed.
Lemma put_tc_frame o : put_frame 1 (put_tc o).
Proof.
  intros i j v [gp gm] [gp' gm'] H. unfold put_tc in H. pose proof (blk_one i j) as HB.
  inv_as H y Hy. inv_as H a Ha. inv_as H b Hb. inversion H; subst; split; cbn [fst snd]; eapply os_set2; eauto.
Qed.
Lemma put_single_frame o : put_frame 1 (put_single o).
Proof.
  intros i j v [gp gm] [gp' gm'] H. unfold put_single in H. pose proof (blk_one i j) as HB.
  inv_as H y Hy. inv_as H a Ha. inversion H; subst; split; cbn [fst snd]; [eapply os_set2; eauto|apply os_refl].
Qed.

Lemma d_write_frame c mp mat m n mp' : shape c mp -> d_write c mp mat m n = Ok mp' ->
  os_pair (rect (rpw c) m n) (gd_p mp, gd_m mp) (gd_p mp', gd_m mp').
Proof.
  intros Hs H. unfold d_write in H. rewrite (sh_mode _ _ Hs) in H. unfold rpw, nsplit.
  inv_as H q Hq. destruct q as [[gp gm] sw]. inversion H; subst. clear H. cbn [gd_p gd_m].
  change (os_pair (rect (if is_int (m_mode c) then len (SPLIT c) else 1%nat) m n) (gd_p mp, gd_m mp) (gp, gm)).
  destruct (m_mode c); cbn [is_int] in *;
    try (eapply write_sum_frame; [apply put_diff_frame|exact Hq]);
    try (eapply write_sum_frame; [apply put_xnn_frame|exact Hq]);
    try (eapply write_plain_frame; [apply put_offs_frame|exact Hq]);
    try (eapply write_plain_frame; [apply put_single_frame|exact Hq]);
    unfold d_write_tc in Hq; destruct (split11 _); try discriminate;
    eapply write_plain_frame; [apply put_tc_frame|exact Hq| apply put_tc_frame|exact Hq].
Qed.

(** The digital part of a crossbar write. *)
Lemma a_write_digital c mp m n e mp' e' : a_write c mp m n e = Ok (mp', e') -> same_digital mp mp'.
Proof.
  intros H. unfold a_write in H. inv_as H q Hq. destruct q as [mp1 e1].
  assert (S1 : same_digital mp mp1).
  { destruct (is_int (mp_mode mp)).
    - inv_as Hq mp2 H2. inversion Hq; subst. unfold a_write_int in H2. inv_as H2 t Ht. destruct t. inversion H2; subst.
      repeat split.
    - unfold a_write_xnn in Hq. inv_as Hq t Ht. destruct t as [[[[? ?] ?] ?] ?]. inversion Hq; subst. repeat split. }
  destruct (parasitics c); [|now inversion H; subst].
  inv_as H p Hp. inversion H; subst. exact S1.
Qed.
Lemma xwrite_d c x mat m n e x' e' : xwrite c x mat m n e = Ok (x', e') ->
  exists mp1, d_write c (xm x) mat m n = Ok mp1 /\ same_digital mp1 (xm x').
Proof.
  intros H. unfold xwrite in H. cbv zeta in H.
  change (xm (x <|n_write := n_write x + 1|> <|n_read := 0|>)) with (xm x) in H.
  inv_as H x1 Hx1. assert (E : d_write c (xm x) mat m n = Ok (xm x1)).
  { destruct (read_disturb c).
    - inv_as Hx1 mp1 Hm. inv_as Hx1 up Hup. inv_as Hx1 um Hum. inv_as Hx1 r Hr. inv_as Hx1 r1 Hr1. inv_as Hx1 r2 Hr2.
      inversion Hx1; subst. exact Hm.
    - inv_as Hx1 mp1 Hm. inversion Hx1; subst. exact Hm. }
  exists (xm x1). split; [exact E|]. destruct (digital_only c).
  - inversion H; subst. apply sd_refl.
  - inv_as H q Hq. destruct q as [mp2 e2]. inversion H; subst. cbn. eapply a_write_digital; eauto.
Qed.

(** ** C06 *)
Lemma write_frame : forall w mat m n w1 r q g g',
  reach w -> step w (CpyMtrx mat m n) = Ok (w1, r) -> q = GdP \/ q = GdM ->
  step w (GetMat q) = Ok (w, RMat g) -> step w1 (GetMat q) = Ok (w1, RMat g') ->
  forall i k, (m * rows_per_weight (wcfg w) <= Z.of_nat i \/ n <= Z.of_nat k) -> cell g' i k = cell g i k.
Proof.
  intros w mat m n w1 r q g g' Hr H Hq G G' i k Hik. apply reach_good in Hr.
  cbn [step] in *. unfold cpy_mtrx in H.
  destruct (wx w) as [x|] eqn:Ex; [|discriminate G]. cbn [checked bind] in G.
  destruct (too_big _ _ _). { inversion H; subst. rewrite Ex in G'. cbn [checked bind] in G'. rewrite G in G'. now inversion G'. }
  inv_as H d Hd. destruct d as [m' n']. inv_as H y Hy. destruct y as [x1 e1]. inversion H; subst. clear H.
  unfold dims in Hd. destruct ((m <? 0) || (n <? 0)) eqn:Eneg; [discriminate|]. inversion Hd; subst m' n'. clear Hd.
  change (wx (w <| wx := Some x1 |> <| wenv := e1 |>)) with (Some x1) in G'. cbn [checked bind] in G'.
  apply xwrite_d in Hy. destruct Hy as (mp1 & Hm & S1 & S2 & _).
  apply d_write_frame in Hm; [|apply (g_x _ Hr x Ex)]. destruct Hm as [F1 F2]. cbn [fst snd] in *.
  assert (D : rect (rpw (wcfg w)) (Z.to_nat m) (Z.to_nat n) i k = false).
  { unfold rect, rpw, rows_per_weight, nsplit in *. destruct (is_int _); nia. }
  unfold cell. destruct Hq as [-> | ->]; cbn [get_mat bind] in *; inversion G; inversion G'; subst.
  - rewrite S1. apply (F1 i k D).
  - rewrite S2. apply (F2 i k D).
Qed.

Lemma mvm_frame : forall w a w1 r q, reach w ->
  (match a with ExeMvm _ _ _ _ _ _ | PyMvm _ _ _ _ _ => True | _ => False end) ->
  step w a = Ok (w1, r) -> q = GdP \/ q = GdM ->
  forall g, step w (GetMat q) = Ok (w, RMat g) -> step w1 (GetMat q) = Ok (w1, RMat g).
Proof.
  intros w a w1 r q Hr Ha H Hq g G. apply reach_good in Hr.
  assert (Hqu : quiet a) by (destruct a; easy).
  destruct (quiet_step _ _ _ _ Hr Hqu H) as (_ & _ & _ & HX & _).
  cbn [step] in *. destruct (wx w) as [x|] eqn:Ex; [|discriminate G]. destruct (HX x eq_refl) as (x1 & -> & S1 & S2 & _).
  cbn [checked bind] in *. destruct Hq as [-> | ->]; cbn [get_mat bind] in *; inversion G; subst; congruence.
Qed.

(** ** C05, C52: what the stored cells denote *)
Lemma total_sumL l : total l = sumL l.
Proof. reflexivity. Qed.

Lemma shifts_position c s : is_int (m_mode c) = true -> fits c -> (s < nsplit c)%nat ->
  nth s (shifts c) 0 = position c s.
Proof.
  intros Hi Hf Hs. destruct (Hf Hi) as (H1 & H2 & H3). rewrite shifts_eq by lia. unfold position.
  unfold nsplit in Hs. assert (HC : sumL (SPLIT c) <= W_BIT c <= 31) by lia.
  clear - H1 Hs HC. revert s Hs HC. generalize (W_BIT c) as cur.
  induction H1 as [|a l Ha HF IH]; intros cur s Hs HC; [cbn in Hs; lia|].
  pose proof (sumL_nonneg l HF). cbn [sumL fold_right] in HC. change (fold_right Z.add 0 l) with (sumL l) in HC.
  rewrite shifts_from_cons by lia. destruct s as [|s]; [cbn; lia|].
  change (nth s (shifts_from (cur - a) l) 0 = cur - total (a :: firstn (S s) l)).
  rewrite IH; [|cbn in Hs; lia|lia]. cbn [total fold_right]. fold (total (firstn (S s) l)). lia.
Qed.

Lemma keep_bits_clear c v : 0 <= sumL (SPLIT c) <= W_BIT c -> 0 <= v < 2 ^ W_BIT c ->
  keep_bits c v = clear_low (W_BIT c - total (SPLIT c)) v.
Proof. intros H Hv. unfold keep_bits, clear_low. rewrite Z.mod_small by lia. reflexivity. Qed.

Lemma decoded_truncated c w : is_int (m_mode c) = true -> fits c -> weight_in c w -> decoded c w = truncated c w.
Proof.
  intros Hi Hf Hw. destruct (Hf Hi) as (H1 & H2 & H3). pose proof (sumL_nonneg _ H1).
  assert (HW : 2 ^ W_BIT c = 2 * 2 ^ (W_BIT c - 1)).
  { replace (W_BIT c) with (Z.succ (W_BIT c - 1)) at 1 by lia. rewrite Z.pow_succ_r by lia. ring. }
  unfold decoded, truncated, weight_in in *.
  destruct (m_mode c); try discriminate Hi; rewrite keep_bits_clear by lia; reflexivity.
Qed.
Lemma truncated_exact c w : is_int (m_mode c) = true -> total (SPLIT c) = W_BIT c -> truncated c w = w.
Proof.
  intros Hi E. unfold truncated, clear_low. rewrite E, Z.sub_diag, Z.pow_0_r, !Z.mod_1_r.
  destruct (m_mode c); try discriminate Hi; rewrite ?Z.sub_0_r; try (rewrite Z.mul_comm; apply Z.abs_sgn). ring.
Qed.

Lemma weight_wok c w : is_int (m_mode c) = true -> fits c -> weight_in c w -> wok c w /\ Z.abs w <= 2 ^ W_BIT c.
Proof.
  intros Hi Hf Hw. destruct (Hf Hi) as (H1 & H2 & H3).
  assert (Hp : 0 < 2 ^ W_BIT c <= 2 ^ 30) by (split; [apply Z.pow_pos_nonneg|apply Z.pow_le_mono_r]; lia).
  assert (HW : 2 ^ W_BIT c = 2 * 2 ^ (W_BIT c - 1)).
  { replace (W_BIT c) with (Z.succ (W_BIT c - 1)) at 1 by lia. rewrite Z.pow_succ_r by lia. ring. }
  unfold wok, weight_in in *. unfold int_min, int_max. destruct (m_mode c); try discriminate Hi; lia.
Qed.

Lemma write_decodes : forall w mat m n w1 gp gm,
  reach w -> is_int (m_mode (wcfg w)) = true ->
  total (SPLIT (wcfg w)) <= W_BIT (wcfg w) -> 1 <= W_BIT (wcfg w) <= 30 ->
  dims_in (wcfg w) m n -> all_entries (weight_in (wcfg w)) mat m n -> n * 2 ^ W_BIT (wcfg w) <= int32_max ->
  step w (CpyMtrx mat m n) = Ok (w1, RCode 0) ->
  step w1 (GetMat GdP) = Ok (w1, RMat gp) -> step w1 (GetMat GdM) = Ok (w1, RMat gm) ->
  decodes (wcfg w) gp gm (truncated (wcfg w)) mat m n.
Proof.
  intros w mat m n w1 gp gm Hr Hi Htot HW Hdim [Hl Hent] HN H Gp Gm. apply reach_good in Hr.
  destruct (guard_ok w m n Hr Hdim) as (G1 & G2 & Hm & Hn). pose proof (split_nonneg w Hr) as Hnn.
  cbn [step] in *. unfold cpy_mtrx in H. rewrite G1, G2 in H.
  destruct (wx w) as [x|] eqn:Ex; [|discriminate H]. cbn [bind] in H.
  inv_as H y Hy. destruct y as [x1 e1]. inversion H; subst. clear H.
  change (wx (w <| wx := Some x1 |> <| wenv := e1 |>)) with (Some x1) in *. cbn [checked bind get_mat] in Gp, Gm.
  inversion Gp; inversion Gm; subst gp gm. clear Gp Gm.
  apply xwrite_d in Hy. destruct Hy as (mp1 & Hd & S1 & S2 & _). rewrite S1, S2. clear S1 S2.
  set (c := wcfg w) in *. assert (Hf : fits c) by (intros _; repeat split; auto; lia).
  pose proof (g_x _ Hr x Ex) as [Hsh _]. pose proof (good_wf w Hr) as Hwf. fold c in Hsh, Hwf.
  assert (Hwok : forall i j, (i < Z.to_nat m)%nat -> (j < Z.to_nat n)%nat -> wok c (nth (Z.to_nat n * i + j) mat 0))
    by (intros i j Ha Hb; apply (weight_wok c _ Hi Hf (Hent i j Ha Hb))).
  destruct (d_write_ok c (xm x) mat (Z.to_nat m) (Z.to_nat n)) as (mp' & E & _ & _ & P1 & P2 & _); auto.
  { destruct Hdim. nia. }
  { intros _ i Hlt. apply Z.le_trans with (sumZ (Z.to_nat n) (fun _ => 2 ^ W_BIT c)).
    - apply sumZ_le. intros j Hj. apply (weight_wok c _ Hi Hf (Hent i j Hlt Hj)).
    - rewrite sumZ_const, Z2Nat.id by (destruct Hdim; lia). exact HN. }
  rewrite E in Hd. inversion Hd; subst mp1. clear Hd.
  assert (HH : holds c mp' mat (Z.to_nat m) (Z.to_nat n)).
  { apply (written c (xm x) mp' mat); auto. intros Ht. now apply (sh_gm0 _ _ Hsh). }
  assert (HR : (Z.to_nat m * rpw c <= rowsN c)%nat) by now apply rpw_rows.
  assert (Erp : rpw c = nsplit c) by (unfold rpw; now rewrite Hi).
  intros i j Hii Hjj. destruct (HH i j Hii Hjj) as (_ & Hv & _). split.
  - fold (entry mat (Z.to_nat n) i j) in Hv. rewrite (decoded_truncated c _ Hi Hf (Hent i j Hii Hjj)) in Hv. rewrite <- Hv.
    unfold recombined, cellv, segs. rewrite !sum_sumZ. unfold cell, at2, nsplit.
    destruct (m_mode c) eqn:Em; try discriminate Hi; [..|f_equal]; apply sumZ_ext; intros s Hs;
      rewrite (shifts_position c s); rewrite ?Em; auto.
  - intros s Hs. cbn zeta. destruct P1 as [_ P1], P2 as [_ P2]. unfold cell.
    change (nth j (nth (i * len (SPLIT c) + s) (gd_p mp') []) 0) with (at2 0 (gd_p mp') (i * nsplit c + s) j).
    change (nth j (nth (i * len (SPLIT c) + s) (gd_m mp') []) 0) with (at2 0 (gd_m mp') (i * nsplit c + s) j).
    fold (nsplit c) in Hs. rewrite Erp in *.
    assert (0 <= nth s (SPLIT c) 0) by (rewrite Forall_forall in Hnn; apply Hnn; now apply nth_In).
    rewrite P1, P2 by (try lia; nia). unfold wcell. rewrite Erp. destruct (blk_div (nsplit c) i s Hs) as [-> ->].
    replace (rect _ _ _ _ _) with true by (unfold rect; nia). rewrite andb_true_r.
    set (v := nth (Z.to_nat n * i + j) mat 0).
    assert (Hz : two_arrays (m_mode c) = false -> at2 0 (gd_m (xm x)) (i * nsplit c + s) j = 0).
    { intros Ht. rewrite (sh_gm0 _ _ Hsh Ht). apply at2_mat2; nia. }
    assert (0 < 2 ^ nth s (SPLIT c) 0) by (apply Z.pow_pos_nonneg; lia).
    unfold stp, stm. destruct (m_mode c) eqn:Em; try discriminate Hi; cbn [two_arrays] in *.
    1-5: destruct (diff_cases c v s) as [(_ & -> & ->)|(_ & -> & ->)];
      pose proof (slice_nonneg (nth s (shifts c) 0) (nth s (SPLIT c) 0) (Z.abs v) ltac:(auto)); lia.
    rewrite (Hz eq_refl). unfold offs_p.
    match goal with |- context[slice ?a ?b ?d] => pose proof (slice_nonneg a b d ltac:(auto)) end. lia.
Qed.

(** Too many slices. *)
Lemma total_covered l : forall cur, Forall (fun s => 0 <= s <= 31) l ->
  (forall s, (s < len l)%nat -> nth s (shifts_from cur l) 0 <= 31) -> - 2147483648 <= cur <= 2147483647 ->
  l = [] \/ total l <= cur.
Proof.
  induction l as [|a l IH]; intros cur HF Hs Hc; [now left|right].
  inversion HF as [|? ? Ha HF']; subst. pose proof (Hs 0%nat ltac:(cbn; lia)) as H0. cbn [shifts_from nth] in H0.
  assert (a <= cur).
  { destruct (Z_lt_le_dec cur a) as [C|C]; [|exact C]. exfalso. unfold u32 in H0.
    assert (E : (cur - a) mod 2 ^ 32 = cur - a + 2 ^ 32); [|lia].
    symmetry. apply (Z.mod_unique (cur - a) (2 ^ 32) (-1)); lia. }
  unfold u32 in H0. rewrite Z.mod_small in H0 by lia.
  destruct (IH (cur - a)) as [-> | IH'].
  - exact HF'.
  - intros s Hls. specialize (Hs (S s) ltac:(cbn; lia)). cbn [shifts_from nth] in Hs.
    unfold u32 in Hs. rewrite Z.mod_small in Hs by lia. rewrite wrap32_id in Hs by (unfold int_min, int_max; lia). exact Hs.
  - lia.
  - cbn. lia.
  - cbn [total fold_right]. fold (total l). lia.
Qed.

Lemma forN_each {S} n (body : nat -> S -> out S) s s' k : forN n body s = Ok s' -> (k < n)%nat ->
  exists a b, body k a = Ok b.
Proof.
  revert s'. induction n as [|n IH]; intros s' H Hk; [lia|]. cbn in H. apply bind_Ok in H. destruct H as (s1 & H1 & H2).
  destruct (Nat.eq_dec k n) as [->|]; [eauto|]. eapply IH; eauto. lia.
Qed.
Lemma shr_ok_range v sh x : shr32 v sh = Ok x -> 0 <= sh <= 31.
Proof. unfold shr32. destruct (_ && _) eqn:E; [lia|discriminate]. Qed.
Lemma ones_ok_range k x : ones k = Ok x -> 0 <= k <= 31.
Proof. unfold ones, shl32. destruct (_ && _) eqn:E; [lia|discriminate]. Qed.

(** A write that succeeds has used every shift and every slice width. *)
Definition slices_used (split shs : list Z) : Prop :=
  forall s, (s < len split)%nat -> 0 <= nth s shs 0 <= 31 /\ 0 <= nth s split 0 <= 31.
Lemma put_diff_used split shs i j v g g' : put_diff split shs i j v g = Ok g' -> slices_used split shs.
Proof.
  intros H s Hs. unfold put_diff in H. destruct (forN_each _ _ _ _ s H Hs) as ([a b] & [a' b'] & E). cbv zeta in E.
  inv_as E sh Hsh. inv_as E sp Hsp. apply (get_inv _ _ _ 0) in Hsh, Hsp. destruct Hsh as [_ <-], Hsp as [_ <-].
  destruct (0 <=? v).
  - inv_as E x Hx. inv_as E o Ho. eauto using shr_ok_range, ones_ok_range.
  - inv_as E a1 Ha1. inv_as E nv Hnv. inv_as E x Hx. inv_as E o Ho. eauto using shr_ok_range, ones_ok_range.
Qed.
Lemma put_offs_used split shs wb i j v g g' : put_offs split shs wb i j v g = Ok g' -> slices_used split shs.
Proof.
  intros H s Hs. unfold put_offs in H. destruct g as [gp gm]. inv_as H o0 Ho0. inv_as H v0 Hv0. inv_as H a0 Ha0.
  destruct (forN_each _ _ _ _ s Ha0 Hs) as (a & b & E).
  inv_as E sh Hsh. inv_as E sp Hsp. apply (get_inv _ _ _ 0) in Hsh, Hsp. destruct Hsh as [_ <-], Hsp as [_ <-].
  inv_as E x Hx. inv_as E o Ho. eauto using shr_ok_range, ones_ok_range.
Qed.
Lemma d_write_used c mp mat m n mp' : shape c mp -> is_int (m_mode c) = true -> (1 <= m)%nat -> (1 <= n)%nat ->
  d_write c mp mat m n = Ok mp' -> slices_used (SPLIT c) (shifts c).
Proof.
  intros Hs Hi Hm Hn H. unfold d_write in H. rewrite (sh_mode _ _ Hs) in H.
  assert (Hsh : shift mp = shifts c) by (rewrite (sh_shift _ _ Hs); unfold uses_shift; now rewrite Hi).
  rewrite Hsh in H. inv_as H q Hq. clear H.
  assert (HS : forall put st, write_sum put mat m n st = Ok q -> exists v g g', put 0%nat 0%nat v g = Ok g').
  { intros put st E. unfold write_sum in E. destruct (forN_each _ _ _ _ 0%nat E ltac:(lia)) as ([[? ?] ?] & ? & E1).
    inv_as E1 t Ht. destruct (forN_each _ _ _ _ 0%nat Ht ltac:(lia)) as ([[? ?] ?] & ? & E2).
    inv_as E2 v Hv. inv_as E2 sm Hsm. inv_as E2 g' Hg. eauto. }
  assert (HP : forall put st, write_plain put mat m n st = Ok q -> exists v g g', put 0%nat 0%nat v g = Ok g').
  { intros put st E. unfold write_plain in E. destruct (forN_each _ _ _ _ 0%nat E ltac:(lia)) as (? & ? & E1).
    destruct (forN_each _ _ _ _ 0%nat E1 ltac:(lia)) as ([[? ?] ?] & ? & E2).
    inv_as E2 v Hv. inv_as E2 g' Hg. eauto. }
  destruct (m_mode c); try discriminate Hi.
  1-5: apply HS in Hq; destruct Hq as (v & g & g' & E); eapply put_diff_used; eauto.
  apply HP in Hq; destruct Hq as (v & g & g' & E); eapply put_offs_used; eauto.
Qed.

Lemma wrap32_range x : - 2147483648 <= wrap32 x <= 2147483647.
Proof. unfold wrap32. pose proof (Z.mod_pos_bound (x + 2 ^ 31) (2 ^ 32) ltac:(lia)). lia. Qed.
Lemma wrap32_le x : 0 <= x -> wrap32 x <= x.
Proof.
  intros H. unfold wrap32. pose proof (Z.mod_le (x + 2 ^ 31) (2 ^ 32) ltac:(lia) ltac:(lia)). lia.
Qed.
Lemma used_total c : 0 <= W_BIT c -> slices_used (SPLIT c) (shifts c) -> total (SPLIT c) <= W_BIT c.
Proof.
  intros HW H. destruct (total_covered (SPLIT c) (wrap32 (W_BIT c))) as [-> | HT].
  - apply Forall_forall. intros x Hx. destruct (In_nth _ _ 0 Hx) as (s & Hs & <-). now apply H.
  - intros s Hs. now apply H.
  - apply wrap32_range.
  - cbn. lia.
  - pose proof (wrap32_le (W_BIT c) HW). lia.
Qed.

Lemma d_write_excess c mp mat m n : shape c mp -> cfg_wf c -> is_int (m_mode c) = true -> 0 <= W_BIT c < total (SPLIT c) ->
  (1 <= m)%nat -> (1 <= n)%nat -> exists f, d_write c mp mat m n = UB f.
Proof.
  intros Hs Hw Hi HW Hm Hn. assert (ND : nd (d_write c mp mat m n)) by (apply nd_d_write; auto; congruence).
  destruct (nd_cases _ ND) as [[mp' E]|H]; auto. exfalso.
  pose proof (used_total c ltac:(lia) (d_write_used c mp mat m n mp' Hs Hi Hm Hn E)). lia.
Qed.
Lemma xwrite_fail c x mat m n e f : d_write c (xm x) mat m n = UB f -> xwrite c x mat m n e = UB f.
Proof.
  intros H. unfold xwrite. cbv zeta. change (xm (x <|n_write := n_write x + 1|> <|n_read := 0|>)) with (xm x). rewrite H.
  destruct (read_disturb c); reflexivity.
Qed.
Lemma good_wbit w : good w -> is_int (m_mode (wcfg w)) = true -> 0 <= W_BIT (wcfg w).
Proof.
  intros Hg Hi. destruct (good_loaded w Hg) as [H|H]; [apply (ld_bits _ H) in Hi; lia|].
  rewrite H in *. cbn. lia.
Qed.

Lemma write_excess : forall w x mat m n,
  reach w -> wx w = Some x -> is_int (m_mode (wcfg w)) = true ->
  W_BIT (wcfg w) < total (SPLIT (wcfg w)) -> dims_in (wcfg w) m n -> 1 <= m -> 1 <= n ->
  exists f, step w (CpyMtrx mat m n) = UB f.
Proof.
  intros w x mat m n Hr Hx Hi HT Hdim Hm Hn. apply reach_good in Hr.
  destruct (guard_ok w m n Hr Hdim) as (G1 & G2 & _ & _).
  destruct (d_write_excess (wcfg w) (xm x) mat (Z.to_nat m) (Z.to_nat n)) as (f & E).
  - apply (g_x _ Hr x Hx).
  - now apply good_wf.
  - exact Hi.
  - split; [now apply good_wbit|exact HT].
  - lia.
  - lia.
  - exists f. cbn [step]. unfold cpy_mtrx. rewrite Hx, G1, G2. cbn [bind]. now rewrite (xwrite_fail _ _ _ _ _ _ _ E).
Qed.

(** ** C59 *)
Lemma sumZ_tail n k (f : nat -> Z) : (k <= n)%nat -> sumZ n f - sumZ k f = sumZ (n - k) (fun j => f (k + j)%nat).
Proof. intros H. replace n with (k + (n - k))%nat at 1 by lia. rewrite sumZ_split. lia. Qed.

Lemma d_mvm_narrow c mp mat res vec mat' m n m1 k :
  (strict_shl = true -> no_neg_shift (m_mode c) = true) ->
  cfg_wf c -> shape c mp -> Forall (fun s => 0 <= s) (SPLIT c) -> split_covers c -> widths_fit c ->
  (m <= MM c)%nat -> (n <= colsN c)%nat -> (m1 <= m)%nat -> (k <= n)%nat -> (m1 <= len res)%nat -> (k <= len vec)%nat ->
  (forall i j, (i < m)%nat -> (j < n)%nat -> weight_in c (entry mat n i j)) ->
  (forall j, (j < k)%nat -> input_in c (nth j vec 0)) ->
  Z.of_nat n * term_bound c <= int_max ->
  (forall i, (i < m1)%nat -> Z.abs (nth i res 0) + Z.of_nat n * term_bound c <= int_max) ->
  stored c mp mat m n ->
  exists mp', d_mvm c mp res vec mat' m1 k = Ok (narrow_product c res mat vec m1 n k, mp').
Proof.
  intros Hst Hw Hs Hnn Hcov Hwid Hm Hn Hm1 Hk Hr Hv Hd Hvd HN HB HS.
  assert (Espan : term_bound c = span c).
  { unfold term_bound, span. destruct (is_int (m_mode c)) eqn:Hi; auto.
    destruct (Hcov Hi), (Hwid Hi). apply Z.pow_add_r; lia. }
  rewrite Espan in *.
  assert (Hb : bits_ok c).
  { intros Hi. destruct (Hcov Hi) as [E1 E2], (Hwid Hi) as [E3 E4]. unfold total in E1. fold (sumL (SPLIT c)) in E1.
    repeat split; try lia; rewrite ?shifts_eq by lia; apply shifts_from_range; auto; lia. }
  assert (Hspan : row_bound c <= span c /\ Z.abs (kap c) * row_bound c <= span c).
  { unfold span, kap, row_bound. destruct (is_int (m_mode c)) eqn:Hi.
    - destruct (Hcov Hi) as [F1 F2], (Hwid Hi) as [F3 F4].
      assert (0 < 2 ^ W_BIT c) by (apply Z.pow_pos_nonneg; lia).
      assert (0 < 2 ^ (I_BIT c - 1)) by (apply Z.pow_pos_nonneg; lia).
      assert (2 ^ I_BIT c = 2 * 2 ^ (I_BIT c - 1)).
      { replace (I_BIT c) with (Z.succ (I_BIT c - 1)) at 1 by lia. rewrite Z.pow_succ_r by lia. ring. }
      destruct (m_mode c); try discriminate Hi; repeat split; nia.
    - destruct (m_mode c); try discriminate Hi; cbn; lia. }
  destruct Hspan as (Hs1 & Hs2). pose proof (row_bound_pos c) as Hs3.
  assert (Hwb : forall i j, (i < m)%nat -> (j < n)%nat -> Z.abs (entry mat n i j) <= row_bound c).
  { intros i j Hi Hj. now apply (weight_facts c _ Hcov (Hd i j Hi Hj)). }
  assert (Hdres : forall i x, (i < m1)%nat ->
    dres c mp vec k i x = x + sumZ k (fun j => entry mat n i j * nth j vec 0)
      - kap c * (sumZ n (entry mat n i) - sumZ k (entry mat n i))).
  { intros i x Hi. unfold dres.
    rewrite (sumZ_ext k (fun j => cellv c mp i j * nth j vec 0 + cellb c mp i j)
              (fun j => entry mat n i j * nth j vec 0)).
    2: { intros j Hj. rewrite (st_v _ _ _ _ _ HS i j), (st_b _ _ _ _ _ HS i j) by lia. ring. }
    rewrite (sumZ_ext k (fun j => cellv c mp i j) (entry mat n i)).
    2: { intros j Hj. apply (st_v _ _ _ _ _ HS i j); lia. }
    destruct (keeps_sums (m_mode c)) eqn:Ek.
    - rewrite (st_sum _ _ _ _ _ HS Ek i) by lia. lia.
    - unfold kap. destruct (m_mode c); try discriminate Ek; lia. }
  assert (Hkn : Z.of_nat k * span c <= Z.of_nat n * span c) by nia.
  destruct (go_all c mp res vec mat' m1 k) as (mp'' & E2); auto; try lia.
  - intros i j Hi Hj. apply (st_ok _ _ _ _ _ HS); lia.
  - intros i Hi. specialize (HB i Hi). lia.
  - intros i Hi. destruct (keeps_sums (m_mode c)) eqn:Ek.
    + rewrite (st_sum _ _ _ _ _ HS Ek i) by lia. rewrite Z.abs_mul.
      assert (Z.abs (sumZ n (entry mat n i)) <= Z.of_nat n * row_bound c).
      { apply sumZ_bound. intros j Hj. apply Hwb; lia. }
      pose proof (Z.abs_nonneg (kap c)).
      etransitivity; [apply Z.mul_le_mono_nonneg_l; [auto|eassumption]|]. nia.
    + unfold kap. destruct (m_mode c); try discriminate Ek; cbn; unfold int_max; lia.
  - intros i Hi. rewrite Hdres by auto. specialize (HB i Hi). rewrite sumZ_tail by auto.
    assert (HV : forall j, (j < k)%nat -> Z.abs (entry mat n i j * nth j vec 0) <= span c).
    { intros j Hj. pose proof (Hwb i j ltac:(lia) ltac:(lia)) as B.
      specialize (Hvd j Hj). rewrite Z.abs_mul. unfold span, input_in, row_bound in *.
      destruct (is_int (m_mode c)) eqn:Hii.
      - assert (Z.abs (nth j vec 0) <= 2 ^ I_BIT c).
        { destruct (Hcov Hii) as [F1 F2], (Hwid Hii) as [F3 F4].
          assert (2 ^ I_BIT c = 2 * 2 ^ (I_BIT c - 1)).
          { replace (I_BIT c) with (Z.succ (I_BIT c - 1)) at 1 by lia. rewrite Z.pow_succ_r by lia. ring. }
          destruct (m_mode c); try discriminate Hii; lia. }
        apply Z.mul_le_mono_nonneg; lia.
      - assert (Z.abs (nth j vec 0) <= 1).
        { destruct (m_mode c); try discriminate Hii; lia. }
        nia. }
    pose proof (sumZ_bound k (fun j => entry mat n i j * nth j vec 0) (span c) HV) as B1.
    assert (B2 : Z.abs (sumZ (n - k) (fun j => entry mat n i (k + j))) <= Z.of_nat (n - k) * row_bound c).
    { apply sumZ_bound. intros j Hj. apply Hwb; lia. }
    assert (B3 : Z.abs (kap c * sumZ (n - k) (fun j => entry mat n i (k + j))) <= Z.of_nat (n - k) * span c).
    { rewrite Z.abs_mul. pose proof (Z.abs_nonneg (kap c)).
      etransitivity; [apply Z.mul_le_mono_nonneg_l; [auto|exact B2]|]. nia. }
    assert (E : Z.of_nat n * span c = Z.of_nat k * span c + Z.of_nat (n - k) * span c) by nia.
    cbv beta in B1. set (a := sumZ k _) in *. set (b := kap c * _) in *. set (z := nth i res 0) in *.
    clear - HB B1 B3 E. lia.
  - exists mp''. rewrite E2. do 2 f_equal. unfold narrow_product. apply (nth_ext _ _ 0 0).
    { rewrite upto_length, map_length, seq_length. reflexivity. }
    intros i Hi. rewrite upto_length in Hi. rewrite nth_upto by auto.
    match goal with |- _ = nth i (map ?f _) 0 => set (g := f) end.
    rewrite (nth_indep (map g (seq 0 (len res))) 0 (g O)) by now rewrite map_length, seq_length.
    rewrite map_nth, seq_nth by auto. unfold g. cbn [plus]. destruct (i <? m1)%nat eqn:Em; [|lia].
    rewrite Hdres by lia. rewrite !sum_sumZ. change (row_sum_factor c) with (kap c). lia.
Qed.

Lemma narrow_mvm : forall w x mat vec res mat' m n m1 k l,
  (strict_shl = true -> no_neg_shift (m_mode (wcfg w)) = true) ->
  reach w -> wx w = Some x -> digital_only (wcfg w) = true ->
  split_covers (wcfg w) -> widths_fit (wcfg w) -> dims_in (wcfg w) m n ->
  0 <= m1 <= m -> 0 <= k <= n ->
  all_entries (weight_in (wcfg w)) mat m n -> all_first (input_in (wcfg w)) vec k ->
  n * term_bound (wcfg w) <= int32_max ->
  all_first (fun x => Z.abs x + n * term_bound (wcfg w) <= int32_max) res m1 ->
  exists w1 w2,
    step w (CpyMtrx mat m n) = Ok (w1, RCode 0) /\
    step w1 (ExeMvm res vec mat' m1 k l) =
      Ok (w2, RRes 0 (narrow_product (wcfg w) res mat vec (Z.to_nat m1) (Z.to_nat n) (Z.to_nat k))).
Proof.
  intros w x mat vec res mat' m n m1 k l Hst Hr Hx Hd Hcov Hwid Hdim Hm1 Hk Hent [Hv1 Hv2] HN [Hr1 Hr2].
  apply reach_good in Hr.
  destruct (cpy_stored w x mat m n) as (w1 & E1 & G1 & C1 & _ & x1 & X1 & S1); auto.
  { pose proof (row_term (wcfg w) Hwid Hcov). destruct Hdim. nia. }
  assert (Hdim' : dims_in (wcfg w1) m1 k) by (rewrite C1; destruct Hdim; split; lia).
  assert (Hdimw : dims_in (wcfg w1) m n) by (now rewrite C1).
  destruct (guard_ok w1 m1 k G1 Hdim') as (T1 & T2 & M1 & N1).
  destruct (guard_ok w1 m n G1 Hdimw) as (_ & _ & M2 & N2).
  pose proof (g_x _ G1 x1 X1) as Hxo. pose proof (good_wf w1 G1) as Hwf. pose proof (split_nonneg w1 G1) as Hsn.
  rewrite C1 in *. destruct Hent as [Hl Hent]. destruct Hdim as [Dm Dn].
  assert (B0 : Z.of_nat (Z.to_nat n) = n) by (rewrite Z2Nat.id; lia).
  assert (A1 : (Z.to_nat m1 <= Z.to_nat m)%nat) by lia. assert (A2 : (Z.to_nat k <= Z.to_nat n)%nat) by lia.
  assert (A3 : (Z.to_nat m1 <= len res)%nat) by lia. assert (A4 : (Z.to_nat k <= len vec)%nat) by lia.
  assert (A5 : Z.of_nat (Z.to_nat n) * term_bound (wcfg w) <= int_max) by (rewrite B0; exact HN).
  assert (A6 : forall i, (i < Z.to_nat m1)%nat -> Z.abs (nth i res 0) + Z.of_nat (Z.to_nat n) * term_bound (wcfg w) <= int_max)
    by (rewrite B0; exact Hr2).
  destruct (d_mvm_narrow (wcfg w) (xm x1) mat res vec mat' (Z.to_nat m) (Z.to_nat n) (Z.to_nat m1) (Z.to_nat k)
    Hst Hwf (xo_shape _ _ Hxo) Hsn Hcov Hwid M2 N2 A1 A2 A3 A4 Hent Hv2 A5 A6 S1) as (mp' & E).
  destruct (xmvm_digital (wcfg w) x1 res vec mat' _ _ l (wenv w1) _ _ Hd E) as (x' & Ex).
  exists w1. eexists. split; [exact E1|]. cbn. unfold exe_mvm. rewrite X1, C1, T1, T2. cbn [bind]. rewrite Ex. reflexivity.
Qed.

Lemma write_exact : forall w mat m n,
  reach w -> is_int (m_mode (wcfg w)) = true -> split_covers (wcfg w) ->
  dims_in (wcfg w) m n -> all_entries (weight_in (wcfg w)) mat m n -> n * 2 ^ W_BIT (wcfg w) <= int32_max ->
  (digital_only (wcfg w) = true -> wx w <> None -> exists w1, step w (CpyMtrx mat m n) = Ok (w1, RCode 0)) /\
  forall w1, step w (CpyMtrx mat m n) = Ok (w1, RCode 0) ->
  exists gp gm, step w1 (GetMat GdP) = Ok (w1, RMat gp) /\ step w1 (GetMat GdM) = Ok (w1, RMat gm) /\
    decodes (wcfg w) gp gm (fun v => v) mat m n.
Proof.
  intros w mat m n Hr Hi Hcov Hdim Hent HN. split.
  - intros Hd Hx. destruct (wx w) as [x|] eqn:Ex; [|congruence]. apply reach_good in Hr.
    destruct (cpy_stored w x mat m n) as (w1 & E & _); eauto.
    assert (row_bound (wcfg w) <= 2 ^ W_BIT (wcfg w)).
    { destruct (Hcov Hi). unfold row_bound. rewrite Hi. lia. }
    destruct Hdim. nia.
  - intros w1 H. assert (Hx1 : exists x1, wx w1 = Some x1).
    { cbn [step] in H. unfold cpy_mtrx in H. destruct (wx w) as [x|] eqn:Ex; [|discriminate H].
      destruct (guard_ok w m n (reach_good _ Hr) Hdim) as (G1 & G2 & _). rewrite G1, G2 in H. cbn [bind] in H. inv_as H y Hy. destruct y as [x1 e1].
      inversion H; subst. now exists x1. }
    destruct Hx1 as [x1 Hx1]. exists (gd_p (xm x1)), (gd_m (xm x1)).
    assert (Gp : step w1 (GetMat GdP) = Ok (w1, RMat (gd_p (xm x1)))) by (cbn [step]; now rewrite Hx1).
    assert (Gm : step w1 (GetMat GdM) = Ok (w1, RMat (gd_m (xm x1)))) by (cbn [step]; now rewrite Hx1).
    split; [exact Gp|]. split; [exact Gm|]. destruct (Hcov Hi) as [E1 E2].
    assert (E3 : total (SPLIT (wcfg w)) <= W_BIT (wcfg w)) by lia.
    pose proof (write_decodes w mat m n w1 _ _ Hr Hi E3 E2 Hdim Hent HN H Gp Gm) as D.
    intros i j A B. destruct (D i j A B) as [D1 D2]. rewrite truncated_exact in D1; auto.
Qed.
End P.
