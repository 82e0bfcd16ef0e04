(** Sizes of all buffers of a mapper, and their preservation by every operation. *)
From Coq Require Import List ZArith Bool Arith Lia ZifyBool ZifyNat String.
From RecordUpdate Require Import RecordSet.
From Verif Require Import Base Lib Hoare Machine Json Config Histogram Adc ReadDisturb Parasitics
  Mapper IntMappers BnnMappers TnnMappers.
Import ListNotations RecordSetNotations.
Local Open Scope Z_scope.
Local Open Scope out_scope.

Section Shape.
Context {MC : Machine}.

(** SPLIT as set by apply_bits for the modes that do not read it. *)
Definition cfg_wf (c : config) : Prop :=
  match m_mode c with
  | TNN_IV | TNN_V => SPLIT c = [1; 1]
  | m => is_int m = false -> SPLIT c = [0]
  end.

Definition has_vdm (m : mode) : bool :=
  match m with
  | I_DIFF_W_DIFF_1XB | I_DIFF_W_DIFF_2XB
  | BNN_III | BNN_IV | BNN_V | BNN_VI | TNN_I | TNN_IV | TNN_V => true
  | _ => false
  end.

Notation MM c := (Z.to_nat (M c)).

(** Modes that use the second cell array. *)
Definition two_arrays (m : mode) : bool :=
  match m with I_UINT_W_OFFS | BNN_III | BNN_IV => false | _ => true end.

Record shape (c : config) (mp : mapper) : Prop := {
  sh_mode : mp_mode mp = m_mode c;
  sh_diff : mp_diff mp = is_diff (m_mode c);
  sh_gp : wf2 (rowsN c) (colsN c) (gd_p mp);
  sh_gm : wf2 (rowsN c) (colsN c) (gd_m mp);
  sh_gm0 : two_arrays (m_mode c) = false -> gd_m mp = mat2 (rowsN c) (colsN c) 0;
  sh_ip : wf2 (rowsN c) (colsN c) (ia_p mp);
  sh_im : wf2 (rowsN c) (colsN c) (ia_m mp);
  sh_ip0 : wf2 (rowsN c) (colsN c) (ia_p0 mp);
  sh_im0 : wf2 (rowsN c) (colsN c) (ia_m0 mp);
  sh_shift : shift mp = if uses_shift (m_mode c) then shifts c else repeat 0 (nsplit c);
  sh_nseg : nseg mp = if uses_shift (m_mode c) then nsplit c else O;
  sh_step : List.length (i_step mp) = nsplit c;
  sh_sw : List.length (sum_w mp) = MM c;
  sh_vdp : List.length (vd_p mp) = colsN c;
  sh_vdm : has_vdm (m_mode c) = true -> List.length (vd_m mp) = colsN c;
  sh_vds : is_int (m_mode c) = true -> List.length (vd_slice mp) = colsN c;
  sh_ti : is_int (m_mode c) = true -> List.length (tmp_int mp) = rowsN c;
  sh_tmp : is_int (m_mode c) = false -> List.length (tmp mp) = MM c;
  sh_tpm : m_mode c = BNN_III \/ m_mode c = BNN_IV ->
           List.length (tmp_p mp) = MM c /\ List.length (tmp_m mp) = MM c;
  sh_tlm : m_mode c = TNN_IV \/ m_mode c = TNN_V ->
           List.length (tmp_lsb mp) = MM c /\ List.length (tmp_msb mp) = MM c /\
           List.length (tmp_fp mp) = MM c;
  sh_tfp : is_int (m_mode c) = true -> par mp = None -> List.length (tmp_fp mp) = rowsN c;
  sh_rfp : m_mode c = I_UINT_W_OFFS -> List.length (res_fp mp) = rowsN c;
  sh_par : forall p, par mp = Some p ->
           ps_m p = MM c /\ ps_n p = colsN c /\ ps_mode p = m_mode c;
  sh_adc : adc_new c (adc_type c) = Ok (mp_adc mp)
}.

Lemma shifts_from_length cur l : List.length (shifts_from cur l) = List.length l.
Proof. revert cur; induction l; intros cur; cbn; auto. Qed.
Lemma shifts_length c : List.length (shifts c) = nsplit c.
Proof. apply shifts_from_length. Qed.
Lemma sh_shift_len c mp : shape c mp -> List.length (shift mp) = nsplit c.
Proof.
  intros H. rewrite (sh_shift _ _ H). destruct (uses_shift _); [apply shifts_length|apply repeat_length].
Qed.
Lemma wf_ns c : cfg_wf c -> is_int (m_mode c) = false -> (1 <= nsplit c)%nat.
Proof.
  unfold cfg_wf, nsplit. intros H Hi. destruct (m_mode c); try discriminate Hi;
    try (rewrite (H eq_refl); cbn; lia); rewrite H; cbn; lia.
Qed.

(** ** Construction *)
Lemma step_sizes_tri ok c imm : harmless ok ->
  tri ok (fun l => List.length l = nsplit c) (step_sizes c imm).
Proof.
  intros HL. unfold step_sizes. apply tri_mapM. intros x.
  apply (tri_bind ok (fun _ => True)); [|cbn; auto].
  unfold ones. apply (tri_bind ok (fun _ => True)); [now apply tri_shl32|].
  intros; now apply tri_chk32.
Qed.

Lemma mapper_new_shape c mp : mapper_new c = Ok mp -> shape c mp.
Proof.
  unfold mapper_new. intros H.
  apply bind_Ok in H. destruct H as (a & Ha & H).
  apply bind_Ok in H. destruct H as (ps & Hps & H).
  apply bind_Ok in H. destruct H as (st & Hst & H).
  apply bind_Ok in H. destruct H as (dl & Hdl & H).
  inversion H; subst; clear H Hdl.
  assert (Hl : List.length st = nsplit c).
  { destruct (uses_shift (m_mode c)).
    - refine (proj1 (tri_any _ _) (step_sizes_tri anyfail c _ harmless_any) _ Hst).
    - inversion Hst. apply repeat_length. }
  assert (Hp : forall p, ps = Some p -> ps_m p = MM c /\ ps_n p = colsN c /\ ps_mode p = m_mode c).
  { intros p ->. destruct (negb _ && _); [|discriminate].
    apply bind_Ok in Hps. destruct Hps as (q & Hq & E). inversion E; subst.
    unfold par_new in Hq. destruct (wenc_of _); inversion Hq; subst; cbn; auto. }
  constructor; cbn; auto using wf2_mat2, repeat_length;
    destruct (m_mode c); cbn; intros; try discriminate; auto using repeat_length;
    repeat match goal with H : _ \/ _ |- _ => destruct H end; try discriminate;
    rewrite ?repeat_length; auto.
Qed.

(** ** Writes *)
Definition wf_pair c (g : list (list Z) * list (list Z)) : Prop :=
  wf2 (rowsN c) (colsN c) (fst g) /\ wf2 (rowsN c) (colsN c) (snd g) /\
  (two_arrays (m_mode c) = false -> snd g = mat2 (rowsN c) (colsN c) 0).

Section Put.
Context (ok : out False -> Prop) (HL : harmless ok) (c : config).
Notation oob := (ok (UB OutOfBounds)).

Definition put_safe (put : nat -> nat -> Z -> list (list Z) * list (list Z) ->
    out (list (list Z) * list (list Z))) (m n : nat) : Prop :=
  forall i j v g, (i < m)%nat -> (j < n)%nat -> wf_pair c g -> tri ok (wf_pair c) (put i j v g).

Lemma write_sum_tri put mat m n gp gm sw :
  put_safe put m n -> wf_pair c (gp, gm) ->
  oob \/ ((m <= List.length sw)%nat /\ (m * n <= List.length mat)%nat) ->
  tri ok (fun '(gp, gm, sw') => wf_pair c (gp, gm) /\ List.length sw' = List.length sw)
    (write_sum put mat m n (gp, gm, sw)).
Proof.
  intros Hput Hg HB. unfold write_sum. apply tri_loop; [auto|].
  intros i [[gp1 gm1] sw1] Hi [Hg1 Hs1].
  apply (tri_bind ok (fun '(gp, gm, _) => wf_pair c (gp, gm))).
  - apply tri_loop; [auto|]. intros j [[gp2 gm2] sm] Hj Hg2.
    apply (tri_bind ok (fun _ => True)).
    { apply tri_get; auto. destruct HB as [HB|[HB1 HB2]]; [auto|right; nia]. }
    intros v _. apply (tri_bind ok (fun _ => True)); [now apply tri_chk32|].
    intros s _. apply (tri_bind ok (wf_pair c)); [now apply Hput|].
    intros [gp3 gm3] Hg3. exact Hg3.
  - intros [[gp2 gm2] sm] Hg2. apply (tri_bind ok (fun l => List.length l = List.length sw)).
    + apply tri_set; [destruct HB as [HB|[HB1 HB2]]; [auto|right; lia]|].
      intros _. now rewrite upd_length.
    + intros l Hlen. cbn. auto.
Qed.
Lemma write_plain_tri put mat m n gp gm (sw : list Z) :
  put_safe put m n -> wf_pair c (gp, gm) ->
  oob \/ (m * n <= List.length mat)%nat ->
  tri ok (fun '(gp, gm, sw') => wf_pair c (gp, gm) /\ sw' = sw)
    (write_plain put mat m n (gp, gm, sw)).
Proof.
  intros Hput Hg HB. unfold write_plain. apply tri_loop; [auto|].
  intros i st Hi Hst. apply tri_loop; [auto|]. intros j [[gp2 gm2] sw2] Hj [Hg2 Hs2].
  apply (tri_bind ok (fun _ => True)).
  { apply tri_get; auto. destruct HB as [HB|HB]; [auto|right; nia]. }
  intros v _. apply (tri_bind ok (wf_pair c)); [now apply Hput|].
  intros [gp3 gm3] Hg3. cbn. auto.
Qed.

Lemma tri_ones k : tri ok (fun _ => True) (ones k).
Proof.
  unfold ones. apply (tri_bind ok (fun _ => True)); [now apply tri_shl32|].
  intros; now apply tri_chk32.
Qed.

Lemma put_diff_safe shs m n : two_arrays (m_mode c) = true -> List.length shs = nsplit c ->
  oob \/ ((m <= MM c)%nat /\ (n <= colsN c)%nat) ->
  put_safe (put_diff (SPLIT c) shs) m n.
Proof.
  intros Ht Hs HB i j v [gp gm] Hi Hj Hg. unfold put_diff. apply tri_loop; [auto|].
  intros s [gp1 gm1] Hsn (H1 & H2 & _). cbn [fst snd] in *.
  assert (HR : oob \/ ((i * List.length (SPLIT c) + s < rowsN c)%nat /\ (j < colsN c)%nat)).
  { destruct HB as [HB|[HB1 HB2]]; [auto|right]. unfold rowsN, nsplit. split; [nia|lia]. }
  apply (tri_bind ok (fun _ => True)).
  { apply tri_get; auto. right. unfold nsplit in Hs. lia. }
  intros sh _. apply (tri_bind ok (fun _ => True)). { apply tri_get; auto. }
  intros sp _. destruct (0 <=? v).
  - apply (tri_bind ok (fun _ => True)); [now apply tri_shr32|]. intros x _.
    apply (tri_bind ok (fun _ => True)); [apply tri_ones|]. intros o _.
    apply (tri_bind ok (wf2 (rowsN c) (colsN c))); [now apply tri_set2|]. intros a Ha.
    apply (tri_bind ok (wf2 (rowsN c) (colsN c))); [now apply tri_set2|]. intros b Hb.
    split; [|split]; auto; congruence.
  - apply (tri_bind ok (wf2 (rowsN c) (colsN c))); [now apply tri_set2|]. intros a Ha.
    apply (tri_bind ok (fun _ => True)); [now apply tri_chk32|]. intros nv _.
    apply (tri_bind ok (fun _ => True)); [now apply tri_shr32|]. intros x _.
    apply (tri_bind ok (fun _ => True)); [apply tri_ones|]. intros o _.
    apply (tri_bind ok (wf2 (rowsN c) (colsN c))); [now apply tri_set2|]. intros b Hb.
    split; [|split]; auto; congruence.
Qed.
Lemma put_offs_safe shs wb m n : List.length shs = nsplit c ->
  oob \/ ((m <= MM c)%nat /\ (n <= colsN c)%nat) ->
  put_safe (put_offs (SPLIT c) shs wb) m n.
Proof.
  intros Hs HB i j v [gp gm] Hi Hj (Hg1 & Hg2 & Hg3). unfold put_offs. cbn [fst snd] in *.
  apply (tri_bind ok (fun _ => True)); [now apply tri_shl32|]. intros o _.
  apply (tri_bind ok (fun _ => True)); [now apply tri_chk32|]. intros w _.
  apply (tri_bind ok (wf2 (rowsN c) (colsN c))).
  - apply tri_loop; [auto|]. intros s g Hsn Hg.
    assert (HR : oob \/ ((i * List.length (SPLIT c) + s < rowsN c)%nat /\ (j < colsN c)%nat)).
    { destruct HB as [HB|[HB1 HB2]]; [auto|right]. unfold rowsN, nsplit. split; [nia|lia]. }
    apply (tri_bind ok (fun _ => True)).
    { apply tri_get; auto. right. unfold nsplit in Hs. lia. }
    intros sh _. apply (tri_bind ok (fun _ => True)). { apply tri_get; auto. }
    intros sp _. apply (tri_bind ok (fun _ => True)); [now apply tri_shr32|]. intros x _.
    apply (tri_bind ok (fun _ => True)); [apply tri_ones|]. intros o' _.
    now apply tri_set2.
  - intros a Ha. split; [|split]; auto.
Qed.

Lemma small_rows m n : cfg_wf c -> is_int (m_mode c) = false ->
  oob \/ ((m <= MM c)%nat /\ (n <= colsN c)%nat) ->
  forall i j, (i < m)%nat -> (j < n)%nat -> oob \/ ((i < rowsN c)%nat /\ (j < colsN c)%nat).
Proof.
  intros Hw Hi HB i j H1 H2. pose proof (wf_ns _ Hw Hi). destruct HB as [HB|[HB1 HB2]]; [auto|right].
  unfold rowsN. split; [nia|lia].
Qed.

Ltac two_sets :=
  apply (tri_bind ok (wf2 (rowsN c) (colsN c))); [now apply tri_set2; auto|]; intros ?a ?Ha;
  apply (tri_bind ok (wf2 (rowsN c) (colsN c))); [now apply tri_set2; auto|]; intros ?b ?Hb;
  split; [|split]; auto; congruence.

Lemma put_xnn_safe tern m n : two_arrays (m_mode c) = true -> cfg_wf c -> is_int (m_mode c) = false ->
  oob \/ ((m <= MM c)%nat /\ (n <= colsN c)%nat) -> put_safe (put_xnn tern) m n.
Proof.
  intros Ht Hw Hm HB i j v [gp gm] Hi Hj (Hg1 & Hg2 & _). cbn [fst snd] in *.
  pose proof (small_rows m n Hw Hm HB i j Hi Hj) as HR. unfold put_xnn.
  destruct (v =? 1); [two_sets|]. destruct (v =? -1); [two_sets|].
  destruct (tern && (v =? 0)); [two_sets|]. apply HL.
Qed.
Lemma put_tc_safe offs m n : two_arrays (m_mode c) = true -> cfg_wf c -> is_int (m_mode c) = false ->
  oob \/ ((m <= MM c)%nat /\ (n <= colsN c)%nat) -> put_safe (put_tc offs) m n.
Proof.
  intros Ht Hw Hm HB i j v [gp gm] Hi Hj (Hg1 & Hg2 & _). cbn [fst snd] in *.
  pose proof (small_rows m n Hw Hm HB i j Hi Hj) as HR. unfold put_tc.
  apply (tri_bind ok (fun _ => True)).
  { destruct offs; [now apply tri_chk32|exact I]. }
  intros y _. two_sets.
Qed.
Lemma put_single_safe inv m n : cfg_wf c -> is_int (m_mode c) = false ->
  oob \/ ((m <= MM c)%nat /\ (n <= colsN c)%nat) -> put_safe (put_single inv) m n.
Proof.
  intros Hw Hm HB i j v [gp gm] Hi Hj (Hg1 & Hg2 & Hg3). cbn [fst snd] in *.
  pose proof (small_rows m n Hw Hm HB i j Hi Hj) as HR. unfold put_single.
  apply (tri_bind ok (fun _ => True)).
  { destruct inv; (apply (tri_bind ok (fun _ => True)); [now apply tri_chk32|intros y _]);
      [exact I|now apply tri_shr32]. }
  intros y _. apply (tri_bind ok (wf2 (rowsN c) (colsN c))); [now apply tri_set2; auto|].
  intros a Ha. split; [|split]; auto.
Qed.

(** The fields a digital write may change. *)
Definition same_but_digital (mp mp' : mapper) : Prop :=
  exists gp gm sw, mp' = mp <| gd_p := gp |> <| gd_m := gm |> <| sum_w := sw |>.

Lemma d_write_tri mp mat m n : cfg_wf c -> shape c mp ->
  oob \/ ((m <= MM c)%nat /\ (n <= colsN c)%nat /\ (m * n <= List.length mat)%nat) ->
  tri ok (fun mp' => shape c mp' /\ same_but_digital mp mp') (d_write c mp mat m n).
Proof.
  intros Hw Hs HB. unfold d_write. rewrite (sh_mode _ _ Hs).
  assert (HB2 : oob \/ ((m <= MM c)%nat /\ (n <= colsN c)%nat))
    by (destruct HB as [HB|(?&?&?)]; auto).
  assert (HB3 : oob \/ ((m <= List.length (sum_w mp))%nat /\ (m * n <= List.length mat)%nat))
    by (rewrite (sh_sw _ _ Hs); destruct HB as [HB|(?&?&?)]; auto).
  assert (HB4 : oob \/ ((m * n <= List.length mat)%nat))
    by (destruct HB as [HB|(?&?&?)]; auto).
  assert (Hg : wf_pair c (gd_p mp, gd_m mp)) by (split; [|split]; apply Hs).
  assert (HT : forall x : out cells,
    tri ok (fun '(gp, gm, sw') => wf_pair c (gp, gm) /\ List.length sw' = List.length (sum_w mp)) x ->
    tri ok (fun mp' => shape c mp' /\ same_but_digital mp mp')
      ('(gp, gm, sw) <- x;; Ok (mp <| gd_p := gp |> <| gd_m := gm |> <| sum_w := sw |>))).
  { intros x Hx. apply (tri_bind ok _ _ _ _ Hx). intros [[gp gm] sw] [(H1 & H2 & H4) H3]. split.
    - destruct Hs. constructor; cbn; auto; try congruence.
    - exists gp, gm, sw. reflexivity. }
  apply HT.
  assert (HP : forall x : out cells,
    tri ok (fun '(gp, gm, sw') => wf_pair c (gp, gm) /\ sw' = sum_w mp) x ->
    tri ok (fun '(gp, gm, sw') => wf_pair c (gp, gm) /\ List.length sw' = List.length (sum_w mp)) x).
  { intros x Hx. apply (tri_weaken ok _ _ _ Hx). intros [[gp gm] sw] [H1 ->]; auto. }
  pose proof (sh_shift_len _ _ Hs) as Hsh.
  destruct (m_mode c) eqn:Em;
    try (assert (Ht : two_arrays (m_mode c) = true) by (rewrite Em; reflexivity));
    try (apply write_sum_tri; auto; apply put_diff_safe; auto; fail);
    try (assert (Hni : is_int (m_mode c) = false) by (rewrite Em; reflexivity));
    try (apply write_sum_tri; auto; apply put_xnn_safe; auto; fail);
    try (apply HP, write_plain_tri; auto; apply put_single_safe; auto; fail).
  - apply HP, write_plain_tri; auto. now apply put_offs_safe.
  - unfold d_write_tc. destruct (split11 _); [|apply HL].
    apply HP, write_plain_tri; auto. now apply put_tc_safe.
  - unfold d_write_tc. destruct (split11 _); [|apply HL].
    apply HP, write_plain_tri; auto. now apply put_tc_safe.
Qed.
End Put.
End Shape.
