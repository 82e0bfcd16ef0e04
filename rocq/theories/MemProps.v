(** Several writes, then a product of any size. *)
From Coq Require Import List ZArith Bool Arith Lia ZifyBool ZifyNat String.
From RecordUpdate Require Import RecordSet.
From Verif Require Import Base Lib Hoare Machine Json Config Histogram Adc ReadDisturb Parasitics
  Mapper IntMappers BnnMappers TnnMappers Crossbar Api WriteProofs Shape MvmShape DigMvm DigModes
  DigWrite AnaShape ConfigProofs Reach Spec DigApi StoreProps MemSpec.
Import ListNotations RecordSetNotations.
Local Open Scope Z_scope.
Local Open Scope out_scope.

Ltac Zify.zify_post_hook ::= idtac.

Section A.
Context {MC : Machine}.
Notation len := List.length.
Notation MM c := (Z.to_nat (M c)).
Notation gp mp r j := (at2 0 (gd_p mp) r j).
Notation gm mp r j := (at2 0 (gd_m mp) r j).

Definition slope (c : config) : Z :=
  match m_mode c with
  | I_UINT_W_OFFS => - 2 ^ (W_BIT c - 1)
  | BNN_III | TNN_V => -1
  | BNN_IV => 1
  | _ => 0
  end.
Definition lift (c : config) : Z := match m_mode c with BNN_V => -1 | _ => 0 end.

Record holding (c : config) (mp : mapper) (mem : nat -> nat -> option Z) (s : nat -> Z) : Prop := {
  hm_ok : forall i j, (i < MM c)%nat -> (j < colsN c)%nat -> cellok c mp i j;
  hm_v : forall i j, (i < MM c)%nat -> (j < colsN c)%nat ->
         cellv c mp i j = match mem i j with Some w => w | None => slope c end;
  hm_b : forall i j, (i < MM c)%nat -> (j < colsN c)%nat ->
         cellb c mp i j = match mem i j with Some _ => 0 | None => lift c end;
  hm_w : forall i j w, mem i j = Some w -> weight_in c w;
  hm_s : keeps_sums (m_mode c) = true -> forall i, (i < MM c)%nat ->
         nth i (sum_w mp) 0 = s i /\ Z.abs (s i) <= Z.of_nat (colsN c) * row_bound c
}.

(** *** The cells of one weight *)
Lemma cell_ext c mp mp' i j :
  (forall s, (s < rpw c)%nat -> gp mp' (i * rpw c + s) j = gp mp (i * rpw c + s) j /\
                                gm mp' (i * rpw c + s) j = gm mp (i * rpw c + s) j) ->
  (cellok c mp i j -> cellok c mp' i j) /\ cellv c mp' i j = cellv c mp i j /\ cellb c mp' i j = cellb c mp i j.
Proof.
  unfold rpw, cellok, cellv, cellb. destruct (is_int (m_mode c)) eqn:Hi; intros H.
  - assert (Esg : forall f g, (forall s, (s < nsplit c)%nat -> f s = g s) -> segs c f = segs c g) by (intros; now apply segs_ext).
    split; [|split].
    + intros [H1 H2]. split.
      * intros s Hs. destruct (H s Hs) as [-> ->]. auto.
      * erewrite Esg; [exact H2|]. intros s Hs. cbn beta. destruct (H s Hs) as [-> ->]. reflexivity.
    + assert (E1 : segs c (fun s => gp mp' (i * nsplit c + s) j - gm mp' (i * nsplit c + s) j) =
                   segs c (fun s => gp mp (i * nsplit c + s) j - gm mp (i * nsplit c + s) j)).
      { apply Esg. intros s Hs. cbn beta. destruct (H s Hs) as [-> ->]. reflexivity. }
      assert (E2 : segs c (fun s => gp mp' (i * nsplit c + s) j) = segs c (fun s => gp mp (i * nsplit c + s) j)).
      { apply Esg. intros s Hs. cbn beta. now destruct (H s Hs) as [-> _]. }
      destruct (m_mode c); try discriminate Hi; now rewrite ?E1, ?E2.
    + destruct (m_mode c); try discriminate Hi; reflexivity.
  - destruct (H O ltac:(lia)) as [E1 E2]. rewrite Nat.mul_1_r, Nat.add_0_r in E1, E2. rewrite E1, E2.
    split; [auto|split]; destruct (m_mode c); try discriminate Hi; reflexivity.
Qed.

(** *** A fresh crossbar *)
Lemma holding_new c x : cfg_wf c -> (is_int (m_mode c) = true -> 0 <= W_BIT c) -> xbar_new c = Ok x ->
  holding c (xm x) (fun _ _ => None) (fun _ => 0).
Proof.
  intros Hw HW H. unfold xbar_new in H. inv_as H mp Hmp. injection H as <-. cbn [xm].
  unfold mapper_new in Hmp. cbv zeta in Hmp. inv_as Hmp a Ha. inv_as Hmp ps Hps. inv_as Hmp st Hst. inv_as Hmp dl Hdl.
  injection Hmp as <-.
  assert (HR : forall i s, (i < MM c)%nat -> (s < rpw c)%nat -> (i * rpw c + s < rowsN c)%nat).
  { intros i s Hi Hs. pose proof (rpw_rows c (MM c) Hw ltac:(lia)). nia. }
  unfold rpw in HR.
  assert (H0 : forall i, (i < MM c)%nat -> is_int (m_mode c) = false -> (i < rowsN c)%nat).
  { intros i Hi E. rewrite E in HR. specialize (HR i O Hi ltac:(lia)). lia. }
  assert (H1 : forall i s, (i < MM c)%nat -> is_int (m_mode c) = true -> (s < nsplit c)%nat -> (i * nsplit c + s < rowsN c)%nat).
  { intros i s Hi E Hs. rewrite E in HR. exact (HR i s Hi Hs). }
  clear HR.
  assert (HP : is_int (m_mode c) = true -> 0 <= 2 ^ W_BIT c) by (intros; apply Z.pow_nonneg; lia).
  constructor.
  - intros i j Hi Hj. unfold cellok. cbn [gd_p gd_m]. destruct (is_int (m_mode c)) eqn:E.
    + split.
      * intros s Hs. rewrite !at2_mat2 by auto. lia.
      * rewrite (segs_ext c _ (fun _ => 0)); [rewrite segs_0; auto|]. intros s Hs. rewrite !at2_mat2 by auto. reflexivity.
    + rewrite !at2_mat2 by auto. lia.
  - intros i j Hi Hj. unfold cellv, slope. cbn [gd_p gd_m].
    destruct (m_mode c) eqn:E; cbn [is_int] in *;
      try (rewrite !at2_mat2 by auto; reflexivity);
      try (rewrite (segs_ext c _ (fun _ => 0)); [rewrite segs_0; ring|]; intros s Hs; rewrite !at2_mat2 by auto; reflexivity).
  - intros i j Hi Hj. unfold cellb, lift. cbn [gd_p gd_m]. destruct (m_mode c) eqn:E; try reflexivity.
    rewrite !at2_mat2 by auto. reflexivity.
  - discriminate.
  - intros _ i Hi. cbn [sum_w]. split; [|pose proof (row_bound_pos c); cbn; nia].
    rewrite nth_repeat. reflexivity.
Qed.

(** *** One write *)
Lemma holding_write c mp mem s mat m n :
  cfg_wf c -> shape c mp -> Forall (fun s => 0 <= s) (SPLIT c) -> split_covers c ->
  (m <= MM c)%nat -> (n <= colsN c)%nat -> (m * n <= len mat)%nat ->
  (forall i j, (i < m)%nat -> (j < n)%nat -> weight_in c (entry mat n i j)) ->
  Z.of_nat (colsN c) * row_bound c <= int_max ->
  holding c mp mem s ->
  exists mp', d_write c mp mat m n = Ok mp' /\ shape c mp' /\
    (forall r k, (r < rowsN c)%nat -> (k < colsN c)%nat -> rect (rpw c) m n r k = false ->
       gp mp' r k = gp mp r k /\ gm mp' r k = gm mp r k) /\
    holding c mp' (fun i j => if (i <? m)%nat && (j <? n)%nat then Some (entry mat n i j) else mem i j)
      (fun i => if (i <? m)%nat then sum n (entry mat n i) else s i).
Proof.
  intros Hw Hs Hnn Hcov Hm Hn Hl Hd HN HH. pose proof (covers_fits c Hcov Hnn) as Hf.
  assert (Hwok : forall i j, (i < m)%nat -> (j < n)%nat -> wok c (nth (n * i + j) mat 0)).
  { intros i j Hi Hj. now apply (weight_facts c _ Hcov (Hd i j Hi Hj)). }
  pose proof (row_bound_pos c) as Hrb.
  assert (Hsum : forall i, (i < m)%nat -> sumZ n (fun j => Z.abs (nth (n * i + j) mat 0)) <= Z.of_nat (colsN c) * row_bound c).
  { intros i Hi. transitivity (Z.of_nat n * row_bound c); [|nia]. rewrite <- sumZ_const. apply sumZ_le. intros j Hj.
    now apply (weight_facts c _ Hcov (Hd i j Hi Hj)). }
  destruct (d_write_ok c mp mat m n) as (mp' & E & S' & SB & P1 & P2 & Esw); auto.
  { intros _ i Hi. specialize (Hsum i Hi). lia. }
  exists mp'. repeat (split; [assumption|]).
  split. { intros r k Hr Hk E0. destruct P1 as [_ P1], P2 as [_ P2]. rewrite P1, P2, E0, andb_false_r by auto. auto. }
  assert (HHo : holds c mp' mat m n).
  { apply (written c mp mp' mat m n); auto. intros Ht. now apply (sh_gm0 _ _ Hs). }
  assert (Hout : forall i j, (i < MM c)%nat -> (j < colsN c)%nat -> (i <? m)%nat && (j <? n)%nat = false ->
    (cellok c mp i j -> cellok c mp' i j) /\ cellv c mp' i j = cellv c mp i j /\ cellb c mp' i j = cellb c mp i j).
  { intros i j Hi Hj Hij. apply cell_ext. intros t Ht.
    assert (Hr : (i * rpw c + t < rowsN c)%nat) by (pose proof (rpw_rows c (MM c) Hw ltac:(lia)); nia).
    assert (Hrect : rect (rpw c) m n (i * rpw c + t) j = false).
    { unfold rect. apply andb_false_iff in Hij. apply andb_false_iff. destruct Hij as [Hij|Hij]; [left|right; exact Hij].
      apply Nat.ltb_ge in Hij. apply Nat.ltb_ge. nia. }
    destruct P1 as [_ P1], P2 as [_ P2]. rewrite P1, P2, Hrect, andb_false_r by auto. auto. }
  constructor.
  - intros i j Hi Hj. destruct ((i <? m)%nat && (j <? n)%nat) eqn:Eij.
    + apply HHo; lia.
    + apply (proj1 (Hout i j Hi Hj Eij)). now apply (hm_ok _ _ _ _ HH).
  - intros i j Hi Hj. destruct ((i <? m)%nat && (j <? n)%nat) eqn:Eij.
    + destruct (HHo i j ltac:(lia) ltac:(lia)) as (_ & -> & _). now apply (weight_facts c _ Hcov (Hd i j ltac:(lia) ltac:(lia))).
    + destruct (Hout i j Hi Hj Eij) as (_ & -> & _). now apply (hm_v _ _ _ _ HH).
  - intros i j Hi Hj. destruct ((i <? m)%nat && (j <? n)%nat) eqn:Eij.
    + apply HHo; lia.
    + destruct (Hout i j Hi Hj Eij) as (_ & _ & ->). now apply (hm_b _ _ _ _ HH).
  - intros i j w. destruct ((i <? m)%nat && (j <? n)%nat) eqn:Eij.
    + injection 1 as <-. apply Hd; lia.
    + apply (hm_w _ _ _ _ HH).
  - intros Ek i Hi. rewrite Esw, Ek. destruct (i <? m)%nat eqn:Ei.
    + rewrite nth_upto_lt by (rewrite ?(sh_sw _ _ Hs); lia). rewrite sum_sumZ. split; [reflexivity|].
      etransitivity; [apply sumZ_abs|]. apply Hsum. lia.
    + rewrite nth_upto by (rewrite (sh_sw _ _ Hs); lia). rewrite Ei. now apply (hm_s _ _ _ _ HH).
Qed.

Lemma holding_ext c mp mem s mem' s' : (forall i j, mem i j = mem' i j) -> (forall i, s i = s' i) ->
  holding c mp mem s -> holding c mp mem' s'.
Proof.
  intros E1 E2 [H1 H2 H3 H4 H5]. constructor; auto.
  - intros. rewrite <- E1. auto.
  - intros. rewrite <- E1. auto.
  - intros i j w. rewrite <- E1. apply H4.
  - intros. rewrite <- E2. auto.
Qed.

Lemma holding_core c c' mp mp' mem s : core c c' -> same_digital mp mp' -> holding c mp mem s -> holding c' mp' mem s.
Proof.
  intros Hc (E1 & E2 & E3) Hst. pose proof (core_eqs _ _ Hc) as (EM & EN & Em & Es & Ew & _).
  assert (En : nsplit c' = nsplit c) by (unfold nsplit; congruence).
  assert (Esh : shifts c' = shifts c) by (unfold shifts; congruence).
  assert (Esg : forall f, segs c' f = segs c f) by (intros; unfold segs; now rewrite En, Esh).
  assert (Eok : forall i j, cellok c mp i j -> cellok c' mp' i j).
  { intros i j. unfold cellok. rewrite E1, E2, Em, En, Esg, Ew. auto. }
  assert (Ev : forall i j, cellv c' mp' i j = cellv c mp i j).
  { intros i j. unfold cellv. rewrite E1, E2, Em, En, Ew. destruct (m_mode c); rewrite ?Esg; auto. }
  assert (Eb : forall i j, cellb c' mp' i j = cellb c mp i j).
  { intros i j. unfold cellb. now rewrite E1, E2, Em. }
  assert (Esl : slope c' = slope c) by (unfold slope; now rewrite Em, Ew).
  assert (El : lift c' = lift c) by (unfold lift; now rewrite Em).
  assert (Erb : row_bound c' = row_bound c) by (unfold row_bound; now rewrite Em, Ew).
  assert (Ewi : weight_in c' = weight_in c) by (unfold weight_in; now rewrite Em, Ew).
  assert (Eco : colsN c' = colsN c) by (unfold colsN; now rewrite EN).
  destruct Hst as [S1 S2 S3 S4 S5].
  constructor; rewrite ?Ewi, ?EM, ?Eco, ?Em, ?Erb; intros; rewrite ?Ev, ?Eb, ?E3, ?Esl, ?El; eauto.
Qed.

(** *** A product *)
Lemma holding_facts c mp mem s res vec m n :
  Forall (fun s => 0 <= s) (SPLIT c) -> split_covers c -> widths_fit c ->
  (m <= MM c)%nat -> (n <= colsN c)%nat -> (m <= len res)%nat -> (n <= len vec)%nat ->
  (forall j, (j < n)%nat -> input_in c (nth j vec 0)) ->
  2 * Z.of_nat (colsN c) * term_bound c <= int_max ->
  (forall i, (i < m)%nat -> Z.abs (nth i res 0) + 2 * Z.of_nat (colsN c) * term_bound c <= int_max) ->
  holding c mp mem s ->
  bits_ok c /\ Z.of_nat n * span c <= int_max /\
  (forall i, (i < m)%nat -> Z.abs (nth i res 0) + Z.of_nat n * span c <= int_max) /\
  (forall i, (i < m)%nat -> Z.abs (kap c * nth i (sum_w mp) 0) <= int_max) /\
  (forall i, (i < m)%nat -> Z.abs (dres c mp vec n i (nth i res 0)) <= int_max) /\
  upto m (dres c mp vec n) res = memory_product c res vec mem s m n.
Proof.
  intros Hnn Hcov Hwid Hm Hn Hr Hv Hvd HN HB HS.
  assert (Espan : term_bound c = span c).
  { unfold term_bound, span. destruct (is_int (m_mode c)) eqn:Hi; auto.
    destruct (Hcov Hi), (Hwid Hi). apply Z.pow_add_r; lia. }
  rewrite Espan in *.
  assert (Hb : bits_ok c).
  { intros Hi. destruct (Hcov Hi) as [E1 E2], (Hwid Hi) as [E3 E4]. unfold total in E1. fold (sumL (SPLIT c)) in E1.
    repeat split; try lia; rewrite ?shifts_eq by lia; apply shifts_from_range; auto; lia. }
  pose proof (row_bound_pos c) as Hs3.
  assert (Hspan : row_bound c <= span c /\ 2 * (Z.abs (kap c) * row_bound c) <= span c /\ Z.abs (slope c) <= row_bound c).
  { unfold span, kap, row_bound, slope. destruct (is_int (m_mode c)) eqn:Hi.
    - destruct (Hcov Hi) as [F1 F2], (Hwid Hi) as [F3 F4].
      assert (0 < 2 ^ W_BIT c) by (apply Z.pow_pos_nonneg; lia).
      assert (0 < 2 ^ (W_BIT c - 1)) by (apply Z.pow_pos_nonneg; lia).
      assert (0 < 2 ^ (I_BIT c - 1)) by (apply Z.pow_pos_nonneg; lia).
      assert (2 ^ I_BIT c = 2 * 2 ^ (I_BIT c - 1)).
      { replace (I_BIT c) with (Z.succ (I_BIT c - 1)) at 1 by lia. rewrite Z.pow_succ_r by lia. ring. }
      assert (2 ^ W_BIT c = 2 * 2 ^ (W_BIT c - 1)).
      { replace (W_BIT c) with (Z.succ (W_BIT c - 1)) at 1 by lia. rewrite Z.pow_succ_r by lia. ring. }
      destruct (m_mode c); try discriminate Hi; (split; [nia|]); (split; [nia|]); lia.
    - destruct (m_mode c); try discriminate Hi; cbn; lia. }
  destruct Hspan as (Hs1 & Hs2 & Hsl).
  assert (Hcv : forall i j, (i < m)%nat -> (j < n)%nat -> Z.abs (cellv c mp i j) <= row_bound c).
  { intros i j Hi Hj. rewrite (hm_v _ _ _ _ HS i j) by lia. destruct (mem i j) as [w|] eqn:E; [|exact Hsl].
    now apply (weight_facts c _ Hcov (hm_w _ _ _ _ HS i j w E)). }
  assert (Hin : forall j, (j < n)%nat -> Z.abs (nth j vec 0) * row_bound c <= span c /\
    (is_int (m_mode c) = false -> Z.abs (nth j vec 0) * row_bound c <= 1)).
  { intros j Hj. specialize (Hvd j Hj). unfold span, input_in, row_bound in *.
    destruct (is_int (m_mode c)) eqn:Hii; (split; [|try easy]).
    - assert (Z.abs (nth j vec 0) <= 2 ^ I_BIT c).
      { destruct (Hcov Hii) as [F1 F2], (Hwid Hii) as [F3 F4].
        assert (2 ^ I_BIT c = 2 * 2 ^ (I_BIT c - 1)).
        { replace (I_BIT c) with (Z.succ (I_BIT c - 1)) at 1 by lia. rewrite Z.pow_succ_r by lia. ring. }
        destruct (m_mode c); try discriminate Hii; lia. }
      nia.
    - destruct (m_mode c); try discriminate Hii; lia.
    - intros _. destruct (m_mode c); try discriminate Hii; lia. }
  assert (Hterm : forall i j, (i < m)%nat -> (j < n)%nat -> Z.abs (cellv c mp i j * nth j vec 0 + cellb c mp i j) <= span c).
  { intros i j Hi Hj. pose proof (Hcv i j Hi Hj) as B. destruct (Hin j Hj) as [I1 I2].
    assert (A : Z.abs (cellv c mp i j * nth j vec 0) <= Z.abs (nth j vec 0) * row_bound c) by (rewrite Z.abs_mul; nia).
    assert (Hb1 : Z.abs (cellb c mp i j) <= (if is_int (m_mode c) then 0 else 1)).
    { rewrite (hm_b _ _ _ _ HS i j) by lia. unfold lift. destruct (mem i j), (m_mode c); cbn; lia. }
    destruct (is_int (m_mode c)) eqn:Hi0; [lia|]. specialize (I2 eq_refl).
    assert (span c = 3) by (unfold span; now rewrite Hi0). lia. }
  assert (Hkap0 : keeps_sums (m_mode c) = false -> kap c = 0).
  { unfold kap. destruct (m_mode c); try discriminate; reflexivity. }
  assert (Hkap1 : kap c <> 0 -> slope c = 0).
  { unfold kap, slope. destruct (m_mode c); try reflexivity; lia. }
  assert (Hdres : forall i x, (i < m)%nat ->
    dres c mp vec n i x = x + (sumZ n (fun j => match mem i j with
                               | Some w => w * nth j vec 0
                               | None => unwritten c (nth j vec 0)
                               end)
      - kap c * (s i - sumZ n (fun j => match mem i j with Some w => w | None => 0 end)))).
  { intros i x Hi. unfold dres.
    rewrite (sumZ_ext n (fun j => cellv c mp i j * nth j vec 0 + cellb c mp i j)
              (fun j => match mem i j with Some w => w * nth j vec 0 | None => unwritten c (nth j vec 0) end)).
    2: { intros j Hj. rewrite (hm_v _ _ _ _ HS i j), (hm_b _ _ _ _ HS i j) by lia.
         destruct (mem i j); [ring|]. unfold slope, lift, unwritten. destruct (m_mode c); ring. }
    destruct (Z.eq_dec (kap c) 0) as [E0|E0]; [rewrite E0; ring|].
    rewrite (sumZ_ext n (fun j => cellv c mp i j) (fun j => match mem i j with Some w => w | None => 0 end)).
    2: { intros j Hj. rewrite (hm_v _ _ _ _ HS i j) by lia. now rewrite (Hkap1 E0). }
    destruct (keeps_sums (m_mode c)) eqn:Ek; [|now specialize (Hkap0 eq_refl)].
    destruct (hm_s _ _ _ _ HS Ek i ltac:(lia)) as [-> _]. ring. }
  assert (Hns : Z.of_nat n * span c <= Z.of_nat (colsN c) * span c) by nia.
  assert (Hks : forall i, (i < m)%nat -> 2 * Z.abs (kap c * nth i (sum_w mp) 0) <= Z.of_nat (colsN c) * span c).
  { intros i Hi. destruct (keeps_sums (m_mode c)) eqn:Ek.
    - destruct (hm_s _ _ _ _ HS Ek i ltac:(lia)) as [-> Hb2]. rewrite Z.abs_mul. pose proof (Z.abs_nonneg (kap c)).
      assert (Z.abs (kap c) * Z.abs (s i) <= Z.abs (kap c) * (Z.of_nat (colsN c) * row_bound c))
        by (apply Z.mul_le_mono_nonneg_l; auto).
      nia.
    - rewrite (Hkap0 eq_refl). cbn. nia. }
  split; [exact Hb|]. split; [nia|].
  split. { intros i Hi. specialize (HB i Hi). nia. }
  split. { intros i Hi. specialize (Hks i Hi). specialize (HB i Hi). nia. }
  split.
  - intros i Hi. specialize (HB i Hi). specialize (Hks i Hi). unfold dres.
    pose proof (sumZ_bound n (fun j => cellv c mp i j * nth j vec 0 + cellb c mp i j) (span c) ltac:(intros; now apply Hterm)) as B1.
    assert (B2 : Z.abs (sumZ n (fun j => cellv c mp i j)) <= Z.of_nat n * row_bound c) by (apply sumZ_bound; intros; now apply Hcv).
    assert (B3 : 2 * Z.abs (kap c * sumZ n (fun j => cellv c mp i j)) <= Z.of_nat (colsN c) * span c).
    { rewrite Z.abs_mul. pose proof (Z.abs_nonneg (kap c)).
      assert (Z.abs (kap c) * Z.abs (sumZ n (fun j => cellv c mp i j)) <= Z.abs (kap c) * (Z.of_nat n * row_bound c))
        by (apply Z.mul_le_mono_nonneg_l; auto).
      nia. }
    rewrite Z.mul_sub_distr_l. cbv beta in B1.
    set (a := sumZ n _) in *. set (b := kap c * nth i (sum_w mp) 0) in *. set (d := kap c * _) in *. set (z := nth i res 0) in *.
    clear - HB B1 B3 Hks Hns. lia.
  - unfold memory_product. apply (nth_ext _ _ 0 0).
    { rewrite upto_length, map_length, seq_length. reflexivity. }
    intros i Hi. rewrite upto_length in Hi. rewrite nth_upto by auto.
    match goal with |- _ = nth i (map ?f _) 0 => set (g := f) end.
    rewrite (nth_indep (map g (seq 0 (len res))) 0 (g O)) by now rewrite map_length, seq_length.
    rewrite map_nth, seq_nth by auto. unfold g. cbn [plus]. destruct (i <? m)%nat eqn:Em; [|lia].
    rewrite Hdres by lia. rewrite !sum_sumZ. reflexivity.
Qed.

Lemma holding_mvm c mp mem s res vec mat' m n :
  (strict_shl = true -> no_neg_shift (m_mode c) = true) ->
  cfg_wf c -> shape c mp -> Forall (fun s => 0 <= s) (SPLIT c) -> split_covers c -> widths_fit c ->
  (m <= MM c)%nat -> (n <= colsN c)%nat -> (m <= len res)%nat -> (n <= len vec)%nat ->
  (forall j, (j < n)%nat -> input_in c (nth j vec 0)) ->
  2 * Z.of_nat (colsN c) * term_bound c <= int_max ->
  (forall i, (i < m)%nat -> Z.abs (nth i res 0) + 2 * Z.of_nat (colsN c) * term_bound c <= int_max) ->
  holding c mp mem s ->
  exists mp', d_mvm c mp res vec mat' m n = Ok (memory_product c res vec mem s m n, mp').
Proof.
  intros Hst Hw Hs Hnn Hcov Hwid Hm Hn Hr Hv Hvd HN HB HS.
  destruct (holding_facts c mp mem s res vec m n Hnn Hcov Hwid Hm Hn Hr Hv Hvd HN HB HS) as (F1 & F2 & F3 & F4 & F5 & F6).
  destruct (go_all c mp res vec mat' m n) as (mp'' & E2); auto.
  - intros i j Hi Hj. apply (hm_ok _ _ _ _ HS); lia.
  - exists mp''. now rewrite E2, F6.
Qed.

(** *** Histories *)
Lemma usual_core w a w' r : good w -> usual (wcfg w) a -> step w a = Ok (w', r) -> good w' /\ core (wcfg w) (wcfg w').
Proof.
  intros Hg Hu H.
  assert (Hq : quiet a -> good w' /\ core (wcfg w) (wcfg w')).
  { intros Hq. destruct (quiet_step _ _ _ _ Hg Hq H) as (G & _ & C & _). auto. }
  destruct a as [| | | |mat m n| | | | |]; auto. clear Hq Hu.
  split; [eapply step_good; [exact Hg|exact H|]|].
  - intros ->. cbn [step] in H. unfold cpy_mtrx in H. destruct (wx w); [|discriminate H].
    destruct (too_big _ _ _); [discriminate H|]. inv_as H d Hd. destruct d. inv_as H y Hy. destruct y. discriminate H.
  - cbn [step] in H. unfold cpy_mtrx in H. destruct (wx w); [|injection H as <- _; apply core_refl].
    destruct (too_big _ _ _); [injection H as <- _; apply core_refl|].
    inv_as H d Hd. destruct d. inv_as H y Hy. destruct y. injection H as <- _. apply core_refl.
Qed.

Lemma usual_same c c' a : core c c' -> usual c a -> usual c' a.
Proof.
  intros Hc. destruct (core_domains _ _ Hc) as (W1 & _). pose proof (core_eqs _ _ Hc) as (EM & EN & _).
  destruct a; cbn; auto. unfold accepted. rewrite W1, EM, EN. auto.
Qed.

Lemma usual_run_core h : forall w w' rs, good w -> Forall (usual (wcfg w)) h -> run w h = Ok (w', rs) ->
  good w' /\ core (wcfg w) (wcfg w').
Proof.
  induction h as [|a h IH]; cbn [run]; intros w w' rs Hg Hq H.
  - injection H as <- _. auto using core_refl.
  - inv_as H t Ht. destruct t as [w1 r]. inv_as H t2 Ht2. destruct t2 as [w2 rs2]. injection H as <- _.
    inversion Hq; subst. destruct (usual_core _ _ _ _ Hg H1 Ht) as (Hg1 & Hc1).
    destruct (IH _ _ _ Hg1 ltac:(eapply Forall_impl; [|exact H2]; intros; eapply usual_same; eauto) Ht2) as (Hg2 & Hc2).
    split; [auto|]. eapply core_trans; eauto.
Qed.

Lemma usual_step w x mem s a w' r :
  good w -> wx w = Some x -> digital_only (wcfg w) = true -> split_covers (wcfg w) ->
  Z.of_nat (colsN (wcfg w)) * row_bound (wcfg w) <= int_max ->
  usual (wcfg w) a -> holding (wcfg w) (xm x) mem s -> step w a = Ok (w', r) ->
  exists x', wx w' = Some x' /\ holding (wcfg w') (xm x') (remember (wcfg w) mem a) (resum (wcfg w) s a).
Proof.
  intros Hg Hx Hd Hcov HN Hu HH H.
  assert (Hq : quiet a -> exists x', wx w' = Some x' /\ holding (wcfg w') (xm x') mem s).
  { intros Hq. destruct (quiet_step _ _ _ _ Hg Hq H) as (_ & _ & C & X & _). destruct (X x Hx) as (x' & X1 & X2).
    exists x'. split; [auto|]. eapply holding_core; eauto. }
  destruct a as [| | | |mat m n| | | | |]; auto. clear Hq. destruct Hu as (Um & Un & Ue). cbn [remember resum].
  destruct (accepted (wcfg w) m n) eqn:Ea.
  - unfold accepted in Ea. specialize (Ue eq_refl). destruct Ue as [Hl Hent].
    assert (Hdim : dims_in (wcfg w) m n) by (split; lia).
    destruct (guard_ok w m n Hg Hdim) as (G1 & G2 & Hm & Hn).
    pose proof (g_x _ Hg x Hx) as Hxo. pose proof (good_wf w Hg) as Hwf.
    destruct (holding_write (wcfg w) (xm x) mem s mat (Z.to_nat m) (Z.to_nat n)) as (mp' & E & S1 & _ & S2); auto.
    + apply Hxo.
    + now apply split_nonneg.
    + nia.
    + destruct (xwrite_digital (wcfg w) x mat (Z.to_nat m) (Z.to_nat n) (wenv w) mp' Hd Hxo S1 E) as (x' & Ex & Exm).
      cbn [step] in H. unfold cpy_mtrx in H. rewrite Hx, G1, G2 in H. cbn [bind] in H. rewrite Ex in H. cbn [bind] in H.
      injection H as <- _. exists x'. split; [reflexivity|]. cbn. rewrite Exm.
      eapply holding_ext; [| |exact S2].
      * intros i j. cbv beta. cbn [andb]. replace ((i <? Z.to_nat m)%nat) with (Z.of_nat i <? m) by lia.
        replace ((j <? Z.to_nat n)%nat) with (Z.of_nat j <? n) by lia. reflexivity.
      * intros i. cbv beta. cbn [andb]. replace ((i <? Z.to_nat m)%nat) with (Z.of_nat i <? m) by lia. reflexivity.
  - assert (Hb : too_big (wcfg w) m n = true).
    { unfold accepted in Ea. unfold too_big, u32. rewrite !Z.mod_small by lia. lia. }
    cbn [step] in H. unfold cpy_mtrx in H. rewrite Hx, Hb in H. injection H as <- _.
    exists x. split; [exact Hx|]. exact HH.
Qed.

Lemma fold_core c c' h : core c c' -> forall mem s,
  fold_left (remember c) h mem = fold_left (remember c') h mem /\ fold_left (resum c) h s = fold_left (resum c') h s.
Proof.
  intros Hc. pose proof (core_eqs _ _ Hc) as (EM & EN & _).
  assert (Ea : forall m n, accepted c' m n = accepted c m n) by (intros; unfold accepted; now rewrite EM, EN).
  induction h as [|a h IH]; intros mem s; [auto|]. cbn [fold_left].
  replace (remember c' mem a) with (remember c mem a) by (destruct a; cbn; rewrite ?Ea; reflexivity).
  replace (resum c' s a) with (resum c s a) by (destruct a; cbn; rewrite ?Ea; reflexivity). apply IH.
Qed.

Lemma usual_run h : forall w x mem s w' rs,
  good w -> wx w = Some x -> digital_only (wcfg w) = true -> split_covers (wcfg w) ->
  Z.of_nat (colsN (wcfg w)) * row_bound (wcfg w) <= int_max ->
  Forall (usual (wcfg w)) h -> holding (wcfg w) (xm x) mem s -> run w h = Ok (w', rs) ->
  exists x', wx w' = Some x' /\
    holding (wcfg w') (xm x') (fold_left (remember (wcfg w)) h mem) (fold_left (resum (wcfg w)) h s).
Proof.
  induction h as [|a h IH]; cbn [run]; intros w x mem s w' rs Hg Hx Hd Hcov HN Hu HH H.
  - injection H as <- _. exists x. auto.
  - inv_as H t Ht. destruct t as [w1 r]. inv_as H t2 Ht2. destruct t2 as [w2 rs2]. injection H as <- _.
    inversion Hu; subst. destruct (usual_core _ _ _ _ Hg H1 Ht) as (Hg1 & Hc1).
    destruct (usual_step _ _ _ _ _ _ _ Hg Hx Hd Hcov HN H1 HH Ht) as (x1 & X1 & HH1).
    destruct (core_domains _ _ Hc1) as (W1 & W2 & W3 & W4 & W5).
    pose proof (core_eqs _ _ Hc1) as (EM & EN & Em & Es & Ew & _).
    destruct (IH _ _ _ _ _ _ Hg1 X1 ltac:(congruence) ltac:(now apply W2)
      ltac:(unfold colsN, row_bound in *; now rewrite EN, Em, Ew)
      ltac:(eapply Forall_impl; [|exact H2]; intros; eapply usual_same; eauto) HH1 Ht2) as (x2 & X2 & HH2).
    exists x2. split; [auto|]. cbn [fold_left].
    destruct (fold_core _ _ h Hc1 (remember (wcfg w) mem a) (resum (wcfg w) s a)) as [-> ->]. exact HH2.
Qed.

Lemma set_holding w0 s w1 : good w0 -> step w0 (SetConfig s) = Ok (w1, RUnit) ->
  good w1 /\ exists x, wx w1 = Some x /\ xbar_new (wcfg w1) = Ok x.
Proof.
  intros Hg H. split; [eapply step_good; [exact Hg|exact H|discriminate]|].
  assert (R : forall w, replace_xbar w RUnit = Ok (w1, RUnit) -> exists x, wx w1 = Some x /\ xbar_new (wcfg w1) = Ok x).
  { intros w E. unfold replace_xbar in E. destruct (xbar_new (wcfg w)) as [x| | |] eqn:Ex; try discriminate E.
    inv_as E u Hu. injection E as <-. exists x. split; [reflexivity|exact Ex]. }
  cbn [step] in H. unfold set_config in H. cbv zeta in H. inv_as H u Hu. destruct s; try discriminate H; eauto.
  inv_as H c Hc. eauto.
Qed.

Lemma memory_mvm w0 s w1 h w2 rs res vec mat' m n l :
  (strict_shl = true -> no_neg_shift (m_mode (wcfg w2)) = true) ->
  reach w0 -> step w0 (SetConfig s) = Ok (w1, RUnit) ->
  Forall (usual (wcfg w1)) h -> run w1 h = Ok (w2, rs) ->
  digital_only (wcfg w1) = true -> split_covers (wcfg w1) -> widths_fit (wcfg w2) -> dims_in (wcfg w2) m n ->
  all_first (input_in (wcfg w2)) vec n -> room (wcfg w2) res m (2 * N (wcfg w2)) ->
  exists w3, step w2 (ExeMvm res vec mat' m n l) =
    Ok (w3, RRes 0 (memory_product (wcfg w2) res vec (memory (wcfg w1) h) (row_sums (wcfg w1) h)
                      (Z.to_nat m) (Z.to_nat n))).
Proof.
  intros Hst Hr Hset Hu Hrun Hd Hcov Hwid Hdim [Hv1 Hv2] [HN [Hr1 Hr2]].
  apply reach_good in Hr. destruct (set_holding _ _ _ Hr Hset) as (G1 & x1 & X1 & E1).
  destruct (usual_run_core h _ _ _ G1 Hu Hrun) as (G2 & Hc).
  destruct (core_domains _ _ Hc) as (W1 & W2 & W3 & W4 & W5).
  pose proof (core_eqs _ _ Hc) as (EM & EN & Em & Es & Ew & _).
  assert (Hcov2 : split_covers (wcfg w2)) by now apply W2.
  assert (Erb : row_bound (wcfg w2) = row_bound (wcfg w1)) by (unfold row_bound; now rewrite Em, Ew).
  assert (HNN : 0 <= N (wcfg w2)) by (destruct Hdim; lia).
  assert (EC : Z.of_nat (colsN (wcfg w2)) = N (wcfg w2)) by (unfold colsN; rewrite Z2Nat.id; lia).
  assert (EC1 : Z.of_nat (colsN (wcfg w1)) = N (wcfg w2)) by (unfold colsN; rewrite <- EN, Z2Nat.id; lia).
  pose proof (row_term _ Hwid Hcov2) as Hrt. pose proof (row_bound_pos (wcfg w2)) as Hrp.
  destruct (usual_run h w1 x1 (fun _ _ => None) (fun _ => 0) w2 rs) as (x2 & X2 & HH); auto.
  { rewrite EC1, <- Erb. unfold int32_max in HN. unfold int_max. nia. }
  { apply holding_new; auto; [now apply good_wf|]. intros Hi. destruct (Hcov Hi). lia. }
  destruct (guard_ok w2 m n G2 Hdim) as (T1 & T2 & M2 & N2).
  pose proof (g_x _ G2 x2 X2) as Hxo. destruct Hdim as [Dm Dn].
  assert (A3 : (Z.to_nat m <= len res)%nat) by lia. assert (A4 : (Z.to_nat n <= len vec)%nat) by lia.
  assert (A5 : 2 * Z.of_nat (colsN (wcfg w2)) * term_bound (wcfg w2) <= int_max) by (rewrite EC; exact HN).
  assert (A6 : forall i, (i < Z.to_nat m)%nat ->
    Z.abs (nth i res 0) + 2 * Z.of_nat (colsN (wcfg w2)) * term_bound (wcfg w2) <= int_max) by (rewrite EC; exact Hr2).
  destruct (holding_mvm (wcfg w2) (xm x2) _ _ res vec mat' (Z.to_nat m) (Z.to_nat n)
    Hst (good_wf _ G2) (xo_shape _ _ Hxo) (split_nonneg _ G2) Hcov2 Hwid M2 N2 A3 A4 Hv2 A5 A6 HH) as (mp' & E).
  destruct (xmvm_digital (wcfg w2) x2 res vec mat' _ _ l (wenv w2) _ _ ltac:(congruence) E) as (x' & Ex).
  eexists. cbn. unfold exe_mvm. rewrite X2, T1, T2. cbn [bind]. rewrite Ex. reflexivity.
Qed.
End A.
