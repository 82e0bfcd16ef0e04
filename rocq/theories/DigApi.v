(** Digital use of the library, at the level of API calls. *)
From Coq Require Import List ZArith Bool Arith Lia ZifyBool ZifyNat String.
From RecordUpdate Require Import RecordSet.
From Verif Require Import Base Lib Hoare Machine Json Config Histogram Adc ReadDisturb Parasitics
  Mapper IntMappers BnnMappers TnnMappers Crossbar Api WriteProofs Shape MvmShape DigMvm DigModes
  DigWrite AnaShape ConfigProofs Reach Spec.
Import ListNotations RecordSetNotations.
Local Open Scope Z_scope.
Local Open Scope out_scope.

Section A.
Context {MC : Machine}.
Notation len := List.length.
Notation MM c := (Z.to_nat (M c)).

(** ** Sums *)
Lemma sum_sumZ n f : sum n f = sumZ n f.
Proof.
  unfold sum, total. induction n as [|n IH]; [reflexivity|].
  rewrite seq_S, map_app, fold_right_app. cbn [map fold_right sumZ].
  rewrite <- IH. cbn [plus]. generalize (map f (seq 0 n)). intros l.
  clear. induction l as [|a l IH]; cbn [fold_right]; lia.
Qed.
Lemma plus_product_upto res mat vec m n :
  upto m (fun i x => x + sumZ n (fun j => nth (n * i + j) mat 0 * nth j vec 0)) res =
  plus_product res mat vec m n.
Proof.
  unfold plus_product, product, entry. apply (nth_ext _ _ 0 0).
  - now rewrite upto_length, map_length, seq_length.
  - intros k Hk. rewrite upto_length in Hk. rewrite nth_upto by auto.
    match goal with |- _ = nth k (map ?f _) 0 => set (g := f) end. rewrite (nth_indep (map g (seq 0 (len res))) 0 (g O)) by now rewrite map_length, seq_length.
    rewrite map_nth, seq_nth by auto. unfold g. cbn [plus]. rewrite sum_sumZ.
    destruct (k <? m)%nat; lia.
Qed.

(** ** Writing *)
Definition row_bound (c : config) : Z := if is_int (m_mode c) then 2 ^ W_BIT c else 1.

(** The crossbar represents [mat] in its first m rows and n columns. *)
Record stored (c : config) (mp : mapper) (mat : list Z) (m n : nat) : Prop := {
  st_ok : forall i j, (i < m)%nat -> (j < n)%nat -> cellok c mp i j;
  st_v : forall i j, (i < m)%nat -> (j < n)%nat -> cellv c mp i j = entry mat n i j;
  st_b : forall i j, (i < m)%nat -> (j < n)%nat -> cellb c mp i j = 0;
  st_sum : keeps_sums (m_mode c) = true -> forall i, (i < m)%nat ->
           nth i (sum_w mp) 0 = sumZ n (entry mat n i)
}.

Lemma covers_fits c : split_covers c -> Forall (fun s => 0 <= s) (SPLIT c) -> fits c.
Proof. intros H Hs Hi. destruct (H Hi) as [E1 E2]. unfold total in E1. fold (sumL (SPLIT c)) in E1. repeat split; auto; lia. Qed.

Lemma weight_facts c w : split_covers c -> weight_in c w ->
  Z.abs w <= row_bound c /\ wok c w /\ decoded c w = w.
Proof.
  intros He Hd. unfold weight_in, wok, decoded, row_bound in *.
  destruct (is_int (m_mode c)) eqn:Hi.
  - destruct (He Hi) as (F2 & F3). unfold total in F2. fold (sumL (SPLIT c)) in F2.
    assert (Hp : 0 < 2 ^ W_BIT c <= 2 ^ 30) by (split; [apply Z.pow_pos_nonneg|apply Z.pow_le_mono_r]; lia).
    assert (HW : 2 ^ W_BIT c = 2 * 2 ^ (W_BIT c - 1)).
    { replace (W_BIT c) with (Z.succ (W_BIT c - 1)) at 1 by lia. rewrite Z.pow_succ_r by lia. ring. }
    assert (K : forall v, 0 <= v < 2 ^ W_BIT c -> keep_bits c v = v).
    { intros v Hv. unfold keep_bits. rewrite F2, Z.sub_diag, Z.pow_0_r, Z.mod_1_r, Z.mod_small by lia. lia. }
    destruct (m_mode c); try discriminate Hi; unfold int_min, int_max.
    1-5: split; [lia|split; [lia|]]; rewrite K by lia; rewrite Z.mul_comm; apply Z.abs_sgn.
    split; [lia|split; [lia|]]. rewrite K by lia. ring.
  - destruct (m_mode c); try discriminate Hi; unfold bin, ter in *; split; try lia; auto.
Qed.

Lemma row_bound_pos c : 0 <= row_bound c.
Proof. unfold row_bound. destruct (is_int _); [apply Z.pow_nonneg|]; lia. Qed.

Lemma d_write_stored c mp mat m n :
  cfg_wf c -> shape c mp -> Forall (fun s => 0 <= s) (SPLIT c) -> split_covers c ->
  (m <= MM c)%nat -> (n <= colsN c)%nat -> (m * n <= len mat)%nat ->
  (forall i j, (i < m)%nat -> (j < n)%nat -> weight_in c (entry mat n i j)) ->
  Z.of_nat n * row_bound c <= int_max ->
  exists mp', d_write c mp mat m n = Ok mp' /\ shape c mp' /\ same_but_digital mp mp' /\
    stored c mp' mat m n.
Proof.
  intros Hw Hs Hnn Hcov Hm Hn Hl Hd HN. pose proof (covers_fits c Hcov Hnn) as Hf.
  assert (Hwok : forall i j, (i < m)%nat -> (j < n)%nat -> wok c (nth (n * i + j) mat 0)).
  { intros i j Hi Hj. now apply (weight_facts c _ Hcov (Hd i j Hi Hj)). }
  assert (Hsum : forall i, (i < m)%nat -> sumZ n (fun j => Z.abs (nth (n * i + j) mat 0)) <= int_max).
  { intros i Hi. etransitivity; [|exact HN]. rewrite <- sumZ_const. apply sumZ_le. intros j Hj.
    now apply (weight_facts c _ Hcov (Hd i j Hi Hj)). }
  destruct (d_write_ok c mp mat m n) as (mp' & E & S' & SB & P1 & P2 & Esw); auto.
  exists mp'. repeat (split; [assumption|]).
  assert (HH : holds c mp' mat m n).
  { apply (written c mp mp' mat m n); auto. intros Ht. now apply (sh_gm0 _ _ Hs). }
  constructor.
  - intros i j Hi Hj. now apply HH.
  - intros i j Hi Hj. destruct (HH i j Hi Hj) as (_ & -> & _).
    now apply (weight_facts c _ Hcov (Hd i j Hi Hj)).
  - intros i j Hi Hj. now apply HH.
  - intros Ek i Hi. rewrite Esw, Ek. rewrite nth_upto_lt by (rewrite ?(sh_sw _ _ Hs); lia). reflexivity.
Qed.

(** Same cells, same mode, same split: still the same matrix. *)
Lemma stored_core c c' mp mp' mat m n : core c c' -> same_digital mp mp' ->
  stored c mp mat m n -> stored c' mp' mat m n.
Proof.
  intros Hc (E1 & E2 & E3) Hst. pose proof (core_eqs _ _ Hc) as (_ & _ & Em & Es & Ew & _).
  assert (En : nsplit c' = nsplit c) by (unfold nsplit; congruence).
  assert (Esh : shifts c' = shifts c) by (unfold shifts; congruence).
  assert (Esg : forall f, segs c' f = segs c f) by (intros; unfold segs; now rewrite En, Esh).
  assert (Eok : forall i j, cellok c mp i j -> cellok c' mp' i j).
  { intros i j. unfold cellok. rewrite E1, E2, Em, En, Esg, Ew. auto. }
  assert (Ev : forall i j, cellv c' mp' i j = cellv c mp i j).
  { intros i j. unfold cellv. rewrite E1, E2, Em, En, Ew. destruct (m_mode c); rewrite ?Esg; auto. }
  assert (Eb : forall i j, cellb c' mp' i j = cellb c mp i j).
  { intros i j. unfold cellb. now rewrite E1, E2, Em. }
  destruct Hst as [S1 S2 S3 S4]. constructor; intros; rewrite ?Ev, ?Eb, ?E3; auto.
  apply S4; auto. now rewrite <- Em.
Qed.

(** ** Multiplying *)
Lemma d_mvm_stored c mp mat res vec mat' m n :
  (strict_shl = true -> no_neg_shift (m_mode c) = true) ->
  cfg_wf c -> shape c mp -> Forall (fun s => 0 <= s) (SPLIT c) -> split_covers c -> widths_fit c ->
  (m <= MM c)%nat -> (n <= colsN c)%nat -> (m <= len res)%nat -> (n <= len vec)%nat ->
  (forall i j, (i < m)%nat -> (j < n)%nat -> weight_in c (entry mat n i j)) ->
  (forall j, (j < n)%nat -> input_in c (nth j vec 0)) ->
  Z.of_nat n * term_bound c <= int_max ->
  (forall i, (i < m)%nat -> Z.abs (nth i res 0) + Z.of_nat n * term_bound c <= int_max) ->
  stored c mp mat m n ->
  exists mp', d_mvm c mp res vec mat' m n = Ok (plus_product res mat vec m n, mp').
Proof.
  intros Hst Hw Hs Hnn Hcov Hwid Hm Hn Hr Hv Hd Hvd HN HB HS.
  assert (Espan : term_bound c = span c).
  { unfold term_bound, span. destruct (is_int (m_mode c)) eqn:Hi; auto.
    destruct (Hcov Hi), (Hwid Hi). apply Z.pow_add_r; lia. }
  rewrite Espan in *.
  assert (Hb : bits_ok c).
  { intros Hi. destruct (Hcov Hi) as [E1 E2], (Hwid Hi) as [E3 E4]. unfold total in E1. fold (sumL (SPLIT c)) in E1.
    repeat split; try lia; rewrite ?shifts_eq by lia; apply shifts_from_range; auto; lia. }
  assert (Hspan : row_bound c <= span c /\ Z.abs (kap c) * row_bound c <= span c).
  { unfold span, kap, row_bound. destruct (is_int (m_mode c)) eqn:Hi.
    - destruct (Hcov Hi) as [F1 F2], (Hwid Hi) as [F3 F4].
      assert (0 < 2 ^ W_BIT c) by (apply Z.pow_pos_nonneg; lia).
      assert (0 < 2 ^ (I_BIT c - 1)) by (apply Z.pow_pos_nonneg; lia).
      assert (2 ^ I_BIT c = 2 * 2 ^ (I_BIT c - 1)).
      { replace (I_BIT c) with (Z.succ (I_BIT c - 1)) at 1 by lia. rewrite Z.pow_succ_r by lia. ring. }
      destruct (m_mode c); try discriminate Hi; repeat split; nia.
    - destruct (m_mode c); try discriminate Hi; cbn; lia. }
  destruct Hspan as (Hs1 & Hs2). pose proof (row_bound_pos c) as Hs3.
  assert (Hsum : forall i, (i < m)%nat ->
     sumZ n (fun j => Z.abs (entry mat n i j)) <= Z.of_nat n * row_bound c).
  { intros i Hi. rewrite <- sumZ_const. apply sumZ_le. intros j Hj. now apply (weight_facts c _ Hcov (Hd i j Hi Hj)). }
  assert (Hdres : forall i x, (i < m)%nat ->
    dres c mp vec n i x = x + sumZ n (fun j => nth (n * i + j) mat 0 * nth j vec 0)).
  { intros i x Hi. unfold dres.
    rewrite (sumZ_ext n (fun j => cellv c mp i j * nth j vec 0 + cellb c mp i j)
              (fun j => nth (n * i + j) mat 0 * nth j vec 0)).
    2: { intros j Hj. rewrite (st_v _ _ _ _ _ HS i j Hi Hj), (st_b _ _ _ _ _ HS i j Hi Hj). unfold entry. ring. }
    rewrite (sumZ_ext n (fun j => cellv c mp i j) (entry mat n i)).
    2: { intros j Hj. apply (st_v _ _ _ _ _ HS i j Hi Hj). }
    assert (Hz : kap c * (nth i (sum_w mp) 0 - sumZ n (entry mat n i)) = 0); [|lia].
    destruct (keeps_sums (m_mode c)) eqn:Ek.
    - rewrite (st_sum _ _ _ _ _ HS Ek i Hi). lia.
    - unfold kap. destruct (m_mode c); try discriminate Ek; lia. }
  destruct (go_all c mp res vec mat' m n) as (mp'' & E2); auto.
  - intros i j Hi Hj. now apply (st_ok _ _ _ _ _ HS).
  - intros i Hi. destruct (keeps_sums (m_mode c)) eqn:Ek.
    + rewrite (st_sum _ _ _ _ _ HS Ek i Hi). rewrite Z.abs_mul.
      pose proof (sumZ_abs n (entry mat n i)). specialize (Hsum i Hi).
      etransitivity; [|exact HN].
      transitivity (Z.abs (kap c) * (Z.of_nat n * row_bound c)).
      * apply Z.mul_le_mono_nonneg_l; [apply Z.abs_nonneg|]. etransitivity; [|exact Hsum]. assumption.
      * nia.
    + unfold kap. destruct (m_mode c); try discriminate Ek; cbn; unfold int_max; lia.
  - intros i Hi. rewrite Hdres by auto. specialize (HB i Hi).
    assert (HV : forall j, (j < n)%nat -> Z.abs (nth (n * i + j) mat 0 * nth j vec 0) <= span c).
    { intros j Hj. destruct (weight_facts c _ Hcov (Hd i j Hi Hj)) as (B & _ & _).
      specialize (Hvd j Hj). unfold entry in B. rewrite Z.abs_mul. unfold span, input_in, row_bound in *.
      destruct (is_int (m_mode c)) eqn:Hii.
      - assert (Z.abs (nth j vec 0) <= 2 ^ I_BIT c).
        { destruct (Hcov Hii) as [F1 F2], (Hwid Hii) as [F3 F4].
          assert (2 ^ I_BIT c = 2 * 2 ^ (I_BIT c - 1)).
          { replace (I_BIT c) with (Z.succ (I_BIT c - 1)) at 1 by lia. rewrite Z.pow_succ_r by lia. ring. }
          destruct (m_mode c); try discriminate Hii; lia. }
        apply Z.mul_le_mono_nonneg; lia.
      - assert (Z.abs (nth j vec 0) <= 1).
        { destruct (m_mode c); try discriminate Hii; lia. }
        nia. }
    pose proof (sumZ_bound n (fun j => nth (n * i + j) mat 0 * nth j vec 0) (span c) HV). lia.
  - exists mp''. rewrite E2. do 2 f_equal. rewrite <- plus_product_upto.
    apply (upto_ext m _ _ res 0). intros i Hi _. now apply Hdres.
Qed.

(** ** Crossbar level *)
Definition never : out False -> Prop := fun _ => False.
Lemma tri_never {A} (P : A -> Prop) x : tri never P x -> exists a, x = Ok a /\ P a.
Proof. destruct x; cbn; unfold never; try easy. eauto. Qed.

Lemma xwrite_digital c x mat m n e mp' : digital_only c = true -> xok c x -> shape c mp' ->
  d_write c (xm x) mat m n = Ok mp' -> exists x', xwrite c x mat m n e = Ok (x', e) /\ xm x' = mp'.
Proof.
  intros Hd Hx Hs' E. unfold xwrite. cbv zeta.
  change (xm (x <|n_write := n_write x + 1|> <|n_read := 0|>)) with (xm x).
  change (xrd (x <|n_write := n_write x + 1|> <|n_read := 0|>)) with (xrd x).
  rewrite Hd, E. cbn [bind]. destruct (read_disturb c) eqn:Erd.
  - pose proof (xo_shape _ _ Hx) as Hs.
    destruct (tri_never _ _ (tri_reset_mask never c _ _ (sh_gp _ _ Hs) (sh_gp _ _ Hs'))) as (up & -> & Wu).
    destruct (tri_never _ _ (tri_reset_mask never c _ _ (sh_gm _ _ Hs) (sh_gm _ _ Hs'))) as (um & -> & Wm).
    cbn [bind]. destruct (xrd x) as [r|] eqn:Er; [|now apply (xo_some _ _ Hx) in Erd].
    cbn [deref bind]. pose proof (xo_rd _ _ Hx r Er) as Hr.
    destruct (tri_never _ _ (tri_update_cycles never c up um r Hr Wu Wm)) as (r1 & -> & Hr1 & _). cbn [bind].
    assert (Hm : exists r2, match mitigation c with CELL_BASED => reset_consecutive c r1 | _ => Ok r1 end = Ok r2).
    { destruct (mitigation c); eauto.
      destruct (tri_never _ _ (tri_reset_consecutive never c r1 Hr1)) as (r2 & -> & _). eauto. }
    destruct Hm as (r2 & ->). cbn [bind]. eexists. split; reflexivity.
  - cbn [bind]. eexists. split; reflexivity.
Qed.

Lemma xmvm_digital c x res vec mat m n l e r mp' : digital_only c = true ->
  d_mvm c (xm x) res vec mat m n = Ok (r, mp') ->
  exists x', xmvm c x res vec mat m n l e = Ok (r, x', e).
Proof.
  intros Hd E. unfold xmvm. cbv zeta.
  change (xm (x <|n_mvm := n_mvm x + 1|> <|n_read := n_read x + 1|>)) with (xm x).
  rewrite Hd, E. cbn [bind]. eexists. reflexivity.
Qed.

(** ** API level *)
Lemma guard_ok w m n : good w -> dims_in (wcfg w) m n ->
  too_big (wcfg w) m n = false /\ dims m n = Ok (Z.to_nat m, Z.to_nat n) /\
  (Z.to_nat m <= MM (wcfg w))%nat /\ (Z.to_nat n <= colsN (wcfg w))%nat.
Proof.
  intros Hg [Hm Hn]. unfold too_big, dims, colsN.
  assert (HM : M (wcfg w) < 2 ^ 32 /\ N (wcfg w) < 2 ^ 32).
  { destruct (good_loaded w Hg) as [H| ->]; [split; apply H|split; reflexivity]. }
  destruct HM as [HM HN]. unfold u32. rewrite !Z.mod_small by lia.
  repeat split; try lia. now replace ((m <? 0) || (n <? 0)) with false by lia.
Qed.
Lemma split_nonneg w : good w -> Forall (fun s => 0 <= s) (SPLIT (wcfg w)).
Proof.
  intros Hg. destruct (good_loaded w Hg) as [H| ->]; [|constructor].
  eapply Forall_impl; [|apply (ld_split _ H)]. cbn. lia.
Qed.

(** The crossbar of a world represents a matrix. *)
Definition wstored (w : world) (mat : list Z) (m n : Z) : Prop :=
  exists x, wx w = Some x /\ stored (wcfg w) (xm x) mat (Z.to_nat m) (Z.to_nat n).

Lemma cpy_stored w x mat m n :
  good w -> wx w = Some x -> digital_only (wcfg w) = true -> split_covers (wcfg w) ->
  dims_in (wcfg w) m n -> all_entries (weight_in (wcfg w)) mat m n ->
  n * row_bound (wcfg w) <= int32_max ->
  exists w1, step w (CpyMtrx mat m n) = Ok (w1, RCode 0) /\ good w1 /\ wcfg w1 = wcfg w /\
    wdata w1 = wdata w /\ wstored w1 mat m n.
Proof.
  intros Hg Hx Hd Hcov Hdim [Hl Hent] HN. destruct (guard_ok w m n Hg Hdim) as (G1 & G2 & Hm & Hn).
  destruct Hdim as [Dm Dn]. pose proof (g_x _ Hg x Hx) as Hxo. pose proof (good_wf w Hg) as Hwf.
  destruct (d_write_stored (wcfg w) (xm x) mat (Z.to_nat m) (Z.to_nat n)) as (mp' & E & S1 & _ & S2); auto.
  - apply Hxo.
  - now apply split_nonneg.
  - nia.
  - rewrite Z2Nat.id by lia. exact HN.
  - destruct (xwrite_digital (wcfg w) x mat (Z.to_nat m) (Z.to_nat n) (wenv w) mp' Hd Hxo S1 E) as (x' & Ex & Exm).
    assert (Est : step w (CpyMtrx mat m n) = Ok (w <| wx := Some x' |> <| wenv := wenv w |>, RCode 0)).
    { cbn. unfold cpy_mtrx. rewrite Hx, G1, G2. cbn [bind]. rewrite Ex. reflexivity. }
    eexists. split; [exact Est|]. split; [eapply step_good; [exact Hg|exact Est|discriminate]|].
    repeat (split; [reflexivity|]). exists x'. split; [reflexivity|]. cbn. rewrite Exm. exact S2.
Qed.

Lemma mvm_stored w x mat res vec mat' m n l :
  (strict_shl = true -> no_neg_shift (m_mode (wcfg w)) = true) ->
  good w -> wx w = Some x -> digital_only (wcfg w) = true -> split_covers (wcfg w) -> widths_fit (wcfg w) ->
  dims_in (wcfg w) m n -> all_entries (weight_in (wcfg w)) mat m n ->
  all_first (input_in (wcfg w)) vec n -> room (wcfg w) res m n ->
  wstored w mat m n ->
  exists w1, step w (ExeMvm res vec mat' m n l) =
    Ok (w1, RRes 0 (plus_product res mat vec (Z.to_nat m) (Z.to_nat n))).
Proof.
  intros Hst Hg Hx Hd Hcov Hwid Hdim [Hl Hent] [Hv1 Hv2] [HN [Hr1 Hr2]] (x1 & Hx1 & HS).
  rewrite Hx in Hx1. inversion Hx1; subst x1; clear Hx1.
  destruct (guard_ok w m n Hg Hdim) as (G1 & G2 & Hm & Hn).
  destruct Hdim as [Dm Dn]. pose proof (g_x _ Hg x Hx) as Hxo. pose proof (good_wf w Hg) as Hwf.
  assert (L1 : (Z.to_nat m <= len res)%nat) by lia. assert (L2 : (Z.to_nat n <= len vec)%nat) by lia.
  assert (B1 : Z.of_nat (Z.to_nat n) * term_bound (wcfg w) <= int_max) by (rewrite Z2Nat.id by lia; exact HN).
  assert (B2 : forall i, (i < Z.to_nat m)%nat ->
    Z.abs (nth i res 0) + Z.of_nat (Z.to_nat n) * term_bound (wcfg w) <= int_max)
    by (intros i Hi; rewrite Z2Nat.id by lia; exact (Hr2 i Hi)).
  destruct (d_mvm_stored (wcfg w) (xm x) mat res vec mat' (Z.to_nat m) (Z.to_nat n) Hst Hwf
    (xo_shape _ _ Hxo) (split_nonneg w Hg) Hcov Hwid Hm Hn L1 L2 Hent Hv2 B1 B2 HS) as (mp' & E).
  destruct (xmvm_digital (wcfg w) x res vec mat' _ _ l (wenv w) _ _ Hd E) as (x' & Ex).
  cbn. unfold exe_mvm. rewrite Hx, G1, G2. cbn [bind]. rewrite Ex. cbn [bind]. eauto.
Qed.

Lemma row_term c : widths_fit c -> split_covers c -> row_bound c <= term_bound c.
Proof.
  intros H1 H2. unfold row_bound, term_bound. destruct (is_int (m_mode c)) eqn:Hi; [|lia].
  destruct (H1 Hi), (H2 Hi). apply Z.pow_le_mono_r; lia.
Qed.

Lemma update_norec kvs : forall j md rc j' md' rc',
  (forall k, In k structural_keys -> ~ In k (map fst kvs)) ->
  update_keys kvs j md rc = Ok (j', md', rc') -> rc' = rc.
Proof.
  induction kvs as [|[k v] r IH]; cbn [update_keys]; intros j md rc j' md' rc' Hk H.
  - now inversion H.
  - assert (Hr : forall k, In k structural_keys -> ~ In k (map fst r)).
    { intros q Hq Hi. apply (Hk q Hq). cbn. auto. }
    destruct (_ && _); [now eapply IH in H|].
    destruct (match jat j k with Some cur => _ | None => _ end); [|now eapply IH in H].
    destruct (jset j k v); [|discriminate]. apply IH in H; auto. rewrite H.
    destruct (existsb (String.eqb k) recreation_keys) eqn:Ee; [|now rewrite orb_false_r].
    exfalso. apply existsb_key in Ee. apply (Hk k); [exact Ee|]. cbn. auto.
Qed.

Lemma quiet_step w a w' r : good w -> quiet a -> step w a = Ok (w', r) ->
  good w' /\ r <> RExc /\ core (wcfg w) (wcfg w') /\
  (forall x, wx w = Some x -> exists x', wx w' = Some x' /\ same_digital (xm x) (xm x')) /\
  (wx w = None -> wx w' = None).
Proof.
  intros Hg Hq H. pose proof (good_wf w Hg) as Hwf.
  assert (Hsame : w' = w -> good w' /\ core (wcfg w) (wcfg w') /\
    (forall x, wx w = Some x -> exists x', wx w' = Some x' /\ same_digital (xm x) (xm x')) /\
    (wx w = None -> wx w' = None)).
  { intros ->. split; [auto|]. split; [apply core_refl|]. split; [|auto]. intros x Hx. exists x. auto using sd_refl. }
  enough (Hmain : r <> RExc /\ core (wcfg w) (wcfg w') /\
    (forall x, wx w = Some x -> exists x', wx w' = Some x' /\ same_digital (xm x) (xm x')) /\
    (wx w = None -> wx w' = None)).
  { destruct Hmain as (H1 & H2). split; [eapply step_good; eauto|]. auto. }
  destruct a; cbn in Hq; try easy; cbn in H.
  - unfold update_config in H. destruct (wx w) as [x|] eqn:Ex.
    2: { inversion H; subst. split; [discriminate|]. apply Hsame; auto. }
    destruct u; try discriminate.
    { inversion H; subst. split; [discriminate|]. now apply Hsame. }
    inv_as H t Ht. destruct t as [[[j1 c1] up] rc]. cbn zeta in H.
    assert (rc = false).
    { unfold update_cfg in Ht. inv_as Ht t2 Ht2. destruct t2 as [[j2 md] rc2].
      apply update_norec in Ht2; [|exact Hq]. subst rc2.
      destruct md; [inv_as Ht c2 Hc2|]; inversion Ht; auto. }
    subst rc. rewrite andb_false_r in H. inversion H; subst. split; [discriminate|]. cbn.
    split; [eapply update_core; eauto; apply andb_false_r|]. split; [|intros; congruence].
    intros y Hy. exists y. split; [congruence|apply sd_refl].
  - unfold exe_mvm in H. destruct (wx w) as [x|] eqn:Ex.
    2: { inversion H; subst. split; [discriminate|]. now apply Hsame. }
    destruct (too_big _ _ _). { inversion H; subst. split; [discriminate|]. now apply Hsame. }
    inv_as H d Hd. destruct d as [m' n']. inv_as H t Ht. destruct t as [[r' x'] e']. inversion H; subst.
    split; [discriminate|]. cbn. split; [apply core_refl|]. split; [|congruence].
    intros y Hy. inversion Hy; subst y. exists x'. split; [reflexivity|]. eapply xmvm_ok; eauto. now apply Hg.
  - unfold py_mvm in H. destruct (wx w) as [x|] eqn:Ex; [|discriminate]. cbn [deref bind] in H.
    inv_as H d Hd. destruct d as [m' n']. inv_as H t Ht. destruct t as [[r' x'] e']. inversion H; subst.
    split; [discriminate|]. cbn. split; [apply core_refl|]. split; [|congruence].
    intros y Hy. inversion Hy; subst y. exists x'. split; [reflexivity|]. eapply xmvm_ok; eauto. now apply Hg.
  - inv_as H x Hx. inv_as H g G. inversion H; subst. split; [discriminate|]. now apply Hsame.
  - inv_as H x Hx. inversion H; subst. split; [discriminate|]. now apply Hsame.
  - inv_as H x Hx. inversion H; subst. split; [discriminate|]. now apply Hsame.
  - inv_as H x Hx. inv_as H g G. inversion H; subst. split; [discriminate|]. now apply Hsame.
  - inversion H; subst. split; [discriminate|]. now apply Hsame.
Qed.

Lemma core_trans a b d : core a b -> core b d -> core a d.
Proof.
  intros (i & v & d2 & c2 & bs & w & p & ->) (i' & v' & d2' & c2' & bs' & w' & p' & ->).
  exists i', v', d2', c2', bs', w', p'. destruct a; vm_compute; reflexivity.
Qed.

Lemma quiet_run h : forall w w' rs, good w -> Forall quiet h -> run w h = Ok (w', rs) ->
  good w' /\ core (wcfg w) (wcfg w') /\
  (forall x, wx w = Some x -> exists x', wx w' = Some x' /\ same_digital (xm x) (xm x')).
Proof.
  induction h as [|a h IH]; cbn [run]; intros w w' rs Hg Hq H.
  - inversion H; subst. split; [auto|]. split; [apply core_refl|]. intros x Hx. exists x. auto using sd_refl.
  - inv_as H t Ht. destruct t as [w1 r]. inv_as H t2 Ht2. destruct t2 as [w2 rs2]. inversion H; subst.
    inversion Hq; subst. destruct (quiet_step _ _ _ _ Hg H2 Ht) as (Hg1 & _ & Hc1 & Hx1 & _).
    destruct (IH _ _ _ Hg1 H3 Ht2) as (Hg2 & Hc2 & Hx2).
    split; [auto|]. split; [eapply core_trans; eauto|].
    intros x Hx. destruct (Hx1 x Hx) as (x1 & E1 & D1). destruct (Hx2 x1 E1) as (x2 & E2 & D2).
    exists x2. split; [auto|]. eapply sd_trans; eauto.
Qed.

Lemma core_domains c c' : core c c' ->
  weight_in c' = weight_in c /\ (split_covers c <-> split_covers c') /\
  digital_only c' = digital_only c /\ m_mode c' = m_mode c /\ (forall m n, dims_in c m n <-> dims_in c' m n).
Proof.
  intros H. pose proof (core_eqs _ _ H) as (E1 & E2 & E3 & E4 & E5 & E6 & _).
  unfold weight_in, split_covers, dims_in. rewrite E1, E2, E3, E4, E5, E6. tauto.
Qed.

(** Write, then anything quiet, then multiply. *)
Theorem write_quiet_mvm w x mat m n h res vec mat' l :
  good w -> wx w = Some x -> digital_only (wcfg w) = true ->
  (strict_shl = true -> no_neg_shift (m_mode (wcfg w)) = true) ->
  split_covers (wcfg w) -> dims_in (wcfg w) m n -> all_entries (weight_in (wcfg w)) mat m n ->
  n * row_bound (wcfg w) <= int32_max -> Forall quiet h ->
  exists w1, step w (CpyMtrx mat m n) = Ok (w1, RCode 0) /\
    forall w2 rs, run w1 h = Ok (w2, rs) ->
      widths_fit (wcfg w2) -> all_first (input_in (wcfg w2)) vec n -> room (wcfg w2) res m n ->
      exists w3, step w2 (ExeMvm res vec mat' m n l) =
        Ok (w3, RRes 0 (plus_product res mat vec (Z.to_nat m) (Z.to_nat n))).
Proof.
  intros Hg Hx Hd Hst Hcov Hdim Hent HN Hq.
  destruct (cpy_stored w x mat m n) as (w1 & E1 & G1 & C1 & _ & x1 & X1 & S1); auto.
  exists w1. split; [exact E1|]. intros w2 rs H2 Hwid Hv Hr.
  destruct (quiet_run h _ _ _ G1 Hq H2) as (G2 & Hc & Hxx). rewrite C1 in Hc.
  destruct (Hxx x1 X1) as (x2 & X2 & D2).
  destruct (core_domains _ _ Hc) as (W1 & W2 & W3 & W4 & W5).
  eapply mvm_stored; eauto.
  - rewrite W4. exact Hst.
  - now apply W2.
  - now apply W5.
  - now rewrite W1.
  - exists x2. split; [exact X2|]. eapply stored_core; eauto. now rewrite C1 in S1.
Qed.
End A.
