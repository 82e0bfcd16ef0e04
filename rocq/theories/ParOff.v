(** What is left of the solver when the wire resistance is set to zero: the buffer of the slice currents
    keeps the length the solver gave it. *)
From Coq Require Import List ZArith Bool Arith Lia ZifyBool ZifyNat String.
From RecordUpdate Require Import RecordSet.
From Verif Require Import Base Lib Hoare Machine Json Config Histogram Adc ReadDisturb Parasitics
  Mapper IntMappers BnnMappers TnnMappers Crossbar Api ParSpec ParCode Shape MvmShape DigMvm DigModes DigWrite AnaShape ConfigProofs
  Reach Cells Spec DigApi Invar StepFacts StoreProps SafeProps ValidProps CfgProps NoiseProps AnaWrite AnaSpec AnaApi Twin KinSpec Kin KinProps
  EmuProps ParMvm ParProps.
Import ListNotations RecordSetNotations.
Local Open Scope Z_scope.
Local Open Scope out_scope.
Ltac Zify.zify_post_hook ::= idtac.

Section PO.
Context {MC : Machine}.
Notation len := List.length.
Notation MM c := (Z.to_nat (M c)).

(** ** The length of the buffer *)
Section Cut.
Context (fresh : bool).
Definition cut (c : config) (k : nat) (t : list F) : Prop :=
  len t = MM c \/ (fresh = true /\ parasitics c = true /\ k = O).

Lemma slice_cut c mp term vds rows n t k : shape c mp -> cut c k t ->
  tri anyfail (fun t' => len t' = MM c) (slice_currents c mp term vds rows n t).
Proof.
  intros Hs HC. unfold slice_currents. destruct (parasitics c) eqn:Ep.
  - apply tri_any. intros t'. now apply compute_currents_len.
  - destruct HC as [HC|(_ & HC & _)]; [|congruence]. rewrite <- HC. apply tri_facc2; [left; exact I|].
    intros i j _ _. destruct (term i j); exact I.
Qed.
Lemma bits_cut c mp l vd m n bits neg k st : shape c mp -> cut c k (snd (fst st)) ->
  tri anyfail (fun st' => cut c (k + Z.to_nat bits) (snd (fst st'))) (bit_loop c mp l vd m n bits neg st).
Proof.
  intros Hs H0. unfold bit_loop. apply (tri_loopn anyfail (fun b st => cut c (k + b) (snd (fst st)))).
  { now rewrite Nat.add_0_r. }
  intros b [[r t] v] _ Ht. cbn [fst snd] in Ht.
  apply (tri_bind anyfail (fun _ => True)). { now destruct (slice_vd _ _ _ _). } intros v' _.
  apply (tri_bind anyfail (fun t' => len t' = MM c)). { eapply slice_cut; eauto. } intros t' Ht'.
  apply (tri_bind anyfail (fun _ => True)). { now destruct (bit_add _ _ _ _ _ _ _ _ _). } intros r' _.
  cbn [tri fst snd]. left. now rewrite fill_length.
Qed.

Ltac skip := apply (tri_bind anyfail (fun _ => True));
  [match goal with |- tri _ _ ?x => destruct x; exact I end|].
Lemma a_mvm_cut c mp res vec mat m n l e : shape c mp -> is_int (m_mode c) = true ->
  (fresh = true -> 1 <= I_BIT c <= 1000) -> cut c 0 (tmp_fp mp) ->
  tri anyfail (fun o => len (tmp_fp (snd (fst o))) = MM c) (a_mvm c mp res vec mat m n l e).
Proof.
  intros Hs Hi HI HC. unfold a_mvm. rewrite (sh_mode _ _ Hs).
  assert (H0 : cut c 0 (fill (tmp_fp mp) f0)) by (unfold cut in *; now rewrite fill_length).
  assert (U : fresh = true -> u32 (I_BIT c + 1) = I_BIT c + 1).
  { intros Hf. specialize (HI Hf). unfold u32. rewrite Z.mod_small by lia. lia. }
  assert (Hend : forall k t, (fresh = true -> 1 <= k)%nat -> cut c k t -> len t = MM c).
  { intros k t Hk [H|(Hf & _ & H)]; [exact H|]. specialize (Hk Hf). lia. }
  destruct (m_mode c); try discriminate Hi;
    (apply (tri_bind anyfail (fun o => len (tmp_fp (snd o)) = MM c)); [|intros [r mp'] H; exact H]);
    unfold int_i_a, int_ii_a, int_iii_a, int_iv_a, int_v_a.
  1-2: skip; intros [vp vm] _;
    (eapply tri_bind; [apply (bits_cut _ _ _ _ _ _ _ _ 0); [exact Hs|exact H0]|]); intros [[r1 t1] v1] H1;
    (eapply tri_bind; [eapply bits_cut; [exact Hs|exact H1]|]); intros [[r2 t2] v2] H2; cbn [fst snd] in H2;
    cbn; (eapply Hend; [|exact H2]); intros Hf; specialize (HI Hf); lia.
  - skip; intros vp _.
    eapply tri_bind; [apply (bits_cut _ _ _ _ _ _ _ _ 0); [exact Hs|exact H0]|]. intros [[r1 t1] v1] H1. cbn [fst snd] in H1.
    skip; intros r2 _. cbn. eapply Hend; [|exact H1]. intros Hf. rewrite U by exact Hf. specialize (HI Hf). lia.
  - skip; intros vp _.
    eapply tri_bind; [apply (bits_cut _ _ _ _ _ _ _ _ 0); [exact Hs|exact H0]|]. intros [[r1 t1] v1] H1. cbn [fst snd] in H1.
    skip; intros v2 _. eapply tri_bind; [eapply slice_cut; [exact Hs|exact H1]|]. intros t2 H2.
    skip; intros r2 _. exact H2.
  - skip; intros vp _.
    eapply tri_bind; [apply (bits_cut _ _ _ _ _ _ _ _ 0); [exact Hs|exact H0]|]. intros [[r1 t1] v1] H1. cbn [fst snd] in H1.
    cbn. eapply Hend; [|exact H1]. intros Hf. specialize (HI Hf). lia.
  - skip; intros vp _. skip; intros isum _.
    apply (tri_bind anyfail (fun st => cut c (Z.to_nat (I_BIT c)) (snd (fst st)))).
    { apply (tri_loopn anyfail (fun b st => cut c b (snd (fst st)))); [exact H0|].
      intros b [[r t] v] _ Ht. cbn [fst snd] in Ht. skip; intros v' _.
      eapply tri_bind; [eapply slice_cut; [exact Hs|exact Ht]|]. intros t' Ht'. skip; intros rf' _.
      cbn [tri fst snd]. left. now rewrite fill_length. }
    intros [[r1 t1] v1] H1. cbn [fst snd] in H1. skip; intros [r2 rf2] _. cbn.
    eapply Hend; [|exact H1]. intros Hf. specialize (HI Hf). lia.
Qed.
End Cut.

(** ** Nothing else touches the buffer *)
Lemma add_c2c_fp c mp m n e mp' e' : add_c2c c mp m n e = Ok (mp', e') -> tmp_fp mp' = tmp_fp mp.
Proof. unfold add_c2c. intros H. inv_as H t T. destruct t as [[ip im] k]. now inversion H; subst. Qed.
Lemma remove_c2c_fp mp m n mp' : remove_c2c mp m n = Ok mp' -> tmp_fp mp' = tmp_fp mp.
Proof. unfold remove_c2c. intros H. inv_as H t T. destruct t as [ip im]. now inversion H; subst. Qed.
Lemma a_write_fp c mp m n e mp' e' : a_write c mp m n e = Ok (mp', e') -> tmp_fp mp' = tmp_fp mp.
Proof.
  unfold a_write. intros H. cbv zeta in H. inv_as H t T. destruct t as [mp1 e1].
  assert (E : tmp_fp mp1 = tmp_fp mp).
  { destruct (is_int (mp_mode mp)).
    - inv_as T mp2 T2. inversion T; subst. unfold a_write_int in T2. inv_as T2 q Q. destruct q. now inversion T2; subst.
    - unfold a_write_xnn in T. inv_as T q Q. destruct q as [[[[a b] d] f] k]. now inversion T; subst. }
  destruct (parasitics c); [|now inversion H; subst].
  inv_as H po P. now inversion H; subst.
Qed.
Lemma xwrite_fp c x mat m n e x' e' : xok c x -> cfg_wf c -> xwrite c x mat m n e = Ok (x', e') ->
  tmp_fp (xm x') = tmp_fp (xm x).
Proof.
  intros Hx Hw H. destruct (xwrite_parts _ _ _ _ _ _ _ _ Hx Hw H) as (mp1 & _ & _ & (gp & gm & sw & ->) & T).
  destruct (digital_only c); [destruct T as [-> _]; reflexivity|]. apply a_write_fp in T. exact T.
Qed.
Lemma rd_update_fp c rp rm mp r mp' r' : rd_update c rp rm mp r = Ok (mp', r') -> tmp_fp mp' = tmp_fp mp.
Proof.
  unfold rd_update. intros H. inv_as H t T. destruct t as [ip b]. destruct (mp_diff mp).
  - inv_as H t T2. destruct t as [im b2]. now inversion H; subst.
  - now inversion H; subst.
Qed.
Lemma cell_refresh_fp c mp r e mp' r' cnt e' : cell_refresh c mp r e = Ok (mp', r', cnt, e') -> tmp_fp mp' = tmp_fp mp.
Proof.
  unfold cell_refresh. intros H. inv_as H t T. destruct t as [[[[a b] d] f] k]. destruct (mp_diff mp).
  - inv_as H t T2. destruct t as [[[[a2 b2] d2] f2] k2]. now inversion H; subst.
  - now inversion H; subst.
Qed.
Lemma rd_step_fp c x m n e x' e' : rd_step c x m n e = Ok (x', e') -> tmp_fp (xm x') = tmp_fp (xm x).
Proof.
  intros H. destruct (mitigation c) eqn:Em.
  - apply rd_step_soft in H; [|exact Em]. destruct H as [_ H]. split_if H.
    + destruct H as (r & mp1 & r1 & R1 & HU & H). cbv zeta in H. apply rd_update_fp in HU. split_if H.
      * unfold soft_refresh in H. inv_as H t T. destruct t as [up k]. inv_as H t T2. destruct t as [um k2].
        inv_as H r2 T3. inv_as H t T4. destruct t as [mp2 e2]. inversion H; subst. cbn.
        apply a_write_fp in T4. rewrite <- HU. exact T4.
      * destruct H as [-> _]. cbn. exact HU.
    + destruct H as [-> _]. reflexivity.
  - apply rd_step_cell in H; [|exact Em]. destruct H as (r & r1 & R1 & HU & _ & H). split_if H.
    + destruct H as (mp1 & r2 & mp2 & r3 & cnt & U1 & U2 & ->). cbn.
      apply rd_update_fp in U1. apply cell_refresh_fp in U2. congruence.
    + destruct H as [-> _]. reflexivity.
  - apply rd_step_off in H; [|exact Em]. destruct H as (_ & _ & H). split_if H; [|subst; reflexivity].
    destruct H as (r & mp1 & r1 & R1 & HU & ->). apply rd_update_fp in HU. cbn. exact HU.
Qed.
Lemma xmvm_cut fresh c x res vec mat m n l e r x' e' : xok c x -> digital_only c = false -> is_int (m_mode c) = true ->
  (fresh = true -> 1 <= I_BIT c <= 1000) -> cut fresh c 0 (tmp_fp (xm x)) ->
  xmvm c x res vec mat m n l e = Ok (r, x', e') -> len (tmp_fp (xm x')) = MM c.
Proof.
  intros Hx Hd Hi HI HC H. unfold xmvm in H. cbv zeta in H. pose proof (xo_shape _ _ Hx) as Hs.
  set (x0 := x <|n_mvm := n_mvm x + 1|> <|n_read := n_read x + 1|>) in H. change (xm x0) with (xm x) in H. rewrite Hd in H.
  inv_as H t T. destruct t as [mp1 e1].
  assert (A1 : shape c mp1 /\ tmp_fp mp1 = tmp_fp (xm x)).
  { destruct (c2c_var c).
    - pose proof (proj1 (tri_any _ _) (add_c2c_tri anyfail harmless_any c (xm x) m n e Hs (or_introl (fun _ => I))) _ T) as (S1 & _).
      split; [exact S1|]. eapply add_c2c_fp; eauto.
    - inversion T; subst. auto. }
  destruct A1 as (S1 & C1). inv_as H u U. destruct u as [[r1 mp2] e2]. rewrite <- C1 in HC.
  pose proof (proj1 (tri_any _ _) (a_mvm_cut fresh c mp1 res vec mat m n l e1 S1 Hi HI HC) _ U) as A2. cbn [fst snd] in A2.
  inv_as H mp3 V. assert (A3 : tmp_fp mp3 = tmp_fp mp2).
  { destruct (c2c_var c); [eapply remove_c2c_fp; eauto|now inversion V; subst]. }
  inv_as H q Q. destruct q as [x4 e4]. inversion H; subst r1 x4 e4; clear H.
  destruct (read_disturb c).
  - apply rd_step_fp in Q. rewrite Q. cbn. now rewrite A3.
  - inversion Q; subst. cbn. now rewrite A3.
Qed.

(** ** Histories *)
Lemma run_cut h : forall w x w' rs, good w -> wx w = Some x -> Forall no_create h ->
  digital_only (wcfg w) = false -> is_int (m_mode (wcfg w)) = true -> len (tmp_fp (xm x)) = MM (wcfg w) ->
  run w h = Ok (w', rs) ->
  good w' /\ digital_only (wcfg w') = false /\ is_int (m_mode (wcfg w')) = true /\ M (wcfg w') = M (wcfg w) /\
  W_BIT (wcfg w') = W_BIT (wcfg w) /\
  exists x', wx w' = Some x' /\ len (tmp_fp (xm x')) = MM (wcfg w').
Proof.
  induction h as [|a h IH]; intros w x w' rs Hg Hx HF Hd Hi Hl H.
  - cbn in H. inversion H; subst. repeat (split; [auto|]). eauto.
  - cbn [run] in H. inv_as H t T. destruct t as [w1 r]. inv_as H q Q. destruct q as [w2 rs2]. inversion H; subst; clear H.
    inversion HF as [|? ? Ha HF']; subst.
    destruct (no_create_step w a w1 r x Hg Ha Hx T) as (Hg1 & _ & x1 & Hx1 & Hch).
    pose proof (g_x _ Hg x Hx) as Hxo. pose proof (good_wf w Hg) as Hwf.
    assert (K : digital_only (wcfg w1) = false /\ is_int (m_mode (wcfg w1)) = true /\ M (wcfg w1) = M (wcfg w) /\
                W_BIT (wcfg w1) = W_BIT (wcfg w) /\ len (tmp_fp (xm x1)) = MM (wcfg w1)).
    { clear -Hch Hxo Hwf Hd Hi Hl. revert Hch. generalize (wcfg w1). intros c1 Hch.
      destruct Hch as [c' HC|mat m n e y e' HW|res vec mat m n l e r' y e' HM].
      - destruct HC as (i & v & d2 & c2 & bs & wr & pp & ->). repeat (split; [assumption||reflexivity|]). exact Hl.
      - repeat (split; [assumption||reflexivity|]). rewrite (xwrite_fp _ _ _ _ _ _ _ _ Hxo Hwf HW). exact Hl.
      - repeat (split; [assumption||reflexivity|]).
        eapply (xmvm_cut false); eauto; [discriminate|]. left. exact Hl. }
    destruct K as (K1 & K2 & K3 & K4 & K5). destruct (IH w1 x1 w' rs2 Hg1 Hx1 HF' K1 K2 K5 Q) as (G & D & I2 & M2 & S2 & X2).
    repeat (split; [assumption||congruence|]). exact X2.
Qed.

(** ** The sums after that write past the end of the buffer *)
Section Past.
Context (c : config) (mp : mapper) (m n : nat).
Context (Hs : shape c mp) (Hi : is_int (m_mode c) = true) (Hp : parasitics c = false) (Hl : len (tmp_fp mp) = MM c).
Context (Hm : (MM c < m * nsplit c)%nat) (Hn1 : (1 <= n)%nat) (Hn : (n <= colsN c)%nat).

Definition picky (term : nat -> nat -> out F) : Prop := forall i j, tri only_oob (fun _ => True) (term i j).
Lemma get2_picky {A} (a : list (list A)) i j : tri only_oob (fun _ => True) (get2 a i j).
Proof.
  unfold get2, get. destruct (nth_error a i) as [r|]; cbn [bind tri]; [|reflexivity].
  now destruct (nth_error r j).
Qed.
Lemma get_picky {A} (a : list A) i : tri only_oob (fun _ => True) (get a i).
Proof. unfold get. now destruct (nth_error a i). Qed.
Lemma fterm_picky a b v : picky (fterm a b v).
Proof.
  intros i j. unfold fterm. apply (tri_bind _ (fun _ => True)); [apply get2_picky|]. intros x _.
  apply (tri_bind _ (fun _ => True)); [apply get2_picky|]. intros y _.
  apply (tri_bind _ (fun _ => True)); [apply get_picky|]. intros z _. exact I.
Qed.
Lemma fterm1_picky a v : picky (fterm1 a v).
Proof.
  intros i j. unfold fterm1. apply (tri_bind _ (fun _ => True)); [apply get2_picky|]. intros x _.
  apply (tri_bind _ (fun _ => True)); [apply get_picky|]. intros z _. exact I.
Qed.
Lemma facc2_past term t : picky term -> len t = MM c -> facc2 (m * nsplit c) n term t = UB OutOfBounds.
Proof.
  intros Ht Hlt. apply (tri_oob (fun a => (m * nsplit c <= len a)%nat /\ len a = len t)); [|intros a []; lia].
  unfold facc2. apply (tri_loopn only_oob (fun k a => (k <= len a)%nat /\ len a = len t)); [split; [lia|reflexivity]|].
  intros k a _ [_ Ha].
  apply (tri_weaken _ (fun b => (1 <= n -> S k <= len b)%nat /\ len b = len t)); [|intros b [Hb1 Hb2]; split; auto].
  apply (tri_loopn only_oob (fun j b => (1 <= j -> S k <= len b)%nat /\ len b = len t)); [split; [lia|exact Ha]|].
  intros j b _ [_ Hb]. apply (tri_bind _ (fun _ => True)); [apply Ht|]. intros x _.
  unfold faddto. eapply tri_bind; [apply oget|]. intros y Hy.
  eapply tri_weaken; [apply oset|]. intros b' [H1 H2]. split; [lia|congruence].
Qed.
Lemma slices_past term vds t : picky term -> len t = MM c ->
  slice_currents c mp term vds (m * nsplit c) n t = UB OutOfBounds.
Proof. intros. unfold slice_currents. rewrite Hp. now apply facc2_past. Qed.
Lemma bits_past l vd bits neg res t vds : 1 <= bits -> len vd = colsN c -> len vds = colsN c -> len t = MM c ->
  bit_loop c mp l vd m n bits neg (res, t, vds) = UB OutOfBounds.
Proof.
  intros Hb H1 H2 H3. unfold bit_loop.
  eapply (forN_fail _ _ (res, t, vds) (res, t, vds) 0); [lia|reflexivity| |discriminate].
  rewrite slice_eq by lia. cbn [bind]. rewrite slices_past; auto. apply fterm_picky.
Qed.

Lemma a_mvm_past res vec mat l e : 1 <= W_BIT c -> widths_fit c ->
  Z.of_nat n <= int32_max -> (n <= len vec)%nat -> (forall j, (j < n)%nat -> input_in c (nth j vec 0)) ->
  a_mvm c mp res vec mat m n l e = UB OutOfBounds.
Proof.
  intros Hsup Hwf Hn32 Hv Hin. unfold a_mvm. rewrite (sh_mode _ _ Hs).
  unfold int32_max in Hn32.
  pose proof (sh_vdp _ _ Hs) as Lp. pose proof (sh_vdm _ _ Hs) as Lm. pose proof (sh_vds _ _ Hs Hi) as Ls.
  assert (HW : 1 <= I_BIT c <= 29 /\ u32 (I_BIT c - 1) = I_BIT c - 1 /\ u32 (I_BIT c + 1) = I_BIT c + 1).
  { destruct (Hwf Hi). unfold u32. rewrite !Z.mod_small by lia. lia. }
  destruct HW as (H1 & H2 & H3). rewrite ?H2, ?H3.
  assert (Hpw : 2 ^ (I_BIT c - 1) * 2 = 2 ^ I_BIT c /\ 2 ^ I_BIT c <= 2 ^ 29).
  { rewrite Z.mul_comm, <- Z.pow_succ_r by lia. split; [f_equal; lia|]. apply Z.pow_le_mono_r; lia. }
  destruct Hpw as [P1 P2].
  assert (Hsm : forall j, (j < n)%nat -> Z.abs (nth j vec 0) <= 2 ^ 29).
  { intros j Hj. specialize (Hin j Hj). unfold input_in in Hin. destruct (m_mode c); try discriminate Hi; lia. }
  change (2 ^ 29) with 536870912 in *.
  assert (Hs64 : exists x, sum64 vec n = Ok x).
  { exists (sumZ n (fun j => nth j vec 0)).
    apply (DigMvm.sum64_ok vec n 536870912); auto. change (2 ^ 62) with 4611686018427387904. lia. }
  destruct Hs64 as (x64 & E64).
  assert (Hul : forall f (v : list Z), len v = colsN c -> len (upto n f v) = colsN c) by (intros; now rewrite upto_length).
  assert (H0 : len (fill (tmp_fp mp) f0) = MM c) by now rewrite fill_length.
  pose proof bits_past as BD. pose proof slices_past as SD.
  destruct (m_mode c) eqn:Em; try discriminate Hi; unfold int_i_a, int_ii_a, int_iii_a, int_iv_a, int_v_a.
  1-2: rewrite split_pm_ok by (rewrite ?Lp, ?Lm by reflexivity; auto; intros j Hj; specialize (Hsm j Hj); unfold int_max; lia);
    cbn [bind]; rewrite H2; (destruct (Z.eq_dec (I_BIT c) 1) as [E1|E1];
      [replace (I_BIT c - 1) with 0 by lia; unfold bit_loop at 1; cbn [Z.to_nat forN bind]; rewrite BD; auto; try lia
      |rewrite BD; auto; try lia]).
  - rewrite H2, H3. assert (0 < 2 ^ (I_BIT c - 1)) by (apply Z.pow_pos_nonneg; lia).
    rewrite (load_ok _ _ _ (fun v => 2 ^ (I_BIT c - 1) + v)); auto; try lia.
    + cbn [bind]. rewrite BD; auto; try lia.
    + intros j Hj. rewrite shl32_ok by (rewrite ?Z.mul_1_l; unfold int_min, int_max; lia). rewrite Z.mul_1_l. cbn [bind]. specialize (Hsm j Hj). apply add32_ok. unfold int_min, int_max. lia.
  - rewrite H2. rewrite (load_ok _ _ _ (fun v => v)); auto; try lia. cbn [bind].
    destruct (Z.eq_dec (I_BIT c) 1) as [E1|E1].
    + replace (I_BIT c - 1) with 0 by lia. unfold bit_loop at 1. cbn [Z.to_nat forN bind].
      rewrite slice_eq by (rewrite ?upto_length, ?Ls by reflexivity; lia). cbn [bind].
      rewrite SD; auto. apply fterm_picky.
    + rewrite BD; auto; try lia.
  - rewrite (load_ok _ _ _ (fun v => v)); auto; try lia. cbn [bind]. rewrite BD; auto; try lia.
  - rewrite (load_ok _ _ _ (fun v => v)); auto; try lia. cbn [bind]. rewrite E64. cbn [bind].
    rewrite (forN_fail _ _ (fill (res_fp mp) f0, fill (tmp_fp mp) f0, vd_slice mp) (fill (res_fp mp) f0, fill (tmp_fp mp) f0, vd_slice mp) 0 (UB OutOfBounds)); [|lia|reflexivity| |].
    + reflexivity.
    + rewrite slice_eq by (rewrite ?upto_length, ?Ls by reflexivity; lia). cbn [bind].
      rewrite SD; auto. apply fterm1_picky.
    + discriminate.
Qed.
End Past.

Lemma past_mvm w x m n res vec mat l : good w -> wx w = Some x -> digital_only (wcfg w) = false -> parasitics (wcfg w) = false ->
  is_int (m_mode (wcfg w)) = true -> len (tmp_fp (xm x)) = MM (wcfg w) -> 1 <= n -> M (wcfg w) < m * Z.of_nat (len (SPLIT (wcfg w))) ->
  1 <= W_BIT (wcfg w) -> widths_fit (wcfg w) -> n <= int32_max -> dims_in (wcfg w) m n -> all_first (input_in (wcfg w)) vec n ->
  (forall r, step w (ExeMvm res vec mat m n l) <> Ok r) /\
  (c2c_var (wcfg w) = false -> step w (ExeMvm res vec mat m n l) = UB OutOfBounds).
Proof.
  intros Hr Hx Hd Hp Hi Hlen H1 Hpast Hsup Hwid Hn32 Hdim [Hv Hin].
  destruct (guard_ok w m n Hr Hdim) as (G1 & G2 & Hm & Hn).
  pose proof (g_x _ Hr x Hx) as Hxo. pose proof (good_wf w Hr) as Hwf. destruct Hdim as [Dm Dn].
  cbn [step]. unfold exe_mvm. rewrite Hx, G1, G2. cbn [bind].
  set (x0 := x <|n_mvm := n_mvm x + 1|> <|n_read := n_read x + 1|>).
  assert (HD : forall mp1 e1, shape (wcfg w) mp1 -> tmp_fp mp1 = tmp_fp (xm x) ->
    a_mvm (wcfg w) mp1 res vec mat (Z.to_nat m) (Z.to_nat n) l e1 = UB OutOfBounds).
  { intros mp1 e1 S1 P1. apply a_mvm_past; auto; try lia; [congruence|]. unfold nsplit. nia. }
  unfold xmvm. cbv zeta. fold x0. rewrite Hd. change (xm x0) with (xm x). split.
  - intros r H. inv_as H t T. destruct t as [[r1 x1] e1]. inv_as T q Q. destruct q as [mp1 e2].
    rewrite HD in T; [discriminate| |].
    + destruct (c2c_var (wcfg w)); [|inversion Q; subst; apply Hxo].
      apply (proj1 (tri_any _ _) (add_c2c_tri anyfail harmless_any _ (xm x) _ _ (wenv w) (xo_shape _ _ Hxo) (or_introl (fun _ => I))) _ Q).
    + destruct (c2c_var (wcfg w)); [|now inversion Q; subst]. eapply add_c2c_fp; eauto.
  - intros ->. cbn [bind]. rewrite HD; auto. apply Hxo.
Qed.

Lemma wires_off w x res0 vec0 mat0 m0 n0 l0 w1 r0 h w2 rs res vec mat m n l :
  reach w -> wx w = Some x -> is_int (m_mode (wcfg w)) = true -> digital_only (wcfg w) = false -> parasitics (wcfg w) = true ->
  widths_fit (wcfg w) -> dims_in (wcfg w) m0 n0 -> step w (ExeMvm res0 vec0 mat0 m0 n0 l0) = Ok (w1, r0) ->
  Forall no_create h -> run w1 h = Ok (w2, rs) -> parasitics (wcfg w2) = false ->
  widths_fit (wcfg w2) -> dims_in (wcfg w2) m n -> 1 <= n <= int32_max ->
  M (wcfg w2) < m * Z.of_nat (len (SPLIT (wcfg w2))) -> all_first (input_in (wcfg w2)) vec n ->
  (forall r, step w2 (ExeMvm res vec mat m n l) <> Ok r) /\
  (c2c_var (wcfg w2) = false -> step w2 (ExeMvm res vec mat m n l) = UB OutOfBounds).
Proof.
  intros Hr Hx Hi Hd Hp Hwid0 Hdim0 H0 HF HR Hp2 Hwid Hdim [N1 N2] Hpast Hin.
  pose proof (par_supported w Hr Hp) as Hsup0. apply reach_good in Hr.
  destruct (guard_ok w m0 n0 Hr Hdim0) as (G1 & G2 & _).
  pose proof (step_good _ _ _ _ Hr H0) as Hg1.
  cbn [step] in H0. unfold exe_mvm in H0. rewrite Hx, G1, G2 in H0. cbn [bind] in H0.
  inv_as H0 t T. destruct t as [[r1 x1] e1]. inversion H0; subst; clear H0.
  assert (HI : 1 <= I_BIT (wcfg w) <= 1000).
  { destruct (Hwid0 Hi). destruct Hsup0 as (_ & _ & HB & _). destruct (HB Hi). lia. }
  assert (L1 : len (tmp_fp (xm x1)) = MM (wcfg w)).
  { eapply (xmvm_cut true); eauto; [exact (g_x _ Hr x Hx)|]. right. auto. }
  edestruct (run_cut h _ x1 w2 rs (Hg1 ltac:(discriminate))) as (G & D2 & I2 & M2 & S2 & x2 & X2 & L2); eauto.
  eapply past_mvm; eauto. rewrite S2. destruct Hsup0 as (_ & _ & HB & _). exact (proj1 (HB Hi)).
Qed.
End PO.
