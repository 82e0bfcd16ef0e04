(** Analog writes without noise, and what never changes after construction. *)
From Coq Require Import List ZArith Bool Arith Lia ZifyBool ZifyNat String.
From RecordUpdate Require Import RecordSet.
From Verif Require Import Base Lib Hoare Machine Json Config Histogram Adc ReadDisturb Parasitics
  Mapper IntMappers BnnMappers TnnMappers Crossbar Api WriteProofs Shape MvmShape DigMvm DigModes DigWrite AnaShape ConfigProofs
  Reach Spec DigApi Cells Invar StepFacts.
Import ListNotations RecordSetNotations.
Local Open Scope Z_scope.
Local Open Scope out_scope.

Ltac split_if H := match type of H with (if ?b then _ else _) => destruct b end.

Section G.
Context {MC : Machine}.
Notation len := List.length.
Notation at_f := (at2 f0).
Notation at_z := (at2 0).
Notation MM c := (Z.to_nat (M c)).
Notation nominal c g := (level g (fsub (LRS c) (HRS c)) (HRS c)).
Notation quietly c := (fle (HRS_NOISE c) f0 = true /\ fle (LRS_NOISE c) f0 = true).

(** ** Constants of a mapper *)
Definition same_consts (a b : mapper) : Prop :=
  i_mm b = i_mm a /\ i_step b = i_step a /\ delta b = delta a.
Lemma sc_refl a : same_consts a a.
Proof. repeat split. Qed.
Lemma sc_trans a b d : same_consts a b -> same_consts b d -> same_consts a d.
Proof. intros (A1 & A2 & A3) (B1 & B2 & B3). repeat split; congruence. Qed.
Lemma sc_digital a b : same_but_digital a b -> same_consts a b.
Proof. intros (gp & gm & sw & ->). repeat split. Qed.
Lemma sc_analog a b : same_but_analog a b -> same_consts a b.
Proof. intros (x1 & x2 & x3 & x4 & x5 & ->). repeat split. Qed.
Lemma sc_keeps a b : keeps a b -> same_consts a b.
Proof. intros K. destruct K. repeat split; assumption. Qed.

Lemma xwrite_parts c x mat m n e x' e' : xok c x -> cfg_wf c -> xwrite c x mat m n e = Ok (x', e') ->
  exists mp1, d_write c (xm x) mat m n = Ok mp1 /\ shape c mp1 /\ same_but_digital (xm x) mp1 /\
    (if digital_only c then xm x' = mp1 /\ e' = e else a_write c mp1 m n e = Ok (xm x', e')).
Proof.
  intros Hx Hw H. unfold xwrite in H. cbv zeta in H.
  change (xm (x <|n_write := n_write x + 1|> <|n_read := 0|>)) with (xm x) in H.
  change (xrd (x <|n_write := n_write x + 1|> <|n_read := 0|>)) with (xrd x) in H.
  inv_as H x1 T.
  assert (A : exists mp1, d_write c (xm x) mat m n = Ok mp1 /\ xm x1 = mp1).
  { destruct (read_disturb c).
    - inv_as T mp1 D. inv_as T up U. inv_as T um V. inv_as T r R. inv_as T r1 R1. inv_as T r2 R2.
      inversion T; subst. exists mp1. auto.
    - inv_as T mp1 D. inversion T; subst. exists mp1. auto. }
  destruct A as (mp1 & D & E1). exists mp1. split; [exact D|].
  pose proof (proj1 (tri_any _ _) (d_write_tri anyfail harmless_any c (xm x) mat m n Hw (xo_shape _ _ Hx) (or_introl I)) _ D) as (S1 & S2).
  split; [exact S1|]. split; [exact S2|].
  destruct (digital_only c).
  - inversion H; subst. auto.
  - inv_as H t T2. destruct t as [mp2 e2]. inversion H; subst. exact T2.
Qed.
Lemma a_write_consts c mp m n e mp' e' : cfg_wf c -> shape c mp -> a_write c mp m n e = Ok (mp', e') -> same_consts mp mp'.
Proof.
  intros Hw Hs H. apply sc_analog.
  exact (proj1 (proj2 (proj1 (tri_any _ _) (a_write_tri anyfail harmless_any c mp m n e Hw Hs (or_introl (fun _ => I))) _ H))).
Qed.
Lemma xwrite_consts c x mat m n e x' e' : xok c x -> cfg_wf c -> xwrite c x mat m n e = Ok (x', e') ->
  same_consts (xm x) (xm x').
Proof.
  intros Hx Hw H. destruct (xwrite_parts _ _ _ _ _ _ _ _ Hx Hw H) as (mp1 & _ & S1 & S2 & T).
  eapply sc_trans; [apply sc_digital; exact S2|]. destruct (digital_only c).
  - destruct T as [-> _]. apply sc_refl.
  - eapply a_write_consts; eauto.
Qed.
Lemma rd_update_consts c rp rm mp r mp' r' : rd_update c rp rm mp r = Ok (mp', r') -> same_consts mp mp'.
Proof.
  unfold rd_update. intros H. inv_as H t T. destruct t as [ip b]. destruct (mp_diff mp).
  - inv_as H t T2. destruct t as [im b2]. inversion H; subst. repeat split.
  - inversion H; subst. repeat split.
Qed.
Lemma cell_refresh_consts c mp r e mp' r' cnt e' : cell_refresh c mp r e = Ok (mp', r', cnt, e') -> same_consts mp mp'.
Proof.
  unfold cell_refresh. intros H. inv_as H t T. destruct t as [[[[a b] d] f] k]. destruct (mp_diff mp).
  - inv_as H t T2. destruct t as [[[[a2 b2] d2] f2] k2]. inversion H; subst. repeat split.
  - inversion H; subst. repeat split.
Qed.
Lemma rd_step_consts c x m n e x' e' : cfg_wf c -> xok c x -> read_disturb c = true -> rd_step c x m n e = Ok (x', e') ->
  same_consts (xm x) (xm x').
Proof.
  intros Hw Hx Hr H. pose proof (xo_shape _ _ Hx) as Hs. destruct (mitigation c) eqn:Em.
  - apply rd_step_soft in H; [|exact Em]. destruct H as [_ H]. split_if H.
    + destruct H as (r & mp1 & r1 & R1 & HU & H). cbv zeta in H.
      destruct (rd_update_cells _ _ _ _ _ _ _ Hs (xo_rd _ _ Hx _ R1) HU) as (_ & Hs1 & _).
      apply rd_update_consts in HU. split_if H.
      * unfold soft_refresh in H. inv_as H t T. destruct t as [up k]. inv_as H t T2. destruct t as [um k2].
        inv_as H r2 T3. inv_as H t T4. destruct t as [mp2 e2]. inversion H; subst. cbn.
        eapply sc_trans; [exact HU|]. eapply a_write_consts; [exact Hw|exact Hs1|exact T4].
      * destruct H as [-> _]. exact HU.
    + destruct H as [-> _]. apply sc_refl.
  - apply rd_step_cell in H; [|exact Em]. destruct H as (r & r1 & R1 & HU & _ & H). split_if H.
    + destruct H as (mp1 & r2 & mp2 & r3 & cnt & U1 & U2 & ->). cbn.
      eapply sc_trans; [eapply rd_update_consts; exact U1|eapply cell_refresh_consts; exact U2].
    + destruct H as [-> _]. apply sc_refl.
  - apply rd_step_off in H; [|exact Em]. destruct H as (_ & _ & H). split_if H; [|subst; apply sc_refl].
    destruct H as (r & mp1 & r1 & R1 & HU & ->). apply rd_update_consts in HU. exact HU.
Qed.
Lemma xmvm_consts c x res vec mat m n l e r x' e' : xok c x -> cfg_wf c ->
  xmvm c x res vec mat m n l e = Ok (r, x', e') -> same_consts (xm x) (xm x').
Proof.
  intros Hx Hw H. unfold xmvm in H. cbv zeta in H. pose proof (xo_shape _ _ Hx) as Hs.
  set (x0 := x <|n_mvm := n_mvm x + 1|> <|n_read := n_read x + 1|>) in H. change (xm x0) with (xm x) in H.
  destruct (digital_only c).
  - inv_as H t T. destruct t as [r1 mp1]. inversion H; subst. cbn. apply sc_keeps.
    exact (proj1 (proj2 (proj1 (tri_any _ _) (d_mvm_tri anyfail harmless_any c (xm x) res vec mat m n Hw Hs (or_introl I)) _ T))).
  - inv_as H t T. destruct t as [mp1 e1].
    assert (A1 : shape c mp1 /\ same_consts (xm x) mp1).
    { destruct (c2c_var c).
      - pose proof (proj1 (tri_any _ _) (add_c2c_tri anyfail harmless_any c (xm x) m n e Hs (or_introl (fun _ => I))) _ T) as (S1 & S2 & _).
        auto using sc_analog.
      - inversion T; subst. auto using sc_refl. }
    destruct A1 as (S1 & C1). inv_as H u U. destruct u as [[r1 mp2] e2].
    pose proof (proj1 (tri_any _ _) (a_mvm_tri anyfail harmless_any c mp1 res vec mat m n l e1 S1 (or_introl (fun _ => I))) _ U) as (S2 & K2 & _).
    inv_as H mp3 V.
    assert (A3 : shape c mp3 /\ same_consts mp2 mp3).
    { destruct (c2c_var c).
      - pose proof (proj1 (tri_any _ _) (remove_c2c_tri anyfail c mp2 m n S2 (or_introl (fun _ => I))) _ V) as (S3 & S4 & _).
        auto using sc_analog.
      - inversion V; subst. auto using sc_refl. }
    destruct A3 as (S3 & C3). inv_as H q Q. destruct q as [x4 e4]. inversion H; subst r1 x4 e4; clear H.
    assert (C4 : same_consts (xm x) mp3) by (eapply sc_trans; [exact C1|eapply sc_trans; [apply sc_keeps; exact K2|exact C3]]).
    destruct (read_disturb c) eqn:Er.
    + assert (Hx3 : xok c (x0 <| xm := mp3 |>)) by (constructor; [exact S3|apply Hx|apply Hx]).
      apply rd_step_consts in Q; auto. eapply sc_trans; [exact C4|exact Q].
    + inversion Q; subst. exact C4.
Qed.

(** What construction computed. *)
Definition built (c : config) (x : xbar) : Prop :=
  let imm := if digital_only c then None else Some (fsub (LRS c) (HRS c)) in
  i_mm (xm x) = imm /\
  (uses_shift (m_mode c) = true -> step_sizes c imm = Ok (i_step (xm x))) /\
  (m_mode c = I_UINT_W_OFFS -> delta_of c imm = Ok (delta (xm x))).
Lemma reach_built w x : reach w -> wx w = Some x -> built (wcfg w) x.
Proof.
  apply (reach_Q built).
  - intros c y _ _ H. unfold xbar_new in H. inv_as H mp A. inversion H; subst; clear H. cbn.
    unfold mapper_new in A. cbv zeta in A. inv_as A a Ha. inv_as A ps Hps. inv_as A st Hst. inv_as A dl Hdl.
    inversion A; subst; clear A. unfold built. cbn. split; [reflexivity|]. split.
    + intros E. now rewrite E in Hst.
    + intros E. now rewrite E in Hdl.
  - intros c c' y _ _ HC _ HQ. unfold built in *. destruct HC as (i & v & d2 & c2 & bs & wr & p & ->). exact HQ.
  - intros c y mat m n e y' e' _ Hw Hy _ (Q1 & Q2 & Q3) H.
    destruct (xwrite_consts _ _ _ _ _ _ _ _ Hy Hw H) as (E1 & E2 & E3). unfold built. rewrite E1, E2, E3. now split.
  - intros c y res vec mat m n l e r y' e' _ Hw Hy _ (Q1 & Q2 & Q3) H.
    destruct (xmvm_consts _ _ _ _ _ _ _ _ _ _ _ _ Hy Hw H) as (E1 & E2 & E3). unfold built. rewrite E1, E2, E3. now split.
Qed.

(** ** A write without noise succeeds *)
Lemma tri_put_quiet c gd i j ia ia0 k : wf2 (rowsN c) (colsN c) gd -> wf2 (rowsN c) (colsN c) ia ->
  wf2 (rowsN c) (colsN c) ia0 -> (i < rowsN c)%nat -> (j < colsN c)%nat -> 0 <= at_z gd i j <= 1 ->
  tri never (fun '(a, b, _) => wf2 (rowsN c) (colsN c) a /\ wf2 (rowsN c) (colsN c) b) (put_noisy c gd i j (ia, ia0, k)).
Proof.
  intros Hg Ha Hb Hi Hj H01. unfold put_noisy.
  rewrite (get2_ok 0 (rowsN c) (colsN c)) by auto. cbn [bind].
  apply (tri_bind never (fun _ => True)).
  { unfold add_noise. assert (at_z gd i j = 0 \/ at_z gd i j = 1) as [-> | ->] by lia; cbn; destruct (fle _ _); exact I. }
  intros [x k'] _.
  apply (tri_bind never (wf2 (rowsN c) (colsN c))). { apply tri_set2; auto. } intros a' Ha'.
  apply (tri_bind never (wf2 (rowsN c) (colsN c))). { apply tri_set2; auto. } intros b' Hb'. now cbn.
Qed.
Lemma a_write_xnn_ok c both mp m n e : shape c mp -> (m <= rowsN c)%nat -> (n <= colsN c)%nat ->
  (forall i j, (i < m)%nat -> (j < n)%nat -> 0 <= at_z (gd_p mp) i j <= 1 /\ 0 <= at_z (gd_m mp) i j <= 1) ->
  exists r, a_write_xnn c both mp m n e = Ok r.
Proof.
  intros Hs Hm Hn H01.
  destruct (tri_never (fun _ => True) (a_write_xnn c both mp m n e)) as (a & E & _); [|eauto].
  unfold a_write_xnn.
  apply (tri_bind never (fun '(a, a0, b, b0, _) => wf2 (rowsN c) (colsN c) a /\ wf2 (rowsN c) (colsN c) a0 /\
    wf2 (rowsN c) (colsN c) b /\ wf2 (rowsN c) (colsN c) b0)).
  2: { intros [[[[a a0] b] b0] k] _. exact I. }
  apply tri_loop. { repeat split; apply Hs. } intros i st Hi Hst.
  apply tri_loop; auto. intros j [[[[a a0] b] b0] k] Hj (Ha & Ha0 & Hb & Hb0).
  eapply (tri_bind never). { apply tri_put_quiet; auto; [apply Hs|lia|lia|now apply H01]. }
  intros [[a' a0'] k'] [Ha' Ha0']. destruct both; [|now cbn].
  eapply (tri_bind never). { apply tri_put_quiet; auto; [apply Hs|lia|lia|now apply H01]. }
  intros [[b' b0'] k2] [Hb' Hb0']. now cbn.
Qed.

(** Currents of the integer modes: all rows of all segments. *)
Lemma a_write_int_ok c both mp m n (st : nat -> F) : shape c mp -> is_int (m_mode c) = true ->
  (m <= MM c)%nat -> (n <= colsN c)%nat -> (1 <= nsplit c)%nat ->
  (forall q, (q < nsplit c)%nat -> nth q (i_step mp) None = Some (st q)) ->
  exists mp', a_write_int c both mp m n = Ok mp' /\
    (exists ip im, mp' = mp <| ia_p := ip |> <| ia_m := im |>) /\
    (forall i j, (i < m * nsplit c)%nat -> (j < n)%nat ->
      at_f (ia_p mp') i j = level (at_z (gd_p mp) i j) (st (i mod nsplit c)%nat) (HRS c) /\
      (both = true -> at_f (ia_m mp') i j = level (at_z (gd_m mp) i j) (st (i mod nsplit c)%nat) (HRS c))) /\
    (forall i j, inside (m * nsplit c) n i j = false ->
      at_f (ia_p mp') i j = at_f (ia_p mp) i j /\ at_f (ia_m mp') i j = at_f (ia_m mp) i j).
Proof.
  intros Hs Hi Hm Hn H1 Hst. unfold a_write_int.
  assert (En : nseg mp = nsplit c) by (rewrite (sh_nseg _ _ Hs); unfold uses_shift; now rewrite Hi). rewrite En.
  assert (HR : (m * nsplit c <= rowsN c)%nat) by (unfold rowsN; nia).
  set (body := fun (i j : nat) '(ip, im) =>
        g <- get2 (gd_p mp) i j ;;
        ip <- set2 ip i j (level g (st (i mod nsplit c)%nat) (HRS c)) ;;
        if both then
          h <- get2 (gd_m mp) i j ;;
          im <- set2 im i j (level h (st (i mod nsplit c)%nat) (HRS c)) ;;
          Ok (ip, im)
        else Ok (ip, im)).
  assert (Eq : forall s, forN (m * nsplit c) (fun i st0 =>
      o <- get (i_step mp) (i mod nsplit c)%nat ;;
      forN n (fun j '(ip, im) =>
        stp <- use o ;;
        g <- get2 (gd_p mp) i j ;;
        ip <- set2 ip i j (level g stp (HRS c)) ;;
        if both then
          h <- get2 (gd_m mp) i j ;;
          im <- set2 im i j (level h stp (HRS c)) ;;
          Ok (ip, im)
        else Ok (ip, im)) st0) s = forN (m * nsplit c) (fun i => forN n (body i)) s).
  { intros s. apply forN_ext. intros i t Hlt.
    assert (Hq : (i mod nsplit c < nsplit c)%nat) by (apply Nat.mod_upper_bound; lia).
    rewrite (get_ok (i_step mp) (i mod nsplit c) None) by now rewrite (sh_step _ _ Hs). cbn [bind].
    rewrite Hst by auto. apply forN_ext. intros j [ip im] Hj. reflexivity. }
  rewrite Eq. clear Eq.
  set (I := fun '(a, b) => @wf2 F (rowsN c) (colsN c) a /\ @wf2 F (rowsN c) (colsN c) b).
  assert (HB : forall i j s, (i < m * nsplit c)%nat -> (j < n)%nat -> I s -> exists s', body i j s = Ok s' /\
     s' = (upd2 (fst s) i j (level (at_z (gd_p mp) i j) (st (i mod nsplit c)%nat) (HRS c)),
           if both then upd2 (snd s) i j (level (at_z (gd_m mp) i j) (st (i mod nsplit c)%nat) (HRS c)) else snd s)).
  { intros i j [a b] Hlt Hj [Ha Hb]. eexists. split; [|reflexivity]. unfold body. cbn [fst snd].
    rewrite (get2_ok 0 (rowsN c) (colsN c)) by (try apply Hs; lia). cbn [bind].
    rewrite (set2_ok (rowsN c) (colsN c)) by (auto; lia). cbn [bind]. destruct both; [|reflexivity].
    rewrite (get2_ok 0 (rowsN c) (colsN c)) by (try apply Hs; lia). cbn [bind].
    rewrite (set2_ok (rowsN c) (colsN c)) by (auto; lia). reflexivity. }
  assert (HI : forall i j s s', (i < m * nsplit c)%nat -> (j < n)%nat -> I s -> body i j s = Ok s' -> I s').
  { intros i j [a b] s' Hlt Hj Hs0 E. destruct (HB i j (a, b) Hlt Hj Hs0) as (s1 & E1 & ->). rewrite E1 in E.
    inversion E; subst; clear E E1. destruct Hs0 as [Ha Hb]. cbn [fst snd]. split; [apply wf2_upd2; auto; lia|].
    destruct both; auto. apply wf2_upd2; auto; lia. }
  assert (HT : exists s', forN (m * nsplit c) (fun i => forN n (body i)) (ia_p mp, ia_m mp) = Ok s' /\ I s').
  { apply tri_never. apply tri_loop. { split; apply Hs. } intros i s Hlt Hs0. apply tri_loop; auto.
    intros j s1 Hj Hs1. destruct (HB i j s1 Hlt Hj Hs1) as (s2 & E2 & _). rewrite E2. cbn. eapply HI; eauto. }
  destruct HT as ([ip im] & E & _). rewrite E. cbn [bind]. eexists. split; [reflexivity|]. split; [eauto|].
  cbn.
  pose proof (grid (S := list (list F) * list (list F)) (fun i j '(a, b) => (at_f a i j, at_f b i j)) I
    (fun i j _ v => fst v = level (at_z (gd_p mp) i j) (st (i mod nsplit c)%nat) (HRS c) /\
       (both = true -> snd v = level (at_z (gd_m mp) i j) (st (i mod nsplit c)%nat) (HRS c))) _ _ _ _ _ E) as HG.
  cbn beta in HG.
  assert (HG' : I (ip, im) /\ forall i j, if inside (m * nsplit c) n i j then
       fst (at_f ip i j, at_f im i j) = level (at_z (gd_p mp) i j) (st (i mod nsplit c)%nat) (HRS c) /\
       (both = true -> snd (at_f ip i j, at_f im i j) = level (at_z (gd_m mp) i j) (st (i mod nsplit c)%nat) (HRS c))
     else (at_f ip i j, at_f im i j) = (at_f (ia_p mp) i j, at_f (ia_m mp) i j)).
  { apply HG; [|split; apply Hs]. intros a b s1 s2 Hla Hlb Hs1 E1.
    split; [eapply HI; eauto|]. destruct (HB a b s1 Hla Hlb Hs1) as (s3 & E3 & E4). rewrite E3 in E1. inversion E1; subst s2; clear E1.
    subst s3. destruct s1 as [a1 b1]. destruct Hs1 as [W1 W2]. cbn [fst snd]. split.
    - rewrite (at2_upd2 _ (rowsN c) (colsN c)) by (auto; lia). rewrite !Nat.eqb_refl. cbn [andb]. split; [reflexivity|].
      intros ->. rewrite (at2_upd2 _ (rowsN c) (colsN c)) by (auto; lia). now rewrite !Nat.eqb_refl.
    - intros a2 b2 Hne. f_equal.
      + rewrite (at2_upd2 _ (rowsN c) (colsN c)) by (auto; lia). now rewrite Hne.
      + destruct both; [|reflexivity]. rewrite (at2_upd2 _ (rowsN c) (colsN c)) by (auto; lia). now rewrite Hne. }
  destruct HG' as [_ HG']. split.
  2: { intros i j Hij. specialize (HG' i j). rewrite Hij in HG'. injection HG' as H3 H4. auto. }
  intros i j Hlt Hj. specialize (HG' i j). unfold inside in HG'.
  replace ((i <? m * nsplit c)%nat && (j <? n)%nat) with true in HG' by lia. exact HG'.
Qed.
End G.
