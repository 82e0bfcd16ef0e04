(** C60: updates that throw. *)
From Coq Require Import String List ZArith Bool Arith Lia ZifyBool ZifyNat.
From RecordUpdate Require Import RecordSet.
From Verif Require Import Base Lib Hoare Machine Json Config Histogram Adc ReadDisturb Parasitics Mapper Crossbar Api
  ConfigProofs CfgProps Shape AnaShape Reach DigApi Invar StoreProps Spec ApiProps DocSpec DocProps NoDie.
Import ListNotations RecordSetNotations.
Ltac Zify.zify_post_hook ::= idtac.
Local Open Scope Z_scope.
Local Open Scope out_scope.
Notation len := List.length.

(** Modes whose writes store the sum of every row (mapper.cpp:121-191). *)
Definition stores_sums (m : mode) : bool :=
  match m with I_UINT_W_OFFS | BNN_III | BNN_IV | TNN_IV | TNN_V => false | _ => true end.

Section TU.
Context {MC : Machine}.

Lemma new_throws c : xbar_new c = Threw -> digital_only c = false /\ parasitics c = true /\ m_mode c = I_TC_W_DIFF.
Proof.
  intros H. unfold xbar_new in H. destruct (mapper_new c) eqn:E; cbn [bind] in H; try discriminate. clear H.
  unfold mapper_new in E. cbv zeta in E.
  assert (NA : nd (adc_new c (adc_type c))).
  { unfold adc_new. destruct (d_trunc _) as [z|]; [|split; discriminate]. destruct (in32 z); [|split; discriminate].
    destruct (adc_type c); try (split; discriminate). apply nd_bind; [apply nd_chk32|intros; apply nd_Ok]. }
  destruct (nd_cases _ NA) as [[a A]|[f A]]; rewrite A in E; cbn [bind] in E; [|discriminate].
  destruct (negb (digital_only c) && parasitics c) eqn:B.
  - apply andb_prop in B. destruct B as [B1 B2]. split; [now apply negb_true_iff|]. split; [exact B2|].
    destruct (m_mode c) eqn:Em; try reflexivity; exfalso; revert E; unfold par_new; rewrite Em; cbn [wenc_of bind];
      intros E;
      match type of E with ?t = Threw => assert (N : nd t); [|destruct N; congruence] end;
      repeat first [apply nd_Ok | apply nd_ones | apply nd_mul32 | apply nd_get | apply nd_shl32 | apply nd_chk32 | apply nd_mapM; intros | apply nd_forN; intros | apply nd_bind; [|intros]
        | match goal with |- nd (if ?b then _ else _) => destruct b end | unfold step_sizes | unfold delta_of | unfold mul32].
  - exfalso. cbn [bind] in E.
    match type of E with ?t = Threw => assert (N : nd t); [|destruct N; congruence] end.
    repeat first [apply nd_Ok | apply nd_ones | apply nd_get | apply nd_shl32 | apply nd_chk32 | apply nd_mapM; intros | apply nd_forN; intros | apply nd_bind; [|intros]
        | match goal with |- nd (if ?b then _ else _) => destruct b | |- nd (match ?b with _ => _ end) => destruct b end | unfold step_sizes | unfold delta_of | unfold mul32].
Qed.

Lemma throwing_update w x l w' : wx w = Some x -> NoDup (map fst l) ->
  step w (UpdateConfig (UJson (JObj l))) = Ok (w', RExc) ->
  wx w' = Some x /\ wenv w' = wenv w /\
  digital_only (wcfg w') = false /\ parasitics (wcfg w') = true /\ m_mode (wcfg w') = I_TC_W_DIFF /\
  merged same_value (wdata w) (JObj l) (wdata w') /\
  (typed (wdata w) -> typed (JObj l) -> says (wdata w') (wcfg w')).
Proof.
  intros Hx ND H. assert (X : ~ Forall (same_value (wdata w)) l).
  { intros F. assert (F' : Forall (fun kv => In (fst kv) structural_keys -> same_value (wdata w) kv) (jitems (JObj l))).
    { cbn [jitems]. eapply Forall_impl; [|exact F]. auto. }
    destruct (update_keeps w x (JObj l) w' RExc Hx ND F' H) as [E _]. discriminate E. }
  destruct (update_says w x l w' RExc Hx ND X H) as (M1 & M2 & _).
  cbn [step] in H. unfold update_config in H. rewrite Hx in H. inv_as H p P. destruct p as [[[j c] up] rc]. cbv zeta in H.
  destruct (up && rc); [|discriminate H].
  unfold replace_xbar in H. cbn [wcfg] in H. change (wcfg (w <| wdata := j |> <| wcfg := c |>)) with c in H.
  destruct (xbar_new c) as [x'| | |] eqn:Ex; try discriminate H.
  - inv_as H v V. discriminate H.
  - inversion H; subst w'. destruct (new_throws _ Ex) as (D & Pa & Md). exact (conj Hx (conj eq_refl (conj D (conj Pa (conj Md (conj M1 M2)))))). 
Qed.

(** ** Writes beyond the crossbar *)
Lemma not_too_big c m n : dims_in c m n -> too_big c m n = false.
Proof.
  intros ((H1 & H2) & H3 & H4). unfold too_big, u32.
  pose proof (Z.mod_le m (2 ^ 32) H1 ltac:(lia)). pose proof (Z.mod_le n (2 ^ 32) H3 ltac:(lia)). lia.
Qed.
Lemma forN_len {S} (L : S -> nat) m (body : nat -> S -> out S) : forall s s',
  (forall k s s', (k < m)%nat -> body k s = Ok s' -> L s' = L s /\ (k < L s)%nat) ->
  forN m body s = Ok s' -> L s' = L s /\ (m <= L s)%nat.
Proof.
  induction m as [|m IH]; intros s s' HB H; [inversion H; subst; split; [auto|lia]|].
  cbn [forN] in H. inv_as H t T. destruct (IH s t) as [E1 E2]; [intros; eapply HB; eauto; lia|exact T|].
  destruct (HB m t s' ltac:(lia) H). split; [congruence|lia].
Qed.
Lemma sum_rows put mat m n gp gm sw st' : write_sum put mat m n (gp, gm, sw) = Ok st' -> (m <= len sw)%nat.
Proof.
  intros H. unfold write_sum in H. apply (forN_len (fun st : cells => len (snd st))) in H; [apply H|].
  intros k [[a b] s] s' Hk E. inv_as E t T. destruct t as [[a1 b1] sm]. inv_as E u U. inversion E; subst. cbn [snd].
  apply set_inv in U. destruct U as [U1 ->]. now rewrite upd_length.
Qed.
Lemma too_tall c mp mat m n mp' : stores_sums (mp_mode mp) = true -> d_write c mp mat m n = Ok mp' -> (m <= len (sum_w mp))%nat.
Proof.
  intros Hs H. unfold d_write in H. cbv zeta in H. inv_as H t T. clear H.
  destruct (mp_mode mp); try discriminate Hs; unfold d_write_diff, d_write_diff_xnn in T; eapply sum_rows; exact T.
Qed.
Lemma tall_write w x mat m n w' : wx w = Some x -> stores_sums (mp_mode (xm x)) = true -> Z.of_nat (len (sum_w (xm x))) < m ->
  dims_in (wcfg w) m n -> forall r, step w (CpyMtrx mat m n) <> Ok (w', r).
Proof.
  intros Hx Hs Hm HD r H. cbn [step] in H. unfold cpy_mtrx in H. rewrite Hx in H. rewrite (not_too_big _ _ _ HD) in H.
  inv_as H d D. destruct d as [p q].
  assert (p = Z.to_nat m) as ->. { unfold dims in D. destruct (_ || _) in D; [discriminate|]. now inversion D. }
  inv_as H t T. unfold xwrite in T. cbv zeta in T. inv_as T u U.
  assert (exists mp', d_write (wcfg w) (xm x) mat (Z.to_nat m) q = Ok mp') as [mp' W].
  { destruct (read_disturb (wcfg w)); inv_as U v V; exists v; exact V. }
  apply too_tall in W; [lia|exact Hs].
Qed.
Lemma after_throw w x l w' mat m n : reach w -> wx w = Some x -> NoDup (map fst l) ->
  step w (UpdateConfig (UJson (JObj l))) = Ok (w', RExc) ->
  stores_sums (m_mode (wcfg w)) = true -> M (wcfg w) < m -> dims_in (wcfg w') m n ->
  forall w1 r, step w' (CpyMtrx mat m n) <> Ok (w1, r).
Proof.
  intros Hr Hx ND H Hs Hm HD w1 r. destruct (throwing_update w x l w' Hx ND H) as (X & _).
  pose proof (reach_good w Hr) as Hg. pose proof (xo_shape _ _ (g_x _ Hg x Hx)) as Hsh.
  apply (tall_write w' x); [exact X|now rewrite (sh_mode _ _ Hsh)| |exact HD]. rewrite (sh_sw _ _ Hsh). pose proof (proj1 (good_nonneg w Hg)). lia.
Qed.
Lemma wireless_write w x l w' mat m n : wx w = Some x -> NoDup (map fst l) ->
  step w (UpdateConfig (UJson (JObj l))) = Ok (w', RExc) -> par (xm x) = None -> dims_in (wcfg w') m n ->
  forall w1 r, step w' (CpyMtrx mat m n) <> Ok (w1, r).
Proof.
  intros Hx ND H HP HD w1 r K. destruct (throwing_update w x l w' Hx ND H) as (X & _ & Hd & Hpa & _).
  cbn [step] in K. unfold cpy_mtrx in K. rewrite X in K. rewrite (not_too_big _ _ _ HD) in K.
  inv_as K d D. destruct d as [p q]. inv_as K t T. clear K. unfold xwrite in T. cbv zeta in T. rewrite Hd in T. inv_as T u U.
  assert (PU : par (xm u) = None).
  { assert (K : forall mp', d_write (wcfg w') (xm x) mat p q = Ok mp' -> par mp' = None).
    { intros mp' E. unfold d_write in E. cbv zeta in E. inv_as E a A. destruct a as [[? ?] ?]. inversion E. exact HP. }
    destruct (read_disturb (wcfg w')); inv_as U v V; apply K in V.
    - inv_as U a1 A1. inv_as U a2 A2. inv_as U a3 A3. inv_as U a4 A4. inv_as U a5 A5. inversion U. exact V.
    - inversion U. exact V. }
  inv_as T v V. clear T. unfold a_write in V. cbv zeta in V. inv_as V y Y. destruct y as [mp e]. rewrite Hpa in V.
  assert (PM : par mp = None).
  { destruct (is_int _).
    - inv_as Y z Z. inversion Y; subst. unfold a_write_int in Z. inv_as Z a A. destruct a. inversion Z. exact PU.
    - unfold a_write_xnn in Y. inv_as Y a A. repeat destruct a as [a ?]. inversion Y. exact PU. }
  rewrite PM in V. cbn [set_conductance] in V. destruct (mp_mode mp); discriminate V.
Qed.
End TU.
