(** Proofs of the property theorems of P_Api.v. *)
From Coq Require Import List ZArith Bool Arith Lia ZifyBool ZifyNat String.
From RecordUpdate Require Import RecordSet.
From Verif Require Import Base Lib Hoare Machine Json Config Histogram Adc ReadDisturb Parasitics
  Mapper IntMappers BnnMappers TnnMappers Crossbar Api WriteProofs Shape MvmShape AnaShape ConfigProofs
  Reach Spec DigApi Demo DigProps.
Import ListNotations RecordSetNotations.
Local Open Scope Z_scope.
Local Open Scope out_scope.

Section P.
Context {MC : Machine}.
Notation len := List.length.

(** ** C08 *)
Lemma mat_ignored : forall w res vec mat mat' m n l,
  step w (ExeMvm res vec mat m n l) = step w (ExeMvm res vec mat' m n l) /\
  step w (PyMvm res vec mat m n) = step w (PyMvm res vec mat' m n).
Proof.
  assert (H : forall c x res vec mat mat' m n l e,
    xmvm c x res vec mat m n l e = xmvm c x res vec mat' m n l e).
  { intros. unfold xmvm. destruct (digital_only c).
    - unfold d_mvm. now destruct (mp_mode _).
    - f_equal. }
  intros. cbn [step]. unfold exe_mvm, py_mvm. split.
  - destruct (wx w); [|reflexivity]. destruct (too_big _ _ _); [reflexivity|].
    destruct (dims m n) as [[a b]| | |]; cbn [bind]; try reflexivity; now rewrite (H _ _ _ _ mat mat').
  - destruct (deref (wx w)); cbn [bind]; try reflexivity;
    destruct (dims m n) as [[a0 b]| | |]; cbn [bind]; try reflexivity; now rewrite (H _ _ _ _ mat mat').
Qed.

(** ** C10 *)
Lemma u32_neg m : - 2 ^ 31 <= m < 0 -> 2 ^ 31 <= u32 m.
Proof. intros H. unfold u32. change (2 ^ 31) with 2147483648 in *. change (2 ^ 32) with 4294967296. lia. Qed.
Lemma too_big_spec c m n : - 2 ^ 31 <= m < 2 ^ 31 -> - 2 ^ 31 <= n < 2 ^ 31 ->
  M c < 2 ^ 31 -> N c < 2 ^ 31 -> too_big c m n = false <-> dims_in c m n.
Proof.
  intros Hm Hn HM HN. unfold too_big, dims_in.
  assert (A : forall k, - 2 ^ 31 <= k < 2 ^ 31 -> (0 <= k -> u32 k = k) /\ (k < 0 -> 2 ^ 31 <= u32 k)).
  { intros k Hk. split; intros; [apply u32_id; change (2 ^ 32) with 4294967296; change (2 ^ 31) with 2147483648 in *; lia|].
    apply u32_neg. lia. }
  destruct (A m Hm) as [A1 A2]. destruct (A n Hn) as [A3 A4]. clear A.
  destruct (Z_lt_le_dec m 0) as [D1|D1]; destruct (Z_lt_le_dec n 0) as [D2|D2];
    rewrite ?A1, ?A3 by lia; try specialize (A2 D1); try specialize (A4 D2); rewrite ?A1, ?A3 by lia; lia.
Qed.

Lemma guard : forall w x m n, wx w = Some x ->
  - 2 ^ 31 <= m < 2 ^ 31 -> - 2 ^ 31 <= n < 2 ^ 31 -> M (wcfg w) < 2 ^ 31 -> N (wcfg w) < 2 ^ 31 ->
  (~ dims_in (wcfg w) m n ->
     (forall mat, step w (CpyMtrx mat m n) = Ok (w, RCode (-1))) /\
     (forall res vec mat l, step w (ExeMvm res vec mat m n l) = Ok (w, RRes (-1) res))) /\
  (dims_in (wcfg w) m n ->
     (forall mat w' r, step w (CpyMtrx mat m n) = Ok (w', r) -> r = RCode 0) /\
     (forall res vec mat l w' r, step w (ExeMvm res vec mat m n l) = Ok (w', r) -> exists r', r = RRes 0 r')).
Proof.
  intros w x m n Hx Hm Hn HM HN. pose proof (too_big_spec (wcfg w) m n Hm Hn HM HN) as T.
  cbn [step]. unfold cpy_mtrx, exe_mvm. rewrite Hx. split; intros D.
  - destruct (too_big (wcfg w) m n); [auto|]. exfalso. apply D, T, eq_refl.
  - apply T in D. rewrite D. split.
    + intros mat w' r H. inv_as H d Ed. destruct d. inv_as H y Ey. destruct y. now inversion H.
    + intros res vec mat l w' r H. inv_as H d Ed. destruct d. inv_as H y Ey. destruct y as [[? ?] ?].
      inversion H. eauto.
Qed.

(** ** C11 *)
Lemma no_xbar : forall w, wx w = None ->
  (forall res vec mat m n l, step w (ExeMvm res vec mat m n l) = Ok (w, RRes (-1) res)) /\
  (forall mat m n, step w (CpyMtrx mat m n) = Ok (w, RCode (-1))) /\
  (forall u, step w (UpdateConfig u) = Ok (w, RCode (-1))) /\
  (forall q, step w (GetMat q) = Died) /\ (forall p, step w (GetIa p) = Died) /\
  (forall q, step w (GetNum q) = Died) /\ step w GetOob = Died.
Proof.
  intros w H. cbn [step]. unfold exe_mvm, cpy_mtrx, update_config, checked. rewrite H. repeat split.
Qed.

(** ** C12 *)
Lemma rd_step_reads c x m n e x' e' : rd_step c x m n e = Ok (x', e') ->
  (n_read x' = n_read x /\ n_refresh x' = n_refresh x) \/ (n_read x' = 0 /\ n_refresh x' = n_refresh x + 1).
Proof.
  unfold rd_step. intros H. destruct (mitigation c).
  - inv_as H u U. destruct u; [|inversion H; auto].
    inv_as H r R. inv_as H p P. destruct p as [mp' r']. destruct (check_refresh _ _ _ _) as [need r2].
    destruct need; [|inversion H; auto].
    unfold soft_refresh in H. inv_as H a A. destruct a. inv_as H b B. destruct b.
    inv_as H d D. inv_as H f Ff. destruct f. inversion H; subst. right. cbn. auto.
  - inv_as H r R. inv_as H r1 R1. inv_as H u U. destruct u; [|inversion H; auto].
    inv_as H p P. destruct p. inv_as H q Q. destruct q as [[[? ?] ?] ?]. inversion H; auto.
  - inv_as H u U. destruct u; [|inversion H; auto].
    inv_as H r R. inv_as H p P. destruct p as [mp' r']. inversion H; auto.
Qed.

Lemma xmvm_reads c x res vec mat m n l e r x' e' : xmvm c x res vec mat m n l e = Ok (r, x', e') ->
  (n_read x' = n_read x + 1 /\ n_refresh x' = n_refresh x) \/ (n_read x' = 0 /\ n_refresh x' = n_refresh x + 1).
Proof.
  unfold xmvm. cbv zeta. intros H. destruct (digital_only c).
  - inv_as H p P. destruct p. inversion H; subst. left. auto.
  - inv_as H p P. destruct p. inv_as H q Q. destruct q as [[? ?] ?]. inv_as H s S. inv_as H t T. destruct t as [x9 e9].
    inversion H; subst. destruct (read_disturb c).
    + apply rd_step_reads in T. exact T.
    + inversion T; subst. left. auto.
Qed.
Lemma xmvm_counts c x res vec mat m n l e r x' e' : xmvm c x res vec mat m n l e = Ok (r, x', e') ->
  n_write x' = n_write x /\ n_mvm x' = n_mvm x + 1.
Proof.
  assert (R : forall c x m n e x' e', rd_step c x m n e = Ok (x', e') -> n_write x' = n_write x /\ n_mvm x' = n_mvm x).
  { clear. unfold rd_step. intros c x m n e x' e' H. destruct (mitigation c).
    - inv_as H u U. destruct u; [|inversion H; auto].
      inv_as H r R. inv_as H p P. destruct p as [mp' r']. destruct (check_refresh _ _ _ _) as [need r2].
      destruct need; [|inversion H; auto].
      unfold soft_refresh in H. inv_as H a A. destruct a. inv_as H b B. destruct b.
      inv_as H d D. inv_as H f Ff. destruct f. inversion H; subst. cbn. auto.
    - inv_as H r R. inv_as H r1 R1. inv_as H u U. destruct u; [|inversion H; auto].
      inv_as H p P. destruct p. inv_as H q Q. destruct q as [[[? ?] ?] ?]. inversion H; auto.
    - inv_as H u U. destruct u; [|inversion H; auto].
      inv_as H r R. inv_as H p P. destruct p as [mp' r']. inversion H; auto. }
  unfold xmvm. cbv zeta. intros H. destruct (digital_only c).
  - inv_as H p P. destruct p. inversion H; subst. auto.
  - inv_as H p P. destruct p. inv_as H q Q. destruct q as [[? ?] ?]. inv_as H s S. inv_as H t T. destruct t as [x9 e9].
    inversion H; subst. destruct (read_disturb c).
    + apply R in T. exact T.
    + inversion T; subst. auto.
Qed.
Lemma xwrite_counts c x mat m n e x' e' : xwrite c x mat m n e = Ok (x', e') ->
  n_write x' = n_write x + 1 /\ n_mvm x' = n_mvm x /\ n_read x' = 0 /\ n_refresh x' = n_refresh x.
Proof.
  unfold xwrite. cbv zeta. intros H. inv_as H y Y.
  assert (A : n_write y = n_write x + 1 /\ n_mvm y = n_mvm x /\ n_read y = 0 /\ n_refresh y = n_refresh x).
  { destruct (read_disturb c).
    - inv_as Y a A. inv_as Y b B. inv_as Y d D. inv_as Y f Ff. inv_as Y g G. inv_as Y h Hh. inversion Y; subst. cbn. auto.
    - inv_as Y a A. inversion Y; subst. cbn. auto. }
  destruct (digital_only c); [inversion H; subst; exact A|].
  inv_as H p P. destruct p. inversion H; subst. exact A.
Qed.

(** Effect of one call on the counters. *)
Lemma step_counts w x a w' r : wx w = Some x -> no_create a -> step w a = Ok (w', r) ->
  exists x', wx w' = Some x' /\
    n_write x' = n_write x + (if wrote a r then 1 else 0) /\
    n_mvm x' = n_mvm x + (if multiplied a r then 1 else 0) /\
    n_refresh x <= n_refresh x' /\
    (n_refresh x' = n_refresh x ->
     n_read x' = (if wrote a r then 0 else if multiplied a r then n_read x + 1 else n_read x)).
Proof.
  intros Hx Ha H. destruct a; cbn [step no_create] in *.
  - easy.
  - exists x. unfold update_config in H. rewrite Hx in H. destruct u.
    + inversion H; subst. repeat split; auto; cbn; lia.
    + discriminate.
    + inv_as H p P. destruct p as [[[j' c'] md] rc]. unfold update_cfg in P. inv_as P q Q. destruct q as [[j1 m1] r1].
      apply update_norec in Q; auto. subst r1.
      assert (E : rc = false).
      { destruct m1; [inv_as P c1 C1|]; inversion P; auto. }
      rewrite E, andb_false_r in H. inversion H; subst. cbn. repeat split; auto; lia.
  - unfold cpy_mtrx in H. rewrite Hx in H. destruct (too_big _ _ _).
    + inversion H; subst. exists x. cbn. repeat split; auto; lia.
    + inv_as H d D. destruct d. inv_as H y Y. destruct y. inversion H; subst. apply xwrite_counts in Y.
      eexists. split; [reflexivity|]. cbn. repeat split; try lia.
  - unfold exe_mvm in H. rewrite Hx in H. destruct (too_big _ _ _).
    + inversion H; subst. exists x. cbn. repeat split; auto; lia.
    + inv_as H d D. destruct d. inv_as H y Y. destruct y as [[? ?] ?]. inversion H; subst.
      pose proof (xmvm_counts _ _ _ _ _ _ _ _ _ _ _ _ Y). pose proof (xmvm_reads _ _ _ _ _ _ _ _ _ _ _ _ Y).
      eexists. split; [reflexivity|]. cbn. repeat split; lia.
  - unfold py_mvm in H. rewrite Hx in H. cbn [deref bind] in H.
    inv_as H d D. destruct d. inv_as H y Y. destruct y as [[? ?] ?]. inversion H; subst.
    pose proof (xmvm_counts _ _ _ _ _ _ _ _ _ _ _ _ Y). pose proof (xmvm_reads _ _ _ _ _ _ _ _ _ _ _ _ Y).
    eexists. split; [reflexivity|]. cbn. repeat split; lia.
  - exists x. inv_as H y Y. inv_as H z Zz. inversion H; subst. cbn. repeat split; auto; lia.
  - exists x. inv_as H y Y. inversion H; subst. cbn. repeat split; auto; lia.
  - exists x. inv_as H y Y. inversion H; subst. cbn. repeat split; auto; lia.
  - exists x. inv_as H y Y. inv_as H z Zz. inversion H; subst. cbn. repeat split; auto; lia.
  - exists x. inversion H; subst. cbn. repeat split; auto; lia.
Qed.

Lemma run_counts h : forall w x w' rs, wx w = Some x -> Forall no_create h -> run w h = Ok (w', rs) ->
  exists x', wx w' = Some x' /\
    n_write x' = n_write x + writes (combine h rs) /\
    n_mvm x' = n_mvm x + mvms (combine h rs) /\ n_refresh x <= n_refresh x' /\
    (n_refresh x' = n_refresh x -> n_read x' = reads_since (n_read x) (combine h rs)).
Proof.
  induction h as [|a h IH]; intros w x w' rs Hx HF H; cbn [run] in H.
  - inversion H; subst. exists x. cbn. repeat split; auto; lia.
  - inversion HF as [|? ? Ha HF']; subst. inv_as H p P. destruct p as [w1 r1]. inv_as H q Q. destruct q as [w2 rs2].
    inversion H; subst. destruct (step_counts _ _ _ _ _ Hx Ha P) as (x1 & X1 & A1 & A2 & A3 & A4).
    destruct (IH _ _ _ _ X1 HF' Q) as (x2 & X2 & B1 & B2 & B3 & B4).
    exists x2. split; [exact X2|]. cbn [combine].
    unfold writes, mvms in *. cbn [filter reads_since].
    split; [|split; [|split; [lia|]]].
    + rewrite B1, A1. destruct (wrote a r1); cbn [List.length]; lia.
    + rewrite B2, A2. destruct (multiplied a r1); cbn [List.length]; lia.
    + intros E. rewrite B4, A4 by lia. reflexivity.
Qed.

Lemma xbar_new_blank c x : xbar_new c = Ok x -> blank c x.
Proof.
  unfold xbar_new, mapper_new. cbv zeta. intros H. inv_as H mp Hm. inversion H; subst; clear H.
  inv_as Hm a A. inv_as Hm p P. inv_as Hm s S. inv_as Hm d D. inversion Hm; subst; clear Hm.
  assert (E : rowsN c = Z.to_nat (M c * Z.of_nat (len (SPLIT c))) \/ True) by auto. clear E.
  unfold blank, zeros. cbn [n_write n_mvm n_read n_refresh n_cell xm gd_p gd_m xrd].
  assert (E : Z.to_nat (M c * Z.of_nat (len (SPLIT c))) = rowsN c).
  { unfold rowsN, nsplit. destruct (Z_lt_le_dec (M c) 0); nia. }
  rewrite E. unfold mat2, colsN. repeat split; auto;
    destruct (read_disturb c); inversion H; subst; reflexivity.
Qed.

Lemma replace_blank w r w' r' : replace_xbar w r = Ok (w', r') -> r' <> RExc ->
  r' = r /\ exists x, w' = w <| wx := Some x |> /\ blank (wcfg w) x.
Proof.
  unfold replace_xbar. intros H Hr. destruct (xbar_new (wcfg w)) as [x| | |] eqn:E; try discriminate.
  - inv_as H u U. inversion H; subst. split; auto. exists x. split; auto. now apply xbar_new_blank.
  - inversion H; subst. congruence.
Qed.

Lemma set_config_blank w s w' r : step w (SetConfig s) = Ok (w', r) -> r <> RExc ->
  r = RUnit /\ exists x, wx w' = Some x /\ blank (wcfg w') x.
Proof.
  cbn [step]. unfold set_config. intros H Hr. inv_as H u U. destruct s.
  - apply replace_blank in H; auto. destruct H as (-> & x & -> & B). split; auto. exists x. auto.
  - discriminate.
  - inversion H; subst. congruence.
  - inv_as H c C. apply replace_blank in H; auto. destruct H as (-> & x & -> & B). split; auto. exists x. auto.
Qed.

Lemma counters : forall w0 s w h w' rs,
  step w0 (SetConfig s) = Ok (w, RUnit) -> Forall no_create h -> run w h = Ok (w', rs) ->
  step w' (GetNum NWrite) = Ok (w', RNum (writes (combine h rs))) /\
  step w' (GetNum NMvm) = Ok (w', RNum (mvms (combine h rs))) /\
  exists k, step w' (GetNum NRefresh) = Ok (w', RNum k) /\ 0 <= k /\
    (k = 0 -> step w' (GetNum NRead) = Ok (w', RNum (reads_since 0 (combine h rs)))).
Proof.
  intros w0 s w h w' rs H0 HF H. apply set_config_blank in H0; [|discriminate].
  destruct H0 as (_ & x & Hx & B1 & B2 & B3 & B4 & _).
  destruct (run_counts h _ _ _ _ Hx HF H) as (x' & Hx' & C1 & C2 & C3 & C4).
  cbn [step]. rewrite Hx'. cbn [checked bind get_num]. rewrite C1, C2, B1, B2. rewrite !Z.add_0_l.
  split; [reflexivity|]. split; [reflexivity|]. exists (n_refresh x'). split; [reflexivity|]. split; [lia|].
  intros E. rewrite C4 by lia. now rewrite B3.
Qed.

Lemma counters_step : forall w x a w' r, wx w = Some x -> no_create a -> step w a = Ok (w', r) ->
  exists x', wx w' = Some x' /\
    n_write x' = n_write x + (if wrote a r then 1 else 0) /\
    n_mvm x' = n_mvm x + (if multiplied a r then 1 else 0) /\
    (wrote a r = true -> n_read x' = 0 /\ n_refresh x' = n_refresh x) /\
    (multiplied a r = true -> (n_read x' = n_read x + 1 /\ n_refresh x' = n_refresh x) \/
                              (n_read x' = 0 /\ n_refresh x' = n_refresh x + 1)) /\
    (wrote a r = false -> multiplied a r = false -> x' = x).
Proof.
  intros w x a w' r Hx Ha H. destruct a; cbn [step no_create] in *.
  - easy.
  - exists x. unfold update_config in H. rewrite Hx in H. destruct u.
    + inversion H; subst. repeat split; auto; cbn; try discriminate; lia.
    + discriminate.
    + inv_as H p P. destruct p as [[[j' c'] md] rc]. unfold update_cfg in P. inv_as P q Q. destruct q as [[j1 m1] r1].
      apply update_norec in Q; auto. subst r1.
      assert (E : rc = false).
      { destruct m1; [inv_as P c1 C1|]; inversion P; auto. }
      rewrite E, andb_false_r in H. inversion H; subst. cbn. repeat split; auto; try discriminate; lia.
  - unfold cpy_mtrx in H. rewrite Hx in H. destruct (too_big _ _ _).
    + inversion H; subst. exists x. cbn. repeat split; auto; try discriminate; lia.
    + inv_as H d D. destruct d. inv_as H y Y. destruct y. inversion H; subst. apply xwrite_counts in Y.
      eexists. split; [reflexivity|]. cbn. repeat split; try discriminate; lia.
  - unfold exe_mvm in H. rewrite Hx in H. destruct (too_big _ _ _).
    + inversion H; subst. exists x. cbn. repeat split; auto; try discriminate; lia.
    + inv_as H d D. destruct d. inv_as H y Y. destruct y as [[? ?] ?]. inversion H; subst.
      pose proof (xmvm_counts _ _ _ _ _ _ _ _ _ _ _ _ Y). pose proof (xmvm_reads _ _ _ _ _ _ _ _ _ _ _ _ Y).
      eexists. split; [reflexivity|]. cbn. repeat split; try discriminate; try lia; auto.
  - unfold py_mvm in H. rewrite Hx in H. cbn [deref bind] in H.
    inv_as H d D. destruct d. inv_as H y Y. destruct y as [[? ?] ?]. inversion H; subst.
    pose proof (xmvm_counts _ _ _ _ _ _ _ _ _ _ _ _ Y). pose proof (xmvm_reads _ _ _ _ _ _ _ _ _ _ _ _ Y).
    eexists. split; [reflexivity|]. cbn. repeat split; try discriminate; try lia; auto.
  - exists x. inv_as H y Y. inv_as H z Zz. inversion H; subst. cbn. repeat split; auto; try discriminate; lia.
  - exists x. inv_as H y Y. inversion H; subst. cbn. repeat split; auto; try discriminate; lia.
  - exists x. inv_as H y Y. inversion H; subst. cbn. repeat split; auto; try discriminate; lia.
  - exists x. inv_as H y Y. inv_as H z Zz. inversion H; subst. cbn. repeat split; auto; try discriminate; lia.
  - exists x. inversion H; subst. cbn. repeat split; auto; try discriminate; lia.
Qed.

(** ** C14, C15 *)
Lemma structural_eq : structural_keys = recreation_keys.
Proof. reflexivity. Qed.

Lemma changed_false j k v : same_value j (k, v) ->
  forall r md rc, update_keys ((k, v) :: r) j md rc = update_keys r j md rc.
Proof.
  unfold same_value. cbn [fst snd]. intros H r md rc. cbn [update_keys]. unfold jcontains.
  destruct (jat j k) as [cur|]; [|subst v; reflexivity]. cbn [negb andb]. now rewrite H.
Qed.
Lemma changed_true j k v : ~ same_value j (k, v) ->
  forall r md rc, update_keys ((k, v) :: r) j md rc =
    match jset j k v with
    | Some j' => update_keys r j' true (rc || existsb (String.eqb k) recreation_keys)
    | None => Died
    end.
Proof.
  unfold same_value. cbn [fst snd]. intros H r md rc. cbn [update_keys]. unfold jcontains.
  destruct (jat j k) as [cur|].
  - cbn [negb andb]. destruct (jeqb cur v); [congruence|reflexivity].
  - destruct v; try reflexivity. congruence.
Qed.
Lemma same_value_dec j kv : {same_value j kv} + {~ same_value j kv}.
Proof.
  unfold same_value. destruct (jat j (fst kv)).
  - destruct (jeqb j0 (snd kv)); [left; auto|right; discriminate].
  - destruct (snd kv); auto; right; discriminate.
Qed.
Lemma same_value_other j k v j' kv : jset j k v = Some j' -> fst kv <> k ->
  same_value j' kv <-> same_value j kv.
Proof.
  intros H Hk. unfold same_value. rewrite (jat_jset _ _ _ _ (fst kv) H).
  destruct (String.eqb (fst kv) k) eqn:E; [apply String.eqb_eq in E; congruence|tauto].
Qed.

Lemma upd_noop kvs : forall j md rc, Forall (same_value j) kvs -> update_keys kvs j md rc = Ok (j, md, rc).
Proof.
  induction kvs as [|[k v] r IH]; intros j md rc H; [reflexivity|].
  inversion H; subst. rewrite changed_false by assumption. auto.
Qed.

Lemma forall_other j k v j' r : jset j k v = Some j' -> ~ In k (map fst r) ->
  forall kv, In kv r -> same_value j' kv <-> same_value j kv.
Proof.
  intros Hs Hn kv Hin. eapply same_value_other; eauto. intros E. apply Hn. rewrite <- E. now apply in_map.
Qed.

Lemma upd_result kvs : forall j md rc j' md' rc',
  NoDup (map fst kvs) -> Forall (fun kv => jeqb (snd kv) (snd kv) = true) kvs ->
  update_keys kvs j md rc = Ok (j', md', rc') -> Forall (same_value j') kvs.
Proof.
  induction kvs as [|[k v] r IH]; intros j md rc j' md' rc' ND HR H; [constructor|].
  inversion ND as [|? ? Hn ND']; subst. inversion HR as [|? ? Hv HR']; subst. cbn [fst snd] in *.
  destruct (same_value_dec j (k, v)) as [S|S].
  - rewrite changed_false in H by assumption. pose proof (IH _ _ _ _ _ _ ND' HR' H) as HF.
    constructor; auto. apply update_keys_spec in H. destruct H as (_ & _ & HJ & _).
    unfold same_value in *. cbn [fst snd] in *. rewrite HJ; auto.
    destruct (existsb _ r) eqn:E; auto. apply existsb_exists in E. destruct E as ([k1 v1] & I1 & E1).
    apply String.eqb_eq in E1. exfalso. apply Hn. rewrite E1. now apply in_map.
  - rewrite changed_true in H by assumption. destruct (jset j k v) as [j1|] eqn:Ej; [|discriminate].
    pose proof (IH _ _ _ _ _ _ ND' HR' H) as HF. constructor; auto.
    apply update_keys_spec in H. destruct H as (_ & _ & HJ & _).
    unfold same_value. cbn [fst snd]. rewrite HJ.
    + rewrite (jat_jset _ _ _ _ k Ej), String.eqb_refl. exact Hv.
    + destruct (existsb _ r) eqn:E; auto. apply existsb_exists in E. destruct E as ([k1 v1] & I1 & E1).
      apply String.eqb_eq in E1. exfalso. apply Hn. rewrite E1. now apply in_map.
Qed.

Lemma upd_flags kvs : forall j md rc j' md' rc', NoDup (map fst kvs) ->
  update_keys kvs j md rc = Ok (j', md', rc') ->
  (Exists (fun kv => In (fst kv) structural_keys /\ ~ same_value j kv) kvs -> md' = true /\ rc' = true) /\
  (Forall (fun kv => In (fst kv) structural_keys -> same_value j kv) kvs -> rc' = rc).
Proof.
  rewrite structural_eq.
  induction kvs as [|[k v] r IH]; intros j md rc j' md' rc' ND H.
  - inversion H; subst. split; [intros E; inversion E|auto].
  - inversion ND as [|? ? Hn ND']; subst. cbn [fst] in Hn. destruct (same_value_dec j (k, v)) as [S|S].
    + rewrite changed_false in H by assumption. destruct (IH _ _ _ _ _ _ ND' H) as [A B]. split.
      * intros E. inversion E as [? ? [_ E1]|]; subst; [tauto|auto].
      * intros F. inversion F; auto.
    + rewrite changed_true in H by assumption. destruct (jset j k v) as [j1|] eqn:Ej; [|discriminate].
      destruct (IH _ _ _ _ _ _ ND' H) as [A B].
      pose proof (update_keys_spec _ _ _ _ _ _ _ H) as (_ & _ & _ & U1 & U2). split.
      * intros E. inversion E as [? ? [E1 _]|? ? E1]; subst.
        -- cbn [fst] in E1. apply existsb_key in E1. split; [auto|]. apply U2. rewrite E1. apply orb_true_r.
        -- apply A. rewrite Exists_exists in E1 |- *. destruct E1 as (kv & I1 & I2 & I3). exists kv.
           split; auto. split; auto. rewrite (forall_other _ _ _ _ _ Ej Hn kv I1). exact I3.
      * intros F. inversion F as [|? ? F1 F2]; subst. rewrite B.
        -- destruct (existsb (String.eqb k) recreation_keys) eqn:E; [|apply orb_false_r].
           apply existsb_key in E. exfalso. apply S, F1, E.
        -- rewrite Forall_forall in F2 |- *. intros kv I1 I2. apply (forall_other _ _ _ _ _ Ej Hn kv I1). auto.
Qed.

Lemma world_eta w : w <| wdata := wdata w |> <| wcfg := wcfg w |> = w.
Proof. now destruct w. Qed.

Lemma noop_update : forall w x u, wx w = Some x -> Forall (same_value (wdata w)) (jitems u) ->
  step w (UpdateConfig (UJson u)) = Ok (w, RCode 0).
Proof.
  intros w x u Hx HF. cbn [step]. unfold update_config, update_cfg. rewrite Hx, upd_noop by assumption.
  cbn [bind]. now rewrite world_eta.
Qed.

Lemma update_twice : forall w x u w1, wx w = Some x -> NoDup (map fst (jitems u)) ->
  Forall (fun kv => jeqb (snd kv) (snd kv) = true) (jitems u) ->
  step w (UpdateConfig (UJson u)) = Ok (w1, RCode 0) ->
  step w1 (UpdateConfig (UJson u)) = Ok (w1, RCode 0).
Proof.
  intros w x u w1 Hx ND HR H. cbn [step] in H. unfold update_config in H. rewrite Hx in H.
  inv_as H p P. destruct p as [[[j c] up] rc]. unfold update_cfg in P. inv_as P q Q. destruct q as [[j1 md] rc1].
  pose proof (upd_result _ _ _ _ _ _ _ ND HR Q) as HF.
  assert (Ej : j = j1) by (destruct md; [inv_as P c1 C1|]; now inversion P). subst j1.
  destruct (up && rc)%bool.
  - apply replace_blank in H; [|discriminate]. destruct H as (_ & x1 & -> & _).
    eapply noop_update; [reflexivity|exact HF].
  - inversion H; subst. eapply noop_update; [exact Hx|exact HF].
Qed.

Lemma update_keeps : forall w x u w' r, wx w = Some x -> NoDup (map fst (jitems u)) ->
  Forall (fun kv => In (fst kv) structural_keys -> same_value (wdata w) kv) (jitems u) ->
  step w (UpdateConfig (UJson u)) = Ok (w', r) ->
  r = RCode 0 /\ wx w' = wx w /\ wenv w' = wenv w.
Proof.
  intros w x u w' r Hx ND HF H. cbn [step] in H. unfold update_config in H. rewrite Hx in H.
  inv_as H p P. destruct p as [[[j c] up] rc]. unfold update_cfg in P. inv_as P q Q. destruct q as [[j1 md] rc1].
  destruct (upd_flags _ _ _ _ _ _ _ ND Q) as [_ B]. specialize (B HF). subst rc1.
  assert (E : rc = false) by (destruct md; [inv_as P c1 C1|]; now inversion P). rewrite E, andb_false_r in H.
  inversion H; subst. auto.
Qed.

Lemma update_recreates : forall w x u w' r, wx w = Some x -> NoDup (map fst (jitems u)) ->
  Exists (fun kv => In (fst kv) structural_keys /\ ~ same_value (wdata w) kv) (jitems u) ->
  step w (UpdateConfig (UJson u)) = Ok (w', r) -> r <> RExc ->
  r = RCode 0 /\ wenv w' = wenv w /\ exists x', wx w' = Some x' /\ blank (wcfg w') x'.
Proof.
  intros w x u w' r Hx ND HF H Hr. cbn [step] in H. unfold update_config in H. rewrite Hx in H.
  inv_as H p P. destruct p as [[[j c] up] rc]. unfold update_cfg in P. inv_as P q Q. destruct q as [[j1 md] rc1].
  destruct (upd_flags _ _ _ _ _ _ _ ND Q) as [B _]. destruct (B HF) as [-> ->].
  inv_as P c1 C1. inversion P; subst. cbn [andb] in H. apply replace_blank in H; auto.
  destruct H as (-> & x' & -> & Hb). split; [reflexivity|]. split; [reflexivity|]. exists x'. split; [reflexivity|exact Hb].
Qed.

(** ** C50 *)
Lemma verbose_set : forall w x s, wx w = Some x -> verbose (wcfg w) = true -> is_int (m_mode (wcfg w)) = false ->
  step w (SetConfig s) = Died.
Proof.
  intros w x s Hx Hv Hi. cbn [step]. unfold set_config, destroy. rewrite Hx, Hv, Hi. reflexivity.
Qed.
Lemma verbose_update : forall w x u w' r, wx w = Some x -> NoDup (map fst (jitems u)) ->
  Exists (fun kv => In (fst kv) structural_keys /\ ~ same_value (wdata w) kv) (jitems u) ->
  step w (UpdateConfig (UJson u)) = Ok (w', r) -> r <> RExc ->
  verbose (wcfg w') = false \/ is_int (m_mode (wcfg w')) = true.
Proof.
  intros w x u w' r Hx ND HF H Hr. cbn [step] in H. unfold update_config in H. rewrite Hx in H.
  inv_as H p P. destruct p as [[[j c] up] rc]. unfold update_cfg in P. inv_as P q Q. destruct q as [[j1 md] rc1].
  destruct (upd_flags _ _ _ _ _ _ _ ND Q) as [B _]. destruct (B HF) as [-> ->].
  inv_as P c1 C1. inversion P; subst. cbn [andb] in H. unfold replace_xbar in H. cbn [wcfg] in H.
  match type of H with match ?e with _ => _ end = _ => destruct e; try discriminate end.
  - inv_as H y Y. inversion H; subst. unfold destroy in Y. change (wx (w <|wdata := j|> <|wcfg := c|>)) with (wx w) in Y.
    rewrite Hx in Y. unfold die_if in Y.
    cbn. cbn in Y. destruct (verbose c); [|auto]. destruct (is_int (m_mode c)); [auto|discriminate].
  - inversion H; subst. congruence.
Qed.

(** ** C16 *)
Lemma wf2_dims2 {A} c (g : list (list A)) : 0 <= M c -> 0 <= N c -> wf2 (rowsN c) (colsN c) g ->
  dims2 (M c * Z.of_nat (len (SPLIT c))) (N c) g.
Proof.
  intros HM HN [H1 H2]. unfold rowsN, colsN, nsplit in *. split; [rewrite H1; nia|].
  eapply Forall_impl; [|exact H2]. cbn. intros a Ha. lia.
Qed.
Lemma good_nonneg w : good w -> 0 <= M (wcfg w) /\ 0 <= N (wcfg w).
Proof.
  intros Hg. destruct (good_loaded w Hg) as [L|E].
  - pose proof (ld_M _ L). pose proof (ld_N _ L). lia.
  - rewrite E. cbn. lia.
Qed.
Lemma getter_dims : forall w, reach w ->
  (forall q w' g, step w (GetMat q) = Ok (w', RMat g) ->
     dims2 (M (wcfg w) * Z.of_nat (len (SPLIT (wcfg w)))) (N (wcfg w)) g) /\
  (forall p w' g, step w (GetIa p) = Ok (w', RIa g) ->
     dims2 (M (wcfg w) * Z.of_nat (len (SPLIT (wcfg w)))) (N (wcfg w)) g).
Proof.
  intros w Hr. apply reach_good in Hr. destruct (good_nonneg w Hr) as [HM HN]. split; intros q w' g H; cbn [step] in H.
  - inv_as H x X. unfold checked in X. destruct (wx w) as [x0|] eqn:Ex; [|discriminate]. inversion X; subst x0.
    pose proof (g_x _ Hr x Ex) as [Hs Hrd _]. inv_as H y Y. inversion H; subst. apply wf2_dims2; auto.
    destruct q; cbn in Y.
    + inversion Y; subst. apply Hs.
    + inversion Y; subst. apply Hs.
    + destruct (xrd x); inversion Y; subst. now apply (Hrd r).
    + destruct (xrd x); inversion Y; subst. now apply (Hrd r).
    + destruct (xrd x); inversion Y; subst. now apply (Hrd r).
    + destruct (xrd x); inversion Y; subst. now apply (Hrd r).
  - inv_as H x X. unfold checked in X. destruct (wx w) as [x0|] eqn:Ex; [|discriminate]. inversion X; subst x0.
    pose proof (g_x _ Hr x Ex) as [Hs Hrd _]. destruct q; inversion H; subst; apply wf2_dims2; auto; apply Hs.
Qed.

(** ** C55 *)
Lemma set_config_modes : forall w, 
  (wx w = None \/ verbose (wcfg w) = false \/ is_int (m_mode (wcfg w)) = true) ->
  step w (SetConfig CannotOpen) = Died /\
  (forall rest, exists w', step w (SetConfig (Unparsable rest)) = Ok (w', RExc) /\ wx w' = None /\ wcfg w' = wcfg w) /\
  (forall w' r, step w (SetConfig NoPath) = Ok (w', r) ->
     wcfg w' = wcfg w /\ wdata w' = wdata w /\ wenv w' = wenv w /\
     (r = RExc /\ wx w' = None \/ r = RUnit /\ exists x, wx w' = Some x /\ blank (wcfg w') x)).
Proof.
  intros w Hv. assert (Hd : destroy (wcfg w) (wx w) = Ok Datatypes.tt).
  { unfold destroy, die_if. destruct (wx w); auto. destruct Hv as [Hv|[Hv|Hv]]; [discriminate| |]; rewrite Hv; cbn; auto.
    now rewrite andb_false_r. }
  cbn [step]. unfold set_config. rewrite Hd. cbn [bind]. split; [reflexivity|]. split.
  - intros rest. eexists. split; [reflexivity|]. auto.
  - intros w' r H. unfold replace_xbar in H.
    match type of H with match ?e with _ => _ end = _ => destruct e eqn:E; try discriminate end.
    + inv_as H u U. inversion H; subst. repeat split; auto. right. split; auto. exists a. split; auto.
      apply xbar_new_blank. exact E.
    + inversion H; subst. repeat split; auto.
Qed.
End P.

(** ** Concrete cases *)
Local Open Scope string_scope.
Definition ex_upd : @world toy := ex01 "I_TC_W_DIFF".
Definition upd_same : @json toy := JObj [("M", JInt 3); ("I_BIT", JInt 4); ("nothing", JNull)].
Definition upd_soft : @json toy := JObj [("I_BIT", JInt 3); ("M", JInt 3); ("nothing", JNull); ("comment", JStr "x")].
Definition upd_hard : @json toy := JObj [("I_BIT", JInt 3); ("M", JInt 2)].

Definition update_ok {MC : Machine} (w : world) (u : json) : bool :=
  match step w (UpdateConfig (UJson u)) with Ok (_, RCode 0) => true | _ => false end.
Lemma update_ok_ex {MC : Machine} w u : update_ok w u = true ->
  exists w', step w (UpdateConfig (UJson u)) = Ok (w', RCode 0).
Proof.
  unfold update_ok. destruct (step w _) as [[w' r]| | |]; try discriminate. destruct r; try discriminate.
  destruct k; try discriminate. eauto.
Qed.

Lemma same_value_b {MC : Machine} j kv :
  match jat j (fst kv) with Some cur => jeqb cur (snd kv) | None => match snd kv with JNull => true | _ => false end end
  = true <-> same_value j kv.
Proof.
  unfold same_value. destruct (jat j (fst kv)); [tauto|]. destruct (snd kv); split; congruence.
Qed.
Ltac sv := apply (proj1 (same_value_b _ _)); vm_compute; reflexivity.
Ltac nsv := let H := fresh in intros H; apply (proj2 (same_value_b _ _)) in H; vm_compute in H; discriminate H.

Lemma ex_upd_reach : reach ex_upd /\ wx ex_upd <> None.
Proof. split; [apply after_reach_b; vm_compute; reflexivity|apply has_xbar_some; vm_compute; reflexivity]. Qed.

Lemma C14_hyps : reach ex_upd /\ wx ex_upd <> None /\
  Forall (same_value (wdata ex_upd)) (jitems upd_same) /\
  NoDup (map fst (jitems upd_soft)) /\
  Forall (fun kv => jeqb (snd kv) (snd kv) = true) (jitems upd_soft) /\
  ~ Forall (same_value (wdata ex_upd)) (jitems upd_soft) /\
  exists w', step ex_upd (UpdateConfig (UJson upd_soft)) = Ok (w', RCode 0).
Proof.
  split; [exact (proj1 ex_upd_reach)|]. split; [exact (proj2 ex_upd_reach)|].
  split; [unfold upd_same, upd_soft; cbn [jitems]; repeat (apply Forall_cons; [sv|]); apply Forall_nil|].
  split; [unfold upd_soft; cbn [jitems map fst]; repeat (apply NoDup_cons; [cbn; intuition discriminate|]); apply NoDup_nil|].
  split; [unfold upd_same, upd_soft; cbn [jitems]; repeat (apply Forall_cons; [vm_compute; reflexivity|]); apply Forall_nil|].
  split; [|apply update_ok_ex; vm_compute; reflexivity].
  unfold upd_soft. cbn [jitems]. intros H. apply Forall_inv in H. revert H. nsv.
Qed.

Lemma C15_hyps :
  (Forall (fun kv => In (fst kv) structural_keys -> same_value (wdata ex_upd) kv) (jitems upd_soft) /\
   exists w', step ex_upd (UpdateConfig (UJson upd_soft)) = Ok (w', RCode 0)) /\
  (Exists (fun kv => In (fst kv) structural_keys /\ ~ same_value (wdata ex_upd) kv) (jitems upd_hard) /\
   exists w', step ex_upd (UpdateConfig (UJson upd_hard)) = Ok (w', RCode 0)).
Proof.
  split; (split; [unfold upd_soft, upd_hard; cbn [jitems]|apply update_ok_ex; vm_compute; reflexivity]).
  - constructor; [intros H; exfalso; cbn in H; intuition discriminate|].
    constructor; [intros _; sv|].
    constructor; [intros H; exfalso; cbn in H; intuition discriminate|].
    constructor; [intros H; exfalso; cbn in H; intuition discriminate|]. constructor.
  - apply Exists_cons_tl, Exists_cons_hd. split; [cbn; auto|nsv].
Qed.

(** An analog 2x3 crossbar and a verbose binary one. *)
Definition ex_ana : @world toy :=
  after [SetConfig (Parsed (ana_doc "I_DIFF_W_DIFF_1XB" 2 3 3 2 [2; 1] 1 5)); CpyMtrx [1; 2; 3; -1; -2; -3] 2 3].
Definition ex_loud : @world toy :=
  after [SetConfig (Parsed (dig_doc "BNN_II" 2 3 1 1 [1]));
         UpdateConfig (UJson (JObj [("verbose", JBool true)]))].

Lemma C16_hyps : reach ex_ana /\ wx ex_ana <> None /\
  answers ex_ana [GetMat GdP; GetMat GdM] = Some
    [[0; 1; 1; 1; 0; 1; 0; 0; 0; 0; 0; 0]; [0; 0; 0; 0; 0; 0; 0; 1; 1; 1; 0; 1]].
Proof.
  split; [apply after_reach_b; vm_compute; reflexivity|].
  split; [apply has_xbar_some; vm_compute; reflexivity|]. vm_compute. reflexivity.
Qed.

Definition dies {A} (x : out A) : bool := match x with Died => true | _ => false end.
Lemma dies_died {A} (x : out A) : dies x = true -> x = Died.
Proof. destruct x; easy. Qed.

Lemma C50_hyps : reach ex_loud /\ wx ex_loud <> None /\ verbose (wcfg ex_loud) = true /\
  is_int (m_mode (wcfg ex_loud)) = false /\
  step ex_loud (UpdateConfig (UJson (JObj [("M", JInt 1)]))) = Died.
Proof.
  split; [apply after_reach_b; vm_compute; reflexivity|].
  split; [apply has_xbar_some; vm_compute; reflexivity|].
  split; [vm_compute; reflexivity|]. split; [vm_compute; reflexivity|].
  apply dies_died. vm_compute. reflexivity.
Qed.

Lemma C10_hyps : reach ex_upd /\ wx ex_upd <> None /\ M (wcfg ex_upd) < 2 ^ 31 /\ N (wcfg ex_upd) < 2 ^ 31 /\
  ~ dims_in (wcfg ex_upd) (-1) 2 /\ ~ dims_in (wcfg ex_upd) 4 1 /\ dims_in (wcfg ex_upd) 3 4 /\
  answers ex_upd [CpyMtrx [] (-1) 2; ExeMvm [5] [1] [] 4 1 "L"; CpyMtrx [1] 1 1; ExeMvm [5] [2] [] 1 1 "L"]
  = Some [[-1]; [-1; 5]; [0]; [0; 7]].
Proof.
  split; [exact (proj1 ex_upd_reach)|]. split; [exact (proj2 ex_upd_reach)|].
  split; [vm_compute; reflexivity|]. split; [vm_compute; reflexivity|].
  unfold dims_in. replace (M (wcfg ex_upd)) with 3 by (vm_compute; reflexivity).
  replace (N (wcfg ex_upd)) with 4 by (vm_compute; reflexivity).
  split; [lia|]. split; [lia|]. split; [lia|]. vm_compute. reflexivity.
Qed.

Lemma C12_hyps : exists w0 s w h w' rs,
  @step toy w0 (SetConfig s) = Ok (w, RUnit) /\ Forall no_create h /\ run w h = Ok (w', rs) /\
  writes (combine h rs) = 2 /\ mvms (combine h rs) = 3 /\ reads_since 0 (combine h rs) = 1.
Proof.
  set (s := Parsed (@dig_doc toy "I_TC_W_DIFF" 3 4 4 4 [1; 2; 1])).
  set (h := [@CpyMtrx toy [1] 1 1; ExeMvm [0] [1] [] 1 1 "L"; ExeMvm [0] [1] [] 5 1 "L"; PyMvm [0] [1] [] 1 1;
             CpyMtrx [1] 1 1; CpyMtrx [] 4 1; GetNum NMvm;
             UpdateConfig (UJson (JObj [("I_BIT", JInt 3)])); ExeMvm [0] [1] [] 1 1 "L"]).
  set (f := fun o : out (@world toy * @result toy) => match o with Ok (w, RUnit) =>
     match run w h with Ok (w', rs) => [writes (combine h rs); mvms (combine h rs); reads_since 0 (combine h rs)]
     | _ => [] end | _ => [] end).
  assert (E : f (step world0 (SetConfig s)) = [2; 3; 1]) by (vm_compute; reflexivity).
  destruct (step world0 (SetConfig s)) as [[w r]| | |] eqn:E1; cbn [f] in E; try discriminate E.
  unfold f in E. destruct r; try discriminate E. destruct (run w h) as [[w' rs]| | |] eqn:E2; try discriminate E.
  exists world0, s, w, h, w', rs. split; [exact E1|]. split; [|split; [exact E2|]].
  - unfold h. repeat constructor. cbn [no_create]. intros k Hk Hi. cbn in Hi. destruct Hi as [<-|[]].
    cbn in Hk. intuition discriminate.
  - injection E as E3 E4 E5. split; [exact E3|]. split; [exact E4|exact E5].
Qed.

Lemma C55_hyps : reach ex_upd /\ verbose (wcfg ex_upd) = false /\
  answers ex_upd [SetConfig NoPath; GetNum NWrite; GetMat GdP] =
    Some [[]; [0]; [0;0;0;0; 0;0;0;0; 0;0;0;0; 0;0;0;0; 0;0;0;0; 0;0;0;0; 0;0;0;0; 0;0;0;0; 0;0;0;0]].
Proof.
  split; [exact (proj1 ex_upd_reach)|]. split; vm_compute; reflexivity.
Qed.
