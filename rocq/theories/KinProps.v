(** C45, C62, C66: results of repeated MVMs. *)
From Coq Require Import String List ZArith Bool Arith Lia ZifyBool ZifyNat.
From RecordUpdate Require Import RecordSet.
From Verif Require Import Base Lib Hoare Machine Json Config Histogram Adc ReadDisturb Parasitics
  Mapper IntMappers BnnMappers TnnMappers Crossbar Api Shape MvmShape AnaShape ConfigProofs Reach Cells Spec Invar StepFacts NoiseProps
  Twin KinSpec Kin.
Import ListNotations RecordSetNotations.
Local Open Scope Z_scope.
Local Open Scope out_scope.

Section KP.
Context {MC : Machine}.

Lemma get2_kind full {A} R C (g h : list (list A)) i j : wf2 R C g -> wf2 R C h ->
  rel full (fun _ _ => (i < R)%nat /\ (j < C)%nat) (get2 g i j) (get2 h i j).
Proof.
  intros Hg Hh. split.
  - intros a b Ha _. assert (exists d : A, d = a) as [d _] by eauto.
    destruct (get2_inv d R C g i j a Hg Ha) as (H1 & H2 & _). auto.
  - intros _. destruct (Nat.ltb_spec i R) as [Hr|Hr]; [destruct (Nat.ltb_spec j C) as [Hc|Hc]|].
    + assert (HX : exists a, get2 g i j = Ok a).
      { unfold get2. rewrite (get_ok g i []) by (destruct Hg; lia). cbn [bind]. pose proof (wf2_row R C g i Hg Hr) as HL.
        destruct (nth i g []) as [|d row] eqn:Erow; [cbn in HL; lia|]. exists (nth j (d :: row) d). apply get_ok. lia. }
      assert (HY : exists a, get2 h i j = Ok a).
      { unfold get2. rewrite (get_ok h i []) by (destruct Hh; lia). cbn [bind]. pose proof (wf2_row R C h i Hh Hr) as HL.
        destruct (nth i h []) as [|d row] eqn:Erow; [cbn in HL; lia|]. exists (nth j (d :: row) d). apply get_ok. lia. }
      destruct HX as [a ->], HY as [b ->]. reflexivity.
    + now rewrite !(get2_oob R C) by auto.
    + now rewrite !(get2_oob R C) by auto.
Qed.
Lemma remove_rel full c a b m n : shape c a -> shape c b -> rel full (fun _ _ => True) (remove_c2c a m n) (remove_c2c b m n).
Proof.
  intros S1 S2. unfold remove_c2c.
  set (I := fun (s t : list (list F) * list (list F)) => wf2 (rowsN c) (colsN c) (fst s) /\ wf2 (rowsN c) (colsN c) (snd s) /\
    wf2 (rowsN c) (colsN c) (fst t) /\ wf2 (rowsN c) (colsN c) (snd t)).
  apply (rel_bind full I); [|intros [? ?] [? ?] _; now apply rel_ret].
  apply (rel_forN full (fun _ => I)); [unfold I; cbn; refine (conj _ (conj _ (conj _ _))); [apply S1|apply S1|apply S2|apply S2]|].
  intros i s t Hi HI. apply (rel_forN full (fun _ => I)); [exact HI|]. clear s t HI.
  intros j [p q] [p' q'] Hj (H1 & H2 & H3 & H4). cbn [fst snd] in *.
  eapply rel_bind; [apply (get2_kind full (rowsN c) (colsN c)); [apply S1|apply S2]|]. intros x y [Hi' Hj'].
  eapply rel_bind; [eapply set2_grow; eauto|]. intros p1 p1' (W1 & W2 & _).
  eapply rel_bind; [apply (get2_kind full (rowsN c) (colsN c)); [apply S1|apply S2]|]. intros x' y' _.
  eapply rel_bind; [eapply set2_grow; eauto|]. intros q1 q1' (W3 & W4 & _).
  apply rel_ret. unfold I. cbn. auto.
Qed.

Lemma front_shape c mp res vec mat m n l e r mp' e' : shape c mp ->
  front c mp res vec mat m n l e = Ok (r, mp', e') -> shape c mp'.
Proof.
  intros Hs H. unfold front in H. inv_as H t T. destruct t as [mp1 e1].
  assert (S1 : shape c mp1).
  { destruct (c2c_var c); [|now inversion T; subst].
    apply (proj1 (tri_any _ _) (add_c2c_tri anyfail harmless_any c mp m n e Hs (or_introl (fun _ => I))) _ T). }
  apply (proj1 (tri_any _ _) (a_mvm_tri anyfail harmless_any c mp1 res vec mat m n l e1 S1 (or_introl (fun _ => I))) _ H).
Qed.

(** [xmvm] in terms of [front]. *)
Definition rear (c : config) (x : xbar) (m n : nat) (t : list Z * mapper * env) : out (list Z * xbar * env) :=
  let '(res, mp, e) := t in
  mp <- (if c2c_var c then remove_c2c mp m n else Ok mp) ;;
  let x := x <| n_mvm := n_mvm x + 1 |> <| n_read := n_read x + 1 |> <| xm := mp |> in
  '(x, e) <- (if read_disturb c then rd_step c x m n e else Ok (x, e)) ;;
  Ok (res, x, e).
Lemma xmvm_front c x res vec mat m n l e : digital_only c = false ->
  xmvm c x res vec mat m n l e = bind (front c (xm x) res vec mat m n l e) (rear c x m n).
Proof.
  intros Hd. unfold xmvm, front. rewrite Hd. cbv zeta.
  change (xm (x <| n_mvm := n_mvm x + 1 |> <| n_read := n_read x + 1 |>)) with (xm x).
  destruct (if c2c_var c then _ else _) as [[mp e1]| | |]; cbn [bind]; try reflexivity.
Qed.
Lemma rear_res c x m n r mp e r' x' e' : rear c x m n (r, mp, e) = Ok (r', x', e') -> r' = r.
Proof.
  unfold rear. intros H. inv_as H mp1 M1. cbv zeta in H. inv_as H t T. destruct t. now inversion H.
Qed.

Section Rel.
Context (full D : Prop) (E : env -> env -> Prop) (c : config).
Context (HE : forall a l v e e', E e e' ->
  rel full E (if adc_profile c then profile c a l v e else Ok e) (if adc_profile c then profile c a l v e' else Ok e')).
Context (HD : forall e e', E e e' -> D -> draws e = draws e').
Context (Hk : forall e e' k k', E e e' -> (D -> k = k') -> E (e <| draws := k |>) (e' <| draws := k' |>)).
Context (HV : parasitics c = false -> c2c_var c = true -> no_noise c \/ D).

Definition res_of (o : out (list Z * xbar * env)) : out (list Z) := '(r, _, _) <- o ;; Ok r.
(** Equal results; the same kind of failure if read disturb is off and [full]. *)
Lemma xmvm_rel (G : Prop) x y res vec mat mat' m n l e e' : (G -> full /\ read_disturb c = false) ->
  digital_only c = false -> kin c (xm x) (xm y) -> E e e' ->
  rel G eq (res_of (xmvm c x res vec mat m n l e)) (res_of (xmvm c y res vec mat' m n l e')).
Proof.
  intros HG Hd HK He. rewrite !xmvm_front by auto.
  pose proof (front_rel full D E c HE HD Hk HV _ _ res vec mat mat' m n l e e' HK He) as HF.
  destruct (front c (xm x) res vec mat m n l e) as [[[r mp] e1]|f1| |] eqn:F1,
    (front c (xm y) res vec mat' m n l e') as [[[r' mq] e2]|f2| |] eqn:F2.
  2-16: cbn [bind]; unfold res_of; cbn [bind];
    split; [intros a b Ha Hb; discriminate|intros Hg; pose proof (proj2 HF (proj1 (HG Hg))) as K; cbn [kind bind] in K; try discriminate K; exact K].
  - cbn [bind]. destruct (proj1 HF _ _ eq_refl eq_refl) as [Er _]. cbn [fst] in Er. subst r'. split.
    + intros a b Ha Hb. unfold res_of in Ha, Hb. inv_as Ha t T. destruct t as [[a1 ?] ?]. inv_as Hb u U. destruct u as [[b1 ?] ?].
      apply rear_res in T, U. congruence.
    + intros Hg. destruct (HG Hg) as [Hf Hr]. unfold rear. rewrite Hr.
      pose proof (front_shape _ _ _ _ _ _ _ _ _ _ _ _ (kn_s1 _ _ _ HK) F1) as S1.
      pose proof (front_shape _ _ _ _ _ _ _ _ _ _ _ _ (kn_s2 _ _ _ HK) F2) as S2.
      destruct (c2c_var c); [|reflexivity].
      pose proof (proj2 (remove_rel True c mp mq m n S1 S2) I) as HR.
      destruct (remove_c2c mp m n), (remove_c2c mq m n); cbn in HR |- *; congruence.
Qed.
End Rel.

(** ** One crossbar, before and after a history *)
Lemma asking_step w a w' r x : good w -> asking a -> wx w = Some x -> digital_only (wcfg w) = false -> lasting (wcfg w) ->
  step w a = Ok (w', r) ->
  good w' /\ wcfg w' = wcfg w /\ exists x', wx w' = Some x' /\ kin (wcfg w) (xm x) (xm x').
Proof.
  intros Hg Ha Hx Hd HL H. pose proof (g_x _ Hg _ Hx) as Hok.
  assert (HM : forall res vec mat m n l r1 x1 e1, xmvm (wcfg w) x res vec mat m n l (wenv w) = Ok (r1, x1, e1) ->
     good (w <| wx := Some x1 |> <| wenv := e1 |>) /\ kin (wcfg w) (xm x) (xm x1)).
  { intros res vec mat m n l r1 x1 e1 HM. destruct (xmvm_ok _ _ _ _ _ _ _ _ _ _ _ _ (good_wf _ Hg) Hok HM) as (Hx1 & _). split.
    - constructor; [apply Hg|]. cbn. intros y Ey. now inversion Ey; subst.
    - eapply mvm_kin; eauto using good_wf. intros Hi. apply (rd_int_off _ (good_origin _ Hg) Hi Hd). }
  assert (HS : w' = w -> good w' /\ wcfg w' = wcfg w /\ exists x', wx w' = Some x' /\ kin (wcfg w) (xm x) (xm x')).
  { intros ->. split; [exact Hg|]. split; [reflexivity|]. exists x. split; [exact Hx|]. apply kin_refl, Hok. }
  destruct a; cbn in Ha; try contradiction; cbn in H.
  - unfold exe_mvm in H. rewrite Hx in H. destruct (too_big _ _ _); [inversion H; subst; auto|].
    inv_as H d Hd'. destruct d as [m' n']. inv_as H t T. destruct t as [[r1 x1] e1]. inversion H; subst.
    destruct (HM _ _ _ _ _ _ _ _ _ T). split; [assumption|]. split; [reflexivity|]. exists x1. now split.
  - unfold py_mvm in H. rewrite Hx in H. cbn [deref bind] in H.
    inv_as H d Hd'. destruct d as [m' n']. inv_as H t T. destruct t as [[r1 x1] e1]. inversion H; subst.
    destruct (HM _ _ _ _ _ _ _ _ _ T). split; [assumption|]. split; [reflexivity|]. exists x1. now split.
  - rewrite Hx in H. cbn [checked bind] in H. inv_as H g G. inversion H; subst; auto.
  - rewrite Hx in H. cbn [checked bind] in H. inversion H; subst; auto.
  - rewrite Hx in H. cbn [checked bind] in H. inversion H; subst; auto.
  - rewrite Hx in H. cbn [checked bind] in H. inv_as H g G. inversion H; subst; auto.
  - inversion H; subst; auto.
Qed.
Lemma asking_run h : forall w w' rs x, good w -> Forall asking h -> wx w = Some x -> digital_only (wcfg w) = false ->
  lasting (wcfg w) -> run w h = Ok (w', rs) ->
  good w' /\ wcfg w' = wcfg w /\ exists x', wx w' = Some x' /\ kin (wcfg w) (xm x) (xm x').
Proof.
  induction h as [|a h IH]; cbn; intros w w' rs x Hg HF Hx Hd HL H.
  - inversion H; subst. split; [auto|]. split; [auto|]. exists x. split; [auto|]. apply kin_refl, (g_x _ Hg _ Hx).
  - inv_as H t T. destruct t as [w1 r]. inv_as H u U. destruct u as [w2 rs2]. inversion H; subst. inversion HF; subst.
    destruct (asking_step _ _ _ _ _ Hg H2 Hx Hd HL T) as (G1 & C1 & x1 & X1 & K1).
    rewrite <- C1 in Hd, HL. destruct (IH _ _ _ _ G1 H3 X1 Hd HL U) as (G2 & C2 & x2 & X2 & K2).
    rewrite C1 in *. split; [exact G2|]. split; [exact C2|]. exists x2. split; [exact X2|]. eapply kin_trans; eauto.
Qed.

Lemma answer_rel (G : Prop) w w' x x' a : is_mvm a -> wcfg w' = wcfg w -> wx w = Some x -> wx w' = Some x' ->
  (forall res vec mat m n l, rel G eq (res_of (xmvm (wcfg w) x res vec mat m n l (wenv w)))
     (res_of (xmvm (wcfg w) x' res vec mat m n l (wenv w')))) ->
  rel G eq (answer w a) (answer w' a).
Proof.
  intros Ha Hc Hx Hx' HR.
  assert (HT : forall res vec mat m n l,
    rel G eq ('(_, r) <- ('(r, x, e) <- xmvm (wcfg w) x res vec mat m n l (wenv w) ;; Ok (w <| wx := Some x |> <| wenv := e |>, RRes 0 r)) ;; Ok r)
      ('(_, r) <- ('(r, x, e) <- xmvm (wcfg w) x' res vec mat m n l (wenv w') ;; Ok (w' <| wx := Some x |> <| wenv := e |>, RRes 0 r)) ;; Ok r)).
  { intros. specialize (HR res vec mat m n l). unfold res_of in HR.
    destruct (xmvm (wcfg w) x res vec mat m n l (wenv w)) as [[[r1 x1] e1]| | |],
      (xmvm (wcfg w) x' res vec mat m n l (wenv w')) as [[[r2 x2] e2]| | |]; cbn in HR |- *;
      (split; [intros p q Hp Hq; try discriminate|exact (proj2 HR)]).
    pose proof (proj1 HR _ _ eq_refl eq_refl). congruence. }
  unfold answer. destruct a; try contradiction; cbn [step].
  - unfold exe_mvm. rewrite Hx, Hx', Hc. destruct (too_big _ _ _); [apply rel_ret; reflexivity|].
    destruct (dims m n) as [[m' n']| | |]; cbn [bind]; try (split; [discriminate|reflexivity]). apply HT.
  - unfold py_mvm. rewrite Hx, Hx', Hc. cbn [deref bind].
    destruct (dims m n) as [[m' n']| | |]; cbn [bind]; try (split; [discriminate|reflexivity]). apply HT.
Qed.

Lemma rel_out {A} (o1 o2 : out A) : rel True eq o1 o2 -> o1 = o2.
Proof.
  intros [H1 H2]. specialize (H2 I). destruct o1, o2; cbn in H2; try discriminate; try congruence.
  f_equal. now apply H1.
Qed.

(** Same answers later, if the cells an MVM reads are the same then. *)
Lemma later_same w x h w' rs a : good w -> wx w = Some x -> digital_only (wcfg w) = false -> lasting (wcfg w) ->
  (parasitics (wcfg w) = false -> c2c_var (wcfg w) = true -> no_noise (wcfg w)) ->
  Forall asking h -> run w h = Ok (w', rs) -> is_mvm a ->
  (forall r r', answer w a = Ok r -> answer w' a = Ok r' -> r' = r) /\
  (read_disturb (wcfg w) = false -> adc_profile (wcfg w) = false -> answer w' a = answer w a).
Proof.
  intros Hg Hx Hd HL Hn HF H Ha. destruct (asking_run _ _ _ _ _ Hg HF Hx Hd HL H) as (G' & C' & x' & X' & K).
  set (full := adc_profile (wcfg w) = false).
  assert (HR : rel (read_disturb (wcfg w) = false /\ full) eq (answer w a) (answer w' a)).
  { apply (answer_rel _ w w' x x' a Ha C' Hx X'). intros.
    apply (xmvm_rel full False (fun _ _ => True) (wcfg w)); auto.
    - intros b l0 v e e' _. split; [auto|]. unfold full. intros ->. reflexivity.
    - tauto.
    - intros [H1 H2]. auto. }
  split.
  - intros r r' H1 H2. symmetry. exact (proj1 HR _ _ H1 H2).
  - intros H1 H2. symmetry. apply rel_out. split; [exact (proj1 HR)|]. intros _. apply (proj2 HR). split; auto.
Qed.

Lemma none_same h a : is_mvm a -> forall w w' rs, wx w = None -> Forall asking h -> run w h = Ok (w', rs) -> answer w' a = answer w a.
Proof.
  intros Ha w w' rs Hx HF H.
  assert (Hs : wx w' = None).
  { revert w rs Hx HF H. induction h as [|b h IH]; cbn; intros w rs Hx HF H; [now inversion H; subst|].
    inv_as H t T. destruct t as [w1 r]. inv_as H u U. destruct u as [w2 rs2]. inversion H; subst. inversion HF; subst.
    assert (w1 = w).
    { destruct b; cbn in H2; try contradiction; cbn in T; unfold exe_mvm, py_mvm in T; rewrite ?Hx in T; cbn in T; congruence. }
    subst w1. eapply IH; eauto. }
  unfold answer. destruct a; try contradiction; cbn [step]; unfold exe_mvm, py_mvm; now rewrite Hx, Hs.
Qed.
Lemma later w h w' rs a : reach w -> digital_only (wcfg w) = false -> lasting (wcfg w) ->
  (parasitics (wcfg w) = false -> c2c_var (wcfg w) = true -> no_noise (wcfg w)) ->
  Forall asking h -> run w h = Ok (w', rs) -> is_mvm a ->
  (forall r r', answer w a = Ok r -> answer w' a = Ok r' -> r' = r) /\
  (read_disturb (wcfg w) = false -> adc_profile (wcfg w) = false -> answer w' a = answer w a).
Proof.
  intros Hr Hd HL Hn HF H Ha. apply reach_good in Hr. destruct (wx w) as [x|] eqn:Hx; [eapply later_same; eauto|].
  rewrite (none_same h a Ha w w' rs Hx HF H). split; [congruence|auto].
Qed.

(** ** C66 *)
Lemma memoryless w h w' rs a : reach w -> digital_only (wcfg w) = false -> c2c_var (wcfg w) = false -> read_disturb (wcfg w) = false ->
  Forall asking h -> run w h = Ok (w', rs) -> is_mvm a ->
  (forall r r', answer w a = Ok r -> answer w' a = Ok r' -> r' = r) /\
  (adc_profile (wcfg w) = false -> answer w' a = answer w a).
Proof.
  intros Hr Hd Hc Hrd HF H Ha. destruct (later w h w' rs a) as [P1 P2]; auto.
  - split; [congruence|]. right; right. auto.
  - congruence.
Qed.

(** ** C45 *)
Lemma frozen w h w' rs a : reach w -> digital_only (wcfg w) = false -> parasitics (wcfg w) = true ->
  (read_disturb (wcfg w) = true -> mitigation (wcfg w) <> SOFTWARE) ->
  Forall asking h -> run w h = Ok (w', rs) -> is_mvm a ->
  (forall r r', answer w a = Ok r -> answer w' a = Ok r' -> r' = r) /\
  (read_disturb (wcfg w) = false -> adc_profile (wcfg w) = false -> answer w' a = answer w a).
Proof.
  intros Hr Hd Hp Hm HF H Ha. eapply later; eauto; [|congruence]. split; auto.
Qed.

(** ** C62 *)
Lemma hidden w h w' rs a : reach w -> digital_only (wcfg w) = false ->
  read_disturb (wcfg w) = true -> mitigation (wcfg w) <> SOFTWARE -> c2c_var (wcfg w) = true -> no_noise (wcfg w) ->
  Forall asking h -> run w h = Ok (w', rs) -> is_mvm a ->
  forall r r', answer w a = Ok r -> answer w' a = Ok r' -> r' = r.
Proof.
  intros Hr Hd Hrd Hm Hc Hn HF H Ha. eapply later; eauto. split; [auto|]. right; left. unfold rewritten. rewrite Hc.
  destruct (is_int (m_mode (wcfg w))) eqn:Hi; [|reflexivity].
  pose proof (rd_int_off _ (good_origin _ (reach_good _ Hr)) Hi Hd). congruence.
Qed.

(** The same history with and without read disturb, whatever noise is drawn. *)
Lemma shape_rd c b mp : shape c mp -> shape (c <| read_disturb := b |>) mp.
Proof. intros []. constructor; assumption. Qed.
Lemma shape_rd' c b mp : shape (c <| read_disturb := b |>) mp -> shape c mp.
Proof. intros []. constructor; assumption. Qed.
Lemma kin_rd c b mp mq : kin (c <| read_disturb := b |>) mp mq -> kin c mp mq.
Proof. intros []. constructor; try assumption; eapply shape_rd'; eassumption. Qed.

Section Pair.
Context (c : config).
Context (Hw : cfg_wf c) (Hd : digital_only c = false) (Hrd : read_disturb c = true)
  (Hm : mitigation c = MIT_OFF) (Hc : c2c_var c = true) (Hi : is_int (m_mode c) = false).
Notation d := (c <| read_disturb := false |>).

Lemma lasts : lasting c.
Proof. split; [congruence|]. right; left. unfold rewritten. now rewrite Hc, Hi. Qed.
Lemma front_d mp res vec mat m n l e : front d mp res vec mat m n l e = front c mp res vec mat m n l e.
Proof. reflexivity. Qed.
Lemma pair_mvm x y res vec mat m n l e r x' e' : xok c x -> kin c (xm x) (xm y) ->
  xmvm c x res vec mat m n l e = Ok (r, x', e') ->
  exists y', xmvm d y res vec mat m n l e = Ok (r, y', e') /\ kin c (xm x') (xm y').
Proof.
  intros Hx HK H.
  pose proof (xmvm_ok _ _ _ _ _ _ _ _ _ _ _ _ Hw Hx H) as (Hx' & _).
  assert (K1 : kin c (xm x) (xm x')) by (eapply mvm_kin; eauto using lasts; congruence).
  pose proof H as H0. rewrite xmvm_front in H by auto. inv_as H t T. destruct t as [[r1 mp] e1].
  pose proof (front_rel True True eq c) as HF.
  specialize (HF ltac:(intros a l0 v e2 e2' ->; apply rel_same; reflexivity) ltac:(intros e2 e2' ->; reflexivity)
    ltac:(intros e2 e2' k k' -> HH; now rewrite (HH I)) ltac:(auto) (xm x) (xm y) res vec mat mat m n l e e HK eq_refl).
  destruct (front c (xm y) res vec mat m n l e) as [[[r2 mq] e2]| | |] eqn:F2;
    [|specialize (proj2 HF I) as HH; rewrite T in HH; discriminate HH..].
  destruct (proj1 HF _ _ T eq_refl) as [Er Ee]. cbn [fst snd] in Er, Ee. subst r2 e2.
  pose proof (front_shape _ _ _ _ _ _ _ _ _ _ _ _ (kn_s1 _ _ _ HK) T) as S1.
  pose proof (front_shape _ _ _ _ _ _ _ _ _ _ _ _ (kn_s2 _ _ _ HK) F2) as S2.
  unfold rear in H. rewrite Hc, Hrd in H. inv_as H mp1 M1. cbv zeta in H. inv_as H u U. destruct u as [x2 e3]. inversion H; subst r1 x2 e3; clear H.
  destruct (remove_c2c mq m n) as [mq1| | |] eqn:M2;
    [|pose proof (proj2 (remove_rel True c mp mq m n S1 S2) I) as HH; rewrite M1, M2 in HH; discriminate HH..].
  apply rd_step_off in U; [|exact Hm]. destruct U as (Ee & _). subst e'.
  exists (y <| n_mvm := n_mvm y + 1 |> <| n_read := n_read y + 1 |> <| xm := mq1 |>).
  assert (HY : xmvm d y res vec mat m n l e = Ok (r, y <| n_mvm := n_mvm y + 1 |> <| n_read := n_read y + 1 |> <| xm := mq1 |>, e1)).
  { rewrite xmvm_front by exact Hd. rewrite front_d, F2. cbn [bind]. unfold rear. cbn [c2c_var read_disturb RecordSet.set].
    change (c2c_var d) with (c2c_var c). rewrite Hc, M2. reflexivity. }
  split; [exact HY|].
  eapply kin_trans; [apply kin_sym; exact K1|]. eapply kin_trans; [exact HK|].
  apply (kin_rd c false).
  assert (Hy : xok d (y <| xrd := None |>)) by (constructor; [apply shape_rd, HK|discriminate|discriminate]).
  assert (HY' : xmvm d (y <| xrd := None |>) res vec mat m n l e =
     Ok (r, y <| xrd := None |> <| n_mvm := n_mvm y + 1 |> <| n_read := n_read y + 1 |> <| xm := mq1 |>, e1)).
  { rewrite xmvm_front by exact Hd. change (xm (y <| xrd := None |>)) with (xm y). rewrite front_d, F2. cbn [bind]. unfold rear.
    change (c2c_var d) with (c2c_var c). rewrite Hc, M2. reflexivity. }
  assert (Hwd : cfg_wf d) by exact Hw. assert (Hdd : digital_only d = false) by exact Hd.
  pose proof (xmvm_ok _ _ _ _ _ _ _ _ _ _ _ _ Hwd Hy HY') as (Hy' & _).
  refine (mvm_kin _ _ _ _ _ _ _ _ _ _ _ _ Hwd Hy Hy' Hdd _ _ HY').
  - split; [discriminate|]. right; left. unfold rewritten. cbn. now rewrite Hc, Hi.
  - reflexivity.
Qed.
End Pair.

Lemma pair_run h : forall w u w' rs x y, good w -> Forall is_mvm h ->
  digital_only (wcfg w) = false -> read_disturb (wcfg w) = true -> mitigation (wcfg w) = MIT_OFF -> c2c_var (wcfg w) = true ->
  wcfg u = (wcfg w) <| read_disturb := false |> -> wenv u = wenv w -> wx w = Some x -> wx u = Some y -> kin (wcfg w) (xm x) (xm y) ->
  run w h = Ok (w', rs) -> exists u', run u h = Ok (u', rs).
Proof.
  induction h as [|a h IH]; cbn [run]; intros w u w' rs x y Hg HF Hd Hrd Hm Hc Hcu Heu Hx Hy HK H; [inversion H; eauto|].
  inv_as H t T. destruct t as [w1 r]. inv_as H t2 T2. destruct t2 as [w2 rs2]. inversion H; subst w2 rs. inversion HF; subst.
  assert (Hi : is_int (m_mode (wcfg w)) = false).
  { destruct (is_int (m_mode (wcfg w))) eqn:Hi; [|reflexivity]. pose proof (rd_int_off _ (good_origin _ Hg) Hi Hd). congruence. }
  assert (HM : forall res vec mat m n l r1 x1 e1, xmvm (wcfg w) x res vec mat m n l (wenv w) = Ok (r1, x1, e1) ->
    w1 = w <| wx := Some x1 |> <| wenv := e1 |> -> exists y1, xmvm (wcfg u) y res vec mat m n l (wenv u) = Ok (r1, y1, e1) /\
    exists u', run (u <| wx := Some y1 |> <| wenv := e1 |>) h = Ok (u', rs2)).
  { intros res vec mat m n l r1 x1 e1 HM E1.
    destruct (pair_mvm _ (good_wf _ Hg) Hd Hrd Hm Hc Hi _ _ _ _ _ _ _ _ _ _ _ _ (g_x _ Hg _ Hx) HK HM) as (y1 & HY & HK1).
    exists y1. rewrite Hcu, Heu. split; [exact HY|].
    destruct (xmvm_ok _ _ _ _ _ _ _ _ _ _ _ _ (good_wf _ Hg) (g_x _ Hg _ Hx) HM) as (Hx1 & _).
    subst w1. eapply (IH (w <| wx := Some x1 |> <| wenv := e1 |>) (u <| wx := Some y1 |> <| wenv := e1 |>) _ _ x1 y1); cbn; auto.
    - constructor; [apply Hg|]. cbn. intros z Ez. now inversion Ez; subst.
    - exact T2. }
  assert (HB : forall m n, too_big (wcfg u) m n = too_big (wcfg w) m n) by (intros; now rewrite Hcu).
  destruct a; try contradiction; cbn [step] in T |- *.
  - unfold exe_mvm in *. rewrite Hx in T. rewrite Hy, HB. destruct (too_big _ _ _).
    + inversion T; subst w1 r. cbn [bind]. destruct (IH w u _ _ x y Hg H3 Hd Hrd Hm Hc Hcu Heu Hx Hy HK T2) as (u' & ->). cbn. eauto.
    + inv_as T p P. destruct p as [m' n']. inv_as T q Q. destruct q as [[r1 x1] e1]. inversion T; subst w1 r.
      rewrite P. cbn [bind]. destruct (HM _ _ _ _ _ _ _ _ _ Q eq_refl) as (y1 & -> & u' & HU). cbn [bind]. rewrite HU. cbn. eauto.
  - unfold py_mvm in *. rewrite Hx in T. rewrite Hy. cbn [deref bind] in *.
    inv_as T p P. destruct p as [m' n']. inv_as T q Q. destruct q as [[r1 x1] e1]. inversion T; subst w1 r.
    rewrite P. cbn [bind]. destruct (HM _ _ _ _ _ _ _ _ _ Q eq_refl) as (y1 & -> & u' & HU). cbn [bind]. rewrite HU. cbn. eauto.
Qed.
Lemma hidden_noise w h rs : reach w -> digital_only (wcfg w) = false ->
  read_disturb (wcfg w) = true -> mitigation (wcfg w) = MIT_OFF -> c2c_var (wcfg w) = true -> Forall is_mvm h ->
  answers_of w h = Ok rs -> answers_of (undisturbed w) h = Ok rs.
Proof.
  intros Hr Hd Hrd Hm Hc HF H. unfold answers_of in *. inv_as H t T. destruct t as [w' rs']. inversion H; subst rs'; clear H.
  apply reach_good in Hr. destruct (wx w) as [x|] eqn:Hx.
  - destruct (pair_run h w (undisturbed w) w' rs x x) as (u' & ->); auto. apply kin_refl, (g_x _ Hr _ Hx).
  - enough (exists u', run (undisturbed w) h = Ok (u', rs)) as (u' & ->) by reflexivity.
    clear - Hx HF T. revert rs T. induction h as [|a h IH]; intros rs T; cbn [run] in T |- *; [inversion T; eauto|].
    inv_as T t S. destruct t as [w1 r]. inv_as T q Q. destruct q as [w2 rs2]. inversion T; subst w2 rs. inversion HF; subst.
    destruct a; try contradiction; cbn [step] in S |- *; unfold exe_mvm, py_mvm in *; rewrite Hx in S; [|discriminate].
    change (wx (undisturbed w)) with (wx w). rewrite Hx. inversion S; subst. cbn [bind]. destruct (IH H2 _ Q) as (u' & ->). cbn. eauto.
Qed.
End KP.
