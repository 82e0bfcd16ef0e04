(** The column of resistors: the recurrence of the solver solves Kirchhoff's equations. *)
From Coq Require Import List ZArith Reals Lra Lia Arith.
From Verif Require Import Base Lib Machine Json Config ParSpec AnaReal.
Import ListNotations.
Local Open Scope R_scope.

(** Conductance of the first k cells and wire segments. *)
Fixpoint ladder (W : R) (g : nat -> R) (k : nat) : R :=
  match k with
  | O => 0
  | S j => ((ladder W g j + g j) * W) / ((ladder W g j + g j) + W)
  end.

Section L.
Context (W : R) (HW : 0 < W).

Lemma ladder_nonneg g k : (forall i, (i < k)%nat -> 0 <= g i) -> 0 <= ladder W g k.
Proof.
  induction k; cbn [ladder]; intros H; [lra|]. specialize (IHk ltac:(auto)). specialize (H k ltac:(lia)).
  apply Rmult_le_pos; [apply Rmult_le_pos; lra|]. left. apply Rinv_0_lt_compat. lra.
Qed.
Lemma step_le b : 0 <= b -> b * W / (b + W) <= b.
Proof.
  intros H. apply (Rmult_le_reg_r (b + W)); [lra|]. replace (b * W / (b + W) * (b + W)) with (b * W) by (field; lra). nra.
Qed.
Lemma step_mono b b' : 0 <= b <= b' -> b * W / (b + W) <= b' * W / (b' + W).
Proof.
  intros H. apply (Rmult_le_reg_r ((b + W) * (b' + W))); [nra|].
  replace (b * W / (b + W) * ((b + W) * (b' + W))) with (b * W * (b' + W)) by (field; lra).
  replace (b' * W / (b' + W) * ((b + W) * (b' + W))) with (b' * W * (b + W)) by (field; lra).
  assert (b * (W * W) <= b' * (W * W)); [|nra]. apply Rmult_le_compat_r; nra.
Qed.
Lemma ladder_le_sum g k : (forall i, (i < k)%nat -> 0 <= g i) -> ladder W g k <= sumR k g.
Proof.
  induction k; cbn [ladder sumR]; intros H; [lra|]. pose proof (ladder_nonneg g k ltac:(auto)).
  specialize (IHk ltac:(auto)). specialize (H k ltac:(lia)). eapply Rle_trans; [apply step_le; lra|]. lra.
Qed.
Lemma ladder_mono g g' k : (forall i, (i < k)%nat -> 0 <= g i <= g' i) -> ladder W g k <= ladder W g' k.
Proof.
  induction k; cbn [ladder]; intros H; [lra|]. specialize (IHk ltac:(auto)).
  pose proof (ladder_nonneg g k (fun i Hi => proj1 (H i ltac:(lia)))). specialize (H k ltac:(lia)). apply step_mono. lra.
Qed.
Lemma ladder_zero g k : (forall i, (i < k)%nat -> g i = 0) -> ladder W g k = 0.
Proof. induction k; cbn [ladder]; intros H; [lra|]. rewrite IHk, H by auto. field. lra. Qed.
Lemma ladder_ext g g' k : (forall i, (i < k)%nat -> g i = g' i) -> ladder W g k = ladder W g' k.
Proof. induction k; cbn [ladder]; intros H; [reflexivity|]. now rewrite IHk, H by auto. Qed.
(** Never further from the ideal conductance S than k S^2 / W. *)
Lemma ladder_close g k : (forall i, (i < k)%nat -> 0 <= g i) ->
  sumR k g - ladder W g k <= INR k * (sumR k g * sumR k g) / W.
Proof.
  induction k; intros H; [cbn; lra|]. specialize (IHk ltac:(auto)).
  pose proof (ladder_nonneg g k ltac:(auto)) as A. pose proof (ladder_le_sum g k ltac:(auto)) as B.
  pose proof (H k ltac:(lia)) as G. cbn [ladder sumR]. rewrite S_INR.
  set (a := ladder W g k) in *. set (s := sumR k g) in *. set (x := g k) in *.
  assert (C : (a + x) - (a + x) * W / (a + x + W) <= (s + x) * (s + x) / W).
  { replace ((a + x) - (a + x) * W / (a + x + W)) with ((a + x) * (a + x) / (a + x + W)) by (field; lra).
    apply Rle_trans with ((a + x) * (a + x) / W).
    - unfold Rdiv. apply Rmult_le_compat_l; [nra|]. apply Rinv_le_contravar; lra.
    - unfold Rdiv. apply Rmult_le_compat_r; [left; apply Rinv_0_lt_compat; lra|]. nra. }
  assert (D : INR k * (s * s) / W <= INR k * ((s + x) * (s + x)) / W).
  { unfold Rdiv. apply Rmult_le_compat_r; [left; apply Rinv_0_lt_compat; lra|].
    apply Rmult_le_compat_l; [apply pos_INR|]. nra. }
  unfold Rdiv in *. nra.
Qed.
End L.

Lemma ladder_wire W W' g k : 0 < W <= W' -> (forall i, (i < k)%nat -> 0 <= g i) -> ladder W g k <= ladder W' g k.
Proof.
  intros HW. induction k; cbn [ladder]; intros H; [lra|]. specialize (IHk ltac:(auto)).
  pose proof (ladder_nonneg W ltac:(lra) g k ltac:(auto)). specialize (H k ltac:(lia)).
  eapply Rle_trans; [apply (step_mono W ltac:(lra) _ (ladder W' g k + g k)); lra|].
  set (b := ladder W' g k + g k). assert (Hb : 0 <= b) by (unfold b; lra).
  apply (Rmult_le_reg_r ((b + W) * (b + W'))); [nra|].
  replace (b * W / (b + W) * ((b + W) * (b + W'))) with (b * W * (b + W')) by (field; lra).
  replace (b * W' / (b + W') * ((b + W) * (b + W'))) with (b * W' * (b + W)) by (field; lra).
  assert (b * b * W <= b * b * W'); [|nra]. apply Rmult_le_compat_l; nra.
Qed.

(** ** Kirchhoff *)
Section K.
Context (V W : R) (g : nat -> R) (HW : 0 < W).

(** The current in segment k is what the voltage across the first k + 1 cells drives. *)
Lemma flow_of N u : (forall i, (i < N)%nat -> 0 <= g i) -> kirchhoff V W g N u ->
  forall k, (k < N)%nat -> W * (u k - u (S k)) = ladder W g (S k) * (V - u (S k)).
Proof.
  intros Hg [_ H]. induction k; intros Hk.
  - pose proof (H O Hk) as E. pose proof (Hg O Hk). cbn [ladder]. cbn in E.
    replace ((0 + g 0%nat) * W / (0 + g 0%nat + W)) with (g 0%nat * W / (g 0%nat + W)) by (field; lra).
    apply (Rmult_eq_reg_r (g 0%nat + W)); [|lra].
    replace (g 0%nat * W / (g 0%nat + W) * (V - u 1%nat) * (g 0%nat + W)) with (g 0%nat * W * (V - u 1%nat)) by (field; lra). nra.
  - specialize (IHk ltac:(lia)). pose proof (H (S k) Hk) as E. cbn iota in E. rewrite IHk in E.
    pose proof (ladder_nonneg W HW g (S k) ltac:(intros; apply Hg; lia)) as A.
    pose proof (Hg (S k) Hk) as B. change (ladder W g (S (S k))) with ((ladder W g (S k) + g (S k)) * W / (ladder W g (S k) + g (S k) + W)).
    set (b := ladder W g (S k)) in *. set (x := g (S k)) in *. set (p := u (S k)) in *. set (q := u (S (S k))) in *.
    apply (Rmult_eq_reg_r (b + x + W)); [|lra].
    replace ((b + x) * W / (b + x + W) * (V - q) * (b + x + W)) with ((b + x) * W * (V - q)) by (field; lra).
    assert (E2 : (b + x) * (V - p) = W * (p - q)) by lra. nra.
Qed.

(** Voltage across the cells, counted from the grounded end. *)
Fixpoint drop (N j : nat) : R :=
  match j with
  | O => V
  | S i => drop N i * (W / (ladder W g (N - S i) + g (N - S i)%nat + W))
  end.
Definition potential (N k : nat) : R := V - drop N (N - k).

Lemma potential_ok N : (forall i, (i < N)%nat -> 0 <= g i) -> kirchhoff V W g N (potential N).
Proof.
  intros Hg. split. { unfold potential. replace (N - N)%nat with O by lia. cbn. lra. }
  assert (D : forall k, (k < N)%nat ->
    drop N (N - k) = drop N (N - S k) * (W / (ladder W g k + g k + W))).
  { intros k Hk. replace (N - k)%nat with (S (N - S k)) by lia. cbn [drop].
    replace (N - S (N - S k))%nat with k by lia. reflexivity. }
  assert (P : forall k, (k <= N)%nat -> 0 <= ladder W g k) by (intros; apply ladder_nonneg; auto; intros; apply Hg; lia).
  assert (Fl : forall k, (k < N)%nat -> W * (potential N k - potential N (S k)) =
    (ladder W g k + g k) * (V - potential N k)).
  { intros k Hk. unfold potential. rewrite (D k Hk). pose proof (P k ltac:(lia)). pose proof (Hg k Hk). field. lra. }
  intros [|k] Hk; rewrite (Fl _ Hk).
  - cbn [ladder]. lra.
  - rewrite (Fl k ltac:(lia)). unfold potential. rewrite (D k ltac:(lia)).
    pose proof (P k ltac:(lia)). pose proof (Hg k ltac:(lia)). cbn [ladder]. field. lra.
Qed.

Lemma current_iff N I : (forall i, (i < N)%nat -> 0 <= g i) ->
  column_current V W g N I <-> I = ladder W g N * V.
Proof.
  intros Hg. assert (A : forall u, kirchhoff V W g N u -> outflow W N u = ladder W g N * V).
  { intros u Hu. destruct N as [|N]; [cbn; lra|]. cbn [outflow]. rewrite (flow_of (S N) u Hg Hu N) by lia.
    destruct Hu as [-> _]. lra. }
  split.
  - intros (u & Hu & ->). auto.
  - intros ->. exists (potential N). split; [now apply potential_ok|]. symmetry. apply A. now apply potential_ok.
Qed.
End K.

Lemma ideal_eq V g N : ideal_current V g N = sumR N g * V.
Proof.
  unfold ideal_current. rewrite <- sumR_mul_r. induction N; [reflexivity|].
  rewrite seq_S, map_app, fold_right_app. cbn [map fold_right plus sumR].
  assert (E : forall l x, fold_right Rplus x l = fold_right Rplus 0 l + x).
  { induction l; intros x; cbn; [lra|]. rewrite IHl. lra. }
  rewrite E, IHN. lra.
Qed.
