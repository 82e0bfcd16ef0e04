(** Buffer sizes are preserved by MVMs; only scratch buffers change. *)
From Coq Require Import List ZArith Bool Arith Lia ZifyBool ZifyNat String.
From RecordUpdate Require Import RecordSet.
From Verif Require Import Base Lib Hoare Machine Json Config Histogram Adc ReadDisturb Parasitics
  Mapper IntMappers BnnMappers TnnMappers Shape.
Import ListNotations RecordSetNotations.
Local Open Scope Z_scope.
Local Open Scope out_scope.

Section MS.
Context {MC : Machine}.

Notation MM c := (Z.to_nat (M c)).

(** Everything but the scratch vectors agrees. *)
Record keeps (mp mp' : mapper) : Prop := {
  kp_mode : mp_mode mp' = mp_mode mp;
  kp_diff : mp_diff mp' = mp_diff mp;
  kp_gp : gd_p mp' = gd_p mp;
  kp_gm : gd_m mp' = gd_m mp;
  kp_shift : shift mp' = shift mp;
  kp_sw : sum_w mp' = sum_w mp;
  kp_ip : ia_p mp' = ia_p mp;
  kp_im : ia_m mp' = ia_m mp;
  kp_ip0 : ia_p0 mp' = ia_p0 mp;
  kp_im0 : ia_m0 mp' = ia_m0 mp;
  kp_step : i_step mp' = i_step mp;
  kp_nseg : nseg mp' = nseg mp;
  kp_imm : i_mm mp' = i_mm mp;
  kp_delta : delta mp' = delta mp;
  kp_adc : mp_adc mp' = mp_adc mp;
  kp_par : par mp' = par mp
}.
Lemma keeps_refl mp : keeps mp mp.
Proof. now constructor. Qed.
Lemma keeps_trans a b d : keeps a b -> keeps b d -> keeps a d.
Proof. intros [] []. constructor; congruence. Qed.

Section T.
Context (ok : out False -> Prop) (HL : harmless ok) (c : config).
Notation oob := (ok (UB OutOfBounds)).
Notation len := List.length.

Lemma tri_load vec n f vd : oob \/ ((n <= len vec)%nat /\ (n <= len vd)%nat) ->
  (forall v, tri ok (fun _ => True) (f v)) ->
  tri ok (fun l => len l = len vd) (load vec n f vd).
Proof.
  intros HB Hf. unfold load. apply tri_loop; auto. intros j l Hj Hl.
  apply (tri_bind ok (fun _ => True)).
  { apply tri_get; auto. destruct HB as [HB|[]]; [auto|right; lia]. }
  intros v _. apply (tri_bind ok (fun _ => True)); auto. intros x _.
  apply tri_set; [destruct HB as [HB|[]]; [auto|right; lia]|].
  intros _. now rewrite upd_length.
Qed.

Ltac sets H :=
  apply (tri_bind ok (fun l : list Z => len l = H));
    [apply tri_set; [|intros _; rewrite upd_length; auto]|intros ?l ?Hl].

Lemma tri_split_pm vec n vp vm C :
  len vp = C -> len vm = C -> oob \/ ((n <= len vec)%nat /\ (n <= C)%nat) ->
  tri ok (fun '(a, b) => len a = C /\ len b = C) (split_pm vec n vp vm).
Proof.
  intros H1 H2 HB. unfold split_pm. apply tri_loop; auto. intros j [a b] Hj [Ha Hb].
  assert (HB' : oob \/ (j < C)%nat) by (destruct HB as [HB|[]]; [auto|right; lia]).
  apply (tri_bind ok (fun _ => True)).
  { apply tri_get; auto. destruct HB as [HB|[]]; [auto|right; lia]. }
  intros v _. destruct (0 <=? v).
  - sets C; [now rewrite Ha|]. sets C; [now rewrite Hb|]. cbn; auto.
  - sets C; [now rewrite Ha|]. apply (tri_bind ok (fun _ => True)); [now apply tri_chk32|].
    intros nv _. sets C; [now rewrite Hb|]. cbn; auto.
Qed.
Lemma tri_two_rail tern vec n vp vm C :
  len vp = C -> len vm = C -> oob \/ ((n <= len vec)%nat /\ (n <= C)%nat) ->
  tri ok (fun '(a, b) => len a = C /\ len b = C) (two_rail tern vec n vp vm).
Proof.
  intros H1 H2 HB. unfold two_rail. apply tri_loop; auto. intros j [a b] Hj [Ha Hb].
  assert (HB' : oob \/ (j < C)%nat) by (destruct HB as [HB|[]]; [auto|right; lia]).
  apply (tri_bind ok (fun _ => True)).
  { apply tri_get; auto. destruct HB as [HB|[]]; [auto|right; lia]. }
  intros v _. destruct (v =? 1); [|destruct (v =? -1); [|destruct (tern && _)]]; [| | |apply HL].
  - sets C; [now rewrite Ha|]. sets C; [now rewrite Hb|]. cbn; auto.
  - sets C; [now rewrite Hb|]. sets C; [now rewrite Ha|]. cbn; auto.
  - sets C; [now rewrite Hb|]. sets C; [now rewrite Ha|]. cbn; auto.
Qed.
Lemma tri_two_rail_sum vec n vp vm C :
  len vp = C -> len vm = C -> oob \/ ((n <= len vec)%nat /\ (n <= C)%nat) ->
  tri ok (fun '(a, b, _) => len a = C /\ len b = C) (two_rail_sum vec n vp vm).
Proof.
  intros H1 H2 HB. unfold two_rail_sum. apply tri_loop; auto. intros j [[a b] s] Hj [Ha Hb].
  assert (HB' : oob \/ (j < C)%nat) by (destruct HB as [HB|[]]; [auto|right; lia]).
  apply (tri_bind ok (fun _ => True)).
  { apply tri_get; auto. destruct HB as [HB|[]]; [auto|right; lia]. }
  intros v _. apply (tri_bind ok (fun _ => True)); [now apply tri_chk32|]. intros s' _.
  destruct (v =? 1); [|destruct (v =? -1)]; [| |apply HL].
  - sets C; [now rewrite Ha|]. sets C; [now rewrite Hb|]. cbn; auto.
  - sets C; [now rewrite Hb|]. sets C; [now rewrite Ha|]. cbn; auto.
Qed.

(** Terms. *)
Definition tt {A} : A -> Prop := fun _ => True.
Lemma tri_dterm R C a b v t n : wf2 R C a -> wf2 R C b ->
  oob \/ ((t < R)%nat /\ (n < C)%nat /\ (n < len v)%nat) -> tri ok tt (dterm a b v t n).
Proof.
  intros Ha Hb HB. unfold dterm.
  assert (HB' : oob \/ ((t < R)%nat /\ (n < C)%nat)) by (destruct HB as [?|(?&?&?)]; auto).
  apply (tri_bind ok tt). { eapply tri_get2; eauto. now intros. } intros x _.
  apply (tri_bind ok tt). { eapply tri_get2; eauto. now intros. } intros y _.
  apply (tri_bind ok tt). { now apply tri_chk32. } intros d _.
  apply (tri_bind ok tt). { apply tri_get; [destruct HB as [?|(?&?&?)]; auto|now intros]. } intros w _.
  now apply tri_chk32.
Qed.
Lemma tri_dterm1 R C a v t n : wf2 R C a ->
  oob \/ ((t < R)%nat /\ (n < C)%nat /\ (n < len v)%nat) -> tri ok tt (dterm1 a v t n).
Proof.
  intros Ha HB. unfold dterm1.
  assert (HB' : oob \/ ((t < R)%nat /\ (n < C)%nat)) by (destruct HB as [?|(?&?&?)]; auto).
  apply (tri_bind ok tt). { eapply tri_get2; eauto. now intros. } intros x _.
  apply (tri_bind ok tt). { apply tri_get; [destruct HB as [?|(?&?&?)]; auto|now intros]. } intros w _.
  now apply tri_chk32.
Qed.
Lemma tri_fterm R C (a b : list (list F)) v t n : wf2 R C a -> wf2 R C b ->
  oob \/ ((t < R)%nat /\ (n < C)%nat /\ (n < len v)%nat) -> tri ok tt (fterm a b v t n).
Proof.
  intros Ha Hb HB. unfold fterm.
  assert (HB' : oob \/ ((t < R)%nat /\ (n < C)%nat)) by (destruct HB as [?|(?&?&?)]; auto).
  apply (tri_bind ok tt). { eapply tri_get2; eauto. now intros. } intros x _.
  apply (tri_bind ok tt). { eapply tri_get2; eauto. now intros. } intros y _.
  apply (tri_bind ok tt). { apply tri_get; [destruct HB as [?|(?&?&?)]; auto|now intros]. } intros w _.
  exact I.
Qed.
Lemma tri_fterm1 R C (a : list (list F)) v t n : wf2 R C a ->
  oob \/ ((t < R)%nat /\ (n < C)%nat /\ (n < len v)%nat) -> tri ok tt (fterm1 a v t n).
Proof.
  intros Ha HB. unfold fterm1.
  assert (HB' : oob \/ ((t < R)%nat /\ (n < C)%nat)) by (destruct HB as [?|(?&?&?)]; auto).
  apply (tri_bind ok tt). { eapply tri_get2; eauto. now intros. } intros x _.
  apply (tri_bind ok tt). { apply tri_get; [destruct HB as [?|(?&?&?)]; auto|now intros]. } intros w _.
  exact I.
Qed.
Lemma tri_sum64 vec n : oob \/ (n <= len vec)%nat -> tri ok tt (sum64 vec n).
Proof.
  intros HB. unfold sum64. apply tri_loop; [exact I|]. intros j s Hj _.
  apply (tri_bind ok tt). { apply tri_get; [destruct HB; [auto|right; lia]|now intros]. } intros v _.
  now apply tri_chk64.
Qed.
Lemma tri_shift_add ns m shs t res :
  len shs = ns -> oob \/ ((m * ns <= len t)%nat /\ (m <= len res)%nat) ->
  tri ok (fun r => len r = len res) (shift_add ns m shs t res).
Proof.
  intros Hs HB. unfold shift_add. apply tri_acc2; auto. { destruct HB as [?|[]]; auto. }
  intros i s Hi Hsn.
  apply (tri_bind ok tt). { apply tri_get; [destruct HB as [?|[]]; [auto|right; nia]|now intros]. }
  intros x _. apply (tri_bind ok tt). { apply tri_get; [right; lia|now intros]. }
  intros y _. now apply tri_shl32.
Qed.
(** The loops of int_ii and int_v: shift-and-add followed by one correction. *)
Lemma tri_shift_corr ns m shs t res (f : nat -> list Z -> out (list Z)) :
  len shs = ns -> oob \/ ((m * ns <= len t)%nat /\ (m <= len res)%nat) ->
  (forall i r, (i < m)%nat -> len r = len res -> tri ok (fun r' => len r' = len res) (f i r)) ->
  tri ok (fun r => len r = len res)
   (forN m (fun i res =>
      res <- forN ns (fun s res =>
          x <- get t (i * ns + s) ;; sh <- get shs s ;;
          y <- shl32 strict_shl x sh ;; addto res i y) res ;;
      f i res) res).
Proof.
  intros Hs HB Hf. apply tri_loop; auto. intros i r Hi Hr.
  apply (tri_bind ok (fun r' => len r' = len res)).
  - apply tri_loop; auto. intros s r1 Hsn Hr1.
    apply (tri_bind ok tt). { apply tri_get; [destruct HB as [?|[]]; [auto|right; nia]|now intros]. }
    intros x _. apply (tri_bind ok tt). { apply tri_get; [right; lia|now intros]. }
    intros y _. apply (tri_bind ok tt). { now apply tri_shl32. }
    intros z _. apply (tri_weaken ok (fun l => len l = len r1)); [|congruence].
    apply tri_addto; auto. destruct HB as [?|[]]; [auto|right; lia].
  - intros r1 Hr1. now apply Hf.
Qed.

Ltac tb Q := apply (tri_bind ok Q); [|intros ?x ?Hx].
Ltac keep_goal := constructor; reflexivity.

Definition mvm_post (mp : mapper) (res : list Z) (o : list Z * mapper) : Prop :=
  shape c (snd o) /\ keeps mp (snd o) /\ len (fst o) = len res.

(** Changing scratch vectors of the right size keeps the shape. *)
Ltac shp Hs := destruct Hs; constructor; cbn; auto; intros; try congruence.

Ltac bd HB := first [ destruct HB as [?|(?&?&?&?)]; [left; assumption|right; unfold rowsN in *; nia] ].

Lemma int_i_d_tri mp res vec mat m n : shape c mp ->
  is_int (m_mode c) = true -> has_vdm (m_mode c) = true ->
  oob \/ ((m <= MM c)%nat /\ (n <= colsN c)%nat /\ (m <= len res)%nat /\ (n <= len vec)%nat) ->
  tri ok (mvm_post mp res) (int_i_d c mp res vec mat m n).
Proof.
  intros Hs Hi Hv HB. unfold int_i_d.
  pose proof (sh_gp _ _ Hs) as Hgp. pose proof (sh_gm _ _ Hs) as Hgm.
  apply (tri_bind ok (fun '(a, b) => len a = colsN c /\ len b = colsN c)).
  { apply tri_split_pm; [apply Hs|now apply Hs|]. bd HB. }
  intros [vp vm] [H1 H2].
  apply (tri_bind ok (fun t => len t = rowsN c)).
  { rewrite <- (sh_ti _ _ Hs Hi), <- (fill_length (tmp_int mp) 0). apply tri_acc2; auto.
    - rewrite fill_length, (sh_ti _ _ Hs Hi). bd HB.
    - intros i j Hi' Hj. eapply tri_dterm; eauto. rewrite H1. bd HB. }
  intros t1 Ht1.
  apply (tri_bind ok (fun r => len r = len res)).
  { apply tri_shift_add; [now apply sh_shift_len|]. rewrite Ht1. bd HB. }
  intros r1 Hr1.
  apply (tri_bind ok (fun t => len t = rowsN c)).
  { rewrite <- Ht1, <- (fill_length t1 0). apply tri_acc2; auto.
    - rewrite fill_length, Ht1. bd HB.
    - intros i j Hi' Hj. eapply tri_dterm; eauto. rewrite H2. bd HB. }
  intros t2 Ht2.
  apply (tri_bind ok (fun r => len r = len res)).
  { rewrite <- Hr1. apply tri_shift_add; [now apply sh_shift_len|]. rewrite Ht2, Hr1. bd HB. }
  intros r2 Hr2. split; [|split; [keep_goal|exact Hr2]].
  cbn. shp Hs.
Qed.

Lemma int_ii_d_tri mp res vec mat m n : shape c mp -> is_int (m_mode c) = true ->
  oob \/ ((m <= MM c)%nat /\ (n <= colsN c)%nat /\ (m <= len res)%nat /\ (n <= len vec)%nat) ->
  tri ok (mvm_post mp res) (int_ii_d c mp res vec mat m n).
Proof.
  intros Hs Hi HB. unfold int_ii_d.
  pose proof (sh_gp _ _ Hs) as Hgp. pose proof (sh_gm _ _ Hs) as Hgm.
  apply (tri_bind ok (fun v => len v = colsN c)).
  { rewrite <- (sh_vdp _ _ Hs). apply tri_load; [rewrite (sh_vdp _ _ Hs); bd HB|].
    intros v. apply (tri_bind ok tt); [now apply tri_shl32|]. intros; now apply tri_chk32. }
  intros vp H1.
  apply (tri_bind ok (fun t => len t = rowsN c)).
  { rewrite <- (sh_ti _ _ Hs Hi), <- (fill_length (tmp_int mp) 0). apply tri_acc2; auto.
    - rewrite fill_length, (sh_ti _ _ Hs Hi). bd HB.
    - intros i j Hi' Hj. eapply tri_dterm; eauto. rewrite H1. bd HB. }
  intros t Ht.
  apply (tri_bind ok (fun r => len r = len res)).
  { apply tri_shift_corr; [now apply sh_shift_len|rewrite Ht; bd HB|].
    intros i r Hi' Hr. apply (tri_bind ok tt).
    { apply tri_get; [rewrite (sh_sw _ _ Hs); bd HB|now intros]. }
    intros sw _. apply (tri_bind ok tt); [now apply tri_shl32|]. intros y _.
    rewrite <- Hr. apply tri_subto; auto. rewrite Hr. bd HB. }
  intros r2 Hr2. split; [|split; [keep_goal|exact Hr2]]. cbn. shp Hs.
Qed.

Lemma int_iii_d_tri mp res vec mat m n : shape c mp -> is_int (m_mode c) = true ->
  oob \/ ((m <= MM c)%nat /\ (n <= colsN c)%nat /\ (m <= len res)%nat /\ (n <= len vec)%nat) ->
  tri ok (mvm_post mp res) (int_iii_d c mp res vec mat m n).
Proof.
  intros Hs Hi HB. unfold int_iii_d.
  pose proof (sh_gp _ _ Hs) as Hgp. pose proof (sh_gm _ _ Hs) as Hgm.
  apply (tri_bind ok tt); [now apply tri_ones|]. intros mk _.
  apply (tri_bind ok (fun v => len v = colsN c)).
  { rewrite <- (sh_vdp _ _ Hs). apply tri_load; [rewrite (sh_vdp _ _ Hs); bd HB|].
    intros v. exact I. }
  intros v1 H1.
  apply (tri_bind ok (fun t => len t = rowsN c)).
  { rewrite <- (sh_ti _ _ Hs Hi), <- (fill_length (tmp_int mp) 0). apply tri_acc2; auto.
    - rewrite fill_length, (sh_ti _ _ Hs Hi). bd HB.
    - intros i j Hi' Hj. eapply tri_dterm; eauto. rewrite H1. bd HB. }
  intros t1 Ht1. apply (tri_bind ok tt); [now apply tri_shl32|]. intros mk2 _.
  apply (tri_bind ok (fun v => len v = colsN c)).
  { rewrite <- H1. apply tri_load; [rewrite H1; bd HB|]. intros v. exact I. }
  intros v2 H2.
  apply (tri_bind ok (fun t => len t = rowsN c)).
  { rewrite <- Ht1. apply tri_dec2; auto.
    - rewrite Ht1. bd HB.
    - intros i j Hi' Hj. eapply tri_dterm; eauto. rewrite H2. bd HB. }
  intros t2 Ht2.
  apply (tri_bind ok (fun r => len r = len res)).
  { apply tri_shift_add; [now apply sh_shift_len|]. rewrite Ht2. bd HB. }
  intros r2 Hr2. split; [|split; [keep_goal|exact Hr2]]. cbn. shp Hs.
Qed.

Lemma int_iv_d_tri mp res vec mat m n : shape c mp -> is_int (m_mode c) = true ->
  oob \/ ((m <= MM c)%nat /\ (n <= colsN c)%nat /\ (m <= len res)%nat /\ (n <= len vec)%nat) ->
  tri ok (mvm_post mp res) (int_iv_d c mp res vec mat m n).
Proof.
  intros Hs Hi HB. unfold int_iv_d.
  pose proof (sh_gp _ _ Hs) as Hgp. pose proof (sh_gm _ _ Hs) as Hgm.
  apply (tri_bind ok (fun t => len t = rowsN c)).
  { rewrite <- (sh_ti _ _ Hs Hi), <- (fill_length (tmp_int mp) 0). apply tri_acc2; auto.
    - rewrite fill_length, (sh_ti _ _ Hs Hi). bd HB.
    - intros i j Hi' Hj. eapply tri_dterm; eauto. bd HB. }
  intros t Ht.
  apply (tri_bind ok (fun r => len r = len res)).
  { apply tri_shift_add; [now apply sh_shift_len|]. rewrite Ht. bd HB. }
  intros r2 Hr2. split; [|split; [keep_goal|exact Hr2]]. cbn. shp Hs.
Qed.

Lemma int_v_d_tri mp res vec mat m n : shape c mp -> is_int (m_mode c) = true ->
  oob \/ ((m <= MM c)%nat /\ (n <= colsN c)%nat /\ (m <= len res)%nat /\ (n <= len vec)%nat) ->
  tri ok (mvm_post mp res) (int_v_d c mp res vec mat m n).
Proof.
  intros Hs Hi HB. unfold int_v_d.
  pose proof (sh_gp _ _ Hs) as Hgp. pose proof (sh_gm _ _ Hs) as Hgm.
  apply (tri_bind ok tt). { apply tri_sum64. bd HB. }
  intros isum _.
  apply (tri_bind ok (fun t => len t = rowsN c)).
  { rewrite <- (sh_ti _ _ Hs Hi), <- (fill_length (tmp_int mp) 0). apply tri_acc2; auto.
    - rewrite fill_length, (sh_ti _ _ Hs Hi). bd HB.
    - intros i j Hi' Hj. eapply tri_dterm1; eauto. bd HB. }
  intros t Ht.
  apply (tri_bind ok (fun r => len r = len res)).
  { apply tri_shift_corr; [now apply sh_shift_len|rewrite Ht; bd HB|].
    intros i r Hi' Hr. apply (tri_bind ok tt); [now apply tri_shl64|]. intros y _.
    rewrite <- Hr. apply tri_subto64; auto. rewrite Hr. bd HB. }
  intros r2 Hr2. split; [|split; [keep_goal|exact Hr2]]. cbn. shp Hs.
Qed.

(** ** Binary and ternary modes *)
Ltac bs HB HN := first [ destruct HB as [?|(?&?&?&?)]; [left; assumption|right; unfold rowsN in *; nia] ].

Lemma tri_enc_i v : tri ok tt (enc_i v).
Proof. apply (tri_bind ok tt); [now apply tri_chk32|]. intros; now apply tri_shr32. Qed.
Lemma tri_enc_ii v : tri ok tt (enc_ii v).
Proof. apply (tri_bind ok tt); [now apply tri_chk32|]. intros; exact I. Qed.

Lemma tri_rowfix m (sw res : list Z) (sub : bool) :
  oob \/ ((m <= len sw)%nat /\ (m <= len res)%nat) ->
  tri ok (fun r => len r = len res)
    (forN m (fun i res => s <- get sw i ;; if sub then subto res i s else addto res i s) res).
Proof.
  intros HB. apply tri_loop; auto. intros i r Hi Hr.
  apply (tri_bind ok tt). { apply tri_get; [destruct HB as [?|[]]; [auto|right; lia]|now intros]. }
  intros s _. rewrite <- Hr.
  assert (HB' : oob \/ (i < len r)%nat) by (destruct HB as [?|[]]; [auto|right; lia]).
  destruct sub; [apply tri_subto|apply tri_addto]; auto.
Qed.

Lemma bnn_i_d_tri mp res vec mat m n : shape c mp -> (1 <= nsplit c)%nat ->
  oob \/ ((m <= MM c)%nat /\ (n <= colsN c)%nat /\ (m <= len res)%nat /\ (n <= len vec)%nat) ->
  tri ok (mvm_post mp res) (bnn_i_d c mp res vec mat m n).
Proof.
  intros Hs HN HB. unfold bnn_i_d.
  pose proof (sh_gp _ _ Hs) as Hgp. pose proof (sh_gm _ _ Hs) as Hgm.
  apply (tri_bind ok (fun v => len v = colsN c)).
  { rewrite <- (sh_vdp _ _ Hs). apply tri_load; [rewrite (sh_vdp _ _ Hs); bd HB|apply tri_enc_i]. }
  intros vp H1.
  apply (tri_bind ok (fun r => len r = len res)).
  { apply tri_acc2; auto; [bd HB|]. intros i j Hi Hj. unfold dsel. apply (tri_bind ok tt).
    - eapply tri_dterm; eauto. rewrite H1. bs HB HN.
    - intros; now apply tri_chk32. }
  intros r1 Hr1. apply (tri_bind ok (fun r => len r = len res)).
  { rewrite <- Hr1. apply (tri_rowfix m (sum_w mp) r1 true). rewrite (sh_sw _ _ Hs), Hr1. bd HB. }
  intros r2 Hr2. split; [|split; [keep_goal|exact Hr2]]. cbn. shp Hs.
Qed.
Lemma bnn_ii_d_tri mp res vec mat m n : shape c mp -> (1 <= nsplit c)%nat ->
  oob \/ ((m <= MM c)%nat /\ (n <= colsN c)%nat /\ (m <= len res)%nat /\ (n <= len vec)%nat) ->
  tri ok (mvm_post mp res) (bnn_ii_d c mp res vec mat m n).
Proof.
  intros Hs HN HB. unfold bnn_ii_d.
  pose proof (sh_gp _ _ Hs) as Hgp. pose proof (sh_gm _ _ Hs) as Hgm.
  apply (tri_bind ok (fun v => len v = colsN c)).
  { rewrite <- (sh_vdp _ _ Hs). apply tri_load; [rewrite (sh_vdp _ _ Hs); bd HB|apply tri_enc_ii]. }
  intros vp H1.
  apply (tri_bind ok (fun r => len r = len res)).
  { apply tri_acc2; auto; [bd HB|]. intros i j Hi Hj. unfold dsel. apply (tri_bind ok tt).
    - eapply tri_dterm; eauto. rewrite H1. bs HB HN.
    - intros; now apply tri_chk32. }
  intros r1 Hr1. apply (tri_bind ok (fun r => len r = len res)).
  { rewrite <- Hr1. apply (tri_rowfix m (sum_w mp) r1 false). rewrite (sh_sw _ _ Hs), Hr1. bd HB. }
  intros r2 Hr2. split; [|split; [keep_goal|exact Hr2]]. cbn. shp Hs.
Qed.

Lemma tri_dsel2 R C g a b t n : wf2 R C g ->
  oob \/ ((t < R)%nat /\ (n < C)%nat /\ (n < len a)%nat /\ (n < len b)%nat) ->
  tri ok tt (dsel2 g a b t n).
Proof.
  intros Hg HB. unfold dsel2.
  apply (tri_bind ok tt). { eapply tri_dterm1; eauto. destruct HB as [?|(?&?&?&?)]; auto. } intros x _.
  apply (tri_bind ok tt). { eapply tri_dterm1; eauto. destruct HB as [?|(?&?&?&?)]; auto. } intros y _.
  apply (tri_bind ok tt); [now apply tri_chk32|]. intros; now apply tri_chk32.
Qed.

Lemma bnn_iii_d_tri mp res vec mat m n : shape c mp -> (1 <= nsplit c)%nat ->
  has_vdm (m_mode c) = true ->
  oob \/ ((m <= MM c)%nat /\ (n <= colsN c)%nat /\ (m <= len res)%nat /\ (n <= len vec)%nat) ->
  tri ok (mvm_post mp res) (bnn_iii_d c mp res vec mat m n).
Proof.
  intros Hs HN Hv HB. unfold bnn_iii_d.
  pose proof (sh_gp _ _ Hs) as Hgp.
  apply (tri_bind ok (fun '(a, b, _) => len a = colsN c /\ len b = colsN c)).
  { apply tri_two_rail_sum; [apply Hs|now apply Hs|]. bd HB. }
  intros [[vp vm] sm] [H1 H2].
  apply (tri_bind ok (fun r => len r = len res)).
  { apply tri_loop; auto. intros i r Hi Hr.
    apply (tri_bind ok (fun r => len r = len res)).
    { rewrite <- Hr. apply tri_subto; auto. rewrite Hr. bd HB. }
    intros r1 Hr1. apply tri_loop; auto. intros j r2 Hj Hr2. apply (tri_bind ok tt).
    - eapply tri_dsel2; eauto. rewrite H1, H2. bd HB.
    - intros x _. rewrite <- Hr2. apply tri_addto; auto. rewrite Hr2. bd HB. }
  intros r2 Hr2. split; [|split; [keep_goal|exact Hr2]]. cbn. shp Hs.
Qed.
Lemma bnn_iv_d_tri mp res vec mat m n : shape c mp -> (1 <= nsplit c)%nat ->
  has_vdm (m_mode c) = true ->
  oob \/ ((m <= MM c)%nat /\ (n <= colsN c)%nat /\ (m <= len res)%nat /\ (n <= len vec)%nat) ->
  tri ok (mvm_post mp res) (bnn_iv_d c mp res vec mat m n).
Proof.
  intros Hs HN Hv HB. unfold bnn_iv_d.
  pose proof (sh_gp _ _ Hs) as Hgp.
  apply (tri_bind ok (fun '(a, b, _) => len a = colsN c /\ len b = colsN c)).
  { apply tri_two_rail_sum; [apply Hs|now apply Hs|]. bd HB. }
  intros [[vp vm] sm] [H1 H2].
  apply (tri_bind ok (fun r => len r = len res)).
  { apply tri_loop; auto. intros i r Hi Hr.
    apply (tri_bind ok (fun r => len r = len res)).
    { rewrite <- Hr. apply tri_addto; auto. rewrite Hr. bd HB. }
    intros r1 Hr1. apply tri_loop; auto. intros j r2 Hj Hr2. apply (tri_bind ok tt).
    - eapply tri_dsel2; eauto. rewrite H1, H2. bd HB.
    - intros x _. rewrite <- Hr2. apply tri_addto; auto. rewrite Hr2. bd HB. }
  intros r2 Hr2. split; [|split; [keep_goal|exact Hr2]]. cbn. shp Hs.
Qed.
Lemma bnn_v_d_tri mp res vec mat m n : shape c mp -> (1 <= nsplit c)%nat ->
  has_vdm (m_mode c) = true ->
  oob \/ ((m <= MM c)%nat /\ (n <= colsN c)%nat /\ (m <= len res)%nat /\ (n <= len vec)%nat) ->
  tri ok (mvm_post mp res) (bnn_v_d c mp res vec mat m n).
Proof.
  intros Hs HN Hv HB. unfold bnn_v_d.
  pose proof (sh_gp _ _ Hs) as Hgp. pose proof (sh_gm _ _ Hs) as Hgm.
  apply (tri_bind ok (fun '(a, b) => len a = colsN c /\ len b = colsN c)).
  { apply tri_two_rail; [apply Hs|now apply Hs|]. bd HB. }
  intros [vp vm] [H1 H2].
  apply (tri_bind ok (fun r => len r = len res)).
  { apply tri_loop; auto. intros i r Hi Hr.
    apply (tri_bind ok (fun r => len r = len res)).
    { rewrite <- Hr. apply tri_subto; auto. rewrite Hr. bd HB. }
    intros r1 Hr1. apply tri_loop; auto. intros j r2 Hj Hr2.
    apply (tri_bind ok tt). { eapply tri_dterm1; eauto. rewrite H1. bd HB. } intros x _.
    apply (tri_bind ok tt). { eapply tri_dterm1; eauto. rewrite H2. bd HB. } intros y _.
    apply (tri_bind ok tt); [now apply tri_chk32|]. intros s _.
    apply (tri_bind ok tt); [now apply tri_shl32|]. intros z _.
    rewrite <- Hr2. apply tri_addto; auto. rewrite Hr2. bd HB. }
  intros r2 Hr2. split; [|split; [keep_goal|exact Hr2]]. cbn. shp Hs.
Qed.
Lemma tri_dquad R C gp gm vp vm t n : wf2 R C gp -> wf2 R C gm ->
  oob \/ ((t < R)%nat /\ (n < C)%nat /\ (n < len vp)%nat /\ (n < len vm)%nat) ->
  tri ok tt (dquad gp gm vp vm t n).
Proof.
  intros Hp Hm HB. unfold dquad.
  do 4 (apply (tri_bind ok tt); [eapply tri_dterm1; eauto; destruct HB as [?|(?&?&?&?)]; auto|intros ? _]).
  do 2 (apply (tri_bind ok tt); [now apply tri_chk32|intros ? _]). now apply tri_chk32.
Qed.
Lemma quad_d_tri tern mp res vec mat m n : shape c mp -> (1 <= nsplit c)%nat ->
  has_vdm (m_mode c) = true ->
  oob \/ ((m <= MM c)%nat /\ (n <= colsN c)%nat /\ (m <= len res)%nat /\ (n <= len vec)%nat) ->
  tri ok (mvm_post mp res) (quad_d tern c mp res vec mat m n).
Proof.
  intros Hs HN Hv HB. unfold quad_d.
  pose proof (sh_gp _ _ Hs) as Hgp. pose proof (sh_gm _ _ Hs) as Hgm.
  apply (tri_bind ok (fun '(a, b) => len a = colsN c /\ len b = colsN c)).
  { apply tri_two_rail; [apply Hs|now apply Hs|]. bd HB. }
  intros [vp vm] [H1 H2].
  apply (tri_bind ok (fun r => len r = len res)).
  { apply tri_acc2; auto; [bd HB|]. intros i j Hi Hj. eapply tri_dquad; eauto.
    rewrite H1, H2. bd HB. }
  intros r2 Hr2. split; [|split; [keep_goal|exact Hr2]]. cbn. shp Hs.
Qed.

Lemma tri_dshl1 R C gp gm v t n : wf2 R C gp -> wf2 R C gm ->
  oob \/ ((t < R)%nat /\ (n < C)%nat /\ (n < len v)%nat) -> tri ok tt (dshl1 gp gm v t n).
Proof.
  intros Hp Hm HB. unfold dshl1. apply (tri_bind ok tt); [eapply tri_dterm; eauto|].
  intros; now apply tri_shl32.
Qed.
Lemma tnn_ii_d_tri mp res vec mat m n : shape c mp -> (1 <= nsplit c)%nat ->
  oob \/ ((m <= MM c)%nat /\ (n <= colsN c)%nat /\ (m <= len res)%nat /\ (n <= len vec)%nat) ->
  tri ok (mvm_post mp res) (tnn_ii_d c mp res vec mat m n).
Proof.
  intros Hs HN HB. unfold tnn_ii_d.
  pose proof (sh_gp _ _ Hs) as Hgp. pose proof (sh_gm _ _ Hs) as Hgm.
  apply (tri_bind ok (fun v => len v = colsN c)).
  { rewrite <- (sh_vdp _ _ Hs). apply tri_load; [rewrite (sh_vdp _ _ Hs); bd HB|now intros]. }
  intros v0 H1.
  apply (tri_bind ok (fun r => len r = len res)).
  { apply tri_acc2; auto; [bd HB|]. intros i j Hi Hj.
    eapply tri_dterm; eauto. rewrite H1. bd HB. }
  intros r1 Hr1.
  apply (tri_bind ok (fun v => len v = colsN c)).
  { rewrite <- H1. apply tri_load; [rewrite H1; bd HB|now intros]. }
  intros v1 H2. apply (tri_bind ok (fun r => len r = len res)).
  { rewrite <- Hr1. apply tri_dec2; auto; [rewrite Hr1; bd HB|]. intros i j Hi Hj.
    eapply tri_dshl1; eauto. rewrite H2. bd HB. }
  intros r2 Hr2. split; [|split; [keep_goal|exact Hr2]]. cbn. shp Hs.
Qed.
Lemma tri_bit0_iii v : tri ok tt (bit0_iii v).
Proof. apply (tri_bind ok tt); [now apply tri_chk32|]. intros; exact I. Qed.
Lemma tri_bit1_iii v : tri ok tt (bit1_iii v).
Proof. apply (tri_bind ok tt); [now apply tri_chk32|]. intros; exact I. Qed.
Lemma tnn_iii_d_tri mp res vec mat m n : shape c mp -> (1 <= nsplit c)%nat ->
  oob \/ ((m <= MM c)%nat /\ (n <= colsN c)%nat /\ (m <= len res)%nat /\ (n <= len vec)%nat) ->
  tri ok (mvm_post mp res) (tnn_iii_d c mp res vec mat m n).
Proof.
  intros Hs HN HB. unfold tnn_iii_d.
  pose proof (sh_gp _ _ Hs) as Hgp. pose proof (sh_gm _ _ Hs) as Hgm.
  apply (tri_bind ok (fun v => len v = colsN c)).
  { rewrite <- (sh_vdp _ _ Hs). apply tri_load; [rewrite (sh_vdp _ _ Hs); bd HB|apply tri_bit0_iii]. }
  intros v0 H1.
  apply (tri_bind ok (fun r => len r = len res)).
  { apply tri_acc2; auto; [bd HB|]. intros i j Hi Hj.
    eapply tri_dterm; eauto. rewrite H1. bd HB. }
  intros r1 Hr1.
  apply (tri_bind ok (fun v => len v = colsN c)).
  { rewrite <- H1. apply tri_load; [rewrite H1; bd HB|apply tri_bit1_iii]. }
  intros v1 H2. apply (tri_bind ok (fun r => len r = len res)).
  { rewrite <- Hr1. apply tri_acc2; auto; [rewrite Hr1; bd HB|]. intros i j Hi Hj.
    eapply tri_dshl1; eauto. rewrite H2. bd HB. }
  intros r2 Hr2. apply (tri_bind ok (fun r => len r = len res)).
  { rewrite <- Hr2. apply (tri_rowfix m (sum_w mp) r2 true). rewrite (sh_sw _ _ Hs), Hr2. bd HB. }
  intros r3 Hr3. split; [|split; [keep_goal|exact Hr3]]. cbn. shp Hs.
Qed.
Lemma tri_dtc plus R C gp gm vp vm t n : wf2 R C gp -> wf2 R C gm ->
  oob \/ ((t < R)%nat /\ (n < C)%nat /\ (n < len vp)%nat /\ (n < len vm)%nat) ->
  tri ok tt (dtc plus gp gm vp vm t n).
Proof.
  intros Hp Hm HB. unfold dtc.
  assert (HB' : oob \/ ((t < R)%nat /\ (n < C)%nat)) by (destruct HB as [?|(?&?&?&?)]; auto).
  apply (tri_bind ok tt). { apply tri_get; [destruct HB as [?|(?&?&?&?)]; auto|now intros]. } intros a _.
  apply (tri_bind ok tt). { apply tri_get; [destruct HB as [?|(?&?&?&?)]; auto|now intros]. } intros b _.
  apply (tri_bind ok tt); [now apply tri_chk32|]. intros d _.
  apply (tri_bind ok tt). { eapply tri_get2; eauto. now intros. } intros g _.
  apply (tri_bind ok tt); [now apply tri_chk32|]. intros x _.
  apply (tri_bind ok tt). { eapply tri_get2; eauto. now intros. } intros h _.
  apply (tri_bind ok tt); [now apply tri_chk32|]. intros y _.
  apply (tri_bind ok tt); [now apply tri_shl32|]. intros z _.
  destruct plus; now apply tri_chk32.
Qed.
Lemma tnn_iv_d_tri mp res vec mat m n : shape c mp -> (1 <= nsplit c)%nat ->
  has_vdm (m_mode c) = true ->
  oob \/ ((m <= MM c)%nat /\ (n <= colsN c)%nat /\ (m <= len res)%nat /\ (n <= len vec)%nat) ->
  tri ok (mvm_post mp res) (tnn_iv_d c mp res vec mat m n).
Proof.
  intros Hs HN Hv HB. unfold tnn_iv_d. destruct (split11 _); [|apply HL].
  pose proof (sh_gp _ _ Hs) as Hgp. pose proof (sh_gm _ _ Hs) as Hgm.
  apply (tri_bind ok (fun '(a, b) => len a = colsN c /\ len b = colsN c)).
  { apply tri_two_rail; [apply Hs|now apply Hs|]. bd HB. }
  intros [vp vm] [H1 H2].
  apply (tri_bind ok (fun r => len r = len res)).
  { apply tri_acc2; auto; [bd HB|]. intros i j Hi Hj. eapply tri_dtc; eauto.
    rewrite H1, H2. bd HB. }
  intros r2 Hr2. split; [|split; [keep_goal|exact Hr2]]. cbn. shp Hs.
Qed.
Lemma tnn_v_d_tri mp res vec mat m n : shape c mp -> (1 <= nsplit c)%nat ->
  has_vdm (m_mode c) = true ->
  oob \/ ((m <= MM c)%nat /\ (n <= colsN c)%nat /\ (m <= len res)%nat /\ (n <= len vec)%nat) ->
  tri ok (mvm_post mp res) (tnn_v_d c mp res vec mat m n).
Proof.
  intros Hs HN Hv HB. unfold tnn_v_d. destruct (split11 _); [|apply HL].
  pose proof (sh_gp _ _ Hs) as Hgp. pose proof (sh_gm _ _ Hs) as Hgm.
  apply (tri_bind ok tt). { apply tri_sum64. bd HB. } intros isum _.
  apply (tri_bind ok (fun '(a, b) => len a = colsN c /\ len b = colsN c)).
  { apply tri_two_rail; [apply Hs|now apply Hs|]. bd HB. }
  intros [vp vm] [H1 H2].
  apply (tri_bind ok (fun r => len r = len res)).
  { apply tri_loop; auto. intros i r Hi Hr.
    apply (tri_bind ok (fun r => len r = len res)).
    { apply tri_loop; auto. intros j r1 Hj Hr1. apply (tri_bind ok tt).
      - eapply tri_dtc; eauto. rewrite H1, H2. bd HB.
      - intros x _. rewrite <- Hr1. apply tri_addto; auto. rewrite Hr1. bd HB. }
    intros r1 Hr1. rewrite <- Hr1. apply tri_subto64; auto. rewrite Hr1. bd HB. }
  intros r2 Hr2. split; [|split; [keep_goal|exact Hr2]]. cbn. shp Hs.
Qed.

Lemma d_mvm_tri mp res vec mat m n : cfg_wf c -> shape c mp ->
  oob \/ ((m <= MM c)%nat /\ (n <= colsN c)%nat /\ (m <= len res)%nat /\ (n <= len vec)%nat) ->
  tri ok (mvm_post mp res) (d_mvm c mp res vec mat m n).
Proof.
  intros Hw Hs HB. unfold d_mvm. rewrite (sh_mode _ _ Hs).
  pose proof (wf_ns _ Hw) as HN. destruct (m_mode c) eqn:Em.
  1-2: apply int_i_d_tri; auto; now rewrite Em.
  1: apply int_ii_d_tri; auto; now rewrite Em.
  1: apply int_iii_d_tri; auto; now rewrite Em.
  1: apply int_iv_d_tri; auto; now rewrite Em.
  1: apply int_v_d_tri; auto; now rewrite Em.
  all: specialize (HN eq_refl).
  - now apply bnn_i_d_tri.
  - now apply bnn_ii_d_tri.
  - apply bnn_iii_d_tri; auto; now rewrite Em.
  - apply bnn_iv_d_tri; auto; now rewrite Em.
  - apply bnn_v_d_tri; auto; now rewrite Em.
  - apply quad_d_tri; auto; now rewrite Em.
  - apply quad_d_tri; auto; now rewrite Em.
  - now apply tnn_ii_d_tri.
  - now apply tnn_iii_d_tri.
  - apply tnn_iv_d_tri; auto; now rewrite Em.
  - apply tnn_v_d_tri; auto; now rewrite Em.
Qed.
End T.
End MS.
