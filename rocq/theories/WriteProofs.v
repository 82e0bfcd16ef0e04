(** Effect of the digital writes on the stored cells. *)
From Coq Require Import List ZArith Bool Arith Lia ZifyBool ZifyNat String.
From Verif Require Import Base Lib Machine Json Config Histogram Adc ReadDisturb Parasitics Mapper.
Import ListNotations.
Local Open Scope Z_scope.
Local Open Scope out_scope.
Ltac Zify.zify_post_hook ::= Z.div_mod_to_equations.

(** [g'] is [g] with the cells selected by [dom] replaced by [val]. *)
Definition patched (R C : nat) (dom : nat -> nat -> bool) (val : nat -> nat -> Z)
    (g g' : list (list Z)) : Prop :=
  wf2 R C g' /\
  forall r k, (r < R)%nat -> (k < C)%nat ->
    at2 0 g' r k = if dom r k then val r k else at2 0 g r k.

Lemma patched_none R C val g : wf2 R C g -> patched R C (fun _ _ => false) val g g.
Proof. intros H. split; auto. Qed.
Lemma patched_one R C g i j x val : wf2 R C g -> (i < R)%nat -> (j < C)%nat -> x = val i j ->
  patched R C (fun r k => (r =? i)%nat && (k =? j)%nat) val g (upd2 g i j x).
Proof.
  intros H Hi Hj ->. split; [now apply wf2_upd2|]. intros r k Hr Hk.
  rewrite (at2_upd2 0 R C) by auto.
  destruct ((r =? i)%nat && (k =? j)%nat) eqn:E; auto.
  apply andb_true_iff in E. destruct E as [E1 E2].
  apply Nat.eqb_eq in E1. apply Nat.eqb_eq in E2. now subst.
Qed.
Lemma patched_ext R C d1 d2 v1 v2 g g' :
  (forall r k, (r < R)%nat -> (k < C)%nat -> d1 r k = d2 r k) ->
  (forall r k, (r < R)%nat -> (k < C)%nat -> d1 r k = true -> v1 r k = v2 r k) ->
  patched R C d1 v1 g g' -> patched R C d2 v2 g g'.
Proof.
  intros Hd Hv [H1 H2]. split; auto. intros r k Hr Hk. rewrite H2, <- Hd by auto.
  destruct (d1 r k) eqn:E; auto.
Qed.
Lemma patched_trans R C d1 d2 v g g' g'' :
  patched R C d1 v g g' -> patched R C d2 v g' g'' ->
  patched R C (fun r k => d1 r k || d2 r k) v g g''.
Proof.
  intros [H1 H2] [H3 H4]. split; auto. intros r k Hr Hk. rewrite H4, H2 by auto.
  destruct (d1 r k), (d2 r k); reflexivity.
Qed.
Lemma patched_wf R C d v g g' : patched R C d v g g' -> wf2 R C g'.
Proof. now intros [H _]. Qed.

Lemma patched_zero R C d v g : (forall r k, d r k = false) -> wf2 R C g -> patched R C d v g g.
Proof. intros H W. split; auto. intros r k _ _. now rewrite H. Qed.

Section W.
Context {MC : Machine}.

(** Rows of block [i] (of [ns] rows each), column [j]. *)
Definition blk (ns i j r k : nat) : bool :=
  ((i * ns <=? r) && (r <? i * ns + ns) && (k =? j))%nat.
(** First [m] blocks, first [n] columns. *)
Definition rect (ns m n r k : nat) : bool := ((r <? m * ns) && (k <? n))%nat.

Notation gmats := (list (list Z) * list (list Z))%type.

(** What storing one weight must do: [bm = false] leaves the second array alone. *)
Definition put_spec (R C ns : nat) (bm : bool) (put : nat -> nat -> Z -> gmats -> out gmats)
    (vp vm : nat -> nat -> Z) (i j : nat) (w : Z) : Prop :=
  forall gp gm, wf2 R C gp -> wf2 R C gm ->
  exists gp' gm', put i j w (gp, gm) = Ok (gp', gm') /\
    patched R C (blk ns i j) vp gp gp' /\
    patched R C (fun r k => bm && blk ns i j r k) vm gm gm'.

Definition rowsum (mat : list Z) (n i : nat) : Z := sumZ n (fun j => nth (n * i + j) mat 0).

Lemma write_plain_ok R C ns bm put vp vm mat m n gp gm sw :
  wf2 R C gp -> wf2 R C gm -> (m * n <= List.length mat)%nat ->
  (forall i j, (i < m)%nat -> (j < n)%nat -> put_spec R C ns bm put vp vm i j (nth (n * i + j) mat 0)) ->
  exists gp' gm', write_plain put mat m n (gp, gm, sw) = Ok (gp', gm', sw) /\
    patched R C (rect ns m n) vp gp gp' /\
    patched R C (fun r k => bm && rect ns m n r k) vm gm gm'.
Proof.
  intros Hp Hm Hl Hput. unfold write_plain.
  set (body := fun i st => forN n _ st).
  assert (HH : exists s', forN m body (gp, gm, sw) = Ok s' /\
     (fun k (s : cells) => exists gp' gm', s = (gp', gm', sw) /\
        patched R C (rect ns k n) vp gp gp' /\
        patched R C (fun r c => bm && rect ns k n r c) vm gm gm') m s').
  { refine (forN_inv (fun k (s : cells) => exists gp' gm', s = (gp', gm', sw) /\
        patched R C (rect ns k n) vp gp gp' /\
        patched R C (fun r c => bm && rect ns k n r c) vm gm gm') _ _ _ _ _); cbn beta.
    - exists gp, gm. split; auto. split.
      + apply patched_zero; [intros; unfold rect; lia|eauto using patched_wf].
      + apply patched_zero; [intros; unfold rect; lia|eauto using patched_wf].
    - intros i s Hi (gp1 & gm1 & -> & P1 & P2). subst body. cbn beta.
      assert (HI : exists s', forN n (fun j '(gp, gm, sw) =>
            w <- get mat (n * i + j) ;; '(gp, gm) <- put i j w (gp, gm) ;; Ok (gp, gm, sw))
            (gp1, gm1, sw) = Ok s' /\
     (fun k (s : cells) => exists gp' gm', s = (gp', gm', sw) /\
            patched R C (fun r c => (i * ns <=? r)%nat && (r <? i * ns + ns)%nat && (c <? k)%nat) vp gp1 gp' /\
            patched R C (fun r c => bm && ((i * ns <=? r)%nat && (r <? i * ns + ns)%nat && (c <? k)%nat)) vm gm1 gm') n s').
      { refine (forN_inv (fun k (s : cells) => exists gp' gm', s = (gp', gm', sw) /\
            patched R C (fun r c => (i * ns <=? r)%nat && (r <? i * ns + ns)%nat && (c <? k)%nat) vp gp1 gp' /\
            patched R C (fun r c => bm && ((i * ns <=? r)%nat && (r <? i * ns + ns)%nat && (c <? k)%nat)) vm gm1 gm') _ _ _ _ _); cbn beta.
        - exists gp1, gm1. split; auto. split.
          + apply patched_zero; [intros; unfold rect; lia|eauto using patched_wf].
          + apply patched_zero; [intros; unfold rect; lia|eauto using patched_wf].
        - intros j s Hj (gp2 & gm2 & -> & Q1 & Q2).
          rewrite (get_ok mat _ 0) by nia. cbn [bind].
          destruct (Hput i j Hi Hj gp2 gm2) as (gp3 & gm3 & E & T1 & T2);
            [eapply patched_wf; eauto..|].
          rewrite E. cbn [bind]. eexists. split; [reflexivity|].
          exists gp3, gm3. split; auto. split.
          + eapply patched_ext; [| |eapply patched_trans; [exact Q1|exact T1]].
            * intros. unfold blk. cbn beta. lia.
            * auto.
          + eapply patched_ext; [| |eapply patched_trans; [exact Q2|exact T2]].
            * intros. unfold blk. cbn beta. destruct bm; lia.
            * auto. }
      destruct HI as (s' & E & gp2 & gm2 & -> & Q1 & Q2).
      exists (gp2, gm2, sw). split; [exact E|]. exists gp2, gm2. split; auto. split.
      + eapply patched_ext; [| |eapply patched_trans; [exact P1|exact Q1]].
        * intros. unfold rect. cbn beta. lia.
        * auto.
      + eapply patched_ext; [| |eapply patched_trans; [exact P2|exact Q2]].
        * intros. unfold rect. cbn beta. destruct bm; lia.
        * auto. }
  destruct HH as (s' & E & gp' & gm' & -> & P1 & P2).
  exists gp', gm'. auto.
Qed.

Lemma write_sum_ok R C ns put vp vm mat m n gp gm sw :
  wf2 R C gp -> wf2 R C gm -> (m * n <= List.length mat)%nat -> (m <= List.length sw)%nat ->
  (forall i j, (i < m)%nat -> (j < n)%nat -> put_spec R C ns true put vp vm i j (nth (n * i + j) mat 0)) ->
  (forall i, (i < m)%nat -> sumZ n (fun j => Z.abs (nth (n * i + j) mat 0)) <= int_max) ->
  exists gp' gm', write_sum put mat m n (gp, gm, sw) =
      Ok (gp', gm', upto m (fun i _ => rowsum mat n i) sw) /\
    patched R C (rect ns m n) vp gp gp' /\
    patched R C (rect ns m n) vm gm gm'.
Proof.
  intros Hp Hm Hl Hsw Hput Hsum. unfold write_sum.
  set (body := fun i '(gp, gm, sw) => _).
  assert (HH : exists s', forN m body (gp, gm, sw) = Ok s' /\
     (fun k (s : cells) => exists gp' gm', s = (gp', gm', upto k (fun i _ => rowsum mat n i) sw) /\
        patched R C (rect ns k n) vp gp gp' /\
        patched R C (rect ns k n) vm gm gm') m s').
  { refine (forN_inv (fun k (s : cells) => exists gp' gm', s = (gp', gm', upto k (fun i _ => rowsum mat n i) sw) /\
        patched R C (rect ns k n) vp gp gp' /\
        patched R C (rect ns k n) vm gm gm') _ _ _ _ _); cbn beta.
    - exists gp, gm. rewrite upto_0. split; auto. split.
      + apply patched_zero; [intros; unfold rect; lia|eauto using patched_wf].
      + apply patched_zero; [intros; unfold rect; lia|eauto using patched_wf].
    - intros i s Hi (gp1 & gm1 & -> & P1 & P2). subst body. cbn beta iota.
      assert (HI : exists s', forN n (fun j '(gp, gm, sm) =>
            v <- get mat (n * i + j) ;; sm <- add32 sm v ;;
            '(gp, gm) <- put i j v (gp, gm) ;; Ok (gp, gm, sm))
            (gp1, gm1, 0) = Ok s' /\
     (fun k (s : gmats * Z) => exists gp' gm', s = (gp', gm', sumZ k (fun j => nth (n * i + j) mat 0)) /\
            patched R C (fun r c => (i * ns <=? r)%nat && (r <? i * ns + ns)%nat && (c <? k)%nat) vp gp1 gp' /\
            patched R C (fun r c => ((i * ns <=? r)%nat && (r <? i * ns + ns)%nat && (c <? k)%nat)) vm gm1 gm') n s').
      { refine (forN_inv (fun k (s : gmats * Z) => exists gp' gm', s = (gp', gm', sumZ k (fun j => nth (n * i + j) mat 0)) /\
            patched R C (fun r c => (i * ns <=? r)%nat && (r <? i * ns + ns)%nat && (c <? k)%nat) vp gp1 gp' /\
            patched R C (fun r c => ((i * ns <=? r)%nat && (r <? i * ns + ns)%nat && (c <? k)%nat)) vm gm1 gm') _ _ _ _ _); cbn beta.
        - exists gp1, gm1. split; auto. split.
          + apply patched_zero; [intros; unfold rect; lia|eauto using patched_wf].
          + apply patched_zero; [intros; unfold rect; lia|eauto using patched_wf].
        - intros j s Hj (gp2 & gm2 & -> & Q1 & Q2).
          rewrite (get_ok mat _ 0) by nia. cbn [bind].
          rewrite add32_ok.
          2:{ pose proof (sumZ_abs (S j) (fun j => nth (n * i + j) mat 0)) as HA.
              assert (sumZ (S j) (fun j => Z.abs (nth (n * i + j) mat 0)) <=
                      sumZ n (fun j => Z.abs (nth (n * i + j) mat 0)))
                by (apply sumZ_mono; [intros; lia|lia]).
              specialize (Hsum i Hi). cbn [sumZ] in *. unfold int_min, int_max in *. lia. }
          cbn [bind].
          destruct (Hput i j Hi Hj gp2 gm2) as (gp3 & gm3 & E & T1 & T2);
            [eapply patched_wf; eauto..|].
          rewrite E. cbn [bind]. eexists. split; [reflexivity|].
          exists gp3, gm3. split; auto. split.
          + eapply patched_ext; [| |eapply patched_trans; [exact Q1|exact T1]].
            * intros. unfold blk. cbn beta. lia.
            * auto.
          + eapply patched_ext; [| |eapply patched_trans; [exact Q2|exact T2]].
            * intros. unfold blk. cbn beta. lia.
            * auto. }
      destruct HI as (s' & E & gp2 & gm2 & -> & Q1 & Q2).
      rewrite E. cbn [bind]. rewrite set_ok by (rewrite upto_length; lia). cbn [bind].
      eexists. split; [reflexivity|]. exists gp2, gm2.
      split. { rewrite (upto_S i _ sw 0) by lia. reflexivity. }
      split.
      + eapply patched_ext; [| |eapply patched_trans; [exact P1|exact Q1]].
        * intros. unfold rect. cbn beta. lia.
        * auto.
      + eapply patched_ext; [| |eapply patched_trans; [exact P2|exact Q2]].
        * intros. unfold rect. cbn beta. lia.
        * auto. }
  destruct HH as (s' & E & gp' & gm' & -> & P1 & P2).
  exists gp', gm'. auto.
Qed.

(** ** The five ways of storing one weight *)

Definition slice (sh sp v : Z) : Z := Z.land (Z.shiftr v sh) (2 ^ sp - 1).

Lemma ones_ok k : 0 <= k <= 30 -> ones k = Ok (2 ^ k - 1).
Proof.
  intros H. unfold ones.
  assert (0 < 2 ^ k <= 2 ^ 30) by (split; [lia|apply Z.pow_le_mono_r; lia]).
  rewrite shl32_ok by (unfold int_min, int_max; lia).
  cbn [bind]. rewrite sub32_ok by (unfold int_min, int_max; lia).
  now rewrite Z.mul_1_l.
Qed.

Lemma blk_div ns i s : (s < ns)%nat -> ((i * ns + s) / ns = i /\ (i * ns + s) mod ns = s)%nat.
Proof.
  intros H. split.
  - symmetry. apply (Nat.div_unique _ ns i s); lia.
  - symmetry. apply (Nat.mod_unique _ ns i s); lia.
Qed.

(** Values stored by the differential integer modes: slice [s] of [w]. *)
Definition diff_p (split shs : list Z) (w : Z) (s : nat) : Z :=
  if 0 <=? w then slice (nth s shs 0) (nth s split 0) w else 0.
Definition diff_m (split shs : list Z) (w : Z) (s : nat) : Z :=
  if 0 <=? w then 0 else slice (nth s shs 0) (nth s split 0) (- w).
Definition offs_p (split shs : list Z) (wbit w : Z) (s : nat) : Z :=
  slice (nth s shs 0) (nth s split 0) (w + 2 ^ (wbit - 1)).

Definition split_ok (split shs : list Z) : Prop :=
  List.length shs = List.length split /\
  (forall s, (s < List.length split)%nat -> 0 <= nth s split 0 <= 30) /\
  (forall s, (s < List.length split)%nat -> 0 <= nth s shs 0 <= 31).

Lemma put_diff_ok R C split shs mat n i j (f := fun r k => nth (n * (r / List.length split) + k) mat 0) :
  split_ok split shs -> (i * List.length split + List.length split <= R)%nat -> (j < C)%nat ->
  - int_max <= nth (n * i + j) mat 0 <= int_max ->
  put_spec R C (List.length split) true (put_diff split shs)
    (fun r k => diff_p split shs (f r k) (r mod List.length split)%nat)
    (fun r k => diff_m split shs (f r k) (r mod List.length split)%nat) i j (nth (n * i + j) mat 0).
Proof.
  intros (HL & Hsp & Hsh) HR Hj Hw gp gm Hp Hm.
  set (ns := List.length split) in *. set (w := nth (n * i + j) mat 0) in *.
  unfold put_diff. fold ns.
  match goal with |- exists gp' gm', forN ns ?B _ = _ /\ _ => set (body := B) end.
  assert (HH : exists s', forN ns body (gp, gm) = Ok s' /\
     (fun k (s : gmats) => exists gp' gm', s = (gp', gm') /\
        patched R C (fun r c => (i * ns <=? r)%nat && (r <? i * ns + k)%nat && (c =? j)%nat)
          (fun r k => diff_p split shs (f r k) (r mod ns)%nat) gp gp' /\
        patched R C (fun r c => (i * ns <=? r)%nat && (r <? i * ns + k)%nat && (c =? j)%nat)
          (fun r k => diff_m split shs (f r k) (r mod ns)%nat) gm gm') ns s').
  { refine (forN_inv (fun k (s : gmats) => exists gp' gm', s = (gp', gm') /\
        patched R C (fun r c => (i * ns <=? r)%nat && (r <? i * ns + k)%nat && (c =? j)%nat)
          (fun r k => diff_p split shs (f r k) (r mod ns)%nat) gp gp' /\
        patched R C (fun r c => (i * ns <=? r)%nat && (r <? i * ns + k)%nat && (c =? j)%nat)
          (fun r k => diff_m split shs (f r k) (r mod ns)%nat) gm gm') _ _ _ _ _); cbn beta.
    - exists gp, gm. split; auto. split.
      + apply patched_zero; [intros; unfold rect; lia|eauto using patched_wf].
      + apply patched_zero; [intros; unfold rect; lia|eauto using patched_wf].
    - intros s st Hs (gp1 & gm1 & -> & P1 & P2). subst body. cbn beta iota.
      rewrite (get_ok shs s 0) by lia. rewrite (get_ok split s 0) by (subst ns; lia). cbn [bind].
      specialize (Hsp s Hs). specialize (Hsh s Hs).
      pose proof (patched_wf _ _ _ _ _ _ P1) as W1. pose proof (patched_wf _ _ _ _ _ _ P2) as W2.
      destruct (blk_div ns i s Hs) as [D1 D2].
      assert (Ef : f (i * ns + s)%nat j = w) by (unfold f, w; rewrite D1; reflexivity).
      assert (G : exists xp xm,
        (if 0 <=? w
         then x <- shr32 w (nth s shs 0);; o <- ones (nth s split 0);;
              gp2 <- set2 gp1 (i * ns + s) j (Z.land x o);; gm2 <- set2 gm1 (i * ns + s) j 0;; Ok (gp2, gm2)
         else gp2 <- set2 gp1 (i * ns + s) j 0;; nv <- neg32 w;; x <- shr32 nv (nth s shs 0);;
              o <- ones (nth s split 0);; gm2 <- set2 gm1 (i * ns + s) j (Z.land x o);; Ok (gp2, gm2))
        = Ok (upd2 gp1 (i * ns + s) j xp, upd2 gm1 (i * ns + s) j xm) /\
        xp = diff_p split shs w s /\ xm = diff_m split shs w s).
      { unfold diff_p, diff_m, slice. destruct (0 <=? w).
        - rewrite shr32_ok, ones_ok by auto. cbn [bind].
          rewrite !(set2_ok R C) by (auto; lia). cbn [bind]. eauto.
        - rewrite (set2_ok R C) by (auto; lia). cbn [bind].
          rewrite neg32_ok by (unfold int_min, int_max in *; lia). cbn [bind].
          rewrite shr32_ok, ones_ok by auto. cbn [bind].
          rewrite (set2_ok R C) by (auto; lia). cbn [bind]. eauto. }
      destruct G as (xp & xm & G & -> & ->). rewrite G. eexists. split; [reflexivity|].
      eexists _, _. split; [reflexivity|]. split.
      + eapply patched_ext; [| |eapply patched_trans; [exact P1|apply patched_one; auto; [lia|]]].
        * clear. intros. cbn beta. lia.
        * auto.
        * cbn. now rewrite Ef, D2.
      + eapply patched_ext; [| |eapply patched_trans; [exact P2|apply patched_one; auto; [lia|]]].
        * clear. intros. cbn beta. lia.
        * auto.
        * cbn. now rewrite Ef, D2. }
  destruct HH as (s' & E & gp' & gm' & -> & P1 & P2).
  exists gp', gm'. split; [exact E|]. split.
  - eapply patched_ext; [| |exact P1]; auto.
  - eapply patched_ext; [| |exact P2]; auto.
Qed.

Lemma put_offs_ok R C split shs wbit mat n i j (f := fun r k => nth (n * (r / List.length split) + k) mat 0) :
  split_ok split shs -> (i * List.length split + List.length split <= R)%nat -> (j < C)%nat ->
  1 <= wbit <= 31 ->
  int_min <= nth (n * i + j) mat 0 <= int_max - 2 ^ (wbit - 1) ->
  put_spec R C (List.length split) false (put_offs split shs wbit)
    (fun r k => offs_p split shs wbit (f r k) (r mod List.length split)%nat)
    (fun r k => 0) i j (nth (n * i + j) mat 0).
Proof.
  intros (HL & Hsp & Hsh) HR Hj Hb Hw gp gm Hp Hm.
  set (ns := List.length split) in *. set (w := nth (n * i + j) mat 0) in *.
  unfold put_offs. fold ns.
  assert (0 < 2 ^ (wbit - 1) <= 2 ^ 30) by (split; [lia|apply Z.pow_le_mono_r; lia]).
  rewrite u32_id by lia.
  rewrite shl32_ok by (unfold int_min, int_max; lia). cbn [bind]. rewrite Z.mul_1_l.
  rewrite add32_ok by lia. cbn [bind].
  match goal with |- context [forN ns ?B gp] => set (body := B) end.
  assert (HH : exists s', forN ns body gp = Ok s' /\
     (fun k gp' =>
        patched R C (fun r c => (i * ns <=? r)%nat && (r <? i * ns + k)%nat && (c =? j)%nat)
          (fun r k => offs_p split shs wbit (f r k) (r mod ns)%nat) gp gp') ns s').
  { refine (forN_inv (fun k gp' =>
        patched R C (fun r c => (i * ns <=? r)%nat && (r <? i * ns + k)%nat && (c =? j)%nat)
          (fun r k => offs_p split shs wbit (f r k) (r mod ns)%nat) gp gp') _ _ _ _ _); cbn beta.
    - apply patched_zero; [intros; unfold rect; lia|eauto using patched_wf].
    - intros s gp1 Hs P1. subst body. cbn beta.
      rewrite (get_ok shs s 0) by lia. rewrite (get_ok split s 0) by (subst ns; lia). cbn [bind].
      specialize (Hsp s Hs). specialize (Hsh s Hs).
      pose proof (patched_wf _ _ _ _ _ _ P1) as W1.
      destruct (blk_div ns i s Hs) as [D1 D2].
      assert (Ef : f (i * ns + s)%nat j = w) by (unfold f, w; rewrite D1; reflexivity).
      rewrite shr32_ok, ones_ok by auto. cbn [bind]. rewrite (set2_ok R C) by (auto; lia).
      eexists. split; [reflexivity|].
      eapply patched_ext; [| |eapply patched_trans; [exact P1|apply patched_one; auto; [lia|]]].
      + clear. intros. cbn beta. lia.
      + auto.
      + cbn. now rewrite Ef, D2. }
  destruct HH as (gp' & E & P1). rewrite E. cbn [bind].
  exists gp', gm. split; auto. split.
  - eapply patched_ext; [| |exact P1]; auto.
  - apply patched_zero; auto.
Qed.

(** The non-integer modes use one row per weight row. *)
Lemma blk1 i j r k : blk 1 i j r k = ((r =? i)%nat && (k =? j)%nat).
Proof. unfold blk. lia. Qed.

Lemma put_pair_ok R C i j xp xm gp gm vp vm :
  wf2 R C gp -> wf2 R C gm -> (i < R)%nat -> (j < C)%nat -> xp = vp i j -> xm = vm i j ->
  exists gp' gm', (a <- set2 gp i j xp ;; b <- set2 gm i j xm ;; Ok (a, b)) = Ok (gp', gm') /\
    patched R C (blk 1 i j) vp gp gp' /\
    patched R C (fun r k => true && blk 1 i j r k) vm gm gm'.
Proof.
  intros Hp Hm Hi Hj E1 E2. rewrite !(set2_ok R C) by auto. cbn [bind].
  eexists _, _. split; [reflexivity|]. split.
  - eapply patched_ext; [| |apply patched_one; [exact Hp|exact Hi|exact Hj|exact E1]]; auto.
    intros. now rewrite blk1.
  - eapply patched_ext; [| |apply patched_one; [exact Hm|exact Hi|exact Hj|exact E2]]; auto.
    intros. now rewrite blk1.
Qed.

Definition xnn_p (w : Z) : Z := if w =? 1 then 1 else 0.
Definition xnn_m (w : Z) : Z := if w =? -1 then 1 else 0.

Lemma put_xnn_ok R C tern mat n i j :
  (i < R)%nat -> (j < C)%nat ->
  (let w := nth (n * i + j) mat 0 in w = 1 \/ w = -1 \/ (tern = true /\ w = 0)) ->
  put_spec R C 1 true (put_xnn tern)
    (fun r k => xnn_p (nth (n * r + k) mat 0)) (fun r k => xnn_m (nth (n * r + k) mat 0))
    i j (nth (n * i + j) mat 0).
Proof.
  intros Hi Hj Hw gp gm Hp Hm. cbn zeta in Hw. unfold put_xnn.
  remember (nth (n * i + j) mat 0) as w eqn:Ew.
  assert (D : w = 1 \/ w = -1 \/ (tern = true /\ w = 0)) by exact Hw.
  destruct (w =? 1) eqn:E1; [|destruct (w =? -1) eqn:E2; [|destruct (tern && (w =? 0)) eqn:E3]].
  - apply Z.eqb_eq in E1. rewrite E1.
    apply (put_pair_ok R C); auto; cbn beta; rewrite <- Ew, E1; reflexivity.
  - apply Z.eqb_eq in E2. rewrite E2.
    apply (put_pair_ok R C); auto; cbn beta; rewrite <- Ew, E2; reflexivity.
  - apply andb_true_iff in E3. destruct E3 as [_ E3]. apply Z.eqb_eq in E3.
    apply (put_pair_ok R C); auto; cbn beta; rewrite <- Ew, E3; reflexivity.
  - exfalso. destruct D as [D|[D|[D1 D2]]]; subst; cbn in *; lia.
Qed.

(** Two's complement bits of a ternary weight. *)
Definition tc_p (offset : bool) (w : Z) : Z := Z.land (u32 (if offset then w + 1 else w)) 1.
Definition tc_m (offset : bool) (w : Z) : Z :=
  Z.shiftr (Z.land (u32 (if offset then w + 1 else w)) 2) 1.

Lemma put_tc_ok R C offset mat n i j :
  (i < R)%nat -> (j < C)%nat ->
  int_min <= nth (n * i + j) mat 0 < int_max ->
  put_spec R C 1 true (put_tc offset)
    (fun r k => tc_p offset (nth (n * r + k) mat 0)) (fun r k => tc_m offset (nth (n * r + k) mat 0))
    i j (nth (n * i + j) mat 0).
Proof.
  intros Hi Hj Hw gp gm Hp Hm. unfold put_tc.
  remember (nth (n * i + j) mat 0) as w eqn:Ew.
  assert (E : (if offset then add32 w 1 else Ok w) = Ok (if offset then w + 1 else w)).
  { destruct offset; auto. apply add32_ok. unfold int_min, int_max in *. lia. }
  rewrite E. cbn [bind].
  apply (put_pair_ok R C); auto; cbn beta; rewrite <- Ew; reflexivity.
Qed.

Definition single_p (inv : bool) (w : Z) : Z :=
  if inv then Z.quot (w - 1) (-2) else Z.shiftr (w + 1) 1.

Lemma put_single_ok R C inv mat n i j :
  (i < R)%nat -> (j < C)%nat ->
  int_min < nth (n * i + j) mat 0 < int_max ->
  put_spec R C 1 false (put_single inv)
    (fun r k => single_p inv (nth (n * r + k) mat 0)) (fun r k => 0)
    i j (nth (n * i + j) mat 0).
Proof.
  intros Hi Hj Hw gp gm Hp Hm. unfold put_single.
  remember (nth (n * i + j) mat 0) as w eqn:Ew.
  assert (E : (if inv then y <- sub32 w 1;; Ok (Z.quot y (-2)) else y <- add32 w 1;; shr32 y 1)
              = Ok (single_p inv w)).
  { unfold single_p. destruct inv.
    - rewrite sub32_ok by (unfold int_min, int_max in *; lia). reflexivity.
    - rewrite add32_ok by (unfold int_min, int_max in *; lia). cbn [bind].
      apply shr32_ok. lia. }
  rewrite E. cbn [bind]. rewrite (set2_ok R C) by auto. cbn [bind].
  eexists _, _. split; [reflexivity|]. split.
  - eapply patched_ext; [| |apply patched_one; [exact Hp|exact Hi|exact Hj|]].
    + intros r k _ _. now rewrite blk1.
    + intros r k _ _ _. reflexivity.
    + cbn. now rewrite <- Ew.
  - apply patched_zero; auto.
Qed.
End W.
