(** Two runs side by side: whenever the second one succeeds, so does the first one, with a close result. *)
From Coq Require Import String List ZArith Reals Bool Arith Lia Lra ZifyBool ZifyNat.
From Flocq Require Import Core.
From RecordUpdate Require Import RecordSet.
From Verif Require Import Base Lib Hoare Machine Json Config Histogram Adc ReadDisturb Parasitics
  Mapper IntMappers BnnMappers TnnMappers Crossbar Api RMachine DigMvm AnaReal AnaXnn AnaInt.
Import ListNotations RecordSetNotations.
Local Open Scope R_scope.
Ltac Zify.zify_post_hook ::= idtac.

Definition fol {A B} (P : A -> B -> Prop) (x : out A) (y : out B) : Prop :=
  forall b, y = Ok b -> exists a, x = Ok a /\ P a b.

Lemma fol_ok {A B} (P : A -> B -> Prop) a b : P a b -> fol P (Ok a) (Ok b).
Proof. intros H y E. inversion E; subst. eauto. Qed.
Lemma fol_bind {A B A' B'} (P : A -> B -> Prop) (Q : A' -> B' -> Prop) x y f g : fol P x y ->
  (forall a b, P a b -> fol Q (f a) (g b)) -> fol Q (bind x f) (bind y g).
Proof.
  intros H1 H2 b E. apply bind_Ok in E. destruct E as (b0 & E0 & E1). destruct (H1 b0 E0) as (a0 & -> & HP).
  cbn [bind]. exact (H2 a0 b0 HP b E1).
Qed.
Lemma fol_same {A A' B'} (Q : A' -> B' -> Prop) (x : out A) f g : (forall a, x = Ok a -> fol Q (f a) (g a)) ->
  fol Q (bind x f) (bind x g).
Proof. intros H b E. apply bind_Ok in E. destruct E as (a & Ea & Eb). rewrite Ea. cbn [bind]. now apply (H a Ea). Qed.
Lemma fol_impl {A B} (P Q : A -> B -> Prop) x y : (forall a b, P a b -> Q a b) -> fol P x y -> fol Q x y.
Proof. intros H H1 b E. destruct (H1 b E) as (a & -> & HP). eauto. Qed.
Lemma fol_forN {A B} (P : nat -> A -> B -> Prop) k f g a b : P O a b ->
  (forall i x y, (i < k)%nat -> P i x y -> fol (P (S i)) (f i x) (g i y)) -> fol (P k) (forN k f a) (forN k g b).
Proof.
  intros H0 Hs. induction k as [|k IH]; cbn [forN]; [now apply fol_ok|].
  apply (fol_bind (P k)); [apply IH; intros; apply Hs; auto; lia|]. intros x y H. apply Hs; auto.
Qed.

Lemma abs_add_le x y a b : Rabs x <= a -> Rabs y <= b -> Rabs (x + y) <= a + b.
Proof. intros H1 H2. eapply Rle_trans; [apply Rabs_triang|lra]. Qed.
Lemma abs_sub_le x y a b : Rabs x <= a -> Rabs y <= b -> Rabs (x - y) <= a + b.
Proof. intros H1 H2. unfold Rminus. apply abs_add_le; [exact H1|now rewrite Rabs_Ropp]. Qed.

(** ** Cutting to an integer *)
Lemma trunc_sides x : (0 <= x -> 0 <= IZR (Ztrunc x) <= x /\ x < IZR (Ztrunc x) + 1) /\
  (x <= 0 -> x <= IZR (Ztrunc x) <= 0 /\ IZR (Ztrunc x) - 1 < x).
Proof.
  split; intros Hx.
  - rewrite Ztrunc_floor by exact Hx. pose proof (Zfloor_lb x). pose proof (Zfloor_ub x).
    assert (0 <= Zfloor x)%Z by (apply Zfloor_lub; exact Hx). apply IZR_le in H1. lra.
  - rewrite Ztrunc_ceil by exact Hx. pose proof (Zceil_ub x). pose proof (Zceil_lb x).
    assert (Zceil x <= 0)%Z by (apply Zceil_glb; exact Hx). apply IZR_le in H1. lra.
Qed.
Lemma trunc_near a b : Rabs (IZR (Ztrunc a) - IZR (Ztrunc b)) <= Rabs (a - b) + 1.
Proof.
  destruct (trunc_sides a) as [A1 A2], (trunc_sides b) as [B1 B2]. apply Rabs_le.
  pose proof (Rle_abs (a - b)). pose proof (Rle_abs (- (a - b))) as H0. rewrite Rabs_Ropp in H0.
  destruct (Rle_or_lt 0 a) as [Ha|Ha]; [specialize (A1 Ha); clear A2|specialize (A2 (Rlt_le _ _ Ha)); clear A1];
  (destruct (Rle_or_lt 0 b) as [Hb|Hb]; [specialize (B1 Hb); clear B2|specialize (B2 (Rlt_le _ _ Hb)); clear B1]); lra.
Qed.
Lemma trunc_small a : Rabs (IZR (Ztrunc a)) <= Rabs a.
Proof.
  destruct (trunc_sides a) as [A1 A2]. destruct (Rle_or_lt 0 a) as [Ha|Ha].
  - specialize (A1 Ha). rewrite !Rabs_pos_eq by lra. lra.
  - specialize (A2 (Rlt_le _ _ Ha)). rewrite !Rabs_left1 by lra. lra.
Qed.
Lemma nearest_near a b : Rabs (IZR (ZnearestA a) - IZR (ZnearestA b)) <= Rabs (a - b) + 1.
Proof.
  pose proof (Znearest_half (Z.leb 0) a) as A. pose proof (Znearest_half (Z.leb 0) b) as B.
  replace (IZR (ZnearestA a) - IZR (ZnearestA b)) with ((a - b) + - (a - IZR (ZnearestA a)) + (b - IZR (ZnearestA b))) by ring.
  eapply Rle_trans; [apply Rabs_triang|]. eapply Rle_trans; [apply Rplus_le_compat_r, Rabs_triang|]. rewrite Rabs_Ropp. lra.
Qed.
Lemma nearest_small a : Rabs (IZR (ZnearestA a)) <= 2 * Rabs a.
Proof.
  pose proof (Znearest_half (Z.leb 0) a) as A. destruct (Rlt_or_le (Rabs a) (1 / 2)) as [H|H].
  - rewrite (Znearest_imp (Z.leb 0) a 0) by (rewrite Rminus_0_r; lra). rewrite Rabs_R0. pose proof (Rabs_pos a). lra.
  - replace (IZR (ZnearestA a)) with (a + - (a - IZR (ZnearestA a))) by ring.
    eapply Rle_trans; [apply Rabs_triang|]. rewrite Rabs_Ropp. lra.
Qed.

(** ** Close accumulators *)
Notation len := List.length.
(** The first m entries differ by at most e and are bounded, and the others are the same. *)
Definition cl (e : R) (B : nat -> R) (m : nat) (a b : list Z) : Prop :=
  len a = len b /\ (m <= len a)%nat /\
  (forall i, (i < m)%nat -> Rabs (IZR (nth i a 0%Z) - IZR (nth i b 0%Z)) <= e /\ Rabs (IZR (nth i a 0%Z)) <= B i /\ Rabs (IZR (nth i b 0%Z)) <= B i) /\
  (forall i, (m <= i)%nat -> nth i a 0%Z = nth i b 0%Z).
Definition near (k : nat) (D C : R) (a b : list R) : Prop :=
  (k <= len a)%nat /\ (k <= len b)%nat /\
  forall i, (i < k)%nat -> Rabs (nth i a 0 - nth i b 0) <= D /\ Rabs (nth i a 0) <= C /\ Rabs (nth i b 0) <= C.

Lemma cl_start res m : (m <= len res)%nat -> cl 0 (fun i => Rabs (IZR (nth i res 0%Z))) m res res.
Proof.
  intros H. split; [reflexivity|]. split; [exact H|]. split; [|reflexivity]. intros i Hi.
  rewrite Rminus_diag_eq, Rabs_R0 by reflexivity. lra.
Qed.
Lemma cl_weak e B e' B' m a b : cl e B m a b -> e <= e' -> (forall i, (i < m)%nat -> B i <= B' i) -> cl e' B' m a b.
Proof.
  intros (H1 & H2 & H3 & H4) He HB. split; [exact H1|]. split; [exact H2|]. split; [|exact H4].
  intros i Hi. specialize (H3 i Hi). specialize (HB i Hi). lra.
Qed.

(** One pass over the rows, row i changing entry i only. *)
Lemma cl_rows m (f g : nat -> list Z -> out (list Z)) e B e' B' a b : cl e B m a b ->
  (forall i x y, (i < m)%nat -> len x = len a -> len y = len a ->
     Rabs (IZR (nth i x 0%Z) - IZR (nth i y 0%Z)) <= e -> Rabs (IZR (nth i x 0%Z)) <= B i -> Rabs (IZR (nth i y 0%Z)) <= B i ->
     fol (fun x' y' => exists u v, x' = upd x i u /\ y' = upd y i v /\ Rabs (IZR u - IZR v) <= e' /\
       Rabs (IZR u) <= B' i /\ Rabs (IZR v) <= B' i) (f i x) (g i y)) ->
  fol (cl e' B' m) (forN m f a) (forN m g b).
Proof.
  intros (H1 & H2 & H3 & H4) Hb.
  set (P := fun k x y => len x = len a /\ len y = len a /\
    (forall i, (i < k)%nat -> Rabs (IZR (nth i x 0%Z) - IZR (nth i y 0%Z)) <= e' /\
       Rabs (IZR (nth i x 0%Z)) <= B' i /\ Rabs (IZR (nth i y 0%Z)) <= B' i) /\
    (forall i, (k <= i)%nat -> nth i x 0%Z = nth i a 0%Z /\ nth i y 0%Z = nth i b 0%Z)).
  apply (fol_impl (P m)).
  { intros x y (L1 & L2 & L3 & L4). split; [congruence|]. split; [lia|]. split; [exact L3|].
    intros i Hi. destruct (L4 i Hi) as (-> & ->). auto. }
  apply fol_forN; [unfold P; split; [reflexivity|]; split; [congruence|]; split; [intros; lia|auto]|]. intros k x y Hk (L1 & L2 & L3 & L4).
  destruct (L4 k (le_n k)) as (E1 & E2). destruct (H3 k Hk) as (K1 & K2 & K3).
  apply (fol_impl (fun x' y' => exists u v, x' = upd x k u /\ y' = upd y k v /\ Rabs (IZR u - IZR v) <= e' /\
       Rabs (IZR u) <= B' k /\ Rabs (IZR v) <= B' k)).
  2: { apply Hb; auto; now rewrite ?E1, ?E2. }
  intros x' y' (u & v & -> & -> & D1 & D2 & D3). unfold P. rewrite !upd_length. split; [exact L1|]. split; [exact L2|]. split.
  - intros i Hi. rewrite !nth_upd by lia. destruct (i =? k)%nat eqn:Ei; [apply Nat.eqb_eq in Ei; subst i; auto|].
    apply L3. apply Nat.eqb_neq in Ei. lia.
  - intros i Hi. rewrite !nth_upd by lia. replace (i =? k)%nat with false by (symmetry; apply Nat.eqb_neq; lia). apply L4. lia.
Qed.

Section FR.
Context (nz : bool -> nat -> R) (s : bool).
#[local] Hint Extern 0 Machine => exact (R_machine nz s) : typeclass_instances.
Notation RM := (R_machine nz s).

Lemma int_room z : Rabs (IZR z) <= IZR int_max -> (int_min <= z <= int_max)%Z.
Proof. rewrite abs_Z. intros H. apply le_IZR in H. unfold int_min, int_max in *. lia. Qed.
Lemma f2i_trunc x : Rabs x <= IZR int_max -> @f2i RM x = Ok (Ztrunc x).
Proof.
  intros H. unfold f2i. cbn. pose proof (int_room (Ztrunc x) (Rle_trans _ _ _ (trunc_small x) H)).
  unfold in32. now replace (_ && _)%bool with true by lia.
Qed.
Lemma f2i_inv x z : @f2i RM x = Ok z -> z = Ztrunc x.
Proof. unfold f2i. cbn. destruct (in32 _); intros H; inversion H; auto. Qed.
Lemma res_fadd_inv (b : list Z) i y r : @res_fadd RM b i y = Ok r -> (i < len b)%nat /\ r = upd b i (Ztrunc (IZR (nth i b 0%Z) + y)).
Proof.
  unfold res_fadd. intros H. apply bind_Ok in H. destruct H as (x & E1 & H). apply bind_Ok in H. destruct H as (z & E2 & H).
  assert (Hi : (i < len b)%nat).
  { apply nth_error_Some. unfold get in E1. destruct (nth_error b i); [discriminate|discriminate E1]. }
  rewrite (get_ok b i 0%Z Hi) in E1. inversion E1; subst x. apply f2i_inv in E2. subst z.
  rewrite set_ok in H by exact Hi. inversion H; subst. split; [exact Hi|]. reflexivity.
Qed.

Lemma fadd_fol x y i wA wB e B d bb : (i < len x)%nat ->
  Rabs (IZR (nth i x 0%Z) - IZR (nth i y 0%Z)) <= e -> Rabs (IZR (nth i x 0%Z)) <= B -> Rabs (IZR (nth i y 0%Z)) <= B ->
  Rabs (wA - wB) <= d -> Rabs wA <= bb -> Rabs wB <= bb -> B + bb <= IZR int_max ->
  fol (fun x' y' => exists u v, x' = upd x i u /\ y' = upd y i v /\ Rabs (IZR u - IZR v) <= e + d + 1 /\
      Rabs (IZR u) <= B + bb /\ Rabs (IZR v) <= B + bb)
    (@res_fadd RM x i wA) (@res_fadd RM y i wB).
Proof.
  intros Hx He HB HB' Hd Hbb Hbb' Hr r E. apply res_fadd_inv in E. destruct E as (Hy & ->).
  assert (Hw : Rabs (IZR (nth i x 0%Z) + wA) <= B + bb) by (eapply Rle_trans; [apply Rabs_triang|]; lra).
  unfold res_fadd. rewrite (get_ok x i 0%Z) by exact Hx. cbn [bind].
  change (@fadd RM (@f_of_Z RM (nth i x 0%Z)) wA) with (IZR (nth i x 0%Z) + wA).
  rewrite f2i_trunc by lra. cbn [bind]. rewrite set_ok by exact Hx. eexists. split; [reflexivity|].
  eexists _, _. split; [reflexivity|]. split; [reflexivity|]. split.
  - eapply Rle_trans; [apply trunc_near|]. apply Rplus_le_compat_r.
    replace (_ - _) with ((IZR (nth i x 0%Z) - IZR (nth i y 0%Z)) + (wA - wB)) by ring.
    eapply Rle_trans; [apply Rabs_triang|]. lra.
  - split; (eapply Rle_trans; [apply trunc_small|]); [exact Hw|]. eapply Rle_trans; [apply Rabs_triang|]; lra.
Qed.

(** [res[i] += w i] over the rows. *)
Lemma add_rows m (f g : nat -> list Z -> out (list Z)) (wA wB : nat -> R) e B d (bb : nat -> R) a b : cl e B m a b ->
  (forall i x, (i < m)%nat -> len x = len a -> f i x = @res_fadd RM x i (wA i)) ->
  (forall i x, (i < m)%nat -> len x = len a -> g i x = @res_fadd RM x i (wB i)) ->
  (forall i, (i < m)%nat -> Rabs (wA i - wB i) <= d /\ Rabs (wA i) <= bb i /\ Rabs (wB i) <= bb i /\ B i + bb i <= IZR int_max) ->
  fol (cl (e + d + 1) (fun i => B i + bb i) m) (forN m f a) (forN m g b).
Proof.
  intros HC Hf Hg Hw. apply (cl_rows m f g e B); [exact HC|]. intros i x y Hi Lx Ly H1 H2 H3.
  destruct (Hw i Hi) as (W1 & W2 & W3 & W4). rewrite Hf, Hg by auto. apply fadd_fol; auto. destruct HC as (_ & K & _). lia.
Qed.

(** [res[i] -= z i] on integers. *)
Lemma sub_rows m (f g : nat -> list Z -> out (list Z)) (z : nat -> Z) e B (bb : nat -> R) a b : cl e B m a b ->
  (forall i x, (i < m)%nat -> len x = len a -> f i x = subto x i (z i)) ->
  (forall i x, (i < m)%nat -> len x = len a -> g i x = subto x i (z i)) ->
  (forall i, (i < m)%nat -> Rabs (IZR (z i)) <= bb i /\ B i + bb i <= IZR int_max) ->
  fol (cl e (fun i => B i + bb i) m) (forN m f a) (forN m g b).
Proof.
  intros HC Hf Hg Hw. apply (cl_rows m f g e B); [exact HC|]. intros i x y Hi Lx Ly H1 H2 H3.
  destruct (Hw i Hi) as (W1 & W2). rewrite Hf, Hg by auto. assert (Lm : (m <= len a)%nat) by apply HC.
  unfold subto. rewrite (get_ok x i 0%Z), (get_ok y i 0%Z) by lia. cbn [bind].
  assert (Hb : Rabs (IZR (nth i x 0 - z i)%Z) <= B i + bb i).
  { rewrite minus_IZR. unfold Rminus. eapply Rle_trans; [apply Rabs_triang|]. rewrite Rabs_Ropp. lra. }
  unfold sub32 at 1. rewrite chk32_ok by (apply int_room; lra). cbn [bind]. rewrite set_ok by lia.
  intros r E. apply bind_Ok in E. destruct E as (v & E1 & E2). unfold sub32 in E1. apply chk32_inv in E1. destruct E1 as (-> & _).
  rewrite set_ok in E2 by lia. inversion E2; subst. eexists. split; [reflexivity|]. eexists _, _. split; [reflexivity|]. split; [reflexivity|].
  split; [|split; [exact Hb|rewrite minus_IZR; unfold Rminus; eapply Rle_trans; [apply Rabs_triang|]; rewrite Rabs_Ropp; lra]].
  rewrite !minus_IZR. now replace (_ - _) with (IZR (nth i x 0%Z) - IZR (nth i y 0%Z)) by ring.
Qed.

(** ** The converter *)
Lemma adc_fol (c c' : @config RM) (ad ad' : adc) l k D C (a b : list R) sc off (e e' : @env RM) :
  (forall x sc off, @adc1 RM c ad l x sc off = Ok ((x + off) * sc)) -> adc_profile c = false ->
  (forall x sc off, @adc1 RM c' ad' l x sc off = Ok ((x + off) * sc)) -> adc_profile c' = false ->
  near k D C a b ->
  fol (fun p q => snd p = e /\ near k (D * Rabs sc) ((C + Rabs off) * Rabs sc) (fst p) (fst q))
    (@adc_vec RM c ad l k a sc off e) (@adc_vec RM c' ad' l k b sc off e').
Proof.
  intros H1 P1 H2 P2 (La & Lb & Hn).
  destruct (adc_vec_eq nz s c ad l (fun x sc off => (x + off) * sc) k a sc off e H1 P1 La) as (ta & Ea & L1 & V1).
  destruct (adc_vec_eq nz s c' ad' l (fun x sc off => (x + off) * sc) k b sc off e' H2 P2 Lb) as (tb & Eb & L2 & V2).
  rewrite Ea, Eb. apply fol_ok. split; [reflexivity|]. cbn [fst]. split; [lia|]. split; [lia|]. intros i Hi. rewrite V1, V2 by auto.
  destruct (Hn i Hi) as (N1 & N2 & N3). split; [|split].
  - replace (_ - _) with ((nth i a 0 - nth i b 0) * sc) by ring. rewrite Rabs_mult. apply Rmult_le_compat_r; [apply Rabs_pos|exact N1].
  - rewrite Rabs_mult. apply Rmult_le_compat_r; [apply Rabs_pos|]. eapply Rle_trans; [apply Rabs_triang|]. lra.
  - rewrite Rabs_mult. apply Rmult_le_compat_r; [apply Rabs_pos|]. eapply Rle_trans; [apply Rabs_triang|]. lra.
Qed.
End FR.
