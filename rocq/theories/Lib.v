(** Lemmas about outcomes, buffers, loops and sums (no model content). *)
From Coq Require Import List ZArith Bool Arith Lia ZifyBool ZifyNat.
From Verif Require Import Base.
Import ListNotations.
Local Open Scope Z_scope.
Local Open Scope out_scope.

Ltac Zify.zify_post_hook ::= Z.div_mod_to_equations.

(** ** Outcomes *)
Lemma bind_Ok {A B} (x : out A) (k : A -> out B) b :
  bind x k = Ok b -> exists a, x = Ok a /\ k a = Ok b.
Proof. destruct x; cbn; intros H; try discriminate. eauto. Qed.

Lemma bind_eq {A B} (x : out A) (k : A -> out B) a : x = Ok a -> bind x k = k a.
Proof. now intros ->. Qed.

Lemma chk32_ok x : int_min <= x <= int_max -> chk32 x = Ok x.
Proof. intros H. unfold chk32, in32. now replace (_ && _) with true by lia. Qed.
Lemma chk64_ok x : - 2 ^ 63 <= x <= 2 ^ 63 - 1 -> chk64 x = Ok x.
Proof. intros H. unfold chk64, in64. now replace (_ && _) with true by lia. Qed.
Lemma chk32_inv x y : chk32 x = Ok y -> y = x /\ int_min <= x <= int_max.
Proof. unfold chk32, in32. destruct (_ && _) eqn:E; intros H; inversion H; subst. lia. Qed.

Lemma add32_ok a b : int_min <= a + b <= int_max -> add32 a b = Ok (a + b).
Proof. apply chk32_ok. Qed.
Lemma sub32_ok a b : int_min <= a - b <= int_max -> sub32 a b = Ok (a - b).
Proof. apply chk32_ok. Qed.
Lemma mul32_ok a b : int_min <= a * b <= int_max -> mul32 a b = Ok (a * b).
Proof. apply chk32_ok. Qed.
Lemma neg32_ok a : int_min <= - a <= int_max -> neg32 a = Ok (- a).
Proof. apply chk32_ok. Qed.

Lemma wrap32_id x : int_min <= x <= int_max -> wrap32 x = x.
Proof. unfold wrap32, int_min, int_max. intros H. rewrite Z.mod_small; lia. Qed.
Lemma wrap64_id x : - 2 ^ 63 <= x <= 2 ^ 63 - 1 -> wrap64 x = x.
Proof. unfold wrap64. intros H. rewrite Z.mod_small; lia. Qed.
Lemma u32_id x : 0 <= x < 2 ^ 32 -> u32 x = x.
Proof. unfold u32. intros H. rewrite Z.mod_small; lia. Qed.

Lemma shl32_ok st x s : 0 <= s <= 31 -> (st = true -> 0 <= x) ->
  int_min <= x * 2 ^ s <= int_max -> shl32 st x s = Ok (x * 2 ^ s).
Proof.
  intros Hs Hst H. unfold shl32. replace (_ && _) with true by lia.
  assert (E : st && ((x <? 0) || (2 ^ 32 <=? x * 2 ^ s)) = false).
  { unfold int_min, int_max in H. destruct st; [|reflexivity]. specialize (Hst eq_refl).
    cbn [andb]. lia. }
  rewrite E, wrap32_id by exact H. reflexivity.
Qed.
Lemma shl64_ok st x s : 0 <= s <= 63 -> (st = true -> 0 <= x) ->
  - 2 ^ 63 <= x * 2 ^ s <= 2 ^ 63 - 1 -> shl64 st x s = Ok (x * 2 ^ s).
Proof.
  intros Hs Hst H. unfold shl64. replace (_ && _) with true by lia.
  assert (E : st && ((x <? 0) || (2 ^ 64 <=? x * 2 ^ s)) = false).
  { destruct st; [|reflexivity]. specialize (Hst eq_refl). cbn [andb]. lia. }
  rewrite E, wrap64_id by exact H. reflexivity.
Qed.
Lemma shr32_ok x s : 0 <= s <= 31 -> shr32 x s = Ok (Z.shiftr x s).
Proof. intros H. unfold shr32. now replace (_ && _) with true by lia. Qed.

(** ** Buffers *)
Lemma get_ok {A} (l : list A) i d : (i < length l)%nat -> get l i = Ok (nth i l d).
Proof. intros H. unfold get. now rewrite (nth_error_nth' l d H). Qed.
Lemma get_inv {A} (l : list A) i x d : get l i = Ok x -> (i < length l)%nat /\ x = nth i l d.
Proof.
  unfold get. destruct (nth_error l i) eqn:E; intros H; inversion H; subst.
  split; [apply nth_error_Some; congruence | symmetry; now apply nth_error_nth].
Qed.
Lemma get_oob {A} (l : list A) i : (length l <= i)%nat -> get l i = UB OutOfBounds.
Proof. intros H. unfold get. apply nth_error_None in H. now rewrite H. Qed.

Lemma upd_length {A} (l : list A) i x : length (upd l i x) = length l.
Proof. revert i; induction l as [|y l IH]; intros [|i]; cbn; auto. Qed.
Lemma nth_upd {A} (l : list A) i x j d :
  (i < length l)%nat -> nth j (upd l i x) d = if (j =? i)%nat then x else nth j l d.
Proof.
  revert i j; induction l as [|y l IH]; intros [|i] [|j]; cbn; intros H; try lia; auto.
  apply IH. lia.
Qed.
Lemma upd_upd {A} (l : list A) i x y : upd (upd l i x) i y = upd l i y.
Proof. revert i; induction l as [|z l IH]; intros [|i]; cbn; f_equal; auto. Qed.
Lemma upd_same {A} (l : list A) i d : upd l i (nth i l d) = l.
Proof. revert i; induction l as [|z l IH]; intros [|i]; cbn; f_equal; auto. Qed.
Lemma set_ok {A} (l : list A) i x : (i < length l)%nat -> set l i x = Ok (upd l i x).
Proof. intros H. unfold set. now replace (_ <? _)%nat with true by lia. Qed.
Lemma set_inv {A} (l : list A) i x l' : set l i x = Ok l' -> (i < length l)%nat /\ l' = upd l i x.
Proof. unfold set. destruct (_ <? _)%nat eqn:E; intros H; inversion H; subst. split; [lia|auto]. Qed.
Lemma set_oob {A} (l : list A) i x : (length l <= i)%nat -> set l i x = UB OutOfBounds.
Proof. intros H. unfold set. now replace (_ <? _)%nat with false by lia. Qed.

Lemma fill_length {A} (l : list A) x : length (fill l x) = length l.
Proof. apply map_length. Qed.
Lemma nth_fill {A} (l : list A) x i d : (i < length l)%nat -> nth i (fill l x) d = x.
Proof.
  intros H. unfold fill. rewrite (nth_indep _ d ((fun _ => x) d)) by now rewrite map_length.
  now rewrite (map_nth (fun _ => x)).
Qed.
Lemma fill_repeat {A} (l : list A) x : fill l x = repeat x (length l).
Proof. induction l; cbn; f_equal; auto. Qed.

(** Index map. *)
Fixpoint imap {A B} (f : nat -> A -> B) (l : list A) : list B :=
  match l with
  | [] => []
  | x :: r => f O x :: imap (fun i => f (S i)) r
  end.
Lemma imap_length {A B} (f : nat -> A -> B) l : length (imap f l) = length l.
Proof. revert f; induction l; intros f; cbn; auto. Qed.
Lemma imap_ext {A B} (f g : nat -> A -> B) l :
  (forall i x, (i < length l)%nat -> nth_error l i = Some x -> f i x = g i x) -> imap f l = imap g l.
Proof.
  revert f g; induction l as [|x l IH]; intros f g H; cbn; auto.
  f_equal; [apply (H O); cbn; auto; lia|]. apply IH. intros i y Hi Hy. apply (H (S i)); cbn; auto; lia.
Qed.
Lemma imap_id {A} (f : nat -> A -> A) l :
  (forall i x, (i < length l)%nat -> nth_error l i = Some x -> f i x = x) -> imap f l = l.
Proof.
  revert f; induction l as [|x l IH]; intros f H; cbn; auto.
  f_equal; [apply (H O); cbn; auto; lia|]. apply IH. intros i y Hi Hy. apply (H (S i)); cbn; auto; lia.
Qed.
Lemma nth_imap {A B} (f : nat -> A -> B) l i d d' :
  (i < length l)%nat -> nth i (imap f l) d = f i (nth i l d').
Proof.
  revert f i; induction l as [|x l IH]; intros f [|i]; cbn; intros H; try lia; auto.
  apply (IH (fun i => f (S i))). lia.
Qed.
Lemma imap_imap {A B C} (f : nat -> A -> B) (g : nat -> B -> C) l :
  imap g (imap f l) = imap (fun i x => g i (f i x)) l.
Proof.
  revert f g; induction l as [|x l IH]; intros f g; cbn; auto. f_equal.
  now rewrite (IH (fun i => f (S i)) (fun i => g (S i))).
Qed.

(** The first [m] entries updated. *)
Definition upto {A} (m : nat) (f : nat -> A -> A) (l : list A) : list A :=
  imap (fun i x => if (i <? m)%nat then f i x else x) l.
Lemma upto_length {A} m f (l : list A) : length (upto m f l) = length l.
Proof. apply imap_length. Qed.
Lemma nth_upto {A} m f (l : list A) i d :
  (i < length l)%nat -> nth i (upto m f l) d = if (i <? m)%nat then f i (nth i l d) else nth i l d.
Proof. intros H. unfold upto. now rewrite (nth_imap _ l i d d). Qed.
Lemma upto_upto {A} m f g (l : list A) :
  upto m g (upto m f l) = upto m (fun i x => g i (f i x)) l.
Proof.
  unfold upto. rewrite imap_imap. apply imap_ext. intros i x _ _. now destruct (i <? m)%nat.
Qed.
Lemma upto_ext {A} m f g (l : list A) d :
  (forall i, (i < m)%nat -> (i < length l)%nat -> f i (nth i l d) = g i (nth i l d)) ->
  upto m f l = upto m g l.
Proof.
  intros H. apply imap_ext. intros i x Hi Hx.
  destruct (i <? m)%nat eqn:E; auto. rewrite <- (nth_error_nth l i d Hx). apply H; lia.
Qed.
Lemma upto_0 {A} f (l : list A) : upto 0 f l = l.
Proof. apply imap_id. intros. now replace (_ <? _)%nat with false by lia. Qed.
Lemma upto_S {A} m f (l : list A) d : (m < length l)%nat ->
  upto (S m) f l = upd (upto m f l) m (f m (nth m l d)).
Proof.
  intros H. apply (nth_ext _ _ d d).
  { now rewrite upd_length, !upto_length. }
  intros i Hi. rewrite upto_length in Hi.
  rewrite nth_upd by now rewrite upto_length. rewrite !nth_upto by lia.
  destruct (i =? m)%nat eqn:E.
  - apply Nat.eqb_eq in E. subst. now replace (m <? S m)%nat with true by lia.
  - destruct (i <? m)%nat eqn:E2.
    + now replace (i <? S m)%nat with true by lia.
    + now replace (i <? S m)%nat with false by lia.
Qed.

(** ** Loops *)
Lemma forN_inv {S} (P : nat -> S -> Prop) n body s :
  P O s ->
  (forall k s, (k < n)%nat -> P k s -> exists s', body k s = Ok s' /\ P (Datatypes.S k) s') ->
  exists s', forN n body s = Ok s' /\ P n s'.
Proof.
  intros H0 Hs. induction n as [|n IH]; cbn; eauto.
  destruct IH as (s1 & E1 & P1). { intros. apply Hs; auto. }
  rewrite E1. cbn. apply Hs; auto.
Qed.
(** When the loop is known to have succeeded. *)
Lemma forN_Ok {S} (P : nat -> S -> Prop) n body s s' :
  forN n body s = Ok s' -> P O s ->
  (forall k s s', (k < n)%nat -> P k s -> body k s = Ok s' -> P (Datatypes.S k) s') ->
  P n s'.
Proof.
  revert s'. induction n as [|n IH]; cbn; intros s' E H0 Hs.
  - inversion E; subst; auto.
  - apply bind_Ok in E. destruct E as (s1 & E1 & E2).
    apply (Hs n s1 s'); auto. apply (IH s1); auto.
    intros k t t' Hk. apply Hs. lia.
Qed.
Lemma forN_eq {S} (st : nat -> S) n body :
  (forall k, (k < n)%nat -> body k (st k) = Ok (st (Datatypes.S k))) ->
  forN n body (st O) = Ok (st n).
Proof.
  induction n as [|n IH]; cbn; auto. intros H. rewrite IH by auto. cbn. apply H. lia.
Qed.
Lemma forN_ext {S} n (b1 b2 : nat -> S -> out S) s :
  (forall k s, (k < n)%nat -> b1 k s = b2 k s) -> forN n b1 s = forN n b2 s.
Proof.
  induction n as [|n IH]; cbn; auto. intros H. rewrite IH by auto.
  destruct (forN n b2 s); cbn; auto.
Qed.
(** A loop that fails at iteration [k] fails as a whole. *)
Lemma forN_fail {S} n body (s s' : S) k (r : out S) :
  (k < n)%nat -> forN k body s = Ok s' -> body k s' = r ->
  (forall x, r <> Ok x) ->
  forN n body s = r.
Proof.
  intros Hk E1 E2 Hr. induction n as [|n IH]; [lia|]. cbn.
  destruct (Nat.eq_dec k n) as [->|Hn].
  - rewrite E1. cbn. exact E2.
  - rewrite IH by lia. destruct r; cbn; auto. now destruct (Hr a).
Qed.

(** Row by row: iteration [i] rewrites only entry [i]. *)
Lemma rows_eq {A} m body (f : nat -> A -> A) arr d :
  (m <= length arr)%nat ->
  (forall i a, (i < m)%nat -> length a = length arr -> nth i a d = nth i arr d ->
     body i a = Ok (upd a i (f i (nth i a d)))) ->
  forN m body arr = Ok (upto m f arr).
Proof.
  intros Hm Hb. rewrite <- (upto_0 f arr) at 1.
  apply (forN_eq (fun k => upto k f arr)). intros k Hk.
  rewrite (Hb k (upto k f arr)); auto.
  - rewrite (upto_S k f arr d) by lia. f_equal. f_equal. f_equal.
    rewrite nth_upto by lia. now replace (k <? k)%nat with false by lia.
  - now rewrite upto_length.
  - rewrite nth_upto by lia. now replace (k <? k)%nat with false by lia.
Qed.

(** Iterated rewriting of one entry. *)
Lemma entry_eq {A} n body (g : nat -> A -> A) (i : nat) (a : list A) d (v : nat -> A) :
  (i < length a)%nat ->
  v O = nth i a d -> (forall j, (j < n)%nat -> v (S j) = g j (v j)) ->
  (forall j b, (j < n)%nat -> length b = length a -> nth i b d = v j ->
     body j b = Ok (upd b i (g j (nth i b d)))) ->
  forN n body a = Ok (upd a i (v n)).
Proof.
  intros Hi Hv Hg Hb.
  assert (E : a = upd a i (v O)) by now rewrite Hv, upd_same.
  rewrite E at 1. apply (forN_eq (fun k => upd a i (v k))). intros k Hk.
  rewrite Hb; auto.
  - rewrite upd_upd, nth_upd by auto. rewrite Nat.eqb_refl. now rewrite Hg.
  - now rewrite upd_length.
  - rewrite nth_upd by auto. now rewrite Nat.eqb_refl.
Qed.

(** ** Sums *)
Fixpoint sumZ (n : nat) (f : nat -> Z) : Z :=
  match n with O => 0 | S k => sumZ k f + f k end.
Lemma sumZ_ext n f g : (forall i, (i < n)%nat -> f i = g i) -> sumZ n f = sumZ n g.
Proof. induction n; cbn; intros H; auto. rewrite IHn, H; auto. Qed.
Lemma sumZ_add n f g : sumZ n (fun i => f i + g i) = sumZ n f + sumZ n g.
Proof. induction n; cbn; lia. Qed.
Lemma sumZ_sub n f g : sumZ n (fun i => f i - g i) = sumZ n f - sumZ n g.
Proof. induction n; cbn; lia. Qed.
Lemma sumZ_opp n f : sumZ n (fun i => - f i) = - sumZ n f.
Proof. induction n; cbn; lia. Qed.
Lemma sumZ_mul_l n a f : sumZ n (fun i => a * f i) = a * sumZ n f.
Proof. induction n; cbn; lia. Qed.
Lemma sumZ_mul_r n a f : sumZ n (fun i => f i * a) = sumZ n f * a.
Proof. induction n; cbn; lia. Qed.
Lemma sumZ_0 n : sumZ n (fun _ => 0) = 0.
Proof. induction n; cbn; lia. Qed.
Lemma sumZ_zero n f : (forall i, (i < n)%nat -> f i = 0) -> sumZ n f = 0.
Proof. intros H. rewrite (sumZ_ext n f (fun _ => 0)); auto using sumZ_0. Qed.
Lemma sumZ_const n a : sumZ n (fun _ => a) = Z.of_nat n * a.
Proof. induction n; cbn [sumZ]; lia. Qed.
Lemma sumZ_le n f g : (forall i, (i < n)%nat -> f i <= g i) -> sumZ n f <= sumZ n g.
Proof. induction n; cbn; intros H; [lia|]. specialize (IHn ltac:(auto)). specialize (H n). lia. Qed.
Lemma sumZ_nonneg n f : (forall i, (i < n)%nat -> 0 <= f i) -> 0 <= sumZ n f.
Proof. intros H. rewrite <- (sumZ_0 n). now apply sumZ_le. Qed.
Lemma sumZ_abs n f : Z.abs (sumZ n f) <= sumZ n (fun i => Z.abs (f i)).
Proof. induction n; cbn; lia. Qed.
Lemma sumZ_bound n f b : (forall i, (i < n)%nat -> Z.abs (f i) <= b) ->
  Z.abs (sumZ n f) <= Z.of_nat n * b.
Proof.
  intros H. rewrite <- sumZ_const. etransitivity; [apply sumZ_abs|]. now apply sumZ_le.
Qed.
Lemma sumZ_mono n k f : (forall i, (i < n)%nat -> 0 <= f i) -> (k <= n)%nat -> sumZ k f <= sumZ n f.
Proof.
  intros H Hk. induction n as [|n IH]; [replace k with O by lia; lia|].
  destruct (Nat.eq_dec k (S n)) as [->|]; [lia|]. cbn.
  assert (0 <= f n) by (apply H; lia). specialize (IH ltac:(auto) ltac:(lia)). lia.
Qed.
Lemma sumZ_swap n m (f : nat -> nat -> Z) :
  sumZ n (fun i => sumZ m (f i)) = sumZ m (fun j => sumZ n (fun i => f i j)).
Proof.
  induction n as [|n IH]; cbn; [now rewrite sumZ_0|].
  rewrite IH, <- sumZ_add. reflexivity.
Qed.
Lemma sumZ_split a b f : sumZ (a + b) f = sumZ a f + sumZ b (fun i => f (a + i)%nat).
Proof.
  induction b as [|b IH]; cbn; [rewrite Nat.add_0_r; lia|].
  rewrite Nat.add_succ_r. cbn. rewrite IH. lia.
Qed.

(** ** Accumulation loops *)
Lemma addto_ok arr i e d : (i < length arr)%nat ->
  int_min <= nth i arr d + e <= int_max -> addto arr i e = Ok (upd arr i (nth i arr d + e)).
Proof.
  intros Hi Hb. unfold addto. rewrite (get_ok arr i d) by auto. cbn.
  rewrite add32_ok by auto. cbn. now apply set_ok.
Qed.
Lemma subto_ok arr i e d : (i < length arr)%nat ->
  int_min <= nth i arr d - e <= int_max -> subto arr i e = Ok (upd arr i (nth i arr d - e)).
Proof.
  intros Hi Hb. unfold subto. rewrite (get_ok arr i d) by auto. cbn.
  rewrite sub32_ok by auto. cbn. now apply set_ok.
Qed.
Lemma subto64_ok arr i e d : (i < length arr)%nat ->
  int_min <= nth i arr d - e <= int_max -> subto64 arr i e = Ok (upd arr i (nth i arr d - e)).
Proof.
  intros Hi Hb. unfold subto64. rewrite (get_ok arr i d) by auto. cbn.
  rewrite chk64_ok by (unfold int_min, int_max in Hb; lia). cbn.
  rewrite wrap32_id by auto. now apply set_ok.
Qed.

(** One row: the entry accumulates the terms, partial sums bounded by absolute values. *)
Lemma acc_entry n (term : nat -> out Z) (tv : nat -> Z) i a :
  (i < length a)%nat ->
  (forall j, (j < n)%nat -> term j = Ok (tv j)) ->
  Z.abs (nth i a 0) + sumZ n (fun j => Z.abs (tv j)) <= int_max ->
  forN n (fun j b => e <- term j ;; addto b i e) a = Ok (upd a i (nth i a 0 + sumZ n tv)).
Proof.
  intros Hi Ht Hb.
  apply (entry_eq n _ (fun j x => x + tv j) i a 0 (fun k => nth i a 0 + sumZ k tv)); auto.
  - cbn. lia.
  - intros. cbn. lia.
  - intros j b Hj Hl Hv. rewrite Ht by auto. cbn. apply addto_ok; [lia|].
    assert (sumZ (S j) (fun j => Z.abs (tv j)) <= sumZ n (fun j => Z.abs (tv j)))
      by (apply sumZ_mono; [intros; lia | lia]).
    pose proof (sumZ_abs (S j) tv) as HA. cbn [sumZ] in *.
    unfold int_min, int_max in *. lia.
Qed.
Lemma dec_entry n (term : nat -> out Z) (tv : nat -> Z) i a :
  (i < length a)%nat ->
  (forall j, (j < n)%nat -> term j = Ok (tv j)) ->
  Z.abs (nth i a 0) + sumZ n (fun j => Z.abs (tv j)) <= int_max ->
  forN n (fun j b => e <- term j ;; subto b i e) a = Ok (upd a i (nth i a 0 - sumZ n tv)).
Proof.
  intros Hi Ht Hb.
  apply (entry_eq n _ (fun j x => x - tv j) i a 0 (fun k => nth i a 0 - sumZ k tv)); auto.
  - cbn. lia.
  - intros. cbn. lia.
  - intros j b Hj Hl Hv. rewrite Ht by auto. cbn. apply subto_ok; [lia|].
    assert (sumZ (S j) (fun j => Z.abs (tv j)) <= sumZ n (fun j => Z.abs (tv j)))
      by (apply sumZ_mono; [intros; lia | lia]).
    pose proof (sumZ_abs (S j) tv) as HA. cbn [sumZ] in *.
    unfold int_min, int_max in *. lia.
Qed.

Lemma acc2_eq r c term (tv : nat -> nat -> Z) arr :
  (r <= length arr)%nat ->
  (forall i j, (i < r)%nat -> (j < c)%nat -> term i j = Ok (tv i j)) ->
  (forall i, (i < r)%nat -> Z.abs (nth i arr 0) + sumZ c (fun j => Z.abs (tv i j)) <= int_max) ->
  acc2 r c term arr = Ok (upto r (fun i x => x + sumZ c (tv i)) arr).
Proof.
  intros Hr Ht Hb. unfold acc2. apply (rows_eq r _ _ arr 0); auto.
  intros i a Hi Hl Hv. apply acc_entry; [lia | auto | rewrite Hv; auto].
Qed.
Lemma dec2_eq r c term (tv : nat -> nat -> Z) arr :
  (r <= length arr)%nat ->
  (forall i j, (i < r)%nat -> (j < c)%nat -> term i j = Ok (tv i j)) ->
  (forall i, (i < r)%nat -> Z.abs (nth i arr 0) + sumZ c (fun j => Z.abs (tv i j)) <= int_max) ->
  dec2 r c term arr = Ok (upto r (fun i x => x - sumZ c (tv i)) arr).
Proof.
  intros Hr Ht Hb. unfold dec2. apply (rows_eq r _ _ arr 0); auto.
  intros i a Hi Hl Hv. apply dec_entry; [lia | auto | rewrite Hv; auto].
Qed.

(** ** Matrices *)
Definition wf2 {A} (R C : nat) (m : list (list A)) : Prop :=
  length m = R /\ Forall (fun r => length r = C) m.
Definition at2 {A} (d : A) (m : list (list A)) (i j : nat) : A := nth j (nth i m []) d.

Lemma wf2_row {A} R C (m : list (list A)) i : wf2 R C m -> (i < R)%nat -> length (nth i m []) = C.
Proof.
  intros [HL HF] Hi. rewrite Forall_forall in HF. apply HF. apply nth_In. lia.
Qed.
Lemma wf2_mat2 {A} R C (x : A) : wf2 R C (mat2 R C x).
Proof.
  unfold mat2. split; [apply repeat_length|]. apply Forall_forall. intros r Hr.
  apply repeat_spec in Hr. subst. apply repeat_length.
Qed.
Lemma at2_mat2 {A} R C (x d : A) i j : (i < R)%nat -> (j < C)%nat -> at2 d (mat2 R C x) i j = x.
Proof.
  intros Hi Hj. unfold at2, mat2.
  rewrite (nth_indep _ [] (repeat x C)) by now rewrite repeat_length.
  rewrite nth_repeat. rewrite (nth_indep _ d x) by now rewrite repeat_length. apply nth_repeat.
Qed.
Lemma get2_ok {A} (d : A) R C m i j : wf2 R C m -> (i < R)%nat -> (j < C)%nat ->
  get2 m i j = Ok (at2 d m i j).
Proof.
  intros H Hi Hj. unfold get2. pose proof H as [HL _].
  rewrite (get_ok m i []) by lia. cbn.
  rewrite (get_ok _ j d); auto. rewrite (wf2_row R C m i); auto.
Qed.
Lemma get2_inv {A} (d : A) R C m i j x : wf2 R C m -> get2 m i j = Ok x ->
  (i < R)%nat /\ (j < C)%nat /\ x = at2 d m i j.
Proof.
  intros H E. apply bind_Ok in E. destruct E as (r & E1 & E2).
  apply (get_inv _ _ _ []) in E1. destruct E1 as [Hi ->].
  apply (get_inv _ _ _ d) in E2. destruct E2 as [Hj ->].
  pose proof H as [HL _]. rewrite (wf2_row R C m i) in Hj; auto; [|lia].
  repeat split; auto; lia.
Qed.
Definition upd2 {A} (m : list (list A)) i j (x : A) : list (list A) :=
  upd m i (upd (nth i m []) j x).
Lemma set2_ok {A} R C (m : list (list A)) i j x : wf2 R C m -> (i < R)%nat -> (j < C)%nat ->
  set2 m i j x = Ok (upd2 m i j x).
Proof.
  intros H Hi Hj. unfold set2. pose proof H as [HL _].
  rewrite (get_ok m i []) by lia. cbn.
  rewrite set_ok by (rewrite (wf2_row R C); auto). cbn. apply set_ok. lia.
Qed.
Lemma set2_inv {A} R C (m : list (list A)) i j x m' : wf2 R C m -> set2 m i j x = Ok m' ->
  (i < R)%nat /\ (j < C)%nat /\ m' = upd2 m i j x.
Proof.
  intros H E. apply bind_Ok in E. destruct E as (r & E1 & E2).
  apply bind_Ok in E2. destruct E2 as (r' & E2 & E3).
  apply (get_inv _ _ _ []) in E1. destruct E1 as [Hi ->].
  apply set_inv in E2. destruct E2 as [Hj ->]. apply set_inv in E3. destruct E3 as [_ ->].
  pose proof H as HW. destruct HW as [HL _]. rewrite (wf2_row R C m i) in Hj; auto; [|lia].
  repeat split; auto; lia.
Qed.
Lemma wf2_upd {A} R C (m : list (list A)) i r : wf2 R C m -> length r = C -> wf2 R C (upd m i r).
Proof.
  intros [HL HF] Hr. split; [now rewrite upd_length|].
  clear HL. revert i. induction m as [|y m IH]; intros [|i]; cbn; auto.
  - inversion HF; subst. constructor; auto.
  - inversion HF; subst. constructor; auto.
Qed.
Lemma wf2_upd2 {A} R C (m : list (list A)) i j x :
  wf2 R C m -> (i < R)%nat -> wf2 R C (upd2 m i j x).
Proof.
  intros H Hi. apply wf2_upd; auto. rewrite upd_length. eapply wf2_row; eauto.
Qed.
Lemma at2_upd2 {A} (d : A) R C m i j x i' j' :
  wf2 R C m -> (i < R)%nat -> (j < C)%nat ->
  at2 d (upd2 m i j x) i' j' = if (i' =? i)%nat && (j' =? j)%nat then x else at2 d m i' j'.
Proof.
  intros H Hi Hj. unfold at2, upd2. pose proof H as [HL _].
  rewrite nth_upd by lia. destruct (i' =? i)%nat eqn:E; cbn [andb]; auto.
  apply Nat.eqb_eq in E. subst i'.
  rewrite nth_upd by (rewrite (wf2_row R C); auto). reflexivity.
Qed.
(** Matrices are determined by their entries. *)
Lemma at2_ext {A} (d : A) R C m m' : wf2 R C m -> wf2 R C m' ->
  (forall i j, (i < R)%nat -> (j < C)%nat -> at2 d m i j = at2 d m' i j) -> m = m'.
Proof.
  intros H H' E. pose proof H as [HL _]. pose proof H' as [HL' _].
  apply (nth_ext _ _ [] []); [congruence|]. intros i Hi.
  apply (nth_ext _ _ d d).
  - rewrite (wf2_row R C m), (wf2_row R C m'); auto; lia.
  - intros j Hj. rewrite (wf2_row R C m) in Hj; auto; [|lia]. apply E; lia.
Qed.

(** Digital vectors. *)
Lemma nth_repeat_lt {A} (x d : A) n i : (i < n)%nat -> nth i (repeat x n) d = x.
Proof.
  intros H. rewrite (nth_indep _ d x) by now rewrite repeat_length. apply nth_repeat.
Qed.
Lemma firstn_nth {A} (l : list A) k i d : (i < k)%nat -> nth i (firstn k l) d = nth i l d.
Proof.
  revert k i. induction l as [|x l IH]; intros [|k] [|i]; cbn; intros H; auto; try lia. apply IH. lia.
Qed.
