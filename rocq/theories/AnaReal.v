(** Loops of the analog MVMs in exact real arithmetic, for a converter given as a function. *)
From Coq Require Import List ZArith Reals Lra Bool Arith Lia ZifyBool ZifyNat String.
From RecordUpdate Require Import RecordSet.
From Flocq Require Import Core.
From Verif Require Import Base Lib Hoare Machine Json Config Histogram Adc ReadDisturb Parasitics
  Mapper IntMappers BnnMappers TnnMappers WriteProofs Shape MvmShape DigMvm DigModes EmuProps RMachine.
Import ListNotations RecordSetNotations.
Local Open Scope R_scope.
Local Open Scope out_scope.

Ltac Zify.zify_post_hook ::= idtac.

(** ** Sums *)
Fixpoint sumR (n : nat) (f : nat -> R) : R :=
  match n with O => 0 | S k => sumR k f + f k end.
Lemma sumR_ext n f g : (forall i, (i < n)%nat -> f i = g i) -> sumR n f = sumR n g.
Proof. induction n; cbn; intros H; auto. rewrite IHn, H; auto. Qed.
Lemma sumR_add n f g : sumR n (fun i => f i + g i) = sumR n f + sumR n g.
Proof. induction n; cbn; [lra|]. rewrite IHn. lra. Qed.
Lemma sumR_sub n f g : sumR n (fun i => f i - g i) = sumR n f - sumR n g.
Proof. induction n; cbn; [lra|]. rewrite IHn. lra. Qed.
Lemma sumR_mul_l n a f : sumR n (fun i => a * f i) = a * sumR n f.
Proof. induction n; cbn; [lra|]. rewrite IHn. lra. Qed.
Lemma sumR_mul_r n a f : sumR n (fun i => f i * a) = sumR n f * a.
Proof. induction n; cbn; [lra|]. rewrite IHn. lra. Qed.
Lemma sumR_IZR n f : sumR n (fun i => IZR (f i)) = IZR (sumZ n f).
Proof. induction n; cbn; [reflexivity|]. now rewrite IHn, plus_IZR. Qed.
Lemma sumR_const n a : sumR n (fun _ => a) = INR n * a.
Proof. induction n; cbn [sumR]; [cbn; lra|]. rewrite IHn, S_INR. lra. Qed.
Lemma sumR_le n f g : (forall i, (i < n)%nat -> f i <= g i) -> sumR n f <= sumR n g.
Proof. induction n; cbn; intros H; [lra|]. specialize (IHn ltac:(auto)). specialize (H n ltac:(lia)). lra. Qed.
Lemma sumR_nonneg n f : (forall i, (i < n)%nat -> 0 <= f i) -> 0 <= sumR n f.
Proof. induction n; cbn; intros H; [lra|]. specialize (IHn ltac:(auto)). specialize (H n ltac:(lia)). lra. Qed.
Lemma sumR_abs n f : Rabs (sumR n f) <= sumR n (fun i => Rabs (f i)).
Proof.
  induction n; cbn; [rewrite Rabs_R0; lra|]. eapply Rle_trans; [apply Rabs_triang|]. lra.
Qed.
Lemma sumR_close n f g e : (forall i, (i < n)%nat -> Rabs (f i - g i) <= e i) ->
  Rabs (sumR n f - sumR n g) <= sumR n e.
Proof.
  intros H. rewrite <- sumR_sub. eapply Rle_trans; [apply sumR_abs|]. now apply sumR_le.
Qed.

Section AR.
Context (nz : bool -> nat -> R) (s : bool).
#[local] Hint Extern 0 Machine => exact (R_machine nz s) : typeclass_instances.
Notation len := List.length.
Notation RM := (R_machine nz s).

(** ** Loops *)
Lemma facc_entry n (term : nat -> out R) (tv : nat -> R) i (a : list R) :
  (i < len a)%nat -> (forall j, (j < n)%nat -> term j = Ok (tv j)) ->
  forN n (fun j b => e <- term j ;; @faddto RM b i e) a = Ok (upd a i (nth i a 0 + sumR n tv)).
Proof.
  intros Hi Ht.
  apply (entry_eq n _ (fun j x => x + tv j) i a 0 (fun k => nth i a 0 + sumR k tv)); auto.
  - cbn. lra.
  - intros. cbn. lra.
  - intros j b Hj Hl Hv. rewrite Ht by auto. cbn [bind]. unfold faddto. change (@F RM) with R.
    rewrite (get_ok b i 0) by lia. cbn [bind]. now rewrite set_ok by lia.
Qed.
Lemma facc2_eq r c term (tv : nat -> nat -> R) (arr : list R) : (r <= len arr)%nat ->
  (forall i j, (i < r)%nat -> (j < c)%nat -> term i j = Ok (tv i j)) ->
  @facc2 RM r c term arr = Ok (upto r (fun i x => x + sumR c (tv i)) arr).
Proof.
  intros Hr Ht. unfold facc2. apply (rows_eq r _ (fun i x => x + sumR c (tv i)) arr 0); auto.
  intros i a Hi Hl Hv. apply facc_entry; [lia|auto].
Qed.
(** Sums from zero. *)
Lemma facc_fill r c term (tv : nat -> nat -> R) (arr : list R) : (r <= len arr)%nat ->
  (forall i j, (i < r)%nat -> (j < c)%nat -> term i j = Ok (tv i j)) ->
  exists t : list R, @facc2 RM r c term (fill arr 0) = Ok t /\ len t = len arr /\
    forall i, (i < r)%nat -> nth i t 0 = sumR c (tv i).
Proof.
  intros Hr Ht. eexists. split; [apply facc2_eq; [now rewrite fill_length|exact Ht]|].
  split; [now rewrite upto_length, fill_length|]. intros i Hi. change (@F RM) with R.
  rewrite nth_upto_lt by (rewrite ?fill_length; lia). rewrite nth_fill by lia. lra.
Qed.

Lemma fterm_eq rs cs (a b : list (list R)) v t j : wf2 rs cs a -> wf2 rs cs b -> (t < rs)%nat -> (j < cs)%nat ->
  (j < len v)%nat ->
  @fterm RM a b v t j = Ok ((at2 0 a t j - at2 0 b t j) * IZR (nth j v 0%Z)).
Proof.
  intros Ha Hb Ht Hj Hv. unfold fterm. change (@F RM) with R.
  rewrite (get2_ok 0 rs cs a) by auto. cbn [bind]. rewrite (get2_ok 0 rs cs b) by auto. cbn [bind].
  rewrite (get_ok v j 0%Z) by auto. reflexivity.
Qed.
Lemma fterm1_eq rs cs (a : list (list R)) v t j : wf2 rs cs a -> (t < rs)%nat -> (j < cs)%nat ->
  (j < len v)%nat -> @fterm1 RM a v t j = Ok (at2 0 a t j * IZR (nth j v 0%Z)).
Proof.
  intros Ha Ht Hj Hv. unfold fterm1. change (@F RM) with R.
  rewrite (get2_ok 0 rs cs a) by auto. cbn [bind]. rewrite (get_ok v j 0%Z) by auto. reflexivity.
Qed.

Lemma f2i_IZR z : (int_min <= z <= int_max)%Z -> @f2i RM (IZR z) = Ok z.
Proof.
  intros H. unfold f2i. cbn. rewrite Ztrunc_IZR. unfold in32. now replace (_ && _)%bool with true by lia.
Qed.
Lemma res_fadd_eq res i z e : (i < len res)%nat -> e = IZR z ->
  (int_min <= nth i res 0 + z <= int_max)%Z -> @res_fadd RM res i e = Ok (upd res i (nth i res 0 + z)%Z).
Proof.
  intros Hi -> Hb. unfold res_fadd. rewrite (get_ok res i 0%Z) by auto. cbn [bind].
  change (@fadd RM (@f_of_Z RM (nth i res 0%Z)) (IZR z)) with (IZR (nth i res 0%Z) + IZR z).
  rewrite <- plus_IZR, f2i_IZR by auto. cbn [bind]. now rewrite set_ok.
Qed.
Lemma res_fsub_eq res i z e : (i < len res)%nat -> e = IZR z ->
  (int_min <= nth i res 0 - z <= int_max)%Z -> @res_fsub RM res i e = Ok (upd res i (nth i res 0 - z)%Z).
Proof.
  intros Hi -> Hb. unfold res_fsub. rewrite (get_ok res i 0%Z) by auto. cbn [bind].
  change (@fsub RM (@f_of_Z RM (nth i res 0%Z)) (IZR z)) with (IZR (nth i res 0%Z) - IZR z).
  rewrite <- minus_IZR, f2i_IZR by auto. cbn [bind]. now rewrite set_ok.
Qed.

(** [res[i] += e i] over the rows. *)
Lemma res_rows m (body : nat -> list Z -> out (list Z)) (z : nat -> Z) res : (m <= len res)%nat ->
  (forall i a, (i < m)%nat -> len a = len res -> nth i a 0%Z = nth i res 0%Z ->
     body i a = Ok (upd a i (nth i a 0 + z i)%Z)) ->
  forN m body res = Ok (upto m (fun i x => (x + z i)%Z) res).
Proof. intros H Hb. now apply (rows_eq m body (fun i x => (x + z i)%Z) res 0%Z). Qed.

Lemma adc_vec_eq (c : @config RM) (a : adc) l (cv : R -> R -> R -> R) k (arr : list R) sc off e :
  (forall x sc off, @adc1 RM c a l x sc off = Ok (cv x sc off)) ->
  adc_profile c = false -> (k <= len arr)%nat ->
  exists t : list R, @adc_vec RM c a l k arr sc off e = Ok (t, e) /\ len t = len arr /\
    forall i, (i < k)%nat -> nth i t 0 = cv (nth i arr 0) sc off.
Proof.
  intros Hc Hp Hk. unfold adc_vec. change (@F RM) with R. replace (len arr <? k)%nat with false by lia. rewrite Hp. change (@F RM) with R. cbn [bind].
  rewrite (rows_eq k _ (fun _ x => cv x sc off) arr 0 Hk).
  2: { intros i b Hi Hb _. rewrite (get_ok b i 0) by lia. cbn [bind]. rewrite Hc. cbn [bind]. now rewrite set_ok by lia. }
  cbn [bind]. eexists. split; [reflexivity|]. split; [apply upto_length|]. intros i Hi. now rewrite nth_upto_lt by lia.
Qed.


(** ** Converters *)
(** Modes whose conversions are of sums that are not multiples of one weight step. *)
Definition partial_sums (m : mode) : bool :=
  match m with I_UINT_W_OFFS | BNN_III | BNN_IV | TNN_IV | TNN_V => true | _ => false end.
(** [ok] is the range of currents and [fit] the set of ideal results for which the error [eps] is guaranteed. *)
Record conv (cv : R -> R -> R -> R) (ok fit : R -> Prop) (eps : R -> R) (dl : R) : Prop := {
  cv_acc : forall x sc off, ok (x + off) -> fit ((x + off) * sc) -> Rabs (cv x sc off - (x + off) * sc) <= eps (Rabs (sc * dl));
  cv_case : (forall x sc off, exists z, cv x sc off = IZR z) \/
            (forall x sc off, cv x sc off = (x + off) * sc);
  cv_eps : forall g, 0 <= eps g
}.
Lemma cv_int cv ok fit eps dl x sc off X : conv cv ok fit eps dl -> (x + off) * sc = IZR X ->
  cv x sc off = IZR (Ztrunc (cv x sc off)).
Proof.
  intros H E. destruct (cv_case _ _ _ _ _ H) as [C|C].
  - destruct (C x sc off) as (z & ->). now rewrite Ztrunc_IZR.
  - now rewrite C, E, Ztrunc_IZR.
Qed.

Lemma abs_Z z : Rabs (IZR z) = IZR (Z.abs z).
Proof. symmetry. apply abs_IZR. Qed.

(** |a| <= |b| + e on integers, in the form needed for the accumulator. *)
Lemma near_bound a b e : Rabs (IZR a - IZR b) <= e -> IZR (Z.abs a) <= IZR (Z.abs b) + e.
Proof.
  intros H. rewrite <- !abs_Z. pose proof (Rabs_triang_inv (IZR a) (IZR b)). lra.
Qed.
Lemma fits_int (x a b : Z) (e : R) (B : Z) : Rabs (IZR a - IZR b) <= e -> (Z.abs b <= B)%Z ->
  IZR (Z.abs x + B) + e <= IZR int_max -> (int_min <= x + a <= int_max)%Z.
Proof.
  intros H Hb HB. apply near_bound in H. apply IZR_le in Hb. rewrite plus_IZR in HB.
  assert (Z.abs x + Z.abs a <= int_max)%Z by (apply le_IZR; rewrite plus_IZR; lra).
  unfold int_min, int_max in *. lia.
Qed.


(** Adding integral reals to the rows of the result. *)
Lemma res_final m (body : nat -> list Z -> out (list Z)) (w : nat -> R) (T : nat -> Z) (E : R) res :
  (m <= len res)%nat ->
  (forall i, (i < m)%nat -> exists z, w i = IZR z /\ Rabs (IZR z - IZR (T i)) <= E) ->
  (forall i, (i < m)%nat -> IZR (Z.abs (nth i res 0%Z + T i)) + E <= IZR int_max) ->
  (forall i a, (i < m)%nat -> len a = len res -> body i a = @res_fadd RM a i (w i)) ->
  forN m body res = Ok (upto m (fun i x => (x + Ztrunc (w i))%Z) res) /\
  forall i, (i < m)%nat -> Rabs (IZR (Ztrunc (w i)) - IZR (T i)) <= E.
Proof.
  intros Hr Hw HB Hb.
  assert (HT : forall i, (i < m)%nat -> w i = IZR (Ztrunc (w i)) /\ Rabs (IZR (Ztrunc (w i)) - IZR (T i)) <= E).
  { intros i Hi. destruct (Hw i Hi) as (z & -> & H). now rewrite Ztrunc_IZR. }
  split; [|intros i Hi; now apply HT].
  apply res_rows; auto. intros i a Hi Ha Hv. rewrite Hb by auto. destruct (HT i Hi) as (E1 & E2).
  apply res_fadd_eq; auto; [lia|]. rewrite Hv. specialize (HB i Hi).
  set (x := nth i res 0%Z) in *. set (d := Ztrunc (w i)) in *.
  assert (H : Rabs (IZR (x + d) - IZR (x + T i)) <= E).
  { rewrite !plus_IZR. now replace (IZR x + IZR d - (IZR x + IZR (T i))) with (IZR d - IZR (T i)) by ring. }
  apply near_bound in H.
  assert (Z.abs (x + d) <= int_max)%Z by (apply le_IZR; lra). unfold int_min, int_max in *. lia.
Qed.
End AR.
