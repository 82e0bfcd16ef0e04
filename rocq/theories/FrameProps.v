(** What MVMs do to the caller's result buffer. *)
From Coq Require Import List ZArith Bool Arith Lia ZifyBool ZifyNat String.
From RecordUpdate Require Import RecordSet.
From Verif Require Import Base Lib Hoare Machine Json Config Histogram Adc ReadDisturb Parasitics
  Mapper IntMappers BnnMappers TnnMappers Crossbar Api Shape AnaShape ConfigProofs Reach Spec DigApi Demo DigProps ApiProps.
Import ListNotations RecordSetNotations.
Local Open Scope Z_scope.
Local Open Scope out_scope.

Notation len := List.length.

(** [l'] is [l] with [d] added to the first m entries, up to multiples of [Mo]. *)
Definition shifted (Mo : Z) (m : nat) (d : nat -> Z) (l l' : list Z) : Prop :=
  len l' = len l /\
  (forall i, (i < m)%nat -> exists q, nth i l' 0 = nth i l 0 + d i + q * Mo) /\
  (forall i, (m <= i)%nat -> nth i l' 0 = nth i l 0).
Lemma shifted_refl Mo m l : shifted Mo m (fun _ => 0) l l.
Proof. split; [auto|]. split; auto. intros i _. exists 0. lia. Qed.
Lemma shifted_trans Mo m d1 d2 a b c : shifted Mo m d1 a b -> shifted Mo m d2 b c ->
  shifted Mo m (fun i => d1 i + d2 i) a c.
Proof.
  intros (L1 & A1 & B1) (L2 & A2 & B2). split; [congruence|]. split.
  - intros i Hi. destruct (A1 i Hi) as (q1 & E1), (A2 i Hi) as (q2 & E2). exists (q1 + q2). lia.
  - intros i Hi. rewrite B2, B1; auto.
Qed.

(** Operations on a result buffer that add something independent of its contents. *)
Definition adds (Mo : Z) (m : nat) (f : list Z -> out (list Z)) : Prop :=
  exists d, forall l l', f l = Ok l' -> shifted Mo m d l l'.
Lemma adds_ret Mo m : adds Mo m Ok.
Proof. exists (fun _ => 0). intros l l' E. inversion E; subst. apply shifted_refl. Qed.
Lemma adds_fail Mo m f : (forall l l', f l <> Ok l') -> adds Mo m f.
Proof. intros H. exists (fun _ => 0). intros l l' E. now apply H in E. Qed.
Lemma adds_bind Mo m f g : adds Mo m f -> adds Mo m g -> adds Mo m (fun l => r <- f l ;; g r).
Proof.
  intros [d1 H1] [d2 H2]. exists (fun i => d1 i + d2 i). intros l l' E. apply bind_Ok in E. destruct E as (r & E1 & E2).
  eapply shifted_trans; eauto.
Qed.
Lemma adds_pre {A} Mo m (e : out A) (f : A -> list Z -> out (list Z)) :
  (forall a, e = Ok a -> adds Mo m (f a)) -> adds Mo m (fun l => a <- e ;; f a l).
Proof.
  intros H. destruct e as [a|u| |]; [apply (H a eq_refl)|..]; apply adds_fail; cbn; discriminate.
Qed.
Lemma adds_forN Mo m n body : (forall k, (k < n)%nat -> adds Mo m (body k)) -> adds Mo m (forN n body).
Proof.
  intros H. induction n as [|n IH]; [apply adds_ret|]. cbn.
  apply (adds_bind Mo m (forN n body) (body n)); [apply IH; auto|apply H; lia].
Qed.
Lemma shifted_upd Mo m l i x e q : (i < len l)%nat -> (i < m)%nat -> x = nth i l 0 + e + q * Mo ->
  shifted Mo m (fun k => if (k =? i)%nat then e else 0) l (upd l i x).
Proof.
  intros Hl Hi ->. split; [apply upd_length|]. split; intros k Hk; rewrite nth_upd by auto; destruct (Nat.eqb_spec k i) as [->|].
  - now exists q.
  - exists 0. lia.
  - lia.
  - reflexivity.
Qed.
Lemma adds_addto Mo m i e : (i < m)%nat -> adds Mo m (fun l => addto l i e).
Proof.
  intros Hi. eexists. intros l l' E. unfold addto in E. apply bind_Ok in E. destruct E as (x & E1 & E).
  apply bind_Ok in E. destruct E as (y & E2 & E3). apply (get_inv _ _ _ 0) in E1. destruct E1 as [L1 ->].
  apply set_inv in E3. destruct E3 as [_ ->]. apply chk32_inv in E2. destruct E2 as [-> _].
  apply (shifted_upd Mo m l i _ e 0); auto. lia.
Qed.
Lemma adds_subto Mo m i e : (i < m)%nat -> adds Mo m (fun l => subto l i e).
Proof.
  intros Hi. eexists. intros l l' E. unfold subto in E. apply bind_Ok in E. destruct E as (x & E1 & E).
  apply bind_Ok in E. destruct E as (y & E2 & E3). apply (get_inv _ _ _ 0) in E1. destruct E1 as [L1 ->].
  apply set_inv in E3. destruct E3 as [_ ->]. apply chk32_inv in E2. destruct E2 as [-> _].
  apply (shifted_upd Mo m l i _ (- e) 0); auto. lia.
Qed.
Lemma wrap32_add x : exists q, wrap32 x = x + q * 2 ^ 32.
Proof. exists (- ((x + 2 ^ 31) / 2 ^ 32)). unfold wrap32. rewrite Z.mod_eq by lia. lia. Qed.
Lemma adds_subto64 m i e : (i < m)%nat -> adds (2 ^ 32) m (fun l => subto64 l i e).
Proof.
  intros Hi. eexists. intros l l' E. unfold subto64 in E. apply bind_Ok in E. destruct E as (x & E1 & E).
  apply bind_Ok in E. destruct E as (y & E2 & E3). apply (get_inv _ _ _ 0) in E1. destruct E1 as [L1 ->].
  apply set_inv in E3. destruct E3 as [_ ->]. unfold chk64 in E2. destruct (in64 _); [|discriminate]. inversion E2; subst y.
  destruct (wrap32_add (nth i l 0 - e)) as (q & ->).
  apply (shifted_upd (2 ^ 32) m l i _ (- e) q); auto; lia.
Qed.
Lemma adds_acc2 Mo m r c t : (r <= m)%nat -> adds Mo m (acc2 r c t).
Proof.
  intros H. unfold acc2. apply adds_forN. intros i Hi. apply adds_forN. intros j Hj.
  apply (adds_pre Mo m (t i j) (fun e l => addto l i e)). intros e _. apply adds_addto. lia.
Qed.
Lemma adds_dec2 Mo m r c t : (r <= m)%nat -> adds Mo m (dec2 r c t).
Proof.
  intros H. unfold dec2. apply adds_forN. intros i Hi. apply adds_forN. intros j Hj.
  apply (adds_pre Mo m (t i j) (fun e l => subto l i e)). intros e _. apply adds_subto. lia.
Qed.

(** MVMs: the buffer changes additively and the new mapper does not depend on it. *)
Definition linear {B} (Mo : Z) (m : nat) (f : list Z -> out (list Z * B)) : Prop :=
  exists d q, forall l l' q', f l = Ok (l', q') -> q' = q /\ shifted Mo m d l l'.
Lemma linear_ret {B} Mo m f (q : B) : adds Mo m f -> linear Mo m (fun l => r <- f l ;; Ok (r, q)).
Proof.
  intros [d H]. exists d, q. intros l l' q' E. apply bind_Ok in E. destruct E as (r & E1 & E2). inversion E2; subst. auto.
Qed.
Lemma linear_pre {A B} Mo m (e : out A) (f : A -> list Z -> out (list Z * B)) : inhabited B ->
  (forall a, e = Ok a -> linear Mo m (f a)) -> linear Mo m (fun l => a <- e ;; f a l).
Proof.
  intros [b] H. destruct e as [a|u| |]; [apply (H a eq_refl)|..];
    exists (fun _ => 0), b; cbn; discriminate.
Qed.

Lemma linear_bind {B} Mo m f g : adds Mo m f -> @linear B Mo m g -> linear Mo m (fun l => r <- f l ;; g r).
Proof.
  intros [d1 H1] (d2 & q & H2). exists (fun i => d1 i + d2 i), q. intros l l' q' E. apply bind_Ok in E.
  destruct E as (r & E1 & E2). apply H1 in E1. apply H2 in E2. destruct E2. split; auto. eapply shifted_trans; eauto.
Qed.
Lemma linear_fail {B} Mo m f : inhabited B -> (forall l r, f l <> Ok r) -> @linear B Mo m f.
Proof. intros [b] H. exists (fun _ => 0), b. intros l l' q' E. now apply H in E. Qed.

Section F.
Context {MC : Machine}.

Definition wraps (md : mode) : bool := match md with I_UINT_W_OFFS | TNN_V => true | _ => false end.
Definition modulus (md : mode) : Z := if wraps md then 2 ^ 32 else 0.

(** Take the next operation off an MVM or a buffer update. *)
Ltac pre x := match goal with |- linear ?Mo ?m (fun l => bind ?e (fun a => @?f l a)) =>
  refine (linear_pre Mo m e (fun a l => f l a) _ _); [auto|cbv beta; intros x _; cbv beta iota] end.
Ltac seqn := match goal with |- linear ?Mo ?m (fun l => bind (@?f l) ?g) =>
  refine (linear_bind Mo m f g _ _) end.
Ltac fin := match goal with |- linear ?Mo ?m (fun l => bind (@?f l) (fun r => Ok (r, ?q))) =>
  refine (linear_ret Mo m f q _) end.
Ltac apre x := match goal with |- adds ?Mo ?m (fun l => bind ?e (fun a => @?f l a)) =>
  refine (adds_pre Mo m e (fun a l => f l a) _); cbv beta; intros x _; cbv beta iota end.
Ltac aseq := match goal with |- adds ?Mo ?m (fun l => bind (@?f l) ?g) =>
  refine (adds_bind Mo m f g _ _) end.

Lemma shift_add_adds Mo ns m shs t : adds Mo m (shift_add ns m shs t).
Proof. apply adds_acc2. lia. Qed.

Lemma d_mvm_linear c mp vec mat m n :
  linear (modulus (mp_mode mp)) m (fun res => d_mvm c mp res vec mat m n).
Proof.
  assert (IM : inhabited mapper) by (constructor; exact mp).
  unfold d_mvm. destruct (mp_mode mp); cbn [modulus wraps].
  1,2: unfold int_i_d; cbv zeta; pre q; destruct q as [vp vm]; pre t1; seqn; [apply shift_add_adds|]; pre t2; fin;
    apply shift_add_adds.
  - unfold int_ii_d. cbv zeta. pre vp. pre t. fin. apply adds_forN. intros i Hi. aseq.
    + apply adds_forN. intros s Hs. apre x. apre sh. apre y. now apply adds_addto.
    + apre sw. apre y. now apply adds_subto.
  - unfold int_iii_d. cbv zeta. pre mk. pre v1. pre t1. pre mk2. pre v2. pre t2. fin. apply shift_add_adds.
  - unfold int_iv_d. cbv zeta. pre t1. fin. apply shift_add_adds.
  - unfold int_v_d. cbv zeta. pre is. pre t. fin. apply adds_forN. intros i Hi. aseq.
    + apply adds_forN. intros s Hs. apre x. apre sh. apre y. now apply adds_addto.
    + apre y. now apply adds_subto64.
  - unfold bnn_i_d. pre vd. seqn; [now apply adds_acc2|]. fin. apply adds_forN. intros i Hi. apre sw. now apply adds_subto.
  - unfold bnn_ii_d. pre vd. seqn; [now apply adds_acc2|]. fin. apply adds_forN. intros i Hi. apre sw. now apply adds_addto.
  - unfold bnn_iii_d. pre q. destruct q as [[vp vm] sm]. fin. apply adds_forN. intros i Hi. aseq; [now apply adds_subto|].
    apply adds_forN. intros j Hj. apre x. now apply adds_addto.
  - unfold bnn_iv_d. pre q. destruct q as [[vp vm] sm]. fin. apply adds_forN. intros i Hi. aseq; [now apply adds_addto|].
    apply adds_forN. intros j Hj. apre x. now apply adds_addto.
  - unfold bnn_v_d. pre q. destruct q as [vp vm]. fin. apply adds_forN. intros i Hi. aseq; [now apply adds_subto|].
    apply adds_forN. intros j Hj. apre x. apre y. apre s. apre z. now apply adds_addto.
  - unfold quad_d. pre q. destruct q as [vp vm]. fin. now apply adds_acc2.
  - unfold quad_d. pre q. destruct q as [vp vm]. fin. now apply adds_acc2.
  - unfold tnn_ii_d. pre v0. seqn; [now apply adds_acc2|]. pre v1. fin. now apply adds_dec2.
  - unfold tnn_iii_d. pre v0. seqn; [now apply adds_acc2|]. pre v1. seqn; [now apply adds_acc2|]. fin.
    apply adds_forN. intros i Hi. apre sw. now apply adds_subto.
  - unfold tnn_iv_d. destruct (split11 _); [|now apply linear_fail]. pre q. destruct q as [vp vm]. fin. now apply adds_acc2.
  - unfold tnn_v_d. destruct (split11 _); [|now apply linear_fail]. pre is. pre q. destruct q as [vp vm]. fin.
    apply adds_forN. intros i Hi. aseq; [|now apply adds_subto64].
    apply adds_forN. intros j Hj. apre x. now apply adds_addto.
Qed.

(** ** Analog MVMs: entries from m on are left alone *)
Definition keepm (m : nat) (l l' : list Z) : Prop :=
  len l' = len l /\ forall i, (m <= i)%nat -> nth i l' 0 = nth i l 0.
Lemma keepm_refl m l : keepm m l l.
Proof. split; auto. Qed.
Lemma keepm_set m l0 l i x l' : keepm m l0 l -> (i < m)%nat -> set l i x = Ok l' -> keepm m l0 l'.
Proof.
  intros [L K] Hi E. apply set_inv in E. destruct E as [Hl ->]. split; [now rewrite upd_length|].
  intros k Hk. rewrite nth_upd by auto. replace (k =? i)%nat with false by lia. auto.
Qed.
Notation any := (tri anyfail).
Lemma any_true {A} (x : out A) : any (fun _ => True) x.
Proof. destruct x; exact I. Qed.
Lemma any_bind {A B} (P : B -> Prop) (x : out A) k : (forall a, any P (k a)) -> any P (bind x k).
Proof. intros H. apply (tri_bind anyfail (fun _ => True)); [apply any_true|auto]. Qed.
Lemma any_set m l0 l i x : keepm m l0 l -> (i < m)%nat -> any (keepm m l0) (set l i x).
Proof. intros K Hi. apply tri_any. intros l' E. eapply keepm_set; eauto. Qed.
Lemma any_fadd m l0 l i y : keepm m l0 l -> (i < m)%nat -> any (keepm m l0) (res_fadd l i y).
Proof. intros K Hi. unfold res_fadd. apply any_bind; intros a. apply any_bind; intros b. now apply any_set. Qed.
Lemma any_fsub m l0 l i y : keepm m l0 l -> (i < m)%nat -> any (keepm m l0) (res_fsub l i y).
Proof. intros K Hi. unfold res_fsub. apply any_bind; intros a. apply any_bind; intros b. now apply any_set. Qed.
Lemma any_addto m l0 l i y : keepm m l0 l -> (i < m)%nat -> any (keepm m l0) (addto l i y).
Proof. intros K Hi. unfold addto. apply any_bind; intros a. apply any_bind; intros b. now apply any_set. Qed.
Lemma any_subto m l0 l i y : keepm m l0 l -> (i < m)%nat -> any (keepm m l0) (subto l i y).
Proof. intros K Hi. unfold subto. apply any_bind; intros a. apply any_bind; intros b. now apply any_set. Qed.
Lemma any_subto64 m l0 l i y : keepm m l0 l -> (i < m)%nat -> any (keepm m l0) (subto64 l i y).
Proof. intros K Hi. unfold subto64. apply any_bind; intros a. apply any_bind; intros b. now apply any_set. Qed.

Definition kfst {A} (m : nat) (l0 : list Z) (q : list Z * A) : Prop := keepm m l0 (fst q).

Lemma any_rows m l0 l body : keepm m l0 l ->
  (forall i r, (i < m)%nat -> keepm m l0 r -> any (keepm m l0) (body i r)) -> any (keepm m l0) (forN m body l).
Proof. intros K H. apply tri_loop; auto. Qed.
Lemma any_bit_add c mp l m bit neg sub t l0 r : keepm m l0 r -> any (keepm m l0) (bit_add c mp l m bit neg sub t r).
Proof.
  intros K. unfold bit_add. cbv zeta. apply any_rows; auto. intros i r1 Hi K1. apply tri_loop; auto. intros s r2 Hs K2.
  do 5 (apply any_bind; intros ?). destruct sub; [now apply any_fsub|now apply any_fadd].
Qed.
Lemma any_bit_loop c mp l vd m n bits neg l0 r t vds : keepm m l0 r ->
  any (fun '(r, _, _) => keepm m l0 r) (bit_loop c mp l vd m n bits neg (r, t, vds)).
Proof.
  intros K. unfold bit_loop. apply tri_loop; auto. intros b [[r1 t1] v1] Hb K1.
  do 2 (apply any_bind; intros ?). apply (tri_bind anyfail (keepm m l0)); [now apply any_bit_add|]. intros r2 K2. exact K2.
Qed.
Lemma any_tnn_slice c mp v m n l k sub t l0 r e : keepm m l0 r ->
  any (fun '(r, _, _) => keepm m l0 r) (tnn_slice c mp v m n l k sub t r e).
Proof.
  intros K. unfold tnn_slice. apply any_bind; intros t1. apply any_bind; intros sc. apply any_bind; intros [t2 e2].
  apply (tri_bind anyfail (keepm m l0)); [|intros r2 K2; exact K2].
  apply any_rows; auto. intros i r1 Hi K1. apply any_bind; intros x. destruct sub; [now apply any_fsub|now apply any_fadd].
Qed.

Lemma a_mvm_keepm c mp res vec mat m n l e :
  any (fun '(r, _, _) => keepm m res r) (a_mvm c mp res vec mat m n l e).
Proof.
  pose proof (keepm_refl m res) as K0.
  assert (HP : forall x, any (fun '(r, _) => keepm m res r) x ->
    any (fun '(r, _, _) => keepm m res r) ('(r, mp') <- x ;; Ok (r, mp', e) : out (list Z * mapper * env))).
  { intros x Hx. apply (tri_bind anyfail _ _ _ _ Hx). intros [r q] H. exact H. }
  assert (HR : forall body, (forall i r, (i < m)%nat -> keepm m res r -> any (keepm m res) (body i r)) ->
    any (keepm m res) (forN m body res)) by (intros; now apply any_rows).
  unfold a_mvm. cbv zeta. destruct (mp_mode mp).
  - apply HP. unfold int_i_a. apply any_bind; intros [vp vm]. apply (tri_bind anyfail _ _ _ _ (any_bit_loop c mp l vp m n _ _ res _ _ _ K0)).
    intros [[r1 t1] v1] K1. apply (tri_bind anyfail _ _ _ _ (any_bit_loop c mp l vm m n _ _ res _ _ _ K1)).
    intros [[r2 t2] v2] K2. exact K2.
  - apply HP. unfold int_i_a. apply any_bind; intros [vp vm]. apply (tri_bind anyfail _ _ _ _ (any_bit_loop c mp l vp m n _ _ res _ _ _ K0)).
    intros [[r1 t1] v1] K1. apply (tri_bind anyfail _ _ _ _ (any_bit_loop c mp l vm m n _ _ res _ _ _ K1)).
    intros [[r2 t2] v2] K2. exact K2.
  - apply HP. unfold int_ii_a. cbv zeta. apply any_bind; intros vp. apply (tri_bind anyfail _ _ _ _ (any_bit_loop c mp l vp m n _ _ res _ _ _ K0)).
    intros [[r1 t1] v1] K1. apply (tri_bind anyfail (keepm m res)); [|intros r2 K2; exact K2].
    apply any_rows; auto. intros i r Hi K. do 2 (apply any_bind; intros ?). now apply any_subto.
  - apply HP. unfold int_iii_a. cbv zeta. apply any_bind; intros vp. apply (tri_bind anyfail _ _ _ _ (any_bit_loop c mp l vp m n _ _ res _ _ _ K0)).
    intros [[r1 t1] v1] K1. do 2 (apply any_bind; intros ?). apply (tri_bind anyfail (keepm m res)); [now apply any_bit_add|intros r2 K2; exact K2].
  - apply HP. unfold int_iv_a. cbv zeta. apply any_bind; intros vp. apply (tri_bind anyfail _ _ _ _ (any_bit_loop c mp l vp m n _ _ res _ _ _ K0)).
    intros [[r1 t1] v1] K1. exact K1.
  - apply HP. unfold int_v_a. cbv zeta. do 2 (apply any_bind; intros ?). apply any_bind; intros [[rf t] vds].
    apply (tri_bind anyfail (fun '(r, _) => keepm m res r)); [|intros [r f] K; exact K].
    apply tri_loop; auto. intros i [r f] Hi K. do 5 (apply any_bind; intros ?).
    apply (tri_bind anyfail (keepm m res)); [now apply any_addto|intros r2 K2; exact K2].
  - unfold bnn_i_a. do 3 (apply any_bind; intros ?). apply any_bind; intros [t e1].
    apply (tri_bind anyfail (keepm m res)); [|intros r2 K2; exact K2].
    apply HR. intros i r Hi K. do 2 (apply any_bind; intros ?). now apply any_fadd.
  - unfold bnn_ii_a. do 3 (apply any_bind; intros ?). apply any_bind; intros [t e1].
    apply (tri_bind anyfail (keepm m res)); [|intros r2 K2; exact K2].
    apply HR. intros i r Hi K. do 2 (apply any_bind; intros ?). now apply any_fadd.
  - unfold bnn_iii_iv_a. apply any_bind; intros [[vp vm] sm]. do 4 (apply any_bind; intros ?).
    do 2 (apply any_bind; intros [? ?]). apply (tri_bind anyfail (keepm m res)); [|intros r2 K2; exact K2].
    apply HR. intros i r Hi K. do 2 (apply any_bind; intros ?). now apply any_fadd.
  - unfold bnn_iii_iv_a. apply any_bind; intros [[vp vm] sm]. do 4 (apply any_bind; intros ?).
    do 2 (apply any_bind; intros [? ?]). apply (tri_bind anyfail (keepm m res)); [|intros r2 K2; exact K2].
    apply HR. intros i r Hi K. do 2 (apply any_bind; intros ?). now apply any_fadd.
  - unfold bnn_v_a. apply any_bind; intros [vp vm]. do 2 (apply any_bind; intros ?).
    apply any_bind; intros [? ?]. apply (tri_bind anyfail (keepm m res)); [|intros r2 K2; exact K2].
    apply HR. intros i r Hi K. do 1 (apply any_bind; intros ?). now apply any_fadd.
  - unfold quad_a. apply any_bind; intros [vp vm]. do 2 (apply any_bind; intros ?).
    apply any_bind; intros [? ?]. apply (tri_bind anyfail (keepm m res)); [|intros r2 K2; exact K2].
    apply HR. intros i r Hi K. do 1 (apply any_bind; intros ?). now apply any_fadd.
  - unfold quad_a. apply any_bind; intros [vp vm]. do 2 (apply any_bind; intros ?).
    apply any_bind; intros [? ?]. apply (tri_bind anyfail (keepm m res)); [|intros r2 K2; exact K2].
    apply HR. intros i r Hi K. do 1 (apply any_bind; intros ?). now apply any_fadd.
  - unfold tnn_ii_a. apply any_bind; intros v0. apply (tri_bind anyfail _ _ _ _ (any_tnn_slice c mp v0 m n l 1 false _ res _ e K0)).
    intros [[r1 t1] e1] K1. apply any_bind; intros v1. apply (tri_bind anyfail _ _ _ _ (any_tnn_slice c mp v1 m n l 2 true _ res _ e1 K1)).
    intros [[r2 t2] e2] K2. exact K2.
  - unfold tnn_iii_a. apply any_bind; intros v0. apply (tri_bind anyfail _ _ _ _ (any_tnn_slice c mp v0 m n l 1 false _ res _ e K0)).
    intros [[r1 t1] e1] K1. apply any_bind; intros v1. apply (tri_bind anyfail _ _ _ _ (any_tnn_slice c mp v1 m n l 2 false _ res _ e1 K1)).
    intros [[r2 t2] e2] K2. apply (tri_bind anyfail (keepm m res)); [|intros r3 K3; exact K3].
    apply any_rows; auto. intros i r Hi K. apply any_bind; intros ?. now apply any_subto.
  - unfold tnn_tc_a. cbv zeta. destruct (split11 _); [|exact I]. apply any_bind; intros isum. apply any_bind; intros [vp vm].
    apply any_bind; intros i3. apply any_bind; intros [[[[t lsb] msb] fp] e1].
    apply (tri_bind anyfail (keepm m res)); [|intros r3 K3; exact K3].
    apply HR. intros i r Hi K. apply any_bind; intros ?. apply (tri_bind anyfail (keepm m res)); [now apply any_fadd|].
    intros r1 K1. exact K1.
  - unfold tnn_tc_a. cbv zeta. destruct (split11 _); [|exact I]. apply any_bind; intros isum. apply any_bind; intros [vp vm].
    apply any_bind; intros i3. apply any_bind; intros [[[[t lsb] msb] fp] e1].
    apply (tri_bind anyfail (keepm m res)); [|intros r3 K3; exact K3].
    apply HR. intros i r Hi K. apply any_bind; intros ?. apply (tri_bind anyfail (keepm m res)); [now apply any_fadd|].
    intros r1 K1. now apply any_subto64.
Qed.

Lemma xmvm_keepm c x res vec mat m n l e r x' e' : xmvm c x res vec mat m n l e = Ok (r, x', e') -> keepm m res r.
Proof.
  intros H. unfold xmvm in H. cbv zeta in H. destruct (digital_only c).
  - inv_as H q Hq. destruct q as [r1 mp1]. inversion H; subst.
    destruct (d_mvm_linear c (xm (x <| n_mvm := n_mvm x + 1 |> <| n_read := n_read x + 1 |>)) vec mat m n) as (d & q & HL).
    apply HL in Hq. destruct Hq as (_ & L & _ & K). split; auto.
  - inv_as H q Hq. destruct q as [mp1 e1]. inv_as H q2 Hq2. destruct q2 as [[r2 mp2] e2].
    inv_as H mp3 H3. inv_as H q4 H4. destruct q4 as [x4 e4]. inversion H; subst.
    pose proof (a_mvm_keepm c mp1 res vec mat m n l e1) as HK. rewrite Hq2 in HK. exact HK.
Qed.

Lemma mvm_result_frame : forall w a res m w1 k res',
  (exists vec mat n l, a = ExeMvm res vec mat m n l) \/ (exists vec mat n, a = PyMvm res vec mat m n) ->
  step w a = Ok (w1, RRes k res') ->
  len res' = len res /\ forall i, m <= Z.of_nat i -> nth i res' 0 = nth i res 0.
Proof.
  intros w a res m w1 k res' Ha H.
  assert (HK : k <> 0 -> res' = res).
  { destruct Ha as [(vec & mat & n & l & ->)|(vec & mat & n & ->)]; cbn [step] in H.
    - unfold exe_mvm in H. destruct (wx w); [|inversion H; auto]. destruct (too_big _ _ _); [inversion H; auto|].
      inv_as H d Hd. destruct d. inv_as H q Hq. destruct q as [[? ?] ?]. inversion H. congruence.
    - unfold py_mvm in H. inv_as H x Hx. inv_as H d Hd. destruct d. inv_as H q Hq. destruct q as [[? ?] ?]. inversion H. congruence. }
  destruct (Z.eq_dec k 0) as [->|Hk]; [clear HK|rewrite HK by auto; auto].
  assert (HM : 0 <= m /\ keepm (Z.to_nat m) res res').
  { destruct Ha as [(vec & mat & n & l & ->)|(vec & mat & n & ->)]; cbn [step] in H.
    - unfold exe_mvm in H. destruct (wx w); [|discriminate]. destruct (too_big _ _ _); [discriminate|].
      inv_as H d Hd. unfold dims in Hd. destruct ((m <? 0) || (n <? 0)) eqn:Eneg; [discriminate|]. inversion Hd; subst d.
      inv_as H q Hq. destruct q as [[? ?] ?]. inversion H; subst. apply xmvm_keepm in Hq. split; [lia|auto].
    - unfold py_mvm in H. inv_as H x Hx.
      inv_as H d Hd. unfold dims in Hd. destruct ((m <? 0) || (n <? 0)) eqn:Eneg; [discriminate|]. inversion Hd; subst d.
      inv_as H q Hq. destruct q as [[? ?] ?]. inversion H; subst. apply xmvm_keepm in Hq. split; [lia|auto]. }
  destruct HM as (Hm & L & K). split; auto. intros i Hi. apply K. lia.
Qed.

Lemma mvm_increment : forall w res1 res2 vec mat m n l w1 w2 k1 k2 r1 r2,
  reach w -> digital_only (wcfg w) = true ->
  step w (ExeMvm res1 vec mat m n l) = Ok (w1, RRes k1 r1) ->
  step w (ExeMvm res2 vec mat m n l) = Ok (w2, RRes k2 r2) ->
  w1 = w2 /\ k1 = k2 /\
  forall i, exists q, nth i r1 0 - nth i res1 0 = nth i r2 0 - nth i res2 0 + q * 2 ^ 32 /\
    (m_mode (wcfg w) <> I_UINT_W_OFFS -> m_mode (wcfg w) <> TNN_V -> q = 0).
Proof.
  intros w res1 res2 vec mat m n l w1 w2 k1 k2 r1 r2 Hr Hd H1 H2. apply reach_good in Hr. cbn [step] in *.
  unfold exe_mvm in H1, H2. destruct (wx w) as [x|] eqn:Ex.
  2: { inversion H1; inversion H2; subst. repeat split; auto. intros i. exists 0. split; [lia|auto]. }
  destruct (too_big _ _ _).
  { inversion H1; inversion H2; subst. repeat split; auto. intros i. exists 0. split; [lia|auto]. }
  inv_as H1 d1 D1. inv_as H2 d2 D2. rewrite D1 in D2. inversion D2; subst d2. destruct d1 as [m' n'].
  inv_as H1 q1 Q1. inv_as H2 q2 Q2. destruct q1 as [[s1 x1] e1], q2 as [[s2 x2] e2]. inversion H1; inversion H2; subst. clear H1 H2.
  unfold xmvm in Q1, Q2. cbv zeta in Q1, Q2. rewrite Hd in Q1, Q2.
  set (x0 := x <| n_mvm := n_mvm x + 1 |> <| n_read := n_read x + 1 |>) in *.
  inv_as Q1 p1 P1. inv_as Q2 p2 P2. destruct p1 as [a1 b1], p2 as [a2 b2]. inversion Q1; inversion Q2; subst.
  destruct (d_mvm_linear (wcfg w) (xm x0) vec mat m' n') as (d & q & HL).
  destruct (HL _ _ _ P1) as (-> & _ & A1 & B1). destruct (HL _ _ _ P2) as (-> & _ & A2 & B2).
  split; [reflexivity|]. split; [reflexivity|]. intros i.
  assert (Em : mp_mode (xm x0) = m_mode (wcfg w)).
  { change (xm x0) with (xm x). apply (sh_mode _ _ (xo_shape _ _ (g_x _ Hr x Ex))). }
  destruct (Nat.lt_ge_cases i m') as [Hi|Hi].
  - destruct (A1 i Hi) as (q1 & E1), (A2 i Hi) as (q2 & E2). rewrite Em in *. unfold modulus in *.
    destruct (wraps (m_mode (wcfg w))) eqn:Ew.
    + exists (q1 - q2). split; [lia|]. intros. destruct (m_mode (wcfg w)); try discriminate; congruence.
    + exists 0. split; [lia|auto].
  - exists 0. rewrite B1, B2 by auto. split; [lia|auto].
Qed.
End F.
