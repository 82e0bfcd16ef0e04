(** C88: slices of width zero. *)
From Coq Require Import String List ZArith Bool Arith Lia ZifyBool ZifyNat.
From RecordUpdate Require Import RecordSet.
From Flocq Require Import Core BinarySingleNaN.
From Verif Require Import Base Lib Machine FloatMachine Json Config Histogram Adc ReadDisturb Parasitics
  Mapper IntMappers BnnMappers TnnMappers Crossbar Api Spec ConfigProofs CfgProps Shape AnaShape Reach DigApi Invar
  AnaWrite AdcProps StoreProps Hoare KinSpec Kin KinProps NoiseProps.
Import ListNotations RecordSetNotations.
Ltac Zify.zify_post_hook ::= idtac.
Local Open Scope Z_scope.
Local Open Scope out_scope.

(** ** Buffers *)


Lemma set_get {A} (l : list A) i x l' : set l i x = Ok l' -> get l' i = Ok x /\ forall k, k <> i -> get l' k = get l k.
Proof.
  intros H. apply set_inv in H. destruct H as [Hi ->]. unfold get.
  split; [|intros k Hk]; rewrite nth_error_upd by exact Hi.
  - now rewrite Nat.eqb_refl.
  - now replace (k =? i)%nat with false by lia.
Qed.
Lemma set2_get {A} (g : list (list A)) i j x g' : set2 g i j x = Ok g' -> get2 g' i j = Ok x /\
  forall r k, r <> i \/ k <> j -> get2 g' r k = get2 g r k.
Proof.
  intros H. unfold set2 in H. inv_as H row R. inv_as H row' S. apply set_get in S, H. destruct S as [S1 S2], H as [H1 H2]. unfold get2. split.
  - rewrite H1. cbn [bind]. exact S1.
  - intros r k Hrk. destruct (Nat.eq_dec r i) as [->|Hr].
    + rewrite H1, R. cbn [bind]. apply S2. lia.
    + now rewrite H2.
Qed.


Lemma forN_when {S} (A : nat -> Prop) (B : S -> Prop) n body s s' : forN n body s = Ok s' -> A n -> (A 0%nat -> B s) ->
  (forall k s s', (k < n)%nat -> (A k -> B s) -> body k s = Ok s' -> A (Datatypes.S k) -> B s') -> B s'.
Proof.
  intros H HA H0 HS. assert (K : A n -> B s'); [|auto]. exact (forN_Ok (fun k s => A k -> B s) n body s s' H H0 HS).
Qed.

(** ** A slice of width zero always stores 0 *)
Section Dig.
Context {MC : Machine}.
Notation len := List.length.
Context (split shs : list Z) (z : nat) (Hz : nth_error split z = Some 0).
Definition none0 (g : list (list Z)) : Prop := get2 g z 0 = Ok 0.

Lemma z_in : (z < len split)%nat.
Proof. apply nth_error_Some. congruence. Qed.
Lemma ones0 o : ones 0 = Ok o -> o = 0.
Proof. unfold ones, shl32. destruct strict_shl; cbn; intros H; inversion H; reflexivity. Qed.
(** One stored value. *)
Lemma store0 (g : list (list Z)) i j s v g' : (s < len split)%nat -> (s = z -> v = 0) -> set2 g (i * len split + s) j v = Ok g' ->
  (none0 g \/ (i = 0%nat /\ j = 0%nat /\ s = z)) -> none0 g'.
Proof.
  intros Hs Hv H. apply set2_get in H. destruct H as [H1 H2]. unfold none0. pose proof z_in as Hzi.
  destruct (Nat.eq_dec (i * len split + s) z) as [E|E], (Nat.eq_dec j 0) as [->|Ej]; intros HH.
  - assert (i = 0%nat) by (destruct i; nia). subst i. cbn in *. subst s. rewrite Hv in H1 by reflexivity. exact H1.
  - rewrite H2 by lia. destruct HH as [HH|(? & ? & ?)]; [exact HH|lia].
  - rewrite H2 by lia. destruct HH as [HH|(-> & ? & ->)]; [exact HH|lia].
  - rewrite H2 by lia. destruct HH as [HH|(-> & ? & ->)]; [exact HH|lia].
Qed.
Lemma split_at s sp : get split s = Ok sp -> (s < len split)%nat /\ (s = z -> sp = 0).
Proof.
  unfold get. destruct (nth_error split s) as [y|] eqn:E; intros H; inversion H; subst. split; [apply nth_error_Some; congruence|].
  intros ->. congruence.
Qed.

Lemma put_diff0 i j v gp gm gp' gm' : put_diff split shs i j v (gp, gm) = Ok (gp', gm') ->
  none0 gp \/ (i = 0%nat /\ j = 0%nat) -> none0 gp'.
Proof.
  intros H HH. unfold put_diff in H.
  apply (forN_when (fun s => none0 gp \/ (z < s)%nat) (fun '(a, _) => none0 a)) in H; [exact H| | |].
  - destruct HH as [?|[? ?]]; [now left|right; apply z_in].
  - intros [?|?]; [assumption|lia].
  - intros s [a b] [a' b'] Hs IH E Hq0. cbv zeta in E. inv_as E sh Hsh. inv_as E sp Hsp. apply split_at in Hsp. destruct Hsp as [_ Hsp].
    assert (P : forall a x, (s = z -> x = 0) -> set2 a (i * len split + s) j x = Ok a' -> (none0 gp \/ (z < s)%nat -> none0 a) ->
              none0 gp \/ (z < S s)%nat -> none0 a').
    { intros a0 x Hx Hst IHa Hq. apply (store0 a0 i j s x a'); [exact Hs|exact Hx|exact Hst|].
      destruct HH as [H0|[-> ->]]; [left; apply IHa; now left|].
      destruct (Nat.eq_dec s z) as [->|Hne]; [now right|]. left. apply IHa. destruct Hq; [now left|right; lia]. }
    destruct (0 <=? v).
    + inv_as E x Hx. inv_as E o Ho. inv_as E g1 G1. inv_as E g2 G2. inversion E; subst.
      apply (P a (Z.land x o) ); [|exact G1|exact IH|exact Hq0]. intros Es. rewrite (Hsp Es) in Ho. apply ones0 in Ho. subst o. apply Z.land_0_r.
    + inv_as E g1 G1. inv_as E nv Hnv. inv_as E x Hx. inv_as E o Ho. inv_as E g2 G2. inversion E; subst. apply (P a 0); [reflexivity|exact G1|exact IH|exact Hq0].
Qed.
Lemma put_offs0 wb i j v gp gm gp' gm' : put_offs split shs wb i j v (gp, gm) = Ok (gp', gm') ->
  none0 gp \/ (i = 0%nat /\ j = 0%nat) -> none0 gp'.
Proof.
  intros H HH. unfold put_offs in H. inv_as H o1 Ho1. inv_as H y Hy. inv_as H q Q. inversion H; subst. clear H.
  apply (forN_when (fun s => none0 gp \/ (z < s)%nat) none0) in Q; [exact Q| | |].
  - destruct HH as [?|[? ?]]; [now left|right; apply z_in].
  - intros [?|?]; [assumption|lia].
  - intros s a a' Hs IH E Hq. inv_as E sh Hsh. inv_as E sp Hsp. apply split_at in Hsp. destruct Hsp as [_ Hsp].
    inv_as E x Hx. inv_as E o Ho.
    apply (store0 a i j s (Z.land x o) a'); [exact Hs| |exact E|].
    + intros Es. rewrite (Hsp Es) in Ho. apply ones0 in Ho. subst o. apply Z.land_0_r.
    + destruct HH as [H0|[-> ->]]; [left; apply IH; now left|].
      destruct (Nat.eq_dec s z) as [->|Hne]; [now right|]. left. apply IH. destruct Hq; [now left|right; lia].
Qed.
Definition keeps0 (put : nat -> nat -> Z -> list (list Z) * list (list Z) -> out (list (list Z) * list (list Z))) : Prop :=
  forall i j v gp gm gp' gm', put i j v (gp, gm) = Ok (gp', gm') -> none0 gp \/ (i = 0%nat /\ j = 0%nat) -> none0 gp'.
Lemma write_sum0 put mat m n gp gm sw gp' gm' sw' : keeps0 put -> (1 <= m)%nat -> (1 <= n)%nat ->
  write_sum put mat m n (gp, gm, sw) = Ok (gp', gm', sw') -> none0 gp'.
Proof.
  intros Hp Hm Hn H. unfold write_sum in H.
  apply (forN_when (fun i => (1 <= i)%nat) (fun '(a, _, _) => none0 a)) in H; [exact H|lia|lia|].
  intros i [[a b] s] [[a' b'] s'] Hi IH E _. inv_as E q Q. destruct q as [[a1 b1] s1]. inv_as E s2 S2. inversion E; subst.
  apply (forN_when (fun j => (1 <= i)%nat \/ (1 <= j)%nat) (fun '(a, _, _) => none0 a)) in Q; [exact Q|lia|intros [?|?]; [auto|lia]|].
  intros j [[a2 b2] s2] [[a3 b3] s3] Hj IHj E2 _. inv_as E2 v V. inv_as E2 sm Sm. inv_as E2 g G. destruct g. inversion E2; subst.
  eapply Hp; [exact G|]. destruct (Nat.eq_dec i 0); [|left; apply IHj; left; lia]. destruct (Nat.eq_dec j 0); [right; now split|].
  left. apply IHj. right. lia.
Qed.
Lemma write_plain0 put mat m n gp gm sw gp' gm' sw' : keeps0 put -> (1 <= m)%nat -> (1 <= n)%nat ->
  write_plain put mat m n (gp, gm, sw) = Ok (gp', gm', sw') -> none0 gp'.
Proof.
  intros Hp Hm Hn H. unfold write_plain in H.
  apply (forN_when (fun i => (1 <= i)%nat) (fun '(a, _, _) => none0 a)) in H; [exact H|lia|lia|].
  intros i [[a b] s] [[a' b'] s'] Hi IH Q _.
  apply (forN_when (fun j => (1 <= i)%nat \/ (1 <= j)%nat) (fun '(a, _, _) => none0 a)) in Q; [exact Q|lia|intros [?|?]; [auto|lia]|].
  intros j [[a2 b2] s2] [[a3 b3] s3] Hj IHj E2 _. inv_as E2 v V. inv_as E2 g G. destruct g. inversion E2; subst.
  eapply Hp; [exact G|]. destruct (Nat.eq_dec i 0); [|left; apply IHj; left; lia]. destruct (Nat.eq_dec j 0); [right; now split|].
  left. apply IHj. right. lia.
Qed.
End Dig.

(** ** A value that survives every operation and cannot be converted *)
Record poison {MC : Machine} (q : F) : Prop := {
  po_addl : forall x, fadd q x = q;
  po_addr : forall x, fadd x q = q;
  po_subl : forall x, fsub q x = q;
  po_subr : forall x, fsub x q = q;
  po_mull : forall x, fmul q x = q;
  po_divl : forall x, fdiv q x = q;
  po_round : fround q = q;
  po_ltl : forall x, flt q x = false;
  po_ltr : forall x, flt x q = false;
  po_trunc : f_trunc q = None
}.
Section Poison.
Context {MC : Machine} (q : F) (P : poison q).
Notation len := List.length.

Lemma po_adc c a l scale off y : adc1 c a l q scale off = Ok y -> y = q.
Proof.
  assert (Q : forall k mn mx y, quantize k mn mx q scale off = Ok y -> y = q).
  { intros k mn mx y0 H. unfold quantize in H. inv_as H k' K. cbv zeta in H. inversion H; subst; clear H.
    unfold clip, fmax, fmin. rewrite (po_addl _ P), (po_ltl _ P), (po_ltr _ P), (po_subl _ P), (po_divl _ P), (po_round _ P), (po_mull _ P),
      (po_addl _ P), (po_mull _ P). apply (po_round _ P). }
  unfold adc1. destruct (a_ty a); intros H; try (inv_as H p HP; destruct p; eapply Q; exact H).
  inversion H. now rewrite (po_addl _ P), (po_mull _ P).
Qed.
Lemma po_f2i x : f2i q <> Ok x.
Proof. unfold f2i. rewrite (po_trunc _ P). discriminate. Qed.
Lemma po_res_add res i r : res_fadd res i q <> Ok r.
Proof. unfold res_fadd. intros H. inv_as H x X. inv_as H y Y. rewrite (po_addr _ P) in Y. now apply po_f2i in Y. Qed.
Lemma po_res_sub res i r : res_fsub res i q <> Ok r.
Proof. unfold res_fsub. intros H. inv_as H x X. inv_as H y Y. rewrite (po_subr _ P) in Y. now apply po_f2i in Y. Qed.

Lemma faddto_get a t e a' : faddto a t e = Ok a' -> exists x, get a t = Ok x /\ get a' t = Ok (fadd x e) /\
  forall k, k <> t -> get a' k = get a k.
Proof. unfold faddto. intros H. inv_as H x X. apply set_get in H. destruct H. eauto. Qed.
Lemma fsubto_get a t e a' : fsubto a t e = Ok a' -> exists x, get a t = Ok x /\ get a' t = Ok (fsub x e) /\
  forall k, k <> t -> get a' k = get a k.
Proof. unfold fsubto. intros H. inv_as H x X. apply set_get in H. destruct H. eauto. Qed.

(** A poisoned term poisons its sum. *)
Lemma po_facc rows n term t t' z : facc2 rows n term t = Ok t' -> (z < rows)%nat -> (1 <= n)%nat ->
  (forall e, term z 0%nat = Ok e -> e = q) -> get t' z = Ok q.
Proof.
  intros H Hz Hn HT. unfold facc2 in H.
  apply (forN_when (fun k => (z < k)%nat) (fun a => get a z = Ok q)) in H; [exact H|lia|lia|].
  clear t t' H. intros k a a' Hk IH H Hzk.
  apply (forN_when (fun j => (z < k)%nat \/ (1 <= j)%nat) (fun b => get b z = Ok q)) in H; [exact H|lia|intros [?|?]; [auto|lia]|].
  intros j b b' Hj IHj E Hor. inv_as E e Et. apply faddto_get in E. destruct E as (x & X & G1 & G2).
  destruct (Nat.eq_dec z k) as [->|Hne].
  - rewrite G1. destruct (Nat.eq_dec j 0) as [->|Hj0].
    + rewrite (HT _ Et). now rewrite (po_addr _ P).
    + rewrite IHj in X by (right; lia). inversion X; subst. now rewrite (po_addl _ P).
  - rewrite G2 by exact Hne. apply IHj. left. lia.
Qed.

Context (c : config) (mp : mapper) (z : nat) (Hz : (z < nsplit c)%nat) (Hcell : get2 (ia_p mp) z 0 = Ok q).
Context (Hpar : parasitics c = false) (m n : nat) (Hm : (1 <= m)%nat) (Hn : (1 <= n)%nat).

Lemma po_bit_add l bit neg sub t res r : get t z = Ok q -> bit_add c mp l m bit neg sub t res <> Ok r.
Proof.
  intros Ht H. unfold bit_add in H. destruct (forN_each _ _ _ _ 0 H Hm) as (a & b & E).
  destruct (forN_each _ _ _ _ z E Hz) as (a' & b' & E'). cbn [Nat.mul Nat.add] in E'. rewrite Ht in E'. cbn [bind] in E'.
  inv_as E' sh SH. inv_as E' o O. inv_as E' stp ST. inv_as E' y Y. apply po_adc in Y. subst y.
  destruct sub; [now apply po_res_sub in E'|now apply po_res_add in E'].
Qed.
Lemma po_fterm a vds e : fterm (ia_p mp) a vds z 0 = Ok e -> e = q.
Proof.
  unfold fterm. rewrite Hcell. cbn [bind]. intros H. inv_as H y Y. inv_as H w W. inversion H. now rewrite (po_subl _ P), (po_mull _ P).
Qed.
Lemma po_fterm1 vds e : fterm1 (ia_p mp) vds z 0 = Ok e -> e = q.
Proof. unfold fterm1. rewrite Hcell. cbn [bind]. intros H. inv_as H w W. inversion H. now rewrite (po_mull _ P). Qed.
Lemma z_row : (z < m * nsplit c)%nat.
Proof. nia. Qed.
Lemma po_currents a vds vds' t t' : slice_currents c mp (fterm (ia_p mp) a vds) vds' (m * nsplit c) n t = Ok t' -> get t' z = Ok q.
Proof.
  unfold slice_currents. rewrite Hpar. intros H. eapply po_facc; [exact H|apply z_row|exact Hn|]. intros e. apply po_fterm.
Qed.
Lemma po_loop l vd bits neg s s' : 1 <= bits -> bit_loop c mp l vd m n bits neg s <> Ok s'.
Proof.
  intros Hb H. unfold bit_loop in H. destruct (forN_each _ _ _ _ 0 H ltac:(lia)) as ([[a t] v] & b & E).
  inv_as E vds V. inv_as E t1 T. inv_as E r R. apply po_currents in T. now apply po_bit_add in R.
Qed.
Lemma po_i res vec mat l r : 0 < I_BIT c -> int_i_a c mp res vec mat m n l <> Ok r.
Proof.
  intros Hb H. unfold int_i_a in H. inv_as H v V. destruct v. inv_as H s S1. destruct s as [[? ?] ?]. inv_as H s S2. apply po_loop in S2; [exact S2|lia].
Qed.
Lemma po_ii res vec mat l r : 0 < I_BIT c < 2 ^ 32 -> int_ii_a c mp res vec mat m n l <> Ok r.
Proof.
  intros Hb H. unfold int_ii_a in H. cbv zeta in H. inv_as H v V. inv_as H s S1. apply po_loop in S1; [exact S1|].
  assert (I_BIT c < 2 ^ 32 - 1).
  { unfold load in V. destruct (forN_each _ _ _ _ 0 V Hn) as (a & b & E). inv_as E y Y. inv_as E w W. inv_as W o O.
    unfold shl32 in O. destruct (_ && _) eqn:EE in O; [|discriminate]. unfold u32 in EE. rewrite Z.mod_small in EE by lia. lia. }
  unfold u32. rewrite Z.mod_small by lia. lia.
Qed.
Lemma po_iii res vec mat l r : int_iii_a c mp res vec mat m n l <> Ok r.
Proof.
  intros H. unfold int_iii_a in H. cbv zeta in H. inv_as H v V. inv_as H s S1. destruct s as [[? ?] ?]. inv_as H vds VD. inv_as H t T.
  inv_as H r1 R. apply po_currents in T. now apply po_bit_add in R.
Qed.
Lemma po_iv res vec mat l r : 0 < I_BIT c -> int_iv_a c mp res vec mat m n l <> Ok r.
Proof. intros Hb H. unfold int_iv_a in H. inv_as H v V. inv_as H s S1. apply po_loop in S1; [exact S1|lia]. Qed.
(** Once poisoned, an accumulated result stays poisoned. *)
Lemma po_v res vec mat l r : 0 < I_BIT c -> int_v_a c mp res vec mat m n l <> Ok r.
Proof.
  intros Hb H. unfold int_v_a in H. cbv zeta in H. inv_as H vp V. inv_as H isum IS. inv_as H s S1. destruct s as [[rf t] vds].
  assert (R : get rf 0 = Ok q).
  { apply (forN_when (fun k => (1 <= k)%nat) (fun '(rf, _, _) => get rf 0 = Ok q)) in S1; [exact S1|lia|lia|].
    clear H rf t vds S1. intros b [[rf t] vds] [[rf' t'] vds'] Hb' IH E _. inv_as E v1 V1. inv_as E t1 T1. inv_as E r1 R1.
    inversion E; subst; clear E.
    assert (Tz : get t1 z = Ok q).
    { unfold slice_currents in T1. rewrite Hpar in T1. eapply po_facc; [exact T1|apply z_row|exact Hn|]. intros e. apply po_fterm1. }
    apply (forN_when (fun i => (1 <= i)%nat) (fun a => get a 0 = Ok q)) in R1; [exact R1|lia|lia|].
    intros i a a' Hi IHi E _.
    apply (forN_when (fun s => (1 <= i)%nat \/ (z < s)%nat) (fun a => get a 0 = Ok q)) in E; [exact E|lia|intros [?|?]; [auto|lia]|].
    intros s a1 a2 Hs IHs E2 Hor. inv_as E2 x X. inv_as E2 sh SH. inv_as E2 o O. inv_as E2 stp ST. inv_as E2 y Y.
    apply faddto_get in E2. destruct E2 as (x0 & X0 & G1 & G2). destruct (Nat.eq_dec i 0) as [->|Hi0].
    - rewrite G1. destruct (Nat.eq_dec s z) as [->|Hsz].
      + cbn [Nat.mul Nat.add] in X. rewrite Tz in X. inversion X; subst x. apply po_adc in Y. subst y. now rewrite (po_addr _ P).
      + rewrite IHs in X0 by (right; lia). inversion X0; subst. now rewrite (po_addl _ P).
    - rewrite G2 by lia. apply IHs. left. lia. }
  inv_as H s S2. destruct s as [res' rf'].
  apply (forN_Ok (fun k '(_, b) => (k = 0%nat -> get b 0 = Ok q) /\ ((1 <= k)%nat -> False))) in S2.
  - destruct S2 as [_ S2]. now apply S2.
  - split; [auto|lia].
  - intros i [r0 f0'] [r1 f1] Hi [I1 I2] E. destruct i as [|i]; [|exfalso; apply I2; lia]. exfalso. specialize (I1 eq_refl).
    inv_as E d HD. inv_as E o O. inv_as E f FF. inv_as E x X. inv_as E y Y. apply fsubto_get in FF. destruct FF as (x0 & X0 & G1 & _).
    rewrite X0 in I1. inversion I1; subst x0. rewrite G1 in X. rewrite (po_subl _ P) in X. inversion X; subst x.
    rewrite (po_round _ P) in Y. now apply po_f2i in Y.
Qed.
Lemma po_mvm res vec mat l e r : shape c mp -> is_int (m_mode c) = true -> 0 < I_BIT c < 2 ^ 32 -> a_mvm c mp res vec mat m n l e <> Ok r.
Proof.
  intros Hs Hi Hb H. unfold a_mvm in H. cbv zeta in H. rewrite (sh_mode _ _ Hs) in H.
  destruct (m_mode c); try discriminate Hi; inv_as H t T; revert T;
    [apply po_i|apply po_i|apply po_ii|apply po_iii|apply po_iv|apply po_v]; lia.
Qed.
End Poison.

(** ** NaN in IEEE arithmetic *)
Section Float.
Context (powf : b32 -> b32 -> b32) (pow : b64 -> b64 -> b64) (expf : b32 -> b32) (nz : bool -> nat -> b32) (strict : bool).
#[local] Instance FM : Machine := F_machine powf pow expf nz strict.
Notation len := List.length.
Definition qnan : @F FM := (B754_nan : b32).

Lemma nan_poison : @poison FM qnan.
Proof. constructor; cbn [FM F_machine fadd fsub fmul fdiv fround flt f_trunc F]; unfold qnan; intros; try reflexivity; destruct x; reflexivity. Qed.
Lemma zero32 : norm32 0 0 false = B754_zero false.
Proof. reflexivity. Qed.
(** A cell holding 0 whose level distance was divided by 2^0 - 1. *)
Lemma level_nan (imm hrs : b32) : @level FM 0 (@fdiv FM imm (@f_of_Z FM 0)) hrs = qnan.
Proof.
  unfold level. cbn [FM F_machine fadd fmul fdiv f_of_Z]. rewrite zero32. unfold qnan.
  destruct imm as [[]|[]| |[] ? ? ?], hrs as [[]|[]| |[] ? ? ?]; reflexivity.
Qed.

Lemma steps_some (c : @config FM) imm st : @step_sizes FM c (Some imm) = Ok st -> forall s, (s < nsplit c)%nat ->
  exists d, @ones FM (nth s (SPLIT c) 0) = Ok d /\ nth s st None = Some (@fdiv FM imm (@f_of_Z FM d)).
Proof.
  unfold step_sizes, nsplit. generalize (SPLIT c). intros l. revert st. induction l as [|a l IH]; intros st H s Hs; [cbn in Hs; lia|].
  cbn [mapM] in H. inv_as H x X. inv_as H r R. inversion H; subst; clear H. inv_as X d D. inversion X; subst; clear X.
  destruct s as [|s]; [exists d; split; [exact D|reflexivity]|]. cbn in Hs. apply (IH r R s). lia.
Qed.

Lemma zero_write (w : @world FM) x mat m n w1 s0 : reach w -> wx w = Some x -> digital_only (wcfg w) = false ->
  is_int (m_mode (wcfg w)) = true -> parasitics (wcfg w) = false -> nth_error (SPLIT (wcfg w)) s0 = Some 0 ->
  dims_in (wcfg w) m n -> 1 <= m -> 1 <= n -> step w (CpyMtrx mat m n) = Ok (w1, RCode 0) ->
  wcfg w1 = wcfg w /\ exists x1, wx w1 = Some x1 /\ get2 (ia_p (xm x1)) s0 0 = Ok qnan.
Proof.
  intros Hr Hx Hd Hi Hp H0 HD Hm Hn H. pose proof (reach_good w Hr) as Hg.
  destruct (guard_ok w m n Hg HD) as (G1 & G2 & Hm' & Hn'). pose proof (g_x _ Hg x Hx) as Hxo. pose proof (good_wf w Hg) as Hwf.
  cbn [step] in H. unfold cpy_mtrx in H. rewrite Hx, G1, G2 in H. cbn [bind] in H. inv_as H t T. destruct t as [x1 e1]. inversion H; subst; clear H.
  split; [reflexivity|]. exists x1. split; [reflexivity|].
  pose proof (xwrite_parts _ _ _ _ _ _ _ _ Hxo Hwf T) as (mp1 & D & S1 & SB & A). rewrite Hd in A.
  assert (Hs0 : (s0 < nsplit (wcfg w))%nat) by (unfold nsplit; apply nth_error_Some; congruence).
  (* the digital value *)
  assert (Z0 : get2 (gd_p mp1) s0 0 = Ok 0).
  { unfold d_write in D. inv_as D g G. destruct g as [[gp gm] sw]. inversion D; subst. cbn [gd_p].
    rewrite (sh_mode _ _ (xo_shape _ _ Hxo)) in G.
    change (none0 s0 gp).
    assert (K1 : keeps0 s0 (put_diff (SPLIT (wcfg w)) (shift (xm x)))) by (intros ? ? ? ? ? ? ?; now apply put_diff0).
    assert (K2 : keeps0 s0 (put_offs (SPLIT (wcfg w)) (shift (xm x)) (W_BIT (wcfg w)))) by (intros ? ? ? ? ? ? ?; now apply put_offs0).
    destruct (m_mode (wcfg w)); try discriminate Hi;
      first [apply write_sum0 with (1 := K1) in G|apply write_plain0 with (1 := K2) in G]; first [exact G|lia]. }
  (* the step *)
  pose proof (reach_built w x Hr Hx) as (B1 & B2 & _). rewrite Hd in B1, B2.
  assert (U : uses_shift (m_mode (wcfg w)) = true) by (unfold uses_shift; now rewrite Hi). specialize (B2 U).
  destruct SB as (gp' & gm' & sw' & EB).
  assert (EST : i_step mp1 = i_step (xm x)) by now rewrite EB.
  assert (HST : forall q, (q < nsplit (wcfg w))%nat -> exists d, @ones FM (nth q (SPLIT (wcfg w)) 0) = Ok d /\
     nth q (i_step mp1) None = Some (@fdiv FM (@fsub FM (LRS (wcfg w)) (HRS (wcfg w))) (@f_of_Z FM d))).
  { rewrite EST. now apply steps_some. }
  set (st := fun q => match nth q (i_step mp1) None with Some y => y | None => f0 end).
  assert (HS : forall q, (q < nsplit (wcfg w))%nat -> nth q (i_step mp1) None = Some (st q)).
  { intros q Hq. destruct (HST q Hq) as (d & _ & E). unfold st. now rewrite E. }
  unfold a_write in A. cbv zeta in A. rewrite (sh_mode _ _ S1), Hi in A. inv_as A t T1. destruct t as [mp2 e2]. rewrite Hp in A.
  inversion A; subst mp2 e2; clear A. inv_as T1 mp3 T3. inversion T1; subst mp3; clear T1.
  match type of T3 with a_write_int _ ?b _ _ _ = _ =>
    destruct (a_write_int_ok (wcfg w) b mp1 (Z.to_nat m) (Z.to_nat n) st S1 Hi Hm' Hn' ltac:(lia) HS) as (mp' & E' & (ip & im & EI) & HL & _) end.
  rewrite E' in T3. inversion T3 as [EM]. clear T3.
  assert (HR : (Z.to_nat m * nsplit (wcfg w) <= rowsN (wcfg w))%nat) by (unfold rowsN; rewrite Nat.mul_comm; nia).
  assert (WF : wf2 (rowsN (wcfg w)) (colsN (wcfg w)) (ia_p (xm x1))).
  { assert (T' := T). apply (proj1 (tri_any _ _) (xwrite_tri anyfail harmless_any _ _ _ _ _ _ Hwf Hxo (or_introl (fun _ => I)))) in T'. destruct T' as [T' _]. apply (xo_shape _ _ T'). }
  rewrite (get2_ok f0 (rowsN (wcfg w)) (colsN (wcfg w))) by (auto; nia). f_equal. rewrite <- EM.
  destruct (HL s0 0%nat ltac:(nia) ltac:(lia)) as [-> _]. rewrite Nat.mod_small by exact Hs0.
  destruct (HST s0 Hs0) as (d & OD & E). rewrite (HS s0 Hs0) in E. injection E as ->.
  rewrite (nth_error_nth _ _ 0 H0) in OD. apply ones0 in OD. subst d.
  apply (get2_inv 0 (rowsN (wcfg w)) (colsN (wcfg w))) in Z0; [|apply S1]. destruct Z0 as (_ & _ & Z0). rewrite <- Z0. apply level_nan.
Qed.

Lemma zero_mvm (w : @world FM) x s0 a : good w -> wx w = Some x -> digital_only (wcfg w) = false ->
  is_int (m_mode (wcfg w)) = true -> parasitics (wcfg w) = false -> c2c_var (wcfg w) = false ->
  (s0 < nsplit (wcfg w))%nat -> get2 (ia_p (xm x)) s0 0 = Ok qnan ->
  (exists res vec mat m n, 1 <= m /\ 1 <= n /\ (a = PyMvm res vec mat m n \/ exists l, a = ExeMvm res vec mat m n l)) ->
  forall w' r, step w a <> Ok (w', RRes 0 r).
Proof.
  intros Hg Hx Hd Hi Hp Hc Hs HQ Ha w' r H. pose proof (g_x _ Hg x Hx) as Hxo.
  assert (HB : 0 < I_BIT (wcfg w) < 2 ^ 32).
  { destruct (good_loaded w Hg) as [L|E]; [apply (ld_bits _ L Hi)|]. rewrite E in Hs. cbn in Hs. lia. }
  assert (HM : forall res vec mat m n l p q, dims m n = Ok (p, q) -> 1 <= m -> 1 <= n -> forall t, xmvm (wcfg w) x res vec mat p q l (wenv w) <> Ok t).
  { intros res vec mat m n l p q D Hm Hn t T. unfold xmvm in T. cbv zeta in T. rewrite Hd, Hc in T. cbn [bind] in T. inv_as T u U.
    revert U. change (xm (x <|n_mvm := n_mvm x + 1|> <|n_read := n_read x + 1|>)) with (xm x).
    assert (p = Z.to_nat m /\ q = Z.to_nat n) as [-> ->].
    { unfold dims in D. destruct (_ || _) in D; [discriminate|]. inversion D. auto. }
    apply (po_mvm qnan nan_poison (wcfg w) (xm x) s0 Hs HQ Hp); [lia|lia|apply Hxo|exact Hi|exact HB]. }
  destruct Ha as (res & vec & mat & m & n & Hm & Hn & [->|(l & ->)]); cbn [step] in H.
  - unfold py_mvm in H. rewrite Hx in H. cbn [deref bind] in H. inv_as H d D. destruct d as [p q]. inv_as H t T. revert T. eapply HM; eauto.
  - unfold exe_mvm in H. rewrite Hx in H. destruct (too_big _ _ _); [discriminate|]. inv_as H d D. destruct d as [p q]. inv_as H t T.
    revert T. eapply HM; eauto.
Qed.

Lemma zero_slice (w : @world FM) x mat0 m0 n0 w1 h w2 rs a : reach w -> wx w = Some x -> digital_only (wcfg w) = false ->
  is_int (m_mode (wcfg w)) = true -> parasitics (wcfg w) = false -> c2c_var (wcfg w) = false ->
  In 0 (SPLIT (wcfg w)) -> dims_in (wcfg w) m0 n0 -> 1 <= m0 -> 1 <= n0 ->
  step w (CpyMtrx mat0 m0 n0) = Ok (w1, RCode 0) -> Forall asking h -> run w1 h = Ok (w2, rs) ->
  (exists res vec mat m n, 1 <= m /\ 1 <= n /\ (a = PyMvm res vec mat m n \/ exists l, a = ExeMvm res vec mat m n l)) ->
  forall w' r, step w2 a <> Ok (w', RRes 0 r).
Proof.
  intros Hr Hx Hd Hi Hp Hc H0 HD Hm Hn H1 Hh H2 Ha.
  pose proof (rd_int_off _ (good_origin _ (reach_good w Hr)) Hi Hd) as Hrd.
  apply In_nth_error in H0. destruct H0 as [s0 H0].
  destruct (zero_write w x mat0 m0 n0 w1 s0 Hr Hx Hd Hi Hp H0 HD Hm Hn H1) as (C1 & x1 & X1 & Q1).
  pose proof (reach_good w1 (reach_step _ _ _ _ Hr H1 ltac:(discriminate))) as Hg1.
  assert (HL : lasting (wcfg w)) by (split; [congruence|auto]).
  destruct (asking_run h w1 w2 rs x1 Hg1 Hh X1) as (Hg2 & C2 & x2 & X2 & K); auto; try (rewrite C1; assumption).
  rewrite C1 in C2, K. rewrite <- C2 in *.
  assert (HR : rewritten (wcfg w2) = false) by (unfold rewritten; now rewrite Hc).
  destruct (kn_ia _ _ _ K Hp HR) as [EI _].
  apply (zero_mvm w2 x2 s0 a); auto; [unfold nsplit; apply nth_error_Some; congruence|now rewrite EI].
Qed.
End Float.
