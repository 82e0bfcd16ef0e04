(** A small program logic over outcomes: [tri ok P x] says that [x] either yields a value
    satisfying [P] or fails in one of the ways listed in [ok]. *)
From Coq Require Import List ZArith Bool Arith Lia ZifyBool ZifyNat.
From Verif Require Import Base Lib Machine.
Import ListNotations.
Local Open Scope Z_scope.
Local Open Scope out_scope.

Definition tri {A} (ok : out False -> Prop) (P : A -> Prop) (x : out A) : Prop :=
  match x with
  | Ok a => P a
  | UB f => ok (UB f)
  | Died => ok Died
  | Threw => ok Threw
  end.

(** Partial correctness. *)
Definition anyfail : out False -> Prop := fun _ => True.

Lemma tri_any {A} (P : A -> Prop) x : tri anyfail P x <-> (forall a, x = Ok a -> P a).
Proof.
  split.
  - intros H a ->. exact H.
  - destruct x; cbn; unfold anyfail; auto.
Qed.
Lemma tri_Ok {A} ok (P : A -> Prop) a : P a -> tri ok P (Ok a).
Proof. exact (fun h => h). Qed.
Lemma tri_weaken {A} ok (P Q : A -> Prop) x : tri ok P x -> (forall a, P a -> Q a) -> tri ok Q x.
Proof. destruct x; cbn; auto. Qed.
Lemma tri_bind {A B} ok (Q : A -> Prop) (P : B -> Prop) x k :
  tri ok Q x -> (forall a, Q a -> tri ok P (k a)) -> tri ok P (bind x k).
Proof. destruct x; cbn; auto. Qed.
Lemma tri_and {A} ok (P Q : A -> Prop) x : tri ok P x -> tri ok Q x -> tri ok (fun a => P a /\ Q a) x.
Proof. destruct x; cbn; auto. Qed.
Lemma tri_loop {S} ok (I : S -> Prop) n body s :
  I s -> (forall k s, (k < n)%nat -> I s -> tri ok I (body k s)) -> tri ok I (forN n body s).
Proof.
  intros H0 Hs. induction n as [|n IH]; cbn; auto.
  apply (tri_bind ok I). { apply IH. auto. }
  intros a Ha. apply Hs; auto.
Qed.
Lemma tri_loopn {S} ok (I : nat -> S -> Prop) n body s :
  I O s -> (forall k s, (k < n)%nat -> I k s -> tri ok (I (Datatypes.S k)) (body k s)) ->
  tri ok (I n) (forN n body s).
Proof.
  intros H0 Hs. induction n as [|n IH]; cbn; auto.
  apply (tri_bind ok (I n)). { apply IH. auto. }
  intros a Ha. apply Hs; auto.
Qed.

(** Failures that never count as memory errors. *)
Record harmless (ok : out False -> Prop) : Prop := {
  hl_over : ok (UB SignedOverflow);
  hl_shift : ok (UB BadShift);
  hl_f2i : ok (UB FloatToInt);
  hl_div : ok (UB DivByZero);
  hl_uninit : ok (UB Uninit);
  hl_died : ok Died
}.
Lemma harmless_any : harmless anyfail.
Proof. split; exact I. Qed.

(** Everything except memory errors and exceptions. *)
Definition nomem (o : out False) : Prop := o <> UB OutOfBounds /\ o <> UB NullDeref /\ o <> Threw.
Lemma harmless_nomem : harmless nomem.
Proof. split; repeat split; discriminate. Qed.

Section H.
Context (ok : out False -> Prop) (HL : harmless ok).
Notation oob := (ok (UB OutOfBounds)).

Lemma tri_chk32 x (P : Z -> Prop) : P x -> tri ok P (chk32 x).
Proof. intros H. unfold chk32. destruct (in32 x); cbn; auto; apply HL. Qed.
Lemma tri_chk64 x (P : Z -> Prop) : P x -> tri ok P (chk64 x).
Proof. intros H. unfold chk64. destruct (in64 x); cbn; auto; apply HL. Qed.
Lemma tri_shl32 st x s (P : Z -> Prop) : (forall y, P y) -> tri ok P (shl32 st x s).
Proof.
  intros H. unfold shl32. destruct (_ && _); [|apply HL]. destruct (_ && _); [apply HL|apply H].
Qed.
Lemma tri_shl64 st x s (P : Z -> Prop) : (forall y, P y) -> tri ok P (shl64 st x s).
Proof.
  intros H. unfold shl64. destruct (_ && _); [|apply HL]. destruct (_ && _); [apply HL|apply H].
Qed.
Lemma tri_shr32 x s (P : Z -> Prop) : (forall y, P y) -> tri ok P (shr32 x s).
Proof. intros H. unfold shr32. destruct (_ && _); [apply H|apply HL]. Qed.
Lemma tri_get {A} (l : list A) i (P : A -> Prop) :
  oob \/ (i < length l)%nat -> (forall x, In x l -> P x) -> tri ok P (get l i).
Proof.
  intros H HP. unfold get. destruct (nth_error l i) eqn:E; cbn.
  - apply HP. eapply nth_error_In; eauto.
  - destruct H; auto. apply nth_error_None in E. lia.
Qed.
Lemma tri_set {A} (l : list A) i x (P : list A -> Prop) :
  oob \/ (i < length l)%nat -> ((i < length l)%nat -> P (upd l i x)) -> tri ok P (set l i x).
Proof.
  intros H HP. unfold set. destruct (i <? length l)%nat eqn:E; cbn.
  - apply HP. lia.
  - destruct H; auto. lia.
Qed.
Lemma tri_get2 {A} R C (m : list (list A)) i j (P : A -> Prop) : wf2 R C m ->
  oob \/ ((i < R)%nat /\ (j < C)%nat) -> (forall x, P x) -> tri ok P (get2 m i j).
Proof.
  intros [H1 H2] H HP. unfold get2. apply (tri_bind ok (fun r => length r = C)).
  - apply tri_get; [destruct H; [auto|right; lia]|]. intros r Hr.
    rewrite Forall_forall in H2. auto.
  - intros r Hr. apply tri_get; [destruct H; [auto|right; lia]|auto].
Qed.
Lemma tri_set2 {A} R C (m : list (list A)) i j x : wf2 R C m ->
  oob \/ ((i < R)%nat /\ (j < C)%nat) -> tri ok (wf2 R C) (set2 m i j x).
Proof.
  intros Hm H. unfold set2. pose proof Hm as [H1 H2].
  apply (tri_bind ok (fun r => length r = C)).
  - apply tri_get; [destruct H; [auto|right; lia]|]. intros r Hr.
    rewrite Forall_forall in H2. auto.
  - intros r Hr. apply (tri_bind ok (fun r => length r = C)).
    + apply tri_set; [destruct H; [auto|right; lia]|]. intros _. now rewrite upd_length.
    + intros r' Hr'. apply tri_set; [destruct H; [auto|right; lia]|]. intros _. now apply wf2_upd.
Qed.
Lemma tri_addto l i e : oob \/ (i < length l)%nat ->
  tri ok (fun l' => length l' = length l) (addto l i e).
Proof.
  intros H. unfold addto. apply (tri_bind ok (fun _ => True)); [now apply tri_get|].
  intros x _. apply (tri_bind ok (fun _ => True)); [now apply tri_chk32|].
  intros y _. apply tri_set; auto. intros _. apply upd_length.
Qed.
Lemma tri_subto l i e : oob \/ (i < length l)%nat ->
  tri ok (fun l' => length l' = length l) (subto l i e).
Proof.
  intros H. unfold subto. apply (tri_bind ok (fun _ => True)); [now apply tri_get|].
  intros x _. apply (tri_bind ok (fun _ => True)); [now apply tri_chk32|].
  intros y _. apply tri_set; auto. intros _. apply upd_length.
Qed.
Lemma tri_subto64 l i e : oob \/ (i < length l)%nat ->
  tri ok (fun l' => length l' = length l) (subto64 l i e).
Proof.
  intros H. unfold subto64. apply (tri_bind ok (fun _ => True)); [now apply tri_get|].
  intros x _. apply (tri_bind ok (fun _ => True)); [now apply tri_chk64|].
  intros y _. apply tri_set; auto. intros _. apply upd_length.
Qed.
Lemma tri_acc2 r c term arr :
  oob \/ (r <= length arr)%nat ->
  (forall i j, (i < r)%nat -> (j < c)%nat -> tri ok (fun _ => True) (term i j)) ->
  tri ok (fun a => length a = length arr) (acc2 r c term arr).
Proof.
  intros H Ht. unfold acc2. apply tri_loop; auto. intros i a Hi Ha.
  apply (tri_weaken ok (fun b => length b = length a)); [|congruence].
  apply tri_loop; auto. intros j b Hj Hb.
  apply (tri_bind ok (fun _ => True)); auto. intros e _.
  apply (tri_weaken ok (fun l => length l = length b)); [|congruence].
  apply tri_addto. destruct H; [auto|right; lia].
Qed.
Lemma tri_dec2 r c term arr :
  oob \/ (r <= length arr)%nat ->
  (forall i j, (i < r)%nat -> (j < c)%nat -> tri ok (fun _ => True) (term i j)) ->
  tri ok (fun a => length a = length arr) (dec2 r c term arr).
Proof.
  intros H Ht. unfold dec2. apply tri_loop; auto. intros i a Hi Ha.
  apply (tri_weaken ok (fun b => length b = length a)); [|congruence].
  apply tri_loop; auto. intros j b Hj Hb.
  apply (tri_bind ok (fun _ => True)); auto. intros e _.
  apply (tri_weaken ok (fun l => length l = length b)); [|congruence].
  apply tri_subto. destruct H; [auto|right; lia].
Qed.

Context {MC : Machine}.
Lemma tri_f2i x (P : Z -> Prop) : (forall y, P y) -> tri ok P (f2i x).
Proof. intros H. unfold f2i. destruct (f_trunc x); [|apply HL]. destruct (in32 _); [apply H|apply HL]. Qed.
Lemma tri_faddto l i e : oob \/ (i < length l)%nat ->
  tri ok (fun l' => length l' = length l) (faddto l i e).
Proof.
  intros H. unfold faddto. apply (tri_bind ok (fun _ => True)); [now apply tri_get|].
  intros x _. apply tri_set; auto. intros _. apply upd_length.
Qed.
Lemma tri_fsubto l i e : oob \/ (i < length l)%nat ->
  tri ok (fun l' => length l' = length l) (fsubto l i e).
Proof.
  intros H. unfold fsubto. apply (tri_bind ok (fun _ => True)); [now apply tri_get|].
  intros x _. apply tri_set; auto. intros _. apply upd_length.
Qed.
Lemma tri_res_fadd l i e : oob \/ (i < length l)%nat ->
  tri ok (fun l' => length l' = length l) (res_fadd l i e).
Proof.
  intros H. unfold res_fadd. apply (tri_bind ok (fun _ => True)); [now apply tri_get|].
  intros x _. apply (tri_bind ok (fun _ => True)); [now apply tri_f2i|].
  intros y _. apply tri_set; auto. intros _. apply upd_length.
Qed.
Lemma tri_res_fsub l i e : oob \/ (i < length l)%nat ->
  tri ok (fun l' => length l' = length l) (res_fsub l i e).
Proof.
  intros H. unfold res_fsub. apply (tri_bind ok (fun _ => True)); [now apply tri_get|].
  intros x _. apply (tri_bind ok (fun _ => True)); [now apply tri_f2i|].
  intros y _. apply tri_set; auto. intros _. apply upd_length.
Qed.
Lemma tri_facc2 r c term arr :
  oob \/ (r <= length arr)%nat ->
  (forall i j, (i < r)%nat -> (j < c)%nat -> tri ok (fun _ => True) (term i j)) ->
  tri ok (fun a => length a = length arr) (facc2 r c term arr).
Proof.
  intros H Ht. unfold facc2. apply tri_loop; auto. intros i a Hi Ha.
  apply (tri_weaken ok (fun b => length b = length a)); [|congruence].
  apply tri_loop; auto. intros j b Hj Hb.
  apply (tri_bind ok (fun _ => True)); auto. intros e _.
  apply (tri_weaken ok (fun l => length l = length b)); [|congruence].
  apply tri_faddto. destruct H; [auto|right; lia].
Qed.
Lemma tri_mapM {A B} (f : A -> out B) l :
  (forall x, tri ok (fun _ => True) (f x)) -> tri ok (fun l' => length l' = length l) (mapM f l).
Proof.
  intros H. induction l as [|x l IH]; cbn; auto.
  apply (tri_bind ok (fun _ => True)); auto. intros y _.
  apply (tri_bind ok _ _ _ _ IH). intros ys Hy. cbn. now rewrite Hy.
Qed.
End H.
