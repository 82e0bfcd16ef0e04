(** What the loops of the parasitic solver compute, for any arithmetic. *)
From Coq Require Import List ZArith Bool Arith Lia ZifyBool ZifyNat.
From RecordUpdate Require Import RecordSet.
From Verif Require Import Base Lib Hoare Machine Json Config Parasitics.
Import ListNotations RecordSetNotations.
Local Open Scope out_scope.

Ltac Zify.zify_post_hook ::= Z.div_mod_to_equations.

(** Loops that write every cell of a grid at most once: cell (r, k) belongs to iteration [own r k]. *)
Lemma fill_grid {A} (d : A) R C m n outer (body : nat -> nat -> list (list A) -> out (list (list A)))
    (own : nat -> nat -> nat * nat) (val : nat -> nat -> A) g0 :
  wf2 R C g0 ->
  (forall i g, (i < m)%nat -> outer i g = forN n (body i) g) ->
  (forall i j g, (i < m)%nat -> (j < n)%nat -> wf2 R C g ->
     exists g', body i j g = Ok g' /\ wf2 R C g' /\
       forall r k, (r < R)%nat -> (k < C)%nat ->
         at2 d g' r k = if (fst (own r k) =? i)%nat && (snd (own r k) =? j)%nat then val r k else at2 d g r k) ->
  exists g', forN m outer g0 = Ok g' /\ wf2 R C g' /\
    forall r k, (r < R)%nat -> (k < C)%nat ->
      at2 d g' r k = if (fst (own r k) <? m)%nat && (snd (own r k) <? n)%nat then val r k else at2 d g0 r k.
Proof.
  intros H0 Ho Hb.
  apply (forN_inv (fun i g => wf2 R C g /\ forall r k, (r < R)%nat -> (k < C)%nat ->
    at2 d g r k = if (fst (own r k) <? i)%nat && (snd (own r k) <? n)%nat then val r k else at2 d g0 r k)).
  { split; [exact H0|]. intros. reflexivity. }
  intros i g Hi [Hg Hv]. rewrite (Ho i g Hi).
  destruct (forN_inv (fun j g' => wf2 R C g' /\ forall r k, (r < R)%nat -> (k < C)%nat ->
    at2 d g' r k = if (fst (own r k) =? i)%nat && (snd (own r k) <? j)%nat then val r k else at2 d g r k)
    n (body i) g) as (g' & E & Hg' & Hv').
  { split; [exact Hg|]. intros. destruct (_ =? _)%nat; reflexivity. }
  { intros j g1 Hj [Hg1 Hv1]. destruct (Hb i j g1 Hi Hj Hg1) as (g2 & E2 & Hg2 & Hv2). exists g2.
    split; [exact E2|]. split; [exact Hg2|]. intros r k Hr Hk. rewrite Hv2, Hv1 by auto.
    destruct (fst (own r k) =? i)%nat eqn:E3; cbn [andb]; [|reflexivity].
    destruct (snd (own r k) =? j)%nat eqn:E4.
    - now replace (snd (own r k) <? S j)%nat with true by lia.
    - destruct (snd (own r k) <? j)%nat eqn:E5.
      + now replace (snd (own r k) <? S j)%nat with true by lia.
      + now replace (snd (own r k) <? S j)%nat with false by lia. }
  exists g'. split; [exact E|]. split; [exact Hg'|]. intros r k Hr Hk. rewrite Hv', Hv by auto.
  destruct (fst (own r k) =? i)%nat eqn:E3; cbn [andb].
  - replace (fst (own r k) <? S i)%nat with true by lia. cbn [andb].
    destruct (snd (own r k) <? n)%nat; [reflexivity|]. now rewrite andb_false_r.
  - destruct (fst (own r k) <? i)%nat eqn:E4.
    + now replace (fst (own r k) <? S i)%nat with true by lia.
    + now replace (fst (own r k) <? S i)%nat with false by lia.
Qed.

Section PC.
Context {MC : Machine}.
Notation len := List.length.
Notation at_f := (at2 f0).

(** ** Conductances *)
Lemma div_v_read_ok c p ia R : wf2 R (ps_n p) ia -> (ps_m p <= R)%nat -> (1 <= nsplit c)%nat ->
  exists g, div_v_read c p ia = Ok g /\ wf2 (ps_m p * nsplit c) (ps_n p) g /\
    forall i j, (i < ps_m p * nsplit c)%nat -> (j < ps_n p)%nat ->
      at_f g i j = if (i <? ps_m p)%nat then fdiv (at_f ia i j) (fneg (ps_v p)) else HRS c.
Proof.
  intros Hi HR Hs. unfold div_v_read.
  destruct (fill_grid f0 (ps_m p * nsplit c) (ps_n p) (ps_m p) (ps_n p)
    (fun m ga => forN (ps_n p) (fun n ga => x <- get2 ia m n ;; set2 ga m n (fdiv x (fneg (ps_v p)))) ga)
    (fun m n ga => x <- get2 ia m n ;; set2 ga m n (fdiv x (fneg (ps_v p))))
    (fun r k => (r, k)) (fun r k => fdiv (at_f ia r k) (fneg (ps_v p))) (mat2 (ps_m p * nsplit c) (ps_n p) (HRS c)))
    as (g & E & Hg & Hv).
  - apply wf2_mat2.
  - reflexivity.
  - intros i j g Hi' Hj Hg. rewrite (get2_ok f0 R (ps_n p)) by (auto; lia). cbn [bind].
    assert (i < ps_m p * nsplit c)%nat by nia. rewrite (set2_ok (ps_m p * nsplit c) (ps_n p)) by auto.
    eexists. split; [reflexivity|]. split; [now apply wf2_upd2|]. intros r k Hr Hk. cbn [fst snd].
    rewrite (at2_upd2 f0 (ps_m p * nsplit c) (ps_n p)) by auto.
    destruct ((r =? i)%nat && (k =? j)%nat) eqn:E; [|reflexivity]. f_equal. f_equal; lia.
  - exists g. split; [exact E|]. split; [exact Hg|]. intros i j Hi' Hj. rewrite Hv by auto. cbn [fst snd].
    replace (j <? ps_n p)%nat with true by lia. rewrite andb_true_r. destruct (_ <? _)%nat; [reflexivity|].
    now apply at2_mat2.
Qed.

(** Columns of the encoded matrix, and the weight (output row, input) of each of its cells. *)
Definition wcols (w : wenc) (m : nat) : nat := match w with WSingle | WDoubleRow => m | _ => (m * 2)%nat end.
Definition wrows2 (w : wenc) : bool := match w with WDoubleRow | WQuad => true | _ => false end.
Definition own (w : wenc) (r k : nat) : nat * nat :=
  match w with
  | WSingle => (k, r) | WDoubleCol => ((k / 2)%nat, r) | WDoubleRow => (k, (r / 2)%nat) | WQuad => ((k / 2)%nat, (r / 2)%nat)
  end.
(** The plus array or the minus array? *)
Definition from_p (w : wenc) (r k : nat) : bool :=
  match w with
  | WSingle => true | WDoubleCol => Nat.even k | WDoubleRow => Nat.even r | WQuad => Bool.eqb (Nat.even k) (Nat.even r)
  end.
Definition needs_m (w : wenc) : bool := match w with WSingle => false | _ => true end.

Lemma even2 i : Nat.even (2 * i) = true.
Proof. rewrite Nat.even_mul. reflexivity. Qed.
Lemma even21 i : Nat.even (2 * i + 1) = false.
Proof. rewrite Nat.add_1_r, Nat.even_succ, Nat.odd_mul. reflexivity. Qed.
Lemma halves r j : (r / 2 =? j)%nat = ((r =? 2 * j)%nat || (r =? 2 * j + 1)%nat).
Proof. lia. Qed.

Lemma encode_w_ok w p gp gm m n R C gm' :
  wf2 R C gp -> (needs_m w = true -> gm = Some gm' /\ wf2 R C gm') -> (m <= R)%nat -> (n <= C)%nat ->
  (n <= ps_n p)%nat -> (wrows2 w = true -> 2 * n <= ps_n p \/ m = 0)%nat ->
  exists ga, encode_w w p gp gm m n = Ok ga /\ wf2 (ps_n p) (wcols w m) ga /\
    forall r k, (r < ps_n p)%nat -> (k < wcols w m)%nat ->
      at_f ga r k = if (snd (own w r k) <? n)%nat
                    then at_f (if from_p w r k then gp else gm') (fst (own w r k)) (snd (own w r k)) else f0.
Proof.
  intros Hp Hm HmR HnC Hn H2.
  assert (G : forall (g : list (list F)) i, wf2 R C g -> (i < m)%nat -> get g i = Ok (nth i g [])).
  { intros g i [Hl _] Hi. apply get_ok. lia. }
  assert (G2 : forall (g : list (list F)) i j, wf2 R C g -> (i < m)%nat -> (j < n)%nat ->
    get (nth i g []) j = Ok (at_f g i j)).
  { intros g i j Hg Hi Hj. unfold at2. apply get_ok. rewrite (wf2_row R C) by (auto; lia). lia. }
  assert (F : forall K (g0 := mat2 (ps_n p) K f0) outer body,
    K = wcols w m ->
    (forall i g, (i < m)%nat -> outer i g = forN n (body i) g) ->
    (forall i j g, (i < m)%nat -> (j < n)%nat -> wf2 (ps_n p) K g ->
       exists g', body i j g = Ok g' /\ wf2 (ps_n p) K g' /\
         forall r k, (r < ps_n p)%nat -> (k < K)%nat ->
           at_f g' r k = if (fst (own w r k) =? i)%nat && (snd (own w r k) =? j)%nat
             then at_f (if from_p w r k then gp else gm') (fst (own w r k)) (snd (own w r k)) else at_f g r k) ->
    exists ga, forN m outer g0 = Ok ga /\ wf2 (ps_n p) (wcols w m) ga /\
      forall r k, (r < ps_n p)%nat -> (k < wcols w m)%nat ->
        at_f ga r k = if (snd (own w r k) <? n)%nat
                    then at_f (if from_p w r k then gp else gm') (fst (own w r k)) (snd (own w r k)) else f0).
  { intros K g0 outer body EK Ho Hb. subst K.
    destruct (fill_grid f0 (ps_n p) (wcols w m) m n outer body (own w)
      (fun r k => at_f (if from_p w r k then gp else gm') (fst (own w r k)) (snd (own w r k))) g0) as (ga & E & Hg & Hv).
    - apply wf2_mat2.
    - exact Ho.
    - exact Hb.
    - exists ga. split; [exact E|]. split; [exact Hg|]. intros r k Hr Hk. rewrite Hv by auto.
      replace (fst (own w r k) <? m)%nat with true by (destruct w; cbn [own fst wcols] in *; lia). cbn [andb].
      destruct (_ <? _)%nat; [reflexivity|]. unfold g0. now rewrite at2_mat2. }
  destruct w; unfold encode_w; cbn [needs_m wcols wrows2 own from_p fst snd] in *.
  - apply (F m _ (fun i j ga => x <- get (nth i gp []) j ;; set2 ga j i x)); [reflexivity| |].
    { intros i g Hi. rewrite (G gp i Hp Hi). reflexivity. }
    intros i j g Hi Hj Hg. rewrite (G2 gp i j Hp Hi Hj). cbn [bind]. rewrite (set2_ok (ps_n p) m) by (auto; lia).
    eexists. split; [reflexivity|]. split; [apply wf2_upd2; auto; lia|]. intros r k Hr Hk.
    rewrite (at2_upd2 f0 (ps_n p) m) by (auto; lia). rewrite andb_comm.
    destruct (_ && _) eqn:E; [|reflexivity]. f_equal; lia.
  - destruct (Hm eq_refl) as [-> Hm'].
    apply (F (m * 2)%nat _ (fun i j ga => x <- get (nth i gp []) j ;; ga <- set2 ga j (2 * i) x ;;
      y <- get (nth i gm' []) j ;; set2 ga j (2 * i + 1) y)); [reflexivity| |].
    { intros i g Hi. rewrite (G gp i Hp Hi). cbn [bind optval]. rewrite (G gm' i Hm' Hi). reflexivity. }
    intros i j g Hi Hj Hg. rewrite (G2 gp i j Hp Hi Hj). cbn [bind]. rewrite (set2_ok (ps_n p) (m * 2)) by (auto; lia).
    cbn [bind]. rewrite (G2 gm' i j Hm' Hi Hj). cbn [bind].
    assert (Hg1 : wf2 (ps_n p) (m * 2) (upd2 g j (2 * i) (at_f gp i j))) by (apply wf2_upd2; auto; lia).
    rewrite (set2_ok (ps_n p) (m * 2)) by (auto; lia). eexists. split; [reflexivity|].
    split; [apply wf2_upd2; auto; lia|]. intros r k Hr Hk.
    rewrite (at2_upd2 f0 (ps_n p) (m * 2)) by (auto; lia). rewrite (at2_upd2 f0 (ps_n p) (m * 2)) by (auto; lia).
    rewrite halves. destruct (r =? j)%nat eqn:Er; cbn [andb]; [|now rewrite andb_false_r]. rewrite andb_true_r.
    assert (r = j) by lia. subst r.
    destruct (k =? 2 * i + 1)%nat eqn:E1.
    + rewrite orb_true_r. assert (k = 2 * i + 1)%nat by lia. subst k. rewrite even21.
      now replace ((2 * i + 1) / 2)%nat with i by lia.
    + rewrite orb_false_r. destruct (k =? 2 * i)%nat eqn:E2; [|reflexivity]. assert (k = 2 * i)%nat by lia. subst k.
      rewrite even2. now replace ((2 * i) / 2)%nat with i by lia.
  - destruct (Hm eq_refl) as [-> Hm'].
    apply (F m _ (fun i j ga => x <- get (nth i gp []) j ;; ga <- set2 ga (2 * j) i x ;;
      y <- get (nth i gm' []) j ;; set2 ga (2 * j + 1) i y)); [reflexivity| |].
    { intros i g Hi. rewrite (G gp i Hp Hi). cbn [bind optval]. rewrite (G gm' i Hm' Hi). reflexivity. }
    intros i j g Hi Hj Hg. specialize (H2 eq_refl). rewrite (G2 gp i j Hp Hi Hj). cbn [bind]. rewrite (set2_ok (ps_n p) m) by (auto; lia).
    cbn [bind]. rewrite (G2 gm' i j Hm' Hi Hj). cbn [bind].
    assert (Hg1 : wf2 (ps_n p) m (upd2 g (2 * j) i (at_f gp i j))) by (apply wf2_upd2; auto; lia).
    rewrite (set2_ok (ps_n p) m) by (auto; lia). eexists. split; [reflexivity|].
    split; [apply wf2_upd2; auto; lia|]. intros r k Hr Hk.
    rewrite (at2_upd2 f0 (ps_n p) m) by (auto; lia). rewrite (at2_upd2 f0 (ps_n p) m) by (auto; lia).
    rewrite halves. destruct (k =? i)%nat eqn:Er; cbn [andb]; [|now rewrite !andb_false_r]. rewrite !andb_true_r.
    assert (k = i) by lia. subst k.
    destruct (r =? 2 * j + 1)%nat eqn:E1.
    + rewrite orb_true_r. assert (r = 2 * j + 1)%nat by lia. subst r. rewrite even21.
      now replace ((2 * j + 1) / 2)%nat with j by lia.
    + rewrite orb_false_r. destruct (r =? 2 * j)%nat eqn:E2; [|reflexivity]. assert (r = 2 * j)%nat by lia. subst r.
      rewrite even2. now replace ((2 * j) / 2)%nat with j by lia.
  - destruct (Hm eq_refl) as [-> Hm'].
    apply (F (m * 2)%nat _ (fun i j ga => x <- get (nth i gp []) j ;; y <- get (nth i gm' []) j ;;
      ga <- set2 ga (2 * j) (2 * i) x ;; ga <- set2 ga (2 * j + 1) (2 * i) y ;;
      ga <- set2 ga (2 * j) (2 * i + 1) y ;; set2 ga (2 * j + 1) (2 * i + 1) x)); [reflexivity| |].
    { intros i g Hi. rewrite (G gp i Hp Hi). cbn [bind optval]. rewrite (G gm' i Hm' Hi). reflexivity. }
    intros i j g Hi Hj Hg. specialize (H2 eq_refl). rewrite (G2 gp i j Hp Hi Hj). cbn [bind].
    rewrite (G2 gm' i j Hm' Hi Hj). cbn [bind].
    rewrite (set2_ok (ps_n p) (m * 2)) by (auto; lia). cbn [bind].
    set (g1 := upd2 g _ _ _). assert (Hg1 : wf2 (ps_n p) (m * 2) g1) by (apply wf2_upd2; auto; lia).
    rewrite (set2_ok (ps_n p) (m * 2)) by (auto; lia). cbn [bind].
    set (g2 := upd2 g1 _ _ _). assert (Hg2 : wf2 (ps_n p) (m * 2) g2) by (apply wf2_upd2; auto; lia).
    rewrite (set2_ok (ps_n p) (m * 2)) by (auto; lia). cbn [bind].
    set (g3 := upd2 g2 _ _ _). assert (Hg3 : wf2 (ps_n p) (m * 2) g3) by (apply wf2_upd2; auto; lia).
    rewrite (set2_ok (ps_n p) (m * 2)) by (auto; lia). eexists. split; [reflexivity|].
    split; [apply wf2_upd2; auto; lia|]. intros r k Hr Hk.
    rewrite (at2_upd2 f0 (ps_n p) (m * 2)) by (auto; lia). unfold g3.
    rewrite (at2_upd2 f0 (ps_n p) (m * 2)) by (auto; lia). unfold g2.
    rewrite (at2_upd2 f0 (ps_n p) (m * 2)) by (auto; lia). unfold g1.
    rewrite (at2_upd2 f0 (ps_n p) (m * 2)) by (auto; lia).
    rewrite !halves.
    destruct (r =? 2 * j + 1)%nat eqn:E1; [|destruct (r =? 2 * j)%nat eqn:E2];
      (destruct (k =? 2 * i + 1)%nat eqn:E3; [|destruct (k =? 2 * i)%nat eqn:E4]);
      rewrite ?orb_true_r, ?orb_false_r; cbn [andb orb]; rewrite ?andb_false_r; try reflexivity; try lia;
      repeat match goal with
      | H : (?a =? ?b)%nat = true |- _ => apply Nat.eqb_eq in H; subst a
      end;
      rewrite ?even2, ?even21; cbn [Bool.eqb];
      rewrite ?(Nat.mul_comm 2), ?Nat.div_mul, ?Nat.div_add_l by lia; change (1 / 2)%nat with 0%nat; rewrite ?Nat.add_0_r;
      try reflexivity; replace (_ =? _)%nat with false by lia; reflexivity.
Qed.

(** Conductance the solver has for the cell (i, j) of an array: only the first M rows are converted. *)
Definition conductance (c : config) (p : psolver) (ia : list (list F)) (i j : nat) : F :=
  if (i <? ps_m p)%nat then fdiv (at_f ia i j) (fneg (ps_v p)) else HRS c.
Definition wire_of (p : psolver) : F := f_of_d (dmul (d_of_f (fdiv (f_of_Z 1) (ps_w p))) (d_lit 1 6)).
Definition same_solver (p p' : psolver) : Prop :=
  ps_m p' = ps_m p /\ ps_n p' = ps_n p /\ ps_w p' = ps_w p /\ ps_v p' = ps_v p /\ ps_mode p' = ps_mode p.

(** The arrays handed to the solver. *)
Definition handed (p : psolver) (w : wenc) (R : nat) (iap : list (list F)) (iam : option (list (list F)))
    (im : list (list F)) : Prop :=
  wf2 R (ps_n p) iap /\ (iam = None /\ needs_m w = false \/ iam = Some im /\ wf2 R (ps_n p) im).

Lemma handed_div c p w R iap iam im : handed p w R iap iam im -> (ps_m p <= R)%nat -> (1 <= ps_m p)%nat ->
  (1 <= nsplit c)%nat ->
  exists gp ogm gm, div_v_read c p iap = Ok gp /\
    match iam with Some ((_ :: _) as ia) => g <- div_v_read c p ia ;; Ok (Some g) | _ => Ok None end = Ok ogm /\
    wf2 (ps_m p * nsplit c) (ps_n p) gp /\
    (needs_m w = true -> ogm = Some gm /\ wf2 (ps_m p * nsplit c) (ps_n p) gm) /\
    (forall i j, (i < ps_m p * nsplit c)%nat -> (j < ps_n p)%nat -> at_f gp i j = conductance c p iap i j) /\
    (needs_m w = true -> forall i j, (i < ps_m p * nsplit c)%nat -> (j < ps_n p)%nat -> at_f gm i j = conductance c p im i j).
Proof.
  intros [Hp Hm] HR H1 Hs. destruct (div_v_read_ok c p iap R Hp HR Hs) as (gp & E & Hg & Hv).
  destruct Hm as [[-> Hn]|[-> Hm]].
  - exists gp, None, []. rewrite Hn. repeat (split; [easy||assumption||(intros; discriminate)|]). discriminate.
  - destruct (div_v_read_ok c p im R Hm HR Hs) as (gm & E' & Hg' & Hv').
    exists gp, (Some gm), gm. destruct im as [|r im]. { destruct Hm as [Hl _]. cbn in Hl. lia. }
    rewrite E'. cbn [bind]. repeat (split; [easy||assumption|]). auto.
Qed.

Lemma set_conductance_ok c p w R iap iam im m n :
  wenc_of (ps_mode p) = Some w -> handed p w R iap iam im -> (ps_m p <= R)%nat -> (1 <= ps_m p)%nat ->
  (1 <= ps_n p)%nat -> (1 <= nsplit c)%nat -> (m <= ps_m p * nsplit c)%nat -> (n <= ps_n p)%nat ->
  (wrows2 w = true -> 2 * n <= ps_n p \/ m = 0)%nat ->
  exists p', set_conductance c iap iam m n (Some p) = Ok (Some p') /\ same_solver p p' /\
    wf2 (ps_n p) (wcols w m) (ps_ga p') /\ ps_wire p' = repeat (wire_of p) (wcols w m) /\
    forall r k, (r < ps_n p)%nat -> (k < wcols w m)%nat ->
      at_f (ps_ga p') r k =
        if (snd (own w r k) <? n)%nat
        then conductance c p (if from_p w r k then iap else im) (fst (own w r k)) (snd (own w r k)) else f0.
Proof.
  intros Hw Hh HR H1 Hn1 Hs Hm Hn H2. unfold set_conductance.
  destruct (handed_div c p w R iap iam im Hh HR H1 Hs) as (gp & ogm & gm & E1 & E2 & G1 & G2 & V1 & V2).
  rewrite E1. cbn [bind]. rewrite E2. cbn [bind]. rewrite Hw. cbn [optval bind].
  destruct (encode_w_ok w p gp ogm m n _ _ gm G1 G2 Hm Hn Hn H2) as (ga & E & Hg & Hv).
  rewrite E. cbn [bind]. destruct (Hg) as [Hl Hf].
  rewrite (get_ok ga 0 []) by lia. cbn [bind]. rewrite (wf2_row _ _ ga 0 Hg) by lia.
  eexists. split; [reflexivity|]. split; [repeat split|]. split; [exact Hg|]. split; [reflexivity|].
  intros r k Hr Hk. cbn [ps_ga]. change (ps_ga _) with ga. rewrite Hv by auto.
  destruct (snd (own w r k) <? n)%nat eqn:En; [|reflexivity].
  assert (fst (own w r k) < ps_m p * nsplit c)%nat by (destruct w; cbn [own fst wcols] in *; lia).
  destruct (from_p w r k) eqn:Ef; [apply V1; auto; lia|]. apply V2; auto; [|lia]. destruct w; try reflexivity. discriminate.
Qed.

Definition only_oob (o : out False) : Prop := o = UB OutOfBounds.
Lemma tri_oob {A} (P : A -> Prop) x : tri only_oob P x -> (forall a, P a -> False) -> x = UB OutOfBounds.
Proof. destruct x; cbn; unfold only_oob; intros H Hn; try congruence. now destruct (Hn a). Qed.
Lemma tri_ok_or {A} (P : A -> Prop) x : tri only_oob P x -> x = UB OutOfBounds \/ exists a, x = Ok a /\ P a.
Proof. destruct x; cbn; unfold only_oob; intros H; try (left; congruence). right; eauto. Qed.

Lemma oget {A} (l : list A) i : tri only_oob (fun x => (i < len l)%nat) (get l i).
Proof.
  unfold get. destruct (nth_error l i) eqn:E; cbn; [|reflexivity]. apply nth_error_Some. congruence.
Qed.
Lemma oset {A} (l : list A) i x : tri only_oob (fun l' => (i < len l)%nat /\ len l' = len l) (set l i x).
Proof. unfold set. destruct (_ <? _)%nat eqn:E; cbn; [|reflexivity]. rewrite upd_length. split; [lia|reflexivity]. Qed.
Lemma oset2 {A} R C (m : list (list A)) i j x : wf2 R C m ->
  tri only_oob (fun m' => wf2 R C m' /\ (i < R)%nat /\ (j < C)%nat) (set2 m i j x).
Proof.
  intros H. unfold set2. eapply (tri_bind _ (fun r => nth_error m i = Some r)).
  { unfold get. now destruct (nth_error m i). }
  intros r Er. assert (Hi : (i < R)%nat).
  { destruct H as [<- _]. apply nth_error_Some. congruence. }
  assert (Hr : r = nth i m []) by (symmetry; now apply nth_error_nth).
  assert (Hc : len r = C) by (rewrite Hr; apply (wf2_row R C); auto).
  unfold set. destruct (j <? len r)%nat eqn:Ej; cbn [bind]; [|reflexivity].
  destruct (i <? len m)%nat eqn:Ei; cbn [tri]; [|reflexivity].
  split; [|lia]. destruct H as [Hl Hf]. split; [now rewrite upd_length|].
  apply Forall_forall. intros y Hy. apply In_nth with (d := []) in Hy. destruct Hy as (q & Hq & <-). rewrite upd_length in Hq.
  rewrite nth_upd by lia. destruct (q =? i)%nat; [now rewrite upd_length|]. rewrite Forall_forall in Hf. apply Hf, nth_In, Hq.
Qed.

Lemma encode_w_oob w p gp gm m n : wrows2 w = true -> (ps_n p < 2 * n)%nat -> (1 <= m)%nat ->
  encode_w w p gp (Some gm) m n = UB OutOfBounds.
Proof.
  intros Hw H2 Hm.
  enough (T : tri only_oob (fun _ => (1 <= m -> 2 * n <= ps_n p)%nat) (encode_w w p gp (Some gm) m n)).
  { apply (tri_oob _ _ T). intros _ Ha. specialize (Ha Hm). lia. }
  destruct w; try discriminate; unfold encode_w.
  - apply (tri_weaken _ (fun ga => wf2 (ps_n p) m ga /\ (1 <= m -> 2 * n <= ps_n p)%nat)); [|now intros ? []].
    apply (tri_loopn only_oob (fun i ga => wf2 (ps_n p) m ga /\ (1 <= i -> 2 * n <= ps_n p)%nat)).
    { split; [apply wf2_mat2|lia]. }
    intros i ga Hi [Hg _]. eapply tri_bind; [apply oget|]. intros cp _. cbn [optval bind].
    eapply tri_bind; [apply oget|]. intros cm _.
    apply (tri_weaken _ (fun ga => wf2 (ps_n p) m ga /\ (2 * n <= ps_n p)%nat)); [|now intros ? []].
    apply (tri_loopn only_oob (fun j ga => wf2 (ps_n p) m ga /\ (2 * j <= ps_n p)%nat)). { split; [auto|lia]. }
    intros j g Hj [Hg' _]. eapply tri_bind; [apply oget|]. intros x _.
    eapply tri_bind; [apply (oset2 _ _ _ _ _ _ Hg')|]. intros g1 (Hg1 & _).
    eapply tri_bind; [apply oget|]. intros y _. eapply tri_weaken; [apply (oset2 _ _ _ _ _ _ Hg1)|].
    intros g2 (Hg2 & ? & _). split; [exact Hg2|lia].
  - apply (tri_weaken _ (fun ga => wf2 (ps_n p) (m * 2) ga /\ (1 <= m -> 2 * n <= ps_n p)%nat)); [|now intros ? []].
    apply (tri_loopn only_oob (fun i ga => wf2 (ps_n p) (m * 2) ga /\ (1 <= i -> 2 * n <= ps_n p)%nat)).
    { split; [apply wf2_mat2|lia]. }
    intros i ga Hi [Hg _]. eapply tri_bind; [apply oget|]. intros cp _. cbn [optval bind].
    eapply tri_bind; [apply oget|]. intros cm _.
    apply (tri_weaken _ (fun ga => wf2 (ps_n p) (m * 2) ga /\ (2 * n <= ps_n p)%nat)); [|now intros ? []].
    apply (tri_loopn only_oob (fun j ga => wf2 (ps_n p) (m * 2) ga /\ (2 * j <= ps_n p)%nat)). { split; [auto|lia]. }
    intros j g Hj [Hg' _]. eapply tri_bind; [apply oget|]. intros x _. eapply tri_bind; [apply oget|]. intros y _.
    eapply tri_bind; [apply (oset2 _ _ _ _ _ _ Hg')|]. intros g1 (Hg1 & _).
    eapply tri_bind; [apply (oset2 _ _ _ _ _ _ Hg1)|]. intros g2 (Hg2 & ? & _).
    eapply tri_bind; [apply (oset2 _ _ _ _ _ _ Hg2)|]. intros g3 (Hg3 & _).
    eapply tri_weaken; [apply (oset2 _ _ _ _ _ _ Hg3)|]. intros g4 (Hg4 & ? & _). split; [exact Hg4|lia].
Qed.

Lemma set_conductance_oob c p w R iap iam im m n :
  wenc_of (ps_mode p) = Some w -> handed p w R iap iam im -> (ps_m p <= R)%nat -> (1 <= ps_m p)%nat ->
  (1 <= nsplit c)%nat -> wrows2 w = true -> (ps_n p < 2 * n)%nat -> (1 <= m)%nat ->
  set_conductance c iap iam m n (Some p) = UB OutOfBounds.
Proof.
  intros Hw Hh HR H1 Hs H2 Hn Hm. unfold set_conductance.
  destruct (handed_div c p w R iap iam im Hh HR H1 Hs) as (gp & ogm & gm & E1 & E2 & G1 & G2 & V1 & V2).
  rewrite E1. cbn [bind]. rewrite E2. cbn [bind]. rewrite Hw. cbn [optval bind].
  destruct (G2 ltac:(now destruct w)) as [-> _]. now rewrite encode_w_oob.
Qed.

(** ** Currents *)
(** The row of inputs after [encode_i]. *)
Definition drive (p : psolver) (vp vm : list Z) (n r : nat) : Z :=
  if ienc_double (ps_mode p) then
    if (r / 2 <? n)%nat then nth (r / 2) (if Nat.even r then vp else vm) 0%Z else 0%Z
  else if (r <? n)%nat then nth r vp 0%Z else 0%Z.

Lemma encode_i_ok p vp ovm vm n : (n <= len vp)%nat -> (n <= ps_n p)%nat ->
  (ienc_double (ps_mode p) = true -> ovm = Some vm /\ (n <= len vm)%nat /\ (2 * n <= ps_n p)%nat) ->
  exists vd, encode_i p vp ovm n = Ok vd /\ len vd = ps_n p /\
    forall r, (r < ps_n p)%nat -> nth r vd 0%Z = drive p vp vm n r.
Proof.
  intros Hv Hn H2. unfold encode_i, drive. destruct (ienc_double (ps_mode p)).
  - destruct (H2 eq_refl) as (-> & Hm & H). 
    apply (forN_inv (fun k vd => len vd = ps_n p /\ forall r, (r < ps_n p)%nat ->
      nth r vd 0%Z = if (r / 2 <? k)%nat then nth (r / 2) (if Nat.even r then vp else vm) 0%Z else 0%Z)).
    { split; [apply repeat_length|]. intros r Hr. rewrite nth_repeat_lt by auto. now destruct (_ <? _)%nat eqn:?; [lia|]. }
    intros j vd Hj [Hl Hd]. rewrite (get_ok vp j 0%Z) by lia. cbn [bind]. rewrite set_ok by lia. cbn [bind optval].
    rewrite (get_ok vm j 0%Z) by lia. cbn [bind]. rewrite set_ok by (rewrite upd_length; lia).
    eexists. split; [reflexivity|]. split; [now rewrite !upd_length|]. intros r Hr.
    rewrite nth_upd by (rewrite upd_length; lia). rewrite nth_upd by lia. rewrite Hd by auto.
    destruct (r =? 2 * j + 1)%nat eqn:E1; [|destruct (r =? 2 * j)%nat eqn:E2].
    + assert (r = 2 * j + 1)%nat by lia. subst r. rewrite even21. replace ((2 * j + 1) / 2)%nat with j by lia.
      now replace (j <? S j)%nat with true by lia.
    + assert (r = 2 * j)%nat by lia. subst r. rewrite even2. replace ((2 * j) / 2)%nat with j by lia.
      now replace (j <? S j)%nat with true by lia.
    + destruct (r / 2 <? j)%nat eqn:E3; [now replace (r / 2 <? S j)%nat with true by lia|].
      now replace (r / 2 <? S j)%nat with false by lia.
  - rewrite (rows_eq n _ (fun j _ => nth j vp 0%Z) (repeat 0%Z (ps_n p)) 0%Z).
    + eexists. split; [reflexivity|]. split; [now rewrite upto_length, repeat_length|]. intros r Hr.
      rewrite nth_upto by (rewrite repeat_length; lia). now rewrite nth_repeat_lt by lia.
    + rewrite repeat_length. lia.
    + intros j a Hj Ha _. rewrite repeat_length in Ha. rewrite (get_ok vp j 0%Z) by lia. cbn [bind]. now rewrite set_ok by lia.
Qed.

(** Conductance of column k after the first rows. *)
Fixpoint column (ga : list (list F)) (vd : nat -> Z) (w : F) (k rows : nat) : F :=
  match rows with
  | O => f0
  | S r => col_step (column ga vd w k r) (if (vd r =? 0)%Z then f0 else at_f ga r k) w
  end.

Lemma reduce_cols_ok ga vd wire w K N : wf2 N K ga -> wire = repeat w K -> len vd = N ->
  exists acc, reduce_cols ga vd wire K N = Ok acc /\ len acc = K /\
    forall k, (k < K)%nat -> nth k acc f0 = column ga (fun r => nth r vd 0%Z) w k N.
Proof.
  intros Hg -> Hv. unfold reduce_cols.
  apply (forN_inv (fun n acc => len acc = K /\ forall k, (k < K)%nat -> nth k acc f0 = column ga (fun r => nth r vd 0%Z) w k n)).
  { split; [apply repeat_length|]. intros k Hk. now rewrite nth_repeat_lt. }
  intros r acc Hr [Hl Hc]. rewrite (get_ok vd r 0%Z) by lia. cbn [bind].
  set (row := if (nth r vd 0 =? 0)%Z then repeat f0 K else nth r ga []).
  replace (if (nth r vd 0 =? 0)%Z then Ok (repeat f0 K) else get ga r) with (Ok row).
  2: { unfold row. destruct Hg as [Hg _]. destruct (_ =? _)%Z; [reflexivity|]. now rewrite (get_ok ga r []) by lia. }
  cbn [bind].
  assert (Hrow : len row = K) by (unfold row; destruct (_ =? _)%Z; [apply repeat_length|apply (wf2_row N K); auto]).
  rewrite (rows_eq K _ (fun k a => col_step a (nth k row f0) w) acc f0).
  - eexists. split; [reflexivity|]. split; [now rewrite upto_length|]. intros k Hk.
    rewrite nth_upto by lia. replace (k <? K)%nat with true by lia. rewrite Hc by auto. cbn [column]. f_equal.
    unfold row. destruct (_ =? _)%Z; [now rewrite nth_repeat_lt|reflexivity].
  - lia.
  - intros k a Hk Ha _. rewrite (get_ok a k f0) by lia. cbn [bind]. rewrite (get_ok row k f0) by lia. cbn [bind].
    rewrite (get_ok (repeat w K) k f0) by (rewrite repeat_length; lia). cbn [bind]. rewrite nth_repeat_lt by auto.
    now rewrite set_ok by lia.
Qed.

Definition outcols (p : psolver) (k : nat) : nat := if oenc_double (ps_mode p) then (2 * k)%nat else k.

(** A solver that has been given conductances of K columns. *)
Definition armed (p : psolver) (K : nat) : Prop :=
  wf2 (ps_n p) K (ps_ga p) /\ exists w, ps_wire p = repeat w K.

Lemma compute_currents_ok p vp vm k n K w :
  wf2 (ps_n p) K (ps_ga p) -> ps_wire p = repeat w K -> (1 <= ps_n p)%nat ->
  (n <= len vp)%nat -> (n <= ps_n p)%nat -> (k <= ps_m p)%nat -> (outcols p k <= K)%nat ->
  (ienc_double (ps_mode p) = true -> vm <> [] /\ (n <= len vm)%nat /\ (2 * n <= ps_n p)%nat) ->
  exists t, compute_currents (Some p) vp vm k n = Ok t /\ len t = ps_m p /\
    forall i, (i < k)%nat -> nth i t f0 =
      fmul (if oenc_double (ps_mode p)
            then fsub (column (ps_ga p) (drive p vp vm n) w (2 * i) (ps_n p)) (column (ps_ga p) (drive p vp vm n) w (2 * i + 1) (ps_n p))
            else column (ps_ga p) (drive p vp vm n) w i (ps_n p)) (fneg (ps_v p)).
Proof.
  intros Hg Hw Hn1 Hv Hn Hk HK Hm. unfold compute_currents.
  destruct (encode_i_ok p vp (match vm with [] => None | _ => Some vm end) vm n Hv Hn) as (vd & E & Hl & Hd).
  { intros Hi. destruct (Hm Hi) as (Hm1 & Hm2 & Hm3). split; [now destruct vm|auto]. }
  rewrite E. cbn [bind]. destruct (Hg) as [Hl' _]. rewrite (get_ok (ps_ga p) 0 []) by lia. cbn [bind].
  rewrite (wf2_row _ _ (ps_ga p) 0 Hg) by lia.
  destruct (reduce_cols_ok (ps_ga p) vd (ps_wire p) w K (ps_n p) Hg Hw Hl) as (acc & E2 & Ha & Hc).
  assert (HC : forall k, (k < K)%nat -> nth k acc f0 = column (ps_ga p) (drive p vp vm n) w k (ps_n p)).
  { intros q Hq. rewrite Hc by auto. clear -Hd. 
    assert (G : forall N, (N <= ps_n p)%nat -> column (ps_ga p) (fun r => nth r vd 0%Z) w q N = column (ps_ga p) (drive p vp vm n) w q N).
    { induction N; intros HN; cbn [column]; [reflexivity|]. rewrite IHN by lia. now rewrite Hd by lia. }
    now apply G. }
  rewrite E2. cbn [bind]. unfold encode_o, outcols in *. destruct (oenc_double (ps_mode p)).
  - rewrite (rows_eq k _ (fun i _ => fmul (fsub (nth (2 * i) acc f0) (nth (2 * i + 1) acc f0)) (fneg (ps_v p))) (repeat f0 (ps_m p)) f0).
    + eexists. split; [reflexivity|]. split; [now rewrite upto_length, repeat_length|]. intros i Hi.
      rewrite nth_upto by (rewrite repeat_length; lia). replace (i <? k)%nat with true by lia. now rewrite !HC by lia.
    + rewrite repeat_length. lia.
    + intros i a Hi Hla _. rewrite repeat_length in Hla. rewrite (get_ok acc (2 * i) f0) by lia. cbn [bind].
      rewrite (get_ok acc (2 * i + 1) f0) by lia. cbn [bind]. now rewrite set_ok by lia.
  - rewrite (rows_eq k _ (fun i _ => fmul (nth i acc f0) (fneg (ps_v p))) (repeat f0 (ps_m p)) f0).
    + eexists. split; [reflexivity|]. split; [now rewrite upto_length, repeat_length|]. intros i Hi.
      rewrite nth_upto by (rewrite repeat_length; lia). replace (i <? k)%nat with true by lia. now rewrite HC by lia.
    + rewrite repeat_length. lia.
    + intros i a Hi Hla _. rewrite repeat_length in Hla. rewrite (get_ok acc i f0) by lia. cbn [bind]. now rewrite set_ok by lia.
Qed.

(** The only possible failure, and what success tells. *)
Lemma compute_currents_tri p vp vm k n :
  (ienc_double (ps_mode p) = true -> vm <> []) ->
  tri only_oob (fun _ => ps_ga p <> [] /\ (forall K, wf2 (ps_n p) K (ps_ga p) -> outcols p k <= K)%nat /\ (k <= ps_m p)%nat /\
     (ienc_double (ps_mode p) = true -> 2 * n <= ps_n p /\ n <= len vm)%nat /\ (n <= ps_n p)%nat /\ (n <= len vp)%nat) (compute_currents (Some p) vp vm k n).
Proof.
  intros Hvm. unfold compute_currents.
  apply (tri_bind _ (fun vd => (ienc_double (ps_mode p) = true -> 2 * n <= ps_n p /\ n <= len vm)%nat /\ (n <= ps_n p)%nat /\ (n <= len vp)%nat)).
  { unfold encode_i. destruct (ienc_double (ps_mode p)).
    - specialize (Hvm eq_refl). destruct vm as [|v vm]; [easy|].
      apply (tri_weaken _ (fun vd => len vd = ps_n p /\ (2 * n <= ps_n p)%nat /\ (n <= len vp)%nat /\ (n <= len (v :: vm))%nat)); [|intros ? (? & ? & ? & ?); split; [auto|lia]].
      apply (tri_loopn only_oob (fun j (vd : list Z) => len vd = ps_n p /\ (2 * j <= ps_n p)%nat /\ (j <= len vp)%nat /\ (j <= len (v :: vm))%nat)). { split; [apply repeat_length|lia]. }
      intros j vd Hj [Hl _]. eapply tri_bind; [apply oget|]. intros x Hx. cbv beta in Hx. eapply tri_bind; [apply oset|]. intros vd1 [_ H1].
      cbn [optval bind]. eapply tri_bind; [apply oget|]. intros y Hy. cbv beta in Hy. eapply tri_weaken; [apply oset|]. intros vd2 [H2 H3]. lia.
    - apply (tri_weaken _ (fun vd => len vd = ps_n p /\ (n <= ps_n p)%nat /\ (n <= len vp)%nat)); [|intros ? (? & ? & ?); split; [discriminate|auto]].
      apply (tri_loopn only_oob (fun j (vd : list Z) => len vd = ps_n p /\ (j <= ps_n p)%nat /\ (j <= len vp)%nat)). { split; [apply repeat_length|lia]. }
      intros j vd Hj [Hl _]. eapply tri_bind; [apply oget|]. intros x Hx. cbv beta in Hx. eapply tri_weaken; [apply oset|]. intros vd1 [H1 H2]. lia. }
  intros vd [Hn1 Hn2]. destruct (ps_ga p) as [|row0 rest] eqn:Eg; [reflexivity|]. cbn [get nth_error bind].
  change (get (row0 :: rest) 0) with (Ok row0). cbn [bind].
  apply (tri_bind _ (fun acc : list F => len acc = len row0)).
  { unfold reduce_cols. apply tri_loop; [apply repeat_length|]. intros r acc Hr Ha.
    eapply tri_bind; [apply oget|]. intros v _. apply (tri_bind _ (fun _ => True)).
    { destruct (_ =? _)%Z; [exact I|]. eapply tri_weaken; [apply oget|auto]. }
    intros row _. apply tri_loop; [exact Ha|]. intros q a Hq Ha'. eapply tri_bind; [apply oget|]. intros x _.
    eapply tri_bind; [apply oget|]. intros g _. eapply tri_bind; [apply oget|]. intros w _.
    eapply tri_weaken; [apply oset|]. intros a' [_ ->]. exact Ha'. }
  intros acc Ha.
  apply (tri_weaken _ (fun res : list F => len res = ps_m p /\ (outcols p k <= len row0)%nat /\ (k <= ps_m p)%nat)).
  2: { intros res (H1 & H2 & H3). split; [discriminate|]. split; [|auto]. intros K [_ HK]. inversion HK; subst. exact H2. }
  unfold encode_o, outcols. destruct (oenc_double (ps_mode p)).
  - apply (tri_loopn only_oob (fun i (res : list F) => len res = ps_m p /\ (2 * i <= len row0)%nat /\ (i <= ps_m p)%nat)).
    { split; [apply repeat_length|lia]. }
    intros i res Hi (Hl & _ & _). eapply tri_bind; [apply oget|]. intros x Hx. cbv beta in Hx.
    eapply tri_bind; [apply oget|]. intros y Hy. cbv beta in Hy. eapply tri_weaken; [apply oset|]. intros res' [H1 H2]. lia.
  - apply (tri_loopn only_oob (fun i (res : list F) => len res = ps_m p /\ (i <= len row0)%nat /\ (i <= ps_m p)%nat)).
    { split; [apply repeat_length|lia]. }
    intros i res Hi (Hl & _ & _). eapply tri_bind; [apply oget|]. intros x Hx. cbv beta in Hx.
    eapply tri_weaken; [apply oset|]. intros res' [H1 H2]. lia.
Qed.
End PC.
