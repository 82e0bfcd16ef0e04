(** What every loop over the cell arrays does to each single cell, and a way to establish
    invariants of reachable crossbars. *)
From Coq Require Import List ZArith Bool Arith Lia ZifyBool ZifyNat String.
From RecordUpdate Require Import RecordSet.
From Verif Require Import Base Lib Hoare Machine Json Config Histogram Adc ReadDisturb Parasitics
  Mapper IntMappers BnnMappers TnnMappers Crossbar Api WriteProofs Shape MvmShape AnaShape ConfigProofs Reach.
Import ListNotations RecordSetNotations.
Local Open Scope Z_scope.
Local Open Scope out_scope.

(** ** Loops over a grid *)
Definition inside (m n i j : nat) : bool := (i <? m)%nat && (j <? n)%nat.

Lemma grid {S V} (obs : nat -> nat -> S -> V) (I : S -> Prop) (T : nat -> nat -> V -> V -> Prop)
    (body : nat -> nat -> S -> out S) m n s s' :
  forN m (fun i => forN n (body i)) s = Ok s' -> 
  (forall i j s s', (i < m)%nat -> (j < n)%nat -> I s -> body i j s = Ok s' ->
     I s' /\ T i j (obs i j s) (obs i j s') /\
     forall a b, (a =? i)%nat && (b =? j)%nat = false -> obs a b s' = obs a b s) ->
  I s ->
  I s' /\ forall i j, if inside m n i j then T i j (obs i j s) (obs i j s') else obs i j s' = obs i j s.
Proof.
  intros H Hb Hs. unfold inside.
  refine (forN_Ok (fun k t => I t /\ forall i j, if ((i <? k)%nat && (j <? n)%nat)%bool
      then T i j (obs i j s) (obs i j t) else obs i j t = obs i j s) m _ s s' H _ _).
  { split; [exact Hs|]. intros i j. now destruct (i <? 0)%nat eqn:E. }
  intros k t t' Hk (Ht & HT) H'.
  pose proof (forN_Ok (fun q u => I u /\ forall i j, if ((i =? k)%nat && (j <? q)%nat)%bool
      then T i j (obs i j t) (obs i j u) else obs i j u = obs i j t) n _ t t' H') as HQ.
  destruct HQ as (Ht' & HQ).
  - split; [exact Ht|]. intros i j. now replace (_ && _) with false by lia.
  - intros q u u' Hq (Hu & HU) E. destruct (Hb k q u u' Hk Hq Hu E) as (H1 & H2 & H3).
    split; [exact H1|]. intros i j. specialize (HU i j).
    destruct ((i =? k)%nat && (j =? q)%nat) eqn:Eq.
    + assert (i = k /\ j = q) as [-> ->] by lia. replace (_ && _) with true by lia.
      replace (_ && _) with false in HU by lia. now rewrite <- HU.
    + rewrite (H3 i j Eq). replace ((i =? k)%nat && (j <? Datatypes.S q)%nat) with ((i =? k)%nat && (j <? q)%nat) by lia.
      exact HU.
  - split; [exact Ht'|]. intros i j. specialize (HT i j). specialize (HQ i j).
    destruct (i =? k)%nat eqn:Ei.
    + assert (i = k) by lia. subst i. replace (k <? k)%nat with false in HT by lia. cbn [andb] in HT, HQ.
      replace (k <? Datatypes.S k)%nat with true by lia. cbn [andb]. destruct (j <? n)%nat.
      * now rewrite <- HT.
      * now rewrite HQ.
    + cbn [andb] in HQ. rewrite HQ. replace (i <? Datatypes.S k)%nat with (i <? k)%nat by lia. exact HT.
Qed.

(** Rows whose length is looked up. *)
Lemma grid_rows {A S} R C (g : list (list A)) (body : nat -> nat -> S -> out S) s : wf2 R C g ->
  forN (List.length g) (fun i st => bind (get g i) (fun row => forN (List.length row) (body i) st)) s
  = forN R (fun i => forN C (body i)) s.
Proof.
  intros [HL HF]. rewrite HL. apply forN_ext. intros k t Hk.
  rewrite (get_ok g k []) by lia. cbn [bind]. rewrite Forall_forall in HF.
  rewrite (HF (nth k g [])); [reflexivity|]. apply nth_In. lia.
Qed.

(** A scalar accumulated along the grid. *)
Lemma grid_sum {S} (k : S -> Z) (I : S -> Prop) (f : nat -> nat -> Z)
    (body : nat -> nat -> S -> out S) m n s s' :
  forN m (fun i => forN n (body i)) s = Ok s' ->
  (forall i j s s', (i < m)%nat -> (j < n)%nat -> I s -> body i j s = Ok s' -> I s' /\ k s' = k s + f i j) ->
  I s -> k s' = k s + sumZ m (fun i => sumZ n (f i)).
Proof.
  intros H Hb Hs.
  refine (proj2 (forN_Ok (fun q t => I t /\ k t = k s + sumZ q (fun i => sumZ n (f i))) m _ s s' H _ _)).
  { split; [exact Hs|]. cbn. lia. }
  intros i t t' Hi (Ht & Hk) E.
  pose proof (forN_Ok (fun q u => I u /\ k u = k t + sumZ q (f i)) n _ t t' E) as HQ.
  destruct HQ as (HQ1 & HQ2).
  - split; [exact Ht|]. cbn. lia.
  - intros j u u' Hj (Hu & HU) E'. destruct (Hb i j u u' Hi Hj Hu E') as [H1 H2]. split; [exact H1|]. cbn. lia.
  - split; [exact HQ1|]. cbn [sumZ]. lia.
Qed.

(** A flag raised along the grid. *)
Fixpoint anyN (n : nat) (f : nat -> bool) : bool :=
  match n with O => false | S k => anyN k f || f k end.
Lemma anyN_true n f : anyN n f = true <-> exists i, (i < n)%nat /\ f i = true.
Proof.
  induction n as [|n IH]; cbn.
  - split; [discriminate|]. intros (i & Hi & _). lia.
  - rewrite orb_true_iff, IH. split.
    + intros [(i & Hi & Hf)|H]; eauto.
    + intros (i & Hi & Hf). destruct (Nat.eq_dec i n) as [->|]; [auto|left; exists i; split; [lia|auto]].
Qed.
Lemma grid_any {S} (k : S -> bool) (I : S -> Prop) (f : nat -> nat -> bool)
    (body : nat -> nat -> S -> out S) m n s s' :
  forN m (fun i => forN n (body i)) s = Ok s' ->
  (forall i j s s', (i < m)%nat -> (j < n)%nat -> I s -> body i j s = Ok s' -> I s' /\ k s' = k s || f i j) ->
  I s -> k s' = k s || anyN m (fun i => anyN n (f i)).
Proof.
  intros H Hb Hs.
  refine (proj2 (forN_Ok (fun q t => I t /\ k t = k s || anyN q (fun i => anyN n (f i))) m _ s s' H _ _)).
  { split; [exact Hs|]. cbn. now rewrite orb_false_r. }
  intros i t t' Hi (Ht & Hk) E.
  pose proof (forN_Ok (fun q u => I u /\ k u = k t || anyN q (f i)) n _ t t' E) as HQ.
  destruct HQ as (HQ1 & HQ2).
  - split; [exact Ht|]. cbn. now rewrite orb_false_r.
  - intros j u u' Hj (Hu & HU) E'. destruct (Hb i j u u' Hi Hj Hu E') as [H1 H2]. split; [exact H1|].
    cbn. now rewrite H2, HU, orb_assoc.
  - split; [exact HQ1|]. cbn [anyN]. now rewrite HQ2, Hk, orb_assoc.
Qed.

Section Cells.
Context {MC : Machine}.
Notation len := List.length.
Notation MM c := (Z.to_nat (M c)).
Notation at_f := (at2 f0).
Notation at_z := (at2 0).

(** Inversions of the accessors. *)
Ltac gi H x E := inv_as H x E; eapply get2_inv in E; [|eassumption]; destruct E as (? & ? & E).
Ltac si H x E := inv_as H x E; eapply set2_inv in E; [|eassumption]; destruct E as (? & ? & E).

(** ** Noise *)

(** [y] is what the noise generator can make of [x] for a cell in state [g]. *)
Definition noisy (c : config) (x : F) (g : Z) (y : F) : Prop :=
  exists k k', add_noise c x g k = Ok (y, k').
Lemma noisy_quiet c x g y : fle (HRS_NOISE c) f0 = true -> fle (LRS_NOISE c) f0 = true ->
  noisy c x g y -> y = x.
Proof.
  intros H1 H2 (k & k' & H). unfold add_noise in H. rewrite H1, H2 in H.
  destruct (g =? 0); [now inversion H|]. destruct (g =? 1); now inversion H.
Qed.
Lemma add_noise_draws c x g k y k' : fle (HRS_NOISE c) f0 = true -> fle (LRS_NOISE c) f0 = true ->
  add_noise c x g k = Ok (y, k') -> k' = k.
Proof.
  intros H1 H2 H. unfold add_noise in H. rewrite H1, H2 in H.
  destruct (g =? 0); [now inversion H|]. destruct (g =? 1); now inversion H.
Qed.

(** Nominal current of a cell. *)
Notation nominal c g := (level g (fsub (LRS c) (HRS c)) (HRS c)).

Section C.
Context (c : config).
Notation mok := (wf2 (rowsN c) (colsN c)).

Lemma put_noisy_cell gd i j ia ia0 k ia' ia0' k' : mok gd -> mok ia -> mok ia0 ->
  put_noisy c gd i j (ia, ia0, k) = Ok (ia', ia0', k') ->
  exists x, (i < rowsN c)%nat /\ (j < colsN c)%nat /\ ia' = upd2 ia i j x /\ ia0' = upd2 ia0 i j x /\
    add_noise c (nominal c (at_z gd i j)) (at_z gd i j) k = Ok (x, k').
Proof.
  intros Hg Ha Hb H. unfold put_noisy in H.
  inv_as H g G. apply (get2_inv 0 _ _ _ _ _ _ Hg) in G. destruct G as (Hi & Hj & ->).
  inv_as H t T. destruct t as [x k1].
  inv_as H a A. apply (set2_inv _ _ _ _ _ _ _ Ha) in A. destruct A as (_ & _ & ->).
  inv_as H b B. apply (set2_inv _ _ _ _ _ _ _ Hb) in B. destruct B as (_ & _ & ->).
  inversion H; subst. exists x. auto.
Qed.

Lemma a_write_xnn_cells both mp m n e mp' e' : shape c mp -> a_write_xnn c both mp m n e = Ok (mp', e') ->
  mok (ia_p mp') /\ mok (ia_p0 mp') /\ mok (ia_m mp') /\ mok (ia_m0 mp') /\
  (fle (HRS_NOISE c) f0 = true -> fle (LRS_NOISE c) f0 = true -> e' = e) /\
  forall i j,
    if inside m n i j then
      (at_f (ia_p0 mp') i j = at_f (ia_p mp') i j /\ noisy c (nominal c (at_z (gd_p mp) i j)) (at_z (gd_p mp) i j) (at_f (ia_p mp') i j)) /\
      (if both then at_f (ia_m0 mp') i j = at_f (ia_m mp') i j /\
                    noisy c (nominal c (at_z (gd_m mp) i j)) (at_z (gd_m mp) i j) (at_f (ia_m mp') i j)
       else at_f (ia_m mp') i j = at_f (ia_m mp) i j /\ at_f (ia_m0 mp') i j = at_f (ia_m0 mp) i j)
    else at_f (ia_p mp') i j = at_f (ia_p mp) i j /\ at_f (ia_p0 mp') i j = at_f (ia_p0 mp) i j /\
         at_f (ia_m mp') i j = at_f (ia_m mp) i j /\ at_f (ia_m0 mp') i j = at_f (ia_m0 mp) i j.
Proof.
  intros Hs H. unfold a_write_xnn in H. inv_as H t T. destruct t as [[[[a a0] b] b0] k].
  inversion H; subst mp' e'; clear H.
  pose proof (grid (S := list (list F) * list (list F) * list (list F) * list (list F) * nat)
    (fun i j '(a, a0, b, b0, _) => (at_f a i j, at_f a0 i j, at_f b i j, at_f b0 i j))
    (fun '(a, a0, b, b0, k) => mok a /\ mok a0 /\ mok b /\ mok b0 /\
       (fle (HRS_NOISE c) f0 = true -> fle (LRS_NOISE c) f0 = true -> k = draws e))
    (fun i j '(_, _, y, y0) '(x', x0', y', y0') =>
      (x0' = x' /\ noisy c (nominal c (at_z (gd_p mp) i j)) (at_z (gd_p mp) i j) x') /\
      (if both then y0' = y' /\ noisy c (nominal c (at_z (gd_m mp) i j)) (at_z (gd_m mp) i j) y'
       else y' = y /\ y0' = y0)) _ _ _ _ _ T) as HG.
  destruct HG as (HI & HT).
  - intros i j [[[[p p0] q] q0] kk] [[[[p' p0'] q'] q0'] kk'] Hi Hj (H1 & H2 & H3 & H4 & H5) E.
    inv_as E u U. destruct u as [[p1 p01] k1].
    apply put_noisy_cell in U; try assumption; [|apply Hs].
    destruct U as (x & Hi' & Hj' & -> & -> & Hx).
    destruct both.
    + inv_as E u U. destruct u as [[q1 q01] k2]. inversion E; subst; clear E.
      apply put_noisy_cell in U; try assumption; [|apply Hs].
      destruct U as (y & _ & _ & -> & -> & Hy).
      split; [|split].
      * refine (conj _ (conj _ (conj _ (conj _ _)))); try (apply wf2_upd2; assumption).
        intros Z1 Z2. apply add_noise_draws in Hx, Hy; try assumption. rewrite Hy, Hx. auto.
      * rewrite !(at2_upd2 f0 (rowsN c) (colsN c)) by assumption. rewrite !Nat.eqb_refl. cbn [andb].
        split; (split; [reflexivity|eexists; eexists; eassumption]).
      * intros r s Hrs. rewrite !(at2_upd2 f0 (rowsN c) (colsN c)) by assumption. now rewrite Hrs.
    + inversion E; subst; clear E. split; [|split].
      * refine (conj _ (conj _ (conj _ (conj _ _)))); try (apply wf2_upd2; assumption); try assumption.
        intros Z1 Z2. apply add_noise_draws in Hx; try assumption. rewrite Hx. auto.
      * rewrite !(at2_upd2 f0 (rowsN c) (colsN c)) by assumption. rewrite !Nat.eqb_refl. cbn [andb].
        split; [split; [reflexivity|eexists; eexists; eassumption]|auto].
      * intros r s Hrs. rewrite !(at2_upd2 f0 (rowsN c) (colsN c)) by assumption. now rewrite Hrs.
  - refine (conj _ (conj _ (conj _ (conj _ _)))); try apply Hs. reflexivity.
  - destruct HI as (H1 & H2 & H3 & H4 & H5).
    change (ia_p (mp <| ia_p := a |> <| ia_p0 := a0 |> <| ia_m := b |> <| ia_m0 := b0 |>)) with a.
    change (ia_p0 (mp <| ia_p := a |> <| ia_p0 := a0 |> <| ia_m := b |> <| ia_m0 := b0 |>)) with a0.
    change (ia_m (mp <| ia_p := a |> <| ia_p0 := a0 |> <| ia_m := b |> <| ia_m0 := b0 |>)) with b.
    change (ia_m0 (mp <| ia_p := a |> <| ia_p0 := a0 |> <| ia_m := b |> <| ia_m0 := b0 |>)) with b0.
    refine (conj H1 (conj H2 (conj H3 (conj H4 (conj _ _))))).
    + intros Z1 Z2. rewrite (H5 Z1 Z2). now destruct e.
    + intros i j. specialize (HT i j). cbn beta iota in HT. destruct (inside m n i j).
      * exact HT.
      * inversion HT. auto.
Qed.

(** ** Cycle-to-cycle noise *)
Lemma add_c2c_cells mp m n e mp' e' : shape c mp -> add_c2c c mp m n e = Ok (mp', e') ->
  mok (ia_p mp') /\ mok (ia_m mp') /\ (exists ip im, mp' = mp <| ia_p := ip |> <| ia_m := im |>) /\
  (fle (HRS_NOISE c) f0 = true -> fle (LRS_NOISE c) f0 = true -> e' = e) /\
  forall i j,
    if inside m n i j then
      noisy c (at_f (ia_p0 mp) i j) (at_z (gd_p mp) i j) (at_f (ia_p mp') i j) /\
      noisy c (at_f (ia_m0 mp) i j) (at_z (gd_m mp) i j) (at_f (ia_m mp') i j)
    else at_f (ia_p mp') i j = at_f (ia_p mp) i j /\ at_f (ia_m mp') i j = at_f (ia_m mp) i j.
Proof.
  intros Hs H. unfold add_c2c in H. inv_as H t T. destruct t as [[a b] k].
  inversion H; subst mp' e'; clear H.
  pose proof (grid (S := list (list F) * list (list F) * nat)
    (fun i j '(a, b, _) => (at_f a i j, at_f b i j))
    (fun '(a, b, k) => mok a /\ mok b /\
       (fle (HRS_NOISE c) f0 = true -> fle (LRS_NOISE c) f0 = true -> k = draws e))
    (fun i j _ '(x', y') =>
       noisy c (at_f (ia_p0 mp) i j) (at_z (gd_p mp) i j) x' /\
       noisy c (at_f (ia_m0 mp) i j) (at_z (gd_m mp) i j) y') _ _ _ _ _ T) as HG.
  pose proof (sh_gp _ _ Hs). pose proof (sh_gm _ _ Hs). pose proof (sh_ip0 _ _ Hs). pose proof (sh_im0 _ _ Hs).
  destruct HG as (HI & HT).
  - intros i j [[p q] kk] [[p' q'] kk'] Hi Hj (H1' & H2' & H5) E.
    inv_as E x X. apply (get2_inv f0 (rowsN c) (colsN c)) in X; [|assumption]. destruct X as (Hi' & Hj' & ->).
    inv_as E g G. apply (get2_inv 0 (rowsN c) (colsN c)) in G; [|assumption]. destruct G as (_ & _ & ->).
    inv_as E u U. destruct u as [x1 k1].
    inv_as E p1 P. apply (set2_inv (rowsN c) (colsN c)) in P; [|assumption]. destruct P as (_ & _ & ->).
    inv_as E x2 X. apply (get2_inv f0 (rowsN c) (colsN c)) in X; [|assumption]. destruct X as (_ & _ & ->).
    inv_as E g G. apply (get2_inv 0 (rowsN c) (colsN c)) in G; [|assumption]. destruct G as (_ & _ & ->).
    inv_as E u U'. destruct u as [y1 k2].
    inv_as E p1 P. apply (set2_inv (rowsN c) (colsN c)) in P; [|assumption]. destruct P as (_ & _ & ->).
    inversion E; subst; clear E. split; [|split].
    + refine (conj _ (conj _ _)); try (apply wf2_upd2; assumption).
      intros Z1 Z2. apply add_noise_draws in U, U'; try assumption. rewrite U', U. auto.
    + rewrite !(at2_upd2 f0 (rowsN c) (colsN c)) by assumption. rewrite !Nat.eqb_refl. cbn [andb].
      split; eexists; eexists; eassumption.
    + intros r s Hrs. rewrite !(at2_upd2 f0 (rowsN c) (colsN c)) by assumption. now rewrite Hrs.
  - refine (conj _ (conj _ _)); try apply Hs. reflexivity.
  - destruct HI as (H1' & H2' & H5).
    change (ia_p (mp <| ia_p := a |> <| ia_m := b |>)) with a.
    change (ia_m (mp <| ia_p := a |> <| ia_m := b |>)) with b.
    refine (conj H1' (conj H2' (conj _ (conj _ _)))).
    + eauto.
    + intros Z1 Z2. rewrite (H5 Z1 Z2). now destruct e.
    + intros i j. specialize (HT i j). cbn beta iota in HT. destruct (inside m n i j).
      * exact HT.
      * now inversion HT.
Qed.

Lemma remove_c2c_cells mp m n mp' : shape c mp -> remove_c2c mp m n = Ok mp' ->
  mok (ia_p mp') /\ mok (ia_m mp') /\ (exists ip im, mp' = mp <| ia_p := ip |> <| ia_m := im |>) /\
  forall i j,
    if inside m n i j then
      at_f (ia_p mp') i j = at_f (ia_p0 mp) i j /\ at_f (ia_m mp') i j = at_f (ia_m0 mp) i j
    else at_f (ia_p mp') i j = at_f (ia_p mp) i j /\ at_f (ia_m mp') i j = at_f (ia_m mp) i j.
Proof.
  intros Hs H. unfold remove_c2c in H. inv_as H t T. destruct t as [a b].
  inversion H; subst mp'; clear H.
  pose proof (grid (S := list (list F) * list (list F))
    (fun i j '(a, b) => (at_f a i j, at_f b i j)) (fun '(a, b) => mok a /\ mok b)
    (fun i j _ '(x', y') => x' = at_f (ia_p0 mp) i j /\ y' = at_f (ia_m0 mp) i j) _ _ _ _ _ T) as HG.
  pose proof (sh_ip0 _ _ Hs). pose proof (sh_im0 _ _ Hs).
  destruct HG as (HI & HT).
  - intros i j [p q] [p' q'] Hi Hj (H1' & H2') E.
    inv_as E x X. apply (get2_inv f0 (rowsN c) (colsN c)) in X; [|assumption]. destruct X as (Hi' & Hj' & ->).
    inv_as E p1 P. apply (set2_inv (rowsN c) (colsN c)) in P; [|assumption]. destruct P as (_ & _ & ->).
    inv_as E x2 X. apply (get2_inv f0 (rowsN c) (colsN c)) in X; [|assumption]. destruct X as (_ & _ & ->).
    inv_as E p1 P. apply (set2_inv (rowsN c) (colsN c)) in P; [|assumption]. destruct P as (_ & _ & ->).
    inversion E; subst; clear E. split; [|split].
    + split; apply wf2_upd2; assumption.
    + rewrite !(at2_upd2 f0 (rowsN c) (colsN c)) by assumption. rewrite !Nat.eqb_refl. cbn [andb]. auto.
    + intros r s Hrs. rewrite !(at2_upd2 f0 (rowsN c) (colsN c)) by assumption. now rewrite Hrs.
  - split; apply Hs.
  - destruct HI as (H1' & H2').
    change (ia_p (mp <| ia_p := a |> <| ia_m := b |>)) with a.
    change (ia_m (mp <| ia_p := a |> <| ia_m := b |>)) with b.
    refine (conj H1' (conj H2' (conj _ _))); [eauto|].
    intros i j. specialize (HT i j). cbn beta iota in HT. destruct (inside m n i j).
    + exact HT.
    + now inversion HT.
Qed.

(** ** Read disturb *)

(** The cycle count is outside the model's validity. *)
Definition worn (cycles : Z) : bool := dle (d_of_Z 1) (wear cycles).

Lemma g0_oob r b k cy : g0_factor c (r <| rd_oob := b |>) k cy = (fst (g0_factor c r k cy), b || worn cy).
Proof.
  unfold g0_factor, trans_time, worn. cbn [rd_ett rd_p rd_oob RecordSet.set].
  change (rd_oob (r <| rd_oob := b |>)) with b. change (rd_ett (r <| rd_oob := b |>)) with (rd_ett r).
  change (rd_p (r <| rd_oob := b |>)) with (rd_p r).
  destruct (dle (d_of_Z 1) (wear cy)); destruct (flt _ _); cbn [fst]; now rewrite ?orb_true_r, ?orb_false_r.
Qed.

Lemma disturb_cells r reads gd cyc ia b ia' b' : mok gd -> mok cyc -> mok ia ->
  disturb c r reads gd cyc ia b = Ok (ia', b') ->
  mok ia' /\
  (forall i j, if inside (rowsN c) (colsN c) i j && (at_z gd i j =? 1) then
       exists k, reads i j = Ok k /\ at_f ia' i j = fmul (LRS c) (fst (g0_factor c r k (at_z cyc i j)))
     else at_f ia' i j = at_f ia i j) /\
  b' = b || anyN (rowsN c) (fun i => anyN (colsN c) (fun j => (at_z gd i j =? 1) && worn (at_z cyc i j))).
Proof.
  intros Hg Hc Hi H. unfold disturb in H.
  assert (H2 : forN (rowsN c) (fun i => forN (colsN c) (fun j '(ia, b) =>
      g <- get2 gd i j ;;
      if g =? 1 then
        k <- reads i j ;; cy <- get2 cyc i j ;;
        let (f, b') := g0_factor c (r <| rd_oob := b |>) k cy in
        ia <- set2 ia i j (fmul (LRS c) f) ;; Ok (ia, b')
      else Ok (ia, b))) (ia, b) = Ok (ia', b')).
  { rewrite <- H. destruct Hc as [HL HF]. rewrite HL. apply forN_ext. intros i t Hit.
    unfold get2. rewrite (get_ok cyc i []) by lia. cbn [bind]. rewrite Forall_forall in HF.
    rewrite (HF (nth i cyc [])) by (apply nth_In; lia). reflexivity. }
  clear H. rename H2 into H.
  assert (HB : forall i j t t', (i < rowsN c)%nat -> (j < colsN c)%nat -> mok (fst t) ->
     (let '(ia, b) := t in g <- get2 gd i j ;;
      if g =? 1 then
        k <- reads i j ;; cy <- get2 cyc i j ;;
        let (f, b') := g0_factor c (r <| rd_oob := b |>) k cy in
        ia <- set2 ia i j (fmul (LRS c) f) ;; Ok (ia, b')
      else Ok (ia, b)) = Ok t' ->
     if at_z gd i j =? 1 then exists k, reads i j = Ok k /\
        t' = (upd2 (fst t) i j (fmul (LRS c) (fst (g0_factor c r k (at_z cyc i j)))), snd t || worn (at_z cyc i j))
     else t' = t).
  { intros i j [x y] t' Hi1 Hj1 Hm E. cbn [fst snd] in *.
    inv_as E g G. apply (get2_inv 0 (rowsN c) (colsN c)) in G; [|assumption]. destruct G as (_ & _ & ->).
    destruct (at_z gd i j =? 1); [|now inversion E].
    inv_as E k K. inv_as E cy CY. apply (get2_inv 0 (rowsN c) (colsN c)) in CY; [|assumption]. destruct CY as (_ & _ & ->).
    rewrite g0_oob in E. inv_as E x2 X. apply (set2_inv (rowsN c) (colsN c)) in X; [|assumption].
    destruct X as (_ & _ & ->). inversion E; subst. exists k. auto. }
  pose proof (grid (S := list (list F) * bool) (fun i j '(a, _) => at_f a i j) (fun t => mok (fst t))
    (fun i j x x' => if at_z gd i j =? 1 then exists k, reads i j = Ok k /\ x' = fmul (LRS c) (fst (g0_factor c r k (at_z cyc i j)))
                     else x' = x) _ _ _ _ _ H) as HG.
  pose proof (grid_any (S := list (list F) * bool) snd (fun t => mok (fst t))
    (fun i j => (at_z gd i j =? 1) && worn (at_z cyc i j)) _ _ _ _ _ H) as HA.
  cbn [fst snd] in HG, HA. rewrite HA; clear HA.
  - destruct HG as (HI & HT).
    + intros i j t t' Hi1 Hj1 Hm E. specialize (HB i j t t' Hi1 Hj1 Hm E).
      destruct (at_z gd i j =? 1).
      * destruct HB as (k & Hk & ->). destruct t as [x y]. cbn [fst snd] in *. split; [now apply wf2_upd2|].
        split; [exists k; split; [exact Hk|]|].
        -- rewrite (at2_upd2 f0 (rowsN c) (colsN c)) by assumption. now rewrite !Nat.eqb_refl.
        -- intros a d Had. rewrite (at2_upd2 f0 (rowsN c) (colsN c)) by assumption. now rewrite Had.
      * subst t'. auto.
    + exact Hi.
    + split; [exact HI|]. split; [|reflexivity]. intros i j. specialize (HT i j).
      destruct (inside _ _ i j); cbn [andb]; [|exact HT]. exact HT.
  - intros i j t t' Hi1 Hj1 Hm E. specialize (HB i j t t' Hi1 Hj1 Hm E).
    destruct (at_z gd i j =? 1).
    + destruct HB as (k & Hk & ->). cbn [fst snd andb]. split; [now apply wf2_upd2|reflexivity].
    + subst t'. cbn [andb]. now rewrite orb_false_r.
  - exact Hi.
Qed.

(** ** Refreshing single cells *)
Definition outside (x : F) : bool :=
  flt x (fmul (fsub (f_of_Z 1) (tolerance c)) (LRS c)) || flt (fmul (fadd (f_of_Z 1) (tolerance c)) (LRS c)) x.

Ltac g2 E x := let X := fresh in inv_as E x X; apply (get2_inv 0 (rowsN c) (colsN c)) in X; [|assumption];
  destruct X as (? & ? & ->).
Ltac g2f E x := let X := fresh in inv_as E x X; apply (get2_inv f0 (rowsN c) (colsN c)) in X; [|assumption];
  destruct X as (? & ? & ->).
Ltac s2 E x := let X := fresh in inv_as E x X; apply (set2_inv (rowsN c) (colsN c)) in X; [|assumption];
  destruct X as (? & ? & ->).
Ltac a2 := rewrite ?(at2_upd2 f0 (rowsN c) (colsN c)), ?(at2_upd2 0 (rowsN c) (colsN c)),
  ?(at2_upd2 false (rowsN c) (colsN c)) by assumption.

Lemma refresh_cells_cells gd ia cyc con cnt k ia' cyc' con' cnt' k' :
  mok gd -> mok ia -> mok cyc -> mok con ->
  refresh_cells c gd ia (ia, cyc, con, cnt, k) = Ok (ia', cyc', con', cnt', k') ->
  mok ia' /\ mok cyc' /\ mok con' /\
  (fle (HRS_NOISE c) f0 = true -> fle (LRS_NOISE c) f0 = true -> k' = k) /\
  cnt' = cnt + sumZ (rowsN c) (fun i => sumZ (colsN c) (fun j =>
     if (at_z gd i j =? 1) && outside (at_f ia i j) then 1 else 0)) /\
  forall i j,
    if inside (rowsN c) (colsN c) i j && (at_z gd i j =? 1) && outside (at_f ia i j) then
      noisy c (LRS c) 1 (at_f ia' i j) /\ at_z cyc' i j = at_z cyc i j + 1 /\ at_z con' i j = 0
    else at_f ia' i j = at_f ia i j /\ at_z cyc' i j = at_z cyc i j /\ at_z con' i j = at_z con i j.
Proof.
  intros Hg Hi Hc Ho H. unfold refresh_cells in H. cbv zeta in H. rewrite (grid_rows _ _ _ _ _ Hi) in H.
  pose proof (grid (S := list (list F) * list (list Z) * list (list Z) * Z * nat)
    (fun i j '(a, y, o, _, _) => (at_f a i j, at_z y i j, at_z o i j))
    (fun '(a, y, o, _, k1) => mok a /\ mok y /\ mok o /\
       (fle (HRS_NOISE c) f0 = true -> fle (LRS_NOISE c) f0 = true -> k1 = k))
    (fun i j '(x, u, v) '(x', u', v') => if (at_z gd i j =? 1) && outside x
       then noisy c (LRS c) 1 x' /\ u' = u + 1 /\ v' = 0 else x' = x /\ u' = u /\ v' = v)
    _ _ _ _ _ H) as HG.
  (* the count looks at the cell in the running array, which is still the initial one there *)
  assert (HC : cnt' = cnt + sumZ (rowsN c) (fun i => sumZ (colsN c) (fun j =>
     if (at_z gd i j =? 1) && outside (at_f ia i j) then 1 else 0))).
  { clear HG.
    assert (HS : forall i j (st st' : list (list F) * list (list Z) * list (list Z) * Z * nat),
      (i < rowsN c)%nat -> (j < colsN c)%nat ->
      (let '(a, y, o, _, _) := st in mok a /\ mok y /\ mok o) ->
      (let '(ia, cyc, con, cnt, k) := st in
         g <- get2 gd i j ;;
         if g =? 1 then
           x <- get2 ia i j ;;
           if outside x then
             '(x, k) <- add_noise c (LRS c) 1 k ;;
             ia <- set2 ia i j x ;;
             y <- get2 cyc i j ;; cyc <- set2 cyc i j (y + 1) ;;
             con <- set2 con i j 0 ;;
             cnt <- add32 cnt 1 ;;
             Ok (ia, cyc, con, cnt, k)
           else Ok (ia, cyc, con, cnt, k)
         else Ok (ia, cyc, con, cnt, k)) = Ok st' ->
      (let '(a, y, o, _, _) := st' in mok a /\ mok y /\ mok o) /\
      (forall r s, (r =? i)%nat && (s =? j)%nat = false ->
         at_f (fst (fst (fst (fst st')))) r s = at_f (fst (fst (fst (fst st)))) r s) /\
      snd (fst st') = snd (fst st) +
         (if (at_z gd i j =? 1) && outside (at_f (fst (fst (fst (fst st)))) i j) then 1 else 0)).
    { intros i j [[[[a y] o] ct] kk] st' Hi1 Hj1 (H1 & H2 & H3) E. cbn [fst snd].
      g2 E g. destruct (at_z gd i j =? 1); [|inversion E; subst; cbn; rewrite Z.add_0_r; auto].
      g2f E x. cbn [andb]. destruct (outside (at_f a i j)); [|inversion E; subst; cbn; rewrite Z.add_0_r; auto].
      inv_as E t T. destruct t as [x1 k1]. s2 E a1. g2 E y1. s2 E y2. s2 E o1.
      inv_as E ct1 CT. apply chk32_inv in CT. destruct CT as [-> _]. inversion E; subst. cbn [fst snd].
      split; [|split; [|reflexivity]].
      - refine (conj _ (conj _ _)); apply wf2_upd2; assumption.
      - intros r s Hrs. a2. now rewrite Hrs. }
    pose proof (forN_Ok (fun q (st : list (list F) * list (list Z) * list (list Z) * Z * nat) =>
        (let '(a, y, o, _, _) := st in mok a /\ mok y /\ mok o) /\
        (forall r s, (q <= r)%nat -> at_f (fst (fst (fst (fst st)))) r s = at_f ia r s) /\
        snd (fst st) = cnt + sumZ q (fun i => sumZ (colsN c) (fun j =>
            if (at_z gd i j =? 1) && outside (at_f ia i j) then 1 else 0))) _ _ _ _ H) as HQ.
    destruct HQ as (_ & _ & HQ); [| |exact HQ].
    - cbn. rewrite Z.add_0_r. auto.
    - intros q st st' Hq (Hm & Hr & Hk) E.
      pose proof (forN_Ok (fun p (st1 : list (list F) * list (list Z) * list (list Z) * Z * nat) =>
        (let '(a, y, o, _, _) := st1 in mok a /\ mok y /\ mok o) /\
        (forall r s, (q < r)%nat \/ (q = r /\ p <= s)%nat -> at_f (fst (fst (fst (fst st1)))) r s = at_f ia r s) /\
        snd (fst st1) = snd (fst st) + sumZ p (fun j =>
            if (at_z gd q j =? 1) && outside (at_f ia q j) then 1 else 0)) _ _ _ _ E) as HP.
      destruct HP as (P1 & P2 & P3).
      + split; [exact Hm|]. split; [|cbn; lia]. intros r s Hrs. apply Hr. lia.
      + intros p st1 st2 Hp (M1 & M2 & M3) E'.
        destruct (HS q p st1 st2 Hq Hp M1 E') as (S1 & S2 & S3).
        split; [exact S1|]. split.
        * intros r s Hrs. rewrite S2 by lia. apply M2. lia.
        * rewrite S3, M3. cbn [sumZ]. rewrite (M2 q p) by lia. lia.
      + split; [exact P1|]. split.
        * intros r s Hrs. apply P2. lia.
        * rewrite P3, Hk. cbn [sumZ]. lia. }
  destruct HG as (HI & HT).
  - intros i j [[[[a y] o] ct] kk] [[[[a' y'] o'] ct'] kk'] Hi1 Hj1 (H1 & H2 & H3 & H4) E.
    g2 E g. destruct (at_z gd i j =? 1); [|inversion E; subst; cbn; auto].
    g2f E x. cbn [andb]. change (flt (at_f a i j) _ || flt _ (at_f a i j)) with (outside (at_f a i j)) in E.
    destruct (outside (at_f a i j)); [|inversion E; subst; cbn; auto].
    inv_as E t T. destruct t as [x1 k1]. s2 E a1. g2 E y1. s2 E y2. s2 E o1.
    inv_as E ct1 CT. inversion E; subst; clear E. split; [|split].
    + refine (conj _ (conj _ (conj _ _))); try (apply wf2_upd2; assumption).
      intros Z1 Z2. apply add_noise_draws in T; try assumption. rewrite T. auto.
    + a2. rewrite !Nat.eqb_refl. cbn [andb]. split; [eexists; eexists; eassumption|auto].
    + intros r s Hrs. a2. now rewrite Hrs.
  - auto.
  - destruct HI as (H1 & H2 & H3 & H4). refine (conj H1 (conj H2 (conj H3 (conj H4 (conj HC _))))).
    intros i j. specialize (HT i j). cbn beta iota in HT.
    destruct (inside (rowsN c) (colsN c) i j); cbn [andb]; [exact HT|now inversion HT].
Qed.

(** ** Counters *)
Lemma update_cycles_cells up um r r' : rdshape c r -> mok up -> mok um ->
  update_cycles up um r = Ok r' ->
  (exists p q, r' = r <| cyc_p := p |> <| cyc_m := q |>) /\ rdshape c r' /\
  forall i j, if inside (rowsN c) (colsN c) i j then
      at_z (cyc_p r') i j = at_z (cyc_p r) i j + (if at2 false up i j then 1 else 0) /\
      at_z (cyc_m r') i j = at_z (cyc_m r) i j + (if at2 false um i j then 1 else 0)
    else at_z (cyc_p r') i j = at_z (cyc_p r) i j /\ at_z (cyc_m r') i j = at_z (cyc_m r) i j.
Proof.
  intros Hr Hu Hm H. unfold update_cycles in H. cbv zeta in H.
  rewrite (grid_rows _ _ _ _ _ (rs_cp _ _ Hr)) in H. inv_as H t T. destruct t as [p q].
  inversion H; subst r'; clear H.
  pose proof (grid (S := list (list Z) * list (list Z)) (fun i j '(a, b) => (at_z a i j, at_z b i j))
    (fun '(a, b) => mok a /\ mok b)
    (fun i j '(x, y) '(x', y') => x' = x + (if at2 false up i j then 1 else 0) /\
        y' = y + (if at2 false um i j then 1 else 0)) _ _ _ _ _ T) as HG.
  destruct HG as ((H1 & H2) & HT).
  - intros i j [a b] [a' b'] Hi Hj (Ha & Hb) E.
    inv_as E p1 P1. inv_as P1 u U. apply (get2_inv false (rowsN c) (colsN c)) in U; [|assumption].
    destruct U as (_ & _ & ->). g2 P1 x. apply (set2_inv (rowsN c) (colsN c)) in P1; [|assumption].
    destruct P1 as (_ & _ & ->).
    inv_as E q1 Q1. inv_as Q1 u U. apply (get2_inv false (rowsN c) (colsN c)) in U; [|assumption].
    destruct U as (_ & _ & ->). g2 Q1 x. apply (set2_inv (rowsN c) (colsN c)) in Q1; [|assumption].
    destruct Q1 as (_ & _ & ->). inversion E; subst. split; [|split].
    + split; apply wf2_upd2; assumption.
    + a2. rewrite !Nat.eqb_refl. cbn [andb]. auto.
    + intros s d Hsd. a2. now rewrite Hsd.
  - split; apply Hr.
  - split; [eauto|]. split; [destruct Hr; constructor; assumption|].
    intros i j. specialize (HT i j). cbn beta iota in HT. destruct (inside (rowsN c) (colsN c) i j); [exact HT|].
    now inversion HT.
Qed.

Lemma reset_mask_cells prev cur u : mok prev -> mok cur -> reset_mask c prev cur = Ok u ->
  mok u /\ forall i j, at2 false u i j = inside (rowsN c) (colsN c) i j && ((at_z prev i j =? 1) && (at_z cur i j =? 0)).
Proof.
  intros Hp Hc H. unfold reset_mask in H.
  pose proof (grid (S := list (list bool)) (fun i j a => at2 false a i j) (fun a => mok a)
    (fun i j x x' => x' = ((at_z prev i j =? 1) && (at_z cur i j =? 0)) || x) _ _ _ _ _ H) as HG.
  destruct HG as (HI & HT).
  - intros i j a a' Hi Hj Ha E. g2 E x. g2 E y. destruct (_ && _).
    + apply (set2_inv (rowsN c) (colsN c)) in E; [|assumption]. destruct E as (_ & _ & ->).
      split; [now apply wf2_upd2|]. split; [a2; now rewrite !Nat.eqb_refl|]. intros s d Hsd. a2. now rewrite Hsd.
    + inversion E; subst. auto.
  - apply wf2_mat2.
  - split; [exact HI|]. intros i j. specialize (HT i j). destruct (inside (rowsN c) (colsN c) i j) eqn:Ei.
    + unfold inside in Ei. rewrite (at2_mat2 _ _ false false i j) in HT by lia. rewrite orb_false_r in HT. exact HT.
    + rewrite HT. unfold at2, mat2, inside in *. destruct (i <? rowsN c)%nat eqn:E1.
      * rewrite nth_repeat_lt by lia. rewrite nth_overflow; [reflexivity|]. rewrite repeat_length. lia.
      * rewrite (nth_overflow (repeat _ _)); [now destruct j|]. rewrite repeat_length. lia.
Qed.

Lemma lrs_mask_cells gd cnt u cnt' : mok gd -> lrs_mask c gd cnt = Ok (u, cnt') ->
  mok u /\ (forall i j, at2 false u i j = inside (rowsN c) (colsN c) i j && (at_z gd i j =? 1)) /\
  cnt' = cnt + sumZ (rowsN c) (fun i => sumZ (colsN c) (fun j => if at_z gd i j =? 1 then 1 else 0)).
Proof.
  intros Hg H. unfold lrs_mask in H.
  pose proof (grid (S := list (list bool) * Z) (fun i j '(a, _) => at2 false a i j) (fun '(a, _) => mok a)
    (fun i j x x' => x' = (at_z gd i j =? 1) || x) _ _ _ _ _ H) as HG.
  pose proof (grid_sum (S := list (list bool) * Z) snd (fun '(a, _) => mok a)
    (fun i j => if at_z gd i j =? 1 then 1 else 0) _ _ _ _ _ H) as HK.
  assert (HB : forall i j (st st' : list (list bool) * Z), (i < rowsN c)%nat -> (j < colsN c)%nat ->
     mok (fst st) ->
     (let '(u, k) := st in a <- get2 gd i j ;; if a =? 1 then u <- set2 u i j true ;; Ok (u, k + 1) else Ok (u, k)) = Ok st' ->
     if at_z gd i j =? 1 then st' = (upd2 (fst st) i j true, snd st + 1) else st' = st).
  { intros i j [a k] st' Hi Hj Ha E. cbn [fst snd] in *. g2 E x. destruct (_ =? 1); [|now inversion E].
    s2 E a1. now inversion E. }
  destruct HG as (HI & HT).
  - intros i j [a k] [a' k'] Hi Hj Ha E. specialize (HB i j (a, k) (a', k') Hi Hj Ha E). cbn [fst snd] in HB.
    destruct (_ =? 1).
    + inversion HB; subst. split; [now apply wf2_upd2|]. split; [a2; now rewrite !Nat.eqb_refl|].
      intros s d Hsd. a2. now rewrite Hsd.
    + inversion HB; subst. auto.
  - apply wf2_mat2.
  - split; [exact HI|]. split.
    + intros i j. specialize (HT i j). cbn beta iota in HT. destruct (inside (rowsN c) (colsN c) i j) eqn:Ei.
      * unfold inside in Ei. rewrite (at2_mat2 _ _ false false i j) in HT by lia. rewrite orb_false_r in HT. exact HT.
      * rewrite HT. unfold at2, mat2, inside in *. destruct (i <? rowsN c)%nat eqn:E1.
        -- rewrite nth_repeat_lt by lia. rewrite nth_overflow; [reflexivity|]. rewrite repeat_length. lia.
        -- rewrite (nth_overflow (repeat _ _)); [now destruct j|]. rewrite repeat_length. lia.
    + apply HK; [|apply wf2_mat2]. intros i j [a k] [a' k'] Hi Hj Ha E.
      specialize (HB i j (a, k) (a', k') Hi Hj Ha E). cbn [fst snd] in *. destruct (_ =? 1).
      * inversion HB; subst. split; [now apply wf2_upd2|lia].
      * inversion HB; subst. split; [assumption|lia].
Qed.

Lemma update_consecutive_cells m n r r' : rdshape c r -> update_consecutive c m n r = Ok r' ->
  (exists p q, r' = r <| con_p := p |> <| con_m := q |>) /\ rdshape c r' /\
  forall i j, let k := if inside (m * nsplit c) n i j then 1 else 0 in
    at_z (con_p r') i j = at_z (con_p r) i j + k /\ at_z (con_m r') i j = at_z (con_m r) i j + k.
Proof.
  intros Hr H. unfold update_consecutive in H. cbv zeta in H. inv_as H t T. destruct t as [p q].
  inversion H; subst r'; clear H.
  pose proof (grid (S := list (list Z) * list (list Z)) (fun i j '(a, b) => (at_z a i j, at_z b i j))
    (fun '(a, b) => mok a /\ mok b)
    (fun i j '(x, y) '(x', y') => x' = x + 1 /\ y' = y + 1) _ _ _ _ _ T) as HG.
  destruct HG as ((H1 & H2) & HT).
  - intros i j [a b] [a' b'] Hi Hj (Ha & Hb) E.
    inv_as E p1 P1. g2 P1 x. apply (set2_inv (rowsN c) (colsN c)) in P1; [|assumption].
    destruct P1 as (_ & _ & ->).
    inv_as E q1 Q1. g2 Q1 x. apply (set2_inv (rowsN c) (colsN c)) in Q1; [|assumption].
    destruct Q1 as (_ & _ & ->). inversion E; subst. split; [|split].
    + split; apply wf2_upd2; assumption.
    + a2. rewrite !Nat.eqb_refl. cbn [andb]. auto.
    + intros s d Hsd. a2. now rewrite Hsd.
  - split; apply Hr.
  - split; [eauto|]. split; [destruct Hr; constructor; assumption|].
    intros i j. specialize (HT i j). cbn beta iota in HT. destruct (inside _ _ i j); [exact HT|].
    inversion HT. cbn zeta. rewrite !Z.add_0_r. auto.
Qed.

Lemma reset_consecutive_cells r r' : rdshape c r -> reset_consecutive c r = Ok r' ->
  (exists p q, r' = r <| con_p := p |> <| con_m := q |>) /\ rdshape c r' /\
  forall i j, (i < rowsN c)%nat -> (j < colsN c)%nat -> at_z (con_p r') i j = 0 /\ at_z (con_m r') i j = 0.
Proof.
  intros Hr H. unfold reset_consecutive in H. cbv zeta in H. inv_as H t T. destruct t as [p q].
  inversion H; subst r'; clear H.
  pose proof (grid (S := list (list Z) * list (list Z)) (fun i j '(a, b) => (at_z a i j, at_z b i j))
    (fun '(a, b) => mok a /\ mok b)
    (fun i j _ '(x', y') => x' = 0 /\ y' = 0) _ _ _ _ _ T) as HG.
  destruct HG as ((H1 & H2) & HT).
  - intros i j [a b] [a' b'] Hi Hj (Ha & Hb) E. s2 E a1. s2 E b1. inversion E; subst. split; [|split].
    + split; apply wf2_upd2; assumption.
    + a2. rewrite !Nat.eqb_refl. cbn [andb]. auto.
    + intros s d Hsd. a2. now rewrite Hsd.
  - split; apply Hr.
  - split; [eauto|]. split; [destruct Hr; constructor; assumption|].
    intros i j Hi Hj. specialize (HT i j). unfold inside in HT. replace (_ && _) with true in HT by lia. exact HT.
Qed.
End C.
End Cells.
