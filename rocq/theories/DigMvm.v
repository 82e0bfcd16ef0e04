(** Value computed by every digital MVM as a function of the stored cells, the stored row
    sums, the inputs and the accumulator. *)
From Coq Require Import List ZArith Bool Arith Lia ZifyBool ZifyNat String.
From RecordUpdate Require Import RecordSet.
From Verif Require Import Base Lib Hoare Machine Json Config Histogram Adc ReadDisturb Parasitics
  Mapper IntMappers BnnMappers TnnMappers Shape MvmShape.
Import ListNotations RecordSetNotations.
Local Open Scope Z_scope.
Local Open Scope out_scope.

Ltac Zify.zify_post_hook ::= idtac.

Section Dig.
Context {MC : Machine}.
Notation len := List.length.
Notation MM c := (Z.to_nat (M c)).

Lemma nth_upto_lt {A} m f (l : list A) i d : (i < m)%nat -> (i < len l)%nat ->
  nth i (upto m f l) d = f i (nth i l d).
Proof. intros H1 H2. rewrite nth_upto by auto. now replace (i <? m)%nat with true by lia. Qed.

(** ** Loops over the input vector *)
Lemma load_ok vec n f g vd : (n <= len vec)%nat -> (n <= len vd)%nat ->
  (forall j, (j < n)%nat -> f (nth j vec 0) = Ok (g (nth j vec 0))) ->
  load vec n f vd = Ok (upto n (fun j _ => g (nth j vec 0)) vd).
Proof.
  intros H1 H2 Hf. unfold load. apply (rows_eq n _ _ vd 0); auto. intros i a Hi Ha _.
  rewrite (get_ok vec i 0) by lia. cbn [bind]. rewrite Hf by auto. cbn [bind].
  now rewrite set_ok by lia.
Qed.

Definition posp (v : Z) : Z := Z.max v 0.
Definition negp (v : Z) : Z := Z.max (- v) 0.
Lemma pos_neg v : posp v - negp v = v.
Proof. unfold posp, negp. lia. Qed.

Lemma pair_loop (body : nat -> list Z * list Z -> out (list Z * list Z)) (f g : nat -> Z) n vp vm :
  (n <= len vp)%nat -> (n <= len vm)%nat ->
  (forall j a b, (j < n)%nat -> len a = len vp -> len b = len vm ->
     body j (a, b) = Ok (upd a j (f j), upd b j (g j))) ->
  forN n body (vp, vm) = Ok (upto n (fun j _ => f j) vp, upto n (fun j _ => g j) vm).
Proof.
  intros H1 H2 H.
  rewrite <- (upto_0 (fun j _ => f j) vp) at 1. rewrite <- (upto_0 (fun j _ => g j) vm) at 1.
  apply (forN_eq (fun k => (upto k (fun j _ => f j) vp, upto k (fun j _ => g j) vm))).
  intros k Hk. rewrite H by (rewrite ?upto_length; auto).
  rewrite (upto_S k _ vp 0), (upto_S k _ vm 0) by lia. reflexivity.
Qed.

Lemma split_pm_ok vec n vp vm : (n <= len vec)%nat -> (n <= len vp)%nat -> (n <= len vm)%nat ->
  (forall j, (j < n)%nat -> - int_max <= nth j vec 0 <= int_max) ->
  split_pm vec n vp vm =
  Ok (upto n (fun j _ => posp (nth j vec 0)) vp, upto n (fun j _ => negp (nth j vec 0)) vm).
Proof.
  intros H1 H2 H3 Hv. unfold split_pm. apply pair_loop; auto.
  intros j a b Hj Ha Hb. rewrite (get_ok vec j 0) by lia. cbn [bind].
  specialize (Hv j Hj). unfold posp, negp. destruct (0 <=? nth j vec 0) eqn:E.
  - rewrite set_ok by lia. cbn [bind]. rewrite set_ok by lia. cbn [bind].
    rewrite Z.max_l, Z.max_r by lia. reflexivity.
  - rewrite set_ok by lia. cbn [bind].
    rewrite neg32_ok by (unfold int_min, int_max in *; lia). cbn [bind].
    rewrite set_ok by lia. cbn [bind]. rewrite Z.max_r, Z.max_l by lia. reflexivity.
Qed.

Definition bin (v : Z) : Prop := v = 1 \/ v = -1.
Definition ter (v : Z) : Prop := v = 1 \/ v = -1 \/ v = 0.
Lemma bin_ter v : bin v -> ter v.
Proof. unfold bin, ter. tauto. Qed.

Lemma two_rail_ok (tern : bool) vec n vp vm :
  (n <= len vec)%nat -> (n <= len vp)%nat -> (n <= len vm)%nat ->
  (forall j, (j < n)%nat -> (if tern then ter else bin) (nth j vec 0)) ->
  two_rail tern vec n vp vm =
  Ok (upto n (fun j _ => posp (nth j vec 0)) vp, upto n (fun j _ => negp (nth j vec 0)) vm).
Proof.
  intros H1 H2 H3 Hv. unfold two_rail. apply pair_loop; auto.
  intros j a b Hj Ha Hb. rewrite (get_ok vec j 0) by lia. cbn [bind].
  specialize (Hv j Hj). unfold posp, negp.
  assert (Ht : nth j vec 0 = 1 \/ nth j vec 0 = -1 \/ (tern = true /\ nth j vec 0 = 0)).
  { destruct tern; unfold bin, ter in Hv; tauto. }
  destruct Ht as [E|[E|[-> E]]]; rewrite E; cbn [Z.eqb Pos.eqb andb];
    rewrite ?set_ok by lia; cbn [bind]; rewrite ?set_ok by lia; reflexivity.
Qed.

Lemma two_rail_sum_ok vec n vp vm :
  (n <= len vec)%nat -> (n <= len vp)%nat -> (n <= len vm)%nat -> Z.of_nat n <= int_max ->
  (forall j, (j < n)%nat -> bin (nth j vec 0)) ->
  two_rail_sum vec n vp vm =
  Ok (upto n (fun j _ => posp (nth j vec 0)) vp, upto n (fun j _ => negp (nth j vec 0)) vm,
      sumZ n (fun j => nth j vec 0)).
Proof.
  intros H1 H2 H3 Hn Hv. unfold two_rail_sum.
  rewrite <- (upto_0 (fun j _ => posp (nth j vec 0)) vp) at 1.
  rewrite <- (upto_0 (fun j _ => negp (nth j vec 0)) vm) at 1.
  apply (forN_eq (fun k => (upto k (fun j _ => posp (nth j vec 0)) vp,
                            upto k (fun j _ => negp (nth j vec 0)) vm,
                            sumZ k (fun j => nth j vec 0)))).
  intros k Hk. rewrite (get_ok vec k 0) by lia. cbn [bind].
  assert (HB : Z.abs (sumZ (S k) (fun j => nth j vec 0)) <= Z.of_nat (S k) * 1).
  { apply sumZ_bound. intros i Hi. destruct (Hv i) as [-> | ->]; lia. }
  cbn [sumZ] in HB |- *.
  rewrite add32_ok by (unfold int_min, int_max in *; lia). cbn [bind].
  rewrite (upto_S k _ vp 0), (upto_S k _ vm 0) by lia. unfold posp at 2, negp at 2.
  destruct (Hv k Hk) as [E|E]; rewrite E; cbn [Z.eqb Pos.eqb];
    rewrite ?set_ok by (rewrite ?upto_length; lia); cbn [bind];
    rewrite ?set_ok by (rewrite ?upto_length; lia); reflexivity.
Qed.

Lemma sum64_ok vec n b : (n <= len vec)%nat -> Z.of_nat n * b <= 2 ^ 62 ->
  (forall j, (j < n)%nat -> Z.abs (nth j vec 0) <= b) ->
  sum64 vec n = Ok (sumZ n (fun j => nth j vec 0)).
Proof.
  intros H1 Hb Hv. unfold sum64.
  change 0 with (sumZ 0 (fun j => nth j vec 0)) at 2.
  apply (forN_eq (fun k => sumZ k (fun j => nth j vec 0))).
  intros k Hk. rewrite (get_ok vec k 0) by lia. cbn [bind].
  assert (HB : Z.abs (sumZ (S k) (fun j => nth j vec 0)) <= Z.of_nat (S k) * b).
  { apply sumZ_bound. intros i Hi. apply Hv. lia. }
  assert (Z.of_nat (S k) * b <= Z.of_nat n * b).
  { apply Z.mul_le_mono_nonneg_r; [|lia]. specialize (Hv k Hk). lia. }
  cbn [sumZ] in HB. rewrite chk64_ok by lia. reflexivity.
Qed.

(** ** Terms *)
Lemma dterm_ok R C a b v t j : wf2 R C a -> wf2 R C b -> (t < R)%nat -> (j < C)%nat ->
  (j < len v)%nat ->
  int_min <= at2 0 a t j - at2 0 b t j <= int_max ->
  int_min <= (at2 0 a t j - at2 0 b t j) * nth j v 0 <= int_max ->
  dterm a b v t j = Ok ((at2 0 a t j - at2 0 b t j) * nth j v 0).
Proof.
  intros Ha Hb Ht Hj Hv H1 H2. unfold dterm.
  rewrite (get2_ok 0 R C a) by auto. cbn [bind]. rewrite (get2_ok 0 R C b) by auto. cbn [bind].
  rewrite sub32_ok by auto. cbn [bind]. rewrite (get_ok v j 0) by auto. cbn [bind].
  now apply mul32_ok.
Qed.
Lemma dterm1_ok R C a v t j : wf2 R C a -> (t < R)%nat -> (j < C)%nat -> (j < len v)%nat ->
  int_min <= at2 0 a t j * nth j v 0 <= int_max ->
  dterm1 a v t j = Ok (at2 0 a t j * nth j v 0).
Proof.
  intros Ha Ht Hj Hv H2. unfold dterm1.
  rewrite (get2_ok 0 R C a) by auto. cbn [bind]. rewrite (get_ok v j 0) by auto. cbn [bind].
  now apply mul32_ok.
Qed.

(** ** Integer core: partial sums, then shift and add *)
Lemma sumZ_ge n f i : (forall k, (k < n)%nat -> 0 <= f k) -> (i < n)%nat -> f i <= sumZ n f.
Proof.
  intros H Hi. induction n as [|n IH]; [lia|]. cbn [sumZ].
  assert (0 <= sumZ n f) by (apply sumZ_nonneg; intros; apply H; lia).
  assert (0 <= f n) by (apply H; lia).
  destruct (Nat.eq_dec i n) as [->|]; [lia|]. assert (f i <= sumZ n f); [|lia].
  apply IH; [intros; apply H; lia|lia].
Qed.

Lemma acc_fill R n term tv arr : (R <= len arr)%nat ->
  (forall i j, (i < R)%nat -> (j < n)%nat -> term i j = Ok (tv i j)) ->
  (forall i, (i < R)%nat -> sumZ n (fun j => Z.abs (tv i j)) <= int_max) ->
  exists t, acc2 R n term (fill arr 0) = Ok t /\ len t = len arr /\
    forall r, (r < R)%nat -> nth r t 0 = sumZ n (tv r).
Proof.
  intros H1 Ht Hb. eexists. split; [|split].
  - apply acc2_eq; eauto.
    + rewrite fill_length; auto.
    + intros i Hi. rewrite nth_fill by lia. specialize (Hb i Hi). lia.
  - now rewrite upto_length, fill_length.
  - intros r Hr. rewrite nth_upto_lt by (rewrite ?fill_length; lia).
    rewrite nth_fill by lia. lia.
Qed.

Section Core.
Context (ns m n : nat) (shs : list Z) (D : nat -> nat -> Z) (v : nat -> Z) (Wm V : Z).
Notation sh s := (nth s shs 0).
Context (Hlen : len shs = ns)
  (Hsh : forall s, (s < ns)%nat -> 0 <= sh s <= 31)
  (HV : forall j, (j < n)%nat -> Z.abs (v j) <= V)
  (HW : forall i j, (i < m)%nat -> (j < n)%nat ->
     sumZ ns (fun s => Z.abs (D (i * ns + s)%nat j) * 2 ^ sh s) <= Wm)
  (Hn : Z.of_nat n * (Wm * V) <= int_max).

Definition val (i j : nat) : Z := sumZ ns (fun s => D (i * ns + s)%nat j * 2 ^ sh s).

Lemma core_D i s j : (i < m)%nat -> (s < ns)%nat -> (j < n)%nat ->
  Z.abs (D (i * ns + s)%nat j) * 2 ^ sh s <= Wm /\ Z.abs (D (i * ns + s)%nat j) <= Wm.
Proof.
  intros Hi Hs Hj. specialize (HW i j Hi Hj). specialize (Hsh s Hs).
  assert (0 < 2 ^ sh s) by (apply Z.pow_pos_nonneg; lia).
  assert (H1 : Z.abs (D (i * ns + s)%nat j) * 2 ^ sh s <= Wm); [|split; [auto|nia]].
  etransitivity; [|exact HW].
  apply (sumZ_ge ns (fun s => Z.abs (D (i * ns + s)%nat j) * 2 ^ sh s)); auto.
  intros k Hk. apply Z.mul_nonneg_nonneg; [lia|]. apply Z.pow_nonneg. lia.
Qed.

Lemma core_term r j : (r < m * ns)%nat -> (j < n)%nat ->
  Z.abs (D r j) <= Wm /\ Z.abs (D r j * v j) <= Wm * V.
Proof.
  intros Hr Hj. assert (ns <> 0)%nat by lia.
  pose proof (Nat.div_mod r ns ltac:(auto)) as E.
  assert (Hi : (r / ns < m)%nat) by (apply Nat.div_lt_upper_bound; lia).
  pose proof (Nat.mod_upper_bound r ns ltac:(auto)) as Hs.
  destruct (core_D (r / ns) (r mod ns) j Hi Hs Hj) as [_ H1].
  replace (r / ns * ns + r mod ns)%nat with r in H1 by lia.
  split; [auto|]. rewrite Z.abs_mul. apply Z.mul_le_mono_nonneg; try lia. now apply HV.
Qed.

Lemma core_row r : (r < m * ns)%nat -> sumZ n (fun j => Z.abs (D r j * v j)) <= int_max.
Proof.
  intros Hr. etransitivity; [|exact Hn]. rewrite <- sumZ_const. apply sumZ_le.
  intros j Hj. now apply core_term.
Qed.

Lemma core_sum i : (i < m)%nat ->
  sumZ ns (fun s => Z.abs (sumZ n (fun j => D (i * ns + s)%nat j * v j) * 2 ^ sh s)) <=
  Z.of_nat n * (Wm * V).
Proof.
  intros Hi.
  transitivity (sumZ ns (fun s => sumZ n (fun j => Z.abs (D (i * ns + s)%nat j) * 2 ^ sh s * Z.abs (v j)))).
  - apply sumZ_le. intros s Hs. specialize (Hsh s Hs).
    assert (0 < 2 ^ sh s) by (apply Z.pow_pos_nonneg; lia).
    rewrite Z.abs_mul, (Z.abs_eq (2 ^ _)) by lia.
    etransitivity; [apply Z.mul_le_mono_nonneg_r; [lia|apply sumZ_abs]|].
    rewrite <- sumZ_mul_r. apply sumZ_le. intros j Hj. rewrite Z.abs_mul. nia.
  - rewrite sumZ_swap. rewrite <- sumZ_const. apply sumZ_le. intros j Hj.
    rewrite sumZ_mul_r. specialize (HW i j Hi Hj). specialize (HV j Hj).
    apply Z.mul_le_mono_nonneg; try lia. apply sumZ_nonneg. intros s Hs.
    apply Z.mul_nonneg_nonneg; [lia|]. apply Z.pow_nonneg. lia.
Qed.

Lemma core_val i : sumZ ns (fun s => sumZ n (fun j => D (i * ns + s)%nat j * v j) * 2 ^ sh s) =
  sumZ n (fun j => val i j * v j).
Proof.
  unfold val. transitivity (sumZ ns (fun s => sumZ n (fun j => D (i * ns + s)%nat j * 2 ^ sh s * v j))).
  - apply sumZ_ext. intros s Hs. rewrite <- sumZ_mul_r. apply sumZ_ext. intros; ring.
  - rewrite sumZ_swap. apply sumZ_ext. intros j Hj. now rewrite sumZ_mul_r.
Qed.

Context (t : list Z)
  (Ht : (m * ns <= len t)%nat)
  (Htv : forall r, (r < m * ns)%nat -> nth r t 0 = sumZ n (fun j => D r j * v j))
  (Hst : strict_shl = true -> forall r j, (r < m * ns)%nat -> (j < n)%nat -> 0 <= D r j * v j).

Lemma core_shl i s : (i < m)%nat -> (s < ns)%nat ->
  (x <- get t (i * ns + s) ;; sh <- get shs s ;; shl32 strict_shl x sh) =
  Ok (sumZ n (fun j => D (i * ns + s)%nat j * v j) * 2 ^ sh s).
Proof.
  intros Hi Hs. rewrite (get_ok t _ 0) by nia. cbn [bind]. rewrite (get_ok shs _ 0) by lia. cbn [bind].
  rewrite Htv by nia.
  pose proof (core_sum i Hi) as HB.
  assert (Z.abs (sumZ n (fun j => D (i * ns + s)%nat j * v j) * 2 ^ sh s) <= Z.of_nat n * (Wm * V)).
  { etransitivity; [|exact HB].
    apply (sumZ_ge ns (fun s => Z.abs (sumZ n (fun j => D (i * ns + s)%nat j * v j) * 2 ^ sh s))); auto.
    intros; lia. }
  apply shl32_ok; [auto| |unfold int_min, int_max in *; lia].
  intros E. apply sumZ_nonneg. intros j Hj. apply Hst; auto. nia.
Qed.

Lemma core_shift_add res : (m <= len res)%nat ->
  (forall i, (i < m)%nat -> Z.abs (nth i res 0) + Z.of_nat n * (Wm * V) <= int_max) ->
  shift_add ns m shs t res = Ok (upto m (fun i x => x + sumZ n (fun j => val i j * v j)) res).
Proof.
  intros Hr HB. unfold shift_add.
  erewrite acc2_eq; [f_equal| | |].
  2: exact Hr.
  2: { intros i s Hi Hs. now apply core_shl. }
  2: { intros i Hi. cbn beta. specialize (HB i Hi). pose proof (core_sum i Hi). lia. }
  apply (upto_ext m _ _ res 0). intros i Hi _. cbn beta. now rewrite core_val.
Qed.

(** The same with a correction applied to each row after the additions. *)
Lemma core_shift_corr (corr : nat -> list Z -> out (list Z)) (cv : nat -> Z) res :
  (m <= len res)%nat ->
  (forall i, (i < m)%nat -> Z.abs (nth i res 0) + Z.of_nat n * (Wm * V) <= int_max) ->
  (forall i a, (i < m)%nat -> len a = len res ->
     nth i a 0 = nth i res 0 + sumZ n (fun j => val i j * v j) ->
     corr i a = Ok (upd a i (nth i a 0 + cv i))) ->
  forN m (fun i res =>
      res <- forN ns (fun s res =>
          x <- get t (i * ns + s) ;; sh <- get shs s ;;
          y <- shl32 strict_shl x sh ;; addto res i y) res ;;
      corr i res) res
  = Ok (upto m (fun i x => x + sumZ n (fun j => val i j * v j) + cv i) res).
Proof.
  intros Hr HB Hc.
  apply (rows_eq m _ (fun i x => x + sumZ n (fun j => val i j * v j) + cv i) res 0); auto.
  intros i a Hi Ha Hn1.
  assert (E : forN ns (fun s res =>
          x <- get t (i * ns + s) ;; sh <- get shs s ;;
          y <- shl32 strict_shl x sh ;; addto res i y) a =
          Ok (upd a i (nth i a 0 + sumZ n (fun j => val i j * v j)))).
  { rewrite <- core_val.
    rewrite <- (acc_entry ns (fun s => x <- get t (i * ns + s) ;; sh <- get shs s ;; shl32 strict_shl x sh)
      (fun s => sumZ n (fun j => D (i * ns + s)%nat j * v j) * 2 ^ sh s) i a).
    - apply forN_ext. intros s b Hs. now destruct (get t (i * ns + s)); cbn [bind]; [destruct (get shs s)| | |].
    - lia.
    - intros s Hs. now apply core_shl.
    - specialize (HB i Hi). pose proof (core_sum i Hi). rewrite Hn1. lia. }
  rewrite E. cbn [bind]. rewrite Hc; [|auto|rewrite upd_length; auto|].
  - rewrite upd_upd. do 2 f_equal. rewrite nth_upd by lia. rewrite Nat.eqb_refl. reflexivity.
  - rewrite nth_upd by lia. rewrite Nat.eqb_refl. now rewrite Hn1.
Qed.
End Core.
End Dig.
