(** Validation of weights and inputs (C51). *)
From Coq Require Import List ZArith Bool Arith Lia ZifyBool ZifyNat String.
From RecordUpdate Require Import RecordSet.
From Verif Require Import Base Lib Hoare Machine Json Config Histogram Adc ReadDisturb Parasitics
  Mapper IntMappers BnnMappers TnnMappers Crossbar Api Shape MvmShape DigMvm DigModes DigWrite
  AnaShape ConfigProofs Reach Spec DigApi Demo DigProps ApiProps NoDie StoreProps SafeProps PyProps.
Import ListNotations RecordSetNotations.
Local Open Scope Z_scope.
Local Open Scope out_scope.
Notation len := List.length.

(** Either the process ends or the result satisfies P. *)
Definition od {A} (P : A -> Prop) (x : out A) : Prop := x = Died \/ exists a, x = Ok a /\ P a.
Lemma od_Ok {A} (P : A -> Prop) a : P a -> od P (Ok a).
Proof. right. eauto. Qed.
Lemma od_bind {A B} (P : A -> Prop) (Q : B -> Prop) x k : od P x -> (forall a, P a -> od Q (k a)) -> od Q (bind x k).
Proof. intros [-> |(a & -> & Ha)] H; cbn; [now left|auto]. Qed.
Lemma od_imp {A} (P Q : A -> Prop) x : od P x -> (forall a, P a -> Q a) -> od Q x.
Proof. intros [-> |(a & -> & Ha)] H; [now left|right; eauto]. Qed.
Lemma od_forN {S} (I : nat -> S -> Prop) n body s : I 0%nat s ->
  (forall i s, (i < n)%nat -> I i s -> od (I (Datatypes.S i)) (body i s)) -> od (I n) (forN n body s).
Proof.
  intros H0 H. induction n as [|n IH]; [now apply od_Ok|]. cbn [forN]. eapply od_bind.
  - apply IH. intros i s' Hi. apply H. lia.
  - intros a Ha. apply H; auto.
Qed.

Section V.
Context {MC : Machine}.

Lemma od_put_xnn tern R C i j v gp gm : wf2 R C gp -> wf2 R C gm -> (i < R)%nat -> (j < C)%nat ->
  od (fun '(gp, gm) => wf2 R C gp /\ wf2 R C gm /\ railok tern v) (put_xnn tern i j v (gp, gm)).
Proof.
  intros H1 H2 Hi Hj. unfold put_xnn.
  destruct (v =? 1) eqn:E1; [|destruct (v =? -1) eqn:E2; [|destruct (tern && (v =? 0)) eqn:E3; [|now left]]];
    rewrite (set2_ok R C), (set2_ok R C) by auto; cbn [bind]; apply od_Ok;
    (split; [apply wf2_upd2; auto|split; [apply wf2_upd2; auto|]]);
    [left; lia|right; left; lia|right; right; apply andb_prop in E3; split; [tauto|lia]].
Qed.

Lemma od_write_xnn tern mat m n R C gp gm sw : wf2 R C gp -> wf2 R C gm -> (m <= R)%nat -> (n <= C)%nat ->
  (m <= len sw)%nat -> (m * n <= len mat)%nat ->
  (forall i j, (i < m)%nat -> (j < n)%nat -> Z.abs (nth (n * i + j) mat 0) * Z.of_nat n <= int_max) ->
  od (fun _ => forall i j, (i < m)%nat -> (j < n)%nat -> railok tern (nth (n * i + j) mat 0))
     (write_sum (put_xnn tern) mat m n (gp, gm, sw)).
Proof.
  intros Wp Wm Hm Hn Hl Hlm HB. unfold write_sum.
  set (I := fun (i : nat) (st : cells) => let '(a, b, s) := st in wf2 R C a /\ wf2 R C b /\ len s = len sw /\
      forall i' j, (i' < i)%nat -> (j < n)%nat -> railok tern (nth (n * i' + j) mat 0)).
  apply (od_imp (I m)); [|intros [[a b] s'] (_ & _ & _ & H); exact H].
  apply od_forN; [split; [auto|split; [auto|split; [auto|intros; lia]]]|].
  intros i [[a b] s0] Hi (Wa & Wb & Ls & Hr). eapply od_bind.
  - apply (od_forN (fun (j : nat) '(a, b, sm) => wf2 R C a /\ wf2 R C b /\ Z.abs sm * Z.of_nat n <= Z.of_nat j * int_max /\
      forall j', (j' < j)%nat -> railok tern (nth (n * i + j') mat 0))).
    + split; [auto|]. split; [auto|]. split; [lia|]. intros; lia.
    + intros j [[a' b'] sm] Hj (Wa' & Wb' & Hsm & Hr').
      rewrite (get_ok _ _ 0) by nia. cbn [bind].
      set (v := nth (n * i + j) mat 0). specialize (HB i j Hi Hj). fold v in HB.
      assert (Hs : Z.abs (sm + v) * Z.of_nat n <= Z.of_nat (Datatypes.S j) * int_max).
      { rewrite Nat2Z.inj_succ. pose proof (Z.abs_triangle sm v). nia. }
      assert (Hs' : Z.abs (sm + v) <= int_max).
      { assert (Z.of_nat (Datatypes.S j) * int_max <= Z.of_nat n * int_max) by (unfold int_max; nia). nia. }
      rewrite add32_ok by (unfold int_min, int_max in *; lia). cbn [bind].
      eapply od_bind; [apply (od_put_xnn tern R C); auto; lia|]. intros [a1 b1] (W1 & W2 & W3). apply od_Ok.
      split; [auto|]. split; [auto|]. split; [auto|]. intros j' Hj'.
      destruct (Nat.eq_dec j' j) as [->|]; [exact W3|apply Hr'; lia].
  - intros [[a1 b1] sm] (W1 & W2 & _ & Hr1). rewrite set_ok by lia. cbn [bind]. apply od_Ok.
    split; [auto|]. split; [auto|]. split; [now rewrite upd_length|]. intros i' j Hi' Hj.
    destruct (Nat.eq_dec i' i) as [->|]; [now apply Hr1|apply Hr; auto; lia].
Qed.

Lemma od_two_rail tern vec n vp vm : (n <= len vec)%nat -> (n <= len vp)%nat -> (n <= len vm)%nat ->
  od (fun _ => forall j, (j < n)%nat -> railok tern (nth j vec 0)) (two_rail tern vec n vp vm).
Proof.
  intros Hv Hp Hm. unfold two_rail.
  apply (od_imp (fun '(a, b) => (len a = len vp /\ len b = len vm) /\ forall j, (j < n)%nat -> railok tern (nth j vec 0)));
    [|intros [a b] [_ H]; exact H].
  apply (od_forN (fun k '(a, b) => (len a = len vp /\ len b = len vm) /\ forall j, (j < k)%nat -> railok tern (nth j vec 0))).
  - split; [auto|]. intros; lia.
  - intros j [a b] Hj ((La & Lb) & Hr). rewrite (get_ok _ _ 0) by lia. cbn [bind]. set (v := nth j vec 0) in *.
    assert (Hfin : railok tern v -> forall j', (j' < Datatypes.S j)%nat -> railok tern (nth j' vec 0)).
    { intros H j' Hj'. destruct (Nat.eq_dec j' j) as [->|]; [exact H|apply Hr; lia]. }
    destruct (v =? 1) eqn:E1; [|destruct (v =? -1) eqn:E2; [|destruct (tern && (v =? 0)) eqn:E3; [|now left]]];
      rewrite !set_ok by lia; cbn [bind]; rewrite ?set_ok by lia; cbn [bind]; apply od_Ok;
      (split; [rewrite !upd_length; auto|apply Hfin]);
      [left; lia|right; left; lia|right; right; apply andb_prop in E3; split; [tauto|lia]].
Qed.
Lemma od_two_rail_sum vec n vp vm : (n <= len vec)%nat -> (n <= len vp)%nat -> (n <= len vm)%nat ->
  (forall j, (j < n)%nat -> Z.abs (nth j vec 0) * Z.of_nat n <= int_max) ->
  od (fun _ => forall j, (j < n)%nat -> railok false (nth j vec 0)) (two_rail_sum vec n vp vm).
Proof.
  intros Hv Hp Hm HB. unfold two_rail_sum.
  apply (od_imp (fun '(a, b, sm) => (len a = len vp /\ len b = len vm /\ Z.abs sm * Z.of_nat n <= Z.of_nat n * int_max) /\ forall j, (j < n)%nat -> railok false (nth j vec 0)));
    [|intros [[a b] sm] [_ H]; exact H].
  apply (od_forN (fun k '(a, b, sm) => (len a = len vp /\ len b = len vm /\ Z.abs sm * Z.of_nat n <= Z.of_nat k * int_max) /\ forall j, (j < k)%nat -> railok false (nth j vec 0))).
  - split; [split; [auto|split; [auto|lia]]|]. intros; lia.
  - intros j [[a b] sm] Hj ((La & Lb & Hsm) & Hr). rewrite (get_ok _ _ 0) by lia. cbn [bind].
    specialize (HB j Hj). set (v := nth j vec 0) in *.
    assert (Hs : Z.abs (sm + v) * Z.of_nat n <= Z.of_nat (Datatypes.S j) * int_max).
    { rewrite Nat2Z.inj_succ. pose proof (Z.abs_triangle sm v). nia. }
    assert (Hs' : Z.abs (sm + v) <= int_max).
    { assert (Z.of_nat (Datatypes.S j) * int_max <= Z.of_nat n * int_max) by (unfold int_max; nia). nia. }
    rewrite add32_ok by (unfold int_min, int_max in *; lia). cbn [bind].
    assert (Hfin : railok false v -> forall j', (j' < Datatypes.S j)%nat -> railok false (nth j' vec 0)).
    { intros H j' Hj'. destruct (Nat.eq_dec j' j) as [->|]; [exact H|apply Hr; lia]. }
    destruct (v =? 1) eqn:E1; [|destruct (v =? -1) eqn:E2; [|now left]];
      rewrite !set_ok by lia; cbn [bind]; rewrite ?set_ok by lia; cbn [bind]; apply od_Ok;
      (split; [rewrite !upd_length; auto|apply Hfin]); [left; lia|right; left; lia].
Qed.

(** ** Rejection *)
Lemma weight_rail_inv c w : checks_weights (m_mode c) = true -> railok (is_tnn (m_mode c)) w -> weight_in c w.
Proof. intros Hi H. unfold weight_in, railok in *. destruct (m_mode c); try discriminate Hi; cbn in *; intuition congruence. Qed.
Lemma input_rail_inv c w : checks_inputs (m_mode c) = true -> railok (is_tnn (m_mode c)) w -> input_in c w.
Proof. intros Hi H. unfold input_in, railok in *. destruct (m_mode c); try discriminate Hi; cbn in *; intuition congruence. Qed.

Lemma weight_rejected : forall w mat m n i j,
  reach w -> wx w <> None -> checks_weights (m_mode (wcfg w)) = true -> dims_in (wcfg w) m n ->
  all_entries (fun v => Z.abs v * n <= int32_max) mat m n ->
  (i < Z.to_nat m)%nat -> (j < Z.to_nat n)%nat -> ~ weight_in (wcfg w) (entry mat (Z.to_nat n) i j) ->
  step w (CpyMtrx mat m n) = Died.
Proof.
  intros w mat m n i j Hr Hx Hc Hdim [Hl He] Hi Hj Hbad. apply reach_good in Hr.
  destruct (guard_ok w m n Hr Hdim) as (G1 & G2 & Hm & Hn). destruct (wx w) as [x|] eqn:Ex; [|congruence].
  pose proof (g_x _ Hr x Ex) as Hxo. pose proof (good_wf w Hr) as Hwf. pose proof (xo_shape _ _ Hxo) as Hs.
  destruct Hdim as [Dm Dn].
  assert (Hi0 : is_int (m_mode (wcfg w)) = false) by (destruct (m_mode (wcfg w)); try discriminate Hc; reflexivity).
  assert (HD : d_write (wcfg w) (xm x) mat (Z.to_nat m) (Z.to_nat n) = Died).
  { assert (OD : od (fun _ => forall i j, (i < Z.to_nat m)%nat -> (j < Z.to_nat n)%nat ->
        railok (is_tnn (m_mode (wcfg w))) (nth (Z.to_nat n * i + j) mat 0))
      (write_sum (put_xnn (is_tnn (m_mode (wcfg w)))) mat (Z.to_nat m) (Z.to_nat n) (gd_p (xm x), gd_m (xm x), sum_w (xm x)))).
    { assert (HR : (Z.to_nat m <= rowsN (wcfg w))%nat) by (pose proof (wf_ns _ Hwf Hi0); unfold rowsN; nia).
      assert (HL : (Z.to_nat m <= len (sum_w (xm x)))%nat) by (rewrite (sh_sw _ _ Hs); exact Hm).
      assert (HL2 : (Z.to_nat m * Z.to_nat n <= len mat)%nat) by nia.
      refine (od_write_xnn _ _ _ _ (rowsN (wcfg w)) (colsN (wcfg w)) _ _ _ (sh_gp _ _ Hs) (sh_gm _ _ Hs) HR Hn HL HL2 _).
      intros i' j' A B. rewrite Z2Nat.id by exact (proj1 Dn). exact (He i' j' A B). }
    destruct OD as [E|(st & _ & H)].
    - unfold d_write. cbv zeta. rewrite (sh_mode _ _ Hs). unfold d_write_diff_xnn.
      destruct (m_mode (wcfg w)); try discriminate Hc; cbn [is_tnn] in E; now rewrite E.
    - exfalso. apply Hbad. apply weight_rail_inv; auto. now apply H. }
  cbn [step]. unfold cpy_mtrx. rewrite Ex, G1, G2. cbn [bind]. unfold xwrite. cbv zeta.
  change (xm (x <|n_write := n_write x + 1|> <|n_read := 0|>)) with (xm x). rewrite HD.
  destruct (read_disturb (wcfg w)); reflexivity.
Qed.

Lemma sum64_ok vec n : (n <= len vec)%nat -> (forall j, (j < n)%nat -> Z.abs (nth j vec 0) * Z.of_nat n <= int_max) ->
  exists s, sum64 vec n = Ok s.
Proof.
  intros Hl HB. unfold sum64.
  assert (H : od (fun s => Z.abs s * Z.of_nat n <= Z.of_nat n * int_max) (forN n (fun j s => v <- get vec j ;; chk64 (s + v)) 0) /\
    nd (forN n (fun j s => v <- get vec j ;; chk64 (s + v)) 0)).
  { split.
    - apply (od_forN (fun k s => Z.abs s * Z.of_nat n <= Z.of_nat k * int_max)); [lia|].
      intros j s Hj Hs. rewrite (get_ok _ _ 0) by lia. cbn [bind]. specialize (HB j Hj).
      assert (Hs1 : Z.abs (s + nth j vec 0) * Z.of_nat n <= Z.of_nat (Datatypes.S j) * int_max).
      { rewrite Nat2Z.inj_succ. pose proof (Z.abs_triangle s (nth j vec 0)). nia. }
      assert (Hs' : Z.abs (s + nth j vec 0) <= int_max).
      { assert (Z.of_nat (Datatypes.S j) * int_max <= Z.of_nat n * int_max) by (unfold int_max; nia). nia. }
      unfold chk64, in64. replace (_ && _) with true by (unfold int_max in *; lia). now apply od_Ok.
    - nd_auto. }
  destruct H as [[H|(s & H & _)] [H1 _]]; [congruence|eauto].
Qed.

Lemma input_rejected : forall w res vec mat m n l j,
  reach w -> wx w <> None -> digital_only (wcfg w) = true -> checks_inputs (m_mode (wcfg w)) = true ->
  dims_in (wcfg w) m n -> all_first (fun v => Z.abs v * n <= int32_max) vec n ->
  (j < Z.to_nat n)%nat -> ~ input_in (wcfg w) (nth j vec 0) ->
  step w (ExeMvm res vec mat m n l) = Died.
Proof.
  intros w res vec mat m n l j Hr Hx Hd Hc Hdim [Hl He] Hj Hbad. apply reach_good in Hr.
  destruct (guard_ok w m n Hr Hdim) as (G1 & G2 & Hm & Hn). destruct (wx w) as [x|] eqn:Ex; [|congruence].
  pose proof (g_x _ Hr x Ex) as Hxo. pose proof (good_wf w Hr) as Hwf. pose proof (xo_shape _ _ Hxo) as Hs.
  destruct Hdim as [Dm Dn]. set (c := wcfg w) in *.
  assert (Hvm : has_vdm (m_mode c) = true) by (destruct (m_mode c); try discriminate Hc; reflexivity).
  assert (Lp : (Z.to_nat n <= len (vd_p (xm x)))%nat) by (rewrite (sh_vdp _ _ Hs); exact Hn).
  assert (Lm : (Z.to_nat n <= len (vd_m (xm x)))%nat) by (rewrite (sh_vdm _ _ Hs Hvm); exact Hn).
  assert (Lv : (Z.to_nat n <= len vec)%nat) by lia.
  assert (HB : forall j, (j < Z.to_nat n)%nat -> Z.abs (nth j vec 0) * Z.of_nat (Z.to_nat n) <= int_max).
  { intros j' A. rewrite Z2Nat.id by lia. now apply He. }
  assert (Nr : ~ forall j, (j < Z.to_nat n)%nat -> railok (is_tnn (m_mode c)) (nth j vec 0)).
  { intros H. apply Hbad. apply input_rail_inv; auto. }
  assert (HD : d_mvm c (xm x) res vec mat (Z.to_nat m) (Z.to_nat n) = Died).
  { pose proof (od_two_rail true vec (Z.to_nat n) (vd_p (xm x)) (vd_m (xm x)) Lv Lp Lm) as OT.
    pose proof (od_two_rail false vec (Z.to_nat n) (vd_p (xm x)) (vd_m (xm x)) Lv Lp Lm) as OB.
    pose proof (od_two_rail_sum vec (Z.to_nat n) (vd_p (xm x)) (vd_m (xm x)) Lv Lp Lm HB) as OS.
    destruct (sum64_ok vec (Z.to_nat n) Lv HB) as [s64 S64].
    unfold d_mvm. rewrite (sh_mode _ _ Hs).
    assert (W11 : m_mode c = TNN_IV \/ m_mode c = TNN_V -> split11 (SPLIT c) = true).
    { intros Hor. unfold cfg_wf in Hwf. destruct Hor as [E|E]; rewrite E in Hwf; now rewrite Hwf. }
    destruct (m_mode c) eqn:Em; try discriminate Hc; cbn [is_tnn] in Nr.
    - unfold bnn_iii_d. destruct OS as [->|(? & _ & ?)]; [reflexivity|tauto].
    - unfold bnn_iv_d. destruct OS as [->|(? & _ & ?)]; [reflexivity|tauto].
    - unfold bnn_v_d. destruct OB as [->|(? & _ & ?)]; [reflexivity|tauto].
    - unfold quad_d. destruct OB as [->|(? & _ & ?)]; [reflexivity|tauto].
    - unfold quad_d. destruct OT as [->|(? & _ & ?)]; [reflexivity|tauto].
    - unfold tnn_iv_d. rewrite W11 by auto. destruct OT as [->|(? & _ & ?)]; [reflexivity|tauto].
    - unfold tnn_v_d. rewrite W11 by auto. rewrite S64. cbn [bind]. destruct OT as [->|(? & _ & ?)]; [reflexivity|tauto]. }
  cbn [step]. unfold exe_mvm. fold c. rewrite Ex, G1, G2. cbn [bind]. unfold xmvm. cbv zeta. rewrite Hd.
  change (xm (x <|n_mvm := n_mvm x + 1|> <|n_read := n_read x + 1|>)) with (xm x). now rewrite HD.
Qed.

(** ** Acceptance of weights *)
Lemma weight_accepted : forall w mat m n,
  reach w -> wx w <> None -> digital_only (wcfg w) = true -> accepts_weights (m_mode (wcfg w)) = true ->
  dims_in (wcfg w) m n -> all_entries (fun v => Z.abs v < int32_max) mat m n ->
  exists w1, step w (CpyMtrx mat m n) = Ok (w1, RCode 0).
Proof.
  intros w mat m n Hr Hx Hd Hc Hdim [Hl He]. apply reach_good in Hr.
  destruct (guard_ok w m n Hr Hdim) as (G1 & G2 & Hm & Hn). destruct (wx w) as [x|] eqn:Ex; [|congruence].
  pose proof (g_x _ Hr x Ex) as Hxo. pose proof (good_wf w Hr) as Hwf. pose proof (xo_shape _ _ Hxo) as Hs.
  destruct Hdim as [Dm Dn]. set (c := wcfg w) in *.
  assert (Hi0 : is_int (m_mode c) = false) by (destruct (m_mode c); try discriminate Hc; reflexivity).
  assert (HR : (Z.to_nat m <= rowsN c)%nat) by (pose proof (wf_ns _ Hwf Hi0); unfold rowsN; nia).
  assert (HL : (Z.to_nat m * Z.to_nat n <= len mat)%nat) by nia.
  assert (HE : forall i j, (i < Z.to_nat m)%nat -> (j < Z.to_nat n)%nat -> Z.abs (nth (Z.to_nat n * i + j) mat 0) < int_max)
    by exact He.
  assert (HD : exists mp', d_write c (xm x) mat (Z.to_nat m) (Z.to_nat n) = Ok mp').
  { assert (OK : forall put, (forall i j gp gm, (i < Z.to_nat m)%nat -> (j < Z.to_nat n)%nat ->
       wf2 (rowsN c) (colsN c) gp -> wf2 (rowsN c) (colsN c) gm ->
       exists g', put i j (nth (Z.to_nat n * i + j) mat 0) (gp, gm) = Ok g' /\
         wf2 (rowsN c) (colsN c) (fst g') /\ wf2 (rowsN c) (colsN c) (snd g')) ->
       exists st, write_plain put mat (Z.to_nat m) (Z.to_nat n) (gd_p (xm x), gd_m (xm x), sum_w (xm x)) = Ok st).
    { intros put HP. pose proof (sh_gp _ _ Hs) as Wp0. pose proof (sh_gm _ _ Hs) as Wm0.
      unfold write_plain. generalize (gd_p (xm x)) (gd_m (xm x)) (sum_w (xm x)) Wp0 Wm0.
      set (I := fun (st : cells) => let '(a, b, s) := st in wf2 (rowsN c) (colsN c) a /\ wf2 (rowsN c) (colsN c) b).
      assert (FO : forall k body (s : cells), I s -> (forall i s, (i < k)%nat -> I s -> exists s', body i s = Ok s' /\ I s') ->
         exists s', forN k body s = Ok s' /\ I s').
      { intros k body s HI HB. induction k as [|k IH]; [cbn; eauto|]. cbn [forN].
        destruct IH as (s' & -> & I'); [intros; apply HB; auto; lia|]. cbn [bind]. apply HB; auto. }
      intros gp0 gm0 sw0 W1 W2.
      destruct (FO (Z.to_nat m) (fun i st => forN (Z.to_nat n) (fun j '(gp, gm, sw) =>
          w0 <- get mat (Z.to_nat n * i + j) ;; '(gp, gm) <- put i j w0 (gp, gm) ;; Ok (gp, gm, sw)) st) (gp0, gm0, sw0))
        as (st & E & _); [split; auto| |eauto].
      intros i st Hi HI. apply FO; auto. intros j [[a b] s] Hj (Wa & Wb).
      rewrite (get_ok _ _ 0) by nia. cbn [bind]. destruct (HP i j a b Hi Hj Wa Wb) as ([a' b'] & -> & W3 & W4).
      cbn [bind]. eexists. split; [reflexivity|]. split; auto. }
    assert (WS : forall (g : list (list Z)) i j v, (i < Z.to_nat m)%nat -> (j < Z.to_nat n)%nat -> wf2 (rowsN c) (colsN c) g ->
      set2 g i j v = Ok (upd2 g i j v) /\ wf2 (rowsN c) (colsN c) (upd2 g i j v)).
    { intros g i j v A B W. split; [apply (set2_ok (rowsN c) (colsN c)); auto; lia|apply wf2_upd2; auto; lia]. }
    assert (S1 : forall inv, exists st, d_write_single inv mat (Z.to_nat m) (Z.to_nat n) (gd_p (xm x), gd_m (xm x), sum_w (xm x)) = Ok st).
    { intros inv. apply OK. intros i j gp0 gm0 A B W1 W2. specialize (HE i j A B). unfold put_single.
      set (v := nth (Z.to_nat n * i + j) mat 0) in *.
      assert (HX : exists y, (if inv then y <- sub32 v 1 ;; Ok (Z.quot y (-2)) else y <- add32 v 1 ;; shr32 y 1) = Ok y).
      { destruct inv.
        - rewrite sub32_ok by (unfold int_min, int_max in *; lia). cbn [bind]. eauto.
        - rewrite add32_ok by (unfold int_min, int_max in *; lia). cbn [bind]. unfold shr32. cbn. eauto. }
      destruct HX as [y ->]. cbn [bind]. destruct (WS gp0 i j y A B W1) as [-> W3]. cbn [bind]. eexists. split; [reflexivity|].
      split; auto. }
    assert (S2 : m_mode c = TNN_IV \/ m_mode c = TNN_V -> forall off, exists st, d_write_tc (SPLIT c) off mat (Z.to_nat m) (Z.to_nat n) (gd_p (xm x), gd_m (xm x), sum_w (xm x)) = Ok st).
    { intros Hor off. assert (W11 : split11 (SPLIT c) = true).
      { unfold cfg_wf in Hwf. destruct Hor as [E|E]; rewrite E in Hwf; now rewrite Hwf. }
      unfold d_write_tc. rewrite W11. apply OK. intros i j gp0 gm0 A B W1 W2. specialize (HE i j A B). unfold put_tc.
      set (v := nth (Z.to_nat n * i + j) mat 0) in *.
      assert (HX : exists y, (if off then add32 v 1 else Ok v) = Ok y).
      { destruct off; [|eauto]. rewrite add32_ok by (unfold int_min, int_max in *; lia). eauto. }
      destruct HX as [y ->]. cbn [bind].
      destruct (WS gp0 i j (Z.land (u32 y) 1) A B W1) as [-> W3]. cbn [bind].
      destruct (WS gm0 i j (Z.shiftr (Z.land (u32 y) 2) 1) A B W2) as [-> W4]. cbn [bind]. eexists. split; [reflexivity|].
      split; auto. }
    unfold d_write. cbv zeta. rewrite (sh_mode _ _ Hs).
    destruct (m_mode c) eqn:Em; try discriminate Hc.
    - destruct (S1 false) as [[[? ?] ?] ->]. cbn. eauto.
    - destruct (S1 true) as [[[? ?] ?] ->]. cbn. eauto.
    - destruct (S2 (or_introl eq_refl) false) as [[[? ?] ?] ->]. cbn. eauto.
    - destruct (S2 (or_intror eq_refl) true) as [[[? ?] ?] ->]. cbn. eauto. }
  destruct HD as [mp' HD].
  assert (Hs' : shape c mp').
  { pose proof (d_write_tri anyfail harmless_any c (xm x) mat (Z.to_nat m) (Z.to_nat n) Hwf (xo_shape _ _ Hxo)) as HT.
    refine (proj1 (proj1 (tri_any _ _) (HT _) _ HD)). right. auto. }
  cbn [step]. unfold cpy_mtrx. fold c. rewrite Ex, G1, G2. cbn [bind].
  destruct (xwrite_digital c x mat (Z.to_nat m) (Z.to_nat n) (wenv w) mp' Hd Hxo Hs' HD) as (x' & -> & _). cbn [bind]. eauto.
Qed.

(** ** Acceptance of inputs *)
Local Notation gp mp i j := (at2 0 (gd_p mp) i j).
Local Notation gm mp i j := (at2 0 (gd_m mp) i j).
Section Acc.
Context (c : config) (mp : mapper) (mat res vec : list Z) (m n : nat) (B : Z)
  (Hw : cfg_wf c) (Hs : shape c mp) (Hx : is_int (m_mode c) = false)
  (Hcv : forall i j, cellv c mp i j = gp mp i j - gm mp i j)
  (Hm : (m <= Z.to_nat (M c))%nat) (Hn : (n <= colsN c)%nat) (Hr : (m <= len res)%nat) (Hl : (n <= len vec)%nat)
  (HS : stored c mp mat m n) (HB0 : 0 <= B)
  (Hv : forall j, (j < n)%nat -> Z.abs (nth j vec 0) <= B)
  (HN : Z.of_nat n * (B + 4) <= int_max)
  (HB : forall i, (i < m)%nat -> Z.abs (nth i res 0) + Z.of_nat n * (B + 4) <= int_max).

Notation D := (entry mat n).
Lemma D_cell i j : (i < m)%nat -> (j < n)%nat -> gp mp i j - gm mp i j = D i j /\ Z.abs (D i j) <= 1 /\
  0 <= gp mp i j <= 1 /\ 0 <= gm mp i j <= 1.
Proof.
  intros H1 H2. pose proof (st_ok _ _ _ _ _ HS i j H1 H2) as Hk. unfold cellok in Hk. rewrite Hx in Hk.
  rewrite <- (st_v _ _ _ _ _ HS i j H1 H2), Hcv. lia.
Qed.
Lemma Dterm (swap : bool) v i j k : (i < m)%nat -> (j < n)%nat -> (n <= len v)%nat -> Z.abs (nth j v 0) <= k -> k <= int_max ->
  dterm (if swap then gd_m mp else gd_p mp) (if swap then gd_p mp else gd_m mp) v i j =
    Ok ((if swap then -1 else 1) * D i j * nth j v 0) /\
  Z.abs ((if swap then -1 else 1) * D i j * nth j v 0) <= k.
Proof.
  intros H1 H2 H3 H4 H5. destruct (D_cell i j H1 H2) as (E & HD & C1 & C2).
  assert (HI : (i < rowsN c)%nat) by (pose proof (wf_ns c Hw Hx); unfold rowsN; nia).
  assert (HJ : (j < colsN c)%nat) by lia. assert (HJ' : (j < len v)%nat) by lia.
  assert (Bd : Z.abs ((if swap then -1 else 1) * D i j * nth j v 0) <= k) by (rewrite !Z.abs_mul; destruct swap; nia).
  split; [|exact Bd].
  destruct swap.
  - assert (E' : gm mp i j - gp mp i j = -1 * D i j) by lia.
    rewrite (dterm_ok (rowsN c) (colsN c) _ _ _ _ _ (sh_gm _ _ Hs) (sh_gp _ _ Hs) HI HJ HJ');
      rewrite E'; [reflexivity| |]; unfold int_min, int_max in *; lia.
  - assert (E' : gp mp i j - gm mp i j = 1 * D i j) by lia.
    rewrite (dterm_ok (rowsN c) (colsN c) _ _ _ _ _ (sh_gp _ _ Hs) (sh_gm _ _ Hs) HI HJ HJ');
      rewrite E'; [reflexivity| |]; unfold int_min, int_max in *; lia.
Qed.
Lemma Dsum (f : nat -> nat -> Z) i k : (i < m)%nat -> 0 <= k <= B + 4 -> (forall j, (j < n)%nat -> Z.abs (f i j) <= k) ->
  sumZ n (fun j => Z.abs (f i j)) <= Z.of_nat n * k /\ Z.abs (sumZ n (f i)) <= Z.of_nat n * k.
Proof.
  intros Hi Hk H. split; [|now apply sumZ_bound]. rewrite <- sumZ_const. apply sumZ_le. auto.
Qed.
Lemma SW i : (i < m)%nat -> keeps_sums (m_mode c) = true ->
  get (sum_w mp) i = Ok (sumZ n (D i)) /\ Z.abs (sumZ n (D i)) <= Z.of_nat n * 1.
Proof.
  intros Hi Hk. split.
  - rewrite (get_ok _ _ 0) by (rewrite (sh_sw _ _ Hs); lia). now rewrite (st_sum _ _ _ _ _ HS Hk i Hi).
  - apply sumZ_bound. intros j Hj. now apply D_cell.
Qed.

Lemma acc_half (swap : bool) (enc : Z -> out Z) (g : Z -> Z) (op : list Z -> nat -> Z -> out (list Z)) (k : Z) :
  keeps_sums (m_mode c) = true -> k = (if swap then -1 else 1) ->
  (forall a i e, (i < len a)%nat -> int_min <= nth i a 0 - k * e <= int_max -> op a i e = Ok (upd a i (nth i a 0 - k * e))) ->
  (forall v, Z.abs v <= B -> B + 4 <= int_max -> enc v = Ok (g v) /\ 2 * Z.abs (g v) <= B + 1) ->
  exists mp', (vd <- load vec n enc (vd_p mp) ;;
     r <- acc2 m n (dsel (if swap then gd_m mp else gd_p mp) (if swap then gd_p mp else gd_m mp) vd) res ;;
     r <- forN m (fun i res => sw <- get (sum_w mp) i ;; op res i sw) r ;; Ok (r, mp <| vd_p := vd |>)) =
    Ok (upto m (fun i x => x + sumZ n (fun j => D i j * (k * (2 * g (nth j vec 0) - 1)))) res, mp').
Proof.
  intros Hk Ek Hop Henc.
  assert (Hn1 : n = O \/ B + 4 <= int_max) by (destruct n; [auto|right; nia]).
  rewrite (load_ok vec n _ g); auto; [|rewrite (sh_vdp _ _ Hs); auto|intros j Hj; apply Henc; [now apply Hv|destruct Hn1; [lia|auto]]].
  cbn [bind]. set (u := upto n _ _).
  assert (Lu : (n <= len u)%nat) by (unfold u; rewrite upto_length, (sh_vdp _ _ Hs); auto).
  assert (Hu : forall j, (j < n)%nat -> nth j u 0 = g (nth j vec 0)).
  { intros j Hj. unfold u. rewrite nth_upto_lt; auto. rewrite (sh_vdp _ _ Hs). lia. }
  assert (HT : forall i j, (i < m)%nat -> (j < n)%nat ->
     dsel (if swap then gd_m mp else gd_p mp) (if swap then gd_p mp else gd_m mp) u i j = Ok (k * D i j * nth j u 0 * 2) /\
     Z.abs (k * D i j * nth j u 0 * 2) <= B + 1).
  { intros i j Hi Hj. assert (Hn2 : B + 4 <= int_max) by (destruct Hn1; [lia|auto]). destruct (Henc _ (Hv j Hj) Hn2) as [_ G].
    destruct (Dterm swap u i j (Z.abs (nth j u 0)) Hi Hj Lu (Z.le_refl _)) as [E Bd]; [rewrite Hu by auto; lia|].
    rewrite <- Ek in E, Bd. unfold dsel. rewrite E. cbn [bind]. rewrite Hu in * by auto.
    split; [|lia]. apply mul32_ok. unfold int_min, int_max in *. lia. }
  rewrite (acc2_eq m n _ (fun i j => k * D i j * nth j u 0 * 2)); auto.
  2: { intros i j Hi Hj. now apply HT. }
  2: { intros i Hi. destruct (Dsum (fun i j => k * D i j * nth j u 0 * 2) i (B + 1) Hi) as [S1 _]; [lia| |].
       - intros j Hj. now apply HT. - specialize (HB i Hi). nia. }
  cbn [bind].
  rewrite (rows_eq m _ (fun i x => x - k * sumZ n (D i)) _ 0); [|now rewrite upto_length|].
  - cbn [bind]. eexists. do 2 f_equal. rewrite upto_upto. apply (upto_ext m _ _ res 0). intros i Hi _.
    rewrite <- Z.add_sub_assoc. f_equal. rewrite <- sumZ_mul_l, <- sumZ_sub. apply sumZ_ext. intros j Hj. rewrite Hu by auto. ring.
  - intros i a Hi La Ea. destruct (SW i Hi Hk) as [-> S2]. cbn [bind]. apply Hop; [rewrite La, upto_length; lia|].
    rewrite Ea, nth_upto_lt by lia.
    destruct (Dsum (fun i j => k * D i j * nth j u 0 * 2) i (B + 1) Hi) as [_ S1]; [lia|intros j Hj; now apply HT|].
    specialize (HB i Hi). assert (Hk1 : k = 1 \/ k = -1) by (rewrite Ek; destruct swap; auto).
    assert (Z.abs (k * sumZ n (D i)) <= Z.of_nat n * 1) by (rewrite Z.abs_mul; destruct Hk1 as [-> | ->]; lia).
    unfold int_min, int_max in *. nia.
Qed.

(** A slice of the inputs loaded into the input register. *)
Lemma slice (enc : Z -> out Z) (g : Z -> Z) (vd : list Z) : len vd = colsN c ->
  (forall v, Z.abs v <= B -> B + 4 <= int_max -> enc v = Ok (g v) /\ 0 <= g v <= 1) ->
  exists u, load vec n enc vd = Ok u /\ len u = colsN c /\ (forall j, (j < n)%nat -> nth j u 0 = g (nth j vec 0)) /\
    (forall j, (j < n)%nat -> Z.abs (nth j u 0) <= 1).
Proof.
  intros Lv He. assert (Hn1 : n = O \/ B + 4 <= int_max) by (destruct n; [auto|right; nia]).
  eexists. split; [apply load_ok; auto; [rewrite Lv; auto|]|].
  - intros j Hj. apply He; [now apply Hv|destruct Hn1; [lia|auto]].
  - split; [rewrite upto_length; auto|]. split.
    + intros j Hj. rewrite nth_upto_lt; auto. lia.
    + intros j Hj. rewrite nth_upto_lt by (auto; lia). destruct (He _ (Hv j Hj)); [destruct Hn1; [lia|auto]|]. lia.
Qed.
Lemma pass0 u : (n <= len u)%nat -> (forall j, (j < n)%nat -> Z.abs (nth j u 0) <= 1) ->
  acc2 m n (dterm (gd_p mp) (gd_m mp) u) res = Ok (upto m (fun i x => x + sumZ n (fun j => D i j * nth j u 0)) res).
Proof.
  intros Lu Hu. apply acc2_eq; auto.
  - intros i j Hi Hj. destruct (Dterm false u i j 1 Hi Hj Lu (Hu j Hj)) as [E _]; [unfold int_max; lia|]. rewrite E. f_equal. ring.
  - intros i Hi. destruct (Dsum (fun i j => D i j * nth j u 0) i 1 Hi) as [S1 _]; [lia| |specialize (HB i Hi); nia].
    intros j Hj. destruct (Dterm false u i j 1 Hi Hj Lu (Hu j Hj)) as [_ E]; [unfold int_max; lia|]. lia.
Qed.
Lemma pass1_term v i j : strict_shl = false -> (i < m)%nat -> (j < n)%nat -> (n <= len v)%nat -> Z.abs (nth j v 0) <= 1 ->
  dshl1 (gd_p mp) (gd_m mp) v i j = Ok (D i j * (2 * nth j v 0)) /\ Z.abs (D i j * (2 * nth j v 0)) <= 2.
Proof.
  intros Hst Hi Hj Lv Hv1. destruct (Dterm false v i j 1 Hi Hj Lv Hv1) as [E Bd]; [unfold int_max; lia|].
  unfold dshl1. cbn [negb] in E. rewrite E. cbn [bind]. rewrite Z.mul_1_l in *. split; [|lia].
  rewrite shl32_ok; [f_equal; change (2 ^ 1) with 2; ring|lia|congruence|].
  change (2 ^ 1) with 2. unfold int_min, int_max. lia.
Qed.

Lemma acc_tnn_ii : strict_shl = false -> exists mp', tnn_ii_d c mp res vec mat m n =
  Ok (upto m (fun i x => x + sumZ n (fun j => D i j * (if nth j vec 0 =? 0 then 0 else if nth j vec 0 =? -1 then -1 else 1))) res, mp').
Proof.
  intros Hst. unfold tnn_ii_d.
  destruct (slice bit0_ii (fun v => if v =? 0 then 0 else 1) (vd_p mp)) as (u & -> & Lu & Eu & Bu); [apply Hs| |].
  { intros v _ _. split; [reflexivity|]. destruct (_ =? _); lia. }
  cbn [bind]. rewrite pass0 by (auto; lia). cbn [bind].
  destruct (slice bit1_ii (fun v => if v =? -1 then 1 else 0) u) as (w & -> & Lw & Ew & Bw); [auto| |].
  { intros v _ _. split; [reflexivity|]. destruct (_ =? _); lia. }
  cbn [bind]. assert (Lw' : (n <= len w)%nat) by lia. assert (Lu' : (n <= len u)%nat) by lia.
  rewrite (dec2_eq m n _ (fun i j => D i j * (2 * nth j w 0))).
  - cbn [bind]. eexists. do 2 f_equal. rewrite upto_upto. apply (upto_ext m _ _ res 0). intros i Hi _.
    rewrite <- Z.add_sub_assoc, <- sumZ_sub. f_equal. apply sumZ_ext. intros j Hj. rewrite Eu, Ew by auto.
    destruct (nth j vec 0 =? 0) eqn:E1, (nth j vec 0 =? -1) eqn:E2; try lia.
  - now rewrite upto_length.
  - intros i j Hi Hj. now apply pass1_term; auto.
  - intros i Hi. rewrite nth_upto_lt by lia.
    destruct (Dsum (fun i j => D i j * nth j u 0) i 1 Hi) as [_ S1]; [lia| |].
    { intros j Hj. destruct (Dterm false u i j 1 Hi Hj Lu' (Bu j Hj)) as [_ E]; [unfold int_max; lia|]. lia. }
    destruct (Dsum (fun i j => D i j * (2 * nth j w 0)) i 2 Hi) as [S2 _]; [lia| |].
    { intros j Hj. now apply pass1_term; auto. }
    specialize (HB i Hi). nia.
Qed.

Lemma bits_iii v : Z.abs v <= B -> B + 4 <= int_max ->
  bit0_iii v = Ok ((v + 1) mod 2) /\ bit1_iii v = Ok (((v + 1) / 2) mod 2).
Proof.
  intros H1 H2. unfold bit0_iii, bit1_iii. rewrite add32_ok by (unfold int_min, int_max in *; lia). cbn [bind].
  assert (E0 : u32 (v + 1) = (v + 1) mod 2 ^ 32) by reflexivity. rewrite E0.
  split; f_equal.
  - change 1 with (Z.ones 1) at 2. rewrite Z.land_ones by lia. change (2 ^ 1) with 2.
    symmetry. apply Znumtheory.Zmod_div_mod; [lia|lia|]. exists (2 ^ 31). reflexivity.
  - rewrite Z.shiftr_land. change (Z.shiftr 2 1) with (Z.ones 1). rewrite Z.land_ones, Z.shiftr_div_pow2 by lia.
    change (2 ^ 1) with 2. set (x := v + 1).
    rewrite (Z.div_mod x (2 ^ 32)) at 2 by lia. replace (2 ^ 32 * (x / 2 ^ 32) + x mod 2 ^ 32) with (x mod 2 ^ 32 + (2 ^ 31 * (x / 2 ^ 32)) * 2) by lia.
    rewrite Z.div_add by lia. replace (2 ^ 31 * (x / 2 ^ 32)) with ((2 ^ 30 * (x / 2 ^ 32)) * 2) by lia. now rewrite Z.mod_add by lia.
Qed.

Lemma acc_tnn_iii : strict_shl = false -> keeps_sums (m_mode c) = true -> exists mp', tnn_iii_d c mp res vec mat m n =
  Ok (upto m (fun i x => x + sumZ n (fun j => D i j * ((nth j vec 0 + 1) mod 4 - 1))) res, mp').
Proof.
  intros Hst Hk. unfold tnn_iii_d.
  destruct (slice bit0_iii (fun v => (v + 1) mod 2) (vd_p mp)) as (u & -> & Lu & Eu & Bu); [apply Hs| |].
  { intros v H1 H2. split; [now apply bits_iii|]. pose proof (Z.mod_pos_bound (v + 1) 2). lia. }
  cbn [bind]. rewrite pass0 by (auto; lia). cbn [bind].
  destruct (slice bit1_iii (fun v => ((v + 1) / 2) mod 2) u) as (w & -> & Lw & Ew & Bw); [auto| |].
  { intros v H1 H2. split; [now apply bits_iii|]. pose proof (Z.mod_pos_bound ((v + 1) / 2) 2). lia. }
  cbn [bind]. assert (Lw' : (n <= len w)%nat) by lia. assert (Lu' : (n <= len u)%nat) by lia.
  assert (T0 : forall i, (i < m)%nat -> Z.abs (sumZ n (fun j => D i j * nth j u 0)) <= Z.of_nat n * 1).
  { intros i Hi. destruct (Dsum (fun i j => D i j * nth j u 0) i 1 Hi) as [_ S1]; [lia| |exact S1].
    intros j Hj. destruct (Dterm false u i j 1 Hi Hj Lu' (Bu j Hj)) as [_ E]; [unfold int_max; lia|]. lia. }
  assert (T1 : forall i, (i < m)%nat -> sumZ n (fun j => Z.abs (D i j * (2 * nth j w 0))) <= Z.of_nat n * 2 /\
     Z.abs (sumZ n (fun j => D i j * (2 * nth j w 0))) <= Z.of_nat n * 2).
  { intros i Hi. apply (Dsum (fun i j => D i j * (2 * nth j w 0)) i 2 Hi); [lia|]. intros j Hj. now apply pass1_term; auto. }
  rewrite (acc2_eq m n _ (fun i j => D i j * (2 * nth j w 0))).
  - cbn [bind]. rewrite upto_upto.
    rewrite (rows_eq m _ (fun i x => x - sumZ n (D i)) _ 0); [|now rewrite upto_length|].
    + cbn [bind]. eexists. do 2 f_equal. rewrite upto_upto. apply (upto_ext m _ _ res 0). intros i Hi _.
      rewrite <- Z.add_sub_assoc, <- Z.add_assoc. f_equal. rewrite <- sumZ_sub, <- sumZ_add. apply sumZ_ext.
      intros j Hj. rewrite Eu, Ew by auto. set (x := nth j vec 0 + 1).
      assert (E4 : x mod 4 = x mod 2 + 2 * ((x / 2) mod 2)) by (change 4 with (2 * 2); rewrite Z.rem_mul_r by lia; reflexivity).
      rewrite E4. ring.
    + intros i a Hi La Ea. destruct (SW i Hi Hk) as [-> S2]. cbn [bind]. apply subto_ok; [rewrite La, upto_length; lia|].
      rewrite Ea, nth_upto_lt by lia. specialize (T0 i Hi). destruct (T1 i Hi) as [_ T2]. specialize (HB i Hi).
      assert (Z.of_nat n * 4 <= Z.of_nat n * (B + 4)) by (apply Z.mul_le_mono_nonneg_l; lia). unfold int_min, int_max in *. lia.
  - now rewrite upto_length.
  - intros i j Hi Hj. now apply pass1_term; auto.
  - intros i Hi. rewrite nth_upto_lt by lia. specialize (T0 i Hi). destruct (T1 i Hi) as [T2 _]. specialize (HB i Hi). nia.
Qed.
End Acc.


Lemma input_accepted : strict_shl = false -> forall w mat vec res mat' m n l B,
  reach w -> wx w <> None -> digital_only (wcfg w) = true -> accepts_inputs (m_mode (wcfg w)) = true ->
  dims_in (wcfg w) m n -> all_entries (weight_in (wcfg w)) mat m n ->
  0 <= B -> all_first (fun v => Z.abs v <= B) vec n -> n * (B + 4) <= int32_max ->
  all_first (fun x => Z.abs x + n * (B + 4) <= int32_max) res m ->
  exists w1 w2, step w (CpyMtrx mat m n) = Ok (w1, RCode 0) /\
    step w1 (ExeMvm res vec mat' m n l) =
      Ok (w2, RRes 0 (plus_product res mat (map (effective (m_mode (wcfg w))) vec) (Z.to_nat m) (Z.to_nat n))).
Proof.
  intros Hst w mat vec res mat' m n l B Hr Hx Hd Hc Hdim Hent HB0 [Hv1 Hv2] HN [Hr1 Hr2].
  apply reach_good in Hr. destruct (wx w) as [x|] eqn:Ex; [|congruence].
  assert (Hi0 : is_int (m_mode (wcfg w)) = false) by (destruct (m_mode (wcfg w)); try discriminate Hc; reflexivity).
  destruct (cpy_stored w x mat m n) as (w1 & E1 & G1 & C1 & _ & x1 & X1 & S1); auto.
  { intros Hi. congruence. }
  { unfold row_bound. rewrite Hi0. destruct Hdim. nia. }
  assert (Hdim1 : dims_in (wcfg w1) m n) by (now rewrite C1).
  destruct (guard_ok w1 m n G1 Hdim1) as (T1 & T2 & Hm & Hn). destruct Hdim as [Dm Dn].
  pose proof (g_x _ G1 x1 X1) as Hxo. pose proof (good_wf w1 G1) as Hwf. rewrite C1 in *.
  pose proof (xo_shape _ _ Hxo) as Hs. set (c := wcfg w) in *.
  assert (Hcv : forall i j, cellv c (xm x1) i j = at2 0 (gd_p (xm x1)) i j - at2 0 (gd_m (xm x1)) i j).
  { intros i j. unfold cellv. destruct (m_mode c); try discriminate Hc; reflexivity. }
  assert (Bn : Z.of_nat (Z.to_nat n) = n) by (apply Z2Nat.id; lia).
  assert (A1 : (Z.to_nat m <= len res)%nat) by lia. assert (A2 : (Z.to_nat n <= len vec)%nat) by lia.
  assert (A3 : Z.of_nat (Z.to_nat n) * (B + 4) <= int_max) by (rewrite Bn; exact HN).
  assert (A4 : forall i, (i < Z.to_nat m)%nat -> Z.abs (nth i res 0) + Z.of_nat (Z.to_nat n) * (B + 4) <= int_max)
    by (rewrite Bn; exact Hr2).
  assert (HD : exists mp', d_mvm c (xm x1) res vec mat' (Z.to_nat m) (Z.to_nat n) =
    Ok (upto (Z.to_nat m) (fun i y => y + sumZ (Z.to_nat n) (fun j => entry mat (Z.to_nat n) i j *
      effective (m_mode c) (nth j vec 0))) res, mp')).
  { pose proof (acc_half c (xm x1) mat res vec _ _ B Hwf Hs Hi0 Hcv Hm Hn A1 A2 S1 HB0 Hv2 A3 A4) as HA.
    pose proof (acc_tnn_ii c (xm x1) mat res vec _ _ B Hwf Hs Hi0 Hcv Hm Hn A1 A2 S1 HB0 Hv2 A3 A4) as HII.
    pose proof (acc_tnn_iii c (xm x1) mat res vec _ _ B Hwf Hs Hi0 Hcv Hm Hn A1 A2 S1 HB0 Hv2 A3 A4) as HIII.
    assert (Nz : Z.to_nat n = O \/ B + 4 <= int_max) by (destruct (Z.to_nat n); [auto|right; nia]).
    assert (Triv : B + 4 <= int_max \/ forall f, sumZ (Z.to_nat n) f = 0) by (destruct Nz as [-> |]; [right; reflexivity|left; auto]).
    unfold d_mvm. rewrite (sh_mode _ _ Hs).
    destruct (m_mode c) eqn:Em; try discriminate Hc.
    - destruct (HA false enc_i (fun v => (v + 1) / 2) subto 1 eq_refl eq_refl) as [mp' E].
      + intros a i e H1 H2. rewrite Z.mul_1_l in *. now apply subto_ok.
      + intros v Hv Hb. unfold enc_i. rewrite add32_ok by (unfold int_min, int_max in *; lia). cbn [bind].
        split; [unfold shr32; cbn [Z.leb andb Z.compare]; now rewrite Z.shiftr_div_pow2 by lia|].
        pose proof (Z.div_mod (v + 1) 2). pose proof (Z.mod_pos_bound (v + 1) 2). lia.
      + exists mp'. unfold bnn_i_d. rewrite E. do 2 f_equal. apply (upto_ext (Z.to_nat m) _ _ res 0). intros i _ _.
        f_equal. apply sumZ_ext. intros j _. cbn [effective]. ring.
    - destruct (HA true enc_ii (fun v => Z.quot (v - 1) (-2)) addto (-1) eq_refl eq_refl) as [mp' E].
      + intros a i e H1 H2. replace (nth i a 0 - -1 * e) with (nth i a 0 + e) in * by ring. now apply addto_ok.
      + intros v Hv Hb. unfold enc_ii. rewrite sub32_ok by (unfold int_min, int_max in *; lia). cbn [bind].
        split; [reflexivity|]. Z.to_euclidean_division_equations; lia.
      + exists mp'. unfold bnn_ii_d. rewrite E. do 2 f_equal. apply (upto_ext (Z.to_nat m) _ _ res 0). intros i _ _.
        f_equal. apply sumZ_ext. intros j _. cbn [effective]. ring.
    - destruct (HII Hst) as [mp' E]. exists mp'. exact E.
    - destruct (HIII Hst eq_refl) as [mp' E]. exists mp'. exact E. }
  destruct HD as [mp' HD].
  assert (EP : upto (Z.to_nat m) (fun i y => y + sumZ (Z.to_nat n) (fun j => entry mat (Z.to_nat n) i j *
      effective (m_mode c) (nth j vec 0))) res = plus_product res mat (map (effective (m_mode c)) vec) (Z.to_nat m) (Z.to_nat n)).
  { rewrite <- plus_product_upto. apply (upto_ext (Z.to_nat m) _ _ res 0). intros i _ _. f_equal. apply sumZ_ext. intros j Hj.
    unfold entry. f_equal. rewrite (nth_indep (map _ vec) 0 (effective (m_mode c) 0)) by (rewrite map_length; lia).
    now rewrite map_nth. }
  rewrite EP in HD.
  destruct (xmvm_digital c x1 res vec mat' _ _ l (wenv w1) _ _ Hd HD) as (x' & Ex').
  exists w1. eexists. split; [exact E1|]. cbn [step]. unfold exe_mvm. rewrite X1, C1, T1, T2. cbn [bind]. rewrite Ex'. reflexivity.
Qed.
End V.

(** ** Witnesses *)
Definition outcome {A} (o : out A) : Z := match o with Ok _ => 0 | UB _ => 1 | Died => 2 | Threw => 3 end.
Lemma C51_hyps :
  Forall (fun mode => outcome (step (ex_xnn mode) (CpyMtrx [1; 5] 1 2)) = 2 /\ checks_weights (m_mode (wcfg (ex_xnn mode))) = true)
    ["BNN_I"; "BNN_II"; "BNN_V"; "BNN_VI"; "TNN_I"; "TNN_II"; "TNN_III"]%string /\
  Forall (fun mode => outcome (step (ex_xnn mode) (CpyMtrx [1; 5] 1 2)) = 0 /\ accepts_weights (m_mode (wcfg (ex_xnn mode))) = true)
    ["BNN_III"; "BNN_IV"; "TNN_IV"; "TNN_V"]%string /\
  Forall (fun mode => outcome (step (ex_xnn mode) (ExeMvm [0] [1; 5] [] 1 2 ""%string)) = 2 /\ checks_inputs (m_mode (wcfg (ex_xnn mode))) = true)
    ["BNN_III"; "BNN_IV"; "BNN_V"; "BNN_VI"; "TNN_I"; "TNN_IV"; "TNN_V"]%string /\
  Forall (fun '(mode, r) => answers (ex_xnn mode) [CpyMtrx [1; 1] 1 2; ExeMvm [0] [1; 4] [] 1 2 ""%string] = Some [[0]; [0; r]] /\
      accepts_inputs (m_mode (wcfg (ex_xnn mode))) = true /\ r = 1 + effective (m_mode (wcfg (ex_xnn mode))) 4)
    [("BNN_I", 4); ("BNN_II", 4); ("TNN_II", 2); ("TNN_III", 1)]%string.
Proof. repeat apply conj; repeat constructor; vm_compute; reflexivity. Qed.

Lemma effective_id {MC : Machine} c v : accepts_inputs (m_mode c) = true -> input_in c v -> effective (m_mode c) v = v.
Proof. unfold input_in. destruct (m_mode c); try discriminate; intros _ H; intuition subst; reflexivity. Qed.

Lemma strict_exact' {MC : Machine} : forall w x mat vec res mat' m n l,
  In (m_mode (wcfg w)) [I_UINT_W_OFFS; BNN_I; BNN_II; BNN_III; BNN_IV; BNN_V; BNN_VI; TNN_I] ->
  reach w -> wx w = Some x -> digital_only (wcfg w) = true ->
  split_covers (wcfg w) -> widths_fit (wcfg w) -> dims_in (wcfg w) m n ->
  all_entries (weight_in (wcfg w)) mat m n -> all_first (input_in (wcfg w)) vec n ->
  room (wcfg w) res m n ->
  exists w1 w2,
    step w (CpyMtrx mat m n) = Ok (w1, RCode 0) /\
    step w1 (ExeMvm res vec mat' m n l) =
      Ok (w2, RRes 0 (plus_product res mat vec (Z.to_nat m) (Z.to_nat n))).
Proof.
  intros w x mat vec res mat' m n l Hin. apply strict_exact.
  cbn [In] in Hin. destruct Hin as [E|[E|[E|[E|[E|[E|[E|[E|[]]]]]]]]]; now rewrite <- E.
Qed.

Lemma C53_hyps : reach (ex_strict "I_UINT_W_OFFS") /\ wx (ex_strict "I_UINT_W_OFFS") <> None /\ @strict_shl strict = true /\
  answers (ex_strict "I_UINT_W_OFFS") [CpyMtrx [-1] 1 1; ExeMvm [0] [1] [] 1 1 ""%string] = Some [[0]; [0; -1]].
Proof.
  split; [apply after_reach_b; vm_compute; reflexivity|]. split; [apply has_xbar_some; vm_compute; reflexivity|].
  split; [reflexivity|vm_compute; reflexivity].
Qed.

Lemma py_tnn_iv : exists (w : @world toy), reach w /\ wx w <> None /\ digital_only (wcfg w) = true /\ M (wcfg w) = 3 /\
  answers w [ExeMvm [0; 0; 0; 0] [1] [] 4 1 ""%string] = Some [[-1; 0; 0; 0; 0]] /\
  answers w [PyMvm [0; 0; 0; 0] [1] [] 4 1] = Some [[0; 1; 1; 0; 0]].
Proof.
  exists (ex_xnn "TNN_IV").
  split; [apply after_reach_b; vm_compute; reflexivity|]. split; [apply has_xbar_some; vm_compute; reflexivity|].
  split; [vm_compute; reflexivity|]. split; [vm_compute; reflexivity|]. split; vm_compute; reflexivity.
Qed.

Lemma C54_hyps :
  reach (ex01 "I_TC_W_DIFF") /\ wx (ex01 "I_TC_W_DIFF") <> None /\ digital_only (wcfg (ex01 "I_TC_W_DIFF")) = true /\
  SPLIT (wcfg (ex01 "I_TC_W_DIFF")) <> [] /\ N (wcfg (ex01 "I_TC_W_DIFF")) < 5 /\
  outcome (step (ex01 "I_TC_W_DIFF") (PyMvm [0] [1; 1; 1; 1; 1] [] 1 5)) = 1 /\
  outcome (step (ex01 "I_TC_W_DIFF") (PyMvm [0; 0; 0; 0] [1] [] 4 1)) = 1 /\
  answers (ex01 "I_TC_W_DIFF") [ExeMvm [0; 0; 0; 0] [1] [] 4 1 ""%string] = Some [[-1; 0; 0; 0; 0]].
Proof.
  split; [apply after_reach_b; vm_compute; reflexivity|]. split; [apply has_xbar_some; vm_compute; reflexivity|].
  split; [vm_compute; reflexivity|]. split; [vm_compute; discriminate|]. split; [vm_compute; reflexivity|].
  split; [vm_compute; reflexivity|]. split; vm_compute; reflexivity.
Qed.
