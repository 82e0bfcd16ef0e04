(** C43, C44, C67: what the parasitic solver is given and when its accesses stay in bounds. *)
From Coq Require Import String List ZArith Bool Arith Lia ZifyBool ZifyNat.
From RecordUpdate Require Import RecordSet.
From Verif Require Import Base Lib Hoare Machine Json Config Histogram Adc ReadDisturb Parasitics
  Mapper IntMappers BnnMappers TnnMappers Crossbar Api ParSpec ParCode Shape MvmShape DigMvm DigModes DigWrite AnaShape ConfigProofs
  Reach Cells Spec DigApi Invar StepFacts StoreProps SafeProps ValidProps CfgProps NoiseProps AnaWrite AnaSpec AnaApi Twin KinSpec Kin KinProps ParMvm.
Import ListNotations RecordSetNotations.
Local Open Scope Z_scope.
Local Open Scope out_scope.
Ltac Zify.zify_post_hook ::= idtac.

Section PP.
Context {MC : Machine}.
Notation len := List.length.
Notation MM c := (Z.to_nat (M c)).
Notation at_f := (at2 f0).
Notation at_z := (at2 0).

(** ** The solver of a crossbar *)
Lemma ss_refl p : same_solver p p.
Proof. repeat split. Qed.
Lemma ss_trans a b d : same_solver a b -> same_solver b d -> same_solver a d.
Proof. unfold same_solver. intuition congruence. Qed.
Definition kept (po po' : option psolver) : Prop :=
  match po' with None => True | Some p' => exists p, po = Some p /\ same_solver p p' end.
Lemma kept_refl po : kept po po.
Proof. destruct po as [p|]; cbn; [|exact I]. exists p. split; [reflexivity|apply ss_refl]. Qed.
Lemma kept_eq po po' : po' = po -> kept po po'.
Proof. intros ->. apply kept_refl. Qed.
Lemma kept_trans a b d : kept a b -> kept b d -> kept a d.
Proof.
  destruct d as [p|]; cbn; [|auto]. intros H (q & -> & S1). destruct H as (r & -> & S2).
  exists r. split; [reflexivity|]. eapply ss_trans; eauto.
Qed.
Lemma set_conductance_kept c iap iam m n po po' : set_conductance c iap iam m n po = Ok po' -> kept po po'.
Proof.
  unfold set_conductance. destruct po as [p|]; [|discriminate]. intros H.
  inv_as H gp A1. inv_as H gm A2. inv_as H w A3. inv_as H ga A4. inv_as H r0 A5.
  inversion H; subst. cbn. exists p. repeat split.
Qed.
Lemma a_write_kept c mp m n e mp' e' : a_write c mp m n e = Ok (mp', e') -> kept (par mp) (par mp').
Proof.
  unfold a_write. intros H. cbv zeta in H. inv_as H t T. destruct t as [mp1 e1].
  assert (E : par mp1 = par mp).
  { destruct (is_int (mp_mode mp)).
    - inv_as T mp2 T2. inversion T; subst. unfold a_write_int in T2. inv_as T2 q Q. destruct q. now inversion T2; subst.
    - unfold a_write_xnn in T. inv_as T q Q. destruct q as [[[[a b] d] f] k]. now inversion T; subst. }
  destruct (parasitics c); [|inversion H; subst; rewrite E; apply kept_refl].
  inv_as H po P. inversion H; subst. cbn. rewrite <- E.
  destruct (mp_mode mp1); eapply set_conductance_kept; exact P.
Qed.
Lemma a_write_has c mp m n e mp' e' : parasitics c = true -> a_write c mp m n e = Ok (mp', e') -> par mp <> None.
Proof.
  intros Hp H EN. pose proof (a_write_kept _ _ _ _ _ _ _ H) as K. unfold a_write in H. cbv zeta in H. inv_as H t T. destruct t as [mp1 e1].
  rewrite Hp in H. inv_as H po P. inversion H; subst. rewrite EN in K. cbn in K.
  assert (E : exists p', po = Some p').
  { destruct (mp_mode mp1); unfold set_conductance in P; (destruct (par mp1); [|discriminate P]); inv_as P gp A1; inv_as P gm A2;
      inv_as P w A3; inv_as P ga A4; inv_as P r0 A5; inversion P; eauto. }
  destruct E as [p' ->]. destruct K as (p & K & _). discriminate.
Qed.
Lemma xwrite_kept c x mat m n e x' e' : xok c x -> cfg_wf c -> xwrite c x mat m n e = Ok (x', e') ->
  kept (par (xm x)) (par (xm x')).
Proof.
  intros Hx Hw H. destruct (xwrite_parts _ _ _ _ _ _ _ _ Hx Hw H) as (mp1 & _ & _ & (gp & gm & sw & ->) & T).
  destruct (digital_only c); [destruct T as [-> _]; apply kept_refl|]. apply a_write_kept in T. exact T.
Qed.
Lemma rd_update_par c rp rm mp r mp' r' : rd_update c rp rm mp r = Ok (mp', r') -> par mp' = par mp.
Proof.
  unfold rd_update. intros H. inv_as H t T. destruct t as [ip b]. destruct (mp_diff mp).
  - inv_as H t T2. destruct t as [im b2]. now inversion H; subst.
  - now inversion H; subst.
Qed.
Lemma cell_refresh_par c mp r e mp' r' cnt e' : cell_refresh c mp r e = Ok (mp', r', cnt, e') -> par mp' = par mp.
Proof.
  unfold cell_refresh. intros H. inv_as H t T. destruct t as [[[[a b] d] f] k]. destruct (mp_diff mp).
  - inv_as H t T2. destruct t as [[[[a2 b2] d2] f2] k2]. now inversion H; subst.
  - now inversion H; subst.
Qed.
Lemma rd_step_kept c x m n e x' e' : rd_step c x m n e = Ok (x', e') -> kept (par (xm x)) (par (xm x')).
Proof.
  intros H. destruct (mitigation c) eqn:Em.
  - apply rd_step_soft in H; [|exact Em]. destruct H as [_ H]. split_if H.
    + destruct H as (r & mp1 & r1 & R1 & HU & H). cbv zeta in H. apply rd_update_par in HU. split_if H.
      * unfold soft_refresh in H. inv_as H t T. destruct t as [up k]. inv_as H t T2. destruct t as [um k2].
        inv_as H r2 T3. inv_as H t T4. destruct t as [mp2 e2]. inversion H; subst. cbn.
        apply a_write_kept in T4. rewrite <- HU. exact T4.
      * destruct H as [-> _]. cbn. apply kept_eq. exact HU.
    + destruct H as [-> _]. apply kept_refl.
  - apply rd_step_cell in H; [|exact Em]. destruct H as (r & r1 & R1 & HU & _ & H). split_if H.
    + destruct H as (mp1 & r2 & mp2 & r3 & cnt & U1 & U2 & ->). cbn.
      apply rd_update_par in U1. apply cell_refresh_par in U2. apply kept_eq. congruence.
    + destruct H as [-> _]. apply kept_refl.
  - apply rd_step_off in H; [|exact Em]. destruct H as (_ & _ & H). split_if H; [|subst; apply kept_refl].
    destruct H as (r & mp1 & r1 & R1 & HU & ->). apply rd_update_par in HU. cbn. now apply kept_eq.
Qed.
Lemma xmvm_kept c x res vec mat m n l e r x' e' : xok c x -> cfg_wf c ->
  xmvm c x res vec mat m n l e = Ok (r, x', e') -> kept (par (xm x)) (par (xm x')).
Proof.
  intros Hx Hw H. unfold xmvm in H. cbv zeta in H. pose proof (xo_shape _ _ Hx) as Hs.
  set (x0 := x <|n_mvm := n_mvm x + 1|> <|n_read := n_read x + 1|>) in H. change (xm x0) with (xm x) in H.
  destruct (digital_only c).
  - inv_as H t T. destruct t as [r1 mp1]. inversion H; subst. cbn. apply kept_eq.
    destruct (proj1 (proj2 (proj1 (tri_any _ _) (d_mvm_tri anyfail harmless_any c (xm x) res vec mat m n Hw Hs (or_introl I)) _ T))). assumption.
  - inv_as H t T. destruct t as [mp1 e1].
    assert (A1 : shape c mp1 /\ par mp1 = par (xm x)).
    { destruct (c2c_var c).
      - pose proof (proj1 (tri_any _ _) (add_c2c_tri anyfail harmless_any c (xm x) m n e Hs (or_introl (fun _ => I))) _ T) as (S1 & _ & S2).
        auto.
      - inversion T; subst. auto. }
    destruct A1 as (S1 & C1). inv_as H u U. destruct u as [[r1 mp2] e2].
    pose proof (proj1 (tri_any _ _) (a_mvm_tri anyfail harmless_any c mp1 res vec mat m n l e1 S1 (or_introl (fun _ => I))) _ U) as (S2 & K2 & _).
    inv_as H mp3 V.
    assert (A3 : par mp3 = par mp2).
    { destruct (c2c_var c).
      - pose proof (proj1 (tri_any _ _) (remove_c2c_tri anyfail c mp2 m n S2 (or_introl (fun _ => I))) _ V) as (S3 & _ & S4). auto.
      - inversion V; subst. auto. }
    inv_as H q Q. destruct q as [x4 e4]. inversion H; subst r1 x4 e4; clear H.
    assert (C4 : kept (par (xm x)) (par mp3)) by (apply kept_eq; destruct K2; congruence).
    destruct (read_disturb c) eqn:Er.
    + apply rd_step_kept in Q. eapply kept_trans; [exact C4|exact Q].
    + inversion Q; subst. exact C4.
Qed.

Definition soldered (c : config) (x : xbar) : Prop :=
  forall p, par (xm x) = Some p -> ps_v p = V_read c /\ wenc_of (m_mode c) <> None.
Lemma reach_soldered w x : reach w -> wx w = Some x -> soldered (wcfg w) x.
Proof.
  assert (HK : forall c x x', kept (par (xm x)) (par (xm x')) -> soldered c x -> soldered c x').
  { intros c y y' HK HQ p Hp. rewrite Hp in HK. destruct HK as (q & Eq & (_ & _ & _ & E4 & _)).
    destruct (HQ q Eq). split; [congruence|assumption]. }
  apply (reach_Q soldered).
  - intros c y _ _ H. unfold xbar_new in H. inv_as H mp A. inversion H; subst; clear H. cbn.
    unfold mapper_new in A. cbv zeta in A. inv_as A a Ha. inv_as A ps Hps. inv_as A st Hst. inv_as A dl Hdl.
    inversion A; subst; clear A. intros p Hp. cbn in Hp. subst ps. destruct (_ && _); [|discriminate].
    inv_as Hps q Q. inversion Hps; subst. unfold par_new in Q. destruct (wenc_of (m_mode c)); [|discriminate].
    inversion Q; subst. cbn. split; [reflexivity|discriminate].
  - intros c c' y _ _ HC _ HQ p Hp. destruct HC as (i & v & d2 & c2 & bs & wr & pp & ->). exact (HQ p Hp).
  - intros c y mat m n e y' e' _ Hw Hy _ HQ H. eapply HK; [|exact HQ]. eapply xwrite_kept; eauto.
  - intros c y res vec mat m n l e r y' e' _ Hw Hy _ HQ H. eapply HK; [|exact HQ]. eapply xmvm_kept; eauto.
Qed.

(** ** A write hands the arrays to the solver *)
Definition rows_of (c : config) (m : nat) : nat := if is_int (m_mode c) then (m * nsplit c)%nat else m.
Definition plus_array (c : config) (mp : mapper) : list (list F) := match m_mode c with BNN_II => ia_m mp | _ => ia_p mp end.
Definition minus_array (c : config) (mp : mapper) : list (list F) := match m_mode c with BNN_II => ia_p mp | _ => ia_m mp end.

Definition loaded_with (c : config) (mp : mapper) (p : psolver) (w : wenc) (m n : nat) : Prop :=
  wf2 (colsN c) (wcols w (rows_of c m)) (ps_ga p) /\ ps_wire p = repeat (wire_of p) (wcols w (rows_of c m)) /\
  (forall r k, (r < colsN c)%nat -> (k < wcols w (rows_of c m))%nat ->
     at_f (ps_ga p) r k =
       if (snd (own w r k) <? n)%nat
       then conductance c p (if from_p w r k then plus_array c mp else minus_array c mp) (fst (own w r k)) (snd (own w r k))
       else f0).

Lemma wrows2_ienc md w : wenc_of md = Some w -> wrows2 w = ienc_double md.
Proof. destruct md; cbn; intros E; inversion E; reflexivity. Qed.

Lemma a_write_par c mp m n e mp' e' w : shape c mp -> cfg_wf c -> parasitics c = true ->
  wenc_of (m_mode c) = Some w -> (m <= MM c)%nat -> (n <= colsN c)%nat -> (1 <= nsplit c)%nat -> (1 <= MM c)%nat -> (1 <= colsN c)%nat ->
  a_write c mp m n e = Ok (mp', e') ->
  exists p p', par mp = Some p /\ par mp' = Some p' /\ same_solver p p' /\ loaded_with c mp' p' w m n /\
    (ienc_double (m_mode c) = true -> 2 * n <= colsN c \/ m = 0)%nat.
Proof.
  intros Hs Hw Hp Ew Hm Hn H1 HM HN H. unfold a_write in H. cbv zeta in H. inv_as H t T. destruct t as [mp1 e1].
  assert (HT : shape c mp1 /\ par mp1 = par mp).
  { rewrite (sh_mode _ _ Hs) in T. destruct (is_int (m_mode c)) eqn:Ei.
    - inv_as T mp2 T2. inversion T; subst.
      destruct (proj1 (tri_any _ _) (a_write_int_tri anyfail harmless_any c _ mp m n Hs Ei (or_introl (fun _ => I))) _ T2) as (? & _ & ?). auto.
    - destruct (proj1 (tri_any _ _) (a_write_xnn_tri anyfail harmless_any c _ mp m n e Hs H1 (or_introl (fun _ => I))) _ T) as (? & _ & ?). auto. }
  destruct HT as [S1 P1]. rewrite Hp in H. inv_as H po Q. inversion H; subst mp' e'; clear H.
  rewrite (sh_mode _ _ S1) in Q.
  destruct (par mp1) as [p|] eqn:Epar; [|destruct (m_mode c); discriminate Q].
  destruct (sh_par _ _ S1 p Epar) as (F1 & F2 & F3).
  assert (HR : (rows_of c m <= MM c * nsplit c)%nat).
  { unfold rows_of. clear -Hm H1. destruct (is_int _); [now apply Nat.mul_le_mono_r|]. revert Hm H1. generalize (MM c) (nsplit c). intros; nia. }
  assert (HR0 : (rows_of c m = 0 <-> m = 0)%nat) .
  { unfold rows_of. clear -H1. destruct (is_int (m_mode c)); [|split; auto]. split; [|intros ->; reflexivity]. intros X. apply Nat.mul_eq_0 in X. clear -X H1. lia. }

  fold (rows_of c m) in Q.
  assert (HD : exists iam, handed p w (rowsN c) (plus_array c mp1) iam (minus_array c mp1) /\
    set_conductance c (plus_array c mp1) iam (rows_of c m) n (Some p) = Ok po).
  { assert (Hm1 : wf2 (rowsN c) (ps_n p) (ia_p mp1)) by (rewrite F2; apply S1).
    assert (Hm2 : wf2 (rowsN c) (ps_n p) (ia_m mp1)) by (rewrite F2; apply S1).
    unfold plus_array, minus_array, handed. destruct (m_mode c); cbn in Ew; inversion Ew; subst w; eexists;
      (split; [|exact Q]); (split; [assumption|]); auto. }
  destruct HD as (iam & Hh & Q'). clear Q.
  assert (H2 : (ienc_double (m_mode c) = true -> 2 * n <= colsN c \/ m = 0)%nat).
  { intros Hi. destruct (Nat.leb_spec (2 * n) (colsN c)) as [Hle|Hlt]; [now left|]. right.
    destruct (Nat.eq_dec m 0) as [E0|E0]; [exact E0|exfalso].
    rewrite (set_conductance_oob c p w (rowsN c) _ iam (minus_array c mp1)) in Q'; try (rewrite ?F1, ?F2, ?F3; auto; fail).
    - discriminate.
    - rewrite F1. unfold rowsN. nia.
    - now rewrite (wrows2_ienc _ _ Ew).
    - lia. }
  destruct (set_conductance_ok c p w (rowsN c) (plus_array c mp1) iam (minus_array c mp1) (rows_of c m) n) as (p' & E & SS & Hg & Hwire & Hv);
    try (rewrite ?F1, ?F2, ?F3; auto; fail).
  { rewrite F1. unfold rowsN. nia. }
  { rewrite (wrows2_ienc _ _ Ew), F2. intros Hi. destruct (H2 Hi); [auto|right; now apply HR0]. }
  rewrite E in Q'. inversion Q'; subst po; clear Q'. exists p, p'.
  split; [congruence|]. split; [reflexivity|]. split; [exact SS|]. split; [|exact H2].
  rewrite F2 in *. destruct SS as (s1 & s2 & s3 & s4 & s5). split; [exact Hg|]. split.
  { rewrite Hwire. unfold wire_of. now rewrite s3. }
  intros r k Hr Hk. rewrite Hv by auto. change (plus_array c (mp1 <| par := Some p' |>)) with (plus_array c mp1).
  change (minus_array c (mp1 <| par := Some p' |>)) with (minus_array c mp1).
  destruct (_ <? _)%nat; [|reflexivity]. unfold conductance. now rewrite s1, s4.
Qed.

(** ** Configurations with wire resistance *)
Lemma par_supported w : reach w -> parasitics (wcfg w) = true -> supported (wcfg w).
Proof.
  intros [h [rs [H _]]] Hp. destruct (history_supported _ _ _ H) as [E|E]; [rewrite E in Hp; discriminate|exact E].
Qed.
Lemma supp_dims c : supported c -> (1 <= MM c)%nat /\ (1 <= colsN c)%nat.
Proof. intros (H1 & H2 & _). unfold colsN. lia. Qed.
Lemma some_split c : SPLIT c <> [] -> (1 <= nsplit c)%nat.
Proof. unfold nsplit. destruct (SPLIT c); cbn; [easy|lia]. Qed.
Lemma rows_ge c : (1 <= nsplit c)%nat -> (MM c <= rowsN c)%nat.
Proof. unfold rowsN. generalize (MM c) (nsplit c). intros; nia. Qed.
Lemma two_rows_ienc md : two_rows md = ienc_double md.
Proof. now destruct md. Qed.

(** ** Writes *)
Lemma no_solver_write w x m n mat : reach w -> wx w = Some x -> digital_only (wcfg w) = false -> parasitics (wcfg w) = false ->
  SPLIT (wcfg w) <> [] -> dims_in (wcfg w) m n -> Z.of_nat (len mat) >= m * n -> memory_safe (step w (CpyMtrx mat m n)).
Proof.
  intros Hr Hx Hd Hp Hsp Hdim Hl. apply reach_good in Hr. destruct (guard_ok w m n Hr Hdim) as (G1 & G2 & Hm & Hn).
  pose proof (g_x _ Hr x Hx) as Hxo. pose proof (good_wf w Hr) as Hwf. destruct Hdim as [Dm Dn].
  assert (Hl' : (Z.to_nat m * Z.to_nat n <= len mat)%nat) by nia.
  cbn [step]. unfold cpy_mtrx. rewrite Hx, G1, G2. cbn [bind].
  apply safe_bind; [|intros [? ?] _; apply safe_Ok].
  eapply tri_nomem. apply (xwrite_tri nomem harmless_nomem); auto.
  right. repeat split; auto. right. split; [now apply some_split|]. now left.
Qed.
Lemma no_solver_mvm w x m n res vec mat l : reach w -> wx w = Some x -> digital_only (wcfg w) = false -> parasitics (wcfg w) = false ->
  par (xm x) = None -> adc_profile (wcfg w) = false ->
  SPLIT (wcfg w) <> [] -> dims_in (wcfg w) m n -> Z.of_nat (len res) >= m -> Z.of_nat (len vec) >= n ->
  memory_safe (step w (ExeMvm res vec mat m n l)).
Proof.
  intros Hr Hx Hd Hp Hpn Ha Hsp Hdim Hl Hl2. apply reach_good in Hr. destruct (guard_ok w m n Hr Hdim) as (G1 & G2 & Hm & Hn).
  pose proof (g_x _ Hr x Hx) as Hxo. pose proof (good_wf w Hr) as Hwf. destruct Hdim as [Dm Dn].
  cbn [step]. unfold exe_mvm. rewrite Hx, G1, G2. cbn [bind].
  apply safe_bind; [|intros [[? ?] ?] _; apply safe_Ok].
  eapply tri_nomem. apply (xmvm_tri nomem harmless_nomem); auto.
  right. refine (conj Hm (conj Hn (conj _ (conj _ _)))); [lia|lia|]. right. split; [now apply some_split|].
  split; [left; auto|]. split; [exact Ha|]. intros _ _. now left.
Qed.

Lemma solver_write w x m n mat : reach w -> wx w = Some x -> digital_only (wcfg w) = false -> parasitics (wcfg w) = true ->
  par (xm x) <> None -> SPLIT (wcfg w) <> [] -> dims_in (wcfg w) m n -> Z.of_nat (len mat) >= m * n ->
  (two_rows (m_mode (wcfg w)) = true -> 2 * n <= N (wcfg w) \/ m = 0) -> memory_safe (step w (CpyMtrx mat m n)).
Proof.
  intros Hr Hx Hd Hp Hpar Hsp Hdim Hl H2. pose proof (reach_soldered w x Hr Hx) as HS.
  destruct (supp_dims _ (par_supported w Hr Hp)) as [M1 N1].
  apply reach_good in Hr. destruct (guard_ok w m n Hr Hdim) as (G1 & G2 & Hm & Hn).
  pose proof (g_x _ Hr x Hx) as Hxo. pose proof (good_wf w Hr) as Hwf. destruct Hdim as [Dm Dn].
  assert (Hl' : (Z.to_nat m * Z.to_nat n <= len mat)%nat) by nia.
  cbn [step]. unfold cpy_mtrx. rewrite Hx, G1, G2. cbn [bind].
  apply safe_bind; [|intros [? ?] _; apply safe_Ok].
  eapply tri_nomem. apply (xwrite_tri nomem harmless_nomem); auto.
  right. repeat split; auto. right. split; [now apply some_split|]. right. split; [exact Hpar|]. split.
  { destruct (par (xm x)) as [p|] eqn:E; [|easy]. destruct (HS p E) as [_ HW]. intros Em. apply HW. now rewrite Em. }
  split; [exact M1|]. split; [exact N1|]. rewrite <- two_rows_ienc. intros Hi. unfold colsN. destruct (H2 Hi); lia.
Qed.

(** A successful write. *)
Lemma write_loaded w x m n mat w1 : reach w -> wx w = Some x -> digital_only (wcfg w) = false -> parasitics (wcfg w) = true ->
  SPLIT (wcfg w) <> [] -> dims_in (wcfg w) m n -> step w (CpyMtrx mat m n) = Ok (w1, RCode 0) ->
  wcfg w1 = wcfg w /\ good w1 /\ exists x1 p we, wx w1 = Some x1 /\ par (xm x1) = Some p /\ wenc_of (m_mode (wcfg w)) = Some we /\
    ps_v p = V_read (wcfg w) /\ shape (wcfg w) (xm x1) /\
    loaded_with (wcfg w) (xm x1) p we (Z.to_nat m) (Z.to_nat n) /\
    (two_rows (m_mode (wcfg w)) = true -> 2 * n <= N (wcfg w) \/ m = 0).
Proof.
  intros Hr Hx Hd Hp Hsp Hdim H. pose proof (reach_soldered w x Hr Hx) as HS.
  destruct (supp_dims _ (par_supported w Hr Hp)) as [M1 N1].
  apply reach_good in Hr. destruct (guard_ok w m n Hr Hdim) as (G1 & G2 & Hm & Hn).
  pose proof (g_x _ Hr x Hx) as Hxo. pose proof (good_wf w Hr) as Hwf.
  cbn [step] in H. unfold cpy_mtrx in H. rewrite Hx, G1, G2 in H. cbn [bind] in H. inv_as H t T. destruct t as [x1 e1].
  inversion H; subst w1; clear H. split; [reflexivity|].
  destruct (xwrite_ok _ _ _ _ _ _ _ _ Hwf Hxo T) as (Hx1 & _).
  split. { constructor; [apply Hr|]. cbn. intros y Ey. now inversion Ey; subst. }
  pose proof (xwrite_kept _ _ _ _ _ _ _ _ Hxo Hwf T) as HK.
  destruct (xwrite_parts _ _ _ _ _ _ _ _ Hxo Hwf T) as (mp1 & _ & S1 & SB & T1). rewrite Hd in T1.
  destruct SB as (gp & gm & sw & EB).
  assert (EP : par mp1 = par (xm x)) by now rewrite EB.
  destruct (par (xm x)) as [p0|] eqn:E0.
  2: { now elim (a_write_has _ _ _ _ _ _ _ Hp T1). }
  destruct (HS p0 E0) as [HV HW]. destruct (wenc_of (m_mode (wcfg w))) as [we|] eqn:Ew; [|easy].
  destruct (a_write_par (wcfg w) mp1 (Z.to_nat m) (Z.to_nat n) _ _ _ we S1 Hwf Hp Ew Hm Hn (some_split _ Hsp) M1 N1 T1)
    as (p & p' & P1 & P2 & SS & HL & H2).
  exists x1, p', we. rewrite P1 in EP. inversion EP; subst p0. destruct SS as (s1 & s2 & s3 & s4 & s5).
  split; [reflexivity|]. split; [exact P2|]. split; [reflexivity|]. split; [congruence|]. split; [apply Hx1|]. split; [exact HL|].
  rewrite two_rows_ienc. intros Hi. destruct Hdim. destruct (H2 Hi) as [H3|H3]; unfold colsN in H3; [left|right]; lia.
Qed.

(** ** MVMs *)
Lemma outs_cols c p w m m0 : wenc_of (m_mode c) = Some w -> ps_mode p = m_mode c -> (1 <= nsplit c)%nat ->
  (outcols p (outs c m) <= wcols w (rows_of c m0) <-> m <= m0)%nat.
Proof.
  intros Ew Ep Hn. unfold outcols, outs, rows_of. rewrite Ep.
  assert (K : (m * nsplit c <= m0 * nsplit c <-> m <= m0)%nat).
  { symmetry. apply Nat.mul_le_mono_pos_r. lia. }
  destruct (m_mode c); cbn in *; inversion Ew; subst; cbn [wcols]; lia.
Qed.
Lemma fits_iff c m n : 0 <= m <= M c -> 0 <= n <= N c ->
  solver_fits c m n <-> ((outs c (Z.to_nat m) <= MM c)%nat /\ (ienc_double (m_mode c) = true -> 2 * Z.to_nat n <= colsN c)%nat).
Proof.
  intros H1 H2. unfold solver_fits, outs, colsN, nsplit. rewrite two_rows_ienc.
  assert (K : (m * Z.of_nat (len (SPLIT c)) <= M c)%Z <-> (Z.to_nat m * len (SPLIT c) <= MM c)%nat) by nia.
  split.
  - intros (A & B & D). destruct (m_mode c); cbn [is_int ienc_double] in *; split; intros;
      try discriminate; try (specialize (A eq_refl)); try (specialize (B eq_refl)); try specialize (D (or_introl eq_refl));
      try specialize (D (or_intror eq_refl)); try (apply K); lia.
  - intros (A & B). split; [|split]; intros; destruct (m_mode c); try discriminate; cbn [is_int ienc_double] in *; try (apply K); try (specialize (B eq_refl)); try lia;
      destruct H; discriminate.
Qed.

Lemma armed_mvm w x p we m0 m n res vec mat l : good w -> wx w = Some x -> digital_only (wcfg w) = false -> parasitics (wcfg w) = true ->
  supported (wcfg w) -> (read_disturb (wcfg w) = true -> mitigation (wcfg w) <> SOFTWARE) -> adc_profile (wcfg w) = false ->
  SPLIT (wcfg w) <> [] -> par (xm x) = Some p -> wenc_of (m_mode (wcfg w)) = Some we ->
  wf2 (colsN (wcfg w)) (wcols we (rows_of (wcfg w) m0)) (ps_ga p) -> ps_wire p = repeat (wire_of p) (wcols we (rows_of (wcfg w) m0)) ->
  dims_in (wcfg w) m n -> Z.of_nat (len res) >= m -> Z.of_nat (len vec) >= n ->
  (Z.to_nat m <= m0)%nat -> solver_fits (wcfg w) m n ->
  memory_safe (step w (ExeMvm res vec mat m n l)).
Proof.
  intros Hr Hx Hd Hp Hsup Hso Ha Hsp Hpar Ew Hga Hwire Hdim Hl Hl2 Hm0 HF. destruct (supp_dims _ Hsup) as [M1 N1].
  destruct (guard_ok w m n Hr Hdim) as (G1 & G2 & Hm & Hn).
  pose proof (g_x _ Hr x Hx) as Hxo. pose proof (good_wf w Hr) as Hwf. destruct Hdim as [Dm Dn].
  apply fits_iff in HF; try lia. destruct HF as [F1 F2].
  destruct (sh_par _ _ (xo_shape _ _ Hxo) _ Hpar) as (E1 & E2 & E3).
  cbn [step]. unfold exe_mvm. rewrite Hx, G1, G2. cbn [bind].
  apply safe_bind; [|intros [[? ?] ?] _; apply safe_Ok].
  eapply tri_nomem. apply (xmvm_tri nomem harmless_nomem); auto.
  right. refine (conj Hm (conj Hn (conj _ (conj _ _)))); [lia|lia|]. right. split; [now apply some_split|].
  split; [|split; [exact Ha|intros H1 H2; now elim (Hso H1)]].
  right. split; [exact Hp|]. exists p, (wcols we (rows_of (wcfg w) m0)). split; [exact Hpar|].
  split. { split; [now rewrite E2|]. eexists; exact Hwire. }
  split; [exact N1|]. split; [exact F1|]. split; [|exact F2].
  apply outs_cols; auto. now apply some_split.
Qed.

Lemma safe_mvm w x mat0 m0 n0 w1 h w2 rs res vec mat m n l :
  reach w -> wx w = Some x -> digital_only (wcfg w) = false -> parasitics (wcfg w) = true -> SPLIT (wcfg w) <> [] ->
  (read_disturb (wcfg w) = true -> mitigation (wcfg w) <> SOFTWARE) -> adc_profile (wcfg w) = false ->
  dims_in (wcfg w) m0 n0 -> step w (CpyMtrx mat0 m0 n0) = Ok (w1, RCode 0) ->
  Forall asking h -> run w1 h = Ok (w2, rs) ->
  dims_in (wcfg w) m n -> Z.of_nat (len res) >= m -> Z.of_nat (len vec) >= n ->
  m <= m0 -> solver_fits (wcfg w) m n ->
  memory_safe (step w2 (ExeMvm res vec mat m n l)).
Proof.
  intros Hr Hx Hd Hp Hsp Hso Ha Hdim0 H0 Hh H1 Hdim L1 L2 Hm HF.
  destruct (write_loaded _ _ _ _ _ _ Hr Hx Hd Hp Hsp Hdim0 H0) as (C1 & Hg1 & x1 & p & we & X1 & P1 & Ew & _ & _ & (Hga & Hwire & _) & _).
  assert (HL : lasting (wcfg w)) by (split; auto).
  destruct (asking_run h w1 w2 rs x1 Hg1 Hh X1) as (Hg2 & C2 & x2 & X2 & K); auto; try (rewrite C1; assumption).
  rewrite C1 in C2, K. rewrite <- C2 in *.
  refine (armed_mvm w2 x2 p we (Z.to_nat m0) m n res vec mat l Hg2 X2 Hd Hp _ Hso Ha Hsp _ Ew Hga Hwire Hdim L1 L2 _ HF).
  - rewrite C2 in *. now apply par_supported.
  - rewrite (kn_par _ _ _ K). exact P1.
  - destruct Hdim. lia.
Qed.

(** The MVM fails when the solver's answer is too short, its conductances are too few or its inputs too many. *)
Lemma dead_mvm w x m n res vec mat l : good w -> wx w = Some x -> digital_only (wcfg w) = false -> parasitics (wcfg w) = true ->
  supported (wcfg w) -> widths_fit (wcfg w) -> n <= int32_max -> dims_in (wcfg w) m n -> all_first (input_in (wcfg w)) vec n ->
  (forall p, par (xm x) = Some p -> forall vp vm, len vp = colsN (wcfg w) -> (ienc_double (m_mode (wcfg w)) = true -> len vm = colsN (wcfg w)) ->
     compute_currents (Some p) vp vm (outs (wcfg w) (Z.to_nat m)) (Z.to_nat n) = UB OutOfBounds) ->
  par (xm x) <> None ->
  (forall r, step w (ExeMvm res vec mat m n l) <> Ok r) /\
  (c2c_var (wcfg w) = false -> step w (ExeMvm res vec mat m n l) = UB OutOfBounds).
Proof.
  intros Hr Hx Hd Hp Hsup Hwid Hn32 Hdim [Hv Hin] HC Hpar.
  destruct (guard_ok w m n Hr Hdim) as (G1 & G2 & Hm & Hn).
  pose proof (g_x _ Hr x Hx) as Hxo. pose proof (good_wf w Hr) as Hwf. destruct Hdim as [Dm Dn].
  destruct (par (xm x)) as [p|] eqn:Epar; [|easy]. specialize (HC p eq_refl).
  cbn [step]. unfold exe_mvm. rewrite Hx, G1, G2. cbn [bind].
  set (x0 := x <|n_mvm := n_mvm x + 1|> <|n_read := n_read x + 1|>).
  assert (HD : forall mp1 e1, shape (wcfg w) mp1 -> par mp1 = Some p ->
    a_mvm (wcfg w) mp1 res vec mat (Z.to_nat m) (Z.to_nat n) l e1 = UB OutOfBounds).
  { intros mp1 e1 S1 P1. apply a_mvm_dead; auto; try lia. intros vp vm H1 H2. rewrite P1. now apply HC. }
  unfold xmvm. cbv zeta. fold x0. rewrite Hd. change (xm x0) with (xm x). split.
  - intros r H. inv_as H t T. destruct t as [[r1 x1] e1]. inv_as T q Q. destruct q as [mp1 e2].
    rewrite HD in T; [discriminate| |].
    + destruct (c2c_var (wcfg w)); [|inversion Q; subst; apply Hxo].
      apply (proj1 (tri_any _ _) (add_c2c_tri anyfail harmless_any _ (xm x) _ _ (wenv w) (xo_shape _ _ Hxo) (or_introl (fun _ => I))) _ Q).
    + destruct (c2c_var (wcfg w)); [|inversion Q; subst; exact Epar].
      pose proof (proj1 (tri_any _ _) (add_c2c_tri anyfail harmless_any _ (xm x) _ _ (wenv w) (xo_shape _ _ Hxo) (or_introl (fun _ => I))) _ Q) as (_ & _ & K).
      congruence.
  - intros ->. cbn [bind]. rewrite HD; auto. apply Hxo.
Qed.

Lemma cols_wf_eq {A} r k k' (g : list (list A)) : (1 <= r)%nat -> wf2 r k g -> wf2 r k' g -> k = k'.
Proof.
  intros H [H1 H2] [_ H3]. destruct g as [|a g]; [cbn in H1; lia|]. inversion H2; inversion H3; subst. congruence.
Qed.

Lemma oob_mvm w x mat0 m0 n0 w1 h w2 rs res vec mat m n l :
  reach w -> wx w = Some x -> digital_only (wcfg w) = false -> parasitics (wcfg w) = true -> SPLIT (wcfg w) <> [] ->
  (read_disturb (wcfg w) = true -> mitigation (wcfg w) <> SOFTWARE) -> widths_fit (wcfg w) ->
  dims_in (wcfg w) m0 n0 -> step w (CpyMtrx mat0 m0 n0) = Ok (w1, RCode 0) ->
  Forall asking h -> run w1 h = Ok (w2, rs) ->
  dims_in (wcfg w) m n -> n <= int32_max -> all_first (input_in (wcfg w)) vec n ->
  ~ (m <= m0 /\ solver_fits (wcfg w) m n) ->
  (forall r, step w2 (ExeMvm res vec mat m n l) <> Ok r) /\
  (c2c_var (wcfg w) = false -> step w2 (ExeMvm res vec mat m n l) = UB OutOfBounds).
Proof.
  intros Hr Hx Hd Hp Hsp Hso Hwid Hdim0 H0 Hh H1 Hdim Hn32 Hin HF.
  destruct (write_loaded _ _ _ _ _ _ Hr Hx Hd Hp Hsp Hdim0 H0) as (C1 & Hg1 & x1 & p & we & X1 & P1 & Ew & _ & _ & (Hga & Hwire & _) & _).
  assert (HL : lasting (wcfg w)) by (split; auto).
  destruct (asking_run h w1 w2 rs x1 Hg1 Hh X1) as (Hg2 & C2 & x2 & X2 & K); auto; try (rewrite C1; assumption).
  pose proof (par_supported w Hr Hp) as Hsup. destruct (supp_dims _ Hsup) as [M1 N1].
  rewrite C1 in C2, K. assert (P2 : par (xm x2) = Some p) by (rewrite (kn_par _ _ _ K); exact P1).
  destruct (sh_par _ _ (kn_s2 _ _ _ K) _ P2) as (E1 & E2 & E3).
  rewrite <- C2 in *. apply (dead_mvm w2 x2); auto; [|congruence].
  intros q Hq vp vm Lp Lm. assert (q = p) by congruence. subst q.
  eapply tri_oob; [apply compute_currents_tri|].
  { rewrite E3. intros Hi E. specialize (Lm Hi). rewrite E in Lm. cbn in Lm. lia. }
  cbv beta. intros _ (_ & K1 & K2 & K3 & _). apply HF. rewrite E1, E2, E3 in *.
  specialize (K1 _ Hga). apply outs_cols in K1; auto; [|now apply some_split]. destruct Hdim, Hdim0.
  split; [lia|]. apply fits_iff; try lia. split; [exact K2|]. intros Hi. now apply K3.
Qed.

(** Before the first write the solver has no conductances. *)
Lemma fresh_mvm w0 j w r h w1 rs res vec mat m n l :
  reach w0 -> step w0 (SetConfig (Parsed j)) = Ok (w, r) -> wx w <> None ->
  digital_only (wcfg w) = false -> parasitics (wcfg w) = true ->
  (read_disturb (wcfg w) = true -> mitigation (wcfg w) <> SOFTWARE) -> widths_fit (wcfg w) ->
  Forall asking h -> run w h = Ok (w1, rs) ->
  dims_in (wcfg w) m n -> n <= int32_max -> all_first (input_in (wcfg w)) vec n ->
  (forall r, step w1 (ExeMvm res vec mat m n l) <> Ok r) /\
  (c2c_var (wcfg w) = false -> step w1 (ExeMvm res vec mat m n l) = UB OutOfBounds).
Proof.
  intros Hr H Hx Hd Hp Hso Hwid Hh H1 Hdim Hn32 Hin. pose proof (set_supported _ _ _ _ H) as Hsup.
  destruct (supp_dims _ Hsup) as [M1 N1].
  assert (Hg : good w).
  { eapply step_good; [apply reach_good; exact Hr|exact H|]. intros ->. apply Hx. clear -H. cbn [step] in H. unfold set_config, replace_xbar in H.
    inv_as H u U. inv_as H c C. destruct (xbar_new _); try discriminate. now inversion H; subst. }
  destruct (wx w) as [x|] eqn:Ex; [|easy]. clear Hx.
  assert (HP : exists p, par (xm x) = Some p /\ ps_ga p = []).
  { cbn [step] in H. unfold set_config in H. inv_as H u U. inv_as H c C. unfold replace_xbar in H. cbn [wcfg set] in H.
    match type of H with context [xbar_new ?q] => change q with c in H end. destruct (xbar_new c) as [y| | |] eqn:V; try discriminate H.
    2: { inversion H; subst; discriminate. } inv_as H v W. inversion H; subst. cbn in Ex, Hd, Hp. inversion Ex; subst y. clear -V Hd Hp.
    unfold xbar_new in V. inv_as V mp A. inversion V; subst; clear V. cbn.
    unfold mapper_new in A. cbv zeta in A. inv_as A a Ha. inv_as A ps Hps. inv_as A st Hst. inv_as A dl Hdl.
    inversion A; subst; clear A. cbn. rewrite Hd, Hp in Hps. cbn in Hps. inv_as Hps q Q. inversion Hps; subst.
    exists q. split; [reflexivity|]. unfold par_new in Q. destruct (wenc_of (m_mode c)); [|discriminate]. now inversion Q; subst. }
  destruct HP as (p & P1 & PG).
  assert (HL : lasting (wcfg w)) by (split; auto).
  destruct (asking_run h w w1 rs x Hg Hh Ex) as (Hg2 & C2 & x2 & X2 & K); auto.
  assert (P2 : par (xm x2) = Some p) by (rewrite (kn_par _ _ _ K); exact P1).
  destruct (sh_par _ _ (kn_s2 _ _ _ K) _ P2) as (E1 & E2 & E3).
  rewrite <- C2 in *. apply (dead_mvm w1 x2); auto; [|congruence].
  intros q Hq vp vm Lp Lm. assert (q = p) by congruence. subst q.
  eapply tri_oob; [apply compute_currents_tri|].
  { rewrite E3. intros Hi E. specialize (Lm Hi). rewrite E in Lm. cbn in Lm. lia. }
  cbv beta. intros _ (K0 & _). now apply K0.
Qed.

(** ** Writes of weights in range *)
(** The digital half and read disturb do not fail. *)
Lemma xwrite_front c x mat m n e mp1 : digital_only c = false -> xok c x -> shape c mp1 -> d_write c (xm x) mat m n = Ok mp1 ->
  exists x0, xwrite c x mat m n e = ('(mp, e) <- a_write c mp1 m n e ;; Ok (x0 <| xm := mp |>, e)).
Proof.
  intros Hd Hxo S1 E. unfold xwrite. cbv zeta.
  change (xm (x <|n_write := n_write x + 1|> <|n_read := 0|>)) with (xm x).
  change (xrd (x <|n_write := n_write x + 1|> <|n_read := 0|>)) with (xrd x).
  rewrite Hd, E. cbn [bind]. destruct (read_disturb c) eqn:Erd.
  - pose proof (xo_shape _ _ Hxo) as Hs.
    destruct (tri_never _ _ (tri_reset_mask never c _ _ (sh_gp _ _ Hs) (sh_gp _ _ S1))) as (up & -> & Wu).
    destruct (tri_never _ _ (tri_reset_mask never c _ _ (sh_gm _ _ Hs) (sh_gm _ _ S1))) as (um & -> & Wm).
    cbn [bind]. destruct (xrd x) as [r|] eqn:Er; [|now apply (xo_some _ _ Hxo) in Erd].
    cbn [deref bind]. pose proof (xo_rd _ _ Hxo r Er) as Hrd.
    destruct (tri_never _ _ (tri_update_cycles never c up um r Hrd Wu Wm)) as (r1 & -> & Hr1 & _). cbn [bind].
    assert (Hmi : exists r2, match mitigation c with CELL_BASED => reset_consecutive c r1 | _ => Ok r1 end = Ok r2).
    { destruct (mitigation c); eauto.
      destruct (tri_never _ _ (tri_reset_consecutive never c r1 Hr1)) as (r2 & -> & _). eauto. }
    destruct Hmi as (r2 & ->). cbn [bind]. eexists. reflexivity.
  - cbn [bind]. eexists. reflexivity.
Qed.
Lemma a_write_front c x mp1 mat m n e : digital_only c = false -> cfg_wf c -> shape c mp1 -> built c x -> i_step mp1 = i_step (xm x) ->
  Forall (fun s => 0 <= s) (SPLIT c) -> split_covers c -> stored c mp1 mat m n -> (m <= MM c)%nat -> (n <= colsN c)%nat ->
  exists mp2 e2, (if is_int (m_mode c)
     then mp' <- a_write_int c (match m_mode c with I_UINT_W_OFFS | BNN_III | BNN_IV => false | _ => true end) mp1 m n ;; Ok (mp', e)
     else a_write_xnn c (match m_mode c with I_UINT_W_OFFS | BNN_III | BNN_IV => false | _ => true end) mp1 m n e) = Ok (mp2, e2) /\
    shape c mp2 /\ par mp2 = par mp1 /\
    (is_int (m_mode c) = true -> forall i j, (i < m * nsplit c)%nat -> (j < n)%nat ->
       let st := stepq c (i mod nsplit c) in
       at_f (ia_p mp2) i j = level (at_z (gd_p mp1) i j) st (HRS c) /\
       (one_array (m_mode c) = false -> at_f (ia_m mp2) i j = level (at_z (gd_m mp1) i j) st (HRS c))).
Proof.
  intros Hd Hwf S1 Hb Est Hnn Hcov S2 Hm Hn. destruct (is_int (m_mode c)) eqn:Hi.
  - destruct Hb as (B1 & B2 & _). rewrite Hd in *.
    assert (Hst : forall q, (q < nsplit c)%nat -> nth q (i_step mp1) None = Some (stepq c q)).
    { rewrite Est. apply steps_nth; auto. apply B2. unfold uses_shift. now rewrite Hi. }
    assert (H1s : (1 <= nsplit c)%nat).
    { destruct (Hcov Hi) as [T1 T2]. unfold nsplit. destruct (SPLIT c); cbn in *; lia. }
    destruct (a_write_int_ok c (match m_mode c with I_UINT_W_OFFS | BNN_III | BNN_IV => false | _ => true end)
      mp1 m n (stepq c) S1 Hi Hm Hn H1s Hst) as (mp2 & E2 & (ip & im & F2) & V2 & _).
    pose proof (proj1 (tri_any _ _) (a_write_int_tri anyfail harmless_any c _ mp1 m n S1 Hi (or_introl (fun _ => I))) _ E2) as (Sh2 & _ & P2).
    rewrite E2. cbn [bind]. exists mp2, e. split; [reflexivity|]. split; [exact Sh2|]. split; [exact P2|].
    intros _ i j H1 H2. destruct (V2 i j H1 H2) as [V3 V4]. split; [exact V3|]. intros Ho. apply V4. now destruct (m_mode c).
  - pose proof (wf_ns c Hwf Hi) as Hns.
    destruct (a_write_xnn_ok c (match m_mode c with I_UINT_W_OFFS | BNN_III | BNN_IV => false | _ => true end)
      mp1 m n e S1) as ([mp2 e2] & E2); auto.
    { pose proof (rows_ge c Hns). lia. }
    { intros i j H1 H2. pose proof (st_ok _ _ _ _ _ S2 i j H1 H2) as K. unfold cellok in K. now rewrite Hi in K. }
    pose proof (proj1 (tri_any _ _) (a_write_xnn_tri anyfail harmless_any c _ mp1 m n e S1 Hns (or_introl (fun _ => I))) _ E2) as (Sh2 & _ & P2).
    exists mp2, e2. split; [exact E2|]. split; [exact Sh2|]. split; [exact P2|]. discriminate.
Qed.

(** Weights in range that fit are written. *)
Lemma ok_write w x m n mat : reach w -> wx w = Some x -> digital_only (wcfg w) = false -> parasitics (wcfg w) = true ->
  par (xm x) <> None -> split_covers (wcfg w) -> dims_in (wcfg w) m n -> all_entries (weight_in (wcfg w)) mat m n ->
  n * row_bound (wcfg w) <= int32_max -> (two_rows (m_mode (wcfg w)) = true -> 2 * n <= N (wcfg w) \/ m = 0) ->
  exists w1 x1, step w (CpyMtrx mat m n) = Ok (w1, RCode 0) /\ wx w1 = Some x1 /\
    (is_int (m_mode (wcfg w)) = true -> forall i j, (i < Z.to_nat m * nsplit (wcfg w))%nat -> (j < Z.to_nat n)%nat ->
       let q := (i mod nsplit (wcfg w))%nat in let t := 2 ^ nth q (SPLIT (wcfg w)) 0 - 1 in
       let st := fdiv (fsub (LRS (wcfg w)) (HRS (wcfg w))) (f_of_Z t) in
       exists g h, 0 <= g <= t /\ 0 <= h <= t /\ current (ia_p (xm x1)) i j = level g st (HRS (wcfg w)) /\
       (one_array (m_mode (wcfg w)) = false -> current (ia_m (xm x1)) i j = level h st (HRS (wcfg w)))).
Proof.
  intros Hr Hx Hd Hp Hpar Hcov Hdim Hent HN H2. pose proof (reach_soldered w x Hr Hx) as HSo. pose proof (reach_built w x Hr Hx) as Hb.
  destruct (supp_dims _ (par_supported w Hr Hp)) as [M1 N1]. pose proof (reach_good _ Hr) as Hg.
  destruct (guard_ok w m n Hg Hdim) as (G1 & G2 & Hm & Hn).
  pose proof (g_x _ Hg x Hx) as Hxo. pose proof (good_wf w Hg) as Hwf. pose proof (split_nonneg w Hg) as Hnn.
  assert (Hl' : (Z.to_nat m * Z.to_nat n <= len mat)%nat) by (destruct Hent, Hdim; nia).
  destruct (d_write_stored (wcfg w) (xm x) mat (Z.to_nat m) (Z.to_nat n)) as (mp1 & E & S1 & SB & S2); auto.
  { apply Hxo. }
  { apply Hent. }
  { destruct Hdim. rewrite Z2Nat.id by lia. exact HN. }
  destruct (xwrite_front (wcfg w) x mat _ _ (wenv w) mp1 Hd Hxo S1 E) as (x0 & EX).
  assert (HS1 : (1 <= nsplit (wcfg w))%nat).
  { destruct (is_int (m_mode (wcfg w))) eqn:Hi; [|now apply wf_ns].
    destruct (Hcov Hi) as [T1 T2]. unfold nsplit. destruct (SPLIT (wcfg w)); cbn in *; lia. }
  destruct SB as (gp & gm & sw & EB).
  destruct (a_write_front (wcfg w) x mp1 mat (Z.to_nat m) (Z.to_nat n) (wenv w)) as (mp2 & e2 & E2 & Sh2 & P2 & V2); auto.
  { now rewrite EB. }
  assert (P3 : par mp2 = par (xm x)) by (rewrite P2, EB; reflexivity).
  destruct (par (xm x)) as [p|] eqn:E0; [|easy]. destruct (sh_par _ _ Sh2 p P3) as (F1 & F2 & F3).
  destruct (HSo p E0) as [_ HW]. destruct (wenc_of (m_mode (wcfg w))) as [we|] eqn:Ew; [|easy].
  assert (HA : exists mp3, a_write (wcfg w) mp1 (Z.to_nat m) (Z.to_nat n) (wenv w) = Ok (mp3, e2) /\ ia_p mp3 = ia_p mp2 /\ ia_m mp3 = ia_m mp2).
  { unfold a_write. rewrite (sh_mode _ _ S1), Hp. cbv zeta. rewrite E2. cbn [bind]. rewrite (sh_mode _ _ Sh2), P3.
    fold (rows_of (wcfg w) (Z.to_nat m)). set (rows := rows_of (wcfg w) (Z.to_nat m)).
    assert (Hok : forall iap iam im, handed p we (rowsN (wcfg w)) iap iam im ->
      exists p', set_conductance (wcfg w) iap iam rows (Z.to_nat n) (Some p) = Ok (Some p')).
    { intros iap iam im Hh. destruct (set_conductance_ok (wcfg w) p we (rowsN (wcfg w)) iap iam im rows (Z.to_nat n)) as (p' & Ep & _);
        rewrite ?F1, ?F2, ?F3; auto; [now apply rows_ge| | |].
      - unfold rows, rows_of. destruct (is_int _); [now apply Nat.mul_le_mono_r|]. pose proof (rows_ge _ HS1). unfold rowsN in *. lia.
      - rewrite (wrows2_ienc _ _ Ew), <- two_rows_ienc. intros Hi. destruct Hdim. destruct (H2 Hi) as [H3|H3]; [left; unfold colsN; lia|right].
        subst m. unfold rows, rows_of. now destruct (is_int _).
      - eauto. }
    assert (W1 : wf2 (rowsN (wcfg w)) (ps_n p) (ia_p mp2)) by (rewrite F2; apply Sh2).
    assert (W2 : wf2 (rowsN (wcfg w)) (ps_n p) (ia_m mp2)) by (rewrite F2; apply Sh2).
    assert (H1 : exists p', match m_mode (wcfg w) with
        | I_UINT_W_OFFS | BNN_III | BNN_IV => set_conductance (wcfg w) (ia_p mp2) None rows (Z.to_nat n) (Some p)
        | BNN_II => set_conductance (wcfg w) (ia_m mp2) (Some (ia_p mp2)) rows (Z.to_nat n) (Some p)
        | _ => set_conductance (wcfg w) (ia_p mp2) (Some (ia_m mp2)) rows (Z.to_nat n) (Some p) end = Ok (Some p')).
    { destruct (m_mode (wcfg w)); cbn in Ew; inversion Ew; subst we;
        first [eapply (Hok _ _ []); split; [assumption|left; split; reflexivity]
              |eapply Hok; split; [assumption|right; split; [reflexivity|assumption]]]. }
    destruct H1 as [p' H1]. rewrite H1. cbn [bind]. eexists. split; [reflexivity|]. split; reflexivity. }
  destruct HA as (mp3 & EA & I1 & I2).
  assert (Est : step w (CpyMtrx mat m n) = Ok (w <| wx := Some (x0 <| xm := mp3 |>) |> <| wenv := e2 |>, RCode 0)).
  { cbn [step]. unfold cpy_mtrx. rewrite Hx, G1, G2. cbn [bind]. rewrite EX, EA. reflexivity. }
  exists (w <| wx := Some (x0 <| xm := mp3 |>) |> <| wenv := e2 |>), (x0 <| xm := mp3 |>). split; [exact Est|]. split; [reflexivity|].
  intros Hi i j H3 H4. cbv zeta. destruct (Hcov Hi) as [T1 T2].
  assert (HN' : n * 2 ^ W_BIT (wcfg w) <= int32_max) by (unfold row_bound in HN; now rewrite Hi in HN).
  pose proof (write_decodes w mat m n _ (gd_p mp3) (gd_m mp3) Hr Hi ltac:(lia) T2 Hdim Hent HN' Est eq_refl eq_refl) as D.
  assert (Hq : (i mod nsplit (wcfg w) < nsplit (wcfg w))%nat) by (apply Nat.mod_upper_bound; lia).
  assert (Hii : (i / nsplit (wcfg w) < Z.to_nat m)%nat) by (apply Nat.div_lt_upper_bound; lia).
  destruct (D _ j Hii H4) as [_ D']. destruct (D' _ Hq) as (A1 & A2 & _).
  assert (Ei : (i / nsplit (wcfg w) * nsplit (wcfg w) + i mod nsplit (wcfg w) = i)%nat).
  { rewrite (Nat.mul_comm (i / _)). symmetry. apply Nat.div_mod. lia. }
  change (len (SPLIT (wcfg w))) with (nsplit (wcfg w)) in A1, A2. rewrite Ei in A1, A2.
  destruct (V2 Hi i j H3 H4) as [V3 V4].
  destruct (a_write_cells (wcfg w) mp1 (Z.to_nat m) (Z.to_nat n) (wenv w) mp3 e2 S1 EA) as (D1 & D2 & _).
  exists (at_z (gd_p mp1) i j), (at_z (gd_m mp1) i j). unfold cell in A1, A2. rewrite D1, D2 in *. fold (at_z (gd_p mp1) i j) in A1. fold (at_z (gd_m mp1) i j) in A2.
  split; [lia|]. split; [lia|]. cbn. rewrite I1, I2. split; [exact V3|exact V4].
Qed.

(** ** Writes that do not fit *)
Lemma oob_write w x m n mat : reach w -> wx w = Some x -> digital_only (wcfg w) = false -> parasitics (wcfg w) = true ->
  par (xm x) <> None -> two_rows (m_mode (wcfg w)) = true -> 1 <= m -> N (wcfg w) < 2 * n ->
  dims_in (wcfg w) m n -> all_entries (weight_in (wcfg w)) mat m n -> n * row_bound (wcfg w) <= int32_max ->
  step w (CpyMtrx mat m n) = UB OutOfBounds.
Proof.
  intros Hr Hx Hd Hp Hpar H2 Hm1 H2n Hdim Hent HN. pose proof (reach_soldered w x Hr Hx) as HSo.
  destruct (supp_dims _ (par_supported w Hr Hp)) as [M1 N1]. pose proof (reach_good _ Hr) as Hg.
  destruct (guard_ok w m n Hg Hdim) as (G1 & G2 & Hm & Hn).
  pose proof (g_x _ Hg x Hx) as Hxo. pose proof (good_wf w Hg) as Hwf. pose proof (split_nonneg w Hg) as Hnn.
  assert (Hi : is_int (m_mode (wcfg w)) = false) by (destruct (m_mode (wcfg w)); easy).
  cbn [step]. unfold cpy_mtrx. rewrite Hx, G1, G2. cbn [bind].
  set (c := wcfg w) in *. set (mN := Z.to_nat m) in *. set (nN := Z.to_nat n) in *.
  assert (HL : (mN * nN <= len mat)%nat) by (unfold mN, nN; destruct Hent, Hdim; nia).
  destruct (d_write_stored c (xm x) mat mN nN) as (mp1 & E & S1 & SB & S2); auto.
  { apply Hxo. }
  { intros Hi'. congruence. }
  { apply Hent. }
  { unfold nN. destruct Hdim. rewrite Z2Nat.id by lia. exact HN. }
  pose proof (wf_ns c Hwf Hi) as Hns.
  assert (HA : a_write c mp1 mN nN (wenv w) = UB OutOfBounds).
  { unfold a_write. rewrite (sh_mode _ _ S1), Hi, Hp. cbv zeta.
    destruct (a_write_xnn_ok c (match m_mode c with I_UINT_W_OFFS | BNN_III | BNN_IV => false | _ => true end) mp1 mN nN (wenv w))
      as [[mp2 e2] E2]; auto.
    { pose proof (rows_ge c Hns). lia. }
    { intros i j H3 H4. pose proof (st_ok _ _ _ _ _ S2 i j H3 H4) as K. unfold cellok in K. now rewrite Hi in K. }
    pose proof (proj1 (tri_any _ _) (a_write_xnn_tri anyfail harmless_any c _ mp1 mN nN (wenv w) S1 Hns (or_introl (fun _ => I))) _ E2) as (Sh2 & _ & P2).
    rewrite E2. cbn [bind]. rewrite (sh_mode _ _ Sh2), Hi.
    destruct SB as (gp & gm & sw & EB). assert (P3 : par mp2 = par (xm x)) by (rewrite P2, EB; reflexivity).
    destruct (par (xm x)) as [p|] eqn:E0; [|easy]. destruct (sh_par _ _ Sh2 p P3) as (F1 & F2 & F3).
    assert (HO : set_conductance c (ia_p mp2) (Some (ia_m mp2)) mN nN (Some p) = UB OutOfBounds).
    { destruct (HSo p E0) as [_ HW]. fold c in HW. destruct (wenc_of (m_mode c)) as [we|] eqn:Ew; [|easy].
      apply (set_conductance_oob c p we (rowsN c) _ _ (ia_m mp2)); rewrite ?F1, ?F2, ?F3; auto.
      - split; [rewrite F2; apply Sh2|]. right. split; [reflexivity|rewrite F2; apply Sh2].
      - now apply rows_ge.
      - rewrite (wrows2_ienc _ _ Ew), <- two_rows_ienc. exact H2.
      - unfold nN. clear -H2n N1. unfold colsN in *. lia.
      - unfold mN. lia. }
    rewrite P3. destruct (m_mode c); try discriminate H2; now rewrite HO. }
  destruct (xwrite_front c x mat mN nN (wenv w) mp1 Hd Hxo S1 E) as (x0 & EX). rewrite EX, HA. reflexivity.
Qed.

(** ** Rows that are not copied (C44) *)
Lemma rows_dropped w x m n mat w1 x1 p : reach w -> wx w = Some x -> digital_only (wcfg w) = false -> parasitics (wcfg w) = true ->
  SPLIT (wcfg w) <> [] -> is_int (m_mode (wcfg w)) = true -> dims_in (wcfg w) m n ->
  step w (CpyMtrx mat m n) = Ok (w1, RCode 0) -> wx w1 = Some x1 -> par (xm x1) = Some p ->
  forall i j, (i < Z.to_nat m * List.length (SPLIT (wcfg w)))%nat -> (j < Z.to_nat n)%nat ->
  let two := match m_mode (wcfg w) with I_UINT_W_OFFS => false | _ => true end in
  (Z.of_nat i < M (wcfg w) ->
     (two = false -> current (ps_ga p) j i = fdiv (current (ia_p (xm x1)) i j) (fneg (V_read (wcfg w)))) /\
     (two = true -> current (ps_ga p) j (2 * i) = fdiv (current (ia_p (xm x1)) i j) (fneg (V_read (wcfg w))) /\
                    current (ps_ga p) j (2 * i + 1) = fdiv (current (ia_m (xm x1)) i j) (fneg (V_read (wcfg w))))) /\
  (M (wcfg w) <= Z.of_nat i ->
     (two = false -> current (ps_ga p) j i = HRS (wcfg w)) /\
     (two = true -> current (ps_ga p) j (2 * i) = HRS (wcfg w) /\ current (ps_ga p) j (2 * i + 1) = HRS (wcfg w))).
Proof.
  intros Hr Hx Hd Hp Hsp Hi Hdim H0 X1 P1 i j Hi1 Hj two.
  destruct (write_loaded _ _ _ _ _ _ Hr Hx Hd Hp Hsp Hdim H0) as (C1 & Hg1 & x2 & p2 & we & X2 & P2 & Ew & Ev & Sh & (Hga & Hwire & Hv) & _).
  assert (x2 = x1) by congruence. subst x2. assert (p2 = p) by congruence. subst p2.
  destruct (sh_par _ _ Sh p P1) as (F1 & F2 & F3). destruct Hdim as [D1 D2].
  assert (Hjc : (j < colsN (wcfg w))%nat) by (unfold colsN; lia).
  unfold rows_of in Hv. rewrite Hi in Hv. change (len (SPLIT (wcfg w))) with (nsplit (wcfg w)) in Hi1.
  assert (Hrow : forall k, (k < wcols we (Z.to_nat m * nsplit (wcfg w)))%nat -> snd (own we j k) = j ->
     fst (own we j k) = i ->
     current (ps_ga p) j k = if (i <? MM (wcfg w))%nat then fdiv (current (if from_p we j k then plus_array (wcfg w) (xm x1) else minus_array (wcfg w) (xm x1)) i j) (fneg (V_read (wcfg w)))
       else HRS (wcfg w)).
  { intros k Hk E1 E2. change (current (ps_ga p) j k) with (at_f (ps_ga p) j k). rewrite (Hv j k Hjc Hk), E1, E2.
    replace (j <? Z.to_nat n)%nat with true by (symmetry; now apply Nat.ltb_lt). unfold conductance. now rewrite F1, Ev. }
  unfold plus_array, minus_array in Hrow. subst two.
  assert (Hdiv : ((2 * i) / 2 = i /\ (2 * i + 1) / 2 = i)%nat).
  { split; [rewrite Nat.mul_comm; now apply Nat.div_mul|]. rewrite Nat.mul_comm, Nat.div_add_l by lia. change (1 / 2)%nat with 0%nat. lia. }
  destruct Hdiv as [Hd1 Hd2]. pose proof (even2 i) as He1. pose proof (even21 i) as He2.
  destruct (m_mode (wcfg w)); try discriminate Hi; cbn in Ew; inversion Ew; subst we; cbn [wcols own fst snd from_p] in Hrow;
  split; intros HM; (split; [intros Ht; try discriminate Ht|intros Ht; try discriminate Ht; split]);
  (rewrite Hrow; [|lia|reflexivity|now auto]); rewrite ?He1, ?He2;
  (replace (i <? MM (wcfg w))%nat with true by (symmetry; apply Nat.ltb_lt; lia)) ||
  (replace (i <? MM (wcfg w))%nat with false by (symmetry; apply Nat.ltb_ge; lia)); reflexivity.
Qed.
End PP.
