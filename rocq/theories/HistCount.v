(** How many converter inputs an MVM records: C72. *)
From Coq Require Import String List ZArith Bool Arith Lia ZifyBool ZifyNat.
From RecordUpdate Require Import RecordSet.
From Verif Require Import Base Lib Machine Json Config Histogram Adc ReadDisturb Parasitics
  Mapper IntMappers BnnMappers TnnMappers Crossbar Api RSpec Spec HistSpec ConfigProofs Shape AnaShape Reach DigApi HistProps.
Import ListNotations RecordSetNotations.
Ltac Zify.zify_post_hook ::= idtac.
Local Open Scope Z_scope.
Local Open Scope out_scope.

Section Count.
Context {MC : Machine}.
Notation len := List.length.

(** [k] samples more for layer [l], nothing else. *)
Definition grew (k : Z) (l : string) (h h' : hists) : Prop :=
  recorded (lookup l h') = recorded (lookup l h) + k /\
  forall l', l' <> l -> lookup l' h' = lookup l' h.

Definition adds {A} (k : Z) (l : string) (e : env) (x : out (A * env)) : Prop :=
  forall r e', x = Ok (r, e') -> grew k l (histo e) (histo e').

Lemma grew_refl l h : grew 0 l h h.
Proof. split; [lia|auto]. Qed.
Lemma grew_trans a b l h1 h2 h3 : grew a l h1 h2 -> grew b l h2 h3 -> grew (a + b) l h1 h3.
Proof. intros [A1 A2] [B1 B2]. split; [lia|]. intros l' N. rewrite B2, A2; auto. Qed.

Lemma ad_bind {A B} k l e (x : out A) (f : A -> out (B * env)) :
  (forall a, adds k l e (f a)) -> adds k l e (bind x f).
Proof. intros H r e' E. apply bind_Ok in E. destruct E as (a & _ & E). exact (H a _ _ E). Qed.
Lemma ad_bind2 {A B} a b l e (x : out (A * env)) (f : A * env -> out (B * env)) :
  adds a l e x -> (forall r e1, adds b l e1 (f (r, e1))) -> adds (a + b) l e (bind x f).
Proof.
  intros Hx Hf r e' E. apply bind_Ok in E. destruct E as ([r1 e1] & E1 & E).
  eapply grew_trans; [exact (Hx _ _ E1)|exact (Hf _ _ _ _ E)].
Qed.
Lemma ad_ok {A} l (r : A) e : adds 0 l e (Ok (r, e)).
Proof. intros r' e' E. inversion E; subst. apply grew_refl. Qed.

(** What one vector conversion of [m] values adds. *)
Definition per (c : config) (m : nat) : Z := if adc_profile c then Z.of_nat m else 0.

Lemma ad_vec c a l m arr sc o e : adds (per c m) l e (adc_vec c a l m arr sc o e).
Proof.
  intros r e' E. unfold adc_vec in E. destruct (Nat.ltb_spec (len arr) m) as [|Hl]; [discriminate|].
  inv_as E e1 E1. inv_as E v E2. inversion E; subst. unfold per. destruct (adc_profile c).
  - apply conserves in E1. destruct E1 as (S1 & S2 & _). split; [|exact S2].
    rewrite firstn_length_le in S1 by exact Hl. exact S1.
  - inversion E1; subst. apply grew_refl.
Qed.
Lemma ad_slice c mp v m n l k sub t res e : adds (per c m) l e (tnn_slice c mp v m n l k sub t res e).
Proof.
  unfold tnn_slice. apply ad_bind; intros t1. apply ad_bind; intros sc.
  replace (per c m) with (per c m + 0) by lia. apply ad_bind2; [apply ad_vec|]. intros t2 e1.
  apply ad_bind; intros r1. apply ad_ok.
Qed.
Lemma ad_pass c mp ia v m n l k o sub t fp e : adds (per c m) l e (tc_pass c mp ia v m n l k o sub t fp e).
Proof.
  unfold tc_pass. apply ad_bind; intros t1. apply ad_bind; intros sc.
  replace (per c m) with (per c m + 0) by lia. apply ad_bind2; [apply ad_vec|]. intros t2 e1.
  apply ad_bind; intros r1. apply ad_ok.
Qed.
Lemma ad_pass_par c mp v m n l o s1 s2 lsb msb fp e :
  adds (per c m + per c m) l e (tc_pass_par c mp v m n l o s1 s2 lsb msb fp e).
Proof.
  unfold tc_pass_par. apply ad_bind; intros t1. apply ad_bind; intros [a b]. apply ad_bind; intros sc.
  apply ad_bind2; [apply ad_vec|]. intros t2 e1. apply ad_bind; intros sc2.
  replace (per c m) with (per c m + 0) by lia. apply ad_bind2; [apply ad_vec|]. intros t3 e2.
  apply ad_bind; intros r1. apply ad_ok.
Qed.

Ltac one := replace (per _ _) with (per _ _ + 0) at 1 by lia.
Lemma ad_mvm c mp res vec mat m n l e :
  adds (passes (mp_mode mp) * per c m) l e (a_mvm c mp res vec mat m n l e).
Proof.
  assert (P : forall x : out (list Z * mapper), adds 0 l e ('(r, mp') <- x ;; Ok (r, mp', e))).
  { intros x. apply ad_bind. intros [r mp']. apply ad_ok. }
  assert (One : forall x (f : list F * env -> out (list Z * mapper * env)),
    adds (per c m) l e x -> (forall r e1, adds 0 l e1 (f (r, e1))) -> adds (1 * per c m) l e (bind x f)).
  { intros x f Hx Hf. replace (1 * per c m) with (per c m + 0) by lia. now apply ad_bind2. }
  unfold a_mvm. cbv zeta. destruct (mp_mode mp); cbn [passes].
  1-6: apply P.
  - unfold bnn_i_a. apply ad_bind; intros vd. apply ad_bind; intros t. apply ad_bind; intros sc.
    apply One; [apply ad_vec|]. intros t2 e1. apply ad_bind; intros r1. apply ad_ok.
  - unfold bnn_ii_a. apply ad_bind; intros vd. apply ad_bind; intros t. apply ad_bind; intros sc.
    apply One; [apply ad_vec|]. intros t2 e1. apply ad_bind; intros r1. apply ad_ok.
  - unfold bnn_iii_iv_a. apply ad_bind; intros [[vp vm] sm]. apply ad_bind; intros tp. apply ad_bind; intros tm.
    apply ad_bind; intros sc. apply ad_bind; intros ns. replace (2 * per c m) with (per c m + (per c m + 0)) by lia.
    apply ad_bind2; [apply ad_vec|]. intros t2 e1. apply ad_bind2; [apply ad_vec|]. intros t3 e2.
    apply ad_bind; intros r1. apply ad_ok.
  - unfold bnn_iii_iv_a. apply ad_bind; intros [[vp vm] sm]. apply ad_bind; intros tp. apply ad_bind; intros tm.
    apply ad_bind; intros sc. apply ad_bind; intros ns. replace (2 * per c m) with (per c m + (per c m + 0)) by lia.
    apply ad_bind2; [apply ad_vec|]. intros t2 e1. apply ad_bind2; [apply ad_vec|]. intros t3 e2.
    apply ad_bind; intros r1. apply ad_ok.
  - unfold bnn_v_a. apply ad_bind; intros [vp vm]. apply ad_bind; intros t. apply ad_bind; intros sc.
    apply One; [apply ad_vec|]. intros t2 e1. apply ad_bind; intros r1. apply ad_ok.
  - unfold quad_a. apply ad_bind; intros [vp vm]. apply ad_bind; intros t. apply ad_bind; intros sc.
    apply One; [apply ad_vec|]. intros t2 e1. apply ad_bind; intros r1. apply ad_ok.
  - unfold quad_a. apply ad_bind; intros [vp vm]. apply ad_bind; intros t. apply ad_bind; intros sc.
    apply One; [apply ad_vec|]. intros t2 e1. apply ad_bind; intros r1. apply ad_ok.
  - unfold tnn_ii_a. apply ad_bind; intros v0. replace (2 * per c m) with (per c m + (per c m + 0)) by lia.
    apply ad_bind2; [apply ad_slice|]. intros [r1 t1] e1. apply ad_bind; intros v1.
    apply ad_bind2; [apply ad_slice|]. intros [r2 t2] e2. apply ad_ok.
  - unfold tnn_iii_a. apply ad_bind; intros v0. replace (2 * per c m) with (per c m + (per c m + 0)) by lia.
    apply ad_bind2; [apply ad_slice|]. intros [r1 t1] e1. apply ad_bind; intros v1.
    apply ad_bind2; [apply ad_slice|]. intros [r2 t2] e2. apply ad_bind; intros r3. apply ad_ok.
  - unfold tnn_tc_a. destruct (split11 _); [|intros r e' H; discriminate]. cbv zeta.
    apply ad_bind; intros isum. apply ad_bind; intros [vp vm]. apply ad_bind; intros i3.
    replace (4 * per c m) with (4 * per c m + 0) by lia. apply ad_bind2.
    + destruct (parasitics c).
      * replace (4 * per c m) with ((per c m + per c m) + (per c m + per c m)) by lia.
        apply ad_bind2; [apply ad_pass_par|]. intros [[[? ?] ?] ?] e1. apply ad_pass_par.
      * replace (4 * per c m) with (per c m + (per c m + (per c m + (per c m + 0)))) by lia.
        apply ad_bind2; [apply ad_pass|]. intros [? ?] e1. apply ad_bind2; [apply ad_pass|]. intros [? ?] e2.
        apply ad_bind2; [apply ad_pass|]. intros [? ?] e3. apply ad_bind2; [apply ad_pass|]. intros [? ?] e4.
        apply ad_ok.
    + intros [[[? ?] ?] ?] e1. apply ad_bind; intros r1. apply ad_ok.
  - unfold tnn_tc_a. destruct (split11 _); [|intros r e' H; discriminate]. cbv zeta.
    apply ad_bind; intros isum. apply ad_bind; intros [vp vm]. apply ad_bind; intros i3.
    replace (4 * per c m) with (4 * per c m + 0) by lia. apply ad_bind2.
    + destruct (parasitics c).
      * replace (4 * per c m) with ((per c m + per c m) + (per c m + per c m)) by lia.
        apply ad_bind2; [apply ad_pass_par|]. intros [[[? ?] ?] ?] e1. apply ad_pass_par.
      * replace (4 * per c m) with (per c m + (per c m + (per c m + (per c m + 0)))) by lia.
        apply ad_bind2; [apply ad_pass|]. intros [? ?] e1. apply ad_bind2; [apply ad_pass|]. intros [? ?] e2.
        apply ad_bind2; [apply ad_pass|]. intros [? ?] e3. apply ad_bind2; [apply ad_pass|]. intros [? ?] e4.
        apply ad_ok.
    + intros [[[? ?] ?] ?] e1. apply ad_bind; intros r1. apply ad_ok.
Qed.

Lemma bd_keeps {A} (g : env -> out (A * env)) e a e' : by_draws g -> g e = Ok (a, e') -> histo e' = histo e.
Proof.
  intros H E. specialize (H e e eq_refl). rewrite E in H. cbn in H. tauto.
Qed.
Lemma add_c2c_mode c mp m n e mp' e' : add_c2c c mp m n e = Ok (mp', e') -> mp_mode mp' = mp_mode mp.
Proof.
  unfold add_c2c. intros H. inv_as H q E. destruct q as [[ip im] k]. inversion H; subst. reflexivity.
Qed.

Lemma xmvm_adds c x res vec mat m n l e r x' e' :
  xmvm c x res vec mat m n l e = Ok (r, x', e') ->
  grew (if digital_only c then 0 else passes (mp_mode (xm x)) * per c m) l (histo e) (histo e').
Proof.
  intros H. unfold xmvm in H. destruct (digital_only c).
  - inv_as H q E. destruct q as [r1 mp1]. inversion H; subst. apply grew_refl.
  - inv_as H q1 H1. destruct q1 as [mp1 e1]. inv_as H q2 H2. destruct q2 as [[r1 mp2] e2].
    inv_as H mp3 H3. inv_as H q4 H4. destruct q4 as [x4 e4]. inversion H; subst. clear H.
    assert (A : histo e1 = histo e /\ mp_mode mp1 = mp_mode (xm x)).
    { destruct (c2c_var c).
      - split; [eapply (bd_keeps (add_c2c c _ m n)); [apply bd_add_c2c|exact H1]|now apply add_c2c_mode in H1].
      - inversion H1; subst. auto. }
    assert (B : histo e' = histo e2).
    { destruct (read_disturb c).
      - eapply (bd_keeps (rd_step c _ m n)); [apply bd_rd_step|exact H4].
      - inversion H4; subst. auto. }
    destruct A as [A1 A2]. rewrite B, <- A1, <- A2. exact (ad_mvm _ _ _ _ _ _ _ _ _ _ _ H2).
Qed.

Lemma records (w : world) res vec mat m n l w' r :
  reach w -> step w (ExeMvm res vec mat m n l) = Ok (w', RRes 0 r) ->
  let c := wcfg w in
  let k := if adc_profile c && negb (digital_only c) then passes (m_mode c) * m else 0 in
  recorded (lookup l (histo (wenv w'))) = recorded (lookup l (histo (wenv w))) + k /\
  (forall l', l' <> l -> lookup l' (histo (wenv w')) = lookup l' (histo (wenv w))).
Proof.
  intros Hr H c k. cbn [step] in H. unfold exe_mvm in H. destruct (wx w) as [x|] eqn:Ex; [|discriminate].
  destruct (too_big (wcfg w) m n); [discriminate|]. inv_as H d Hd. destruct d as [m' n'].
  inv_as H q Hq. destruct q as [[r1 x1] e1]. inversion H; subst. clear H.
  apply xmvm_adds in Hq.
  assert (Dm : Z.of_nat m' = m).
  { unfold dims in Hd. destruct ((m <? 0) || (n <? 0)) eqn:Hn; [discriminate|]. inversion Hd; subst. lia. }
  destruct (g_x w (reach_good w Hr) x Ex) as [].
  change (grew k l (histo (wenv w)) (histo e1)). replace k with
    (if digital_only (wcfg w) then 0 else passes (mp_mode (xm x)) * per (wcfg w) m'); [exact Hq|].
  subst k. unfold per. fold c. rewrite (sh_mode _ _ xo_shape). fold c.
  destruct (digital_only c), (adc_profile c); cbn [andb negb]; try lia. 
Qed.

(** Calls other than MVMs keep all histograms. *)
Definition is_mvm (a : call) : bool :=
  match a with ExeMvm _ _ _ _ _ _ | PyMvm _ _ _ _ _ => true | _ => false end.

Lemma xwrite_keeps c x mat m n e x' e' : xwrite c x mat m n e = Ok (x', e') -> histo e' = histo e.
Proof.
  unfold xwrite. cbv zeta. intros H. inv_as H x1 H1. destruct (digital_only c); [inversion H; subst; reflexivity|].
  inv_as H q H2. destruct q as [mp' e1]. inversion H; subst.
  eapply (bd_keeps (a_write c _ m n)); [apply bd_a_write|exact H2].
Qed.
Lemma replace_keeps w r w' r' : replace_xbar w r = Ok (w', r') -> wenv w' = wenv w.
Proof.
  unfold replace_xbar. destruct (xbar_new _); try discriminate; intros H.
  - inv_as H t E. inversion H; subst. reflexivity.
  - inversion H; subst. reflexivity.
Qed.
Lemma only_mvms (w : world) a w' r : is_mvm a = false -> step w a = Ok (w', r) -> histo (wenv w') = histo (wenv w).
Proof.
  intros Ha H. destruct a; try discriminate Ha; cbn [step] in H.
  - unfold set_config in H. inv_as H t E. destruct s.
    + apply replace_keeps in H. rewrite H. reflexivity.
    + discriminate.
    + inversion H; subst. reflexivity.
    + inv_as H c Ec. apply replace_keeps in H. rewrite H. reflexivity.
  - unfold update_config in H. destruct (wx w); [|inversion H; subst; reflexivity].
    destruct u; try discriminate; [inversion H; subst; reflexivity|].
    inv_as H q Eq. destruct q as [[[j1 c1] u1] b1]. destruct (u1 && b1).
    + apply replace_keeps in H. rewrite H. reflexivity.
    + inversion H; subst. reflexivity.
  - unfold cpy_mtrx in H. destruct (wx w); [|inversion H; subst; reflexivity].
    destruct (too_big _ _ _); [inversion H; subst; reflexivity|]. inv_as H d Hd. destruct d as [m' n'].
    inv_as H q Hq. destruct q as [x1 e1]. inversion H; subst. now apply xwrite_keeps in Hq.
  - inv_as H x Ex. inv_as H g Eg. inversion H; subst. reflexivity.
  - inv_as H x Ex. inversion H; subst. reflexivity.
  - inv_as H x Ex. inversion H; subst. reflexivity.
  - inv_as H x Ex. inv_as H rd Er. inversion H; subst. reflexivity.
  - inversion H; subst. reflexivity.
Qed.

(** ** Ranges *)

(** Existing histograms keep their range and bins and lose no samples. *)
Definition outlives (h h' : hists) : Prop :=
  forall l g, lookup l h = Some g -> exists g', lookup l h' = Some g' /\
    h_min g' = h_min g /\ h_max g' = h_max g /\ h_bin g' = h_bin g /\ h_vals g' = h_vals g /\
    len (h_data g') = len (h_data g) /\ total (h_data g) <= total (h_data g').
Lemma ol_refl h : outlives h h.
Proof. intros l g H. exists g. repeat split; auto; lia. Qed.
Lemma ol_trans h1 h2 h3 : outlives h1 h2 -> outlives h2 h3 -> outlives h1 h3.
Proof.
  intros A B l g G. destruct (A l g G) as (g2 & G2 & ? & ? & ? & ? & ? & ?).
  destruct (B l g2 G2) as (g3 & G3 & ? & ? & ? & ? & ? & ?).
  exists g3. repeat split; try congruence; lia.
Qed.
Lemma profile_ol c a l vs e e' : profile c a l vs e = Ok e' -> outlives (histo e) (histo e').
Proof.
  intros H. unfold profile in H. inv_as H h Hh. inv_as H h' Hu. inversion H; subst. clear H.
  change (histo (e <| histo := _ |>)) with (hput (histo e) l h').
  intros l' g Hg. rewrite <- assoc_lookup' in *. rewrite assoc_hput. destruct (String.eqb l' l) eqn:E.
  - apply String.eqb_eq in E. subst l'. rewrite Hg in Hh. inversion Hh; subst. exists h'.
    apply hist_update_total in Hu. destruct Hu as (? & ? & ? & ? & ? & ?). repeat split; auto. lia.
  - exists g. repeat split; auto. lia.
Qed.

Definition keeps {A} (e : env) (x : out (A * env)) : Prop := forall r e', x = Ok (r, e') -> outlives (histo e) (histo e').
Lemma kp_bind {A B} e (x : out A) (f : A -> out (B * env)) : (forall a, keeps e (f a)) -> keeps e (bind x f).
Proof. intros H r e' E. inv_as E a Ea. exact (H a _ _ E). Qed.
Lemma kp_bind2 {A B} e (x : out (A * env)) (f : A * env -> out (B * env)) :
  keeps e x -> (forall r e1, keeps e1 (f (r, e1))) -> keeps e (bind x f).
Proof. intros Hx Hf r e' E. inv_as E q Eq. destruct q as [r1 e1]. eapply ol_trans; [exact (Hx _ _ Eq)|exact (Hf _ _ _ _ E)]. Qed.
Lemma kp_ok {A} (r : A) e : keeps e (Ok (r, e)).
Proof. intros r' e' E. inversion E; subst. apply ol_refl. Qed.
Lemma kp_vec c a l m arr sc o e : keeps e (adc_vec c a l m arr sc o e).
Proof.
  intros r e' E. unfold adc_vec in E. destruct (len arr <? m)%nat; [discriminate|].
  inv_as E e1 E1. inv_as E v E2. inversion E; subst. destruct (adc_profile c).
  - now apply profile_ol in E1.
  - inversion E1; subst. apply ol_refl.
Qed.
Ltac kp := repeat (cbv zeta; match goal with
  | |- keeps _ (adc_vec _ _ _ _ _ _ _ _) => apply kp_vec
  | |- keeps _ (Ok _) => apply kp_ok
  | |- keeps _ Died => intros ? ? K; discriminate K
  | |- keeps _ (if ?b then _ else _) => destruct b
  | |- keeps _ (bind (adc_vec _ _ _ _ _ _ _ _) _) => apply kp_bind2; [apply kp_vec|intros ? ?]
  | |- keeps _ (bind (tnn_slice _ _ _ _ _ _ _ _ _ _ _) _) => apply kp_bind2; [unfold tnn_slice|intros [? ?] ?]
  | |- keeps _ (bind (tc_pass _ _ _ _ _ _ _ _ _ _ _ _ _) _) => apply kp_bind2; [unfold tc_pass|intros [? ?] ?]
  | |- keeps _ (bind (tc_pass_par _ _ _ _ _ _ _ _ _ _ _ _ _) _) => apply kp_bind2; [unfold tc_pass_par|intros [[[? ?] ?] ?] ?]
  | |- keeps _ (tc_pass_par _ _ _ _ _ _ _ _ _ _ _ _ _) => unfold tc_pass_par
  | |- keeps _ (bind (if parasitics _ then _ else _) _) => apply kp_bind2; [|intros [[[? ?] ?] ?] ?]
  | |- keeps _ (bind (two_rail_sum _ _ _ _) _) => apply kp_bind; intros [[? ?] ?]
  | |- keeps _ (bind _ (fun a => let (_, _) := a in _)) => apply kp_bind; intros [? ?]
  | |- keeps _ (bind _ _) => apply kp_bind; intros ?
  end).
Lemma kp_mvm c mp res vec mat m n l e : keeps e (a_mvm c mp res vec mat m n l e).
Proof.
  unfold a_mvm, bnn_i_a, bnn_ii_a, bnn_iii_iv_a, bnn_v_a, quad_a, tnn_ii_a, tnn_iii_a, tnn_tc_a.
  destruct (mp_mode mp); kp.
Qed.
Lemma xmvm_keeps c x res vec mat m n l e r x' e' :
  xmvm c x res vec mat m n l e = Ok (r, x', e') -> outlives (histo e) (histo e').
Proof.
  intros H. unfold xmvm in H. destruct (digital_only c).
  - inv_as H q E. destruct q as [r1 mp1]. inversion H; subst. apply ol_refl.
  - inv_as H q1 H1. destruct q1 as [mp1 e1]. inv_as H q2 H2. destruct q2 as [[r1 mp2] e2].
    inv_as H mp3 H3. inv_as H q4 H4. destruct q4 as [x4 e4]. inversion H; subst. clear H.
    assert (A : histo e1 = histo e).
    { destruct (c2c_var c).
      - eapply (bd_keeps (add_c2c c _ m n)); [apply bd_add_c2c|exact H1].
      - inversion H1; subst. auto. }
    assert (B : histo e' = histo e2).
    { destruct (read_disturb c).
      - eapply (bd_keeps (rd_step c _ m n)); [apply bd_rd_step|exact H4].
      - inversion H4; subst. auto. }
    rewrite B, <- A. exact (kp_mvm _ _ _ _ _ _ _ _ _ _ _ H2).
Qed.
Lemma step_keeps (w : world) a w' r : step w a = Ok (w', r) -> outlives (histo (wenv w)) (histo (wenv w')).
Proof.
  intros H. destruct (is_mvm a) eqn:E; [|rewrite (only_mvms _ _ _ _ E H); apply ol_refl].
  destruct a; try discriminate E; cbn [step] in H.
  - unfold exe_mvm in H. destruct (wx w) as [x|]; [|inversion H; subst; apply ol_refl].
    destruct (too_big _ _ _); [inversion H; subst; apply ol_refl|]. inv_as H d Hd. destruct d as [m' n'].
    inv_as H q Hq. destruct q as [[r1 x1] e1]. inversion H; subst. now apply xmvm_keeps in Hq.
  - unfold py_mvm in H. inv_as H x Hx. inv_as H d Hd. destruct d as [m' n'].
    inv_as H q Hq. destruct q as [[r1 x1] e1]. inversion H; subst. now apply xmvm_keeps in Hq.
Qed.
Lemma range_kept : forall h (w w' : world) rs, run w h = Ok (w', rs) ->
  forall l g, lookup l (histo (wenv w)) = Some g -> exists g', lookup l (histo (wenv w')) = Some g' /\
    h_min g' = h_min g /\ h_max g' = h_max g /\ h_bin g' = h_bin g /\ h_vals g' = h_vals g /\
    len (h_data g') = len (h_data g) /\ total (h_data g) <= total (h_data g').
Proof.
  induction h as [|a h IH]; intros w w' rs H; cbn [run] in H.
  - inversion H; subst. apply ol_refl.
  - inv_as H q Hq. destruct q as [w1 r1]. inv_as H q2 Hq2. destruct q2 as [w2 rs2]. inversion H; subst.
    exact (ol_trans _ _ _ (step_keeps _ _ _ _ Hq) (IH _ _ _ Hq2)).
Qed.
Lemma only_mvms_b (w : world) a w' r : match a with ExeMvm _ _ _ _ _ _ | PyMvm _ _ _ _ _ => false | _ => true end = true ->
  step w a = Ok (w', r) -> histo (wenv w') = histo (wenv w).
Proof. intros H. apply only_mvms. now destruct a. Qed.
End Count.
