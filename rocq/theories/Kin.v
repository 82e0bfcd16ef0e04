(** Crossbars that an MVM cannot tell apart, and what MVMs do to that relation. *)
From Coq Require Import String List ZArith Bool Arith Lia ZifyBool ZifyNat.
From RecordUpdate Require Import RecordSet.
From Verif Require Import Base Lib Hoare Machine Json Config Histogram Adc ReadDisturb Parasitics
  Mapper IntMappers BnnMappers TnnMappers Crossbar Api Shape MvmShape AnaShape ConfigProofs Reach Cells Spec Invar StepFacts Twin KinSpec.
Import ListNotations RecordSetNotations.
Local Open Scope Z_scope.
Local Open Scope out_scope.

Section K.
Context {MC : Machine}.

(** Modes in which [add_c2c] rewrites every cell an MVM reads. *)
Definition rewritten (c : config) : bool := c2c_var c && negb (is_int (m_mode c)).

Record kin (c : config) (mp mq : mapper) : Prop := {
  kn_s1 : shape c mp;
  kn_s2 : shape c mq;
  kn_gp : gd_p mq = gd_p mp;
  kn_gm : gd_m mq = gd_m mp;
  kn_sw : sum_w mq = sum_w mp;
  kn_step : i_step mq = i_step mp;
  kn_imm : i_mm mq = i_mm mp;
  kn_delta : delta mq = delta mp;
  kn_par : par mq = par mp;
  kn_ip0 : ia_p0 mq = ia_p0 mp;
  kn_im0 : ia_m0 mq = ia_m0 mp;
  kn_tf : is_int (m_mode c) = true -> parasitics c = false -> len (tmp_fp mq) = len (tmp_fp mp);
  kn_ia : parasitics c = false -> rewritten c = false -> ia_p mq = ia_p mp /\ ia_m mq = ia_m mp
}.
Lemma kin_refl c mp : shape c mp -> kin c mp mp.
Proof. intros H. constructor; auto. Qed.
Lemma kin_sym c a b : kin c a b -> kin c b a.
Proof. intros []. constructor; auto; intros. { symmetry; auto. } destruct kn_ia0; auto. Qed.
Lemma kin_trans c a b d : kin c a b -> kin c b d -> kin c a d.
Proof.
  intros [] []. constructor; auto; intros; try congruence. { rewrite kn_tf1, kn_tf0; auto. }
  destruct kn_ia0, kn_ia1; auto. split; congruence.
Qed.

Lemma kin_twin c m n a b : kin c a b -> (parasitics c = false ->
   let r := if is_int (m_mode c) then (m * nsplit c)%nat else m in
   agree r n (ia_p a) (ia_p b) /\ agree r n (ia_m a) (ia_m b)) -> twin c m n a b.
Proof.
  intros [] HI. pose proof (sh_mode _ _ kn_s3) as E1. pose proof (sh_mode _ _ kn_s4) as E2.
  constructor; rewrite ?E1; auto; try congruence.
  - now rewrite (sh_shift _ _ kn_s4), (sh_shift _ _ kn_s3).
  - pose proof (sh_adc _ _ kn_s3). pose proof (sh_adc _ _ kn_s4). congruence.
  - now rewrite (sh_vdp _ _ kn_s4), (sh_vdp _ _ kn_s3).
  - intros H. now rewrite (sh_vdm _ _ kn_s4), (sh_vdm _ _ kn_s3).
  - intros H. now rewrite (sh_vds _ _ kn_s4), (sh_vds _ _ kn_s3).
  - intros H. now rewrite (sh_tmp _ _ kn_s4), (sh_tmp _ _ kn_s3).
  - intros H. destruct (sh_tpm _ _ kn_s4 H), (sh_tpm _ _ kn_s3 H). congruence.
  - intros H. destruct (sh_tpm _ _ kn_s4 H), (sh_tpm _ _ kn_s3 H). congruence.
  - intros H. destruct (sh_tlm _ _ kn_s4 H), (sh_tlm _ _ kn_s3 H). congruence.
  - intros H. destruct (sh_tlm _ _ kn_s4 H) as (_ & -> & _), (sh_tlm _ _ kn_s3 H) as (_ & -> & _). auto.
  - intros [[H1 H2]|H]; [auto|]. destruct (sh_tlm _ _ kn_s4 H) as (_ & _ & ->), (sh_tlm _ _ kn_s3 H) as (_ & _ & ->). auto.
  - intros H. now rewrite (sh_rfp _ _ kn_s4 H), (sh_rfp _ _ kn_s3 H).
Qed.

(** ** Cycle-to-cycle noise on two crossbars *)
Notation silent := no_noise.

(** The two runs write the same values if nothing is drawn or the same values are drawn. *)
Definition grown (R C : nat) (V B D : Prop) (done : nat -> nat -> bool) (s t : list (list F) * list (list F) * nat) : Prop :=
  let '(ip, im, k) := s in let '(iq, jm, k') := t in
  wf2 R C ip /\ wf2 R C im /\ wf2 R C iq /\ wf2 R C jm /\ (D -> k = k') /\
  (V -> forall i j, B \/ done i j = true -> at2 f0 ip i j = at2 f0 iq i j /\ at2 f0 im i j = at2 f0 jm i j).
Lemma add_noise_rel full c x g k k' (D : Prop) : (D -> k = k') ->
  rel full (fun a b => (silent c \/ D -> fst a = fst b) /\ (D -> snd a = snd b)) (add_noise c x g k) (add_noise c x g k').
Proof.
  intros HK. unfold add_noise, no_noise.
  destruct (g =? 0); [destruct (fle (HRS_NOISE c) f0) eqn:E|destruct (g =? 1); [destruct (fle (LRS_NOISE c) f0) eqn:E|apply fail_rel]];
    apply rel_ret; cbn [fst snd]; (split; [|intros Hd; now rewrite ?(HK Hd)]); auto;
    (intros [[]|Hd]; [congruence|now rewrite (HK Hd)]).
Qed.
Lemma set2_grow full R C (g h : list (list F)) i j x y : wf2 R C g -> wf2 R C h -> (i < R)%nat -> (j < C)%nat ->
  rel full (fun a b => wf2 R C a /\ wf2 R C b /\ a = upd2 g i j x /\ b = upd2 h i j y) (set2 g i j x) (set2 h i j y).
Proof.
  intros Hg Hh Hi Hj. rewrite (set2_ok R C), (set2_ok R C) by auto. apply rel_ret. auto using wf2_upd2.
Qed.

Definition done_to (n i q a b : nat) : bool := inside i n a b || ((a =? i)%nat && (b <? q)%nat).

Lemma add_c2c_rel full c a b m n e e' (V B D : Prop) : kin c a b -> (D -> draws e = draws e') -> (V -> silent c \/ D) ->
  (B -> ia_p b = ia_p a /\ ia_m b = ia_m a) ->
  rel full (fun '(a', e1) '(b', e2) => exists ip im iq jm k k',
      a' = a <| ia_p := ip |> <| ia_m := im |> /\ b' = b <| ia_p := iq |> <| ia_m := jm |> /\
      e1 = e <| draws := k |> /\ e2 = e' <| draws := k' |> /\ grown (rowsN c) (colsN c) V B D (inside m n) (ip, im, k) (iq, jm, k'))
    (add_c2c c a m n e) (add_c2c c b m n e').
Proof.
  intros HK HD HV HB. unfold add_c2c. rewrite (kn_ip0 _ _ _ HK), (kn_im0 _ _ _ HK), (kn_gp _ _ _ HK), (kn_gm _ _ _ HK).
  pose proof (kn_s1 _ _ _ HK) as S1. pose proof (kn_s2 _ _ _ HK) as S2.
  apply (rel_bind full (grown (rowsN c) (colsN c) V B D (inside m n))).
  - apply (rel_forN full (fun i => grown (rowsN c) (colsN c) V B D (inside i n))).
    { unfold grown. refine (conj (sh_ip _ _ S1) (conj (sh_im _ _ S1) (conj (sh_ip _ _ S2) (conj (sh_im _ _ S2) (conj HD _))))).
      intros _ i j [H|H]; [destruct (HB H) as [-> ->]; auto|unfold inside in H; lia]. }
    intros i s t Hi HI.
    eapply (rel_weak full (grown (rowsN c) (colsN c) V B D (done_to n i n))).
    2: { intros [[ip im] k] [[iq jm] k'] (H1 & H2 & H3 & H4 & H5 & H6). refine (conj H1 (conj H2 (conj H3 (conj H4 (conj H5 _))))).
         intros v x y [H|H]; apply H6; auto. right. unfold done_to, inside in *. lia. }
    apply (rel_forN full (fun q => grown (rowsN c) (colsN c) V B D (done_to n i q))).
    { destruct s as [[ip im] k], t as [[iq jm] k']. destruct HI as (H1 & H2 & H3 & H4 & H5 & H6).
      refine (conj H1 (conj H2 (conj H3 (conj H4 (conj H5 _))))).
      intros v x y [H|H]; apply H6; auto. right. unfold done_to, inside in *. lia. }
    clear s t HI. intros q [[ip im] k] [[iq jm] k'] Hq (H1 & H2 & H3 & H4 & H5 & H6).
    destruct (get2 (ia_p0 a) i q) as [x| | |] eqn:Ex; cbn [bind];
      [|split; [discriminate|reflexivity]|split; [discriminate|reflexivity]|split; [discriminate|reflexivity]].
    destruct (get2_inv f0 _ _ _ _ _ _ (sh_ip0 _ _ S1) Ex) as (Hi' & Hq' & _).
    apply rel_bind_eq; [reflexivity|]. intros g.
    eapply rel_bind; [now apply (add_noise_rel full c x g k k' D)|]. intros [x1 k1] [x2 k2] [HX HK1]. cbn [fst snd] in HX, HK1.
    eapply rel_bind; [eapply set2_grow; eauto|]. intros ip1 iq1 (W1 & W2 & -> & ->).
    apply rel_bind_eq; [reflexivity|]. intros y. apply rel_bind_eq; [reflexivity|]. intros h.
    eapply rel_bind; [now apply (add_noise_rel full c y h k1 k2 D)|]. intros [y1 k3] [y2 k4] [HY HK2]. cbn [fst snd] in HY, HK2.
    eapply rel_bind; [eapply set2_grow; eauto|]. intros im1 jm1 (W3 & W4 & -> & ->).
    apply rel_ret. refine (conj W1 (conj W3 (conj W2 (conj W4 (conj HK2 _))))).
    intros v a1 b1 Hab. rewrite !(at2_upd2 f0 (rowsN c) (colsN c)) by auto.
    destruct ((a1 =? i)%nat && (b1 =? q)%nat) eqn:Eab; [rewrite HX, HY by auto; auto|].
    apply H6; [exact v|]. destruct Hab as [Hab|Hab]; [auto|right]. unfold done_to, inside in *. lia.
  - intros [[ip im] k] [[iq jm] k'] HG. apply rel_ret. exists ip, im, iq, jm, k, k'. auto.
Qed.

(** ** The part of an analog MVM that produces the result *)
Definition front (c : config) (mp : mapper) (res vec mat : list Z) (m n : nat) (l : string) (e : env) :=
  '(mp, e) <- (if c2c_var c then add_c2c c mp m n e else Ok (mp, e)) ;; a_mvm c mp res vec mat m n l e.

Lemma get2_oob {A} R C (g : list (list A)) i j : wf2 R C g -> (R <= i)%nat \/ (C <= j)%nat -> get2 g i j = UB OutOfBounds.
Proof.
  intros Hg Hij. unfold get2. destruct (get g i) as [row| | |] eqn:E.
    - apply (get_inv _ _ _ []) in E. destruct E as [Hi ->]. cbn [bind]. unfold get.
      replace (nth_error (nth i g []) j) with (@None A); [reflexivity|]. symmetry. apply nth_error_None.
      pose proof (proj1 Hg). rewrite (wf2_row R C) by (auto; lia). lia.
    - unfold get in E. destruct (nth_error g i); inversion E. reflexivity.
    - unfold get in E. destruct (nth_error g i); discriminate.
    - unfold get in E. destruct (nth_error g i); discriminate.
Qed.
Lemma at2_agree {A} (d : A) R C r n (g h : list (list A)) : wf2 R C g -> wf2 R C h ->
  (forall i j, (i < r)%nat -> (j < n)%nat -> at2 d g i j = at2 d h i j) -> agree r n g h.
Proof.
  intros Hg Hh H i j Hi Hj.
  destruct (Nat.ltb_spec i R) as [Hr|Hr]; [destruct (Nat.ltb_spec j C) as [Hc|Hc]|].
  - rewrite (get2_ok d R C g), (get2_ok d R C h), H by auto. reflexivity.
  - now rewrite !(get2_oob R C) by auto.
  - now rewrite !(get2_oob R C) by auto.
Qed.

Section Front.
Context (full D : Prop) (E : env -> env -> Prop) (c : config).
Context (HE : forall a l v e e', E e e' ->
  rel full E (if adc_profile c then profile c a l v e else Ok e) (if adc_profile c then profile c a l v e' else Ok e')).
Context (HD : forall e e', E e e' -> D -> draws e = draws e').
Context (Hk : forall e e' k k', E e e' -> (D -> k = k') -> E (e <| draws := k |>) (e' <| draws := k' |>)).
Context (HV : parasitics c = false -> c2c_var c = true -> silent c \/ D).

Lemma front_rel mp mq res vec mat mat' m n l e e' : kin c mp mq -> E e e' ->
  rel full (fun a b => fst (fst a) = fst (fst b) /\ E (snd a) (snd b))
    (front c mp res vec mat m n l e) (front c mq res vec mat' m n l e').
Proof.
  intros HK He. unfold front.
  apply (rel_bind full (fun a b => twin c m n (fst a) (fst b) /\ E (snd a) (snd b))).
  - destruct (c2c_var c) eqn:Ec.
    + eapply rel_weak.
      { apply (add_c2c_rel full c mp mq m n e e' (parasitics c = false) (parasitics c = false /\ rewritten c = false) D); auto.
        intros [H1 H2]. now apply HK. }
      intros [a e1] [b e2] (ip & im & iq & jm & k & k' & -> & -> & -> & -> & H1 & H2 & H3 & H4 & H5 & H6).
      cbn [fst snd]. split; [|auto].
      assert (HK' : twin c m n mp mq \/ True) by auto.
      pose proof (kn_s1 _ _ _ HK) as S1. pose proof (kn_s2 _ _ _ HK) as S2.
      assert (HT : parasitics c = false -> let r := if is_int (m_mode c) then (m * nsplit c)%nat else m in agree r n ip iq /\ agree r n im jm).
      { intros Hp r. unfold rewritten in H6. rewrite Ec in H6. cbn [andb] in H6.
        split; eapply (at2_agree f0); eauto; intros i j Hi Hj; apply H6; auto; unfold r in Hi;
          (destruct (is_int (m_mode c)); [left; auto|right; unfold inside; lia]). }
      pose proof (sh_mode _ _ S1) as M1. pose proof (sh_mode _ _ S2) as M2.
      assert (HQ : kin (c <| parasitics := true |>) mp mq).
      { destruct HK. destruct S1, S2. constructor; auto; try discriminate; constructor; auto. }
      pose proof (kin_twin _ m n _ _ HQ ltac:(discriminate)) as [].
      constructor; auto.
      * cbn. intros Ht. destruct Ht as [[Ha Hb]|Ht]; [rewrite M1 in Ha; now apply (kn_tf _ _ _ HK)|now apply tw_tf; right].
      * cbn. rewrite M1. exact HT.
    + apply rel_ret. cbn [fst snd]. split; [|exact He]. apply kin_twin; auto. intros Hp r.
      destruct (kn_ia _ _ _ HK Hp) as [-> ->]; [unfold rewritten; now rewrite Ec|]. split; intros i j _ _; reflexivity.
  - intros [a e1] [b e2] [HT Hab]. cbn [fst snd] in *. eapply a_mvm_twin; eauto.
Qed.
End Front.

(** ** What an MVM leaves unchanged *)
Lemma facc2_len r n t (arr v : list F) : facc2 r n t arr = Ok v -> len v = len arr.
Proof.
  intros H. exact (proj1 (tri_any _ _) (tri_facc2 anyfail r n t arr (or_introl I) (fun i j _ _ => proj2 (tri_any _ _) (fun _ _ => I))) _ H).
Qed.
Lemma slice_len c mp t v r n (arr w : list F) : parasitics c = false -> slice_currents c mp t v r n arr = Ok w -> len w = len arr.
Proof. intros Hp H. unfold slice_currents in H. rewrite Hp in H. now apply facc2_len in H. Qed.
Lemma bit_loop_len c mp l vd m n bits neg r t v r' t' v' : parasitics c = false ->
  bit_loop c mp l vd m n bits neg (r, t, v) = Ok (r', t', v') -> len t' = len t.
Proof.
  intros Hp H. unfold bit_loop in H.
  refine (forN_Ok (fun _ (s : list Z * list F * list Z) => len (snd (fst s)) = len t) _ _ _ _ H eq_refl _).
  intros k [[ra ta] va] [[rb tb] vb] _ HI Hb. inv_as Hb vs V. inv_as Hb t1 T. inv_as Hb r1 R. inversion Hb; subst.
  cbn in *. rewrite fill_length, (slice_len _ _ _ _ _ _ _ _ Hp T). exact HI.
Qed.
Lemma int_tmp_len c mp res vec mat m n l e r mp' e' : is_int (mp_mode mp) = true -> parasitics c = false ->
  a_mvm c mp res vec mat m n l e = Ok (r, mp', e') -> len (tmp_fp mp') = len (tmp_fp mp).
Proof.
  intros Hi Hp H. unfold a_mvm in H.
  destruct (mp_mode mp); try discriminate Hi; inv_as H t T; destruct t as [r1 mp1]; inversion H; subst r1 mp1 e'; clear H.
  1-2: unfold int_i_a in T; inv_as T v V; destruct v; inv_as T a A; destruct a as [[ra ta] va]; inv_as T b B;
    destruct b as [[rb tb] vb]; inversion T; subst; cbn;
    rewrite (bit_loop_len _ _ _ _ _ _ _ _ _ _ _ _ _ _ Hp B), (bit_loop_len _ _ _ _ _ _ _ _ _ _ _ _ _ _ Hp A); apply fill_length.
  - unfold int_ii_a in T. cbv zeta in T. inv_as T v V. inv_as T a A. destruct a as [[ra ta] va]. inv_as T b B. inversion T; subst. cbn.
    rewrite (bit_loop_len _ _ _ _ _ _ _ _ _ _ _ _ _ _ Hp A). apply fill_length.
  - unfold int_iii_a in T. cbv zeta in T. inv_as T v V. inv_as T a A. destruct a as [[ra ta] va]. inv_as T b B. inv_as T d Dd. inv_as T d2 Dd2. inversion T; subst. cbn.
    rewrite (slice_len _ _ _ _ _ _ _ _ Hp Dd), (bit_loop_len _ _ _ _ _ _ _ _ _ _ _ _ _ _ Hp A). apply fill_length.
  - unfold int_iv_a in T. inv_as T v V. inv_as T a A. destruct a as [[ra ta] va]. inversion T; subst. cbn.
    rewrite (bit_loop_len _ _ _ _ _ _ _ _ _ _ _ _ _ _ Hp A). apply fill_length.
  - unfold int_v_a in T. cbv zeta in T. inv_as T v V. inv_as T is IS. inv_as T a A. destruct a as [[ra ta] va]. inv_as T b B. destruct b. inversion T; subst. cbn.
    refine (forN_Ok (fun _ (s : list F * list F * list Z) => len (snd (fst s)) = len (tmp_fp mp)) _ _ _ _ A (fill_length _ _) _).
    clear - Hp. intros k [[rb tb] vb] [[rc tc] vc] _ HI Hb. inv_as Hb vs V. inv_as Hb t1 T. inv_as Hb r1 R. inversion Hb; subst.
    cbn in *. rewrite fill_length, (slice_len _ _ _ _ _ _ _ _ Hp T). exact HI.
Qed.

(** No software refresh, and the cells an MVM reads are rewritten, unread or untouched. *)
Definition lasting (c : config) : Prop :=
  (read_disturb c = true -> mitigation c <> SOFTWARE) /\
  (parasitics c = true \/ rewritten c = true \/ (read_disturb c = false /\ c2c_var c = false)).

Lemma rd_step_ia c x m n e x' e' : shape c (xm x) -> (forall r, xrd x = Some r -> rdshape c r) -> mitigation c <> SOFTWARE ->
  rd_step c x m n e = Ok (x', e') -> exists ip im, xm x' = xm x <| ia_p := ip |> <| ia_m := im |>.
Proof.
  intros Hs Hr Hm H.
  assert (HX : exists ip im, xm x = xm x <| ia_p := ip |> <| ia_m := im |>).
  { exists (ia_p (xm x)), (ia_m (xm x)). now destruct (xm x). }
  destruct (mitigation c) eqn:Em; try congruence.
  - apply rd_step_cell in H; [|exact Em]. destruct H as (r & r1 & X & U & _ & H). destruct (_ =? 0).
    + destruct H as (mp1 & r2 & mp2 & r3 & cnt & U1 & U2 & ->). cbn.
      assert (R1 : rdshape c r1).
      { refine (proj1 (tri_any _ _) (tri_update_consecutive anyfail c m n r (Hr _ X) (or_introl (fun _ => I))) _ U). }
      destruct (rd_update_cells _ _ _ _ _ _ _ Hs R1 U1) as ((ip & im & ->) & S1 & (b & ->) & _).
      assert (R2 : rdshape c (r1 <| rd_oob := b |>)) by (destruct R1; constructor; auto).
      destruct (cell_refresh_cells _ _ _ _ _ _ _ _ S1 R2 U2) as ((ip' & im' & ->) & _). exists ip', im'. now destruct (xm x).
    + destruct H as [-> _]. exact HX.
  - apply rd_step_off in H; [|exact Em]. destruct H as (_ & _ & H). destruct (_ =? 0); [|subst; exact HX].
    destruct H as (r & mp' & r' & X & U & ->). destruct (rd_update_cells _ _ _ _ _ _ _ Hs (Hr _ X) U) as ((ip & im & ->) & _). exists ip, im. reflexivity.
Qed.

Lemma mvm_kin c x res vec mat m n l e r x' e' : cfg_wf c -> xok c x -> xok c x' -> digital_only c = false -> lasting c ->
  (is_int (m_mode c) = true -> read_disturb c = false) ->
  xmvm c x res vec mat m n l e = Ok (r, x', e') -> kin c (xm x) (xm x').
Proof.
  intros Hw Hx Hx' Hd [HL1 HL2] Hri H. unfold xmvm in H. rewrite Hd in H. cbv zeta in H.
  pose proof (xo_shape _ _ Hx) as Hs.
  inv_as H t T. destruct t as [mp1 e1]. change (xm (x <| n_mvm := n_mvm x + 1 |> <| n_read := n_read x + 1 |>)) with (xm x) in T.
  inv_as H u U. destruct u as [[r1 mp2] e2]. inv_as H mp3 W. inv_as H q Qq. destruct q as [x2 e3]. inversion H; subst r1 x2 e3; clear H.
  assert (A1 : shape c mp1 /\ exists ip im, mp1 = xm x <| ia_p := ip |> <| ia_m := im |>).
  { destruct (c2c_var c).
    - split; [apply (proj1 (tri_any _ _) (add_c2c_tri anyfail harmless_any c (xm x) m n e Hs (or_introl (fun _ => I))) _ T)|].
      apply (add_c2c_cells c (xm x) m n e mp1 e1 Hs T).
    - inversion T; subst. split; [exact Hs|]. exists (ia_p (xm x)), (ia_m (xm x)). now destruct (xm x). }
  destruct A1 as (S1 & ip & im & E1).
  pose proof (proj1 (tri_any _ _) (a_mvm_tri anyfail harmless_any c mp1 res vec mat m n l e1 S1 (or_introl (fun _ => I))) _ U) as (S2 & K & _).
  assert (A3 : shape c mp3 /\ exists ip im, mp3 = mp2 <| ia_p := ip |> <| ia_m := im |>).
  { destruct (c2c_var c).
    - split; [apply (proj1 (tri_any _ _) (remove_c2c_tri anyfail c mp2 m n S2 (or_introl (fun _ => I))) _ W)|].
      apply (remove_c2c_cells c mp2 m n mp3 S2 W).
    - inversion W; subst. split; [exact S2|]. exists (ia_p mp3), (ia_m mp3). now destruct mp3. }
  destruct A3 as (S3 & ip3 & im3 & E3).
  assert (A4 : exists ip im, xm x' = mp3 <| ia_p := ip |> <| ia_m := im |>).
  { destruct (read_disturb c) eqn:Er.
    - exact (rd_step_ia c (x <| n_mvm := n_mvm x + 1 |> <| n_read := n_read x + 1 |> <| xm := mp3 |>) m n e2 x' e' S3 (xo_rd _ _ Hx) (HL1 eq_refl) Qq).
    - injection Qq as <- <-. exists (ia_p mp3), (ia_m mp3). cbn. now destruct mp3. }
  destruct A4 as (ip4 & im4 & E4). pose proof (xo_shape _ _ Hx') as Hs'.
  destruct K. subst mp1 mp3. cbn in *.
  constructor; auto; rewrite ?E4; cbn; auto.
  - intros Hi Hp. destruct HL2 as [HL2|[HL2|[HL2 HL3]]]; [congruence|unfold rewritten in HL2; rewrite Hi in HL2; cbn in HL2; lia|].
    apply int_tmp_len in U; auto. cbn. now rewrite (sh_mode _ _ Hs).
  - intros Hp Hr. destruct HL2 as [HL2|[HL2|[HL2 HL3]]]; [congruence|congruence|].
    rewrite HL2 in Qq. rewrite HL3 in T, W.
    assert (P1 : forall (f : mapper -> list (list F)), f (xm x) = f (xm x <| ia_p := ip |> <| ia_m := im |>)) by (intros f; congruence).
    assert (P2 : forall (f : mapper -> list (list F)), f mp2 = f (mp2 <| ia_p := ip3 |> <| ia_m := im3 |>)) by (intros f; congruence).
    injection Qq as Q1 _. rewrite <- Q1 in E4. cbn in E4.
    assert (P3 : forall (f : mapper -> list (list F)), f (mp2 <| ia_p := ip3 |> <| ia_m := im3 |>) = f (mp2 <| ia_p := ip3 |> <| ia_m := im3 |> <| ia_p := ip4 |> <| ia_m := im4 |>))
      by (intros f; congruence).
    pose proof (P1 ia_p). pose proof (P2 ia_p). pose proof (P3 ia_p).
    pose proof (P1 ia_m). pose proof (P2 ia_m). pose proof (P3 ia_m). cbn in *. split; congruence.
Qed.
End K.
